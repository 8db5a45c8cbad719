(** Property C75: exactly when fetch, show and the remaining commands succeed, and what fetch makes. *)
From Verif Require Import Base BaseFacts Key Keyish Cbor Object Path World WorldFacts Store File Filter Dir Diff Commit Main SpecStore SpecRun SpecProc SpecCmd SpecFile SpecDir SpecClosure
  SpecDiff SpecPatch SpecShow SpecOut SpecText SpecShape SpecLive SpecCheckout SpecFetch OutFacts LiveRead Checks Toy ToyRepo PropsMain PropsShow PropsCmd PropsShape.

(** ** C75 *)
(** If nothing fails, [fetch] of a file or directory to a path made of names succeeds
    exactly when there is room for each of its files. *)
Theorem C75_fetch :
  forall (E : Env) cm w s w1 ki a d, well_used w -> starts cm w (Some s) w1 -> no_coll (w_hashed w1) -> deep_enough w1 -> w_faults w1 = [] -> names_only w1 Item ki ->
  lookup (w_fs w1) (start_of w1 a) = Some EDir ->
  (exists w2, run_command cm (Some s) (CFetch ki (plain_path a d)) w1 = (Done tt, w2)) <->
  exists k, denotes w1 ki k /\ can_fetch w1 k (start_of w1 a) d.
Proof. intros E cm w s w1 ki a d. apply fetch_exactly. Qed.
Print Assumptions C75_fetch.
(** Whenever it succeeds, there was room for each file, each file of the tree is there
    with its bytes, in directories, and nothing else has changed. *)
Theorem C75_fetched :
  forall (E : Env) cm w s w1 ki a d w2, well_used w -> starts cm w (Some s) w1 -> no_coll (w_hashed w1) -> names_only w1 Item ki ->
  run_command cm (Some s) (CFetch ki (plain_path a d)) w1 = (Done tt, w2) ->
  exists k, denotes w1 ki k /\ can_fetch w1 k (start_of w1 a) d /\ fetched w1 (w_fs w2) k (start_of w1 a) d /\
    cur_db w2 = cur_db w1 /\ w_cwd w2 = w_cwd w1 /\ w_out w2 = w_out w1.
Proof. intros E cm w s w1 ki a d w2. apply fetch_makes. Qed.
Print Assumptions C75_fetched.
(** If nothing fails, [debug walk-tree] of a file or directory succeeds exactly when the
    argument stands for a key. *)
Theorem C75_walk_tree :
  forall (E : Env) cm w s w1 ki, well_used w -> starts cm w (Some s) w1 -> no_coll (w_hashed w1) -> deep_enough w1 -> w_faults w1 = [] -> names_only w1 Item ki ->
  (exists w2, run_command cm (Some s) (CWalkTree ki) w1 = (Done tt, w2)) <-> exists k, denotes w1 ki k.
Proof. intros E cm w s w1 ki. apply walk_tree_exactly. Qed.
Print Assumptions C75_walk_tree.
(** If nothing fails, [show] of anything succeeds exactly when the argument (or HEAD)
    stands for the key of something that can be shown. *)
Theorem C75_show :
  forall (E : Env) cm w s w1 k, well_used w -> starts cm w (Some s) w1 -> no_coll (w_hashed w1) -> length (d_data (cur_db w1)) < stack -> w_faults w1 = [] ->
  (exists w2, run_command cm (Some s) (CShow k) w1 = (Done tt, w2)) <->
  (k = None -> has_head w1) /\ exists key, asked_for w1 k key /\ viewable w1 key.
Proof. intros E cm w s w1 k. apply show_exactly_all. Qed.
Print Assumptions C75_show.
(** [debug commit-tree]: exactly when each argument stands for a key. *)
Theorem C75_commit_tree :
  forall (E : Env) cm w s w1 t ps, reachable w -> starts cm w (Some s) w1 -> w_faults w1 = [] -> (lenN ps < 2 ^ 62)%N ->
  (exists w2, run_command cm (Some s) (CCommitTree t ps) w1 = (Done tt, w2)) <-> forall ki, In ki (t :: ps) -> exists k, denotes w1 ki k.
Proof. intros E cm w s w1 t ps. apply commit_tree_exactly. Qed.
Print Assumptions C75_commit_tree.
(** The commands for references. *)
Theorem C75_ref_update :
  forall (E : Env) cm w s w1 ki r, reachable w -> starts cm w (Some s) w1 -> w_faults w = [] ->
  (exists w2, run_command cm (Some s) (CRefUpdate ki r) w1 = (Done tt, w2)) <-> (exists k, denotes w1 ki k) /\ (r = None -> has_head w1).
Proof. intros E cm w s w1 ki r. apply ref_update_exactly. Qed.
Print Assumptions C75_ref_update.
Theorem C75_reflog_push :
  forall (E : Env) cm w s w1 ki n rm, reachable w -> starts cm w (Some s) w1 -> w_faults w = [] ->
  (exists w2, run_command cm (Some s) (CReflogPush ki n rm) w1 = (Done tt, w2)) <-> exists k, denotes w1 ki k.
Proof. intros E cm w s w1 ki n rm. apply reflog_push_exactly. Qed.
Print Assumptions C75_reflog_push.
Theorem C75_ref_log :
  forall (E : Env) cm w s w1 r rm, reachable w -> starts cm w (Some s) w1 -> w_faults w = [] ->
  (exists w2, run_command cm (Some s) (CRefLog r rm) w1 = (Done tt, w2)) <-> (r = None -> has_head w1).
Proof. intros E cm w s w1 r rm. apply ref_log_exactly. Qed.
Print Assumptions C75_ref_log.
Theorem C75_reflog_get :
  forall (E : Env) cm w s w1 n rm, reachable w -> starts cm w (Some s) w1 -> w_faults w = [] ->
  (exists w2, run_command cm (Some s) (CReflogGet n rm) w1 = (Done tt, w2)) <-> history n rm (repo_of (cur_db w1)) <> [].
Proof. intros E cm w s w1 n rm. apply reflog_get_exactly. Qed.
Print Assumptions C75_reflog_get.
Theorem C75_get_head :
  forall (E : Env) cm w s w1, starts cm w (Some s) w1 -> w_faults w = [] ->
  (exists w2, run_command cm (Some s) CGetHead w1 = (Done tt, w2)) <-> (forall n, rp_head (repo_of (cur_db w1)) = Some n -> utf8_valid n = true).
Proof. intros E cm w s w1. apply get_head_exactly. Qed.
Print Assumptions C75_get_head.
(** [debug walk-fs-tree] needs no repository: it succeeds exactly on a directory that
    contains only files and directories, not nested too deep, ... *)
Theorem C75_walk_fs_tree :
  forall (E : Env) cm st w p, fs_ok (w_fs w) -> w_faults w = [] ->
  (exists w2, run_command cm st (CWalkFsTree p) w = (Done tt, w2)) <->
  exists l, stat (w_fs w) (w_cwd w) p = Some (l, EDir) /\ walkable_at (w_fs w) l stack.
Proof. intros E cm st w p. apply walk_fs_exactly. Qed.
Print Assumptions C75_walk_fs_tree.
(** ... and lists everything below it once, excluded or not, in some order. *)
Theorem C75_walk_fs_listed :
  forall (E : Env) cm st w p w2, fs_ok (w_fs w) -> run_command cm st (CWalkFsTree p) w = (Done tt, w2) ->
  exists l m, stat (w_fs w) (w_cwd w) p = Some (l, EDir) /\ NoDup (map fst m) /\
    (forall q d, In (q, d) m <-> exists r e, q = named r /\ r <> [] /\ lookup (w_fs w) (l ++ r) = Some e /\ d = is_dir (w_fs w) (l ++ r)) /\
    says w w2 (map fs_event m) /\ w_fs w2 = w_fs w /\ w_dbs w2 = w_dbs w.
Proof.
  intros E cm st w p w2 O H. destruct (walk_fs_prints cm st w p w2 O H) as (l & m & A & B & C & D & X). exists l, m. repeat (split; [assumption|]). unfold alike in X. tauto.
Qed.
Print Assumptions C75_walk_fs_listed.

(** The committed toy repository: the root directory is fetched to "out/copy". *)
Definition ft_to : list name := [str "out"; str "copy"].
Definition ft_w2 : world := snd (run_command toy_cm (Some pm_s) (CFetch cw_arg (plain_path false ft_to)) pm_v1).
Lemma ft_done : run_command toy_cm (Some pm_s) (CFetch cw_arg (plain_path false ft_to)) pm_v1 = (Done tt, ft_w2).
Proof. vm_compute. reflexivity. Qed.
Lemma ft_item : object_at (cur_db pm_v1) (as_db_key ct_tree) <> None /\ match object_at (cur_db pm_v1) (as_db_key ct_tree) with Some o => o_type o = FSItemDir | None => False end.
Proof. vm_compute. split; [discriminate|reflexivity]. Qed.
Lemma ft_names : names_only pm_v1 Item cw_arg.
Proof.
  intros k D. rewrite (denotes_fun _ _ _ _ cw_denotes D). destruct ft_item as [_ H]. destruct (object_at (cur_db pm_v1) (as_db_key ct_tree)) as [o|] eqn:O; [|destruct H]. exists o. split; [exact O|right; exact H].
Qed.
Lemma ft_faults : w_faults toy_committed = [] /\ w_faults pm_v1 = [] /\ lookup (w_fs pm_v1) (start_of pm_v1 false) = Some EDir.
Proof. vm_compute. repeat split; reflexivity. Qed.
Example C75_example :
  can_fetch pm_v1 ct_tree (start_of pm_v1 false) ft_to /\ fetched pm_v1 (w_fs ft_w2) ct_tree (start_of pm_v1 false) ft_to /\
  content (w_fs ft_w2) (start_of pm_v1 false ++ ft_to ++ [str "f"]) = Some (str "hello") /\
  (exists w2, run_command toy_cm (Some pm_s) (CWalkTree cw_arg) pm_v1 = (Done tt, w2)) /\ viewable pm_v1 ps_key /\ viewable pm_v1 ct_tree.
Proof.
  destruct ft_faults as (F0 & F & Db). destruct (C75_fetched toy_env toy_cm toy_committed pm_s pm_v1 cw_arg false ft_to ft_w2 used_committed pm_starts2 toy_log_ok ft_names ft_done) as (k & D & A & B & _).
  rewrite (denotes_fun _ _ _ _ cw_denotes D) in A, B. split; [exact A|]. split; [exact B|]. split; [vm_compute; reflexivity|]. split.
  - apply (C75_walk_tree toy_env toy_cm toy_committed pm_s pm_v1 cw_arg used_committed pm_starts2 toy_log_ok (proj1 ps_deep) F ft_names). exists ct_tree. exact cw_denotes.
  - split; [|right; left; apply ft_names, cw_denotes].
    destruct C70_example as (_ & _ & _ & _ & P). right. right. exists ps_commit, None. split; [exact ps_is|]. split; [exact ps_base|exact P].
Qed.
(** A second fetch to the same place has no room. *)
Definition ft_again : world := set_fs toy_committed (w_fs ft_w2).
Definition ft_s : ds_state := match fst (setup toy_cm (close_all ft_again)) with Done (Some s) => s | _ => pm_s end.
Definition ft_v : world := snd (setup toy_cm (close_all ft_again)).
Lemma ft_starts : starts toy_cm ft_again (Some ft_s) ft_v.
Proof. vm_compute. reflexivity. Qed.
Example C75_no_room_example : fst (run_command toy_cm (Some ft_s) (CFetch cw_arg (plain_path false ft_to)) ft_v) = Error EIo.
Proof. vm_compute. reflexivity. Qed.
(** The same trees of files, listed from the disk. *)
Example C75_walk_fs_example :
  exists l, stat (w_fs pm_v1) (w_cwd pm_v1) (parse_path (str ".")) = Some (l, EDir) /\ walkable_at (w_fs pm_v1) l stack.
Proof.
  apply (C75_walk_fs_tree toy_env toy_cm None pm_v1 (parse_path (str "."))); [apply fs_okb_ok; vm_compute; reflexivity|vm_compute; reflexivity|].
  match goal with |- exists w2, ?r = _ => assert (X : fst r = Done tt) by (vm_compute; reflexivity); destruct r as [o w2] end. cbn in X. subst o. eauto.
Qed.
