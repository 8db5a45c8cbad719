(** Property C71: commands succeed exactly when they should. *)
From Verif Require Import Base BaseFacts Key Keyish Cbor Object Path World WorldFacts Store File Filter Dir Diff Commit Main SpecStore SpecRun SpecProc SpecFile SpecDir SpecClosure
  SpecCache SpecDiff SpecPatch SpecShow SpecOut SpecCmd SpecText SpecShape SpecLive LiveFacts LiveDiff LiveCmd LiveStart FileRun FsFacts CmdFacts ShapeTop Checks Toy ToyRepo PropsMain PropsShow PropsCmd PropsShape.

(** ** C71 *)
(** [debug insert]: exactly when the path exists, everything in it that is not
    excluded is a file or a directory with a name that is text, and no link come
    across leads nowhere. *)
Theorem C71_insert :
  forall (E : Env) cm w s w1 p, starts cm w (Some s) w1 -> quiet_disk w1 ->
  (exists w2, run_command cm (Some s) (CInsert p) w1 = (Done tt, w2)) <->
  globs_ok cm /\ can_store (cm_exclude cm) (ds_folder s) p w1.
Proof. intros E cm w s w1 p. apply insert_exactly. Qed.
Print Assumptions C71_insert.
(** [commit]: the same, and there is a HEAD or a reference is given. *)
Theorem C71_commit :
  forall (E : Env) cm w s w1 p m r, reachable w -> starts cm w (Some s) w1 -> quiet_disk w1 -> (lenN m < 2 ^ 62)%N ->
  (exists w2, run_command cm (Some s) (CCommit p m r) w1 = (Done tt, w2)) <->
  globs_ok cm /\ (r = None -> has_head w1) /\ can_store (cm_exclude cm) (ds_folder s) (match p with Some q => q | None => ds_repo s end) w1.
Proof. intros E cm w s w1 p m r. apply commit_exactly. Qed.
Print Assumptions C71_commit.
(** [status]: exactly when there is a HEAD and, if it names a commit, the repository
    can be compared with its tree. *)
Theorem C71_status :
  forall (E : Env) cm w s w1, well_used w -> starts cm w (Some s) w1 -> no_coll (w_hashed w1) -> deep_enough w1 -> at_rest w1 ->
  (exists w2, run_command cm (Some s) CStatus w1 = (Done tt, w2)) <->
  has_head w1 /\ forall t, head_tree w1 (Some t) -> globs_ok cm /\ comparable (cm_exclude cm) (ds_folder s) (ds_repo s) w1 (Some t).
Proof. intros E cm w s w1. apply status_exactly. Qed.
Print Assumptions C71_status.
(** [compare] without [--stat]. *)
Theorem C71_compare :
  forall (E : Env) cm w s w1 p k, well_used w -> starts cm w (Some s) w1 -> no_coll (w_hashed w1) -> deep_enough w1 -> at_rest w1 ->
  (forall ki, k = Some ki -> names_only w1 Item ki) ->
  (exists w2, run_command cm (Some s) (CCompare p k false) w1 = (Done tt, w2)) <->
  globs_ok cm /\ (k = None -> has_head w1) /\
  exists t, compared_to w1 k t /\ comparable (cm_exclude cm) (ds_folder s) (match p with Some q => q | None => ds_repo s end) w1 (Some t).
Proof. intros E cm w s w1 p k U S NC De Ar. apply (compare_exactly cm w s w1 U S NC De Ar). Qed.
Print Assumptions C71_compare.
(** [checkout-head]: it compares even if HEAD names no commit. *)
Theorem C71_checkout_head :
  forall (E : Env) cm w s w1 n, well_used w -> starts cm w (Some s) w1 -> no_coll (w_hashed w1) -> deep_enough w1 -> at_rest w1 ->
  (exists w2, run_command cm (Some s) (CCheckoutHead n) w1 = (Done tt, w2)) <->
  has_head w1 /\ globs_ok cm /\ forall to, head_tree w1 to -> comparable (cm_exclude cm) (ds_folder s) (ds_repo s) w1 to.
Proof. intros E cm w s w1 n U S NC De Ar. apply (checkout_head_exactly cm w s w1 U S NC De Ar). Qed.
Print Assumptions C71_checkout_head.
(** A process whose command succeeds ends with status 0, prints nothing more, and has
    written what the command did to the database. *)
Theorem C71_process :
  forall (E : Env) cm c w st w1 w2, w_faults w = [] -> starts cm w st w1 -> run_command cm st c w1 = (Done tt, w2) ->
  exists w', run_process cm c w = (Some 0%N, w') /\ w_out w' = w_out w2 /\ w_faults w' = [] /\ w_fs w' = w_fs w2 /\ w_cwd w' = w_cwd w2 /\ w_hashed w' = w_hashed w2 /\
    (st = None -> w_dbs w' = w_dbs w2) /\ (forall s, st = Some s -> db_at (w_dbs w') (w_conn w2) = cur_db w2).
Proof. intros E cm c w st w1 w2. apply process_live. Qed.
Print Assumptions C71_process.
(** A process finds the nearest repository, going up, and starts with its database. *)
Theorem C71_starts :
  forall (E : Env) cm w e d db, w_faults w = [] -> cache_place w -> repository_at cm w e d db ->
  exists w1, starts cm w (Some (DsState (abs_path (e ++ d)) (abs_path (e ++ removelast d)))) w1 /\
    w_faults w1 = [] /\ w_cwd w1 = w_cwd w /\ w_dbs w1 = w_dbs w /\ w_out w1 = w_out w /\ w_conn w1 = e ++ d ++ [str "snapcd.db"] /\ cur_db w1 = db /\
    w_hashed w1 = w_hashed w /\ (cache_there w -> w_fs w1 = w_fs w).
Proof. intros E cm w e d db. apply start_found. Qed.
Print Assumptions C71_starts.
(** [init] where there is none makes an empty one, with HEAD at "master", leaving all
    files as they are; the next process finds it. *)
Theorem C71_init :
  forall (E : Env) cm w d, w_faults w = [] -> no_repository cm w d -> cache_place w -> cache_elsewhere w d ->
  exists w', run_process cm CInit w = (Some 0%N, w') /\ w_out w' = w_out w /\ w_faults w' = [] /\ w_cwd w' = w_cwd w /\
    (forall x e, lookup (w_fs w) x = Some e -> lookup (w_fs w') x = Some e) /\
    repository_at cm w' (w_cwd w) d (Db [] [(str "HEAD", str "master")] []) /\
    exists s w1, starts cm w' (Some s) w1 /\ ds_folder s = abs_path (w_cwd w ++ d) /\ w_faults w1 = [] /\ cur_db w1 = Db [] [(str "HEAD", str "master")] [].
Proof.
  intros E cm w d F N P El. destruct (init_live cm w d F N P El) as (w' & R & O & F' & C & G & Rp & P'). exists w'. repeat (split; [assumption|]).
  destruct (start_found cm w' _ _ _ F' P' Rp) as (w1 & S & F1 & _ & _ & _ & _ & K & _). eexists _, w1. split; [exact S|]. auto.
Qed.
Print Assumptions C71_init.

(** Examples. *)
Definition moderateb (f : fs) : bool :=
  forallb (fun x => match snd x with EDir => (names_size (children f (fst x)) + 200 <? 2 ^ 62)%N | EFile c _ => (lenN c + 5 <? 2 ^ 62)%N | _ => true end) (([], EDir) :: f).
Lemma moderateb_ok f : moderateb f = true -> moderate f.
Proof.
  unfold moderateb. intros H l e L. rewrite forallb_forall in H. assert (I : In (l, e) (([], EDir) :: f)).
  { destruct l; [injection L as <-; left; reflexivity|right; apply assoc_loc_in, L]. }
  apply H in I. cbn [fst snd] in I. destruct e; try exact Logic.I; apply N.ltb_lt, I.
Qed.
Lemma quietb (w : world) : w_faults w = [] -> fs_okb (w_fs w) && moderateb (w_fs w) = true -> quiet_disk w.
Proof. intros F H. apply andb_prop in H as [H1 H2]. split; [exact F|]. split; [apply fs_okb_ok, H1|apply moderateb_ok, H2]. Qed.
Lemma lv_quiet : quiet_disk pm_w1.
Proof. apply quietb; vm_compute; reflexivity. Qed.
(** In the new repository "s" can be stored. *)
Example C71_insert_example : can_store [] (ds_folder pm_s) (parse_path (str "s")) pm_w1 /\ quiet_disk pm_w1 /\ starts toy_cm toy_inited (Some pm_s) pm_w1.
Proof.
  split; [|split; [exact lv_quiet|exact pm_starts]].
  apply (C71_insert toy_env toy_cm toy_inited pm_s pm_w1 (parse_path (str "s")) pm_starts lv_quiet). exists cx_ins. vm_compute. reflexivity.
Qed.
Example C71_commit_example : has_head pm_w1 /\ can_store [] (ds_folder pm_s) (ds_repo pm_s) pm_w1 /\ reachable toy_inited.
Proof.
  destruct (proj1 (C71_commit toy_env toy_cm toy_inited pm_s pm_w1 None (str "first") None toy_inited_reachable pm_starts lv_quiet eq_refl)) as (_ & H & C); [exists pm_w2; exact pm_done|].
  split; [apply H; reflexivity|]. split; [exact C|exact toy_inited_reachable].
Qed.
(** With a link to nowhere next to the files, nothing can be committed. *)
Definition lv_link : world := set_fs toy_inited (w_fs toy_inited ++ [(in_r (str "l"), EDangling)]).
Definition lv_l1 : world := snd (setup toy_cm (close_all lv_link)).
Lemma lv_starts : starts toy_cm lv_link (Some pm_s) lv_l1.
Proof. vm_compute. reflexivity. Qed.
Lemma not_done {A} (r : outcome A * world) : match fst r with Done _ => false | _ => true end = true -> ~ exists a w, r = (Done a, w).
Proof. intros H (a & w & ->). discriminate H. Qed.
Lemma lv_fails : ~ exists u w2, run_command toy_cm (Some pm_s) (CCommit None (str "m") None) lv_l1 = (Done u, w2).
Proof. apply not_done. vm_compute. reflexivity. Qed.
Lemma lv_fails2 : ~ exists u w2, run_command toy_cm (Some pm_s) (CInsert (ds_repo pm_s)) lv_l1 = (Done u, w2).
Proof. apply not_done. vm_compute. reflexivity. Qed.
Lemma lv_quiet2 : quiet_disk lv_l1.
Proof. apply quietb; vm_compute; reflexivity. Qed.
Example C71_commit_fails : (~ exists u w2, run_command toy_cm (Some pm_s) (CCommit None (str "m") None) lv_l1 = (Done u, w2)) /\ quiet_disk lv_l1 /\ ~ can_store [] (ds_folder pm_s) (ds_repo pm_s) lv_l1.
Proof.
  split; [exact lv_fails|]. split; [exact lv_quiet2|]. intro C. apply lv_fails2.
  destruct (proj2 (C71_insert toy_env toy_cm lv_link pm_s lv_l1 (ds_repo pm_s) lv_starts lv_quiet2) (conj eq_refl C)) as [w2 R]. exists tt, w2. exact R.
Qed.
(** The changed repository ("f" changed, "d/h" new) can be compared from the top, but
    not from inside "s", where "d/h" is not found. *)
Lemma used_fs {E : Env} w f : well_used w -> well_used (set_fs w f).
Proof. intro U. apply (wu_outside w); [exact U|]. split; reflexivity. Qed.
Definition set_cwd (w : world) (c : loc) : world := World (w_fs w) c (w_dbs w) (w_conn w) (w_txn w) (w_cache w) (w_ctxn w) (w_faults w) (w_out w) (w_hashed w) (w_tick w).
Lemma used_cwd {E : Env} w c : well_used w -> well_used (set_cwd w c).
Proof. intro U. apply (wu_outside w); [exact U|]. split; reflexivity. Qed.
Lemma used_dirty : well_used cx_dirty.
Proof. apply used_fs. exact used_committed. Qed.
Lemma lv_rest : at_rest cx_d1.
Proof.
  split; [apply quietb; vm_compute; reflexivity|]. assert (X : cur_cache cx_d1 = []) by (vm_compute; reflexivity). intros a b. rewrite X. intros [].
Qed.
Lemma lv_log : no_coll (w_hashed cx_d1).
Proof. apply logb_ok. vm_compute. reflexivity. Qed.
Lemma lv_deep : deep_enough cx_d1.
Proof. apply Nat.leb_le. vm_compute. reflexivity. Qed.
Definition lv_tree : key := c_tree ps_commit.
Lemma lv_head : head_tree cx_d1 (Some lv_tree).
Proof.
  exists (str "master"). split; [vm_compute; reflexivity|]. exists ps_key, [], ps_commit. split; [vm_compute; reflexivity|]. split; [|reflexivity].
  apply commit_reads. exists ps_object. split; [apply of_get; rewrite cx_same; apply ps_at|]. split; [apply ps_at|]. intro v. destruct v. vm_compute. reflexivity.
Qed.
Example C71_status_example : well_used cx_dirty /\ at_rest cx_d1 /\ comparable [] (ds_folder pm_s) (ds_repo pm_s) cx_d1 (Some lv_tree).
Proof.
  split; [exact used_dirty|]. split; [exact lv_rest|].
  destruct (proj1 (C71_status toy_env toy_cm cx_dirty pm_s cx_d1 used_dirty cx_starts lv_log lv_deep lv_rest)) as [_ H]; [exists cx_d2; vm_compute; reflexivity|]. apply H, lv_head.
Qed.
Example C71_compare_example : exists t, compared_to cx_d1 None t /\ comparable [] (ds_folder pm_s) (ds_repo pm_s) cx_d1 (Some t).
Proof.
  destruct (proj1 (C71_compare toy_env toy_cm cx_dirty pm_s cx_d1 None None used_dirty cx_starts lv_log lv_deep lv_rest ltac:(discriminate))) as (_ & _ & H); [|exact H].
  eexists. vm_compute. reflexivity.
Qed.
Definition lv_inside : world := set_cwd cx_dirty [str "r"; str "s"].
Definition lv_i1 : world := snd (setup toy_cm (close_all lv_inside)).
Lemma lv_starts2 : starts toy_cm lv_inside (Some pm_s) lv_i1.
Proof. vm_compute. reflexivity. Qed.
Lemma lv_used2 : well_used lv_inside.
Proof. apply used_cwd. exact used_dirty. Qed.
Lemma lv_fails3 : ~ exists u w2, run_command toy_cm (Some pm_s) (CCheckoutHead (str "x")) lv_i1 = (Done u, w2).
Proof. apply not_done. vm_compute. reflexivity. Qed.
Lemma lv_rest2 : at_rest lv_i1.
Proof.
  split; [apply quietb; vm_compute; reflexivity|]. assert (Y : cur_cache lv_i1 = []) by (vm_compute; reflexivity). intros a b. rewrite Y. intros [].
Qed.
Lemma lv_same : cur_db lv_i1 = cur_db pm_v1.
Proof. vm_compute. reflexivity. Qed.
Lemma lv_head2 : head_tree lv_i1 (Some lv_tree).
Proof.
  exists (str "master"). split; [vm_compute; reflexivity|]. exists ps_key, [], ps_commit. split; [vm_compute; reflexivity|]. split; [|reflexivity].
  apply commit_reads. exists ps_object. split; [apply of_get; rewrite lv_same; apply ps_at|]. split; [apply ps_at|]. intro v. destruct v. vm_compute. reflexivity.
Qed.
Lemma lv_log2 : no_coll (w_hashed lv_i1) /\ deep_enough lv_i1 /\ has_head lv_i1.
Proof. split; [apply logb_ok; vm_compute; reflexivity|]. split; [apply Nat.leb_le; vm_compute; reflexivity|]. exists (str "master"). split; vm_compute; reflexivity. Qed.
Example C71_checkout_head_example : ~ comparable [] (ds_folder pm_s) (ds_repo pm_s) lv_i1 (Some lv_tree).
Proof.
  intro C. destruct lv_log2 as (L & D & Hh). apply lv_fails3.
  destruct (proj2 (C71_checkout_head toy_env toy_cm lv_inside pm_s lv_i1 (str "x") lv_used2 lv_starts2 L D lv_rest2)) as [w2 R]; [|exists tt, w2; exact R].
  split; [exact Hh|]. split; [reflexivity|]. intros to Ht. rewrite (head_tree_fun _ _ _ lv_head2 Ht). exact C.
Qed.
(** The example repository began like this. *)
Lemma lv_none : no_repository toy_cm toy_start [str ".snapcd"].
Proof.
  split; [vm_compute; reflexivity|]. split; [discriminate|]. split; [apply fs_okb_ok; vm_compute; reflexivity|]. split; [vm_compute; reflexivity|]. split.
  - intros a b Q. destruct a as [|x a]; [right; vm_compute; reflexivity|]. injection Q as <- Q. destruct a; [|discriminate]. left. vm_compute. reflexivity.
  - intros e [r Q] (l & x & m & St & _). destruct e as [|n e]; [vm_compute in St; discriminate|]. injection Q as <- Q. destruct e; [|discriminate]. vm_compute in St. discriminate.
Qed.
Example C71_init_example : w_faults toy_start = [] /\ no_repository toy_cm toy_start [str ".snapcd"] /\ cache_place toy_start /\ cache_elsewhere toy_start [str ".snapcd"].
Proof. split; [reflexivity|]. split; [exact lv_none|]. split; [exact I|]. intros c r Q. discriminate. Qed.
Example C71_starts_example : repository_at toy_cm toy_inited [str "r"] [str ".snapcd"] (Db [] [(str "HEAD", str "master")] []).
Proof.
  destruct (C71_init toy_env toy_cm toy_start [str ".snapcd"] eq_refl lv_none I ltac:(intros c r Q; discriminate)) as (w' & R & _ & _ & _ & _ & H & _).
  unfold toy_inited. rewrite R. exact H.
Qed.
