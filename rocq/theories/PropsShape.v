(** Property C70: what a repository contains after sensible use, and that it can be read. *)
From Verif Require Import Base BaseFacts Key Keyish Cbor Object Path World WorldFacts Store File Filter Dir Diff Commit Main SpecStore SpecRun SpecProc SpecDir SpecClosure
  SpecDiff SpecPatch SpecShow SpecOut SpecText SpecShape ShapeFacts ShapeTop Checks Toy ToyRepo PropsMain PropsShow PropsCmd.

(** ** C70 *)
(** After sensible use every stored object is well-formed, refers only to objects of
    the right kind, and every reference names a commit. *)
Theorem C70_well_shaped :
  forall (E : Env) w l, well_used w -> no_coll (w_hashed w) -> well_shaped (db_at (w_dbs w) l).
Proof. intros E w l. apply used_shaped. Qed.
Print Assumptions C70_well_shaped.
(** A process that starts then finds such a repository. *)
Theorem C70_started :
  forall (E : Env) cm w st w1, well_used w -> starts cm w st w1 -> no_coll (w_hashed w1) -> well_shaped (cur_db w1).
Proof. intros E cm w st w1. apply started_shaped. Qed.
Print Assumptions C70_started.
(** Everything in it can be read: the bytes of a file or of any data, a whole tree
    (whose names are proper and unique), a commit with all its first parents. *)
Theorem C70_readable :
  forall (E : Env) cm w s w1 k, well_used w -> starts cm w (Some s) w1 -> no_coll (w_hashed w1) -> deep_enough w1 ->
  (holds_bytes (cur_db w1) k -> exists bs, stored_bytes w1 k bs) /\
  (points (cur_db w1) Item k -> tidy w1 k /\ walkable w1 k) /\
  (points (cur_db w1) Version k -> exists c l, is_commit w1 k c /\ tidy_commit w1 c /\ points (cur_db w1) Item (c_tree c) /\
     lineage w1 k l /\ forall k', In k' l -> points (cur_db w1) Version k').
Proof. intros E cm w s w1 k. apply used_readable. Qed.
Print Assumptions C70_readable.
(** So [show] of a commit succeeds exactly when nothing was deleted, only files
    changed, and new files are text. *)
Theorem C70_show :
  forall (E : Env) cm w s w1 k key c to, well_used w -> starts cm w (Some s) w1 -> no_coll (w_hashed w1) -> deep_enough w1 -> can_ask w1 k ->
  asked_for w1 k key -> is_commit w1 key c -> base_tree w1 c to ->
  (exists w2, run_command cm (Some s) (CShow k) w1 = (Done tt, w2)) <-> presentable w1 KPatch (c_tree c) to.
Proof. intros E cm w s w1 k key c to. apply show_command. Qed.
Print Assumptions C70_show.
(** And [log] succeeds exactly when this holds (without the last condition) for each
    commit of the history. *)
Theorem C70_log :
  forall (E : Env) cm w s w1 k key, well_used w -> starts cm w (Some s) w1 -> no_coll (w_hashed w1) -> deep_enough w1 ->
  length (d_data (cur_db w1)) <= loop_bound -> can_ask w1 k -> asked_for w1 k key -> points (cur_db w1) Version key ->
  exists l, lineage w1 key l /\ (forall k', In k' l -> exists c, is_commit w1 k' c) /\
  ((exists w2, run_command cm (Some s) (CLog k) w1 = (Done tt, w2)) <->
   forall k' c to, In k' l -> is_commit w1 k' c -> base_tree w1 c to -> presentable w1 KStat (c_tree c) to).
Proof. intros E cm w s w1 k key. apply log_command. Qed.
Print Assumptions C70_log.

(** The repository of the examples was used like this. *)
Lemma used_step {E : Env} cm c w : well_used w -> fs_okb (w_fs (snd (setup cm (close_all w)))) = true ->
  match c with CCommit _ m _ => utf8_valid m = true | CCommitTree _ _ | CReflogPush _ _ _ | CRefUpdate _ _ => False | _ => True end ->
  well_used (snd (run_process cm c w)).
Proof.
  intros U F S. apply wu_process; [exact U|]. intros st w1 St. unfold starts in St. rewrite St in F. split; [apply fs_okb_ok, F|]. destruct c; try exact I; try contradiction. exact S.
Qed.
Lemma used_inited : well_used toy_inited.
Proof. apply used_step; [apply wu_start; reflexivity|vm_compute; reflexivity|exact I]. Qed.
Lemma used_committed : well_used toy_committed.
Proof. apply used_step; [exact used_inited|vm_compute; reflexivity|reflexivity]. Qed.
Lemma toy_log_ok : no_coll (w_hashed pm_v1).
Proof. apply logb_ok. vm_compute. reflexivity. Qed.
Definition ps_key : key := match fst (reflog_get sqlite_ds (str "master") None (set_faults pm_v1 [])) with Done k => k | _ => ct_tree end.
Definition ps_commit : commit := match fst (commit_from_key sqlite_ds ps_key (set_faults pm_v1 [])) with Done c => c | _ => Commit ct_tree [] (Attrs [] []) end.
Lemma of_get {E : Env} w k o : object_at (cur_db w) (as_db_key k) = Some o -> reads_as w k (Done o).
Proof. apply reads_object. Qed.
Definition ps_object : object := match object_at (cur_db pm_v1) (as_db_key ps_key) with Some o => o | None => Object [] [] TUnknown end.
Lemma ps_at : object_at (cur_db pm_v1) (as_db_key ps_key) = Some ps_object /\ o_type ps_object = TCommit.
Proof. vm_compute. split; reflexivity. Qed.
Lemma ps_is : is_commit pm_v1 ps_key ps_commit.
Proof. exists ps_object. split; [apply of_get, ps_at|]. split; [apply ps_at|]. intro v. destruct v. vm_compute. reflexivity. Qed.
Lemma ps_deep : deep_enough pm_v1 /\ length (d_data (cur_db pm_v1)) <= loop_bound.
Proof. split; apply Nat.leb_le; vm_compute; reflexivity. Qed.
Lemma ps_ask : can_ask pm_v1 None.
Proof. split; [vm_compute; reflexivity|]. intros _ n H. vm_compute in H. injection H as <-. reflexivity. Qed.
Lemma ps_asked : asked_for pm_v1 None ps_key.
Proof. exists (str "master"), []. split; vm_compute; reflexivity. Qed.
Lemma ps_base : base_tree pm_v1 ps_commit None.
Proof. vm_compute. reflexivity. Qed.
Lemma ps_runs : match fst (run_command toy_cm (Some pm_s) (CShow None) pm_v1), fst (run_command toy_cm (Some pm_s) (CLog None) pm_v1) with Done _, Done _ => true | _, _ => false end = true.
Proof. vm_compute. reflexivity. Qed.
Lemma done_of {A} (r : outcome A * world) b : match fst r with Done _ => b | _ => false end = true -> exists a w, r = (Done a, w).
Proof. destruct r as [[a| | | |] w]; cbn; intro H; try discriminate. eauto. Qed.
Example C70_example :
  well_used toy_committed /\ no_coll (w_hashed pm_v1) /\ well_shaped (db_at (w_dbs toy_committed) toy_db) /\ length (d_data (db_at (w_dbs toy_committed) toy_db)) = 7 /\
  presentable pm_v1 KPatch (c_tree ps_commit) None.
Proof.
  split; [exact used_committed|]. split; [exact toy_log_ok|]. split; [apply C70_well_shaped; [exact used_committed|apply logb_ok; vm_compute; reflexivity]|].
  split; [vm_compute; reflexivity|].
  apply (C70_show toy_env toy_cm toy_committed pm_s pm_v1 None ps_key ps_commit None used_committed pm_starts2 toy_log_ok (proj1 ps_deep) ps_ask ps_asked ps_is ps_base).
  pose proof ps_runs as H. apply done_of in H as ([] & w & H). exists w. exact H.
Qed.

(** Without the condition on [debug commit-tree] this fails: its parents may be
    anything.  The same goes for references. *)
Lemma bad_parent {E : Env} d k v o t p o' : In (k, v) (d_data d) -> object_at d k = Some o -> o_type o = TCommit -> o_keys o = [t; p] ->
  object_at d (as_db_key p) = Some o' -> o_type o' <> TCommit -> ~ well_shaped d.
Proof.
  intros I O T K O' N [H _]. destruct (H k v I) as (o1 & O1 & F). rewrite O in O1. injection O1 as <-. unfold well_formed in F. rewrite T in F.
  destruct F as (t' & ps & a & K' & _ & P & _). rewrite K in K'. injection K' as <- <-. inversion P as [|x y (o2 & O2 & T2) _]; subst. rewrite O' in O2. injection O2 as <-. exact (N T2).
Qed.
Lemma bad_reference {E : Env} d r o : In r (d_reflog d) -> object_at d (r_key r) = Some o -> o_type o <> TCommit -> ~ well_shaped d.
Proof. intros I O N [_ H]. destruct (H r I) as (o' & O' & T). rewrite O in O'. injection O' as <-. exact (N T). Qed.
Definition ct_db : db := db_at (w_dbs ct_made) toy_db.
Definition ct_row : bytes * bytes := match find (fun r => match decode_object (snd r) with Some o => match o_type o, o_keys o with TCommit, [_; _] => true | _, _ => false end | None => false end) (d_data ct_db) with
  | Some r => r | None => ([], []) end.
Definition ct_object : object := match object_at ct_db (fst ct_row) with Some o => o | None => ps_object end.
Definition ct_dir : object := match object_at ct_db (as_db_key ct_tree) with Some o => o | None => ps_object end.
Theorem C70_commit_tree_refuted :
  exists (E : Env) cm w ki l, well_used w /\ w_faults w = [] /\ no_coll (w_hashed (snd (run_process cm (CCommitTree ki [ki]) w))) /\
    ~ well_shaped (db_at (w_dbs (snd (run_process cm (CCommitTree ki [ki]) w))) l).
Proof.
  exists toy_env, toy_cm, toy_committed, ct_arg, toy_db. split; [exact used_committed|]. split; [vm_compute; reflexivity|]. split; [apply logb_ok; vm_compute; reflexivity|].
  apply (bad_parent _ (fst ct_row) (snd ct_row) ct_object ct_tree ct_tree ct_dir); [vm_compute; auto 20|vm_compute; reflexivity|vm_compute; reflexivity|vm_compute; reflexivity|vm_compute; reflexivity|vm_compute; discriminate].
Qed.
Print Assumptions C70_commit_tree_refuted.
Definition cr_db : db := db_at (w_dbs (snd (run_process toy_cm (CRefUpdate ct_arg None) toy_committed))) toy_db.
Definition cr_row : row := last (d_reflog cr_db) (Row 0 [] None []).
Theorem C70_reference_refuted :
  exists (E : Env) cm w ki l, well_used w /\ w_faults w = [] /\ no_coll (w_hashed (snd (run_process cm (CRefUpdate ki None) w))) /\
    ~ well_shaped (db_at (w_dbs (snd (run_process cm (CRefUpdate ki None) w))) l).
Proof.
  exists toy_env, toy_cm, toy_committed, ct_arg, toy_db. split; [exact used_committed|]. split; [vm_compute; reflexivity|]. split; [apply logb_ok; vm_compute; reflexivity|].
  apply (bad_reference _ cr_row ct_dir); [vm_compute; auto 20|vm_compute; reflexivity|vm_compute; discriminate].
Qed.
Print Assumptions C70_reference_refuted.
