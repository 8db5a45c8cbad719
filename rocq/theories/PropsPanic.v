(** Property C90: exit statuses, if nothing fails. *)
From Verif Require Import Base BaseFacts Key Keyish Cbor Object Path World WorldFacts Store File Filter Dir Diff Commit Pretty Screen Main SpecKey SpecResolve SpecStore SpecRun SpecProc SpecFile SpecDir SpecClosure
  SpecCache SpecDiff SpecPatch SpecShow SpecOut SpecCmd SpecText SpecShape SpecLive SpecScreen SpecFetch SpecFatal SpecPanic SparedFacts PanicFacts LiveStart KeyFacts TableFacts DbRel Integrity ResolveFacts OutFacts CmdFacts ShapeTop Checks Toy ToyRepo PropsMain PropsShow PropsCmd PropsShape PropsLive PropsFatal.

(** ** C90 *)
(** A process is killed only by something that fails, or by a stack that is too small. *)
Theorem C90_killed :
  forall (E : Env) cm c w w', w_faults w = [] -> run_process cm c w = (None, w') -> fst (main cm c (close_all w)) = Diverged.
Proof.
  intros E cm c w w' F H. pose proof (spared_main cm c (close_all w) F) as [S _]. unfold run_process in H. destruct (main cm c (close_all w)) as [[|e|p| |] v]; cbn in *; try discriminate H; [destruct S|]; reflexivity.
Qed.
Print Assumptions C90_killed.

(** Commands that neither list files nor show differences never panic: the exit status
    is 1 if the repository or the cache cannot be opened, else 0. *)
Theorem C90_status :
  forall (E : Env) cm c w, well_used w -> w_faults w = [] -> plain_folder cm ->
  (forall st w1, starts cm w st w1 -> no_coll (w_hashed w1) /\ deep_enough w1 /\ undemanding w1 c) ->
  (exists st w1 w', starts cm w st w1 /\ run_process cm c w = (Some 0%N, w')) \/
  ((forall st w1, ~ starts cm w st w1) /\ exists w', run_process cm c w = (Some 1%N, w')).
Proof. intros E cm c w. apply exits. Qed.
Print Assumptions C90_status.

(** [log] panics exactly if it is given something else than a commit, or if a commit
    of the history cannot be shown against its parent. *)
Theorem C90_log :
  forall (E : Env) cm w s w1 k key, well_used w -> w_faults w = [] -> starts cm w (Some s) w1 -> no_coll (w_hashed w1) ->
  length (d_data (cur_db w1)) + 1 < stack -> length (d_data (cur_db w1)) < loop_bound -> can_ask w1 k -> asked_for w1 k key ->
  (loggable w1 key -> exists w', run_process cm (CLog k) w = (Some 0%N, w')) /\
  (~ loggable w1 key -> exists w', run_process cm (CLog k) w = (Some 101%N, w')).
Proof. intros E cm w s w1 k key. apply log_exits. Qed.
Print Assumptions C90_log.

(** The example repository: a key that nothing has is reported, the log of the branch
    is shown, the log of a directory is a panic. *)
Lemma pn_plain : plain_folder toy_cm.
Proof. exists [str ".snapcd"]. split; [discriminate|vm_compute; reflexivity]. Qed.
Lemma pn_only st w1 : starts toy_cm toy_committed st w1 -> w1 = fa_started toy_committed.
Proof. intro S. unfold fa_started. unfold starts in S. rewrite S. reflexivity. Qed.
Lemma pn_asked : asked_for pm_v1 (Some ct_arg) ct_tree.
Proof.
  cbn [asked_for]. assert (H : exists w', canonicalize sqlite_ds ct_arg pm_v1 = (Done ct_tree, w')) by (eexists; vm_compute; reflexivity). destruct H as [w' H].
  apply OutFacts.canon_done in H as [_ D]; [exact D|]. exact (started_ok _ _ _ _ toy_committed_reachable pm_starts2).
Qed.
Lemma pn_ask k : can_ask pm_v1 (Some k).
Proof. split; [exact (proj1 ps_ask)|]. intro H. discriminate H. Qed.
Lemma pn_deep : (length (d_data (cur_db pm_v1)) + 1 < stack) /\ length (d_data (cur_db pm_v1)) < loop_bound.
Proof. split; apply Nat.ltb_lt; vm_compute; reflexivity. Qed.
Lemma pn_other : ~ points (cur_db pm_v1) Version ct_tree.
Proof.
  intros (o & O & T). assert (X : match object_at (cur_db pm_v1) (as_db_key ct_tree) with Some o => match o_type o with TCommit => false | _ => true end | None => true end = true) by (vm_compute; reflexivity).
  rewrite O in X. unfold of_role in T. rewrite T in X. discriminate X.
Qed.
Example C90_example :
  well_used toy_committed /\ w_faults toy_committed = [] /\ plain_folder toy_cm /\
  (forall st w1, starts toy_cm toy_committed st w1 -> no_coll (w_hashed w1) /\ deep_enough w1 /\
     undemanding w1 (CFetch fa_none (parse_path (str "x"))) /\ undemanding w1 (CRefLog None None) /\ undemanding w1 (CCommitTree ct_arg [fa_side])) /\
  starts toy_cm toy_committed (Some pm_s) pm_v1 /\ no_coll (w_hashed pm_v1) /\
  (length (d_data (cur_db pm_v1)) + 1 < stack /\ length (d_data (cur_db pm_v1)) < loop_bound) /\
  (can_ask pm_v1 None /\ asked_for pm_v1 None ps_key /\ loggable pm_v1 ps_key) /\
  (can_ask pm_v1 (Some ct_arg) /\ asked_for pm_v1 (Some ct_arg) ct_tree /\ ~ loggable pm_v1 ct_tree).
Proof.
  split; [exact used_committed|]. split; [vm_compute; reflexivity|]. split; [exact pn_plain|]. split.
  { intros st w1 S. apply pn_only in S as ->. split; [apply logb_ok; vm_compute; reflexivity|]. split; [apply Nat.leb_le; vm_compute; reflexivity|].
    split; [split; [exact I|]|split; [exact I|]].
    - intros k D. destruct (fa_nothing k (proj1 (proj1 D))). apply D.
    - split; [vm_compute; exact I|]. split; [repeat constructor|reflexivity]. }
  split; [exact pm_starts2|]. split; [exact toy_log_ok|]. split; [exact pn_deep|]. split; [split; [exact ps_ask|]; split; [exact ps_asked|]|split; [|split; [exact pn_asked|]]].
  - assert (P : points (cur_db pm_v1) Version ps_key) by (exists ps_object; exact ps_at). split; [exact P|].
    destruct (C70_log toy_env toy_cm toy_committed pm_s pm_v1 None ps_key used_committed pm_starts2 toy_log_ok (proj1 ps_deep) (proj2 ps_deep) ps_ask ps_asked P) as (l & Li & _ & H & _).
    exists l. split; [exact Li|]. apply H. pose proof ps_runs as R. destruct (run_command toy_cm (Some pm_s) (CLog None) pm_v1) as [[[]| | | |] w2]; cbn [fst] in R; [eauto|..]; destruct (fst (run_command toy_cm (Some pm_s) (CShow None) pm_v1)); discriminate R.
  - exact (pn_ask ct_arg).
  - intros [P _]. exact (pn_other P).
Qed.
