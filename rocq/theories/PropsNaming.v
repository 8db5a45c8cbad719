(** Property C91: different ways of asking for the same thing. *)
From Verif Require Import Base BaseFacts Key Keyish Cbor Object Path World WorldFacts Store File Filter Dir Diff Commit Pretty Screen Main SpecKey SpecResolve SpecStore SpecRun SpecProc SpecFile SpecDir SpecClosure
  SpecCache SpecDiff SpecPatch SpecShow SpecOut SpecCmd SpecText SpecShape SpecLive SpecScreen SpecFetch SpecFatal SpecPanic SpecNaming NameFacts LiveStart KeyFacts TableFacts DbRel Integrity ResolveFacts OutFacts CmdFacts ShapeTop Checks Toy ToyRepo PropsMain PropsShow PropsCmd PropsShape PropsLive PropsFatal PropsPanic.

(** ** C91 *)
(** The first letters of a printed key stand for the object, unless another stored key
    begins with them; then they are ambiguous.  They never stand for another object
    while this one is stored. *)
Theorem C91_letters :
  forall (E : Env) t k, copied t k ->
  exists ki, parse_keyish t = Some (Ok ki) /\ partly ki /\ as_typed ki = t /\
  forall w, (denotes w ki k <-> stored w k /\ unmistakable w t k) /\ (forall k', k' <> k -> denotes w ki k' -> ~ stored w k) /\
    (names_several w ki <-> exists k1 k2, k1 <> k2 /\ (stored w k1 /\ prefix_of (map fold_case t) (as_user_key k1)) /\ (stored w k2 /\ prefix_of (map fold_case t) (as_user_key k2))).
Proof. intros E t k. apply copied_works. Qed.
Print Assumptions C91_letters.

(** If nothing fails, a command does exactly the same whichever way its key is given. *)
Theorem C91_named :
  forall (E : Env) cm w s w1 c a b k, reachable w -> w_faults w = [] -> starts cm w (Some s) w1 ->
  given_key c = Some a -> denotes w1 a k -> denotes w1 b k -> run_process cm c w = run_process cm (with_key c b) w.
Proof. intros E cm w s w1 c a b k. apply named_same. Qed.
Print Assumptions C91_named.

(** The same for the parents given to [debug commit-tree]. *)
Theorem C91_parents :
  forall (E : Env) cm w s w1 t ps ps', reachable w -> w_faults w = [] -> starts cm w (Some s) w1 ->
  Forall2 (fun a b => exists k, denotes w1 a k /\ denotes w1 b k) ps ps' -> run_process cm (CCommitTree t ps) w = run_process cm (CCommitTree t ps') w.
Proof. intros E cm w s w1 t ps ps'. apply parents_named. Qed.
Print Assumptions C91_parents.

(** A key or branch that is left out is HEAD's, a path that is left out is the directory
    of the repository: saying so makes no difference. *)
Theorem C91_left_out :
  forall (E : Env) cm w s w1 c c', steady_reads -> reachable w -> w_faults w = [] -> starts cm w (Some s) w1 -> same_request s w1 c c' ->
  exists code w' w'', run_process cm c w = (code, w') /\ run_process cm c' w = (code, w'') /\ but_for_time w' w''.
Proof. intros E cm w s w1 c c'. apply left_out. Qed.
Print Assumptions C91_left_out.

(** The example repository: the letters [status] prints, the branch, and nothing. *)
Definition nm_text : bytes := firstn 8 (as_user_key ps_key).
Definition nm_short : keyish := match parse_keyish nm_text with Some (Ok k) => k | _ => fa_none end.
Definition nm_branch : keyish := KReflog (str "/master") None (str "master").
Lemma nm_copied : copied nm_text ps_key.
Proof. exists (tl nm_text). split; [vm_compute; reflexivity|]. split; [apply Nat.ltb_lt; vm_compute; reflexivity|]. exists (skipn 8 (as_user_key ps_key)). vm_compute. reflexivity. Qed.
Lemma nm_one : denotes pm_v1 nm_short ps_key.
Proof.
  assert (H : exists w', canonicalize sqlite_ds nm_short pm_v1 = (Done ps_key, w')) by (eexists; vm_compute; reflexivity). destruct H as [w' H].
  apply OutFacts.canon_done in H as [_ D]; [exact D|]. exact (started_ok _ _ _ _ toy_committed_reachable pm_starts2).
Qed.
Lemma nm_two : denotes pm_v1 nm_branch ps_key.
Proof. exists []. vm_compute. reflexivity. Qed.
Lemma nm_head : rp_head (repo_of (cur_db pm_v1)) = Some (str "master").
Proof. vm_compute. reflexivity. Qed.
Lemma nm_legible {A} (r : option A) : legible pm_v1 r.
Proof. intros _ n H. rewrite nm_head in H. injection H as <-. reflexivity. Qed.
Lemma nm_tree : compared_to pm_v1 None ct_tree /\ compared_to pm_v1 (Some ct_arg) ct_tree.
Proof. split; [exact cw_head|exact cw_denotes]. Qed.
Example C91_example :
  reachable toy_committed /\ w_faults toy_committed = [] /\ @steady_reads toy_env /\ starts toy_cm toy_committed (Some pm_s) pm_v1 /\
  copied nm_text ps_key /\ (denotes pm_v1 nm_short ps_key /\ denotes pm_v1 nm_branch ps_key) /\
  with_key (CLog (Some nm_short)) nm_branch = CLog (Some nm_branch) /\
  Forall2 (fun a b => exists k, denotes pm_v1 a k /\ denotes pm_v1 b k) [nm_short; ct_arg] [nm_branch; ct_arg] /\
  same_request pm_s pm_v1 (CShow None) (CShow (Some nm_short)) /\
  same_request pm_s pm_v1 (CCompare None None true) (CCompare (Some (ds_repo pm_s)) (Some ct_arg) true) /\
  same_request pm_s pm_v1 (CCommit None (str "m") None) (CCommit (Some (ds_repo pm_s)) (str "m") (Some (str "master"))) /\
  same_request pm_s pm_v1 (CRefUpdate nm_short None) (CRefUpdate nm_branch (Some (str "master"))).
Proof.
  split; [exact toy_committed_reachable|]. split; [reflexivity|]. split; [intros i j c; reflexivity|]. split; [exact pm_starts2|]. split; [exact nm_copied|]. split; [split; [exact nm_one|exact nm_two]|]. split; [reflexivity|].
  split. { constructor; [exists ps_key; split; [exact nm_one|exact nm_two]|]. constructor; [exists ct_tree; split; exact cw_denotes|constructor]. }
  split; [apply (same_show _ _ None (Some nm_short) ps_key); [apply nm_legible|apply nm_legible|exact ps_asked|exact nm_one]|].
  split; [apply (same_compare _ _ None (Some (ds_repo pm_s)) None (Some ct_arg) ct_tree); [reflexivity|apply nm_legible|apply nm_legible|exact (proj1 nm_tree)|exact (proj2 nm_tree)]|].
  split; [apply (same_commit _ _ None (Some (ds_repo pm_s)) (str "m") None (Some (str "master")) (str "master")); [reflexivity|apply nm_legible|apply nm_legible|exact nm_head|reflexivity]|].
  apply (same_ref_update _ _ nm_short nm_branch ps_key None (Some (str "master")) (str "master")); [exact nm_one|exact nm_two|apply nm_legible|apply nm_legible|exact nm_head|reflexivity].
Qed.
