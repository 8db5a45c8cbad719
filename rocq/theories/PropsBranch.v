(** Property C81: a branch that was only extended by [commit]. *)
From Verif Require Import Base BaseFacts Key KeyFacts Keyish Cbor Object Path World WorldFacts Store File Filter Dir Diff Commit Main SpecStore SpecRun SpecProc SpecFile SpecDir SpecClosure
  SpecCache SpecDiff SpecPatch SpecShow SpecOut SpecCmd SpecText SpecShape SpecCheckout SpecLive LiveCmd LiveStart LiveStory FsFacts CmdFacts OutFacts ShapeTop Checks Toy ToyRepo
  Screen SpecScreen SpecRestore RestoreFacts PropsMain PropsShow PropsCmd PropsShape PropsLive PropsCheckout PropsStory PropsRestore SpecBranch BranchFacts.

(** ** C81 *)
(** As long as nobody sets the branch by hand, whatever else is done with the repository
    and whatever fails or is killed, the entries of the branch are commits and each has
    the next older one as its only parent; the oldest has none.  In every database, ... *)
Theorem C81_linked :
  forall (E : Env) n w l, grown n w -> no_coll (w_hashed w) -> linked (db_at (w_dbs w) l) (history n None (repo_of (db_at (w_dbs w) l))).
Proof. intros E n w l. apply grown_linked. Qed.
Print Assumptions C81_linked.
(** ... and as each process sees it: the entries are the ancestry of the newest one, and
    no commit is in it twice. *)
Theorem C81_ancestry :
  forall (E : Env) n cm w st w1 k l, grown n w -> starts cm w st w1 -> no_coll (w_hashed w1) -> history n None (repo_of (cur_db w1)) = k :: l ->
  lineage w1 k (k :: l) /\ (forall k', In k' (k :: l) -> exists c, is_commit w1 k' c) /\ NoDup (k :: l).
Proof. intros E n cm w st w1 k l. apply newest_lineage. Qed.
Print Assumptions C81_ancestry.
(** So whatever was once an entry of the branch stays among the ancestors of its newest
    commit. *)
Theorem C81_never_lost :
  forall (E : Env) n cm l w w' st w1 k, grown n w' -> later l w w' -> In k (history n None (repo_of (db_at (w_dbs w) l))) ->
  starts cm w' st w1 -> cur_db w1 = db_at (w_dbs w') l -> no_coll (w_hashed w1) ->
  exists newest ancestry, hd_error (history n None (repo_of (cur_db w1))) = Some newest /\ lineage w1 newest ancestry /\ In k ancestry.
Proof. intros E n cm l w w' st w1 k. apply ancestor. Qed.
Print Assumptions C81_never_lost.
(** And [log] prints a summary for exactly the entries that [ref log] lists (C76). *)
Theorem C81_log :
  forall (E : Env) (F : Fmt) n cm w s w1 w2, grown n w -> well_used w -> starts cm w (Some s) w1 -> no_coll (w_hashed w1) -> rp_head (repo_of (cur_db w1)) = Some n ->
  run_command cm (Some s) (CLog None) w1 = (Done tt, w2) ->
  exists blocks, Forall2 (summary w1) (history n None (repo_of (cur_db w1))) blocks /\ writes_lines w1 w2 (concat blocks).
Proof. intros E F n cm w s w1 w2. apply log_is_history. Qed.
Print Assumptions C81_log.

(** Examples: the repository of C79, committed to twice ... *)
#[local] Existing Instance co_env.
Lemma grown_step {E : Env} n cm c w : grown n w -> text_message c -> match c with CReflogPush _ _ _ | CRefUpdate _ _ => False | _ => True end ->
  grown n (snd (run_process cm c w)).
Proof. intros G T N. apply gr_process; [exact G|exact T|]. intros st w1 _ B. destruct c; auto. Qed.
Lemma br_grown : grown (str "master") co_committed /\ grown (str "master") rs_two.
Proof.
  assert (G : grown (str "master") co_committed) by (apply grown_step; [apply grown_step; [apply gr_start; reflexivity|exact I|exact I]|reflexivity|exact I]).
  split; [exact G|]. apply grown_step; [|reflexivity|exact I]. eapply gr_outside; [exact G|exact (outside_fs _ _)].
Qed.
Lemma br_first : history (str "master") None (repo_of (db_at (w_dbs co_committed) (db_file co_home [str ".snapcd"]))) = [rs_old].
Proof. vm_compute. reflexivity. Qed.
Definition br_new : key := hd ct_tree (history (str "master") None (repo_of rs_db)).
(** ... and the same one committed to again without a change, which [log] can show. *)
Definition br_two : world := snd (run_process co_cm (CCommit None (str "again") None) co_committed).
Definition br_log1 : world := snd (setup co_cm (close_all br_two)).
Definition br_ds : ds_state := match fst (setup co_cm (close_all br_two)) with Done (Some s) => s | _ => co_s end.
Lemma br_starts : starts co_cm br_two (Some br_ds) br_log1.
Proof. vm_compute. reflexivity. Qed.
Definition br_again : key := hd ct_tree (history (str "master") None (repo_of (cur_db br_log1))).
Lemma br_later : later (db_file co_home [str ".snapcd"]) co_committed br_two.
Proof. apply later_process; [apply later_refl|apply there_ok; vm_compute; reflexivity]. Qed.
Example C81_example :
  grown (str "master") rs_two /\ no_coll (w_hashed rs_two) /\ history (str "master") None (repo_of rs_db) = [br_new; rs_old] /\
  grown (str "master") br_two /\ well_used br_two /\ starts co_cm br_two (Some br_ds) br_log1 /\ no_coll (w_hashed br_log1) /\ rp_head (repo_of (cur_db br_log1)) = Some (str "master") /\
  later (db_file co_home [str ".snapcd"]) co_committed br_two /\ cur_db br_log1 = db_at (w_dbs br_two) (db_file co_home [str ".snapcd"]) /\
  In rs_old (history (str "master") None (repo_of (db_at (w_dbs co_committed) (db_file co_home [str ".snapcd"])))) /\
  history (str "master") None (repo_of (cur_db br_log1)) = [br_again; rs_old] /\
  fst (run_command co_cm (Some br_ds) (CLog None) br_log1) = Done tt.
Proof.
  split; [exact (proj2 br_grown)|]. split; [apply logb_ok; vm_compute; reflexivity|]. split; [vm_compute; reflexivity|]. split; [apply grown_step; [exact (proj1 br_grown)|reflexivity|exact I]|].
  split; [apply used_step; [exact st_used2|vm_compute; reflexivity|reflexivity]|]. split; [exact br_starts|]. split; [apply logb_ok; vm_compute; reflexivity|]. split; [vm_compute; reflexivity|].
  split; [exact br_later|]. split; [vm_compute; reflexivity|]. split; [rewrite br_first; left; reflexivity|]. split; [vm_compute; reflexivity|vm_compute; reflexivity].
Qed.
Lemma not_twice {A} (a b : A) : NoDup [a; b; a] -> False.
Proof. intro ND. inversion ND as [|? ? N _]. apply N. right. left. reflexivity. Qed.
Lemma br_moved : history (str "master") None (repo_of (db_at (w_dbs rs_moved) (db_file co_home [str ".snapcd"]))) = [rs_old; br_new; rs_old].
Proof. vm_compute. reflexivity. Qed.
(** ... and the condition is needed: after [ref update] to the first commit it is the
    newest entry and the oldest one. *)
Theorem C81_by_hand_refuted :
  ~ (forall (E : Env) n w l, reachable w -> no_coll (w_hashed w) -> linked (db_at (w_dbs w) l) (history n None (repo_of (db_at (w_dbs w) l)))).
Proof.
  intro H. specialize (H co_env (str "master") rs_moved (db_file co_home [str ".snapcd"])).
  assert (R : reachable rs_moved) by (apply reach_process, used_reachable, rs_used).
  specialize (H R ltac:(apply logb_ok; vm_compute; reflexivity)).
  rewrite br_moved in H. pose proof (linked_nodup rs_moved _ _ H) as ND.
  exact (not_twice _ _ ND).
Qed.
Print Assumptions C81_by_hand_refuted.
