(** Property C82: commits made at the same time. *)
From Verif Require Import Base Key Cbor Object Path World WorldFacts Store Commit Main SpecStore SpecRun Lock SpecLock LockFacts ScriptFacts PlayFacts LockRun
  SpecClosure Integrity Checks SpecBranch BranchFacts TogetherFacts Toy ToyRepo PropsMain PropsLock.

(** ** C82 *)
(** Any number of processes that run any commands on the same repository, interleaved in
    any way, with anything failing, none of which sets the branch [n] by hand.  When those
    that changed something have ended:
    - the branch is linked as before (C81), so whatever was on it is still there;
    - on top of its old entries there is one commit for each of some of the processes,
      made by it, with its message;
    - and every process for which nothing failed, that was to commit to [n] and ended
      without a message, is one of these: no commit is lost to another one. *)
Theorem C82_all_kept :
  forall (E : Env) (cms : nat -> common) sts (cs : nat -> command) (NI : forall i, cs i <> CInit) ws w0 l s n log,
  grown n w0 -> (forall i, w_txn (ws i) = NoTxn) ->
  steps (System (db_at (w_dbs w0) l) (fun i => start (command_job (cms i) (sts i) (cs i) (NI i) (ws i)))) s ->
  (forall i, ended (sy_procs s i) \/ pr_phase (sy_procs s i) <> Over) ->
  no_coll log -> incl (w_hashed w0) log -> (forall i, incl (w_hashed (pr_world (sy_procs s i))) log) ->
  (forall i, hands_off n (cs i)) -> (forall i, text_message (cs i)) ->
  linked (sy_db s) (history n None (repo_of (sy_db s))) /\
  exists made, NoDup (map fst made) /\
    history n None (repo_of (sy_db s)) = map snd made ++ history n None (repo_of (db_at (w_dbs w0) l)) /\
    (forall i k, In (i, k) made -> ended (sy_procs s i) /\ made_by (sy_db s) (cs i) k) /\
    (forall i, (exists p m, cs i = CCommit p m (Some n)) /\ sts i <> None /\ w_faults (ws i) = [] /\
       pr_left (sy_procs s i) = Ended (Done tt) /\ ~ complained (pr_world (sy_procs s i)) -> In i (map fst made)).
Proof.
  intros E cms sts cs NI ws w0 l s n log G NT ST ALL NC I0 HL HO TX.
  apply (all_kept cms sts cs NI ws (db_at (w_dbs w0) l) s NT ST ALL n log NC HO TX HL).
  - eapply db_ok_log; [exact I0|]. exact (reachable_ok w0 (grown_reachable n w0 G) l).
  - apply grown_linked; [exact G|]. exact (fun a b A B H => NC a b (I0 _ A) (I0 _ B) H).
Qed.
Print Assumptions C82_all_kept.

(** Example: two processes that commit, and others that have not begun. *)
Definition tg_cmd (i : nat) : command :=
  match i with O => CCommit None (str "one") (Some (str "master")) | S O => CCommit None (str "two") (Some (str "master")) | _ => CGetHead end.
Lemma tg_cmd_ok i : tg_cmd i <> CInit.
Proof. destruct i as [|[|i]]; discriminate. Qed.
Local Notation tg_begin := (fun i => start (command_job toy_cm (Some pm_s) (tg_cmd i) (tg_cmd_ok i) lk_w)).
Section Way.
  Context (i : nat) (d : db).
  Definition tg_1 := snd (open_cache (with_db d lk_w)).
  Definition tg_2 := snd (try db_begin (with_db d tg_1)).
  Definition tg_3 := snd (cache_begin (with_db d tg_2)).
  Definition tg_4 := snd (try (run_command toy_cm (Some pm_s) (tg_cmd i)) (with_db d tg_3)).
  Definition tg_5 := snd (try db_commit (with_db d tg_4)).
  Definition tg_6 := snd (cache_commit (with_db (disk tg_5) tg_5)).
  Definition tg_works : Prop :=
    open_cache (with_db d lk_w) = (Done tt, tg_1) /\ try db_begin (with_db d tg_1) = (Done (Ok tt), tg_2) /\ cache_begin (with_db d tg_2) = (Done tt, tg_3) /\
    try (run_command toy_cm (Some pm_s) (tg_cmd i)) (with_db d tg_3) = (Done (Ok tt), tg_4) /\ w_txn tg_4 <> NoTxn /\
    try db_commit (with_db d tg_4) = (Done (Ok tt), tg_5) /\ cache_commit (with_db (disk tg_5) tg_5) = (Done tt, tg_6).
  Lemma tg_runs f d' : d' = disk tg_5 -> f i = start (command_job toy_cm (Some pm_s) (tg_cmd i) (tg_cmd_ok i) lk_w) -> (forall j, ~ has_shared (f j) /\ ~ has_reserved (f j)) -> tg_works ->
    exists ph, steps (System d f) (System d' (at_proc f i (Proc (Ended (Done tt)) tg_6 ph))).
  Proof.
    intros -> FI NO (E1 & E2 & E3 & E4 & E5 & E6 & E7).
    exact (runs_whole toy_cm pm_s (tg_cmd i) (tg_cmd_ok i) i f d lk_w _ _ _ _ _ _ FI eq_refl NO E1 E2 E3 E4 E5 E6 E7).
  Qed.
End Way.
Local Notation tg_db0 := (db_at (w_dbs toy_committed) toy_db).
Definition tg_db1 : db := disk (tg_5 0 tg_db0).
Definition tg_db2 : db := disk (tg_5 1 tg_db1).
Lemma tg_q1 : tg_db1 = disk (tg_5 0 tg_db0). Proof. unfold tg_db1. reflexivity. Qed.
Lemma tg_q2 : tg_db2 = disk (tg_5 1 tg_db1). Proof. unfold tg_db2. reflexivity. Qed.
Ltac works := (split; [vm_compute; reflexivity|split; [vm_compute; reflexivity|split; [vm_compute; reflexivity|split; [vm_compute; reflexivity|split; [vm_compute; discriminate|split; vm_compute; reflexivity]]]]]).
Lemma tg_first : tg_works 0 tg_db0. Proof. works. Qed.
Lemma tg_second : tg_works 1 tg_db1. Proof. works. Qed.
Definition tg_log : list bytes := w_hashed (tg_6 0 tg_db0) ++ w_hashed (tg_6 1 tg_db1) ++ w_hashed toy_committed.
Lemma tg_idle i : ~ has_shared (start (command_job toy_cm (Some pm_s) (tg_cmd i) (tg_cmd_ok i) lk_w)) /\ ~ has_reserved (start (command_job toy_cm (Some pm_s) (tg_cmd i) (tg_cmd_ok i) lk_w)).
Proof. split; [intros [_ H]; discriminate H|intros [_ H]]. revert H. vm_compute. discriminate. Qed.
Lemma tg_final : exists ph0 ph1, steps (System tg_db0 tg_begin)
  (System tg_db2 (at_proc (at_proc tg_begin 0 (Proc (Ended (Done tt)) (tg_6 0 tg_db0) ph0)) 1 (Proc (Ended (Done tt)) (tg_6 1 tg_db1) ph1))).
Proof.
  destruct (tg_runs 0 tg_db0 tg_begin tg_db1 tg_q1 eq_refl tg_idle tg_first) as (ph0 & S0).
  destruct (tg_runs 1 tg_db1 (at_proc tg_begin 0 (Proc (Ended (Done tt)) (tg_6 0 tg_db0) ph0)) tg_db2 tg_q2 (at_other _ _ _ 1 (Nat.neq_succ_0 0))) as (ph1 & S1); [|exact tg_second|].
  - intro j. destruct (Nat.eq_dec j 0) as [->|J]; [rewrite at_same; split; intros [[] _]|rewrite at_other by exact J; apply tg_idle].
  - exists ph0, ph1. exact (steps_trans _ _ _ S0 S1).
Qed.
Lemma tg_grown : grown (str "master") toy_committed.
Proof.
  apply gr_process; [apply gr_process; [apply gr_start; reflexivity|exact I|intros st w1 _ []]|reflexivity|intros st w1 _ []].
Qed.
Lemma tg_silent : w_out (tg_6 0 tg_db0) = [] /\ w_out (tg_6 1 tg_db1) = [] /\ w_faults lk_w = [].
Proof. split; [vm_compute; reflexivity|]. split; vm_compute; reflexivity. Qed.
Lemma tg_lengths : length (history (str "master") None (repo_of tg_db0)) = 1 /\ length (history (str "master") None (repo_of tg_db2)) = 3.
Proof. split; vm_compute; reflexivity. Qed.
Lemma tg_clear : no_coll tg_log.
Proof. apply logb_ok. vm_compute. reflexivity. Qed.
Lemma connected_hashed w l : w_hashed (connected w l) = w_hashed w.
Proof. reflexivity. Qed.
Lemma tg_same : incl (w_hashed lk_w) tg_log.
Proof. unfold lk_w. rewrite connected_hashed. apply incl_appr, incl_appr, incl_refl. Qed.
Example C82_example : exists s,
  grown (str "master") toy_committed /\ (forall i : nat, w_txn lk_w = NoTxn) /\
  steps (System (db_at (w_dbs toy_committed) toy_db) (fun i => start (command_job toy_cm (Some pm_s) (tg_cmd i) (tg_cmd_ok i) lk_w))) s /\
  (forall i, ended (sy_procs s i) \/ pr_phase (sy_procs s i) <> Over) /\
  no_coll tg_log /\ incl (w_hashed toy_committed) tg_log /\ (forall i, incl (w_hashed (pr_world (sy_procs s i))) tg_log) /\
  (forall i, hands_off (str "master") (tg_cmd i)) /\ (forall i, text_message (tg_cmd i)) /\
  (forall i, i < 2 -> (exists p m, tg_cmd i = CCommit p m (Some (str "master"))) /\ Some pm_s <> None /\ w_faults lk_w = [] /\
     pr_left (sy_procs s i) = Ended (Done tt) /\ w_out (pr_world (sy_procs s i)) = []) /\
  length (history (str "master") None (repo_of (db_at (w_dbs toy_committed) toy_db))) = 1 /\ length (history (str "master") None (repo_of (sy_db s))) = 3.
Proof.
  destruct tg_final as (ph0 & ph1 & S). eexists. split; [exact tg_grown|]. split; [reflexivity|]. split; [exact S|]. cbn [sy_procs sy_db].
  assert (Cs : forall i, i = 0 \/ i = 1 \/ (i <> 0 /\ i <> 1)) by (intro; lia).
  split. { intro i. destruct (Cs i) as [->|[->|[A B]]]; [left; eexists; reflexivity..|]. right. rewrite !at_other by assumption. discriminate. }
  split; [exact tg_clear|]. split; [apply incl_appr, incl_appr, incl_refl|].
  split. { intro i. destruct (Cs i) as [->|[->|[A B]]]; [apply incl_appl, incl_refl|apply incl_appr, incl_appl, incl_refl|]. rewrite !at_other by assumption. cbn [start pr_world j_world command_job]. exact tg_same. }
  split. { intro i. destruct i as [|[|i]]; exact I. }
  split. { intro i. destruct i as [|[|i]]; [reflexivity|reflexivity|exact I]. }
  split; [|exact tg_lengths].
  destruct tg_silent as (O0 & O1 & F). intros i Hi. destruct (Cs i) as [->|[->|[A B]]]; [| |lia].
  - split; [eexists _, _; reflexivity|]. split; [discriminate|]. split; [exact F|]. split; [reflexivity|exact O0].
  - split; [eexists _, _; reflexivity|]. split; [discriminate|]. split; [exact F|]. split; [reflexivity|exact O1].
Qed.
