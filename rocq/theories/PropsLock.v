(** Several processes on one repository: C58. *)
From Verif Require Import Base Key Cbor Object Path World WorldFacts Store Commit Main SpecRun Lock SpecLock LockFacts ScriptFacts PlayFacts LockRun Toy ToyRepo PropsMain.

(** Any number of processes, each running some command on the open repository, and
    any interleaving of their statements that SQLite's locks permit, with any
    failures.  There is an order of the processes that committed such that the
    database is what running these one after another makes of it, each on what the
    previous left.  A process that has ended did and printed exactly what it does
    when it runs alone at its place in that order; one that did not commit, what it
    does when it runs alone at some place in that order, and there it changes
    nothing. *)
Theorem C58_serialisable :
  forall (E : Env) (cms : nat -> common) sts (cs : nat -> command) (NI : forall i, cs i <> CInit) ws d0 s,
  (forall i, w_txn (ws i) = NoTxn) ->
  steps (System d0 (fun i => start (command_job (cms i) (sts i) (cs i) (NI i) (ws i)))) s ->
  let alone i d := main_rest (cms i) (sts i) (cs i) (with_db d (ws i)) in
  exists h, NoDup (map fst h) /\ sy_db s = last_db d0 h /\
    forall i o, pr_left (sy_procs s i) = Ended o ->
      (exists h1 d h2, h = h1 ++ (i, d) :: h2 /\ ended_like (sy_procs s i) (alone i (last_db d0 h1)) /\
         disk (snd (alone i (last_db d0 h1))) = d) \/
      (~ In i (map fst h) /\ exists h1 h2, h = h1 ++ h2 /\ ended_like (sy_procs s i) (alone i (last_db d0 h1)) /\
         disk (snd (alone i (last_db d0 h1))) = last_db d0 h1).
Proof. intros E cms sts cs NI ws d0 s. apply serialisable. Qed.
Print Assumptions C58_serialisable.

(** In particular, when all the processes that committed have ended. *)
Theorem C58_one_after_another :
  forall (E : Env) (cms : nat -> common) sts (cs : nat -> command) (NI : forall i, cs i <> CInit) ws d0 s,
  (forall i, w_txn (ws i) = NoTxn) ->
  steps (System d0 (fun i => start (command_job (cms i) (sts i) (cs i) (NI i) (ws i)))) s ->
  (forall i, ended (sy_procs s i) \/ pr_phase (sy_procs s i) <> Over) ->
  exists order, NoDup order /\ one_after_another (fun i d => main_rest (cms i) (sts i) (cs i) (with_db d (ws i))) d0 order (sy_db s).
Proof. intros E cms sts cs NI ws d0 s. apply in_order. Qed.
Print Assumptions C58_one_after_another.

(** At no time do two processes have uncommitted changes, and the one that has them
    holds SHARED: no other process can commit before it is done. *)
Theorem C58_one_writer :
  forall (E : Env) (cms : nat -> common) sts (cs : nat -> command) (NI : forall i, cs i <> CInit) ws d0 s,
  (forall i, w_txn (ws i) = NoTxn) ->
  steps (System d0 (fun i => start (command_job (cms i) (sts i) (cs i) (NI i) (ws i)))) s ->
  (forall i j, has_reserved (sy_procs s i) -> has_reserved (sy_procs s j) -> i = j) /\
  (forall i, has_reserved (sy_procs s i) -> has_shared (sy_procs s i)).
Proof.
  intros E cms sts cs NI ws d0 s NT ST. split.
  - refine (one_writer _ _ ST _). intros i j [_ D] _. unfold dirty in D. cbn in D. rewrite NT in D. discriminate D.
  - intro i. eapply reserved_shared; eassumption.
Qed.
Print Assumptions C58_one_writer.

(** Process 0 sets HEAD, the others print it. *)
Definition lk_w : world := connected toy_committed toy_db.
Definition lk_db : db := disk lk_w.
Definition lk_cmd (i : nat) : command := match i with O => CSetHead (str "other") | _ => CGetHead end.
Lemma lk_cmd_ok i : lk_cmd i <> CInit.
Proof. destruct i; discriminate. Qed.
(** What the operations of process 0 will do: all succeed, the COMMIT does or does
    not. *)
Definition lk_faults (commit : fault) : list fault := [FOk; FOk; FOk; FOk; commit].
Definition lk_world (commit : fault) (i : nat) : world := match i with O => set_faults lk_w (lk_faults commit) | _ => lk_w end.
Definition lk_jobs (commit : fault) (i : nat) : job := command_job toy_cm (Some pm_s) (lk_cmd i) (lk_cmd_ok i) (lk_world commit i).
Definition lk_start (commit : fault) : system := System lk_db (fun i => start (lk_jobs commit i)).

(** The worlds on the way of process [i] to the end of its command. *)
Definition lk_1 c i := snd (open_cache (with_db lk_db (lk_world c i))).
Definition lk_2 c i := snd (try db_begin (with_db lk_db (lk_1 c i))).
Definition lk_3 c i := snd (cache_begin (with_db lk_db (lk_2 c i))).
Definition lk_4 c i := snd (try (run_command toy_cm (Some pm_s) (lk_cmd i)) (with_db lk_db (lk_3 c i))).

Lemma lk_way c i : i < 2 ->
  open_cache (with_db lk_db (lk_world c i)) = (Done tt, lk_1 c i) /\
  try db_begin (with_db lk_db (lk_1 c i)) = (Done (Ok tt), lk_2 c i) /\
  cache_begin (with_db lk_db (lk_2 c i)) = (Done tt, lk_3 c i) /\
  try (run_command toy_cm (Some pm_s) (lk_cmd i)) (with_db lk_db (lk_3 c i)) = (Done (Ok tt), lk_4 c i) /\ w_txn (lk_4 c i) <> NoTxn.
Proof.
  intro I2. destruct i as [|[|i]]; [| |lia];
    (split; [vm_compute; reflexivity|split; [vm_compute; reflexivity|split; [vm_compute; reflexivity|split; [vm_compute; reflexivity|vm_compute; discriminate]]]]).
Qed.
Lemma lk_idle c i : w_txn (lk_world c i) = NoTxn.
Proof. destruct i; vm_compute; reflexivity. Qed.
Lemma lk_commits c : next_fault (lk_4 c 0) = c /\ dirty (lk_4 c 0) = true /\ dirty (lk_4 c 1) = false.
Proof. split; [vm_compute; reflexivity|]. split; vm_compute; reflexivity. Qed.
Lemma lk_differs c : w_out (snd (alone (lk_jobs c 1) db_empty)) <> w_out (snd (finish (Some pm_s) (Ok tt) (with_db db_empty (lk_4 c 1)))).
Proof. vm_compute. discriminate. Qed.
Definition lk_5 c : world := snd (try db_commit (with_db lk_db (lk_4 c 0))).
Definition lk_6 c : world := snd (cache_commit (with_db (disk (lk_5 c)) (lk_5 c))).
Lemma lk_refused : try db_commit (with_db lk_db (lk_4 (FErr 0) 0)) = (Done (Err ESql), lk_5 (FErr 0)) /\ disk (lk_5 (FErr 0)) = lk_db /\
  cache_commit (with_db lk_db (lk_5 (FErr 0))) = (Done tt, lk_6 (FErr 0)) /\ w_out (lk_6 (FErr 0)) = w_out (lk_world (FErr 0) 0) /\
  w_faults (lk_4 (FErr 0) 0) = [FErr 0].
Proof. split; [vm_compute; reflexivity|]. split; [vm_compute; reflexivity|]. split; [vm_compute; reflexivity|]. split; vm_compute; reflexivity. Qed.
Lemma lk_done : try db_commit (with_db lk_db (lk_4 FOk 0)) = (Done (Ok tt), lk_5 FOk) /\
  cache_commit (with_db (disk (lk_5 FOk)) (lk_5 FOk)) = (Done tt, lk_6 FOk).
Proof. split; vm_compute; reflexivity. Qed.
Lemma lk_only f : In f (removelast (w_faults (lk_world (FErr 0) 0))) -> f = FOk.
Proof. cbn. intuition congruence. Qed.
Lemma lk_changes : disk (snd (main_rest toy_cm (Some pm_s) (lk_cmd 0) (with_db lk_db (set_faults (lk_world (FErr 0) 0) [])))) <> lk_db.
Proof. intro K. apply (f_equal (fun d => assoc (str "HEAD") (d_state d))) in K. revert K. vm_compute. discriminate. Qed.

(** Refuted: a process whose COMMIT is refused, because another one is reading,
    ends like one that has committed: exit status 0 and no message.  Its change is
    lost.  The refusal is the only failure, and COMMIT could not have succeeded. *)
Theorem C58_commit_lost_refuted :
  exists (E : Env) (cms : nat -> common) sts (cs : nat -> command) (NI : forall i, cs i <> CInit) ws d0 s1 s2 m k HC HE HK,
  steps (System d0 (fun i => start (command_job (cms i) (sts i) (cs i) (NI i) (ws i)))) s1 /\
  pr_left (sy_procs s1 0) = Rest m (ScStep true m unit SCommit k HC HE HK) /\
  w_faults (pr_world (sy_procs s1 0)) = [FErr 0] /\ (forall f, In f (removelast (w_faults (ws 0))) -> f = FOk) /\
  has_reserved (sy_procs s1 0) /\ has_shared (sy_procs s1 1) /\
  ~ permitted (exists j, j <> 0 /\ has_shared (sy_procs s1 j)) (exists j, j <> 0 /\ has_reserved (sy_procs s1 j))
      SCommit (pr_phase (sy_procs s1 0)) (set_faults (pr_world (sy_procs s1 0)) []) /\
  steps s1 s2 /\ pr_left (sy_procs s2 0) = Ended (Done tt) /\ w_out (pr_world (sy_procs s2 0)) = w_out (ws 0) /\
  sy_db s2 = d0 /\
  disk (snd (main_rest (cms 0) (sts 0) (cs 0) (with_db d0 (set_faults (ws 0) [])))) <> d0.
Proof.
  destruct lk_refused as (E5 & D5 & E6 & O6 & F4). destruct (lk_commits (FErr 0)) as (NF & DI & RD).
  destruct (meet toy_cm pm_s lk_cmd lk_cmd_ok (lk_world (FErr 0)) _ _ _ _ lk_db db_empty (lk_way (FErr 0)) (lk_idle (FErr 0)) RD (lk_differs (FErr 0)))
    as (b & s1 & S1 & D1 & SH & CO & P0).
  destruct (refused pm_s _ lk_db s1 b 0 _ _ D1 P0 CO NF E5 D5 E6) as (s2 & S2 & L2 & W2 & D2).
  exists toy_env, (fun _ => toy_cm), (fun _ => Some pm_s), lk_cmd, lk_cmd_ok, (lk_world (FErr 0)), lk_db, s1, s2.
  eexists _, _, _, _, _. rewrite P0, W2, L2. unfold at_end. cbn [pr_left pr_world pr_phase].
  split; [exact S1|].
  split; [reflexivity|].
  split; [exact F4|].
  split; [exact lk_only|].
  split; [split; [exact I|exact DI]|].
  split; [exact SH|].
  split; [apply commit_needs; [exact DI|]; exists 1; split; [discriminate|exact SH]|].
  split; [exact S2|].
  split; [reflexivity|].
  split; [exact O6|].
  split; [exact D2|].
  exact lk_changes.
Qed.
Print Assumptions C58_commit_lost_refuted.

(** A run in which process 0 has changed HEAD and not yet committed, while process 1
    has read it. *)
Example C58_one_writer_example : exists s, steps (lk_start FOk) s /\ has_reserved (sy_procs s 0) /\ has_shared (sy_procs s 1) /\ ~ has_reserved (sy_procs s 1).
Proof.
  destruct (lk_commits FOk) as (NF & DI & RD).
  destruct (meet toy_cm pm_s lk_cmd lk_cmd_ok (lk_world FOk) _ _ _ _ lk_db db_empty (lk_way FOk) (lk_idle FOk) RD (lk_differs FOk))
    as (b & s1 & S1 & D1 & SH & CO & P0).
  assert (R0 : has_reserved (sy_procs s1 0)) by (rewrite P0; split; [exact I|exact DI]).
  exists s1. split; [exact S1|]. split; [exact R0|]. split; [exact SH|]. intro R1.
  destruct (C58_one_writer _ _ _ _ _ _ _ _ (lk_idle FOk) S1) as [ONE _]. discriminate (ONE _ _ R0 R1).
Qed.

(** A run in which process 0 commits. *)
Example C58_example : exists s, steps (lk_start FOk) s /\ ended (sy_procs s 0) /\
  assoc (str "HEAD") (d_state lk_db) = Some (str "master") /\ assoc (str "HEAD") (d_state (sy_db s)) = Some (str "other").
Proof.
  destruct lk_done as [E5 E6].
  destruct (commits_alone toy_cm pm_s lk_cmd lk_cmd_ok (lk_world FOk) _ _ _ _ lk_db (lk_way FOk) (lk_idle FOk) _ _ E5 E6) as (s & S & L & D).
  exists s. split; [exact S|]. split; [exists (Done tt); exact L|]. rewrite D. split; vm_compute; reflexivity.
Qed.
