(** The theorem about interleavings, for commands. *)
From Verif Require Import Base Path World WorldFacts Main Lock SpecLock LockFacts ScriptFacts PlayFacts.

(** A process becomes a writer by a change only, and only when there is no other. *)
Lemma newly_dirty OS OR {B} (st : stmt B) ph w d r w1 : permitted OS OR st ph w ->
  try (exec st) (with_db d w) = (Done r, w1) -> dirty w1 = true -> dirty w = true \/ ~ OR.
Proof.
  intros PE EX D. unfold dirty in *. destruct st as [B m L|B q|u| | |]; cbn [exec] in EX.
  - left. destruct (proj2 L (with_db d w)) as (_ & _ & T). unfold try in EX. destruct (m (with_db d w)) as [[a|e|p| |] w2]; cbn in T;
      inversion EX; subst; rewrite T in D; exact D.
  - left. unfold try, db_read in EX. rewrite op_next, next_with_db in EX. destruct (next_fault w); inversion EX; subst; solve [exact D|discriminate D].
  - unfold try, db_write in EX. rewrite op_next, next_with_db in EX. destruct PE as [_ PE]. destruct (next_fault w) as [|n| |[|n]].
    + right. apply PE. reflexivity.
    + left. inversion EX; subst; exact D.
    + inversion EX; subst; discriminate D.
    + discriminate EX.
    + discriminate EX.
  - left. unfold try, db_begin in EX. rewrite op_next, next_with_db in EX. cbn in EX. destruct (next_fault w); [destruct (w_txn w) eqn:T|..]; inversion EX; subst; cbn in D; try rewrite T in D; solve [exact D|discriminate D|reflexivity].
  - left. unfold try, db_commit in EX. rewrite op_next, next_with_db in EX. cbn in EX. unfold commit_now in EX. cbn in EX.
    destruct (next_fault w) as [|n| |[|n]]; [destruct (w_txn w) eqn:T|..]; inversion EX; subst; cbn in D; try rewrite T in D; solve [exact D|discriminate D|reflexivity].
  - left. unfold try, db_rollback in EX. rewrite op_next, next_with_db in EX. cbn in EX. destruct (next_fault w); [destruct (w_txn w) eqn:T|..]; inversion EX; subst; cbn in D; try rewrite T in D; solve [exact D|discriminate D|reflexivity].
Qed.
Lemma one_writer s s' : steps s s' ->
  (forall i j, has_reserved (sy_procs s i) -> has_reserved (sy_procs s j) -> i = j) ->
  forall i j, has_reserved (sy_procs s' i) -> has_reserved (sy_procs s' j) -> i = j.
Proof.
  induction 1 as [s|s s1 s2 _ IH (i & AD & OTH)]; intro ONE; [exact ONE|]. specialize (IH ONE).
  assert (KEY : has_reserved (sy_procs s2 i) -> has_reserved (sy_procs s1 i) \/ ~ (exists j, j <> i /\ has_reserved (sy_procs s1 j))).
  { revert AD. generalize (sy_procs s2 i), (sy_procs s1 i), (sy_db s2). intros p2 p1 d2 AD. destruct AD as [m B st k HC HE HK w ph o w1 PE EX|m L w ph o w1 EX]; intros [A D].
    - cbn in A, D. destruct o as [r|e|p| |]; try (destruct A; fail).
      destruct (newly_dirty _ _ _ _ _ _ _ _ PE EX D) as [K|K]; [left; split; [exact I|exact K]|right; exact K].
    - destruct A. }
  assert (LONE : forall j, j <> i -> has_reserved (sy_procs s2 i) -> has_reserved (sy_procs s2 j) -> False).
  { intros j J RI RJ. rewrite (OTH j J) in RJ. destruct (KEY RI) as [K|K]; [apply J; exact (IH _ _ RJ K)|]. apply K. exists j. split; assumption. }
  intros a b RA RB. destruct (Nat.eq_dec a i) as [->|A]; destruct (Nat.eq_dec b i) as [->|B]; [reflexivity| | |].
  - exfalso. exact (LONE b B RA RB).
  - exfalso. exact (LONE a A RB RA).
  - rewrite (OTH a A) in RA. rewrite (OTH b B) in RB. exact (IH _ _ RA RB).
Qed.

Section LockRun.
  Context {E : Env} (cms : nat -> common) (sts : nat -> option ds_state) (cs : nat -> command) (NI : forall i, cs i <> CInit).
  Variables (ws : nat -> world) (d0 : db) (s : system).
  Hypothesis NT : forall i, w_txn (ws i) = NoTxn.
  Let jobs i := command_job (cms i) (sts i) (cs i) (NI i) (ws i).
  Hypothesis ST : steps (System d0 (fun i => start (jobs i))) s.

  Lemma resume_ended p o d : pr_left p = Ended o -> resume p d = (o, with_db d (pr_world p)).
  Proof. intro H. unfold resume. rewrite H. reflexivity. Qed.
  Lemma ended_as p o d j d' : pr_left p = Ended o -> alone j d' = resume p d ->
    ended_like p (alone j d') /\ disk (snd (alone j d')) = d.
  Proof.
    intros H A. rewrite A, (resume_ended _ _ _ H). split; [split; [exact H|reflexivity]|]. apply disk_with_db.
  Qed.
  Lemma all_ok : exists h, sys_ok jobs d0 h s.
  Proof. eapply sys_steps; [exact ST|]. apply sys_start. exact NT. Qed.

  Lemma serialisable : exists h, NoDup (map fst h) /\ sy_db s = last_db d0 h /\
    forall i o, pr_left (sy_procs s i) = Ended o ->
      (exists h1 d h2, h = h1 ++ (i, d) :: h2 /\ ended_like (sy_procs s i) (alone (jobs i) (last_db d0 h1)) /\
         disk (snd (alone (jobs i) (last_db d0 h1))) = d) \/
      (~ In i (map fst h) /\ exists h1 h2, h = h1 ++ h2 /\ ended_like (sy_procs s i) (alone (jobs i) (last_db d0 h1)) /\
         disk (snd (alone (jobs i) (last_db d0 h1))) = last_db d0 h1).
  Proof.
    destruct all_ok as (h & ND & DB & OK). exists h. split; [exact ND|]. split; [exact DB|].
    intros i o EN. specialize (OK i). unfold proc_ok in OK. rewrite EN in OK.
    destruct OK as [(h1 & d & h2 & -> & A)|(N & h1 & h2 & -> & A)].
    - left. exists h1, d, h2. split; [reflexivity|]. eapply ended_as; eauto.
    - right. split; [exact N|]. exists h1, h2. split; [reflexivity|]. eapply ended_as; eauto.
  Qed.

  (** ** One writer *)
  Lemma reserved_shared i : has_reserved (sy_procs s i) -> has_shared (sy_procs s i).
  Proof.
    destruct all_ok as (h & _ & _ & OK). specialize (OK i). unfold proc_ok in OK. intros [A D]. split; [exact A|]. unfold alive in A.
    destruct (pr_left (sy_procs s i)) as [m sc|o]; [|destruct A]. destruct OK as [CO _]. unfold dirty in D. unfold consistent in CO.
    destruct (pr_phase (sy_procs s i)) as [|[]|]; try reflexivity; rewrite CO in D; discriminate D.
  Qed.

  Lemma committed_over h : sys_ok jobs d0 h s -> forall i, In i (map fst h) -> ended (sy_procs s i) \/ pr_phase (sy_procs s i) = Over.
  Proof.
    intros (_ & _ & OK) i I. specialize (OK i). unfold proc_ok in OK. unfold ended.
    destruct (pr_left (sy_procs s i)) as [m sc|o]; [|eauto]. destruct OK as [_ OK].
    destruct (pr_phase (sy_procs s i)) as [|[]|]; auto; destruct OK; contradiction.
  Qed.

  Lemma same_place {A} (i : nat) (d d' : A) h1 : forall h2 a1 a2, NoDup (map fst (h1 ++ (i, d) :: h2)) ->
    h1 ++ (i, d) :: h2 = a1 ++ (i, d') :: a2 -> a1 = h1 /\ d' = d.
  Proof.
    induction h1 as [|x h1 IH]; intros h2 [|y a1] a2 ND H; cbn in *; injection H as H1 H2; subst.
    - auto.
    - exfalso. inversion ND as [|? ? N _]; subst. apply N. rewrite map_app, in_app_iff. cbn. auto.
    - exfalso. inversion ND as [|? ? N _]; subst. apply N. rewrite map_app, in_app_iff. cbn. auto.
    - inversion ND; subst. destruct (IH _ _ _ ltac:(eassumption) H2) as [-> ->]. auto.
  Qed.

  Lemma in_order : (forall i, ended (sy_procs s i) \/ pr_phase (sy_procs s i) <> Over) ->
    exists order, NoDup order /\ one_after_another (fun i d => alone (jobs i) d) d0 order (sy_db s).
  Proof.
    intro ALL. destruct all_ok as (h & OK). pose proof OK as (ND & DB & OKS). exists (map fst h). split; [exact ND|].
    rewrite DB. 
    assert (H : forall h2 h1, h = h1 ++ h2 -> one_after_another (fun i d => alone (jobs i) d) (last_db d0 h1) (map fst h2) (last_db d0 h)).
    { induction h2 as [|[i d] h2 IH]; intros h1 H.
      - rewrite app_nil_r in H. subst h1. constructor.
      - change (map fst ((i, d) :: h2)) with (i :: map fst h2). constructor.
        assert (D : disk (snd (alone (jobs i) (last_db d0 h1))) = d).
        { assert (I : In i (map fst h)) by (rewrite H, map_app, in_app_iff; cbn; auto).
          assert (EN : ended (sy_procs s i)).
          { destruct (ALL i) as [EN|NO]; [exact EN|]. destruct (committed_over h OK i I) as [EN|OV]; [exact EN|contradiction]. }
          destruct EN as [o EN]. specialize (OKS i). unfold proc_ok in OKS. rewrite EN in OKS.
          destruct OKS as [(a1 & da & a2 & H' & A)|(N & _)]; [|contradiction].
          rewrite H in H', ND. destruct (same_place _ _ _ _ _ _ _ ND H') as [-> ->].
          rewrite A, (resume_ended _ _ _ EN). apply disk_with_db. }
        cbv beta. rewrite D. specialize (IH (h1 ++ [(i, d)])). rewrite last_db_app in IH. apply IH. rewrite <- app_assoc. exact H. }
    apply (H h []). reflexivity.
  Qed.
End LockRun.

(** A process without a SHARED lock has not seen the database. *)
Lemma not_read jobs d0 h i p m sc w : proc_ok jobs d0 h i p -> p = Proc (Rest m sc) w (Opened false) ->
  forall d, alone (jobs i) d = m (with_db d w).
Proof. intros OK ->. destruct OK as (_ & _ & OK). exact OK. Qed.

(** ** Two processes meeting *)
Section Meet.
  Context {E : Env} (cm : common) (st : ds_state) (cs : nat -> command) (NI : forall i, cs i <> CInit).
  Variables (ws v1 v2 v3 v4 : nat -> world) (d dx : db).
  Let jobs i := command_job cm (Some st) (cs i) (NI i) (ws i).
  Hypothesis way : forall i, i < 2 ->
    open_cache (with_db d (ws i)) = (Done tt, v1 i) /\
    try db_begin (with_db d (v1 i)) = (Done (Ok tt), v2 i) /\
    cache_begin (with_db d (v2 i)) = (Done tt, v3 i) /\
    try (run_command cm (Some st) (cs i)) (with_db d (v3 i)) = (Done (Ok tt), v4 i) /\ w_txn (v4 i) <> NoTxn.
  Hypothesis idle : forall i, w_txn (ws i) = NoTxn.
  Hypothesis reader : dirty (v4 1) = false.
  Hypothesis differs : w_out (snd (alone (jobs 1) dx)) <> w_out (snd (finish (Some st) (Ok tt) (with_db dx (v4 1)))).
  Definition at_end (i : nat) (b : bool) : proc := Proc (Rest (finish (Some st) (Ok tt)) (script_finish (Some st) (Ok tt))) (v4 i) (Opened b).

  Lemma go i f : f i = start (jobs i) -> ~ reserved_by_others f i -> i < 2 ->
    exists b, consistent (Opened b) (v4 i) /\
      forall f', f' i = at_end i b -> (forall j, j <> i -> f' j = f j) -> steps (System d f) (System d f').
  Proof.
    intros FI NR I2. destruct (way i I2) as (X1 & X2 & X3 & X4 & X5).
    exact (reach_end_of_command cm st (cs i) (NI i) i f d (ws i) _ _ _ _ _ FI (idle i) NR X1 X2 X3 X4 X5).
  Qed.
  Lemma idle_free i : ~ has_reserved (start (jobs i)).
  Proof. intros [_ H]. cbn in H. unfold dirty in H. rewrite idle in H. discriminate. Qed.
  Definition begun : system := System d (fun i => start (jobs i)).

  (** Process 1 has read, process 0 is about to commit. *)
  Lemma meet : exists b s, steps begun s /\ sy_db s = d /\ has_shared (sy_procs s 1) /\
    consistent (Opened b) (v4 0) /\ sy_procs s 0 = at_end 0 b.
  Proof.
    set (f0 := fun i => start (jobs i)).
    destruct (go 1 f0) as (b1 & C1 & S1); [reflexivity| |lia|].
    { intros (j & _ & H). exact (idle_free j H). }
    specialize (S1 (at_proc f0 1 (at_end 1 b1)) (at_same _ _ _) (fun j J => at_other _ _ _ j J)).
    destruct (go 0 (at_proc f0 1 (at_end 1 b1))) as (b0 & C0 & S0); [reflexivity| |lia|].
    { intros (j & J & H). destruct (Nat.eq_dec j 1) as [->|J1].
      - rewrite at_same in H. destruct H as [_ H]. cbn in H. congruence.
      - rewrite at_other in H by exact J1. exact (idle_free j H). }
    specialize (S0 (at_proc (at_proc f0 1 (at_end 1 b1)) 0 (at_end 0 b0)) (at_same _ _ _) (fun j J => at_other _ _ _ j J)).
    exists b0, (System d (at_proc (at_proc f0 1 (at_end 1 b1)) 0 (at_end 0 b0))).
    split; [exact (steps_trans _ _ _ S1 S0)|]. split; [reflexivity|].
    split; [|split; [exact C0|reflexivity]].
    split; [exact I|]. cbn. destruct b1; [reflexivity|]. exfalso.
    destruct (all_ok (fun _ => cm) (fun _ => Some st) cs NI ws d _ idle (steps_trans _ _ _ S1 S0)) as (h & _ & _ & OK).
    apply differs. apply (f_equal (fun r => w_out (snd r))).
    exact (not_read _ _ _ _ _ _ _ _ (OK 1) eq_refl dx).
  Qed.

  (** The end of process 0, whose COMMIT is refused. *)
  Lemma refused s1 b n w5 w6 : sy_db s1 = d -> sy_procs s1 0 = at_end 0 b -> consistent (Opened b) (v4 0) -> next_fault (v4 0) = FErr n ->
    try db_commit (with_db d (v4 0)) = (Done (Err ESql), w5) -> disk w5 = d ->
    cache_commit (with_db d w5) = (Done tt, w6) ->
    exists s2, steps s1 s2 /\ pr_left (sy_procs s2 0) = Ended (Done tt) /\ pr_world (sy_procs s2 0) = w6 /\ sy_db s2 = d.
  Proof.
    intros D1 P0 CO NF E5 D5 E6. destruct s1 as [d1 f1]. cbn in D1, P0. subst d1.
    exists (System d (at_proc f1 0 (Proc (Ended (Done tt)) w6 (phase_after SCommit (Opened b) (v4 0) w5)))).
    split; [|split; [reflexivity|split; reflexivity]].
    rewrite <- D5 at 2. eapply reach_exit; [exact P0|exact CO| |exact E5|rewrite D5; exact E6|apply at_same|intros j J; apply at_other, J].
    intro K. rewrite NF in K. discriminate.
  Qed.
  (** The end of process 0, when nobody else has begun. *)
  Lemma commits_alone w5 w6 : try db_commit (with_db d (v4 0)) = (Done (Ok tt), w5) -> cache_commit (with_db (disk w5) w5) = (Done tt, w6) ->
    exists s, steps begun s /\ pr_left (sy_procs s 0) = Ended (Done tt) /\ sy_db s = disk w5.
  Proof.
    intros E5 E6. set (f0 := fun i => start (jobs i)).
    destruct (go 0 f0) as (b & CO & S1); [reflexivity| |lia|].
    { intros (j & _ & H). exact (idle_free j H). }
    specialize (S1 (at_proc f0 0 (at_end 0 b)) (at_same _ _ _) (fun j J => at_other _ _ _ j J)).
    exists (System (disk w5) (at_proc (at_proc f0 0 (at_end 0 b)) 0 (Proc (Ended (Done tt)) w6 (phase_after SCommit (Opened b) (v4 0) w5)))).
    split; [|split; reflexivity]. apply (steps_trans _ _ _ S1).
    eapply reach_exit; [apply at_same|exact CO| |exact E5|exact E6|apply at_same|intros j J; apply at_other, J].
    intros _ _ (j & J & [_ H]). rewrite at_other in H by exact J. discriminate.
  Qed.
End Meet.
Lemma commit_needs (OS OR : Prop) ph w : dirty w = true -> OS -> ~ permitted OS OR SCommit ph (set_faults w []).
Proof. intros D S P. exact (P eq_refl D S). Qed.
