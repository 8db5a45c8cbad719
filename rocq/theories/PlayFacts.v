(** One process stepping while the others stay. *)
From Verif Require Import Base Key Path World Store Main WorldFacts Lock SpecLock LockFacts ScriptFacts.

Fixpoint play {c A} {m : M A} (s : script c m) (d : db) (w : world) (ph : phase) : outcome A * db * world * phase :=
  match s with
  | ScEnd _ m _ => let '(o, w1) := m (with_db d w) in (o, d, w1, ph)
  | ScStep _ m B st k _ _ HK =>
      match try (exec st) (with_db d w) with
      | (Done r, w1) => play (HK r) (disk w1) w1 (phase_after st ph w w1)
      | (Error e, w1) => (Error e, disk w1, w1, phase_after st ph w w1)
      | (Panicked p, w1) => (Panicked p, disk w1, w1, phase_after st ph w w1)
      | (Crashed, w1) => (Crashed, disk w1, w1, phase_after st ph w w1)
      | (Diverged, w1) => (Diverged, disk w1, w1, phase_after st ph w w1)
      end
  end.
Fixpoint allowed (OS OR : Prop) {c A} {m : M A} (s : script c m) (d : db) (w : world) (ph : phase) : Prop :=
  match s with
  | ScEnd _ _ _ => True
  | ScStep _ m B st k _ _ HK =>
      permitted OS OR st ph w /\
      match try (exec st) (with_db d w) with
      | (Done r, w1) => allowed OS OR (HK r) (disk w1) w1 (phase_after st ph w w1)
      | _ => True
      end
  end.

(** Statements keep the database that is there. *)
Lemma stmt_fix {B} (s : stmt B) OS OR ph w d o w1 : consistent ph w -> permitted OS OR s ph w ->
  try (exec s) (with_db d w) = (o, w1) -> with_db (disk w1) w1 = w1 /\ forall r, o = Done r -> consistent (phase_after s ph w w1) w1.
Proof.
  intros CO PE EX.
  destruct (stmt_cases _ _ s ph w CO PE) as [(w' & o' & [BC BL] & NA & TX)|[([b ->] & KP & CS)|(dn & w' & o' & TD & NS & TX & CN & ALL)]].
  - rewrite BL in EX. injection EX as <- <-. rewrite disk_with_db, with_db_twice. split; [reflexivity|intros _ _].
    unfold phase_after. rewrite NA. change (w_txn (with_db d w')) with (w_txn w').
    destruct ph as [|[]|]; cbn in CO |- *.
    + rewrite CO in TX. destruct TX as [TX|[TX|[_ TX]]]; rewrite TX; exact TX.
    + destruct TX as [TX|[TX|[? _]]]; [|rewrite TX; exact TX|discriminate].
      rewrite TX. destruct (w_txn w) eqn:TW; [congruence| |]; cbn; rewrite TX; discriminate.
    + rewrite CO in TX. destruct TX as [TX|[TX|[? _]]]; [| |discriminate]; rewrite TX; exact TX.
    + rewrite CO in TX. destruct TX as [TX|[TX|[? _]]]; [| |discriminate]; rewrite TX; exact TX.
  - specialize (KP d). rewrite EX in KP. cbn [snd] in KP. destruct KP as [K1 K2].
    rewrite (disk_fix _ w _ K1 K2). split; [exact (with_db_fix _ w _ K1 K2)|intros r ->].
    destruct CS as [(AC & F & TX)|CS].
    + specialize (TX d). rewrite EX in TX. cbn [snd] in TX. unfold phase_after. rewrite AC, F.
      destruct (w_txn w1) eqn:T1; [congruence| |]; destruct b; cbn; congruence.
    + specialize (CS d). rewrite EX in CS. cbn [fst] in CS. discriminate.
  - rewrite ALL in EX. injection EX as <- <-. rewrite disk_with_db, with_db_twice. split; [reflexivity|intros _ _].
    unfold phase_after. change (w_txn (with_db dn w')) with (w_txn w'). rewrite TX. destruct ph; exact TX.
Qed.

Lemma with_disk_stmt {B} (s : stmt B) OS OR ph w d o w1 : consistent ph w -> permitted OS OR s ph w ->
  try (exec s) (with_db d w) = (o, w1) -> with_db (disk w1) w1 = w1.
Proof. intros. eapply (proj1 (stmt_fix _ _ _ _ _ _ _ _ H H0 H1)). Qed.
Lemma local_fix {A} (m : M A) w d o w1 : local m -> m (with_db d w) = (o, w1) -> with_db d w1 = w1 /\ disk w1 = d /\ w_txn w1 = w_txn w.
Proof.
  intros [L1 L2] EX. rewrite L1 in EX. injection EX as <- <-. rewrite with_db_twice, disk_with_db.
  split; [reflexivity|]. split; [reflexivity|]. apply (proj2 (proj2 (L2 w))).
Qed.

(** Playing a script is running the program. *)
Lemma play_run OS OR {c A} {m : M A} (s : script c m) : forall d w ph, consistent ph w -> allowed OS OR s d w ph ->
  let '(o, d', w', ph') := play s d w ph in
  m (with_db d w) = (o, w') /\ with_db d' w' = w' /\ disk w' = d' /\ forall a, o = Done a -> consistent ph' w'.
Proof.
  induction s as [m L|m B s k HC HE HK IH]; intros d w ph CO AL; cbn in AL |- *.
  - destruct (m (with_db d w)) as [o w1] eqn:EX. destruct (local_fix _ _ _ _ _ L EX) as (X & Y & Z).
    repeat split; auto. intros a _. destruct ph as [|[]|]; cbn in *; congruence.
  - destruct AL as [PE AL]. rewrite HE. unfold bind.
    destruct (try (exec s) (with_db d w)) as [o w1] eqn:EX.
    destruct (stmt_fix _ _ _ _ _ _ _ _ CO PE EX) as [FX CN].
    destruct o as [r|e|p| |]; try (repeat split; auto; intros; congruence).
    specialize (IH r (disk w1) w1 (phase_after s ph w w1) (CN r eq_refl) AL).
    rewrite FX in IH. exact IH.
Qed.

(** ** Steps of the system *)
Definition shared_by_others (f : nat -> proc) (i : nat) : Prop := exists j, j <> i /\ has_shared (f j).
Definition reserved_by_others (f : nat -> proc) (i : nat) : Prop := exists j, j <> i /\ has_reserved (f j).

Lemma permitted_imp (OS OR OS' OR' : Prop) {B} (s : stmt B) ph w : (OS' -> OS) -> (OR' -> OR) ->
  permitted OS OR s ph w -> permitted OS' OR' s ph w.
Proof. intros H1 H2. destruct s; cbn; firstorder. Qed.
Lemma allowed_imp (OS OR OS' OR' : Prop) {c A} {m : M A} (s : script c m) : (OS' -> OS) -> (OR' -> OR) -> forall d w ph,
  allowed OS OR s d w ph -> allowed OS' OR' s d w ph.
Proof.
  intros H1 H2. induction s as [m L|m B s k HC HE HK IH]; intros d w ph; cbn; [auto|].
  intros [P H]. split; [eapply permitted_imp; eauto|]. destruct (try (exec s) (with_db d w)) as [[r|e|p| |] w1]; auto.
Qed.

Lemma steps_trans s1 s2 s3 : steps s1 s2 -> steps s2 s3 -> steps s1 s3.
Proof. intros H1 H2. revert H1. induction H2 as [|t t1 t2 _ IH ST]; intro H1; [exact H1|]. exact (steps_next _ _ _ (IH H1) ST). Qed.
Lemma steps_one s s' : step s s' -> steps s s'.
Proof. intro H. econstructor; [constructor|exact H]. Qed.

Definition at_proc (f : nat -> proc) (i : nat) (p : proc) : nat -> proc := fun j => if Nat.eqb j i then p else f j.
Lemma at_same f i p : at_proc f i p i = p.
Proof. unfold at_proc. rewrite Nat.eqb_refl. reflexivity. Qed.
Lemma at_other f i p j : j <> i -> at_proc f i p j = f j.
Proof. unfold at_proc. intro H. apply Nat.eqb_neq in H. rewrite H. reflexivity. Qed.

(** The first part of a program, up to its end. *)
Lemma play_steps {A} (m : M A) (s : script true m) (g : A -> M unit) (H : forall a, script true (g a)) i :
  forall d w ph f f' a d' w' ph',
  f i = Proc (Rest (bind m g) (script_bind true m g s H)) w ph -> consistent ph w ->
  allowed (shared_by_others f i) (reserved_by_others f i) s d w ph ->
  play s d w ph = (Done a, d', w', ph') ->
  f' i = Proc (Rest (g a) (H a)) w' ph' -> (forall j, j <> i -> f' j = f j) ->
  steps (System d f) (System d' f').
Proof.
  induction s as [m L|m B s k HC HE HK IH]; intros d w ph f f' a d' w' ph' FI CO AL PL FI' OT; cbn in AL, PL.
  - destruct (m (with_db d w)) as [o w1] eqn:EX. injection PL as -> <- <- <-.
    destruct (local_fix _ _ _ _ _ L EX) as (X & Y & Z).
    apply steps_one. exists i. cbn [sy_db sy_procs]. split; [|exact OT]. rewrite FI, FI', <- Y.
    assert (PH : ph = phase_after (SLocal m L) ph w w1).
    { unfold phase_after. rewrite Z. cbn. destruct ph as [|[]|]; cbn in CO; destruct (w_txn w); try reflexivity; congruence. }
    rewrite PH at 2.
    assert (EY : try (exec (SLocal m L)) (with_db (disk w1) w) = (Done (Ok a), w1)).
    { cbn [exec]. unfold try. rewrite Y, EX. reflexivity. }
    cbn [script_bind script_rect].
    match goal with
    | |- advance ?os ?or ?d (Proc (Rest ?m0 (ScStep _ _ ?B ?s ?k ?hc ?he ?hk)) _ _) _ _ =>
        exact (ad_step os or d m0 B s k hc he hk w ph (Done (Ok a)) w1 I EY)
    end.
  - destruct AL as [PE AL]. destruct (try (exec s) (with_db d w)) as [[r|e|p| |] w1] eqn:EX; try discriminate.
    destruct (stmt_fix _ _ _ _ _ _ _ _ CO PE EX) as [FX CN].
    set (p1 := Proc (Rest (bind (k r) g) (script_bind true (k r) g (HK r) H)) w1 (phase_after s ph w w1)).
    apply (steps_trans _ (System (disk w1) (at_proc f i p1))).
    + apply steps_one. exists i. cbn [sy_db sy_procs]. split; [|intros; apply at_other; auto]. rewrite FI, at_same.
      cbn [script_bind script_rect].
      match goal with
      | |- advance ?os ?or ?d (Proc (Rest ?m0 (ScStep _ _ ?B ?s ?k ?hc ?he ?hk)) _ _) _ _ =>
          exact (ad_step os or d m0 B s k hc he hk w ph (Done r) w1 PE EX)
      end.
    + eapply (IH r); [apply at_same|exact (CN r eq_refl)| |exact PL|exact FI'|].
      * eapply allowed_imp; [| |exact AL].
        -- intros (j & J & S). exists j. rewrite at_other in S; auto.
        -- intros (j & J & S). exists j. rewrite at_other in S; auto.
      * intros j J. rewrite at_other; auto.
Qed.
Lemma end_step (m : M unit) L i d w ph f f' o w' :
  f i = Proc (Rest m (ScEnd true m L)) w ph -> m (with_db d w) = (o, w') ->
  f' i = Proc (Ended o) w' ph -> (forall j, j <> i -> f' j = f j) ->
  steps (System d f) (System d f').
Proof.
  intros FI EX FI' OT. apply steps_one. exists i. cbn [sy_db sy_procs]. split; [|exact OT]. rewrite FI, FI'.
  constructor. exact EX.
Qed.

(** ** Commands inside their transaction *)
Lemma play_try OS OR {c A} {m : M A} (s : script c m) : forall d w ph,
  play (script_try c m s) d w ph =
    (match fst (fst (fst (play s d w ph))) with
     | Done a => Done (Ok a) | Error e => Done (Err e)
     | Panicked p => Panicked p | Crashed => Crashed | Diverged => Diverged end,
     snd (fst (fst (play s d w ph))), snd (fst (play s d w ph)), snd (play s d w ph)) /\
  (allowed OS OR s d w ph -> allowed OS OR (script_try c m s) d w ph).
Proof.
  induction s as [m L|m B s k HC HE HK IH]; intros d w ph; cbn.
  - split; [|auto]. unfold try. destruct (m (with_db d w)) as [[a|e|p| |] w1]; reflexivity.
  - destruct (try (exec s) (with_db d w)) as [[r|e|p| |] w1] eqn:EX; try (split; [reflexivity|intros [? ?]; auto]).
    + destruct (IH r (disk w1) w1 (phase_after s ph w w1)) as [I1 I2]. split; [exact I1|intros [? ?]; auto].
    + exfalso. unfold try in EX. destruct (exec s (with_db d w)) as [[a'|e'|p'| |] w1']; discriminate.
Qed.
Lemma play_ctl OS OR {A} {m : M A} (s : script false m) : forall d w ph,
  play (script_ctl m s) d w ph = play s d w ph /\
  (allowed OS OR s d w ph -> allowed OS OR (script_ctl m s) d w ph).
Proof.
  induction s as [m L|m B s k HC HE HK IH]; intros d w ph; cbn; [auto|].
  destruct (try (exec s) (with_db d w)) as [[r|e|p| |] w1] eqn:EX; try (split; [reflexivity|intros [? ?]; auto]).
  destruct (IH r (disk w1) w1 (phase_after s ph w w1)) as [I1 I2]. split; [exact I1|intros [? ?]; auto].
Qed.

Lemma data_txn {B} (s : stmt B) w : is_ctl s = false -> w_txn w = NoTxn -> w_txn (snd (try (exec s) w)) = NoTxn.
Proof.
  destruct s as [B m L|B q|u| | |]; try discriminate; intros _ T; cbn [exec].
  - destruct (proj2 L w) as (_ & _ & Z). unfold try. destruct (m w) as [[a|e|p| |] w1]; cbn in *; congruence.
  - unfold try, db_read. rewrite op_next. destruct (next_fault w); cbn; auto.
  - unfold try, db_write. rewrite op_next. unfold put_db. destruct (next_fault w) as [| | |[]]; cbn; rewrite ?T; auto.
Qed.
Lemma body_txn {A} {m : M A} (s : script false m) : forall w, w_txn w = NoTxn -> w_txn (snd (m w)) = NoTxn.
Proof.
  induction s as [m L|m B s k HC HE HK IH]; intros w T.
  - rewrite (proj2 (proj2 (proj2 L w))). exact T.
  - rewrite HE. unfold bind. assert (IC : is_ctl s = false) by (destruct (is_ctl s); auto; discriminate (HC eq_refl)).
    pose proof (data_txn s w IC T) as H. destruct (try (exec s) w) as [[r|e|p| |] w1]; cbn in *; auto.
Qed.
(** A command whose transaction is still open at its end was allowed every step, if
    nobody else is writing. *)
Lemma body_allowed (OS OR : Prop) {A} {m : M A} (s : script false m) : ~ OR -> forall d w b,
  consistent (Opened b) w -> w_txn (snd (m (with_db d w))) <> NoTxn ->
  allowed OS OR s d w (Opened b) /\
  exists b', snd (play s d w (Opened b)) = Opened b' /\ snd (fst (fst (play s d w (Opened b)))) = d.
Proof.
  intro NR. induction s as [m L|m B s k HC HE HK IH]; intros d w b CO NT.
  - cbn. destruct (m (with_db d w)) as [o w1]. split; [exact I|]. exists b. auto.
  - assert (IC : is_ctl s = false) by (destruct (is_ctl s); auto; discriminate (HC eq_refl)).
    assert (PE : permitted OS OR s (Opened b) w).
    { destruct s; try discriminate; cbn; eauto. }
    rewrite HE in NT. unfold bind in NT. cbn. destruct (try (exec s) (with_db d w)) as [o w1] eqn:EX.
    destruct (stmt_fix _ _ _ _ _ _ _ _ CO PE EX) as [FX CN].
    assert (DK : disk w1 = d).
    { destruct (stmt_cases _ _ s _ w CO PE) as [(w' & o' & [BC BL] & _)|[(_ & KP & _)|(dn & w' & o' & TD & NS & TX & CM & ALL)]].
      - rewrite BL in EX. injection EX as <- <-. apply disk_with_db.
      - specialize (KP d). rewrite EX in KP. destruct KP as [K1 K2]. exact (disk_fix _ w _ K1 K2).
      - exfalso. rewrite ALL in EX. injection EX as <- <-.
        assert (K : w_txn (with_db dn w') = NoTxn) by exact TX.
        destruct o' as [r|e|p| |]; cbn in NT; try congruence.
        apply NT. apply (body_txn (HK r)). exact K. }
    assert (T1 : w_txn w1 <> NoTxn).
    { intro K. destruct o as [r|e|p| |]; cbn in NT; try congruence. apply NT, (body_txn (HK r)), K. }
    assert (PH : exists b1, phase_after s (Opened b) w w1 = Opened b1).
    { unfold phase_after. destruct (w_txn w1); [congruence| |]; destruct b; eauto. }
    destruct PH as [b1 PH].
    destruct o as [r|e|p| |]; cbn [fst snd]; try (split; [split; [exact PE|exact I]|exists b1; auto]).
    rewrite PH, DK. specialize (CN r eq_refl). rewrite PH in CN.
    destruct (IH r d w1 b1 CN) as (AL & b' & P1 & P2).
    { rewrite <- DK, FX. exact NT. }
    split; [split; [exact PE|exact AL]|]. exists b'. auto.
Qed.

(** A process up to the end of its command. *)
Section Reach.
  Context {E : Env}.
  Lemma reach_end_of_command cm s c (NI : c <> CInit) i f d w w1 w2 w3 r w4 :
    f i = start (command_job cm (Some s) c NI w) -> w_txn w = NoTxn -> ~ reserved_by_others f i ->
    open_cache (with_db d w) = (Done tt, w1) ->
    try db_begin (with_db d w1) = (Done (Ok tt), w2) ->
    cache_begin (with_db d w2) = (Done tt, w3) ->
    try (run_command cm (Some s) c) (with_db d w3) = (Done r, w4) -> w_txn w4 <> NoTxn ->
    exists b, consistent (Opened b) w4 /\ forall f', f' i = Proc (Rest (finish (Some s) r) (script_finish (Some s) r)) w4 (Opened b) ->
      (forall j, j <> i -> f' j = f j) -> steps (System d f) (System d f').
  Proof.
    intros FI NT NR E1 E2 E3 E4 T4.
    destruct (local_fix _ _ _ _ _ local_open_cache E1) as (X1 & D1 & T1).
    assert (B2 : w2 = set_txn (popped (with_db d w1)) TxnClean).
    { unfold try, db_begin in E2. rewrite op_next in E2. destruct (next_fault (with_db d w1)); cbn in E2; try discriminate.
      rewrite T1, NT in E2. congruence. }
    assert (T2 : w_txn w2 = TxnClean) by (rewrite B2; reflexivity).
    assert (D2 : disk w2 = d) by (rewrite B2; apply (disk_with_db d w1)).
    destruct (local_fix _ _ _ _ _ local_cache_begin E3) as (X3 & D3 & T3).
    set (m4 := try (run_command cm (Some s) c)).
    set (s4 := script_try true _ (script_ctl _ (script_run_command cm (Some s) c NI)) : script true m4).
    set (m3 := fun _ : unit => bind m4 (finish (Some s))).
    set (s3 := fun _ : unit => script_bind true m4 (finish (Some s)) s4 (script_finish (Some s))).
    set (m2 := fun _ : unit => bind cache_begin m3).
    set (s2 := fun _ : unit => script_bind true cache_begin m3 (script_local true _ local_cache_begin) s3).
    set (m1 := fun _ : unit => bind (ignore_on (Some s) db_begin) m2).
    set (s1 := fun _ : unit => script_bind true (ignore_on (Some s) db_begin) m2 (script_ignore_on true (Some s) _ script_begin) s2).
    assert (W3 : with_db d w3 = w3) by exact X3.
    assert (C3 : consistent (Opened false) w3) by (cbn; rewrite T3; exact T2).
    assert (RUN : w_txn (snd (run_command cm (Some s) c (with_db d w3))) <> NoTxn).
    { unfold try in E4. destruct (run_command cm (Some s) c (with_db d w3)) as [[a|e|p| |] w5]; cbn; congruence. }
    destruct (body_allowed (shared_by_others f i) (reserved_by_others f i) (script_run_command cm (Some s) c NI) NR d w3 false C3 RUN)
      as (AL & b & PH & PD).
    destruct (play_ctl (shared_by_others f i) (reserved_by_others f i) (script_run_command cm (Some s) c NI) d w3 (Opened false)) as [PC AC].
    destruct (play_try (shared_by_others f i) (reserved_by_others f i) (script_ctl _ (script_run_command cm (Some s) c NI)) d w3 (Opened false)) as [PT AT].
    specialize (AC AL). specialize (AT AC).
    pose proof (play_run _ _ s4 d w3 (Opened false) C3 AT) as PR.
    rewrite PC, PH, PD in PT. change (play s4 d w3 (Opened false) = (match fst (fst (fst (play (script_run_command cm (Some s) c NI) d w3 (Opened false)))) with
     | Done a => Done (Ok a) | Error e => Done (Err e)
     | Panicked p => Panicked p | Crashed => Crashed | Diverged => Diverged end, d, snd (fst (play (script_run_command cm (Some s) c NI) d w3 (Opened false))), Opened b)) in PT.
    assert (PS : play s4 d w3 (Opened false) = (Done r, d, w4, Opened b)).
    { destruct (play s4 d w3 (Opened false)) as [[[o1 d1] w5] ph1]. destruct PR as (PR & _). unfold m4 in PR. rewrite E4 in PR.
      injection PR as P1 P2. injection PT as _ P3 _ P4. subst. reflexivity. }
    rewrite PS in PR. destruct PR as (_ & _ & _ & C4).
    exists b. split; [eapply C4; reflexivity|]. intros f' F' OT.
    set (p1 := Proc (Rest (m1 tt) (s1 tt)) w1 Idle).
    set (p2 := Proc (Rest (m2 tt) (s2 tt)) w2 (Opened false)).
    set (p3 := Proc (Rest (m3 tt) (s3 tt)) w3 (Opened false)).
    assert (OS : forall p q, (shared_by_others (at_proc f i p) i -> shared_by_others f i) /\ (reserved_by_others (at_proc f i q) i -> reserved_by_others f i)).
    { intros p q. split; intros (j & J & H); exists j; rewrite at_other in H; auto. }
    apply (steps_trans _ (System d (at_proc f i p1))); [|apply (steps_trans _ (System d (at_proc f i p2))); [|apply (steps_trans _ (System d (at_proc f i p3)))]].
    - eapply (play_steps open_cache (script_local true _ local_open_cache) m1 s1 i d w Idle f (at_proc f i p1) tt d w1 Idle).
      + exact FI.
      + exact NT.
      + exact I.
      + cbn. rewrite E1. reflexivity.
      + apply at_same.
      + intros j J. apply at_other, J.
    - eapply (play_steps (ignore_on (Some s) db_begin) (script_ignore_on true (Some s) _ script_begin) m2 s2 i d w1 Idle
               (at_proc f i p1) (at_proc f i p2) tt d w2 (Opened false)).
      + apply at_same.
      + cbn. congruence.
      + cbn [script_ignore_on script_bind script_try script_begin script_stmt script_rect allowed].
        cbn [exec]. rewrite E2. split; [reflexivity|]. cbn. auto.
      + cbn [script_ignore_on script_bind script_try script_begin script_stmt script_rect play].
        cbn [exec]. rewrite E2. cbn.
        rewrite D2. unfold phase_after. rewrite T2. cbn.
        assert (W2 : with_db d w2 = w2) by (rewrite B2; unfold with_db, set_txn, set_dbs, popped, set_faults, set_tick; cbn; rewrite assoc_set_set; reflexivity).
        unfold try, ret. cbn. rewrite ?D2, ?T2, ?W2. cbn. rewrite ?D2, ?T2, ?W2. reflexivity.
      + apply at_same.
      + intros j J. rewrite !at_other by exact J. reflexivity.
    - eapply (play_steps cache_begin (script_local true _ local_cache_begin) m3 s3 i d w2 (Opened false)
               (at_proc f i p2) (at_proc f i p3) tt d w3 (Opened false)).
      + apply at_same.
      + exact T2.
      + exact I.
      + cbn. rewrite E3. reflexivity.
      + apply at_same.
      + intros j J. rewrite !at_other by exact J. reflexivity.
    - eapply (play_steps m4 s4 (finish (Some s)) (script_finish (Some s)) i d w3 (Opened false) (at_proc f i p3) f' r d w4 (Opened b)).
      + apply at_same.
      + exact C3.
      + eapply allowed_imp; [apply (proj1 (OS p3 p3))|apply (proj2 (OS p3 p3))|exact AT].
      + exact PS.
      + exact F'.
      + intros j J. rewrite at_other by exact J. apply OT, J.
  Qed.

  (** The end of a process whose command succeeded. *)
  Lemma reach_exit s b i f d w r w5 o w6 :
    f i = Proc (Rest (finish (Some s) (Ok tt)) (script_finish (Some s) (Ok tt))) w (Opened b) -> consistent (Opened b) w ->
    permitted (shared_by_others f i) (reserved_by_others f i) SCommit (Opened b) w ->
    try db_commit (with_db d w) = (Done r, w5) ->
    cache_commit (with_db (disk w5) w5) = (o, w6) ->
    forall f', f' i = Proc (Ended o) w6 (phase_after SCommit (Opened b) w w5) ->
      (forall j, j <> i -> f' j = f j) -> steps (System d f) (System (disk w5) f').
  Proof.
    intros FI CO PE E5 E6 f' F' OT.
    destruct (stmt_fix SCommit _ _ _ _ _ _ _ CO PE E5) as [FX CN]. specialize (CN r eq_refl).
    set (ph := phase_after SCommit (Opened b) w w5) in *.
    set (p1 := Proc (Rest cache_commit (script_local true _ local_cache_commit)) w5 ph).
    apply (steps_trans _ (System (disk w5) (at_proc f i p1))).
    - assert (PH : forall A (m : M A) (L : local m), phase_after (SLocal m L) ph w5 w5 = ph).
      { intros A m L. unfold phase_after at 1. cbn [accesses andb]. destruct ph as [|[]|]; cbn in CN; destruct (w_txn w5); try reflexivity; congruence. }
      eapply (play_steps (ignore_on (Some s) db_commit) (script_ignore_on true (Some s) _ script_commit) (fun _ => cache_commit)
               (fun _ => script_local true _ local_cache_commit) i d w (Opened b) f (at_proc f i p1) tt (disk w5) w5 ph).
      + exact FI.
      + exact CO.
      + cbn [script_ignore_on script_bind script_try script_commit script_stmt script_rect allowed].
        cbn [exec]. rewrite E5. split; [exact PE|]. destruct r; cbn; auto.
      + cbn [script_ignore_on script_bind script_try script_commit script_stmt script_rect play].
        cbn [exec]. rewrite E5. fold ph. destruct r; cbn [play script_local exec]; unfold try, ret, fail; cbn; rewrite ?FX, PH, ?FX; reflexivity.
      + apply at_same.
      + intros j J. apply at_other, J.
    - eapply end_step; [apply at_same|exact E6|exact F'|]. intros j J. rewrite at_other by exact J. apply OT, J.
  Qed.
End Reach.
