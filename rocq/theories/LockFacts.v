(** Every interleaving under the locks is equivalent to running processes one
    after another. *)
From Verif Require Import Base Path World WorldFacts Lock SpecLock.

Lemma assoc_set_set {A} (m : list (loc * A)) l a b : assoc_set l a (assoc_set l b m) = assoc_set l a m.
Proof.
  induction m as [|[k x] m IH]; cbn.
  - rewrite names_eqb_refl. reflexivity.
  - destruct (names_eqb k l) eqn:K; cbn; rewrite K; [reflexivity|]. rewrite IH. reflexivity.
Qed.
Lemma with_db_twice a b w : with_db a (with_db b w) = with_db a w.
Proof. unfold with_db, set_dbs. cbn. rewrite assoc_set_set. reflexivity. Qed.
Lemma disk_with_db d w : disk (with_db d w) = d.
Proof. unfold disk, with_db, set_dbs, db_at. cbn. rewrite assoc_set_get, names_eqb_refl. reflexivity. Qed.
Lemma with_db_fix d w w1 : w_dbs w1 = w_dbs (with_db d w) -> w_conn w1 = w_conn w -> with_db d w1 = w1.
Proof.
  intros H C. destruct w1. unfold with_db, set_dbs in *. cbn in *. subst. rewrite assoc_set_set. reflexivity.
Qed.
Lemma disk_fix d w w1 : w_dbs w1 = w_dbs (with_db d w) -> w_conn w1 = w_conn w -> disk w1 = d.
Proof. intros H C. unfold disk. rewrite H, C. apply (disk_with_db d w). Qed.

(** ** Statements *)
Definition blind {B} (s : stmt B) (w w' : world) (o : outcome (result B error)) : Prop :=
  w_conn w' = w_conn w /\ forall d, try (exec s) (with_db d w) = (o, with_db d w').
Definition keeps {B} (s : stmt B) (w : world) : Prop :=
  forall d, w_dbs (snd (try (exec s) (with_db d w))) = w_dbs (with_db d w) /\
            w_conn (snd (try (exec s) (with_db d w))) = w_conn w.
Definition consistent (ph : phase) (w : world) : Prop :=
  match ph with
  | Idle | Over => w_txn w = NoTxn
  | Opened false => w_txn w = TxnClean
  | Opened true => w_txn w <> NoTxn
  end.

Definition popped (w : world) : world := set_faults (set_tick w (S (w_tick w))) (tl (w_faults w)).
Lemma op_next {A} (eff : fault -> M A) w : op eff w = eff (next_fault w) (popped w).
Proof.
  unfold op, next_fault, popped. cbn. destruct (w_faults w) as [|f r] eqn:F; cbn; [|reflexivity].
  destruct w; cbn in *; subst; reflexivity.
Qed.
Lemma popped_with_db d w : popped (with_db d w) = with_db d (popped w).
Proof. reflexivity. Qed.
Lemma next_with_db d w : next_fault (with_db d w) = next_fault w.
Proof. reflexivity. Qed.

Lemma stmt_cases OS OR {B} (s : stmt B) ph w :
  consistent ph w -> permitted OS OR s ph w ->
  (exists w' o, blind s w w' o /\ accesses s && match next_fault w with FOk => true | _ => false end = false /\
     (w_txn w' = w_txn w \/ w_txn w' = NoTxn \/ ph = Idle /\ w_txn w' = TxnClean)) \/
  ((exists b, ph = Opened b) /\ keeps s w /\
     ((accesses s = true /\ next_fault w = FOk /\
        (forall d, w_txn (snd (try (exec s) (with_db d w))) <> NoTxn)) \/
      (forall d, fst (try (exec s) (with_db d w)) = Crashed))) \/
  (exists d0 w' o, w_txn w = TxnDirty d0 /\ ~ OS /\ w_txn w' = NoTxn /\ w_conn w' = w_conn w /\
     forall d, try (exec s) (with_db d w) = (o, with_db d0 w')).
Proof.
  intros CO PE. destruct s as [B m L|B q|u| | |].
  - left. pose proof (proj1 L) as L1. destruct (proj2 L w) as (_ & L2 & L3).
    exists (snd (m w)), (fst (try m w)). repeat split.
    + exact L2.
    + intro d. cbn [exec]. unfold try. rewrite L1. destruct (m w) as [[a|e|p| |] w1]; reflexivity.
    + left. exact L3.
  - destruct PE as [b ->]. cbn [exec] in *. destruct (next_fault w) as [|n| |n] eqn:F.
    + right. left. split; [eauto|]. split.
      * intro d. cbn [exec]. unfold try, db_read. rewrite op_next, next_with_db, F. cbn. split; reflexivity.
      * left. split; [reflexivity|]. split; [reflexivity|]. intro d. unfold try. cbn [exec]. unfold db_read. rewrite op_next, next_with_db, F. cbn.
        destruct b; cbn in CO; congruence.
    + left. exists (popped w), (Done (Err ESql)). split; [split; [reflexivity|]|split; [reflexivity|left; reflexivity]].
      intro d. unfold try. cbn [exec]. unfold db_read. rewrite op_next, next_with_db, F. reflexivity.
    + left. exists (set_txn (popped w) NoTxn), (Done (Err ESql)). split; [split; [reflexivity|]|split; [reflexivity|right; left; reflexivity]].
      intro d. unfold try. cbn [exec]. unfold db_read. rewrite op_next, next_with_db, F. reflexivity.
    + left. exists (popped w), Crashed. split; [split; [reflexivity|]|split; [reflexivity|left; reflexivity]].
      intro d. unfold try. cbn [exec]. unfold db_read. rewrite op_next, next_with_db, F. reflexivity.
  - destruct PE as [[b ->] _]. cbn [exec] in *.
    assert (P : forall d, put_db (u (cur_db (popped (with_db d w)))) (popped (with_db d w)) =
      set_txn (popped (with_db d w)) (TxnDirty (u (cur_db (popped (with_db d w)))))).
    { intro d. unfold put_db. cbn. destruct b; cbn in CO; destruct (w_txn w); congruence. }
    destruct (next_fault w) as [|n| |[|n]] eqn:F.
    + right. left. split; [eauto|]. split.
      * intro d. cbn [exec]. unfold try, db_write. rewrite op_next, next_with_db, F, P. cbn. split; reflexivity.
      * left. split; [reflexivity|]. split; [reflexivity|]. intro d. unfold try. cbn [exec]. unfold db_write. rewrite op_next, next_with_db, F, P. cbn. discriminate.
    + left. exists (popped w), (Done (Err ESql)). split; [split; [reflexivity|]|split; [reflexivity|left; reflexivity]].
      intro d. unfold try. cbn [exec]. unfold db_write. rewrite op_next, next_with_db, F. reflexivity.
    + left. exists (set_txn (popped w) NoTxn), (Done (Err ESql)). split; [split; [reflexivity|]|split; [reflexivity|right; left; reflexivity]].
      intro d. unfold try. cbn [exec]. unfold db_write. rewrite op_next, next_with_db, F. reflexivity.
    + left. exists (popped w), Crashed. split; [split; [reflexivity|]|split; [reflexivity|left; reflexivity]].
      intro d. unfold try. cbn [exec]. unfold db_write. rewrite op_next, next_with_db, F. reflexivity.
    + right. left. split; [eauto|]. split.
      * intro d. cbn [exec]. unfold try, db_write. rewrite op_next, next_with_db, F, P. cbn. split; reflexivity.
      * right. intro d. unfold try. cbn [exec]. unfold db_write. rewrite op_next, next_with_db, F, P. reflexivity.
  - cbn in PE. subst ph. cbn in CO. left.
    destruct (next_fault w) as [|n| |n] eqn:F.
    + exists (set_txn (popped w) TxnClean), (Done (Ok tt)). split; [split; [reflexivity|]|split; [reflexivity|right; right; split; reflexivity]].
      intro d. unfold try. cbn [exec]. unfold db_begin. rewrite op_next, next_with_db, F. cbn. rewrite CO. reflexivity.
    + exists (popped w), (Done (Err ESql)). split; [split; [reflexivity|]|split; [reflexivity|left; reflexivity]].
      intro d. unfold try. cbn [exec]. unfold db_begin. rewrite op_next, next_with_db, F. reflexivity.
    + exists (popped w), (Done (Err ESql)). split; [split; [reflexivity|]|split; [reflexivity|left; reflexivity]].
      intro d. unfold try. cbn [exec]. unfold db_begin. rewrite op_next, next_with_db, F. reflexivity.
    + exists (popped w), Crashed. split; [split; [reflexivity|]|split; [reflexivity|left; reflexivity]].
      intro d. unfold try. cbn [exec]. unfold db_begin. rewrite op_next, next_with_db, F. reflexivity.
  - cbn in PE. destruct (w_txn w) as [| |d0] eqn:T.
    + left. destruct (next_fault w) as [|n| |[|n]] eqn:F.
      * exists (popped w), (Done (Err ESql)). split; [split; [reflexivity|]|split; [reflexivity|left; exact T]].
        intro d. unfold try. cbn [exec]. unfold db_commit. rewrite op_next, next_with_db, F. cbn. unfold commit_now. cbn. rewrite ?T. reflexivity.
      * exists (popped w), (Done (Err ESql)). split; [split; [reflexivity|]|split; [reflexivity|left; exact T]].
        intro d. unfold try. cbn [exec]. unfold db_commit. rewrite op_next, next_with_db, F. cbn. unfold commit_now. cbn. rewrite ?T. reflexivity.
      * exists (set_txn (popped w) NoTxn), (Done (Err ESql)). split; [split; [reflexivity|]|split; [reflexivity|left; reflexivity]].
        intro d. unfold try. cbn [exec]. unfold db_commit. rewrite op_next, next_with_db, F. cbn. unfold commit_now. cbn. rewrite ?T. reflexivity.
      * exists (popped w), Crashed. split; [split; [reflexivity|]|split; [reflexivity|left; exact T]].
        intro d. unfold try. cbn [exec]. unfold db_commit. rewrite op_next, next_with_db, F. cbn. unfold commit_now. cbn. rewrite ?T. reflexivity.
      * exists (set_txn (popped w) NoTxn), Crashed. split; [split; [reflexivity|]|split; [reflexivity|left; reflexivity]].
        intro d. unfold try. cbn [exec]. unfold db_commit. rewrite op_next, next_with_db, F. cbn. unfold commit_now. cbn. rewrite ?T. reflexivity.
    + left. destruct (next_fault w) as [|n| |[|n]] eqn:F.
      * exists (set_txn (popped w) NoTxn), (Done (Ok tt)). split; [split; [reflexivity|]|split; [reflexivity|right; left; reflexivity]].
        intro d. unfold try. cbn [exec]. unfold db_commit. rewrite op_next, next_with_db, F. cbn. unfold commit_now. cbn. rewrite T. reflexivity.
      * exists (popped w), (Done (Err ESql)). split; [split; [reflexivity|]|split; [reflexivity|left; exact T]].
        intro d. unfold try. cbn [exec]. unfold db_commit. rewrite op_next, next_with_db, F. reflexivity.
      * exists (set_txn (popped w) NoTxn), (Done (Err ESql)). split; [split; [reflexivity|]|split; [reflexivity|right; left; reflexivity]].
        intro d. unfold try. cbn [exec]. unfold db_commit. rewrite op_next, next_with_db, F. reflexivity.
      * exists (popped w), Crashed. split; [split; [reflexivity|]|split; [reflexivity|left; exact T]].
        intro d. unfold try. cbn [exec]. unfold db_commit. rewrite op_next, next_with_db, F. reflexivity.
      * exists (set_txn (popped w) NoTxn), Crashed. split; [split; [reflexivity|]|split; [reflexivity|right; left; reflexivity]].
        intro d. unfold try. cbn [exec]. unfold db_commit. rewrite op_next, next_with_db, F. cbn. unfold commit_now. cbn. rewrite T. reflexivity.
    + destruct (next_fault w) as [|n| |[|n]] eqn:F.
      * right. right. exists d0, (set_txn (popped w) NoTxn), (Done (Ok tt)). unfold dirty in PE. rewrite T in PE.
        repeat (split; [solve [reflexivity | auto]|]).
        intro d. unfold try. cbn [exec]. unfold db_commit. rewrite op_next, next_with_db, F. cbn. unfold commit_now. cbn. rewrite T. cbn.
        unfold with_db, set_txn, set_dbs. cbn. rewrite assoc_set_set. reflexivity.
      * left. exists (popped w), (Done (Err ESql)). split; [split; [reflexivity|]|split; [reflexivity|left; exact T]].
        intro d. unfold try. cbn [exec]. unfold db_commit. rewrite op_next, next_with_db, F. reflexivity.
      * left. exists (set_txn (popped w) NoTxn), (Done (Err ESql)). split; [split; [reflexivity|]|split; [reflexivity|right; left; reflexivity]].
        intro d. unfold try. cbn [exec]. unfold db_commit. rewrite op_next, next_with_db, F. reflexivity.
      * left. exists (popped w), Crashed. split; [split; [reflexivity|]|split; [reflexivity|left; exact T]].
        intro d. unfold try. cbn [exec]. unfold db_commit. rewrite op_next, next_with_db, F. reflexivity.
      * right. right. exists d0, (set_txn (popped w) NoTxn), Crashed. unfold dirty in PE. rewrite T in PE.
        repeat (split; [solve [reflexivity | auto]|]).
        intro d. unfold try. cbn [exec]. unfold db_commit. rewrite op_next, next_with_db, F. cbn. unfold commit_now. cbn. rewrite T. cbn.
        unfold with_db, set_txn, set_dbs. cbn. rewrite assoc_set_set. reflexivity.
  - left. destruct (next_fault w) as [|n| |n] eqn:F.
    + destruct (w_txn w) as [| |d0] eqn:T.
      1: exists (popped w), (Done (Err ESql)); (split; [split; [reflexivity|]|split; [reflexivity|left; exact T]]).
      2-3: exists (set_txn (popped w) NoTxn), (Done (Ok tt)); (split; [split; [reflexivity|]|split; [reflexivity|right; left; reflexivity]]).
      all: intro d; unfold try; cbn [exec]; unfold db_rollback; rewrite op_next, next_with_db, F; cbn; rewrite T; reflexivity.
    + exists (popped w), (Done (Err ESql)). split; [split; [reflexivity|]|split; [reflexivity|left; reflexivity]].
      intro d. unfold try. cbn [exec]. unfold db_rollback. rewrite op_next, next_with_db, F. reflexivity.
    + exists (set_txn (popped w) NoTxn), (Done (Err ESql)). split; [split; [reflexivity|]|split; [reflexivity|right; left; reflexivity]].
      intro d. unfold try. cbn [exec]. unfold db_rollback. rewrite op_next, next_with_db, F. reflexivity.
    + exists (popped w), Crashed. split; [split; [reflexivity|]|split; [reflexivity|left; reflexivity]].
      intro d. unfold try. cbn [exec]. unfold db_rollback. rewrite op_next, next_with_db, F. reflexivity.
Qed.

(** ** The invariant *)
Definition resume (p : proc) (d : db) : outcome unit * world :=
  match pr_left p with
  | Rest m _ => m (with_db d (pr_world p))
  | Ended o => (o, with_db d (pr_world p))
  end.

Lemma resume_step m B (s : stmt B) k HC HE HK w ph ph1 o W w1 d d' :
  try (exec s) (with_db d w) = (o, W) -> with_db d' w1 = W ->
  resume (Proc (Rest m (ScStep true m B s k HC HE HK)) w ph) d = resume (Proc (go_on o k HK) w1 ph1) d'.
Proof.
  intros T W1. unfold resume. cbn. rewrite HE. unfold bind. rewrite T.
  destruct o; cbn; rewrite W1; reflexivity.
Qed.

Section Serial.
  Variables (jobs : nat -> job) (d0 : db).
  (** Process [i] is past its transaction: committed, or ran on an earlier state. *)
  Definition settled (h : list (nat * db)) (i : nat) (p : proc) : Prop :=
    (exists h1 d h2, h = h1 ++ (i, d) :: h2 /\ alone (jobs i) (last_db d0 h1) = resume p d) \/
    (~ In i (map fst h) /\ exists h1 h2, h = h1 ++ h2 /\
       alone (jobs i) (last_db d0 h1) = resume p (last_db d0 h1)).
  Definition proc_ok (h : list (nat * db)) (i : nat) (p : proc) : Prop :=
    match pr_left p with
    | Ended _ => settled h i p
    | Rest _ _ =>
        consistent (pr_phase p) (pr_world p) /\
        match pr_phase p with
        | Idle | Opened false => ~ In i (map fst h) /\ forall d, alone (jobs i) d = resume p d
        | Opened true => ~ In i (map fst h) /\ alone (jobs i) (last_db d0 h) = resume p (last_db d0 h)
        | Over => settled h i p
        end
    end.
  Definition sys_ok (h : list (nat * db)) (s : system) : Prop :=
    NoDup (map fst h) /\ sy_db s = last_db d0 h /\ forall i, proc_ok h i (sy_procs s i).

  Lemma settled_grow h i p x : settled h i p -> i <> fst x -> settled (h ++ [x]) i p.
  Proof.
    intros [(h1 & d & h2 & -> & H)|(N & h1 & h2 & -> & H)] X.
    - left. exists h1, d, (h2 ++ [x]). rewrite <- app_assoc. auto.
    - right. split.
      + rewrite map_app, in_app_iff. cbn. intros [C|[C|[]]]; auto.
      + exists h1, (h2 ++ [x]). rewrite <- app_assoc. auto.
  Qed.
  Lemma settled_now h i p : ~ In i (map fst h) ->
    alone (jobs i) (last_db d0 h) = resume p (last_db d0 h) -> settled h i p.
  Proof. intros N H. right. split; [exact N|]. exists h, []. rewrite app_nil_r. auto. Qed.
  Lemma last_db_app h x : last_db d0 (h ++ [x]) = snd x.
  Proof. unfold last_db. rewrite map_app. cbn. apply last_last. Qed.
  Lemma proc_grow h i p x : proc_ok h i p -> i <> fst x -> ~ has_shared p -> proc_ok (h ++ [x]) i p.
  Proof.
    unfold proc_ok, has_shared, alive. intros H X NS. destruct (pr_left p) as [m s|o]; [|apply settled_grow; auto].
    destruct H as [C H]. split; [exact C|].
    assert (N : ~ In i (map fst h) -> ~ In i (map fst (h ++ [x]))).
    { rewrite map_app, in_app_iff. cbn. intros N [K|[K|[]]]; auto. }
    destruct (pr_phase p) as [|[]|]; [destruct H; auto| |destruct H; auto|apply settled_grow; auto].
    exfalso. apply NS. auto.
  Qed.
  Lemma proc_settled h i m s w ph : proc_ok h i (Proc (Rest m s) w ph) -> ph <> Over ->
    ~ In i (map fst h) /\ alone (jobs i) (last_db d0 h) = resume (Proc (Rest m s) w ph) (last_db d0 h).
  Proof. unfold proc_ok. cbn. intros [_ H] P. destruct ph as [|[]|]; destruct H; auto; congruence. Qed.

  Lemma go_on_cases {B} (o : outcome (result B error)) k HK :
    (exists r, o = Done r /\ go_on o k HK = Rest (k r) (HK r)) \/ exists o', go_on o k HK = Ended o'.
  Proof. destruct o; cbn; eauto. Qed.

  Lemma settled_same h i p p' : settled h i p ->
    (forall d, resume p d = resume p' d) -> settled h i p'.
  Proof.
    intros [(h1 & d & h2 & -> & H)|(N & h1 & h2 & -> & H)] S; rewrite S in H; [left|right]; eauto 8.
  Qed.

  (** A step that neither changes the database nor answers from it. *)
  Lemma proc_step_blind OS OR h i m B (s : stmt B) k HC HE HK w ph w' o :
    permitted OS OR s ph w ->
    proc_ok h i (Proc (Rest m (ScStep true m B s k HC HE HK)) w ph) ->
    blind s w w' o -> accesses s && match next_fault w with FOk => true | _ => false end = false ->
    (w_txn w' = w_txn w \/ w_txn w' = NoTxn \/ ph = Idle /\ w_txn w' = TxnClean) ->
    let w1 := with_db (last_db d0 h) w' in
    proc_ok h i (Proc (go_on o k HK) w1 (phase_after s ph w w1)).
  Proof.
    intros PE OK [BC BL] NA TX w1.
    set (p1 := Proc (go_on o k HK) w1 (phase_after s ph w w1)).
    assert (S : forall d, resume (Proc (Rest m (ScStep true m B s k HC HE HK)) w ph) d = resume p1 d).
    { intro d. eapply resume_step; [apply BL|]. unfold w1. rewrite with_db_twice. reflexivity. }
    assert (T1 : w_txn w1 = w_txn w') by reflexivity.
    assert (CO : consistent ph w) by apply OK. clearbody w1.
    destruct ph as [|[]|].
    - destruct OK as [_ [N H]]. cbn in H, CO. rewrite CO in TX.
      assert (H1 : forall d, alone (jobs i) d = resume p1 d) by (intro d; rewrite H; apply S).
      unfold proc_ok. cbn [pr_left p1]. destruct (go_on_cases o k HK) as [(r & -> & G)|(o' & G)].
      + rewrite G. cbn [pr_phase pr_world p1]. unfold phase_after. rewrite T1, NA.
        destruct TX as [TX|[TX|[_ TX]]]; rewrite TX; cbn; rewrite T1, TX; auto.
      + rewrite G. apply settled_now; auto.
    - destruct (proc_settled _ _ _ _ _ _ OK) as [N H]; [discriminate|]. rewrite S in H. cbn in CO.
      unfold proc_ok. cbn [pr_left p1]. destruct (go_on_cases o k HK) as [(r & -> & G)|(o' & G)].
      + rewrite G. cbn [pr_phase pr_world p1]. unfold phase_after. rewrite T1.
        destruct TX as [TX|[TX|[? _]]]; [|rewrite TX; cbn; rewrite T1, TX; split; [auto|apply settled_now; auto]|discriminate].
        rewrite TX. destruct (w_txn w) eqn:TW; [congruence| |]; cbn; rewrite T1, TX; split; auto; discriminate.
      + rewrite G. apply settled_now; auto.
    - destruct OK as [_ [N H]]. cbn in H, CO. rewrite CO in TX.
      assert (H1 : forall d, alone (jobs i) d = resume p1 d) by (intro d; rewrite H; apply S).
      unfold proc_ok. cbn [pr_left p1]. destruct (go_on_cases o k HK) as [(r & -> & G)|(o' & G)].
      + rewrite G. cbn [pr_phase pr_world p1]. unfold phase_after. rewrite T1, NA.
        destruct TX as [TX|[TX|[? _]]]; [| |discriminate]; rewrite TX; cbn; rewrite T1, TX; auto.
        split; [auto|apply settled_now; auto].
      + rewrite G. apply settled_now; auto.
    - destruct OK as [_ H]. cbn in H, CO. rewrite CO in TX.
      assert (H1 : settled h i p1) by (eapply settled_same; eauto).
      assert (TX' : w_txn w' = NoTxn) by (destruct TX as [TX|[TX|[? _]]]; [exact TX|exact TX|discriminate]).
      unfold proc_ok. cbn [pr_left p1]. destruct (go_on_cases o k HK) as [(r & -> & G)|(o' & G)].
      + rewrite G. cbn [pr_phase pr_world p1]. unfold phase_after. rewrite T1, TX'. cbn. rewrite T1, TX'. auto.
      + rewrite G. exact H1.
  Qed.

  Lemma sys_step h s s' : sys_ok h s -> step s s' -> exists h', sys_ok h' s' /\ exists h2, h' = h ++ h2.
  Proof.
    intros (ND & DB & OK) (i & AD & OTH).
    assert (OTH_same : forall j, j <> i -> proc_ok h j (sy_procs s' j)).
    { intros j J. rewrite (OTH j J). apply OK. }
    pose proof (OK i) as OKi.
    remember (sy_procs s i) as p eqn:P. remember (sy_procs s' i) as p' eqn:P'. remember (sy_db s') as d' eqn:D'.
    destruct AD as [m B st k HC HE HK w ph o w1 PE EX|m L w ph o w1 EX].
    - assert (CO : consistent ph w) by apply OKi. rewrite DB in EX.
      destruct (stmt_cases _ _ st ph w CO PE) as [(w' & o' & BL & NA & TX)|[([b ->] & KP & CS)|(dn & w' & o' & TD & NS & TX & CN & ALL)]].
      + pose proof (proj2 BL (last_db d0 h)) as EX2. rewrite EX in EX2. injection EX2 as -> ->.
        exists h. split; [|exists []; rewrite app_nil_r; reflexivity]. split; [exact ND|]. split.
        * rewrite <- D'. rewrite disk_with_db. reflexivity.
        * intro j. destruct (Nat.eq_dec j i) as [->|J]; [|auto]. rewrite <- P'.
          eapply proc_step_blind; eauto.
      + specialize (KP (last_db d0 h)). rewrite EX in KP. cbn in KP. destruct KP as [K1 K2].
        exists h. split; [|exists []; rewrite app_nil_r; reflexivity]. split; [exact ND|]. split.
        * rewrite <- D'. exact (disk_fix _ w _ K1 K2).
        * intro j. destruct (Nat.eq_dec j i) as [->|J]; [|auto]. rewrite <- P'.
          destruct (proc_settled _ _ _ _ _ _ OKi) as [N H]; [discriminate|].
          rewrite (resume_step _ _ _ _ _ _ _ _ _ (phase_after st (Opened b) w w1) o w1 w1 (last_db d0 h) (last_db d0 h) EX) in H
            by exact (with_db_fix _ w _ K1 K2).
          destruct CS as [(AC & F & TX)|CS].
          -- specialize (TX (last_db d0 h)). rewrite EX in TX. cbn in TX.
             unfold proc_ok. cbn [pr_left]. destruct (go_on_cases o k HK) as [(r & -> & G)|(oo & G)].
             ++ rewrite G in H |- *. cbn [pr_phase pr_world].
                assert (PH : phase_after st (Opened b) w w1 = Opened true).
                { unfold phase_after. rewrite AC, F. destruct (w_txn w1); [congruence| |]; destruct b; reflexivity. }
                rewrite PH in *. split; [exact TX|]. split; [exact N|]. exact H.
             ++ rewrite G in H |- *. apply settled_now; auto.
          -- specialize (CS (last_db d0 h)). rewrite EX in CS. cbn in CS. subst o. unfold proc_ok. cbn.
             apply settled_now; auto.
      + pose proof (ALL (last_db d0 h)) as EX2. rewrite EX in EX2. injection EX2 as -> ->.
        assert (PN : ph <> Over) by (intros ->; cbn in CO; congruence).
        destruct (proc_settled _ _ _ _ _ _ OKi PN) as [N H].
        rewrite (resume_step _ _ _ _ _ _ _ _ _ (phase_after st ph w (with_db dn w')) o' _ (with_db dn w') (last_db d0 h) dn EX) in H
          by apply with_db_twice.
        exists (h ++ [(i, dn)]). split; [|eauto]. split; [|split].
        * rewrite map_app. cbn. 
          clear - ND N. induction (map fst h) as [|x l IH]; cbn in *; [constructor; [intros []|constructor]|].
          inversion ND; subst. constructor.
          -- rewrite in_app_iff. cbn. intros [C|[C|[]]]; auto.
          -- apply IH; auto.
        * rewrite <- D', disk_with_db, last_db_app. reflexivity.
        * intro j. destruct (Nat.eq_dec j i) as [->|J].
          -- rewrite <- P'.
             assert (ST : settled (h ++ [(i, dn)]) i (Proc (go_on o' k HK) (with_db dn w') (phase_after st ph w (with_db dn w')))).
             { left. exists h, dn, []. split; [reflexivity|exact H]. }
             unfold proc_ok. cbn [pr_left]. destruct (go_on_cases o' k HK) as [(r & -> & G)|(oo & G)]; rewrite G in ST |- *; [|exact ST].
             cbn [pr_phase pr_world].
             assert (PH : phase_after st ph w (with_db dn w') = Over).
             { unfold phase_after. cbn. rewrite TX. destruct ph; try reflexivity. cbn in CO. congruence. }
             rewrite PH in *. split; [exact TX|exact ST].
          -- apply proc_grow; auto. intro SH. apply NS. rewrite (OTH j J) in SH. eauto.
    - exists h. split; [|exists []; rewrite app_nil_r; reflexivity]. split; [exact ND|]. split; [congruence|].
      intro j. destruct (Nat.eq_dec j i) as [->|J]; [|auto]. rewrite <- P'.
      destruct L as [L1 L2]. rewrite L1 in EX. injection EX as <- <-.
      assert (S : forall d, resume (Proc (Rest m (ScEnd true m (conj L1 L2))) w ph) d =
                resume (Proc (Ended (fst (m w))) (with_db (sy_db s) (snd (m w))) ph) d).
      { intro d. unfold resume. cbn. rewrite L1, with_db_twice. reflexivity. }
      unfold proc_ok. cbn [pr_left]. destruct ph as [|[]|].
      1-3: destruct (proc_settled _ _ _ _ _ _ OKi) as [N H]; [discriminate|]; rewrite S in H; apply settled_now; auto.
      destruct OKi as [_ ST]. cbn in ST. eapply settled_same; eauto.
  Qed.

  Lemma sys_steps s s' : steps s s' -> forall h, sys_ok h s -> exists h', sys_ok h' s'.
  Proof.
    induction 1 as [s|s s1 s2 _ IH ST]; intros h OK; [eauto|].
    destruct (IH h OK) as [h1 OK1]. destruct (sys_step _ _ _ OK1 ST) as [h2 [OK2 _]]. eauto.
  Qed.

  Lemma sys_start : (forall i, w_txn (j_world (jobs i)) = NoTxn) ->
    sys_ok [] (System d0 (fun i => start (jobs i))).
  Proof.
    intro NT. split; [constructor|]. split; [reflexivity|]. intro i. unfold proc_ok. cbn. split; [apply NT|].
    split; [tauto|]. intro d. reflexivity.
  Qed.
End Serial.
