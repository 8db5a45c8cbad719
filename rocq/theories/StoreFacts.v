(** Facts about Store.v: the SQLite store refines the specification; hashing and
    immutability of stored objects. *)
From Verif Require Import Base BaseFacts Key Keyish Cbor CborFacts Object ObjectFacts Path World Store WorldFacts
  SpecKey KeyFacts TableFacts SpecStore StoreCalls.
From Coq Require Import Sorted RelationClasses.

(** ** Abstraction *)
Definition row_push (r : row) (p : push) : Prop :=
  r_name r = ph_name p /\ r_remote r = ph_remote p /\ r_key r = as_db_key (ph_key p).
Record abs_db (d : db) (r : repo) : Prop := AbsDb {
  ab_data_sorted : sorted_table (d_data d);
  ab_state_sorted : sorted_table (d_state d);
  ab_rows : rows_ok (d_reflog d);
  ab_objects : forall k, assoc k (d_data d) = rp_objects r k;
  ab_head : assoc (str "HEAD") (d_state d) = rp_head r;
  ab_log : Forall2 row_push (d_reflog d) (rev (rp_log r))
}.
Definition abs (w : world) (s : spec) : Prop :=
  abs_db (disk w) (sp_committed s) /\
  match w_txn w, sp_pending s with
  | NoTxn, None => True
  | TxnClean, Some p => p = sp_committed s
  | TxnDirty d, Some p => abs_db d p
  | _, _ => False
  end.

Lemma abs_cur w s : abs w s -> abs_db (cur_db w) (sp_current s).
Proof.
  unfold abs, cur_db, sp_current. intros [H1 H2].
  destruct (w_txn w), (sp_pending s); try tauto. subst. exact H1.
Qed.
Lemma disk_put_txn w d : in_txn w = true -> disk (put_db d w) = disk w.
Proof. unfold put_db, in_txn, disk. destruct (w_txn w); [discriminate| |]; reflexivity. Qed.
Lemma disk_set w d : disk (set_dbs w (assoc_set (w_conn w) d (w_dbs w))) = d.
Proof. unfold disk. cbn. rewrite db_at_set, names_eqb_refl. reflexivity. Qed.
Lemma cur_put w d : cur_db (put_db d w) = d.
Proof.
  unfold put_db, cur_db. destruct (w_txn w) eqn:E; cbn; [|reflexivity|reflexivity]. rewrite E. apply disk_set.
Qed.
Lemma abs_put w s d f : abs w s -> abs_db d (f (sp_current s)) -> abs (put_db d w) (sp_update f s).
Proof.
  unfold abs, put_db, sp_update, sp_current. intros [H1 H2] H3.
  destruct (w_txn w) eqn:Et, (sp_pending s) eqn:Ep; try (exfalso; assumption); cbn [sp_committed sp_pending].
  - cbn. rewrite Et. split; [|exact I]. rewrite disk_set. exact H3.
  - cbn. rewrite disk_set_txn. subst. split; assumption.
  - cbn. rewrite disk_set_txn. split; assumption.
Qed.
Lemma abs_ticked w s w1 : ticked w w1 -> abs w s -> abs w1 s.
Proof. intros (t & r & ->) H. exact H. Qed.
Lemma abs_lost w s : abs w s -> abs (set_txn w NoTxn) (Spec (sp_committed s) None).
Proof. intros [H1 H2]. split; cbn; auto. Qed.
Lemma abs_hashed w s h : abs w s -> abs (set_hashed w h) s.
Proof. auto. Qed.
Lemma in_txn_abs w s : abs w s -> in_txn w = match sp_pending s with Some _ => true | None => false end.
Proof. intros [_ H]. unfold in_txn. destruct (w_txn w), (sp_pending s); try tauto; reflexivity. Qed.
Lemma abs_commit w s : abs w s -> in_txn w = true -> abs (commit_now w) (Spec (sp_current s) None).
Proof.
  intros [H1 H2] Ht. unfold commit_now, in_txn, sp_current in *. destruct (w_txn w) eqn:Et; [discriminate| |].
  - destruct (sp_pending s) eqn:Ep; [|tauto]. subst. split; cbn; auto.
  - destruct (sp_pending s) eqn:Ep; [|tauto]. split; cbn; [|exact I].
    rewrite disk_set_txn, disk_set. exact H2.
Qed.

Section Facts.
  Context {E : Env}.
  Let hash_fn := blake3.

  (** Updates. *)
  Lemma abs_put_data d r data : abs_db d r ->
    abs_db (upd_data (insert_or_ignore (as_db_key (Blake3B (blake3 data))) data) d) (spec_put blake3 data r).
  Proof.
    intros []. constructor; cbn; auto; [apply sorted_ignore; assumption|].
    intro k. rewrite assoc_ignore, ab_objects0. reflexivity.
  Qed.
  Lemma abs_put_head d r h : abs_db d r ->
    abs_db (upd_state (insert_or_replace (str "HEAD") h) d) (Repo (rp_objects r) (Some h) (rp_log r)).
  Proof.
    intros []. constructor; cbn [d_data d_state d_reflog upd_state rp_objects rp_head rp_log]; auto.
    - apply sorted_replace; assumption.
    - rewrite assoc_replace, bytes_eqb_refl. reflexivity.
  Qed.
  Lemma abs_push d r p : abs_db d r ->
    abs_db (upd_reflog (fun rows => rows ++ [Row (next_id rows) (ph_name p) (ph_remote p) (as_db_key (ph_key p))]) d)
           (Repo (rp_objects r) (rp_head r) (p :: rp_log r)).
  Proof.
    intros []. constructor; cbn; auto; [apply rows_ok_push; assumption|].
    apply Forall2_app; [assumption|]. constructor; [|constructor]. repeat split.
  Qed.

  (** History queries. *)
  Lemma row_matches_push n r row p : row_push row p -> row_matches n r row = pushed_under n r p.
  Proof.
    intros (H1 & H2 & H3). unfold row_matches, pushed_under, opt_bytes_eqb. rewrite H1, H2. reflexivity.
  Qed.
  Lemma Forall2_rev {A B} (R : A -> B -> Prop) l l' : Forall2 R l l' -> Forall2 R (rev l) (rev l').
  Proof.
    induction 1; cbn; [constructor|]. apply Forall2_app; [assumption|]. repeat constructor. assumption.
  Qed.
  Lemma rows_filter n r rows ps : Forall2 row_push rows ps ->
    Forall2 row_push (filter (row_matches n r) rows) (filter (pushed_under n r) ps).
  Proof.
    induction 1 as [|x y l l' H HF IH]; cbn; [constructor|].
    rewrite (row_matches_push n r x y H). destruct (pushed_under n r y); [constructor|]; assumption.
  Qed.
  Lemma rows_keys rows ps : Forall2 row_push rows ps -> map r_key rows = map as_db_key (map ph_key ps).
  Proof. induction 1 as [|x y l l' (H1 & H2 & H3) HF IH]; cbn; congruence. Qed.
  Lemma filter_rev {A} (f : A -> bool) l : filter f (rev l) = rev (filter f l).
  Proof.
    induction l as [|x l IH]; cbn; [reflexivity|]. rewrite filter_app, IH. cbn.
    destruct (f x); cbn; [reflexivity|]. apply app_nil_r.
  Qed.
  Lemma select_history d r n rm : abs_db d r ->
    select_reflog n rm (d_reflog d) = map as_db_key (history n rm r).
  Proof.
    intros []. rewrite select_reflog_rev by assumption. unfold history.
    apply (rows_filter n rm), Forall2_rev, rows_keys in ab_log0.
    rewrite ab_log0, filter_rev, rev_involutive. reflexivity.
  Qed.

  Lemma between_answer d r start end_ : abs_db d r ->
    StronglySorted spec_lt (select_between start end_ (d_data d)) /\
    forall k, In k (select_between start end_ (d_data d)) <-> (rp_objects r k <> None /\ in_range start end_ k).
  Proof.
    intros []. split.
    - pose proof (sorted_select_between start end_ _ ab_data_sorted0) as H. clear -H.
      induction H as [|x l HS IH HF]; constructor; [exact IH|].
      eapply Forall_impl; [|exact HF]. intros a Ha. apply bytes_cmp_lt, Ha.
    - intro k. rewrite in_select_between. apply and_iff_compat_r. rewrite <- ab_objects0.
      destruct (assoc k (d_data d)) as [v|] eqn:Ea.
      + apply assoc_In, (in_map fst) in Ea. cbn in Ea. split; [discriminate|auto].
      + apply assoc_None in Ea. tauto.
  Qed.

  (** ** What one call does *)
  Definition call_ok (c : call) (w : world) (s : spec) : Prop :=
    match do_call c w with
    | (Done r, w') => spec_answer blake3 c s r /\ abs w' (spec_step blake3 c (Answered r) s)
    | (Crashed, w') => (forall r, abs w' s \/ abs w' (spec_step blake3 c (Answered r) s))
    | (_, w') => abs w' (spec_step blake3 c (Failed (in_txn w && negb (in_txn w'))) s)
    end.

  Lemma failed_same w s w1 : abs w s -> ticked w w1 ->
    forall c, abs w1 (spec_step blake3 c (Failed (in_txn w && negb (in_txn w1))) s).
  Proof.
    intros H T c. pose proof T as (t & r & ->). unfold in_txn. cbn [w_txn set_faults set_tick].
    replace (match w_txn w with NoTxn => false | _ => true end && negb (match w_txn w with NoTxn => false | _ => true end)) with false
      by (destruct (w_txn w); reflexivity).
    exact H.
  Qed.
  Lemma failed_lost w s w1 : abs w s -> ticked w w1 ->
    forall c, abs (set_txn w1 NoTxn) (spec_step blake3 c (Failed (in_txn w && negb (in_txn (set_txn w1 NoTxn)))) s).
  Proof.
    intros H T c. pose proof T as (t & r & ->). unfold in_txn. cbn [w_txn set_faults set_tick set_txn negb].
    rewrite andb_true_r. destruct (w_txn w) eqn:Et.
    - cbn. destruct H as [H1 H2]. rewrite Et in H2. split; [exact H1|]. cbn.
      destruct (sp_pending s); tauto.
    - apply abs_lost. exact H.
    - apply abs_lost. exact H.
  Qed.
  Lemma in_txn_ticked w w1 : ticked w w1 -> in_txn w1 = in_txn w.
  Proof. intros (t & r & ->). reflexivity. Qed.

  (** Queries. *)
  Lemma read_ok {A} (q : db -> A) (k : A -> M reply) c w s :
    abs w s ->
    do_call c w = bind (db_read q) k w ->
    (forall a, spec_step blake3 c a s = match a with Failed true => Spec (sp_committed s) None | _ => s end) ->
    (forall w1, cur_db w1 = cur_db w -> w_txn w1 = w_txn w ->
       match k (q (cur_db w)) w1 with
       | (Done r, w') => spec_answer blake3 c s r /\ w' = w1
       | (Error _, w') => w' = w1
       | _ => False
       end) ->
    call_ok c w s.
  Proof.
    intros H Hc Hs Hk. unfold call_ok. rewrite Hc. unfold bind at 1, db_read.
    destruct (op_case (fun (f : fault) (w : world) => match f with
      | FOk => (Done (q (cur_db w)), w)
      | FErr _ => (Error ESql, w)
      | FErrRb => (Error ESql, set_txn w NoTxn)
      | FCrash _ => (Crashed, w)
      end) w) as (f & w1 & E1 & T). rewrite E1. destruct f; cbn -[spec_step spec_answer].
    - assert (Hcur : cur_db w1 = cur_db w) by (destruct T as (? & ? & ->); reflexivity).
      assert (Htx : w_txn w1 = w_txn w) by (destruct T as (? & ? & ->); reflexivity).
      rewrite Hcur. specialize (Hk w1 Hcur Htx).
      destruct (k (q (cur_db w)) w1) as [[r|e|p| |] w2]; try tauto.
      + destruct Hk as [Ha ->]. split; [exact Ha|]. rewrite Hs. eapply abs_ticked; eauto.
      + subst w2. eapply failed_same; eauto.
    - eapply failed_same; eauto.
    - eapply failed_lost; eauto.
    - intro r. left. eapply abs_ticked; eauto.
  Qed.
  (** Updates. *)
  Lemma write_ok (u : db -> db) (f : repo -> repo) c r w s :
    abs w s ->
    (exists g, do_call c w = bind (db_write u) (fun _ => ret r) (set_hashed w g)) ->
    (forall a, spec_step blake3 c (Answered a) s = sp_update f s) ->
    abs_db (u (cur_db w)) (f (sp_current s)) ->
    spec_answer blake3 c s r ->
    call_ok c w s.
  Proof.
    intros H [g Hc] Hs Hu Ha. unfold call_ok. rewrite Hc. unfold bind at 1, db_write.
    match goal with |- context [op ?e ?x] => destruct (op_case e x) as (fl & w1 & E1 & T) end.
    rewrite E1. assert (T' : exists t r, w1 = set_faults (set_tick (set_hashed w g) t) r) by exact T.
    assert (Habs : abs w1 s) by (eapply abs_ticked; [exact T|exact H]).
    assert (Hput : abs (put_db (u (cur_db w1)) w1) (sp_update f s)).
    { apply abs_put; [exact Habs|]. destruct T' as (? & ? & ->). exact Hu. }
    assert (Hin : in_txn w = in_txn (set_hashed w g)) by reflexivity.
    destruct fl as [|n| |[|n]]; cbn -[spec_step].
    - split; [exact Ha|]. rewrite Hs. exact Hput.
    - rewrite Hin. eapply failed_same; [exact H|exact T].
    - rewrite Hin. eapply failed_lost; [exact H|exact T].
    - intro. left. exact Habs.
    - intro. right. rewrite Hs. exact Hput.
  Qed.

  Lemma call_refines c w s : abs w s -> call_ok c w s.
  Proof.
    intro H. pose proof (abs_cur _ _ H) as Hcur. destruct c.
    - eapply (write_ok _ (spec_put blake3 data)); [exact H| |reflexivity|apply abs_put_data, Hcur|reflexivity].
      eexists. cbn [do_call]. unfold put. rewrite bind_assoc.
      unfold bind at 1, hash. rewrite bind_assoc. reflexivity.
    - eapply (read_ok (fun d => assoc (as_db_key k) (d_data d)) (fun r => v <- of_option ESql r ;; ret (ReplyBytes v))).
      + exact H.
      + cbn [do_call]. apply bind_assoc.
      + intros [|[]]; reflexivity.
      + intros w1 _ _. destruct (assoc (as_db_key k) (d_data (cur_db w))) as [v|] eqn:Ea; cbn; [|reflexivity].
        split; [|reflexivity]. exists v. split; [|reflexivity]. rewrite <- (ab_objects _ _ Hcur). exact Ea.
    - eapply (read_ok (fun d => length (filter (fun '(k', _) => bytes_eqb k' (as_db_key k)) (d_data d)))
               (fun n => b <- (if Nat.eqb n 0 || Nat.eqb n 1 then ret (Nat.eqb n 1) else panic_with PAssert) ;; ret (ReplyBool b))).
      + exact H.
      + cbn [do_call]. apply bind_assoc.
      + intros [|[]]; reflexivity.
      + intros w1 _ _. rewrite count_key by apply Hcur. cbn. rewrite <- (ab_objects _ _ Hcur).
        destruct (assoc (as_db_key k) (d_data (cur_db w))); cbn; auto.
    - eapply (read_ok (fun d => select_between start end_ (d_data d)) (fun l => ret (ReplyList l))).
      + exact H.
      + reflexivity.
      + intros [|[]]; reflexivity.
      + intros w1 _ _. cbn. split; [|reflexivity]. eexists. split; [reflexivity|]. apply between_answer, Hcur.
    - eapply (write_ok _ (fun r => Repo (rp_objects r) (Some h) (rp_log r))); [exact H| |reflexivity|apply abs_put_head, Hcur|reflexivity].
      exists (w_hashed w). destruct w; reflexivity.
    - eapply (read_ok (fun d => assoc (str "HEAD") (d_state d))
         (fun r => h <- (match r with None => ret None | Some b => if utf8_valid b then ret (Some b) else fail EUtf8 end) ;; ret (ReplyHead h))).
      + exact H.
      + cbn [do_call]. apply bind_assoc.
      + intros [|[]]; reflexivity.
      + intros w1 _ _. cbn [spec_answer]. rewrite <- (ab_head _ _ Hcur).
        destruct (assoc (str "HEAD") (d_state (cur_db w))) as [b|]; cbn; [|auto].
        destruct (utf8_valid b); cbn; auto.
    - eapply (write_ok _ (fun r => Repo (rp_objects r) (rp_head r) (p :: rp_log r))); [exact H| |reflexivity|apply abs_push, Hcur|reflexivity].
      exists (w_hashed w). destruct w; reflexivity.
    - eapply (read_ok (fun d => hd_error (select_reflog n remote (d_reflog d)))
         (fun r => k <- (match r with Some k => lift_result EDbKey (from_db_key k) | None => fail ERefNotFound end) ;; ret (ReplyKey k))).
      + exact H.
      + cbn [do_call]. apply bind_assoc.
      + intros [|[]]; reflexivity.
      + intros w1 _ _. rewrite (select_history _ _ _ _ Hcur). cbn [spec_answer].
        destruct (history n remote (sp_current s)) as [|k l]; cbn [map hd_error]; [reflexivity|].
        rewrite from_as_db_key. cbn. eauto.
    - unfold call_ok. cbn [do_call raw_get reflog_walk sqlite_ds]. unfold sqlite_reflog_walk, db_read.
      unfold bind.
      match goal with |- context [op ?e ?x] => destruct (op_case e x) as (fl & w1 & E1 & T) end.
      rewrite E1. clear E1. assert (Habs : abs w1 s) by (eapply abs_ticked; [exact T|exact H]).
      destruct fl; cbn -[spec_step spec_answer].
      2: eapply failed_same; eauto. 2: eapply failed_lost; eauto. 2: auto.
      unfold unwrap, db_read.
      match goal with |- context [op ?e ?x] => destruct (op_case e x) as (fl & w2 & E2 & T2) end.
      rewrite E2. clear E2. assert (Habs2 : abs w2 s) by (eapply abs_ticked; [exact T2|exact Habs]).
      destruct fl; cbn -[spec_step spec_answer].
      + assert (Hc2 := abs_cur _ _ Habs2). rewrite (select_history _ _ _ _ Hc2).
        rewrite (map_result_app from_db_key as_db_key) by apply from_as_db_key.
        cbn -[spec_step]. split; [reflexivity|exact Habs2].
      + rewrite <- (in_txn_ticked _ _ T). eapply failed_same; eauto.
      + rewrite <- (in_txn_ticked _ _ T). eapply failed_lost; eauto.
      + auto.
    - unfold call_ok. cbn [do_call]. unfold bind, db_begin.
      match goal with |- context [op ?e ?x] => destruct (op_case e x) as (fl & w1 & E1 & T) end.
      rewrite E1. clear E1. assert (Habs : abs w1 s) by (eapply abs_ticked; [exact T|exact H]).
      destruct fl; cbn -[spec_step spec_answer]; auto; try solve [eapply failed_same; eauto].
      destruct (w_txn w1) eqn:Et; cbn -[spec_step spec_answer]; try solve [eapply failed_same; eauto].
      assert (X := in_txn_abs _ _ Habs). unfold in_txn in X. rewrite Et in X.
      split.
      + cbn. destruct (sp_pending s); [discriminate|auto].
      + destruct Habs as [H1 H2]. split; cbn; auto.
    - unfold call_ok. cbn [do_call]. unfold bind, db_commit.
      match goal with |- context [op ?e ?x] => destruct (op_case e x) as (fl & w1 & E1 & T) end.
      rewrite E1. clear E1. assert (Habs : abs w1 s) by (eapply abs_ticked; [exact T|exact H]).
      assert (X := in_txn_abs _ _ Habs).
      assert (HC : in_txn w1 = true -> abs (commit_now w1) (Spec (sp_current s) None)) by (apply abs_commit; exact Habs).
      destruct fl as [|n| |[|n]]; cbn -[spec_step spec_answer]; auto; try solve [eapply failed_same; eauto]; try solve [eapply failed_lost; eauto].
      + unfold in_txn in X, HC. destruct (w_txn w1) eqn:Et; cbn -[spec_step spec_answer]; [eapply failed_same; eauto| |];
        (split; [cbn; destruct (sp_pending s); [split; [discriminate|reflexivity]|discriminate]|apply HC; reflexivity]).
      + intro r. destruct (in_txn w1) eqn:Et; [right; apply HC; reflexivity|left].
        unfold commit_now. unfold in_txn in Et. destruct (w_txn w1) eqn:Et2; try discriminate.
        destruct Habs as [H1 H2]. rewrite Et2 in H2. split; [exact H1|exact H2].
    - unfold call_ok. cbn [do_call]. unfold bind, db_rollback.
      match goal with |- context [op ?e ?x] => destruct (op_case e x) as (fl & w1 & E1 & T) end.
      rewrite E1. clear E1. assert (Habs : abs w1 s) by (eapply abs_ticked; [exact T|exact H]).
      assert (X := in_txn_abs _ _ Habs).
      destruct fl; cbn -[spec_step spec_answer]; auto; try solve [eapply failed_same; eauto]; try solve [eapply failed_lost; eauto].
      unfold in_txn in X. destruct (w_txn w1) eqn:Et; cbn -[spec_step spec_answer]; [eapply failed_same; eauto| |];
        (split; [cbn; destruct (sp_pending s); [split; [discriminate|reflexivity]|discriminate]|apply abs_lost; exact Habs]).
  Qed.

  (** ** Runs *)
  Lemma observe_refines c w s a w' : abs w s -> observe c w = (Some a, w') ->
    match a with Answered x => spec_answer blake3 c s x | Failed _ => True end /\
    abs w' (spec_step blake3 c a s).
  Proof.
    intros H. pose proof (call_refines c w s H) as C. unfold call_ok, observe in *.
    destruct (do_call c w) as [[r|e|p| |] w1]; intro X; inv X; auto.
  Qed.
  Lemma run_refines l : forall w s t d w', abs w s -> run_calls l w = (t, d, w') ->
    spec_allows blake3 t s /\
    match d with
    | None => abs w' (spec_run blake3 t s)
    | Some c => abs w' (spec_run blake3 t s) \/ forall r, abs w' (spec_step blake3 c (Answered r) (spec_run blake3 t s))
    end.
  Proof.
    induction l as [|c l IH]; intros w s t d w' H R; cbn in R.
    - inv R. cbn. auto.
    - destruct (observe c w) as [[a|] w1] eqn:O.
      + destruct (run_calls l w1) as [[t1 d1] w2] eqn:R1. inv R.
        destruct (observe_refines _ _ _ _ _ H O) as [A B].
        destruct (IH _ _ _ _ _ B R1) as [C D]. cbn. auto.
      + inv R. cbn. split; [exact I|]. pose proof (call_refines c w s H) as C. unfold call_ok, observe in *.
        destruct (do_call c w) as [[r|e|p| |] w1]; try discriminate. inv O.
        destruct (C ReplyUnit) as [Z|Z]; [left; exact Z|].
        right. intro r. destruct c; exact Z.
  Qed.
End Facts.
