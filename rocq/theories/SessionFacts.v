(** Facts about sessions: sequences of store calls on an open connection. *)
From Verif Require Import Base BaseFacts Key Keyish Cbor CborFacts Object ObjectFacts Path World Store WorldFacts
  SpecKey KeyFacts TableFacts SpecStore StoreCalls SpecTrace StoreFacts Frame DbRel Main SpecRun Integrity ObjStoreFacts.
From Coq Require Import Sorted RelationClasses.

Section Session.
  Context {E : Env}.
  Notation ds := sqlite_ds.

  Lemma session_ok w : session w -> world_ok w.
  Proof.
    intros (w0 & l & calls & R & ->). apply world_ok_run. apply reachable_ok in R. split; [exact R|exact I].
  Qed.

  (** *** Liveness *)
  Definition live_ok (c : call) (w : world) (s : spec) : Prop :=
    match observe c w with
    | (Some (Answered r), w') => has_answer c s /\ w_faults w' = []
    | (Some (Failed b), w') => ~ has_answer c s /\ b = false /\ w_faults w' = []
    | (None, _) => False
    end.
  Lemma op_nofault {A} (eff : fault -> M A) w : w_faults w = [] -> op eff w = eff FOk (set_tick w (S (w_tick w))).
  Proof. intro H. unfold op. cbn. rewrite H. reflexivity. Qed.
  Lemma call_live c w s : abs w s -> w_faults w = [] -> live_ok c w s.
  Proof.
    intros H F. pose proof (abs_cur _ _ H) as Hc. pose proof (in_txn_abs _ _ H) as Ht.
    unfold live_ok, observe. destruct c; cbn [do_call has_answer].
    - unfold put, bind, hash. cbn [raw_put ds]. unfold sqlite_raw_put, db_write. rewrite op_nofault by exact F. cbn.
      unfold put_db. cbn. destruct (w_txn w); cbn; auto.
    - unfold get, bind. cbn [raw_get ds]. unfold sqlite_raw_get, bind, db_read. rewrite op_nofault by exact F.
      change (cur_db (set_tick w (S (w_tick w)))) with (cur_db w).
      rewrite <- (ab_objects _ _ Hc). destruct (assoc (as_db_key k) (d_data (cur_db w))); cbn.
      + split; [discriminate|exact F].
      + unfold in_txn. cbn. split; [auto|]. split; [destruct (w_txn w); reflexivity|exact F].
    - cbn [raw_exists ds]. unfold sqlite_raw_exists, bind, db_read. rewrite op_nofault by exact F.
      change (cur_db (set_tick w (S (w_tick w)))) with (cur_db w).
      rewrite count_key by apply Hc. destruct (assoc (as_db_key k) (d_data (cur_db w))); cbn; auto.
    - cbn [raw_between ds]. unfold sqlite_raw_between, bind, db_read. rewrite op_nofault by exact F. cbn. auto.
    - unfold put_head, bind. cbn [raw_put_state ds]. unfold sqlite_raw_put_state, db_write. rewrite op_nofault by exact F.
      cbn -[str]. unfold put_db. cbn -[str]. destruct (w_txn w); cbn; auto.
    - unfold get_head, bind. cbn [raw_get_state ds]. unfold sqlite_raw_get_state, db_read. rewrite op_nofault by exact F.
      change (cur_db (set_tick w (S (w_tick w)))) with (cur_db w).
      rewrite <- (ab_head _ _ Hc). destruct (assoc (str "HEAD") (d_state (cur_db w))) as [b|]; cbn -[str utf8_valid]; [|auto].
      destruct (utf8_valid b) eqn:Eu; cbn; [auto|]. unfold in_txn. cbn. split; [discriminate|].
      split; [destruct (w_txn w); reflexivity|exact F].
    - unfold bind. cbn [reflog_push ds]. unfold sqlite_reflog_push, db_write. rewrite op_nofault by exact F.
      cbn. unfold put_db. cbn. destruct (w_txn w); cbn; auto.
    - unfold bind. cbn [reflog_get ds]. unfold sqlite_reflog_get, bind, db_read. rewrite op_nofault by exact F.
      change (cur_db (set_tick w (S (w_tick w)))) with (cur_db w). rewrite (select_history _ _ _ _ Hc).
      destruct (history n remote (sp_current s)) as [|k l]; cbn [map hd_error].
      + cbn. unfold in_txn. cbn. split; [auto|]. split; [destruct (w_txn w); reflexivity|exact F].
      + rewrite from_as_db_key. cbn. split; [discriminate|exact F].
    - unfold bind. cbn [reflog_walk ds]. unfold sqlite_reflog_walk, bind, unwrap, db_read. rewrite op_nofault by exact F.
      rewrite op_nofault by exact F.
      match goal with |- context [cur_db (set_tick ?a ?b)] => change (cur_db (set_tick a b)) with (cur_db w) end.
      rewrite (select_history _ _ _ _ Hc). rewrite (map_result_app from_db_key as_db_key) by apply from_as_db_key.
      cbn. auto.
    - unfold bind, db_begin. rewrite op_nofault by exact F. unfold in_txn in *. cbn.
      destruct (w_txn w) eqn:Et; cbn; rewrite ?Et, <- ?Ht; destruct (sp_pending s); try discriminate; auto;
        (split; [discriminate|auto]).
    - unfold bind, db_commit. rewrite op_nofault by exact F. unfold in_txn in *. cbn. unfold commit_now. cbn.
      destruct (w_txn w) eqn:Et; cbn; rewrite ?Et, <- ?Ht; destruct (sp_pending s); try discriminate; auto;
        (split; [congruence|auto]).
    - unfold bind, db_rollback. rewrite op_nofault by exact F. unfold in_txn in *. cbn.
      destruct (w_txn w) eqn:Et; cbn; rewrite ?Et, <- ?Ht; destruct (sp_pending s); try discriminate; auto;
        (split; [congruence|auto]).
  Qed.
  Lemma run_live l : forall w s t d w', abs w s -> w_faults w = [] -> run_calls l w = (t, d, w') ->
    d = None /\ map fst t = l /\ spec_answers blake3 t s.
  Proof.
    induction l as [|c l IH]; intros w s t d w' H F R; cbn in R.
    - inv R. cbn. auto.
    - pose proof (call_live c w s H F) as L. unfold live_ok in L.
      destruct (observe c w) as [[a|] w1] eqn:O; [|destruct L].
      destruct (run_calls l w1) as [[t1 d1] w2] eqn:R1. inv R.
      destruct (observe_refines _ _ _ _ _ H O) as [_ B].
      assert (F1 : w_faults w1 = []) by (destruct a; tauto).
      destruct (IH _ _ _ _ _ B F1 R1) as (-> & M1 & S1). split; [reflexivity|]. cbn. split; [congruence|].
      split; [|split; [|exact S1]].
      + intro HA. destruct a as [x|b]; [eauto|]. tauto.
      + intro HA. destruct a as [x|b]; [tauto|]. destruct L as (_ & -> & _). reflexivity.
  Qed.

  (** *** A run on an empty database *)
  Lemma abs_empty w : w_dbs w = [] -> w_txn w = NoTxn -> abs w (Spec repo_empty None).
  Proof.
    intros H1 H2. split; [|rewrite H2; exact I]. unfold disk, db_at. rewrite H1. cbn.
    constructor; cbn; auto; constructor.
  Qed.
  Lemma run_empty w l t d w' : w_dbs w = [] -> w_txn w = NoTxn -> run_calls l w = (t, d, w') ->
    spec_allows blake3 t (Spec repo_empty None).
  Proof. intros H1 H2 R. exact (proj1 (run_refines _ _ _ _ _ _ (abs_empty w H1 H2) R)). Qed.
  Lemma run_empty_live w l t d w' : w_dbs w = [] -> w_txn w = NoTxn -> w_faults w = [] -> run_calls l w = (t, d, w') ->
    d = None /\ map fst t = l /\ spec_answers blake3 t (Spec repo_empty None).
  Proof. intros H1 H2 F R. exact (run_live _ _ _ _ _ _ (abs_empty w H1 H2) F R). Qed.

  (** *** Reading back *)
  Lemma reads_holds w o : holds w o -> reads_as w (obj_key o) (Done o).
  Proof.
    intro H. unfold reads_as. destruct (get_holds_nofault (set_faults w []) o eq_refl H) as (w1 & _ & _ & ->).
    reflexivity.
  Qed.
  Lemma crash_disk w : cur_db (after_crash w) = disk w.
  Proof. reflexivity. Qed.
  Lemma put_then_reads w o k w1 l t d w2 :
    session w -> put_obj ds o w = (Done k, w1) -> no_coll (w_hashed w1) -> run_calls l w1 = (t, d, w2) ->
    match fate_of (in_txn w1) t with
    | Saved => reads_as w2 k (Done o) /\ reads_as (after_crash w2) k (Done o)
    | Pending => d = None -> reads_as w2 k (Done o)
    | Lost => True
    end.
  Proof.
    intros S P NC R. apply session_ok in S. destruct (put_obj_holds _ _ _ _ S P NC) as [[F H] ->].
    assert (W1 : world_ok w1).
    { pose proof (rel_put_obj ok_rel) as X. specialize (X o w S). rewrite P in X. exact X. }
    pose proof (run_fate w1 _ _ _ _ _ _ W1 H R) as FT. destruct (fate_of (in_txn w1) t); [exact I| |].
    - intro D. apply reads_holds. split; [exact F|auto].
    - destruct FT as [A B]. split; apply reads_holds; (split; [exact F|]); assumption.
  Qed.

  (** *** Idempotence *)
  Lemma put_twice w o k w1 k' w2 : put_obj ds o w = (Done k, w1) -> put_obj ds o w1 = (Done k', w2) ->
    k' = k /\ cur_db w2 = cur_db w1 /\ disk w2 = disk w1.
  Proof.
    intros P Q. destruct (put_obj_key _ _ _ _ _ P) as [-> F]. apply put_obj_put in P, Q.
    apply put_done in P as (_ & C & _).
    destruct (assoc (as_db_key (Blake3B (blake3 (encode_object o)))) (d_data (cur_db w1))) as [v|] eqn:Ea.
    - apply (put_present _ _ _ _ _ Ea) in Q. exact Q.
    - exfalso. rewrite C in Ea. cbn in Ea. rewrite assoc_ignore in Ea. unfold obj_key in Ea.
      destruct (assoc _ (d_data (cur_db w))); [discriminate|]. rewrite bytes_eqb_refl in Ea. discriminate.
  Qed.
  Lemma put_again w o v : obj_fits o = true -> assoc (as_db_key (obj_key o)) (d_data (cur_db w)) = Some v ->
    disk (snd (put_obj ds o w)) = disk w /\
    match put_obj ds o w with
    | (Done k, w') => k = obj_key o /\ cur_db w' = cur_db w
    | _ => True
    end.
  Proof.
    intros F H. unfold put_obj. rewrite F. split; [eapply put_present_disk, H|].
    destruct (put ds (encode_object o) w) as [[k| | | |] w'] eqn:P; auto.
    apply (put_present _ _ _ _ _ H) in P. tauto.
  Qed.

  (** *** Integrity, as a statement about rows *)
  Lemma ok_intact log d : db_ok log d -> rows_intact d.
  Proof.
    intros [H1 H2 H3 H4 H5]. split; [apply sorted_NoDup, H1|]. intros k v H. apply H4, H.
  Qed.
  Lemma reachable_intact w l : reachable w -> rows_intact (db_at (w_dbs w) l).
  Proof. intro R. eapply ok_intact, reachable_ok, R. Qed.
  Lemma session_intact w : session w -> rows_intact (cur_db w) /\ rows_intact (disk w).
  Proof.
    intro S. apply session_ok in S. split; eapply ok_intact; [apply world_ok_cur, S|apply world_ok_disk, S].
  Qed.

  (** *** Queries *)
  Lemma between_exact w s e l w' : session w -> raw_between ds s e w = (Done l, w') ->
    StronglySorted spec_lt l /\ forall k, In k l <-> (assoc k (d_data (cur_db w)) <> None /\ in_range s e k).
  Proof.
    intros S H. apply session_ok in S. apply db_read_done in H as [_ ->]. pose proof (spec_of_abs w S) as A.
    destruct (between_answer _ _ s e (abs_cur _ _ A)) as [B C]. split; [exact B|]. intro k.
    rewrite C, (ab_objects _ _ (abs_cur _ _ A)). reflexivity.
  Qed.
  Lemma exists_exact w k : session w ->
    match raw_exists ds k (set_faults w []), raw_get ds k (set_faults w []) with
    | (Done true, _), (Done _, _) => True
    | (Done false, _), (Error ESql, _) => True
    | _, _ => False
    end.
  Proof.
    intro S. apply session_ok in S. cbn [raw_exists raw_get ds]. unfold sqlite_raw_exists, sqlite_raw_get, bind, db_read.
    rewrite !op_nofault by reflexivity.
    match goal with |- context [cur_db (set_tick ?a ?b)] => change (cur_db (set_tick a b)) with (cur_db w) end.
    rewrite count_key by (apply (dk_data _ _ (world_ok_cur _ S))).
    destruct (assoc k (d_data (cur_db w))); cbn; exact I.
  Qed.
  Lemma exists_no_assert w k : session w -> fst (raw_exists ds k w) <> Panicked PAssert.
  Proof.
    intro S. apply session_ok in S. cbn [raw_exists ds]. unfold sqlite_raw_exists, bind.
    destruct (db_read_cases (fun d => length (filter (fun '(k', _) => bytes_eqb k' k) (d_data d))) w) as (w1 & T & [C|[NF [C|[C|C]]]]);
      rewrite C; try discriminate.
    rewrite count_key by (apply (dk_data _ _ (world_ok_cur _ S))). destruct (assoc k (d_data (cur_db w))); discriminate.
  Qed.

  (** *** Runs without rollback *)
  Lemma spec_keeps t : forall s, spec_allows blake3 t s -> existsb rolls_back t = false ->
    rp_head (sp_current (spec_run blake3 t s)) = last_head t (rp_head (sp_current s)) /\
    forall n r, history n r (sp_current (spec_run blake3 t s)) = pushed_in n r t (history n r (sp_current s)).
  Proof.
    induction t as [|[c a] t IH]; intros s A NR; [auto|]. cbn [spec_allows existsb spec_run] in *.
    destruct A as [A1 A2]. apply orb_false_iff in NR as [N1 N2]. destruct (IH _ A2 N2) as [H1 H2].
    rewrite H1. split.
    - cbn [last_head]. f_equal.
      destruct a as [x|[|]]; [|destruct c; discriminate|destruct c; reflexivity].
      destruct c; try discriminate; cbn [spec_step last_head]; unfold sp_update, sp_current; try (destruct (sp_pending s); reflexivity).
      destruct A1 as [-> _]. reflexivity.
    - intros n r. rewrite H2. cbn [pushed_in].
      destruct a as [x|[|]]; [|destruct c; discriminate|destruct c; reflexivity].
      destruct c; try discriminate; cbn [spec_step]; unfold sp_update, sp_current; try (destruct (sp_pending s); reflexivity).
      + unfold history. destruct (sp_pending s); cbn; destruct (pushed_under n r p); reflexivity.
      + destruct A1 as [-> _]. reflexivity.
  Qed.
  Lemma head_now w s : abs w s -> fst (get_head ds (set_faults w [])) =
    match rp_head (sp_current s) with
    | Some h => if utf8_valid h then Done (Some h) else Error EUtf8
    | None => Done None
    end.
  Proof.
    intro A. unfold get_head, bind. cbn [raw_get_state ds]. unfold sqlite_raw_get_state, db_read.
    rewrite op_nofault by reflexivity.
    match goal with |- context [cur_db (set_tick ?a ?b)] => change (cur_db (set_tick a b)) with (cur_db w) end.
    rewrite <- (ab_head _ _ (abs_cur _ _ A)).
    destruct (assoc (str "HEAD") (d_state (cur_db w))) as [b|]; [|reflexivity]. destruct (utf8_valid b); reflexivity.
  Qed.
  Lemma walk_now w s n r : abs w s -> fst (reflog_walk ds n r (set_faults w [])) = Done (history n r (sp_current s)).
  Proof.
    intro A. cbn [reflog_walk ds]. unfold sqlite_reflog_walk, bind, unwrap, db_read. rewrite !op_nofault by reflexivity.
    match goal with |- context [cur_db (set_tick ?a ?b)] => change (cur_db (set_tick a b)) with (cur_db w) end.
    rewrite (select_history _ _ _ _ (abs_cur _ _ A)).
    rewrite (map_result_app from_db_key as_db_key) by apply from_as_db_key. reflexivity.
  Qed.
  Lemma latest_now w s n r : abs w s -> fst (reflog_get ds n r (set_faults w [])) =
    match history n r (sp_current s) with k :: _ => Done k | [] => Error ERefNotFound end.
  Proof.
    intro A. cbn [reflog_get ds]. unfold sqlite_reflog_get, bind, db_read. rewrite !op_nofault by reflexivity.
    match goal with |- context [cur_db (set_tick ?a ?b)] => change (cur_db (set_tick a b)) with (cur_db w) end.
    rewrite (select_history _ _ _ _ (abs_cur _ _ A)).
    destruct (history n r (sp_current s)) as [|k l]; cbn [map hd_error]; [reflexivity|]. rewrite from_as_db_key. reflexivity.
  Qed.
  Lemma head_after w l t w' : session w -> run_calls l w = (t, None, w') -> existsb rolls_back t = false ->
    fst (get_head ds (set_faults w' [])) =
      match last_head t (assoc (str "HEAD") (d_state (cur_db w))) with
      | Some h => if utf8_valid h then Done (Some h) else Error EUtf8
      | None => Done None
      end.
  Proof.
    intros S R N. apply session_ok, spec_of_abs in S. destruct (run_refines _ _ _ _ _ _ S R) as [A B].
    rewrite (head_now _ _ B). destruct (spec_keeps _ _ A N) as [-> _]. rewrite <- (ab_head _ _ (abs_cur _ _ S)). reflexivity.
  Qed.
  Lemma history_after w l t w' n r old : session w -> run_calls l w = (t, None, w') -> existsb rolls_back t = false ->
    fst (reflog_walk ds n r (set_faults w [])) = Done old ->
    fst (reflog_walk ds n r (set_faults w' [])) = Done (pushed_in n r t old) /\
    fst (reflog_get ds n r (set_faults w' [])) =
      match pushed_in n r t old with k :: _ => Done k | [] => Error ERefNotFound end.
  Proof.
    intros S R N O. apply session_ok, spec_of_abs in S. destruct (run_refines _ _ _ _ _ _ S R) as [A B].
    rewrite (walk_now _ _ n r S) in O. injection O as <-.
    rewrite (walk_now _ _ n r B), (latest_now _ _ n r B). destruct (spec_keeps _ _ A N) as [_ X]. rewrite X. auto.
  Qed.
End Session.
