(** Facts about storing and fetching objects. *)
From Verif Require Import Base BaseFacts Key Keyish Cbor CborFacts Object ObjectFacts Path World Store WorldFacts
  SpecKey KeyFacts TableFacts SpecStore StoreCalls SpecTrace StoreFacts Frame DbRel Main SpecRun Integrity.
From Coq Require Import Sorted RelationClasses.

Section ObjStore.
  Context {E : Env}.
  Notation ds := sqlite_ds.

  Definition obj_key (o : object) : key := Blake3B (blake3 (encode_object o)).
  Lemma obj_fits_fits o : obj_fits o = true -> object_fits o.
  Proof.
    unfold obj_fits, object_fits, max_vec. rewrite andb_true_iff, !N.ltb_lt. intros [H1 H2].
    split; (eapply N.lt_trans; [eassumption|reflexivity]).
  Qed.
  Lemma decode_encode o : obj_fits o = true -> decode_object (encode_object o) = Some o.
  Proof. intro H. unfold decode_object. rewrite decode_encode_object by (apply obj_fits_fits, H). reflexivity. Qed.

  (** Any store: the key returned is the hash of the encoding. *)
  Lemma put_obj_key s o w k w' : put_obj s o w = (Done k, w') -> k = obj_key o /\ obj_fits o = true.
  Proof.
    unfold put_obj. destruct (obj_fits o) eqn:Ef; [|discriminate]. intro H.
    apply bind_done in H as (k0 & w0 & H1 & H). inv H1. apply bind_done in H as (u & w2 & H1 & H).
    apply ret_done in H as [-> _]. auto.
  Qed.

  (** *** Successful database statements *)
  Lemma db_write_done u w x w' : db_write u w = (Done x, w') ->
    exists w1, ticked w w1 /\ w' = put_db (u (cur_db w)) w1 /\ cur_db w1 = cur_db w.
  Proof.
    unfold db_write. intro H. match type of H with op ?e ?x = _ => destruct (op_case e x) as (f & w1 & E1 & T) end.
    rewrite E1 in H. assert (C : cur_db w1 = cur_db w) by (destruct T as (? & ? & ->); reflexivity).
    exists w1. rewrite <- C. destruct f as [| | |[|]]; inv H; auto.
  Qed.
  Lemma db_read_done {A} (q : db -> A) w a w' : db_read q w = (Done a, w') -> ticked w w' /\ a = q (cur_db w).
  Proof.
    unfold db_read. intro H. match type of H with op ?e ?x = _ => destruct (op_case e x) as (f & w1 & E1 & T) end.
    rewrite E1 in H. destruct f; inv H. split; [exact T|]. destruct T as (? & ? & ->). reflexivity.
  Qed.
  Lemma db_read_cases {A} (q : db -> A) w :
    exists w1, ticked w w1 /\
    (db_read q w = (Done (q (cur_db w)), w1) \/
     (w_faults w <> [] /\ (db_read q w = (Error ESql, w1) \/ db_read q w = (Error ESql, set_txn w1 NoTxn)
       \/ db_read q w = (Crashed, w1)))).
  Proof.
    unfold db_read. match goal with |- context [op ?e ?x] => destruct (op_unfold e x) as (f & r & E1 & F) end.
    rewrite E1. eexists. split; [exists (S (w_tick w)), r; reflexivity|].
    destruct f; auto; right; (split; [intro X; destruct (F X); discriminate|]); auto.
  Qed.
  Lemma db_read_nofault {A} (q : db -> A) w : w_faults w = [] ->
    exists w1, ticked w w1 /\ w_faults w1 = [] /\ db_read q w = (Done (q (cur_db w)), w1).
  Proof.
    intro F. unfold db_read. match goal with |- context [op ?e ?x] => destruct (op_unfold e x) as (f & r & E1 & G) end.
    destruct (G F) as [-> ->]. rewrite E1. eexists. split; [eexists _, _; reflexivity|]. split; reflexivity.
  Qed.
  Lemma cur_ticked w w1 : ticked w w1 -> cur_db w1 = cur_db w.
  Proof. intros (? & ? & ->). reflexivity. Qed.
  Lemma disk_ticked w w1 : ticked w w1 -> disk w1 = disk w.
  Proof. intros (? & ? & ->). reflexivity. Qed.
  Lemma hashed_ticked w w1 : ticked w w1 -> w_hashed w1 = w_hashed w.
  Proof. intros (? & ? & ->). reflexivity. Qed.

  (** The object is in the view of the connection. *)
  Definition holds (w : world) (o : object) : Prop :=
    obj_fits o = true /\ assoc (as_db_key (obj_key o)) (d_data (cur_db w)) = Some (encode_object o).

  Lemma put_done data w k w' : put ds data w = (Done k, w') ->
    k = Blake3B (blake3 data) /\
    cur_db w' = upd_data (insert_or_ignore (as_db_key k) data) (cur_db w) /\
    w_hashed w' = data :: w_hashed w /\
    (in_txn w = true -> disk w' = disk w) /\ in_txn w' = in_txn w /\ w_conn w' = w_conn w.
  Proof.
    intro H. apply bind_done in H as (k0 & w0 & H1 & H). inv H1. apply bind_done in H as (u & w2 & H1 & H).
    apply ret_done in H as [-> ->]. apply db_write_done in H1 as (w1 & T & -> & C).
    split; [reflexivity|]. rewrite cur_put. split; [reflexivity|].
    unfold in_txn, disk, put_db. destruct T as (? & ? & ->). cbn.
    destruct (w_txn w) eqn:Et; repeat split; try discriminate; cbn; try rewrite Et; reflexivity.
  Qed.
  Lemma cur_db_ok_assoc w k v : world_ok w -> assoc k (d_data (cur_db w)) = Some v ->
    k = as_db_key (Blake3B (blake3 v)) /\ In v (w_hashed w).
  Proof. intros W H. apply assoc_In in H. apply (dk_hash _ _ (world_ok_cur _ W)), H. Qed.
  Lemma disk_ok_assoc w k v : world_ok w -> assoc k (d_data (disk w)) = Some v ->
    k = as_db_key (Blake3B (blake3 v)) /\ In v (w_hashed w).
  Proof. intros W H. apply assoc_In in H. apply (dk_hash _ _ (world_ok_disk _ W)), H. Qed.

  Lemma blake_key_inj a b : as_db_key (Blake3B (blake3 a)) = as_db_key (Blake3B (blake3 b)) -> blake3 a = blake3 b.
  Proof. intro H. apply as_db_key_inj in H. congruence. Qed.

  (** After a successful put, the bytes are there, unless another string with the
      same hash has been hashed. *)
  Lemma put_assoc data w k w' : world_ok w -> put ds data w = (Done k, w') -> no_coll (w_hashed w') ->
    assoc (as_db_key k) (d_data (cur_db w')) = Some data.
  Proof.
    intros W H NC. apply put_done in H as (-> & C & Hh & _). rewrite C. cbn. rewrite assoc_ignore.
    destruct (assoc _ (d_data (cur_db w))) as [v|] eqn:Ea; [|rewrite bytes_eqb_refl; reflexivity].
    f_equal. destruct (cur_db_ok_assoc _ _ _ W Ea) as [K1 K2]. apply blake_key_inj in K1.
    rewrite Hh in NC. symmetry. apply NC; [left; reflexivity|right; exact K2|exact K1].
  Qed.
  Lemma put_obj_put s o w k w' : put_obj s o w = (Done k, w') -> put s (encode_object o) w = (Done k, w').
  Proof. unfold put_obj. destruct (obj_fits o); [auto|discriminate]. Qed.
  Lemma put_obj_holds o w k w' : world_ok w -> put_obj ds o w = (Done k, w') -> no_coll (w_hashed w') ->
    holds w' o /\ k = obj_key o.
  Proof.
    intros W H NC. destruct (put_obj_key _ _ _ _ _ H) as [-> F]. split; [|reflexivity]. split; [exact F|].
    eapply put_assoc; eauto using put_obj_put.
  Qed.

  (** Fetching. *)
  Lemma get_obj_eq k w : get_obj ds k w =
    bind (db_read (fun d => assoc (as_db_key k) (d_data d)))
         (fun r => v <- of_option ESql r ;; of_option EDecode (decode_object v)) w.
  Proof. unfold get_obj, get. cbn [raw_get sqlite_ds]. unfold sqlite_raw_get. rewrite bind_assoc. reflexivity. Qed.
  Lemma get_obj_done k w o w' : get_obj ds k w = (Done o, w') ->
    ticked w w' /\ exists v, assoc (as_db_key k) (d_data (cur_db w)) = Some v /\ decode_object v = Some o.
  Proof.
    rewrite get_obj_eq. intro H. apply bind_done in H as (r & w1 & H1 & H). apply db_read_done in H1 as [T ->].
    apply bind_done in H as (v & w2 & H1 & H). apply of_option_done in H1 as [A ->].
    apply of_option_done in H as [B ->]. eauto.
  Qed.
  Lemma get_holds w o : holds w o ->
    exists w1, ticked w w1 /\
    (get_obj ds (obj_key o) w = (Done o, w1) \/
     (w_faults w <> [] /\ (get_obj ds (obj_key o) w = (Error ESql, w1)
        \/ get_obj ds (obj_key o) w = (Error ESql, set_txn w1 NoTxn) \/ get_obj ds (obj_key o) w = (Crashed, w1)))).
  Proof.
    intros [F H]. rewrite get_obj_eq. unfold bind at 1.
    destruct (db_read_cases (fun d => assoc (as_db_key (obj_key o)) (d_data d)) w) as (w1 & T & C).
    exists w1. split; [exact T|]. unfold bind.
    destruct C as [C|[NF [C|[C|C]]]]; rewrite C; auto.
    left. rewrite H. cbn [of_option]. unfold ret at 1. rewrite decode_encode by exact F. reflexivity.
  Qed.
  Lemma get_holds_nofault w o : w_faults w = [] -> holds w o ->
    exists w1, ticked w w1 /\ w_faults w1 = [] /\ get_obj ds (obj_key o) w = (Done o, w1).
  Proof.
    intros NF [F H]. rewrite get_obj_eq. unfold bind at 1.
    destruct (db_read_nofault (fun d => assoc (as_db_key (obj_key o)) (d_data d)) w NF) as (w1 & T & NF1 & C).
    exists w1. split; [exact T|]. split; [exact NF1|]. unfold bind. rewrite C, H.
    cbn [of_option]. unfold ret at 1. rewrite decode_encode by exact F. reflexivity.
  Qed.
  Lemma get_holds_done w o o' w' : holds w o -> get_obj ds (obj_key o) w = (Done o', w') -> o' = o.
  Proof.
    intros H G. apply get_holds in H as (w1 & _ & [C|[_ [C|[C|C]]]]); rewrite C in G; inv G. reflexivity.
  Qed.

  (** *** Runs of calls *)
  Lemma rel_do_call (R : world -> world -> Prop) {D : DbRel R} {DP : DbPut R} {DF : DbRefs R} {DX : DbProc R} c :
    rel R (do_call c).
  Proof.
    destruct c; cbn [do_call]; (apply rel_bind; [exact _| |intro; apply rel_ret; exact _]).
    - apply pp_put.
    - apply rel_raw_get; exact _.
    - apply rel_raw_exists; exact _.
    - apply rel_raw_between; exact _.
    - apply rf_head.
    - apply rel_get_head; exact _.
    - apply rf_push.
    - apply rel_reflog_get; exact _.
    - apply rel_reflog_walk; exact _.
    - apply pc_begin.
    - apply pc_commit.
    - apply pc_rollback.
  Qed.
  Lemma rel_observe (R : world -> world -> Prop) {D : DbRel R} {DP : DbPut R} {DF : DbRefs R} {DX : DbProc R} c w :
    R w (snd (observe c w)).
  Proof.
    pose proof (rel_do_call R c w) as H. unfold observe. destruct (do_call c w) as [[| | | |] w1]; exact H.
  Qed.
  Lemma rel_run_calls (R : world -> world -> Prop) {D : DbRel R} {DP : DbPut R} {DF : DbRefs R} {DX : DbProc R} l :
    forall w, R w (snd (run_calls l w)).
  Proof.
    induction l as [|c l IH]; intro w; cbn.
    - apply dr_refl; exact _.
    - pose proof (rel_observe R c w) as H. destruct (observe c w) as [[a|] w1]; [|exact H].
      specialize (IH w1). destruct (run_calls l w1) as [[t d] w2]. eapply dr_trans; eauto.
  Qed.

  (** *** Every consistent state is described by a specification state *)
  Lemma repo_of_abs log d : db_ok log d -> abs_db d (repo_of d).
  Proof.
    intros [Hd Hs Hr Hh dk_keys0]. constructor; cbn [repo_of rp_objects rp_head rp_log]; auto.
    rewrite rev_involutive. clear -dk_keys0. induction (d_reflog d) as [|r l IH]; cbn; constructor.
    - repeat split. destruct (dk_keys0 r (or_introl eq_refl)) as [k Hk]. cbn. rewrite Hk, from_as_db_key. reflexivity.
    - apply IH. intros x Hx. apply dk_keys0. right. exact Hx.
  Qed.
  Definition spec_of (w : world) : spec :=
    Spec (repo_of (disk w))
      (match w_txn w with NoTxn => None | TxnClean => Some (repo_of (disk w)) | TxnDirty d => Some (repo_of d) end).
  Lemma spec_of_abs w : world_ok w -> abs w (spec_of w).
  Proof.
    intros W. split; cbn.
    - eapply repo_of_abs, world_ok_disk, W.
    - destruct W as [_ W]. destruct (w_txn w); auto. eapply repo_of_abs, W.
  Qed.

  (** *** Fate of a write *)
  Definition has_obj (r : repo) (k v : bytes) : Prop := rp_objects r k = Some v.
  Definition saved (s : spec) (k v : bytes) : Prop :=
    has_obj (sp_committed s) k v /\ match sp_pending s with Some p => has_obj p k v | None => True end.
  Lemma has_put k v r data : has_obj r k v -> has_obj (spec_put blake3 data r) k v.
  Proof. unfold has_obj. cbn. intros ->. reflexivity. Qed.
  Lemma saved_step s k v c a : saved s k v -> saved (spec_step blake3 c a s) k v.
  Proof.
    intros [H1 H2]. unfold saved, spec_step, sp_update, sp_current.
    destruct a as [r|[|]]; [destruct c| |]; destruct (sp_pending s) eqn:Ep; cbn; try rewrite Ep; auto using has_put.
  Qed.
  Lemma saved_run t : forall s k v, saved s k v -> saved (spec_run blake3 t s) k v.
  Proof. induction t as [|[c a] t IH]; intros s k v H; cbn; [exact H|]. apply IH, saved_step, H. Qed.
  Lemma spec_fate t : forall s k v, spec_allows blake3 t s -> has_obj (sp_current s) k v ->
    let s' := spec_run blake3 t s in
    match fate_of (match sp_pending s with Some _ => true | None => false end) t with
    | Saved => saved s' k v
    | Pending => sp_pending s' <> None /\ has_obj (sp_current s') k v
    | Lost => True
    end.
  Proof.
    induction t as [|[c a] t IH]; intros s k v HA H; cbn [spec_run fate_of].
    - destruct (sp_pending s) eqn:Ep; [split; [congruence|exact H]|]. cbn. unfold sp_current in H. rewrite Ep in H.
      split; [exact H|rewrite Ep; exact I].
    - destruct HA as [HA HR]. destruct (sp_pending s) as [p|] eqn:Ep.
      2:{ apply saved_run, saved_step. unfold sp_current in H. rewrite Ep in H. split; [exact H|rewrite Ep; exact I]. }
      unfold sp_current in H. rewrite Ep in H.
      assert (IH' : forall p', sp_pending (spec_step blake3 c a s) = Some p' -> has_obj p' k v ->
        let s' := spec_run blake3 t (spec_step blake3 c a s) in
        match fate_of true t with
        | Saved => saved s' k v
        | Pending => sp_pending s' <> None /\ has_obj (sp_current s') k v
        | Lost => True
        end).
      { intros p' E1 E2. specialize (IH (spec_step blake3 c a s) k v HR). rewrite E1 in IH. apply IH.
        unfold sp_current. rewrite E1. exact E2. }
      assert (SV : saved (Spec p None) k v) by (split; [exact H|exact I]).
      destruct a as [r|[|]].
      + destruct c; cbn [spec_step] in *; unfold sp_update in *; rewrite ?Ep in *;
          try (eapply IH'; [reflexivity || exact Ep|auto using has_put]; fail).
        * destruct HA as [HA _]. congruence.
        * unfold sp_current. rewrite Ep. apply saved_run, SV.
        * exact I.
      + destruct c; exact I.
      + cbn [spec_step] in *. specialize (IH' p Ep H). destruct c; exact IH'.
  Qed.
  Lemma abs_saved w s k v : abs w s -> saved s k v ->
    assoc k (d_data (disk w)) = Some v /\ assoc k (d_data (cur_db w)) = Some v.
  Proof.
    intros A [H1 H2]. split.
    - destruct A as [A _]. rewrite (ab_objects _ _ A). exact H1.
    - rewrite (ab_objects _ _ (abs_cur _ _ A)). unfold sp_current. destruct (sp_pending s); [exact H2|exact H1].
  Qed.
  (** What becomes of bytes visible in a consistent state, whatever calls follow. *)
  Lemma run_fate w k v l t d w' : world_ok w -> assoc k (d_data (cur_db w)) = Some v ->
    run_calls l w = (t, d, w') ->
    match fate_of (in_txn w) t with
    | Saved => assoc k (d_data (disk w')) = Some v /\ assoc k (d_data (cur_db w')) = Some v
    | Pending => d = None -> assoc k (d_data (cur_db w')) = Some v
    | Lost => True
    end.
  Proof.
    intros W H R. pose proof (spec_of_abs w W) as A. destruct (run_refines l w _ _ _ _ A R) as [HA HR].
    assert (HH : has_obj (sp_current (spec_of w)) k v).
    { unfold has_obj. rewrite <- (ab_objects _ _ (abs_cur _ _ A)). exact H. }
    pose proof (spec_fate t _ k v HA HH) as F. cbv zeta in F. rewrite (in_txn_abs _ _ A).
    destruct (fate_of _ t); [exact I| |].
    - intros ->. destruct F as [_ F]. rewrite (ab_objects _ _ (abs_cur _ _ HR)). exact F.
    - destruct d as [c|]; [|eapply abs_saved; eauto].
      destruct HR as [HR|HR]; [eapply abs_saved; eauto|].
      eapply abs_saved; [apply (HR ReplyUnit)|]. apply saved_step, F.
  Qed.
  Lemma world_ok_run l w : world_ok w -> world_ok (snd (run_calls l w)).
  Proof. exact (rel_run_calls ok_rel l w). Qed.

  (** *** Idempotence *)
  Lemma ignore_present k v v' l : assoc k l = Some v -> insert_or_ignore k v' l = l.
  Proof. unfold insert_or_ignore. intros ->. reflexivity. Qed.
  Lemma upd_data_id d : upd_data (fun x => x) d = d.
  Proof. destruct d; reflexivity. Qed.
  Lemma put_present data w v k w' :
    assoc (as_db_key (Blake3B (blake3 data))) (d_data (cur_db w)) = Some v ->
    put ds data w = (Done k, w') -> k = Blake3B (blake3 data) /\ cur_db w' = cur_db w /\ disk w' = disk w.
  Proof.
    intros H P. pose proof P as Q. apply put_done in P as (-> & C & Hh & D & In & Cn). split; [reflexivity|].
    assert (X : cur_db w' = cur_db w).
    { rewrite C. unfold upd_data. rewrite (ignore_present _ _ _ _ H). destruct (cur_db w); reflexivity. }
    split; [exact X|]. destruct (in_txn w) eqn:Ei; [apply D; reflexivity|].
    unfold cur_db, in_txn in *. destruct (w_txn w), (w_txn w'); try discriminate. exact X.
  Qed.
  Lemma put_present_disk data w v :
    assoc (as_db_key (Blake3B (blake3 data))) (d_data (cur_db w)) = Some v ->
    disk (snd (put ds data w)) = disk w.
  Proof.
    intro H. unfold put, bind at 1, hash. cbn [raw_put sqlite_ds]. unfold sqlite_raw_put, bind, db_write.
    match goal with |- context [op ?e ?x] => destruct (op_case e x) as (fl & w1 & E1 & T) end.
    rewrite E1. clear E1.
    assert (X : forall w1, cur_db w1 = cur_db w -> disk w1 = disk w ->
      disk (put_db (upd_data (insert_or_ignore (as_db_key (Blake3B (blake3 data))) data) (cur_db w1)) w1) = disk w).
    { intros w2 C D. unfold upd_data. rewrite C, (ignore_present _ _ _ _ H), <- C.
      replace (Db (d_data (cur_db w2)) (d_state (cur_db w2)) (d_reflog (cur_db w2))) with (cur_db w2) by (destruct (cur_db w2); reflexivity).
      unfold put_db, cur_db. destruct (w_txn w2); try exact D. rewrite disk_set. exact D. }
    destruct T as (? & ? & ->). destruct fl as [| | |[|]]; cbn -[put_db]; auto; apply X; reflexivity.
  Qed.
End ObjStore.
