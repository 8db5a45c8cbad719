(** Facts about the cache and [hash_fs_item]. *)
From Coq Require Import RelationClasses.
From Verif Require Import Base BaseFacts Key KeyFacts Cbor CborFacts Object Path World WorldFacts Store TableFacts File Filter Dir SpecStore SpecRun SpecFile SpecDir SpecCache
  Frame Integrity ObjStoreFacts FilePlan FileFacts FileRun FsFacts DirPlan DirFacts GetFacts DirTrip DirWalk.

(** *** Triples *)
Lemma be_inj n a b : (a < 256 ^ N.of_nat n)%N -> (b < 256 ^ N.of_nat n)%N -> be n a = be n b -> a = b.
Proof.
  intros Ha Hb H. assert (X : take_be n (be n a ++ []) = take_be n (be n b ++ [])) by (rewrite H; reflexivity).
  rewrite !take_be_be in X by assumption. congruence.
Qed.
Lemma le64_length n : length (le64 n) = 8.
Proof. unfold le64. rewrite rev_length. apply be_length. Qed.
Lemma le64_inj a b : (a < 2 ^ 64)%N -> (b < 2 ^ 64)%N -> le64 a = le64 b -> a = b.
Proof.
  unfold le64. intros Ha Hb H. apply (f_equal (@rev _)) in H. rewrite !rev_involutive in H.
  eapply be_inj; [..|exact H]; assumption.
Qed.
Lemma u64_of_i64_inj a b : (- 2 ^ 63 <= a < 2 ^ 63)%Z -> (- 2 ^ 63 <= b < 2 ^ 63)%Z -> u64_of_i64 a = u64_of_i64 b -> a = b.
Proof.
  unfold u64_of_i64. intros Ha Hb H.
  pose proof (Z.mod_pos_bound a (2 ^ 64) eq_refl). pose proof (Z.mod_pos_bound b (2 ^ 64) eq_refl).
  apply Z2N.inj in H; try lia.
  pose proof (Z.div_mod a (2 ^ 64) ltac:(discriminate)). pose proof (Z.div_mod b (2 ^ 64) ltac:(discriminate)).
  change (2 ^ 64)%Z with (2 * 2 ^ 63)%Z in *. assert (0 < 2 ^ 63)%Z by reflexivity. nia.
Qed.
Lemma u64_of_i64_lt z : (u64_of_i64 z < 2 ^ 64)%N.
Proof.
  unfold u64_of_i64. pose proof (Z.mod_pos_bound z (2 ^ 64) eq_refl) as B.
  change (2 ^ 64)%N with (Z.to_N (2 ^ 64)). apply Z2N.inj_lt; lia.
Qed.
Lemma cache_bytes_inj a b : triple_ok a -> triple_ok b -> cache_bytes a = cache_bytes b -> a = b.
Proof.
  intros (A1 & A2 & A3) (B1 & B2 & B3) H. unfold cache_bytes in H.
  apply app_inv_prefix in H as [H1 H]; [|rewrite !le64_length; reflexivity].
  apply app_inv_prefix in H as [H2 H3]; [|rewrite !le64_length; reflexivity].
  apply le64_inj in H1; [|assumption ..]. apply le64_inj in H2; [|apply u64_of_i64_lt ..]. apply le64_inj in H3; [|assumption ..].
  apply u64_of_i64_inj in H2; [|assumption ..]. destruct a, b; cbn in *. congruence.
Qed.
Lemma same_triple_iff a b : same_triple a b = true <-> a = b.
Proof.
  unfold same_triple. rewrite !andb_true_iff, !N.eqb_eq, Z.eqb_eq. destruct a, b; cbn. split; [intros [[-> ->] ->]; reflexivity|].
  intro H. inv H. auto.
Qed.
Lemma bytes_eqb_triple a b : triple_ok a -> triple_ok b -> bytes_eqb (cache_bytes a) (cache_bytes b) = same_triple b a.
Proof.
  intros Ta Tb. destruct (same_triple b a) eqn:Q.
  - apply same_triple_iff in Q. subst. apply bytes_eqb_refl.
  - destruct (bytes_eqb (cache_bytes a) (cache_bytes b)) eqn:Q2; [|reflexivity]. apply bytes_eqb_true, cache_bytes_inj in Q2; auto.
    subst. assert (same_triple b b = true) by (apply same_triple_iff; reflexivity). congruence.
Qed.

(** *** Looking up *)
Definition answer (o : option bytes) : outcome (option key) :=
  match o with
  | None => Done None
  | Some d => match from_db_key d with Ok k => Done (Some k) | Err e => Error (EDbKey e) end
  end.
Lemma looked_up_eq w c : looked_up w c = answer (assoc (cache_bytes c) (cur_cache w)).
Proof.
  unfold looked_up, cache_get, bind, cache_read, op. cbn [w_faults set_faults set_tick].
  change (cur_cache (set_tick (set_faults w []) _)) with (cur_cache w).
  destruct (assoc (cache_bytes c) (cur_cache w)) as [d|]; cbn; [|reflexivity]. destruct (from_db_key d); reflexivity.
Qed.
Lemma cache_put_done c k w x w' : cache_put c k w = (Done x, w') ->
  exists w1, ticked w w1 /\ w' = put_cache (insert_or_ignore (cache_bytes c) (as_db_key k) (cur_cache w)) w1.
Proof.
  unfold cache_put, cache_write. intro H. match type of H with op ?e ?y = _ => destruct (op_case e y) as (fl & w1 & E1 & T) end.
  rewrite E1 in H. exists w1. split; [exact T|]. assert (cur_cache w1 = cur_cache w) as <- by (destruct T as (? & ? & ->); reflexivity).
  destruct fl as [| | |[|]]; inv H. reflexivity.
Qed.
Lemma cur_put_cache c w : cur_cache (put_cache c w) = c.
Proof. unfold put_cache, cur_cache. destruct (w_ctxn w) eqn:Q; cbn; [reflexivity|]. rewrite Q. reflexivity. Qed.
Lemma put_all_lookup hist c : triple_ok c -> forall w x w', Forall (fun h => triple_ok (fst h)) hist ->
  put_all hist w = (Done x, w') ->
  looked_up w' c = match looked_up w c with Done None => Done (first_put c hist) | o => o end.
Proof.
  intro Tc. induction hist as [|[c' k] hist IH]; intros w x w' F H; cbn [put_all first_put] in *.
  - inv H. destruct (looked_up w' c) as [[|]| | | |]; reflexivity.
  - inversion F as [|? ? Tc' F']; subst. cbn [fst] in *. apply bind_done in H as (y & w1 & H1 & H2). apply IH in H2; [|exact F']. rewrite H2.
    apply cache_put_done in H1 as (w2 & T & ->). rewrite !looked_up_eq, cur_put_cache, assoc_ignore, bytes_eqb_triple by assumption.
    destruct (assoc (cache_bytes c) (cur_cache w)) as [d|]; [cbn; destruct (from_db_key d); reflexivity|]. cbn [answer].
    destruct (same_triple c c'); [|reflexivity]. cbn [answer]. rewrite from_as_db_key. reflexivity.
Qed.
(** A failed call. *)
Lemma cache_put_failed c k w o w' : cache_put c k w = (o, w') -> o <> Done tt -> o <> Crashed ->
  o = Error ESql /\ w_cache w' = w_cache w /\ (w_ctxn w' = w_ctxn w \/ w_ctxn w' = None).
Proof.
  unfold cache_put, cache_write. intro H. match type of H with op ?e ?y = _ => destruct (op_case e y) as (fl & w1 & E1 & T) end.
  rewrite E1 in H. assert (w_cache w1 = w_cache w /\ w_ctxn w1 = w_ctxn w) as [<- <-] by (destruct T as (? & ? & ->); auto).
  destruct fl as [| | |[|]]; inv H; intros; try contradiction; auto.
Qed.

Section CacheFacts.
  Context {E : Env}.
  Notation ds := sqlite_ds.

  (** *** Keys of files *)
  Definition pfile (c : bytes) (t : nat) : plan key := ptr (RFile (wrap64 (lenN c)) (segment (read_sizes t c) c)).
  Lemma pfile_steady c t t' : steady_reads -> pfile c t = pfile c t'.
  Proof. intro S. unfold pfile. rewrite (S t t'). reflexivity. Qed.
  Lemma put_hashed s o w k w' : s = ds \/ s = null_ds -> put_obj s o w = (Done k, w') -> w_hashed w' = encode_object o :: w_hashed w.
  Proof.
    intros [->| ->] H.
    - apply put_obj_put in H. unfold put in H. unfold bind at 1, hash in H. cbn [raw_put sqlite_ds] in H.
      apply bind_done in H as (y & w2 & H1 & H2). inv H2. apply db_write_done in H1 as (w1 & T & -> & _).
      destruct T as (? & ? & ->). unfold put_db. cbn. destruct (w_txn w); reflexivity.
    - apply put_obj_put in H. unfold put in H. unfold bind, hash in H. cbn in H. inv H. reflexivity.
  Qed.
  Lemma puts_log s w l w' : s = ds \/ s = null_ds -> puts s w l w' -> w_hashed w' = rev (map encode_object l) ++ w_hashed w.
  Proof.
    intros Hs P. induction P as [w|w w1 l w' T P IH|w o w1 l w' H P IH]; [reflexivity| |].
    - rewrite IH. rewrite (hashed_ticked _ _ T). reflexivity.
    - rewrite IH. apply put_hashed in H; [|exact Hs]. rewrite H. cbn [map rev]. rewrite <- app_assoc. reflexivity.
  Qed.
  Lemma quiet_either s : s = ds \/ s = null_ds -> quiet s.
  Proof. intros [->| ->]; [apply quiet_sqlite|apply quiet_null]. Qed.
  Lemma put_file_plan s fuel p ex db w k w' l c st : s = ds \/ s = null_ds -> stat (w_fs w) (w_cwd w) p = Some (l, EFile c st) ->
    put_fs_item s fuel p (filter_fn ex db) w = (Done k, w') ->
    exists t objs, pfile c t = (objs, Done k) /\ w_hashed w' = rev (map encode_object objs) ++ w_hashed w.
  Proof.
    intros Hs S H. apply (put_fs_item_done s (quiet_either s Hs) _ (w_fs w) (w_cwd w) _ (filter_answers ex db _ _)) in H as
      (l' & e & t & S' & Sh & objs & P & U); [|split; reflexivity]. rewrite S in S'. inv S'. apply stat_locate in S as (_ & L & _).
    destruct t as [size reads|kids].
    - apply shows_file_inv in Sh as (c' & st' & tk & X & -> & ->). rewrite L in X. inv X. exists tk, objs. split; [exact P|]. eapply puts_log; eauto.
    - apply shows_dir_inv in Sh as (X & _). congruence.
  Qed.
  Lemma hashed_plan log c k : hashed_as log c k -> exists t objs, pfile c t = (objs, Done k) /\ incl (map encode_object objs) log.
  Proof.
    intros (s & fuel & p & ex & db & w & l & st & w' & Hs & S & H & I). eapply put_file_plan in H as (t & objs & P & L); eauto.
    exists t, objs. split; [exact P|]. intros x Hx. apply I. rewrite L. apply in_or_app. left. apply in_rev. rewrite rev_involutive. exact Hx.
  Qed.
  (** A machine with one file. *)
  Definition one_path : path := Path false [Normal (str "f")] false.
  Definition one_world (c : bytes) : world :=
    World [([str "f"], EFile c (Stamp 0 0))] [] [] [] NoTxn [] None [] [] [] 0.
  Lemma exec_null_log l : forall w, Forall (fun o => obj_fits o = true) l -> exists w', exec null_ds l w = (Done tt, w') /\
    w_hashed w' = rev (map encode_object l) ++ w_hashed w.
  Proof.
    intros w F. destruct (exec_null l w F) as [w' H]. exists w'. split; [exact H|]. eapply puts_log; [right; reflexivity|]. apply exec_puts, H.
  Qed.
  Lemma plan_hashed c t objs k log : steady_reads -> pfile c t = (objs, Done k) -> incl (map encode_object objs) log -> hashed_as log c k.
  Proof.
    intros St P I. rewrite (pfile_steady c t 2 St) in P. unfold pfile in P. cbn [ptr] in P.
    pose proof P as P'. apply pbind_done in P as (l1 & h & l2 & P1 & P2 & ->).
    assert (F1 : Forall (fun o => obj_fits o = true) l1) by (pose proof (fitting_data (segment (read_sizes 2 c) c)) as X; rewrite P1 in X; exact X).
    assert (F2 : Forall (fun o => obj_fits o = true) l2) by (apply pitem_done in P2 as (o & _ & -> & _ & F); constructor; [exact F|constructor]).
    set (w2 := set_tick (one_world c) 2). destruct (exec_null_log l1 w2 F1) as (w3 & X1 & L1). destruct (exec_null_log l2 w3 F2) as (w4 & X2 & L2).
    exists null_ds, 1, one_path, [], path_empty, (one_world c), [str "f"], (Stamp 0 0), w4. split; [auto|]. split; [reflexivity|]. split.
    - cbn [put_fs_item]. 
      assert (M : fs_metadata one_path (one_world c) = (Done (MFile (wrap64 (lenN c)) (Stamp 0 0)), set_tick (one_world c) 1)) by reflexivity.
      unfold bind at 1. rewrite M. 
      assert (O : fs_open_read one_path (set_tick (one_world c) 1) = (Done (Stamp 0 0, wrap64 (lenN c), segment (read_sizes 2 c) c), w2)) by reflexivity.
      unfold bind at 1. rewrite O. unfold bind at 1. 
      assert (D : put_data null_ds (segment (read_sizes 2 c) c) w2 = (Done h, w3)).
      { rewrite (follows_data null_ds (segment (read_sizes 2 c) c) w2), P1. unfold bind, fst, snd. rewrite X1. reflexivity. }
      rewrite D. rewrite (follows_item null_ds _ w3), P2. unfold bind, fst, snd. rewrite X2. reflexivity.
    - rewrite L2, L1. cbn [w_hashed w2 set_tick one_world]. rewrite app_nil_r, <- rev_app_distr, <- map_app. intros x Hx. apply I. apply in_rev. exact Hx.
  Qed.
  Lemma hashed_mono log log' c k : incl log log' -> hashed_as log c k -> hashed_as log' c k.
  Proof.
    intros I (s & fuel & p & ex & db & w & l & st & w' & Hs & S & H & J). exists s, fuel, p, ex, db, w, l, st, w'. repeat split; auto.
    eapply incl_tran; eassumption.
  Qed.
  Lemma hashed_fun log log' c k k' : steady_reads -> hashed_as log c k -> hashed_as log' c k' -> k = k'.
  Proof.
    intros S H H'. apply hashed_plan in H as (t & objs & P & _). apply hashed_plan in H' as (t' & objs' & P' & _).
    rewrite (pfile_steady _ _ t' S) in P. congruence.
  Qed.

  (** *** Different contents have different keys *)
  Lemma enc_key_inj log (o o' : object) : no_coll log -> In (encode_object o) log -> In (encode_object o') log ->
    obj_fits o = true -> obj_fits o' = true -> obj_key o = obj_key o' -> o = o'.
  Proof.
    intros NC I I' F F' K. unfold obj_key in K. injection K as K. apply NC in K; auto. pose proof (decode_encode o F) as D.
    rewrite K, (decode_encode o' F') in D. congruence.
  Qed.
  Lemma den_fun log objs objs' : no_coll log -> incl (map encode_object objs) log -> incl (map encode_object objs') log ->
    Forall (fun o => obj_fits o = true) objs -> Forall (fun o => obj_fits o = true) objs' ->
    forall n n' k bs bs', den objs n k bs -> den objs' n' k bs' -> bs = bs'.
  Proof.
    intros NC I I' F F'. rewrite Forall_forall in F, F'.
    assert (Same : forall o o', In o objs -> In o' objs' -> obj_key o = obj_key o' -> o = o').
    { intros o o' Ho Ho' K. apply (enc_key_inj log); auto; [apply I, in_map, Ho|apply I', in_map, Ho']. }
    induction n as [|n IH]; intros n' k bs bs' D D'.
    - destruct D as (o & Ho & K & [(Ty & B)|(_ & [])]). 
      assert (exists o', In o' objs' /\ obj_key o' = k /\ ((o_type o' = FileBlob /\ o_data o' = bs') \/ o_type o' = FileBlobTree)) as (o' & Ho' & K' & Z).
      { destruct n'; destruct D' as (o' & ? & ? & [?|[? _]]); eauto 8. }
      assert (o = o') as <- by (apply Same; congruence). destruct Z as [[Z1 Z2]|Z1]; congruence.
    - destruct D as (o & Ho & K & Z). destruct n' as [|n'].
      + destruct D' as (o' & Ho' & K' & [(Ty & B)|(_ & [])]). assert (o = o') as <- by (apply Same; congruence). destruct Z as [[Z1 Z2]|[Z1 _]]; congruence.
      + destruct D' as (o' & Ho' & K' & Z'). assert (o = o') as <- by (apply Same; congruence).
        destruct Z as [[Z1 Z2]|[Z1 (ps & Z2 & Z3)]]; destruct Z' as [[Z1' Z2']|[Z1' (ps' & Z2' & Z3')]]; try congruence.
        assert (ps = ps') as <-; [|congruence]. clear -IH Z2 Z2'. revert ps' Z2'. induction Z2; intros ps' Z2'; inv Z2'; [reflexivity|].
        f_equal; eauto.
  Qed.
  Lemma pfile_parts c t objs k : pfile c t = (objs, Done k) -> lossless (segment (read_sizes t c) c) ->
    exists h o, object_of_fsitem (file_item (wrap64 (lenN c)) h) = Some o /\ obj_fits o = true /\ In o objs /\ k = obj_key o /\ den objs 5 h c /\
      Forall (fun o => obj_fits o = true) objs.
  Proof.
    intros P L. assert (Fo : Forall (fun o => obj_fits o = true) objs).
    { unfold pfile in P. cbn [ptr] in P. apply pbind_done in P as (l1 & h & l2 & P1 & P2 & ->). apply Forall_app. split.
      - pose proof (fitting_data (segment (read_sizes t c) c)) as X. rewrite P1 in X. exact X.
      - apply pitem_done in P2 as (o & _ & -> & _ & F). constructor; [exact F|constructor]. }
    unfold pfile in P. apply put_stored in P; [|apply wrap64_lt]. destruct P as (h & o & P1 & P2 & P3 & P4 & P5 & P6).
    exists h, o. specialize (P6 L). rewrite stream_segment in P6. cbn [fst] in P6. auto 8.
  Qed.
  Lemma hashed_inj log c c' k : no_coll log -> (forall t, lossless (segment (read_sizes t c) c)) -> (forall t, lossless (segment (read_sizes t c') c')) ->
    hashed_as log c k -> hashed_as log c' k -> c = c'.
  Proof.
    intros NC L L' H H'. apply hashed_plan in H as (t & objs & P & I). apply hashed_plan in H' as (t' & objs' & P' & I').
    apply pfile_parts in P as (h & o & A1 & A2 & A3 & A4 & A5 & A6); [|apply L]. apply pfile_parts in P' as (h' & o' & B1 & B2 & B3 & B4 & B5 & B6); [|apply L'].
    assert (o = o') as <- by (apply (enc_key_inj log); auto; [apply I, in_map, A3|apply I', in_map, B3|congruence]).
    assert (file_item (wrap64 (lenN c)) h = file_item (wrap64 (lenN c')) h') as Q.
    { apply fsitem_object in A1; [|exact A2|apply wrap64_lt]. apply fsitem_object in B1; [|exact B2|apply wrap64_lt]. congruence. }
    inversion Q; subst h'. eapply (den_fun log objs objs'); eauto.
  Qed.
End CacheFacts.
