(** Facts about Object.v. *)
From Verif Require Import Base BaseFacts Key KeyFacts Cbor CborFacts Object.

(** The sizes that fit the length fields of the encoding ([u64]); every Rust
    object satisfies this, since lengths are [usize]. *)
Definition object_fits (o : object) : Prop :=
  (lenN (o_data o) < 2 ^ 64)%N /\ (lenN (o_keys o) < 2 ^ 64)%N.

Lemma all_some_map {A B} (f : A -> option B) (g : B -> A) l :
  (forall b, In b l -> f (g b) = Some b) -> all_some (map f (map g l)) = Some l.
Proof.
  induction l as [|b l IH]; intro H; [reflexivity|]. cbn. rewrite H by (left; reflexivity).
  rewrite IH by (intros; apply H; right; assumption). reflexivity.
Qed.
Lemma byte_of_value_uint b : byte_of_value (VUInt (byte_val b)) = Some b.
Proof.
  cbn. replace (byte_val b <? 256)%N with true by (symmetry; apply N.ltb_lt, byte_val_bound).
  rewrite byte_of_val. reflexivity.
Qed.
Lemma key_of_value_of_key k : key_of_value (value_of_key k) = Some k.
Proof.
  destruct k as [h]. unfold value_of_key, key_of_value. rewrite bytes_eqb_refl.
  rewrite (all_some_map byte_of_value (fun b => VUInt (byte_val b))) by (intros; apply byte_of_value_uint).
  cbn [hash_bytes]. rewrite arr32_of_arr. reflexivity.
Qed.
Lemma objtype_name_roundtrip t : objtype_of_name (objtype_name t) = t.
Proof. destruct t; reflexivity. Qed.
Lemma object_of_value_of_object o : object_of_value (value_of_object o) = Some o.
Proof.
  unfold value_of_object, object_of_value. rewrite !bytes_eqb_refl. cbn [andb].
  rewrite (all_some_map key_of_value value_of_key) by (intros; apply key_of_value_of_key).
  rewrite objtype_name_roundtrip. destruct o; reflexivity.
Qed.

Lemma wf_key k : wf_value (value_of_key k).
Proof.
  destruct k as [h]. unfold value_of_key. apply wf_map. split; [reflexivity|].
  constructor; [|constructor]. cbn [fst snd]. split; [split; reflexivity|].
  apply wf_array. unfold lenN. rewrite map_length. cbn [hash_bytes]. rewrite arr_length. split; [reflexivity|].
  apply Forall_map, Forall_forall. intros b _. cbn. pose proof (byte_val_bound b). lia.
Qed.
Lemma wf_objtype t : wf_value (VText (objtype_name t)).
Proof. destruct t; split; reflexivity. Qed.
Lemma wf_object o : object_fits o -> wf_value (value_of_object o).
Proof.
  intros [Hd Hk]. unfold value_of_object. apply wf_map. split; [reflexivity|].
  repeat apply Forall_cons; cbn [fst snd]; [split|split|split|constructor].
  - split; reflexivity.
  - exact Hd.
  - split; reflexivity.
  - apply wf_array. unfold lenN in *. rewrite map_length. split; [exact Hk|].
    apply Forall_map, Forall_forall. intros k _. apply wf_key.
  - split; reflexivity.
  - apply wf_objtype.
Qed.
Lemma decode_encode_object o : object_fits o -> decode_object_std (encode_object o) = Some o.
Proof.
  intro H. unfold decode_object_std, encode_object. rewrite dec_all_enc by (apply wf_object, H).
  apply object_of_value_of_object.
Qed.
Lemma encode_object_inj a b :
  object_fits a -> object_fits b -> encode_object a = encode_object b -> a = b.
Proof.
  intros Ha Hb E. apply decode_encode_object in Ha, Hb. congruence.
Qed.
Lemma encode_object_first o : exists r, encode_object o = byte_of 163 :: r.
Proof. unfold encode_object, value_of_object. cbn [enc]. eexists. reflexivity. Qed.

(** ** File items *)
Definition fsitem_fits (i : fsitem) : Prop :=
  (fi_size i < 2 ^ 64)%N /\ (lenN (fi_names i) < 2 ^ 64)%N /\
  Forall (fun n => (lenN n < 2 ^ 64)%N) (fi_names i).

Lemma fsitemtype_name_roundtrip t : fsitemtype_of_name (fsitemtype_name t) = Some t.
Proof. destruct t; reflexivity. Qed.
Lemma fsitem_of_value_of_fsitem i :
  fsitem_of_value (value_of_fsitem i) = Some (fi_size i, fi_type i, fi_names i).
Proof.
  unfold value_of_fsitem, fsitem_of_value. rewrite !bytes_eqb_refl. cbn [andb].
  rewrite fsitemtype_name_roundtrip, (all_some_map text_of_value VText) by (intros; reflexivity).
  reflexivity.
Qed.
Lemma wf_fsitem i : fsitem_fits i -> forallb utf8_valid (fi_names i) = true -> wf_value (value_of_fsitem i).
Proof.
  intros (Hs & Hl & Hn) Hu. unfold value_of_fsitem. apply wf_map. split; [reflexivity|].
  repeat apply Forall_cons; cbn [fst snd]; [split|split|split|constructor].
  - split; reflexivity.
  - exact Hs.
  - split; reflexivity.
  - destruct (fi_type i); split; reflexivity.
  - split; reflexivity.
  - apply wf_array. unfold lenN in *. rewrite map_length. split; [exact Hl|].
    apply Forall_map, Forall_forall. intros n Hin. rewrite Forall_forall in Hn.
    rewrite forallb_forall in Hu. split; [apply Hn, Hin|apply Hu, Hin].
Qed.
Lemma decode_fsitem i o : fsitem_fits i -> object_of_fsitem i = Some o ->
  decode_fsitem_std (o_data o) = Some (fi_size i, fi_type i, fi_names i) /\
  o_keys o = fi_children i /\ o_type o = fsitem_objtype (fi_type i).
Proof.
  unfold object_of_fsitem. destruct (forallb utf8_valid (fi_names i)) eqn:E; [|discriminate].
  intros Hf H. assert (E2 : o = Object (enc (value_of_fsitem i)) (fi_children i) (fsitem_objtype (fi_type i))) by congruence.
  subst o. cbn [o_data o_keys o_type]. split; [|auto].
  unfold decode_fsitem_std. rewrite dec_all_enc by (apply wf_fsitem; auto).
  apply fsitem_of_value_of_fsitem.
Qed.

(** ** Commits *)
Definition attrs_fits (a : attrs) : Prop :=
  (lenN (at_message a) < 2 ^ 64)%N /\ utf8_valid (at_message a) = true /\ wf_value (VMap (at_extra a)).
Lemma decode_attrs a : attrs_fits a -> decode_attrs_std (enc (value_of_attrs a)) = Some a.
Proof.
  intros (Hl & Hu & He). unfold decode_attrs_std. rewrite dec_all_enc.
  - unfold value_of_attrs, attrs_of_value. rewrite !bytes_eqb_refl. destruct a; reflexivity.
  - unfold value_of_attrs. apply wf_map. split; [reflexivity|].
    repeat apply Forall_cons; cbn [fst snd]; [split|split|constructor].
    + split; reflexivity.
    + split; assumption.
    + split; reflexivity.
    + exact He.
Qed.
