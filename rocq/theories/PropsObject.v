(** Properties C09-C11: encodings of objects, items and commits. *)
From Verif Require Import Base BaseFacts Key Cbor CborFacts Object ObjectFacts World Store WorldFacts KeyFacts ObjStoreFacts Toy.

(** C09: decoding the stored form of an object gives the object back.  [obj_fits]
    says that its vectors are no longer than a Rust vector can be. *)
Theorem C09_object_roundtrip :
  forall (E : Env) (o : object), obj_fits o = true -> decode_object (encode_object o) = Some o.
Proof. exact @decode_encode. Qed.
Print Assumptions C09_object_roundtrip.
Example C09_example :
  let o := Object (str "hello") [Blake3B (toy_hash [])] FSItemFile in
  obj_fits o = true /\ length (encode_object o) = 80 /\ decode_object (encode_object o) = Some o.
Proof. split; [reflexivity|]. split; vm_compute; reflexivity. Qed.

(** Putting never changes what is encoded: the stored bytes are the encoding and
    the key is its hash, whatever store is used. *)
Theorem C09_key_is_hash_of_encoding :
  forall (E : Env) (ds : datastore) (o : object) w k w',
  put_obj ds o w = (Done k, w') -> k = Blake3B (blake3 (encode_object o)).
Proof. intros E ds o w k w' H. exact (proj1 (put_obj_key ds o w k w' H)). Qed.
Print Assumptions C09_key_is_hash_of_encoding.

(** C10: equal keys mean equal objects, unless the hash has collided on the two
    encodings. *)
Theorem C10_equal_keys_equal_objects :
  forall (E : Env) (ds ds' : datastore) (o o' : object) w w1 w' w1' k,
  put_obj ds o w = (Done k, w1) -> put_obj ds' o' w' = (Done k, w1') ->
  o = o' \/ (encode_object o <> encode_object o' /\ blake3 (encode_object o) = blake3 (encode_object o')).
Proof.
  intros E ds ds' o o' w w1 w' w1' k H H'.
  destruct (put_obj_key _ _ _ _ _ H) as [-> F]. destruct (put_obj_key _ _ _ _ _ H') as [K F'].
  destruct (list_eq_dec ascii_dec (encode_object o) (encode_object o')) as [X|X].
  - left. apply encode_object_inj; auto using obj_fits_fits.
  - right. split; [exact X|]. unfold obj_key in K. congruence.
Qed.
Print Assumptions C10_equal_keys_equal_objects.
Example C10_example :
  let o := Object (str "a") [] FileBlob in let o' := Object (str "a") [] FileBlobTree in
  (exists k w1, put_obj sqlite_ds o toy_world = (Done k, w1)) /\
  fst (put_obj sqlite_ds o toy_world) <> fst (put_obj sqlite_ds o' toy_world) /\
  fst (put_obj sqlite_ds o toy_world) = fst (put_obj null_ds o toy_world).
Proof.
  split; [|split].
  - eexists _, _. vm_compute. reflexivity.
  - intro H. assert (X : match fst (put_obj sqlite_ds (Object (str "a") [] FileBlob) toy_world),
        fst (put_obj sqlite_ds (Object (str "a") [] FileBlobTree) toy_world) with
      | Done a, Done b => key_eqb a b | _, _ => true end = true).
    { rewrite H. vm_compute. reflexivity. }
    vm_compute in X. discriminate.
  - vm_compute. reflexivity.
Qed.

(** C11: items.  A file or directory item converts to an object exactly when all
    child names are UTF-8 ... *)
Theorem C11_item_converts_exactly :
  forall (i : fsitem), (exists o, object_of_fsitem i = Some o) <-> Forall (fun n => utf8_valid n = true) (fi_names i).
Proof.
  intro i. unfold object_of_fsitem. split.
  - intros [o H]. destruct (forallb utf8_valid (fi_names i)) eqn:F; [|discriminate].
    apply Forall_forall. rewrite forallb_forall in F. exact F.
  - intro H. assert (F : forallb utf8_valid (fi_names i) = true).
    { apply forallb_forall. rewrite Forall_forall in H. exact H. }
    rewrite F. eauto.
Qed.
Print Assumptions C11_item_converts_exactly.
(** ... and converting back gives the same size, type, names and children.
    [fsitem_fits]: sizes fit their 64-bit fields, as they do in Rust. *)
Theorem C11_item_roundtrip :
  forall (E : Env) (i : fsitem) (o : object),
  fsitem_fits i -> object_of_fsitem i = Some o -> fsitem_of_object o = Some i.
Proof.
  intros E i o F H. destruct (decode_fsitem _ _ F H) as (A & B & C). unfold fsitem_of_object.
  rewrite A, B. destruct i; reflexivity.
Qed.
Print Assumptions C11_item_roundtrip.
(** Commits: tree, parents and message. *)
Theorem C11_commit_roundtrip :
  forall (E : Env) (c : commit) w,
  attrs_fits (c_attrs c) -> commit_of_object (object_of_commit c) w = (Done c, w).
Proof.
  intros E c w F. unfold commit_of_object. cbn [o_data object_of_commit].
  rewrite (decode_attrs _ F). destruct c; reflexivity.
Qed.
Print Assumptions C11_commit_roundtrip.
Example C11_example :
  let i := FSItem 2 ItDir [str "a"; str "b"] [Blake3B (toy_hash []); Blake3B (toy_hash (str "x"))] in
  let c := Commit (Blake3B (toy_hash [])) [Blake3B (toy_hash (str "p"))] (Attrs (str "msg") []) in
  fsitem_fits i /\ (exists o, object_of_fsitem i = Some o) /\ attrs_fits (c_attrs c) /\
  object_of_fsitem (FSItem 1 ItDir [[byte_of 255]] []) = None.
Proof.
  split; [|split; [|split]].
  - repeat split. repeat constructor.
  - eexists. vm_compute. reflexivity.
  - split; [reflexivity|]. split; [reflexivity|]. apply wf_map. split; [reflexivity|constructor].
  - vm_compute. reflexivity.
Qed.
