(** Models of src/object.rs and of the item and commit codecs in src/dir.rs and
    src/commit.rs. *)
From Verif Require Import Base Key Cbor.

(** src/object.rs:11-21 [ObjType] *)
Inductive objtype := FileBlobTree | FileBlob | TCommit | FSItemDir | FSItemFile | TUnknown.

(** src/object.rs:4-9 [Object] *)
Record object := Object { o_data : bytes; o_keys : list key; o_type : objtype }.

(** Unit enum variants are encoded as their names. *)
Definition objtype_name (t : objtype) : bytes :=
  match t with
  | FileBlobTree => str "FileBlobTree"
  | FileBlob => str "FileBlob"
  | TCommit => str "Commit"
  | FSItemDir => str "FSItemDir"
  | FSItemFile => str "FSItemFile"
  | TUnknown => str "Unknown"
  end.
(** src/object.rs:19 [#[serde(other)]]: any other name decodes to [Unknown]. *)
Definition objtype_of_name (n : bytes) : objtype :=
  if bytes_eqb n (str "FileBlobTree") then FileBlobTree
  else if bytes_eqb n (str "FileBlob") then FileBlob
  else if bytes_eqb n (str "Commit") then TCommit
  else if bytes_eqb n (str "FSItemDir") then FSItemDir
  else if bytes_eqb n (str "FSItemFile") then FSItemFile
  else TUnknown.

(** src/key.rs:3-8: newtype variant holding a [[u8; 32]], i.e. a one-entry map
    from the variant name to an array of 32 integers. *)
Definition value_of_key (k : key) : value :=
  VMap [(VText (str "Blake3B"), VArray (map (fun b => VUInt (byte_val b)) (hash_bytes k)))].
Definition byte_of_value (v : value) : option byte :=
  match v with
  | VUInt n => if (n <? 256)%N then Some (byte_of n) else None
  | _ => None
  end.
Fixpoint all_some {A} (l : list (option A)) : option (list A) :=
  match l with
  | [] => Some []
  | Some a :: r => option_map (cons a) (all_some r)
  | None :: _ => None
  end.
Definition key_of_value (v : value) : option key :=
  match v with
  | VMap [(VText n, VArray l)] =>
      if bytes_eqb n (str "Blake3B") then
        match all_some (map byte_of_value l) with
        | Some bs => option_map Blake3B (arr32_of bs)
        | None => None
        end
      else None
  | _ => None
  end.

(** src/object.rs:4-9, derived [Serialize]: a map with the three fields in order;
    [serde_bytes::ByteBuf] is a byte string. *)
Definition value_of_object (o : object) : value :=
  VMap [ (VText (str "data"), VBytes (o_data o));
         (VText (str "keys"), VArray (map value_of_key (o_keys o)));
         (VText (str "objtype"), VText (objtype_name (o_type o))) ].
Definition object_of_value (v : value) : option object :=
  match v with
  | VMap [(VText n1, VBytes d); (VText n2, VArray ks); (VText n3, VText t)] =>
      if bytes_eqb n1 (str "data") && bytes_eqb n2 (str "keys") && bytes_eqb n3 (str "objtype")
      then
        match all_some (map key_of_value ks) with
        | Some keys => Some (Object d keys (objtype_of_name t))
        | None => None
        end
      else None
  | _ => None
  end.

(** [serde_cbor::to_vec(&Object)] (src/ds/mod.rs:300) *)
Definition encode_object (o : object) : bytes := enc (value_of_object o).
(** [serde_cbor::from_slice] (src/ds/mod.rs:296) on input written by
    [encode_object]; [None] on anything laid out differently. *)
Definition decode_object_std (bs : bytes) : option object :=
  match dec_all bs with
  | Some v => object_of_value v
  | None => None
  end.

(** src/dir.rs:25-29 [FSItemType] *)
Inductive fsitemtype := ItDir | ItFile.

(** src/dir.rs:16-23 [FSItem] *)
Record fsitem := FSItem {
  fi_size : N;
  fi_type : fsitemtype;
  fi_names : list bytes;
  fi_children : list key
}.

Definition fsitemtype_name (t : fsitemtype) : bytes :=
  match t with ItDir => str "Dir" | ItFile => str "File" end.
Definition fsitemtype_of_name (n : bytes) : option fsitemtype :=
  if bytes_eqb n (str "Dir") then Some ItDir
  else if bytes_eqb n (str "File") then Some ItFile
  else None.

(** src/dir.rs:35-37: serialised through [serde_cbor::Value], whose maps are
    ordered by key length first. *)
Definition value_of_fsitem (i : fsitem) : value :=
  VMap [ (VText (str "size"), VUInt (fi_size i));
         (VText (str "itemtype"), VText (fsitemtype_name (fi_type i)));
         (VText (str "children_names"), VArray (map VText (fi_names i))) ].
Definition text_of_value (v : value) : option bytes :=
  match v with VText t => Some t | _ => None end.
(** The decoded item without its children ([#[serde(skip)]]). *)
Definition fsitem_of_value (v : value) : option (N * fsitemtype * list bytes) :=
  match v with
  | VMap [(VText n1, VUInt s); (VText n2, VText t); (VText n3, VArray l)] =>
      if bytes_eqb n1 (str "size") && bytes_eqb n2 (str "itemtype")
         && bytes_eqb n3 (str "children_names")
      then
        match fsitemtype_of_name t, all_some (map text_of_value l) with
        | Some ty, Some names => Some (s, ty, names)
        | _, _ => None
        end
      else None
  | _ => None
  end.
Definition decode_fsitem_std (bs : bytes) : option (N * fsitemtype * list bytes) :=
  match dec_all bs with
  | Some v => fsitem_of_value v
  | None => None
  end.

(** src/dir.rs:31-50 [TryInto<Object> for FSItem].  Serialising a [PathBuf] that
    is not valid UTF-8 fails; this is the only failure. *)
Definition fsitem_objtype (t : fsitemtype) : objtype :=
  match t with ItDir => FSItemDir | ItFile => FSItemFile end.
Definition object_of_fsitem (i : fsitem) : option object :=
  if forallb utf8_valid (fi_names i)
  then Some (Object (enc (value_of_fsitem i)) (fi_children i) (fsitem_objtype (fi_type i)))
  else None.

(** src/commit.rs:22-26 [CommitAttrs].  [extra] is a [HashMap]; nothing in the
    code base ever puts an entry into it, so its iteration order (the order of
    this list) never matters for commits made by the tool. *)
Record attrs := Attrs { at_message : bytes; at_extra : list (value * value) }.
Definition attrs_default : attrs := Attrs [] [].

(** src/commit.rs:15-20 [Commit] *)
Record commit := Commit { c_tree : key; c_parents : list key; c_attrs : attrs }.

Definition value_of_attrs (a : attrs) : value :=
  VMap [ (VText (str "message"), VText (at_message a));
         (VText (str "extra"), VMap (at_extra a)) ].
Definition attrs_of_value (v : value) : option attrs :=
  match v with
  | VMap [(VText n1, VText m); (VText n2, VMap e)] =>
      if bytes_eqb n1 (str "message") && bytes_eqb n2 (str "extra")
      then Some (Attrs m e) else None
  | _ => None
  end.
Definition decode_attrs_std (bs : bytes) : option attrs :=
  match dec_all bs with
  | Some v => attrs_of_value v
  | None => None
  end.

(** src/commit.rs:64-80 [TryInto<Object> for Commit].  The message is a [String],
    hence valid UTF-8; the model does not check it here. *)
Definition object_of_commit (c : commit) : object :=
  Object (enc (value_of_attrs (c_attrs c))) (c_tree c :: c_parents c) TCommit.
