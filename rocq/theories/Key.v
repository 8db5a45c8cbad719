(** Model of src/key.rs. *)
From Verif Require Import Base Base32.

(** src/key.rs:6-8 [Key]; [TypedKey<T>] (src/key.rs:11-75) is the same data with a
    phantom type and is not distinguished in the model. *)
Inductive key := Blake3B (h : arr32).

(** src/key.rs:78-91 [FromDbKeyError] *)
Inductive from_db_key_error :=
| UnknownHashId (id : byte)
| EmptyDbKey
| IncorrectLength (got : nat).

(** src/key.rs:94-98 [hash_id] *)
Definition hash_id (k : key) : byte := match k with Blake3B _ => byte_of 1 end.

(** src/key.rs:100-104 [hash_bytes] *)
Definition hash_bytes (k : key) : bytes := match k with Blake3B x => arr x end.

(** src/key.rs:106-131 [from_db_key] *)
Definition from_db_key (x : bytes) : result key from_db_key_error :=
  match x with
  | [] => Err EmptyDbKey
  | id :: hb =>
      if (byte_val id =? 1)%N then
        match arr32_of hb with
        | Some a => Ok (Blake3B a)
        | None => Err (IncorrectLength (length hb))
        end
      else Err (UnknownHashId id)
  end.

(** src/key.rs:133-143 [as_db_key] *)
Definition as_db_key (k : key) : bytes := hash_id k :: hash_bytes k.

(** src/key.rs:145-159 [as_user_key]; also [Display] (src/key.rs:162-172). *)
Definition as_user_key (k : key) : bytes :=
  match k with Blake3B _ => str "b" end ++ to_base32 (hash_bytes k).

(** src/key.rs:3-5, 28-44: derived [PartialEq]/[Ord] on keys, i.e. on the 32
    bytes. *)
Definition key_eqb (a b : key) : bool := bytes_eqb (hash_bytes a) (hash_bytes b).
Definition key_cmp (a b : key) : comparison := bytes_cmp (hash_bytes a) (hash_bytes b).
