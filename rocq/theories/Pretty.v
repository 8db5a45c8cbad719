(** Model of the text of [debug pretty-print] (src/object.rs:52-54, 68-110). *)
From Verif Require Import Base Key Cbor Object World.

(** [hex::encode] (src/object.rs:90) *)
Definition hex_digit (n : N) : byte := byte_of (if (n <? 10)%N then 48 + n else 87 + n).
Definition hex_encode (d : bytes) : bytes := flat_map (fun b => [hex_digit (byte_val b / 16); hex_digit (byte_val b mod 16)]) d.

(** [Display] of a [u8]: decimal without leading zeros. *)
Definition digit (n : N) : byte := byte_of (48 + n).
Definition decimal (b : byte) : bytes :=
  let n := byte_val b in
  (if (100 <=? n)%N then [digit (n / 100)] else []) ++
  (if (10 <=? n)%N then [digit (n / 10 mod 10)] else []) ++ [digit (n mod 10)].
Fixpoint comma_separated (l : list bytes) : bytes :=
  match l with
  | [] => []
  | [x] => x
  | x :: r => x ++ str ", " ++ comma_separated r
  end.
(** src/key.rs:3-8, derived [Debug] *)
Definition debug_key (k : key) : bytes :=
  str "Blake3B([" ++ comma_separated (map decimal (hash_bytes k)) ++ str "])".

(** [chunks(n)] (src/object.rs:89) *)
Fixpoint chunks_of {A} (fuel n : nat) (d : list A) : list (list A) :=
  match fuel, d with
  | S f, _ :: _ => firstn n d :: chunks_of f n (skipn n d)
  | _, _ => []
  end.
(** src/object.rs:69 [DISPLAY_CHUNK_SIZE] *)
Definition display_chunk_size : nat := 20.
Definition display_chunks (d : bytes) : list bytes := chunks_of (length d) display_chunk_size d.

Definition newline : byte := byte_of 10.
Section Pretty.
  Context {E : Env}.
  (** [writeln!] on [stdout().lock()]; the line is written at once. *)
  Definition writeln (l : bytes) : M unit := write_stdout (l ++ [newline]).
  Fixpoint each_line (l : list bytes) : M unit :=
    match l with
    | [] => ret tt
    | x :: r => writeln x ;;; each_line r
    end.
  (** src/object.rs:74-110 [pretty_print]; derived [Debug] of [ObjType] is the name
      of the variant. *)
  Fixpoint pretty_keys (l : list key) : M unit :=
    match l with
    | [] => ret tt
    | k :: r => writeln (as_user_key k) ;;; writeln (debug_key k) ;;; writeln [] ;;; pretty_keys r
    end.
  Definition pretty_print (o : object) : M unit :=
    writeln (str "--type: " ++ objtype_name (o_type o) ++ str "--") ;;;
    writeln (str "--keys--") ;;;
    pretty_keys (o_keys o) ;;;
    writeln (str "-/keys--") ;;;
    writeln (str "--data--") ;;;
    each_line (map hex_encode (display_chunks (o_data o))) ;;;
    writeln (str "-/data--") ;;;
    writeln (str "--deserialised data--") ;;;
    match debug_cbor (o_data o) with
    | Ok t => writeln t
    | Err t => writeln (str "error when deserialising!") ;;; writeln t
    end ;;;
    writeln (str "--/deserialised data--").
End Pretty.
