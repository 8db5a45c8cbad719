(** Shared vocabulary of the model: bytes, bit strings, machine words, results.
    Nothing here is specific to snapcd. *)
From Coq Require Export String Ascii.
From Coq Require Export List Arith NArith ZArith Lia Bool.
Export ListNotations.
Open Scope list_scope.

(** A byte ([u8]) is an [ascii]: eight booleans, hence always in range. *)
Definition byte := ascii.
Definition bytes := list byte.

Definition byte_val (b : byte) : N := N_of_ascii b.
(** [x as u8]: keeps the low eight bits. *)
Definition byte_of (n : N) : byte := ascii_of_N (n mod 256).

(** Byte-string literals ([b"..."] and [str] in Rust). *)
Definition str (s : string) : bytes := list_ascii_of_string s.

Definition byte_eqb : byte -> byte -> bool := Ascii.eqb.

Fixpoint bytes_eqb (a b : bytes) : bool :=
  match a, b with
  | [], [] => true
  | x :: a', y :: b' => byte_eqb x y && bytes_eqb a' b'
  | _, _ => false
  end.

(** Lexicographic comparison; a proper prefix is smaller. *)
Fixpoint lex_cmp {A} (cmp : A -> A -> comparison) (a b : list A) : comparison :=
  match a, b with
  | [], [] => Eq
  | [], _ :: _ => Lt
  | _ :: _, [] => Gt
  | x :: a', y :: b' =>
      match cmp x y with
      | Eq => lex_cmp cmp a' b'
      | c => c
      end
  end.

(** [memcmp]-then-length order: SQLite's order on BLOBs and Rust's [Ord] on
    byte slices. *)
Definition byte_cmp (a b : byte) : comparison := N.compare (byte_val a) (byte_val b).
Definition bytes_cmp : bytes -> bytes -> comparison := lex_cmp byte_cmp.
Definition bytes_ltb (a b : bytes) : bool :=
  match bytes_cmp a b with Lt => true | _ => false end.
Definition bytes_leb (a b : bytes) : bool :=
  match bytes_cmp a b with Gt => false | _ => true end.

(** Bits of a byte, most significant first ([Msb0]). *)
Definition bits_of_byte (b : byte) : list bool :=
  match b with Ascii b0 b1 b2 b3 b4 b5 b6 b7 => [b7; b6; b5; b4; b3; b2; b1; b0] end.
Definition bits_of_bytes (l : bytes) : list bool := flat_map bits_of_byte l.

(** Packs bits (most significant first) into bytes, padding the last byte with
    zero bits. *)
Fixpoint pack_bits (l : list bool) : bytes :=
  match l with
  | [] => []
  | b7 :: b6 :: b5 :: b4 :: b3 :: b2 :: b1 :: b0 :: r =>
      Ascii b0 b1 b2 b3 b4 b5 b6 b7 :: pack_bits r
  | b7 :: r =>
      [Ascii false (nth 5 r false) (nth 4 r false) (nth 3 r false)
             (nth 2 r false) (nth 1 r false) (nth 0 r false) b7]
  end.

(** Machine words. *)
Definition u64_modulus : N := 2 ^ 64.
Definition wrap64 (n : N) : N := (n mod u64_modulus)%N.

Definition lenN {A} (l : list A) : N := N.of_nat (length l).

(** [Display] of an unsigned number: decimal without leading zeros. *)
Fixpoint digits (fuel : nat) (n : N) : bytes :=
  match fuel with
  | O => []
  | S f => (if (n <? 10)%N then [] else digits f (n / 10)%N) ++ [byte_of (48 + n mod 10)]
  end.
Definition number (n : nat) : bytes := digits (S n) (N.of_nat n).

(** [[u8; 32]]: a byte string of length 32. *)
Record arr32 := Arr32 { arr : bytes; arr_len : Nat.eqb (length arr) 32 = true }.

(** [<[u8; 32]>::try_from(slice)]: succeeds exactly on slices of length 32. *)
Definition arr32_of (l : bytes) : option arr32 :=
  match Bool.bool_dec (Nat.eqb (length l) 32) true with
  | left H => Some (Arr32 l H)
  | right _ => None
  end.

(** Rust's [Result] for the pure functions. *)
Inductive result (A E : Type) : Type :=
| Ok (a : A)
| Err (e : E).
Arguments Ok {A E} _.
Arguments Err {A E} _.

(** Index of the first element satisfying [f] ([Iterator::position]). *)
Fixpoint position {A} (f : A -> bool) (l : list A) : option nat :=
  match l with
  | [] => None
  | x :: r => if f x then Some 0 else option_map S (position f r)
  end.
