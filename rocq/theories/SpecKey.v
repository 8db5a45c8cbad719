(** Specifications for keys and their text forms, independent of the model of
    the Rust functions (uses only the byte vocabulary of Base.v). *)
From Verif Require Import Base.

(** Bit [i] of a byte string, counting from the most significant bit of the first
    byte; zero past the end. *)
Definition spec_bit (x : bytes) (i : nat) : bool :=
  N.testbit (byte_val (nth (i / 8) x zero)) (N.of_nat (7 - i mod 8)).

(** Value of the five bits starting at bit [i]. *)
Definition spec_group (x : bytes) (i : nat) : nat :=
  let v j := if spec_bit x (i + j) then 1 else 0 in
  16 * v 0 + 8 * v 1 + 4 * v 2 + 2 * v 3 + v 4.

(** RFC 4648 base32 alphabet in lower case. *)
Definition spec_alphabet : bytes := str "abcdefghijklmnopqrstuvwxyz234567".

(** ASCII case folding. *)
Definition fold_case (ch : byte) : byte :=
  if (byte_val "A"%char <=? byte_val ch)%N && (byte_val ch <=? byte_val "Z"%char)%N
  then byte_of (byte_val ch + 32)
  else ch.

Definition in_alphabet (ch : byte) : Prop := In (fold_case ch) spec_alphabet.

Definition ascii_text (s : bytes) : Prop := Forall (fun b => (byte_val b < 128)%N) s.

Definition prefix_of {A} (p l : list A) : Prop := exists r, l = p ++ r.

(** [a <= b] and [a < b] in byte order: at the first difference the smaller byte
    decides; a proper prefix is smaller. *)
Definition spec_lt (a b : bytes) : Prop :=
  (exists x r, b = a ++ x :: r) \/
  (exists p x y ra rb, a = p ++ x :: ra /\ b = p ++ y :: rb /\ (byte_val x < byte_val y)%N).
Definition spec_le (a b : bytes) : Prop := a = b \/ spec_lt a b.

(** Membership in a half-open range with optional upper end. *)
Definition in_range (start : bytes) (end_ : option bytes) (k : bytes) : Prop :=
  spec_le start k /\ match end_ with Some e => spec_lt k e | None => True end.
