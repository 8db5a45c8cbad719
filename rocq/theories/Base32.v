(** Model of src/base32.rs.  A [BitVec<Msb0, u8>] is a list of booleans, first
    bit first. *)
From Verif Require Import Base.

(** src/base32.rs:62 [TABLE] *)
Definition TABLE : list byte := str "abcdefghijklmnopqrstuvwxyz234567".

(** src/base32.rs:5-23 [pop_u5_from_bitvec]: [x.get(i).unwrap_or(&false)] for
    i = 0..4 shifted by 4..0 and or-ed; then up to five leading bits removed. *)
Definition pop_u5_from_bitvec (x : list bool) : N * list bool :=
  let bit i := N.b2n (nth i x false) in
  let v := N.lor (N.lor (N.lor (N.lor (N.shiftl (bit 0) 4)
                                      (N.shiftl (bit 1) 3))
                               (N.shiftl (bit 2) 2))
                        (N.shiftl (bit 3) 1))
                 (N.shiftl (bit 4) 0) in
  (v, skipn 5 x).

(** src/base32.rs:91-94, the [while !scratch.is_empty()] loop.  [fuel] bounds the
    number of iterations; the caller passes the number of bits, which is enough
    because every iteration removes at least one bit.  [TABLE[v]] panics in Rust
    when v > 31; v has five bits (see [pop_u5_bound] in Base32Facts.v). *)
Fixpoint to_base32_loop (fuel : nat) (scratch : list bool) : bytes :=
  match fuel with
  | O => []
  | S f =>
      match scratch with
      | [] => []
      | _ :: _ =>
          let '(v, rest) := pop_u5_from_bitvec scratch in
          nth (N.to_nat v) TABLE zero :: to_base32_loop f rest
      end
  end.

(** src/base32.rs:88-97 [to_base32]; [BitVec::from_vec] is [bits_of_bytes]. *)
Definition to_base32 (x : bytes) : bytes :=
  let scratch := bits_of_bytes x in
  to_base32_loop (length scratch) scratch.

(** src/base32.rs:26-29 [FromBase32Error] *)
Inductive from_base32_error := UnknownByte (ch : byte).

(** src/base32.rs:39-41: ['A'..='Z'] gets bit 5 set. *)
Definition to_lower (ch : byte) : byte :=
  if (65 <=? byte_val ch)%N && (byte_val ch <=? 90)%N
  then byte_of (N.lor (byte_val ch) 32)
  else ch.

(** src/base32.rs:50-54: the five pushed bits of a table index. *)
Definition bits_of_idx (idx : N) : list bool :=
  [ negb (N.land idx 16 =? 0)%N; negb (N.land idx 8 =? 0)%N; negb (N.land idx 4 =? 0)%N;
    negb (N.land idx 2 =? 0)%N; negb (N.land idx 1 =? 0)%N ].

(** src/base32.rs:38-55, the loop over the input bytes, accumulating [result].
    The [debug_assert!] on line 48 cannot fail: every table entry is a lowercase
    letter or a digit. *)
Fixpoint from_base32_loop (x : bytes) (res : list bool) : result (list bool) from_base32_error :=
  match x with
  | [] => Ok res
  | ch :: rest =>
      let ch := to_lower ch in
      match position (fun t => byte_eqb t ch) TABLE with
      | None => Err (UnknownByte ch)
      | Some idx => from_base32_loop rest (res ++ bits_of_idx (N.of_nat idx))
      end
  end.

(** src/base32.rs:35-60 [from_base32]; [truncate max_len] keeps a prefix. *)
Definition from_base32 (x : bytes) (max_len : nat) : result (list bool) from_base32_error :=
  match from_base32_loop x [] with
  | Ok res => Ok (firstn max_len res)
  | Err e => Err e
  end.
