(** Model of src/keyish.rs. *)
From Verif Require Import Base Base32 Key.

(** src/keyish.rs:6-21 [Keyish] *)
Inductive keyish :=
| KRange (s : bytes) (start : bytes) (end_ : option bytes)
| KKey (s : bytes) (k : bytes)
| KReflog (orig : bytes) (remote : option bytes) (keyname : bytes).

(** src/keyish.rs:24-33 [KeyishParseError] *)
Inductive keyish_parse_error :=
| Invalid (s : bytes)
| UnknownPrefix (ch : byte)
| EmptyKey.

(** [str::is_ascii] *)
Definition is_ascii (s : bytes) : bool := forallb (fun b => (byte_val b <? 128)%N) s.

Definition slash : byte := "/"%char.

(** src/keyish.rs:45-66 [parse_from_ref].  [s.find('/')] is the byte index of the
    first ['/'] (an ASCII character, so byte and character search agree); the
    [expect] cannot fail because the caller checked [contains('/')]; the model
    returns [None] there. *)
Definition parse_from_ref (s : bytes) : option keyish :=
  match position (fun b => byte_eqb b slash) s with
  | None => None
  | Some idx =>
      if Nat.eqb idx 0
      then Some (KReflog s None (skipn 1 s))
      else Some (KReflog s (Some (firstn idx s)) (skipn (idx + 1) s))
  end.

(** bitvec 0.17 [AddAssign for BitVec]: ripple-carry addition from the last bit,
    the shorter operand zero-extended on the left, a final carry pushed in front.
    [carry_add] runs over the reversed operands and produces the reversed sum. *)
Fixpoint carry_add (a b : list bool) (c : bool) : list bool :=
  match a with
  | [] => if c then [true] else []
  | x :: a' =>
      let y := hd false b in
      xorb (xorb x y) c :: carry_add a' (tl b) ((x && y) || (x && c) || (y && c))
  end.
Definition bitvec_add (a b : list bool) : list bool :=
  if Nat.ltb (length a) (length b)
  then rev (carry_add (rev b) (rev a) false)
  else rev (carry_add (rev a) (rev b) false).

(** src/keyish.rs:79 [max_len] for prefix ['b']: 32 * 8 *)
Definition max_len : nat := 32 * 8.

(** src/keyish.rs:68-118 [parse_from_base32].  [BitVec::into_vec] packs the bits
    into bytes; the unused low bits of the last byte are zero (they are only ever
    written by [push], which starts from a zero element). *)
Definition parse_from_base32 (s : bytes) : result keyish keyish_parse_error :=
  if negb (is_ascii s) then Err (Invalid s)
  else
    match s with
    | [] => Err EmptyKey
    | prefix :: rest =>
        if byte_eqb prefix "b"%char then
          match from_base32 rest max_len with
          | Err _ => Err (Invalid s)
          | Ok input =>
              if Nat.eqb (length input) max_len then
                Ok (KKey s (byte_of 1 :: pack_bits input))
              else
                let did_overflow := forallb (fun b => b) input in
                let ret_start := byte_of 1 :: pack_bits input in
                let ret_end :=
                  if did_overflow then None
                  else Some (byte_of 1 :: pack_bits (bitvec_add input [true])) in
                Ok (KRange s ret_start ret_end)
          end
        else Err (UnknownPrefix prefix)
    end.

(** src/keyish.rs:38-43 [from_str].  The [None] of [parse_from_ref] is a panic in
    Rust ([expect]); it is unreachable here, see [parse_keyish_total]. *)
Definition parse_keyish (s : bytes) : option (result keyish keyish_parse_error) :=
  if existsb (fun b => byte_eqb b slash) s
  then option_map Ok (parse_from_ref s)
  else Some (parse_from_base32 s).
