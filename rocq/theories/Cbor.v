(** The part of CBOR (serde_cbor 0.11.1) that snapcd's types use. *)
From Verif Require Import Base.

(** [std::str::from_utf8] accepts exactly these byte strings (Unicode table 3-7). *)
Definition in_range8 (lo hi : N) (b : byte) : bool :=
  (lo <=? byte_val b)%N && (byte_val b <=? hi)%N.
Definition cont8 : byte -> bool := in_range8 128 191.
Fixpoint utf8_valid (l : bytes) : bool :=
  match l with
  | [] => true
  | a :: r =>
      if in_range8 0 127 a then utf8_valid r
      else match r with
      | [] => false
      | b :: r1 =>
          if in_range8 194 223 a then cont8 b && utf8_valid r1
          else match r1 with
          | [] => false
          | c :: r2 =>
              if in_range8 224 224 a then in_range8 160 191 b && cont8 c && utf8_valid r2
              else if in_range8 225 236 a || in_range8 238 239 a
                   then cont8 b && cont8 c && utf8_valid r2
              else if in_range8 237 237 a then in_range8 128 159 b && cont8 c && utf8_valid r2
              else match r2 with
              | [] => false
              | d :: r3 =>
                  if in_range8 240 240 a
                  then in_range8 144 191 b && cont8 c && cont8 d && utf8_valid r3
                  else if in_range8 241 243 a
                  then cont8 b && cont8 c && cont8 d && utf8_valid r3
                  else if in_range8 244 244 a
                  then in_range8 128 143 b && cont8 c && cont8 d && utf8_valid r3
                  else false
              end
          end
      end
  end.

(** [serde_cbor::Value] restricted to the cases that occur (no negative
    integers, floats, tags, null, booleans).  Maps are key/value lists in wire
    order. *)
Inductive value :=
| VUInt (n : N)
| VBytes (b : bytes)
| VText (t : bytes)
| VArray (l : list value)
| VMap (l : list (value * value)).

(** [k]-byte big-endian representation. *)
Fixpoint be (k : nat) (n : N) : bytes :=
  match k with
  | O => []
  | S k' => byte_of (n / 256 ^ N.of_nat k') :: be k' n
  end.
Fixpoint be_val (acc : N) (l : bytes) : N :=
  match l with
  | [] => acc
  | b :: r => be_val (acc * 256 + byte_val b) r
  end.

(** serde_cbor ser.rs [write_u64]: smallest head for major type [m] and argument
    [n]; [n] is a [u64]. *)
Definition head (m : N) (n : N) : bytes :=
  if (n <? 24)%N then [byte_of (m * 32 + n)]
  else if (n <? 2 ^ 8)%N then byte_of (m * 32 + 24) :: be 1 n
  else if (n <? 2 ^ 16)%N then byte_of (m * 32 + 25) :: be 2 n
  else if (n <? 2 ^ 32)%N then byte_of (m * 32 + 26) :: be 4 n
  else byte_of (m * 32 + 27) :: be 8 n.

Fixpoint enc (v : value) : bytes :=
  match v with
  | VUInt n => head 0 n
  | VBytes b => head 2 (lenN b) ++ b
  | VText t => head 3 (lenN t) ++ t
  | VArray l => head 4 (lenN l) ++ flat_map enc l
  | VMap l => head 5 (lenN l) ++ flat_map (fun '(k, x) => enc k ++ enc x) l
  end.

(** Reads [k] bytes of a head's argument. *)
Definition take_be (k : nat) (r : bytes) : option (N * bytes) :=
  if Nat.leb k (length r) then Some (be_val 0 (firstn k r), skipn k r) else None.

(** Major type, argument, rest.  Indefinite lengths (31) and reserved values are
    not decoded here (see [Env] in World.v for what happens to them). *)
Definition dec_head (bs : bytes) : option (N * N * bytes) :=
  match bs with
  | [] => None
  | b :: r =>
      let m := (byte_val b / 32)%N in
      let a := (byte_val b mod 32)%N in
      if (a <? 24)%N then Some (m, a, r)
      else
        match (if (a =? 24)%N then take_be 1 r
               else if (a =? 25)%N then take_be 2 r
               else if (a =? 26)%N then take_be 4 r
               else if (a =? 27)%N then take_be 8 r
               else None) with
        | Some (n, r') => Some (m, n, r')
        | None => None
        end
  end.

Definition take_bytes (n : N) (r : bytes) : option (bytes * bytes) :=
  if (n <=? lenN r)%N then Some (firstn (N.to_nat n) r, skipn (N.to_nat n) r) else None.

Section Items.
  Context {A : Type} (item : bytes -> option (A * bytes)).
  (** Decodes [n] consecutive items; [g] bounds the recursion. *)
  Fixpoint dec_items (g : nat) (n : N) (bs : bytes) : option (list A * bytes) :=
    if (n =? 0)%N then Some ([], bs)
    else
      match g with
      | O => None
      | S g' =>
          match item bs with
          | None => None
          | Some (a, r) =>
              match dec_items g' (n - 1) r with
              | None => None
              | Some (l, r') => Some (a :: l, r')
              end
          end
      end.
End Items.

Definition dec_pair {A} (item : bytes -> option (A * bytes)) (bs : bytes) : option ((A * A) * bytes) :=
  match item bs with
  | None => None
  | Some (k, r) =>
      match item r with
      | None => None
      | Some (x, r') => Some ((k, x), r')
      end
  end.

(** Decodes one value from the front of [bs]. *)
Fixpoint dec (fuel : nat) (bs : bytes) : option (value * bytes) :=
  match fuel with
  | O => None
  | S f =>
      match dec_head bs with
      | None => None
      | Some (m, n, r) =>
          if (m =? 0)%N then Some (VUInt n, r)
          else if (m =? 2)%N then
            match take_bytes n r with Some (b, r') => Some (VBytes b, r') | None => None end
          else if (m =? 3)%N then
            match take_bytes n r with
            | Some (b, r') => if utf8_valid b then Some (VText b, r') else None
            | None => None
            end
          else if (m =? 4)%N then
            match dec_items (dec f) (length r) n r with
            | Some (l, r') => Some (VArray l, r')
            | None => None
            end
          else if (m =? 5)%N then
            match dec_items (dec_pair (dec f)) (length r) n r with
            | Some (l, r') => Some (VMap l, r')
            | None => None
            end
          else None
      end
  end.

(** [serde_cbor::from_slice]: one value and nothing after it. *)
Definition dec_all (bs : bytes) : option value :=
  match dec (S (length bs)) bs with
  | Some (v, []) => Some v
  | _ => None
  end.
