(** How an object is to be shown as text. *)
From Verif Require Import Base Key Cbor Object World.

(** The value of a digit. *)
Definition hex_value (c : byte) : option N :=
  option_map N.of_nat (position (byte_eqb c) (str "0123456789abcdef")).
Definition dec_value (c : byte) : option N :=
  option_map N.of_nat (position (byte_eqb c) (str "0123456789")).

(** Two digits for each byte. *)
Inductive spelled : bytes -> bytes -> Prop :=
| sp_nil : spelled [] []
| sp_byte h l b r d x y : hex_value h = Some x -> hex_value l = Some y -> byte_val b = (16 * x + y)%N -> spelled r d ->
    spelled (h :: l :: r) (b :: d).
(** The lines hold twenty bytes each, the last one possibly fewer, and none is empty. *)
Inductive dumped : list bytes -> bytes -> Prop :=
| du_none : dumped [] []
| du_last l d : spelled l d -> 1 <= length d <= 20 -> dumped [l] d
| du_line l d ls d' : spelled l d -> length d = 20 -> dumped ls d' -> d' <> [] -> dumped (l :: ls) (d ++ d').

(** A decimal number without leading zeros. *)
Fixpoint number_value (acc : N) (t : bytes) : option N :=
  match t with
  | [] => Some acc
  | c :: r => match dec_value c with Some x => number_value (10 * acc + x)%N r | None => None end
  end.
Definition number_text (t : bytes) (n : N) : Prop :=
  t <> [] /\ number_value 0 t = Some n /\ (forall r, t = "0"%char :: r -> r = []).
(** Numbers, with a comma and a blank between two of them. *)
Inductive listed : bytes -> list N -> Prop :=
| ls_none : listed [] []
| ls_last t n : number_text t n -> listed t [n]
| ls_more t n r l : number_text t n -> listed r l -> l <> [] -> listed (t ++ str ", " ++ r) (n :: l).
(** Three lines for each key: its text, its bytes, and an empty line. *)
Inductive keys_shown : list bytes -> list key -> Prop :=
| ks_none : keys_shown [] []
| ks_key k t ls ks : listed t (map byte_val (hash_bytes k)) -> keys_shown ls ks ->
    keys_shown (as_user_key k :: (str "Blake3B([" ++ t ++ str "])") :: [] :: ls) (k :: ks).

Section SpecPretty.
  Context {E : Env}.
  Definition value_lines (d : bytes) : list bytes :=
    match debug_cbor d with Ok t => [t] | Err t => [str "error when deserialising!"; t] end.
  (** All the lines for an object. *)
  Definition pictured (ls : list bytes) (o : object) : Prop :=
    exists kl dl, keys_shown kl (o_keys o) /\ dumped dl (o_data o) /\
      ls = [str "--type: " ++ objtype_name (o_type o) ++ str "--"; str "--keys--"] ++ kl ++
           [str "-/keys--"; str "--data--"] ++ dl ++
           [str "-/data--"; str "--deserialised data--"] ++ value_lines (o_data o) ++ [str "--/deserialised data--"].
  (** Lines as text. *)
  Definition text_of_lines (ls : list bytes) : bytes := concat (map (fun l => l ++ ["010"%char]) ls).
  (** As what is written to stdout, line by line. *)
  Definition out_lines (ls : list bytes) : list event := map (fun l => Printed "raw" [l ++ ["010"%char]]) ls.
End SpecPretty.
