(** Properties C01-C06: base32, keys, key arguments. *)
From Verif Require Import Base Base32 Base32Facts Key Keyish SpecKey KeyFacts.

(** C01: decoding the base32 text of any byte string gives back its bits. *)
Theorem C01_base32_roundtrip :
  forall x : bytes, from_base32 (to_base32 x) (8 * length x) = Ok (bits_of_bytes x).
Proof. exact base32_roundtrip. Qed.
Print Assumptions C01_base32_roundtrip.
Example C01_example :
  to_base32 [byte_of 170] = str "vi" /\
  from_base32 (str "vi") 8 = Ok [true; false; true; false; true; false; true; false].
Proof. split; reflexivity. Qed.

(** The bits compared above are the bits of the string. *)
Theorem C01_bits_are_bits :
  forall (x : bytes) i, nth i (bits_of_bytes x) false = spec_bit x i.
Proof. exact nth_bits_of_bytes. Qed.
Print Assumptions C01_bits_are_bits.
Theorem C01_bits_length : forall x : bytes, length (bits_of_bytes x) = 8 * length x.
Proof. exact BaseFacts.bits_of_bytes_length. Qed.
Print Assumptions C01_bits_length.

(** C02: length and exact content of the text, accepted inputs, output length,
    case insensitivity. *)
Theorem C02_text_length : forall x : bytes, length (to_base32 x) = (8 * length x + 4) / 5.
Proof. exact to_base32_length. Qed.
Print Assumptions C02_text_length.
Theorem C02_text_content :
  forall (x : bytes) i, i < (8 * length x + 4) / 5 ->
  nth i (to_base32 x) zero = nth (spec_group x (5 * i)) spec_alphabet zero.
Proof. exact to_base32_nth. Qed.
Print Assumptions C02_text_content.
Example C02_text_content_example :
  1 < (8 * length (str "f") + 4) / 5 /\
  nth 1 (to_base32 (str "f")) zero = "y"%char /\ spec_group (str "f") 5 = 24.
Proof. repeat split. vm_compute. repeat constructor. Qed.
Theorem C02_accepts_exactly :
  forall (x : bytes) n, (exists r, from_base32 x n = Ok r) <-> Forall in_alphabet x.
Proof. exact decodes_iff. Qed.
Print Assumptions C02_accepts_exactly.
Theorem C02_decoded_length :
  forall (x : bytes) n r, from_base32 x n = Ok r -> length r = Nat.min n (5 * length x).
Proof. exact from_base32_length. Qed.
Print Assumptions C02_decoded_length.
Theorem C02_case_insensitive :
  forall (x : bytes) n r, from_base32 x n = Ok r <-> from_base32 (map fold_case x) n = Ok r.
Proof. exact from_base32_fold. Qed.
Print Assumptions C02_case_insensitive.
Example C02_example :
  from_base32 (str "Vi") 8 = from_base32 (str "vi") 8 /\
  (exists r, from_base32 (str "VI") 10 = Ok r) /\
  from_base32 (str "v1") 8 = Err (UnknownByte "1"%char).
Proof. split; [reflexivity|]. split; [eexists; reflexivity|reflexivity]. Qed.

(** C03: database key codec. *)
Theorem C03_roundtrip : forall k : key, from_db_key (as_db_key k) = Ok k.
Proof. exact from_as_db_key. Qed.
Print Assumptions C03_roundtrip.
Theorem C03_accepts_exactly :
  forall x : bytes,
  (exists k, from_db_key x = Ok k) <-> (exists hb, x = byte_of 1 :: hb /\ length hb = 32).
Proof. exact from_db_key_ok_iff. Qed.
Print Assumptions C03_accepts_exactly.
Theorem C03_inverse : forall x k, from_db_key x = Ok k <-> x = as_db_key k.
Proof. exact from_db_key_ok. Qed.
Print Assumptions C03_inverse.
Theorem C03_errors :
  from_db_key [] = Err EmptyDbKey /\
  (forall id hb, id <> byte_of 1 -> from_db_key (id :: hb) = Err (UnknownHashId id)) /\
  (forall hb, length hb <> 32 -> from_db_key (byte_of 1 :: hb) = Err (IncorrectLength (length hb))).
Proof.
  exact (conj eq_refl
    (conj (fun id hb H => from_db_key_unknown id hb H) (fun hb H => from_db_key_badlen hb H))).
Qed.
Print Assumptions C03_errors.
Example C03_example :
  from_db_key (byte_of 1 :: repeat zero 31) = Err (IncorrectLength 31) /\
  from_db_key (byte_of 2 :: repeat zero 32) = Err (UnknownHashId (byte_of 2)) /\
  exists k, from_db_key (byte_of 1 :: repeat zero 32) = Ok k.
Proof. repeat split. eexists. reflexivity. Qed.

(** C04: printed keys parse back. *)
Theorem C04_printed_key_parses :
  forall k : key, parse_keyish (as_user_key k) = Some (Ok (KKey (as_user_key k) (as_db_key k))).
Proof. exact parse_user_key. Qed.
Print Assumptions C04_printed_key_parses.
Theorem C04_printed_key_shape :
  forall k : key, length (as_user_key k) = 53 /\ ascii_text (as_user_key k).
Proof. exact as_user_key_shape. Qed.
Print Assumptions C04_printed_key_shape.
Theorem C04_printed_key_injective : forall a b : key, as_user_key a = as_user_key b -> a = b.
Proof. exact as_user_key_inj. Qed.
Print Assumptions C04_printed_key_injective.
Definition example_key : key := Blake3B (Arr32 (repeat (byte_of 255) 32) eq_refl).
Example C04_example :
  as_user_key example_key = str "b777777777777777777777777777777777777777777777777777q".
Proof. reflexivity. Qed.

(** C05: prefix search is exact.  The parser's result for a prefix text is always
    a range, every range it returns comes from such a text, and a key is in the
    range exactly when its printed form starts with the text. *)
Theorem C05_prefix_range_exact :
  forall rest : bytes, Forall in_alphabet rest -> length rest < 52 ->
  exists start end_,
    parse_keyish ("b"%char :: rest) = Some (Ok (KRange ("b"%char :: rest) start end_)) /\
    forall k : key,
      in_range start end_ (as_db_key k) <->
      prefix_of ("b"%char :: map fold_case rest) (as_user_key k).
Proof. exact prefix_parse. Qed.
Print Assumptions C05_prefix_range_exact.
Theorem C05_ranges_come_from_prefixes :
  forall s s' start end_, parse_keyish s = Some (Ok (KRange s' start end_)) ->
  exists rest, s = "b"%char :: rest /\ Forall in_alphabet rest /\ length rest < 52.
Proof. exact prefix_parse_inv. Qed.
Print Assumptions C05_ranges_come_from_prefixes.
Example C05_example :
  Forall in_alphabet (str "a7") /\ length (str "a7") < 52 /\
  parse_keyish (str "ba7") =
    Some (Ok (KRange (str "ba7") (map byte_of [1; 7; 192]%N) (Some (map byte_of [1; 8; 0]%N)))) /\
  parse_keyish (str "b77") =
    Some (Ok (KRange (str "b77") (map byte_of [1; 255; 192]%N) None)) /\
  parse_keyish (str "b") = Some (Ok (KRange (str "b") (map byte_of [1]%N) None)).
Proof.
  repeat split.
  - repeat constructor; unfold in_alphabet; cbn; tauto.
  - cbn; lia.
Qed.

(** C06: decision table of the key argument parser. *)
Theorem C06_never_panics : forall s, exists r, parse_keyish s = Some r.
Proof. exact parse_keyish_total. Qed.
Print Assumptions C06_never_panics.
Theorem C06_ref :
  forall a b, ~ In slash a ->
  parse_keyish (a ++ slash :: b) =
  Some (Ok (KReflog (a ++ slash :: b) (match a with [] => None | _ => Some a end) b)).
Proof. exact parse_ref_split. Qed.
Print Assumptions C06_ref.
Theorem C06_non_ascii :
  forall s, ~ In slash s -> ~ ascii_text s -> parse_keyish s = Some (Err (Invalid s)).
Proof. exact parse_non_ascii. Qed.
Print Assumptions C06_non_ascii.
Theorem C06_empty : parse_keyish [] = Some (Err EmptyKey).
Proof. exact eq_refl. Qed.
Print Assumptions C06_empty.
Theorem C06_unknown_prefix :
  forall c rest, ~ In slash (c :: rest) -> ascii_text (c :: rest) -> c <> "b"%char ->
  parse_keyish (c :: rest) = Some (Err (UnknownPrefix c)).
Proof. exact parse_unknown_prefix. Qed.
Print Assumptions C06_unknown_prefix.
Theorem C06_bad_character :
  forall rest, ~ In slash rest -> ascii_text rest -> ~ Forall in_alphabet rest ->
  parse_keyish ("b"%char :: rest) = Some (Err (Invalid ("b"%char :: rest))).
Proof. exact parse_bad_char. Qed.
Print Assumptions C06_bad_character.
(** (fewer than 52 characters: [C05_prefix_range_exact]) *)
Theorem C06_full_key :
  forall rest, Forall in_alphabet rest -> 52 <= length rest ->
  exists k : key,
    parse_keyish ("b"%char :: rest) = Some (Ok (KKey ("b"%char :: rest) (as_db_key k))) /\
    parse_keyish ("b"%char :: firstn 52 rest) =
      Some (Ok (KKey ("b"%char :: firstn 52 rest) (as_db_key k))) /\
    firstn 52 (as_user_key k) = "b"%char :: map fold_case (firstn 51 rest).
Proof. exact parse_full. Qed.
Print Assumptions C06_full_key.
Example C06_example :
  parse_keyish (str "origin/master") =
    Some (Ok (KReflog (str "origin/master") (Some (str "origin")) (str "master"))) /\
  parse_keyish (str "/a/b") = Some (Ok (KReflog (str "/a/b") None (str "a/b"))) /\
  parse_keyish [byte_of 200] = Some (Err (Invalid [byte_of 200])) /\
  parse_keyish (str "xyz") = Some (Err (UnknownPrefix "x"%char)) /\
  parse_keyish (str "b1") = Some (Err (Invalid (str "b1"))) /\
  52 <= length (repeat "a"%char 60).
Proof. repeat split. cbn. lia. Qed.
