(** Facts about src/base32.rs (text format), src/key.rs and src/keyish.rs. *)
From Verif Require Import Base BaseFacts Base32 Base32Facts Key Keyish SpecKey.

(** ** Byte order *)
Lemma bytes_cmp_lt a : forall b, bytes_cmp a b = Lt <-> spec_lt a b.
Proof.
  unfold spec_lt. induction a as [|x a IH]; intros [|y b].
  - split; [discriminate|]. intros [(z & r & H)|(p & z & w & ra & rb & H & _)].
    + discriminate.
    + destruct p; discriminate.
  - split; [|reflexivity]. intros _. left. exists y, b. reflexivity.
  - split; [discriminate|]. intros [(z & r & H)|(p & z & w & ra & rb & _ & H & _)].
    + discriminate.
    + destruct p; discriminate.
  - unfold bytes_cmp; cbn [lex_cmp]; fold bytes_cmp.
    destruct (byte_cmp x y) eqn:E.
    + apply byte_cmp_eq in E. subst y. rewrite IH. split.
      * intros [(z & r & ->)|(p & z & w & ra & rb & -> & -> & Hlt)].
        -- left. exists z, r. reflexivity.
        -- right. exists (x :: p), z, w, ra, rb. auto.
      * intros [(z & r & H)|(p & z & w & ra & rb & Ha & Hb & Hlt)].
        -- injection H as ->. left. eauto.
        -- destruct p as [|c p]; cbn in Ha, Hb.
           ++ injection Ha as <- _. injection Hb as <- _. lia.
           ++ injection Ha as -> ->. injection Hb as ->. right. exists p, z, w, ra, rb. auto.
    + split; [|reflexivity]. intros _. right. exists [], x, y, a, b. repeat split.
      unfold byte_cmp in E. apply N.compare_lt_iff in E. exact E.
    + split; [discriminate|]. unfold byte_cmp in E. apply N.compare_gt_iff in E.
      intros [(z & r & H)|(p & z & w & ra & rb & Ha & Hb & Hlt)].
      * injection H as -> _. lia.
      * destruct p as [|c p]; cbn in Ha, Hb.
        -- injection Ha as -> _. injection Hb as -> _. lia.
        -- injection Ha as -> _. injection Hb as -> _. lia.
Qed.
Lemma bytes_ltb_spec a b : bytes_ltb a b = true <-> spec_lt a b.
Proof. rewrite <- bytes_cmp_lt. unfold bytes_ltb. destruct (bytes_cmp a b); split; congruence. Qed.
Lemma bytes_leb_spec a b : bytes_leb a b = true <-> spec_le a b.
Proof.
  unfold spec_le. rewrite <- bytes_cmp_lt, <- bytes_cmp_eq. unfold bytes_leb.
  destruct (bytes_cmp a b); split; intuition congruence.
Qed.

(** ** Base32 text format *)
Lemma to_lower_fold ch : to_lower ch = fold_case ch.
Proof. destruct ch as [[] [] [] [] [] [] [] []]; reflexivity. Qed.

Lemma nth_bits_of_bytes x : forall i, nth i (bits_of_bytes x) false = spec_bit x i.
Proof.
  induction x as [|b x IH]; intro i.
  - unfold spec_bit. replace (nth (i / 8) (@nil byte) zero) with zero by (destruct (i / 8); reflexivity).
    change (byte_val zero) with 0%N. rewrite N.bits_0. destruct i; reflexivity.
  - rewrite bits_of_bytes_cons. destruct (le_lt_dec 8 i) as [H|H].
    + rewrite app_nth2 by (rewrite bits_of_byte_length; lia). rewrite bits_of_byte_length, IH.
      unfold spec_bit. replace i with (i - 8 + 1 * 8) at 3 4 by lia.
      rewrite Nat.div_add, Nat.mod_add by lia. rewrite Nat.add_1_r. reflexivity.
    + rewrite app_nth1 by (rewrite bits_of_byte_length; lia).
      unfold spec_bit. rewrite Nat.div_small, Nat.mod_small by lia. cbn [nth].
      destruct b as [[] [] [] [] [] [] [] []];
        do 8 (destruct i as [|i]; [reflexivity|]); lia.
Qed.

Lemma firstn_as_nth (l : list bool) i :
  firstn 5 (skipn i l ++ repeat false 5) =
  [nth i l false; nth (i + 1) l false; nth (i + 2) l false; nth (i + 3) l false; nth (i + 4) l false].
Proof.
  revert l. induction i as [|i IH]; intro l.
  - destruct l as [|a [|b [|c [|d [|e l]]]]]; reflexivity.
  - destruct l as [|a l]; [rewrite skipn_nil; reflexivity|]. cbn [skipn nth plus]. apply IH.
Qed.

Lemma bval5 a b c d e :
  N.to_nat (bval [a; b; c; d; e]) =
  16 * (if a then 1 else 0) + 8 * (if b then 1 else 0) + 4 * (if c then 1 else 0)
  + 2 * (if d then 1 else 0) + (if e then 1 else 0).
Proof. destruct a, b, c, d, e; reflexivity. Qed.

Lemma to_base32_nth x i : i < (8 * length x + 4) / 5 ->
  nth i (to_base32 x) zero = nth (spec_group x (5 * i)) spec_alphabet zero.
Proof.
  intro Hi. unfold to_base32.
  rewrite to_base32_loop_nth by (rewrite ?bits_of_bytes_length; auto).
  rewrite firstn_as_nth, bval5, !nth_bits_of_bytes.
  unfold spec_group. rewrite !Nat.add_0_r. reflexivity.
Qed.

Lemma alphabet_lower ch : In ch TABLE -> to_lower ch = ch.
Proof.
  intro H. assert (Forall (fun c => to_lower c = c) TABLE) as HF by (repeat constructor).
  rewrite Forall_forall in HF. auto.
Qed.

Lemma decodes_iff x n : (exists r, from_base32 x n = Ok r) <-> Forall in_alphabet x.
Proof.
  rewrite from_base32_ok_iff. unfold in_alphabet.
  split; apply Forall_impl; intros a; rewrite to_lower_fold; auto.
Qed.
Lemma from_base32_fold x n r : from_base32 x n = Ok r <-> from_base32 (map fold_case x) n = Ok r.
Proof.
  assert (E : map fold_case x = map to_lower x) by (apply map_ext; intro; symmetry; apply to_lower_fold).
  rewrite E. unfold from_base32. rewrite from_base32_loop_lower. reflexivity.
Qed.

(** ** Keys *)
Lemma from_as_db_key k : from_db_key (as_db_key k) = Ok k.
Proof. destruct k as [h]. cbn. rewrite arr32_of_arr. reflexivity. Qed.
Lemma byte_val_1 id : (byte_val id =? 1)%N = true <-> id = byte_of 1.
Proof.
  rewrite N.eqb_eq. split; [|intros ->; reflexivity].
  intro H. apply byte_val_inj. rewrite H. reflexivity.
Qed.
Lemma from_db_key_ok x k : from_db_key x = Ok k <-> x = as_db_key k.
Proof.
  split; [|intros ->; apply from_as_db_key].
  destruct x as [|id hb]; cbn; [discriminate|].
  destruct (byte_val id =? 1)%N eqn:E; [|discriminate].
  apply byte_val_1 in E. subst id.
  destruct (arr32_of hb) as [a|] eqn:E; [|discriminate].
  apply arr32_of_Some in E. intro H. injection H as <-. subst hb. reflexivity.
Qed.
Lemma from_db_key_ok_iff x :
  (exists k, from_db_key x = Ok k) <-> (exists hb, x = byte_of 1 :: hb /\ length hb = 32).
Proof.
  split.
  - intros (k & H). apply from_db_key_ok in H. subst. destruct k as [h].
    exists (arr h). split; [reflexivity|apply arr_length].
  - intros (hb & -> & H). cbn. destruct (arr32_of hb) as [a|] eqn:E; [eauto|].
    apply arr32_of_None in E. contradiction.
Qed.
Lemma as_db_key_inj a b : as_db_key a = as_db_key b -> a = b.
Proof.
  intro H. assert (Ok (E := from_db_key_error) a = Ok b); [|congruence].
  rewrite <- !from_as_db_key, H. reflexivity.
Qed.
Lemma as_db_key_length k : length (as_db_key k) = 33.
Proof. destruct k as [h]. cbn. rewrite arr_length. reflexivity. Qed.
Lemma hash_bytes_inj a b : hash_bytes a = hash_bytes b -> a = b.
Proof. destruct a, b; cbn. intro H. f_equal. apply arr32_eq, H. Qed.
Lemma key_eqb_eq a b : key_eqb a b = true <-> a = b.
Proof.
  unfold key_eqb. rewrite bytes_eqb_eq. split; [apply hash_bytes_inj|congruence].
Qed.
Lemma key_eq_dec (a b : key) : {a = b} + {a <> b}.
Proof.
  destruct (key_eqb a b) eqn:E; [left; apply key_eqb_eq, E|right].
  intros ->. assert (key_eqb b b = true) by (apply key_eqb_eq; reflexivity). congruence.
Qed.

Lemma as_user_key_length k : length (as_user_key k) = 53.
Proof.
  destruct k as [h]. unfold as_user_key, hash_bytes. rewrite app_length, to_base32_length, arr_length.
  reflexivity.
Qed.
Lemma table_no_slash : Forall (fun c => byte_eqb c slash = false) TABLE.
Proof. repeat constructor. Qed.
Lemma table_ascii : Forall (fun c => (byte_val c <? 128)%N = true) TABLE.
Proof. repeat constructor. Qed.
Lemma to_base32_table_Forall (P : byte -> Prop) x : Forall P TABLE -> Forall P (to_base32 x).
Proof.
  intro H. rewrite Forall_forall in H. eapply Forall_impl; [|apply to_base32_in_table]. exact H.
Qed.
Lemma as_user_key_ascii k : is_ascii (as_user_key k) = true.
Proof.
  destruct k as [h]. unfold as_user_key, is_ascii.
  apply forallb_forall. intros x Hx. apply in_app_or in Hx as [[<-|[]]|Hx]; [reflexivity|].
  pose proof (to_base32_table_Forall _ (hash_bytes (Blake3B h)) table_ascii) as H.
  rewrite Forall_forall in H. auto.
Qed.
Lemma as_user_key_no_slash k : existsb (fun b => byte_eqb b slash) (as_user_key k) = false.
Proof.
  apply Bool.not_true_iff_false. intro H. apply existsb_exists in H as (x & Hx & E).
  destruct k as [h]. unfold as_user_key in Hx.
  apply in_app_or in Hx as [[<-|[]]|Hx]; [discriminate|].
  pose proof (to_base32_table_Forall _ (hash_bytes (Blake3B h)) table_no_slash) as H.
  rewrite Forall_forall in H. rewrite (H _ Hx) in E. discriminate.
Qed.

Lemma parse_user_key k :
  parse_keyish (as_user_key k) = Some (Ok (KKey (as_user_key k) (as_db_key k))).
Proof.
  unfold parse_keyish. rewrite as_user_key_no_slash. unfold parse_from_base32.
  rewrite as_user_key_ascii. cbn [negb].
  destruct k as [h]. unfold as_user_key at 1. cbn [str list_ascii_of_string app].
  rewrite byte_eqb_refl.
  assert (Hl : 8 * length (arr h) = max_len) by (rewrite arr_length; reflexivity).
  cbn [hash_bytes]. rewrite <- Hl at 1. rewrite base32_roundtrip.
  rewrite bits_of_bytes_length, Hl, Nat.eqb_refl, pack_bits_of_bytes. reflexivity.
Qed.
Lemma as_user_key_inj a b : as_user_key a = as_user_key b -> a = b.
Proof.
  intro H. assert (E := parse_user_key a). rewrite H, parse_user_key in E.
  injection E as E. symmetry. apply hash_bytes_inj. congruence.
Qed.

(** ** Increment *)
Lemma bval_snoc l x : bval (l ++ [x]) = (2 * bval l + N.b2n x)%N.
Proof. rewrite bval_app. cbn [length]. change (2 ^ N.of_nat 1)%N with 2%N. rewrite N.mul_comm. destruct x; reflexivity. Qed.

Lemma carry_add_nil_false l : carry_add l [] false = l.
Proof.
  induction l as [|x l IH]; [reflexivity|]. cbn. rewrite !andb_false_r. cbn. rewrite IH.
  destruct x; reflexivity.
Qed.
Lemma carry_inc l : forallb (fun b => b) l = false ->
  length (carry_add l [] true) = length l /\
  bval (rev (carry_add l [] true)) = (bval (rev l) + 1)%N.
Proof.
  induction l as [|x l IH]; [discriminate|]. cbn [forallb]. intro H.
  cbn [carry_add hd tl]. rewrite andb_false_r, andb_true_r, andb_true_r, xorb_false_r. cbn [orb].
  rewrite orb_false_r. destruct x; cbn [xorb].
  - cbn in H. destruct (IH H) as [H1 H2]. cbn [length rev]. rewrite H1, !bval_snoc, H2. split; [lia|].
    cbn [N.b2n]. lia.
  - rewrite carry_add_nil_false. cbn [length rev]. rewrite !bval_snoc. split; [lia|]. cbn [N.b2n]. lia.
Qed.
Lemma carry_add_one l : l <> [] -> carry_add l [true] false = carry_add l [] true.
Proof. destruct l as [|x l]; [congruence|]. intros _. cbn. destruct x; reflexivity. Qed.
Lemma forallb_rev {A} (f : A -> bool) l : forallb f (rev l) = forallb f l.
Proof.
  induction l as [|x l IH]; [reflexivity|]. cbn. rewrite forallb_app, IH. cbn.
  rewrite andb_true_r, andb_comm. reflexivity.
Qed.
Lemma bitvec_add_one p : forallb (fun b => b) p = false ->
  length (bitvec_add p [true]) = length p /\ bval (bitvec_add p [true]) = (bval p + 1)%N.
Proof.
  intro H. unfold bitvec_add. destruct p as [|x p]; [discriminate|].
  replace (Nat.ltb (length (x :: p)) (length [true])) with false
    by (symmetry; apply Nat.ltb_ge; cbn; lia).
  change (rev [true]) with [true].
  rewrite carry_add_one by (intro E; apply (f_equal (@length bool)) in E; rewrite rev_length in E; discriminate).
  destruct (carry_inc (rev (x :: p))) as [H1 H2]; [rewrite forallb_rev; exact H|].
  rewrite rev_length, H1, H2, rev_length, rev_involutive. auto.
Qed.
Lemma bval_all_true p : forallb (fun b => b) p = true -> (bval p + 1 = 2 ^ N.of_nat (length p))%N.
Proof.
  induction p as [|x p IH]; [reflexivity|]. cbn [forallb]. intro H.
  apply andb_true_iff in H as [-> H]. specialize (IH H).
  rewrite bval_cons. cbn [length N.b2n]. rewrite Nat2N.inj_succ, N.pow_succ_r'. lia.
Qed.

(** ** Comparison of packed prefixes *)
Lemma bits_cmp_app p q a b : length p = length q ->
  bits_cmp (p ++ a) (q ++ b) =
  match N.compare (bval p) (bval q) with Eq => bits_cmp a b | c => c end.
Proof.
  intro H. unfold bits_cmp. rewrite <- bits_cmp_bval by exact H.
  revert q H. induction p as [|x p IH]; intros [|y q] H; try discriminate; [reflexivity|].
  unfold bits_cmp in *. cbn in *. destruct (bool_cmp x y); [|reflexivity..]. apply IH. congruence.
Qed.
Lemma zeros_le n : forall b, n <= length b -> bits_cmp (repeat false n) b <> Gt.
Proof.
  induction n as [|n IH]; intros b H.
  - destruct b; discriminate.
  - destruct b as [|[] b]; [cbn in H; lia|discriminate|]. cbn. apply IH. cbn in H. lia.
Qed.

Lemma cmp_pack p h : length p <= 8 * length h ->
  exists c, c <> Gt /\
  bytes_cmp (pack_bits p) h =
  match N.compare (bval p) (bval (firstn (length p) (bits_of_bytes h))) with Eq => c | d => d end.
Proof.
  intro H. rewrite bytes_cmp_bits, bits_of_pack_bits.
  assert (Hq : length (firstn (length p) (bits_of_bytes h)) = length p).
  { rewrite firstn_length_le; [reflexivity|]. rewrite bits_of_bytes_length. exact H. }
  exists (bits_cmp (repeat false (pad_len (length p))) (skipn (length p) (bits_of_bytes h))).
  split; [|rewrite <- bits_cmp_app by (symmetry; exact Hq); rewrite firstn_skipn; reflexivity].
  apply zeros_le.
  rewrite skipn_length, bits_of_bytes_length. unfold pad_len.
  pose proof (Nat.div_mod (length p) 8 ltac:(lia)) as D.
  pose proof (Nat.mod_upper_bound (length p) 8 ltac:(lia)) as U.
  set (r := length p mod 8) in *. set (d := length p / 8) in *.
  destruct (Nat.eq_dec r 0) as [->|Hr]; [change ((8 - 0) mod 8) with 0; lia|].
  rewrite Nat.mod_small by lia. lia.
Qed.

Lemma range_exact p h : length p < 8 * length h ->
  let range_end := if forallb (fun b => b) p then None
                   else Some (byte_of 1 :: pack_bits (bitvec_add p [true])) in
  in_range (byte_of 1 :: pack_bits p) range_end (byte_of 1 :: h) <->
  p = firstn (length p) (bits_of_bytes h).
Proof.
  intros H range_end. unfold in_range. rewrite <- bytes_leb_spec. unfold bytes_leb.
  assert (Hc : forall a b, bytes_cmp (byte_of 1 :: a) (byte_of 1 :: b) = bytes_cmp a b) by reflexivity.
  rewrite Hc. destruct (cmp_pack p h ltac:(lia)) as (c & Hcg & ->).
  set (q := firstn (length p) (bits_of_bytes h)) in *.
  assert (Hq : length q = length p).
  { unfold q. rewrite firstn_length_le; [reflexivity|]. rewrite bits_of_bytes_length. lia. }
  assert (E : p = q <-> bval p = bval q).
  { split; [congruence|]. apply bval_inj. auto. }
  rewrite E.
  assert (L : match match N.compare (bval p) (bval q) with Eq => c | d => d end with
              | Gt => false | _ => true end = true <-> (bval p <= bval q)%N).
  { destruct (N.compare_spec (bval p) (bval q)) as [e|e|e].
    - destruct c; split; intro; try reflexivity; try lia. congruence.
    - split; [lia|reflexivity].
    - split; [discriminate|lia]. }
  rewrite L. unfold range_end. destruct (forallb (fun b => b) p) eqn:A.
  - apply bval_all_true in A. assert (B := bval_bound q). rewrite Hq in B. lia.
  - destruct (bitvec_add_one p A) as [L1 V1].
    rewrite <- bytes_cmp_lt, Hc.
    rewrite bytes_cmp_antisym.
    destruct (cmp_pack (bitvec_add p [true]) h ltac:(lia)) as (c' & Hcg' & ->).
    rewrite L1, V1. fold q.
    destruct (N.compare_spec (bval p + 1) (bval q)) as [e|e|e].
    + destruct c'; cbn; split; intros; try lia; destruct H0; congruence.
    + split; [intros [_ X]; discriminate|lia].
    + cbn. split; [lia|]. intro. split; [lia|reflexivity].
Qed.

(** ** Parsing *)
Lemma prefix_of_firstn {A} (p l : list A) : prefix_of p l <-> length p <= length l /\ firstn (length p) l = p.
Proof.
  split.
  - intros (r & ->). rewrite app_length, firstn_app, Nat.sub_diag, firstn_all, firstn_O, app_nil_r.
    split; [lia|reflexivity].
  - intros [_ H]. exists (skipn (length p) l). rewrite <- H at 1. symmetry. apply firstn_skipn.
Qed.

Lemma decode_text_prefix rest p h :
  length rest <= 51 -> length h = 32 ->
  from_base32_loop rest [] = Ok p ->
  (p = firstn (length p) (bits_of_bytes h) <-> prefix_of (map fold_case rest) (to_base32 h)).
Proof.
  intros Hr Hh Hp. assert (Lp := from_base32_loop_length _ _ Hp).
  assert (Et := decode_to_base32 h).
  assert (Lt : length (to_base32 h) = 52) by (rewrite to_base32_length, Hh; reflexivity).
  set (t := to_base32 h) in *. set (m := length rest) in *.
  rewrite <- (firstn_skipn m t), from_base32_loop_app in Et.
  destruct (from_base32_loop (firstn m t) []) as [q|] eqn:Eq; [|discriminate].
  destruct (from_base32_loop (skipn m t) []) as [q'|] eqn:Eq'; [|discriminate].
  assert (Et' : q ++ q' = bits_of_bytes h ++ repeat false (pad5 (8 * length h))) by congruence.
  assert (Lq := from_base32_loop_length _ _ Eq). rewrite firstn_length_le in Lq by lia.
  assert (Hq : firstn (length p) (bits_of_bytes h) = q).
  { replace (firstn (length p) (bits_of_bytes h)) with
      (firstn (length p) (bits_of_bytes h ++ repeat false (pad5 (8 * length h)))).
    - rewrite <- Et', firstn_app. replace (length p - length q) with 0 by lia.
      rewrite firstn_O, app_nil_r. replace (length p) with (length q) by lia. apply firstn_all.
    - rewrite firstn_app, bits_of_bytes_length. replace (length p - 8 * length h) with 0 by lia.
      rewrite firstn_O, app_nil_r. reflexivity. }
  rewrite Hq.
  assert (Hfold : map fold_case (firstn m t) = firstn m t).
  { rewrite <- (map_id (firstn m t)) at 2. apply map_ext_in. intros a Ha.
    rewrite <- to_lower_fold. apply alphabet_lower.
    assert (Hin : In a t). { rewrite <- (firstn_skipn m t). apply in_or_app. auto. }
    pose proof (to_base32_in_table h) as HF. rewrite Forall_forall in HF. auto. }
  assert (Hml : forall l, map fold_case l = map to_lower l).
  { intro l. apply map_ext. intro. symmetry. apply to_lower_fold. }
  rewrite prefix_of_firstn, map_length. fold m. split.
  - intros ->. split; [lia|]. rewrite <- Hfold, !Hml. symmetry.
    eapply from_base32_loop_inj; eauto.
  - intros [_ E]. rewrite E, Hml, from_base32_loop_lower in Eq. congruence.
Qed.

Lemma parse_b_range s rest p :
  existsb (fun b => byte_eqb b slash) s = false -> is_ascii s = true -> s = "b"%char :: rest ->
  length rest < 52 -> from_base32_loop rest [] = Ok p ->
  parse_keyish s = Some (Ok (KRange s (byte_of 1 :: pack_bits p)
     (if forallb (fun b => b) p then None
      else Some (byte_of 1 :: pack_bits (bitvec_add p [true]))))).
Proof.
  intros Hs Ha E Hl Hp. unfold parse_keyish. rewrite Hs. unfold parse_from_base32.
  rewrite Ha. cbn [negb]. subst s. rewrite byte_eqb_refl. unfold from_base32. rewrite Hp.
  assert (Lp := from_base32_loop_length _ _ Hp).
  rewrite firstn_all2 by (unfold max_len, byte in *; lia).
  replace (Nat.eqb (length p) max_len) with false
    by (symmetry; apply Nat.eqb_neq; unfold max_len, byte in *; lia).
  reflexivity.
Qed.
Lemma parse_b_key s rest p :
  existsb (fun b => byte_eqb b slash) s = false -> is_ascii s = true -> s = "b"%char :: rest ->
  52 <= length rest -> from_base32_loop rest [] = Ok p ->
  parse_keyish s = Some (Ok (KKey s (byte_of 1 :: pack_bits (firstn max_len p)))).
Proof.
  intros Hs Ha E Hl Hp. unfold parse_keyish. rewrite Hs. unfold parse_from_base32.
  rewrite Ha. cbn [negb]. subst s. rewrite byte_eqb_refl. unfold from_base32. rewrite Hp.
  assert (Lp := from_base32_loop_length _ _ Hp).
  rewrite firstn_length_le by (unfold max_len, byte in *; lia). rewrite Nat.eqb_refl. reflexivity.
Qed.
Lemma no_slash_iff s : existsb (fun b => byte_eqb b slash) s = false <-> ~ In slash s.
Proof.
  rewrite <- Bool.not_true_iff_false, existsb_exists. split.
  - intros H Hin. apply H. exists slash. rewrite byte_eqb_refl. auto.
  - intros H (x & Hx & E). apply byte_eqb_eq in E. subst. auto.
Qed.
Lemma is_ascii_iff s : is_ascii s = true <-> ascii_text s.
Proof.
  unfold is_ascii, ascii_text. rewrite forallb_forall, Forall_forall.
  split; intros H x Hx; specialize (H x Hx); [apply N.ltb_lt|apply N.ltb_lt]; assumption.
Qed.
Lemma decode_some rest : Forall in_alphabet rest -> exists p, from_base32_loop rest [] = Ok p.
Proof.
  intro H. apply (decodes_iff rest 0) in H as (r & H). unfold from_base32 in H.
  destruct (from_base32_loop rest []); [eauto|discriminate].
Qed.
Lemma alphabet_ascii_no_slash ch : in_alphabet ch -> (byte_val ch < 128)%N /\ ch <> slash.
Proof.
  unfold in_alphabet. intro H. split.
  - destruct ch as [[] [] [] [] [] [] [] []]; cbn in H |- *; try lia;
      exfalso; repeat (destruct H as [H|H]; [discriminate|]); exact H.
  - intros ->. cbn in H. repeat (destruct H as [H|H]; [discriminate|]); exact H.
Qed.
Lemma b_text_ok rest : Forall in_alphabet rest ->
  existsb (fun b => byte_eqb b slash) ("b"%char :: rest) = false /\ is_ascii ("b"%char :: rest) = true.
Proof.
  intro H. rewrite Forall_forall in H. split.
  - apply no_slash_iff. intros [E|E]; [discriminate|].
    apply H, alphabet_ascii_no_slash in E as [_ E]. congruence.
  - apply is_ascii_iff. constructor; [reflexivity|]. apply Forall_forall. intros x Hx.
    apply H, alphabet_ascii_no_slash in Hx as [Hx _]. exact Hx.
Qed.

Lemma prefix_parse rest :
  Forall in_alphabet rest -> length rest < 52 ->
  exists start end_,
    parse_keyish ("b"%char :: rest) = Some (Ok (KRange ("b"%char :: rest) start end_)) /\
    forall k : key,
      in_range start end_ (as_db_key k) <->
      prefix_of ("b"%char :: map fold_case rest) (as_user_key k).
Proof.
  intros Hal Hl. destruct (decode_some _ Hal) as [p Hp].
  destruct (b_text_ok _ Hal) as [Hs Ha].
  eexists _, _. split; [eapply parse_b_range; eauto|].
  intros [h]. assert (Lp := from_base32_loop_length _ _ Hp).
  assert (R := range_exact p (arr h)). rewrite arr_length in R. specialize (R ltac:(lia)). cbv zeta in R.
  change (as_db_key (Blake3B h)) with (byte_of 1 :: arr h). rewrite R.
  rewrite (decode_text_prefix rest p (arr h)); [|lia|apply arr_length|exact Hp].
  unfold as_user_key, prefix_of. cbn [hash_bytes]. split.
  - intros (r & ->). exists r. reflexivity.
  - intros (r & E). exists r. cbn in E. injection E as E. exact E.
Qed.

Lemma prefix_parse_inv s s' start end_ :
  parse_keyish s = Some (Ok (KRange s' start end_)) ->
  exists rest, s = "b"%char :: rest /\ Forall in_alphabet rest /\ length rest < 52.
Proof.
  unfold parse_keyish. destruct (existsb _ s) eqn:Es.
  { unfold parse_from_ref. destruct (position _ s) as [[|i]|]; cbn; discriminate. }
  unfold parse_from_base32. destruct (is_ascii s) eqn:Ea; [|discriminate]. cbn [negb].
  destruct s as [|c rest]; [discriminate|].
  destruct (byte_eqb c "b"%char) eqn:Ec; [|discriminate]. apply byte_eqb_eq in Ec. subst c.
  destruct (from_base32 rest max_len) as [p|] eqn:Ep; [|discriminate].
  destruct (Nat.eqb (length p) max_len) eqn:El; [discriminate|].
  intros _. exists rest. split; [reflexivity|]. split; [apply (decodes_iff rest max_len); eauto|].
  apply from_base32_length in Ep. apply Nat.eqb_neq in El. unfold max_len, byte in *. lia.
Qed.

(** Decision table pieces. *)
Lemma position_slash_split a b : ~ In slash a ->
  position (fun c => byte_eqb c slash) (a ++ slash :: b) = Some (length a).
Proof.
  induction a as [|x a IH]; intro H; [reflexivity|]. cbn.
  destruct (byte_eqb x slash) eqn:E.
  - apply byte_eqb_eq in E. subst. exfalso. apply H. left. reflexivity.
  - rewrite IH by (intro; apply H; right; assumption). reflexivity.
Qed.
Lemma parse_ref_split a b : ~ In slash a ->
  parse_keyish (a ++ slash :: b) =
  Some (Ok (KReflog (a ++ slash :: b) (match a with [] => None | _ => Some a end) b)).
Proof.
  intro H. unfold parse_keyish.
  replace (existsb (fun c => byte_eqb c slash) (a ++ slash :: b)) with true.
  2:{ symmetry. apply existsb_exists. exists slash. split; [|apply byte_eqb_refl].
      apply in_or_app. right. left. reflexivity. }
  unfold parse_from_ref. rewrite position_slash_split by exact H.
  assert (H1 : firstn (length a) (a ++ slash :: b) = a)
    by (rewrite firstn_app, Nat.sub_diag, firstn_all, firstn_O, app_nil_r; reflexivity).
  assert (H2 : skipn (length a + 1) (a ++ slash :: b) = b).
  { rewrite skipn_app, skipn_all2 by lia.
    replace (length a + 1 - length a) with 1 by lia. reflexivity. }
  destruct a as [|x a]; [reflexivity|].
  rewrite H1, H2. reflexivity.
Qed.
Lemma parse_keyish_total s : exists r, parse_keyish s = Some r.
Proof.
  unfold parse_keyish. destruct (existsb _ s) eqn:E; [|eauto].
  unfold parse_from_ref. destruct (position _ s) as [[|i]|] eqn:Ep; cbn; eauto.
  exfalso. apply existsb_exists in E as (x & Hx & E). rewrite position_None in Ep.
  rewrite (Ep _ Hx) in E. discriminate.
Qed.
Lemma parse_non_ascii s : ~ In slash s -> ~ ascii_text s -> parse_keyish s = Some (Err (Invalid s)).
Proof.
  intros Hs Ha. unfold parse_keyish. rewrite (proj2 (no_slash_iff s) Hs).
  unfold parse_from_base32. destruct (is_ascii s) eqn:E; [apply is_ascii_iff in E; contradiction|].
  reflexivity.
Qed.
Lemma parse_unknown_prefix c rest :
  ~ In slash (c :: rest) -> ascii_text (c :: rest) -> c <> "b"%char ->
  parse_keyish (c :: rest) = Some (Err (UnknownPrefix c)).
Proof.
  intros Hs Ha Hc. unfold parse_keyish. rewrite (proj2 (no_slash_iff _) Hs).
  unfold parse_from_base32. rewrite (proj2 (is_ascii_iff _) Ha). cbn [negb].
  destruct (byte_eqb c "b"%char) eqn:E; [apply byte_eqb_eq in E; contradiction|]. reflexivity.
Qed.
Lemma parse_bad_char rest :
  ~ In slash rest -> ascii_text rest -> ~ Forall in_alphabet rest ->
  parse_keyish ("b"%char :: rest) = Some (Err (Invalid ("b"%char :: rest))).
Proof.
  intros Hs Ha Hn. unfold parse_keyish.
  rewrite (proj2 (no_slash_iff ("b"%char :: rest))) by (intros [E|E]; [discriminate|contradiction]).
  unfold parse_from_base32.
  rewrite (proj2 (is_ascii_iff ("b"%char :: rest))) by (constructor; [reflexivity|exact Ha]).
  cbn [negb]. rewrite byte_eqb_refl.
  destruct (from_base32 rest max_len) eqn:E; [|reflexivity].
  exfalso. apply Hn. apply (decodes_iff rest max_len). eauto.
Qed.
Lemma pack_bits_length_256 p : length p = 256 -> length (pack_bits p) = 32.
Proof.
  intro H. assert (E := f_equal (@length bool) (bits_of_pack_bits p)).
  rewrite bits_of_bytes_length, app_length, repeat_length, H in E.
  change (pad_len 256) with 0 in E. lia.
Qed.
Lemma parse_full rest :
  Forall in_alphabet rest -> 52 <= length rest ->
  exists k : key,
    parse_keyish ("b"%char :: rest) = Some (Ok (KKey ("b"%char :: rest) (as_db_key k))) /\
    parse_keyish ("b"%char :: firstn 52 rest) =
      Some (Ok (KKey ("b"%char :: firstn 52 rest) (as_db_key k))) /\
    firstn 52 (as_user_key k) = "b"%char :: map fold_case (firstn 51 rest).
Proof.
  intros Hal Hl. destruct (decode_some _ Hal) as [p Hp].
  destruct (b_text_ok _ Hal) as [Hs Ha].
  assert (Lp := from_base32_loop_length _ _ Hp).
  assert (Hal52 : Forall in_alphabet (firstn 52 rest)).
  { rewrite <- (firstn_skipn 52 rest) in Hal. apply Forall_app in Hal. apply Hal. }
  assert (Hal51 : Forall in_alphabet (firstn 51 rest)).
  { rewrite <- (firstn_skipn 51 rest) in Hal. apply Forall_app in Hal. apply Hal. }
  assert (L256 : length (firstn max_len p) = 256) by (rewrite firstn_length_le; unfold max_len, byte in *; lia).
  assert (Lk := pack_bits_length_256 _ L256).
  destruct (arr32_of (pack_bits (firstn max_len p))) as [h|] eqn:Eh.
  2:{ apply arr32_of_None in Eh. contradiction. }
  apply arr32_of_Some in Eh.
  exists (Blake3B h).
  change (as_db_key (Blake3B h)) with (byte_of 1 :: arr h). rewrite Eh.
  (* decoding of the first m characters is the prefix of the decoding *)
  assert (Dpre : forall m q, from_base32_loop (firstn m rest) [] = Ok q -> q = firstn (length q) p).
  { intros m q Hq. rewrite <- (firstn_skipn m rest), from_base32_loop_app, Hq in Hp.
    destruct (from_base32_loop (skipn m rest) []) as [q'|]; [|discriminate].
    assert (Ep : q ++ q' = p) by congruence. rewrite <- Ep, firstn_app, Nat.sub_diag, firstn_all, firstn_O, app_nil_r.
    reflexivity. }
  split; [eapply parse_b_key; eauto|]. split.
  - destruct (decode_some _ Hal52) as [p52 Hp52]. destruct (b_text_ok _ Hal52) as [Hs52 Ha52].
    rewrite (parse_b_key _ _ p52 Hs52 Ha52 eq_refl); [|rewrite firstn_length_le; lia|exact Hp52].
    assert (L52 := from_base32_loop_length _ _ Hp52). rewrite firstn_length_le in L52 by lia.
    rewrite (Dpre _ _ Hp52), firstn_firstn, L52. reflexivity.
  - destruct (decode_some _ Hal51) as [p51 Hp51].
    assert (L51 := from_base32_loop_length _ _ Hp51). rewrite firstn_length_le in L51 by lia.
    assert (Hpre : prefix_of (map fold_case (firstn 51 rest)) (to_base32 (arr h))).
    { apply (decode_text_prefix (firstn 51 rest) p51); [rewrite firstn_length_le; lia|apply arr_length|exact Hp51|].
      rewrite Eh, bits_of_pack_bits, L256. change (pad_len 256) with 0. rewrite app_nil_r, firstn_firstn.
      rewrite Nat.min_l by (unfold max_len, byte in *; lia). apply (Dpre _ _ Hp51). }
    apply prefix_of_firstn in Hpre as [_ Hpre]. rewrite map_length, firstn_length_le in Hpre by lia.
    change (as_user_key (Blake3B h)) with ("b"%char :: to_base32 (arr h)).
    rewrite firstn_cons. f_equal. exact Hpre.
Qed.

Lemma from_db_key_unknown id hb : id <> byte_of 1 -> from_db_key (id :: hb) = Err (UnknownHashId id).
Proof.
  intro H. cbn. destruct (byte_val id =? 1)%N eqn:E; [|reflexivity]. apply byte_val_1 in E. contradiction.
Qed.
Lemma from_db_key_badlen hb :
  length hb <> 32 -> from_db_key (byte_of 1 :: hb) = Err (IncorrectLength (length hb)).
Proof. intro H. apply arr32_of_None in H. cbn. rewrite H. reflexivity. Qed.
Lemma as_user_key_shape k : length (as_user_key k) = 53 /\ ascii_text (as_user_key k).
Proof. split; [apply as_user_key_length|]. apply is_ascii_iff, as_user_key_ascii. Qed.
