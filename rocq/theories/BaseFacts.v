(** Facts about the shared vocabulary. *)
From Verif Require Import Base.

Lemma byte_eqb_eq a b : byte_eqb a b = true <-> a = b.
Proof. apply Ascii.eqb_eq. Qed.
Lemma byte_eqb_refl a : byte_eqb a a = true.
Proof. apply byte_eqb_eq; reflexivity. Qed.

Lemma bytes_eqb_eq a : forall b, bytes_eqb a b = true <-> a = b.
Proof.
  induction a as [|x a IH]; intros [|y b]; cbn; split; intro H; try congruence; try reflexivity.
  - apply andb_true_iff in H as [H1 H2]. apply byte_eqb_eq in H1. apply IH in H2. congruence.
  - injection H as -> ->. rewrite byte_eqb_refl. cbn. apply IH; reflexivity.
Qed.
Lemma bytes_eqb_refl a : bytes_eqb a a = true.
Proof. apply bytes_eqb_eq; reflexivity. Qed.
Lemma bytes_eqb_neq a b : bytes_eqb a b = false <-> a <> b.
Proof.
  split; intro H.
  - intros ->. rewrite bytes_eqb_refl in H. discriminate.
  - destruct (bytes_eqb a b) eqn:E; [|reflexivity]. apply bytes_eqb_eq in E. contradiction.
Qed.
Lemma bytes_eqb_sym a b : bytes_eqb a b = bytes_eqb b a.
Proof.
  destruct (bytes_eqb b a) eqn:E.
  - apply bytes_eqb_eq in E. subst. apply bytes_eqb_refl.
  - apply bytes_eqb_neq. apply bytes_eqb_neq in E. congruence.
Qed.
Lemma bytes_eq_dec (a b : bytes) : {a = b} + {a <> b}.
Proof. apply list_eq_dec, ascii_dec. Qed.

Lemma byte_val_inj a b : byte_val a = byte_val b -> a = b.
Proof.
  unfold byte_val. intro H. rewrite <- (ascii_N_embedding a), <- (ascii_N_embedding b). congruence.
Qed.
Lemma byte_val_bound a : (byte_val a < 256)%N.
Proof. unfold byte_val. apply N_ascii_bounded. Qed.
Lemma byte_val_of n : byte_val (byte_of n) = (n mod 256)%N.
Proof.
  unfold byte_val, byte_of. apply N_ascii_embedding. apply N.mod_lt. lia.
Qed.
Lemma byte_of_val b : byte_of (byte_val b) = b.
Proof.
  apply byte_val_inj. rewrite byte_val_of. apply N.mod_small, byte_val_bound.
Qed.

Lemma arr32_eq a b : arr a = arr b -> a = b.
Proof.
  destruct a as [a Ha], b as [b Hb]; cbn. intros ->. f_equal. apply Eqdep_dec.UIP_dec, Bool.bool_dec.
Qed.
Lemma arr_length a : length (arr a) = 32.
Proof. destruct a as [a H]; cbn. apply Nat.eqb_eq, H. Qed.
Lemma arr32_of_Some l a : arr32_of l = Some a <-> arr a = l.
Proof.
  unfold arr32_of. destruct (Bool.bool_dec _ _) as [H|H].
  - split; intro E.
    + injection E as <-. reflexivity.
    + f_equal. apply arr32_eq. cbn. congruence.
  - split; intro E; [discriminate|]. exfalso. apply H. rewrite <- E. apply arr_len.
Qed.
Lemma arr32_of_arr a : arr32_of (arr a) = Some a.
Proof. apply arr32_of_Some; reflexivity. Qed.
Lemma arr32_of_None l : arr32_of l = None <-> length l <> 32.
Proof.
  unfold arr32_of. destruct (Bool.bool_dec _ _) as [H|H].
  - split; [discriminate|]. intro E. pose proof (proj1 (Nat.eqb_eq _ _) H). contradiction.
  - split; [|reflexivity]. intros _ E. apply H. apply Nat.eqb_eq, E.
Qed.

(** ** Lexicographic comparison *)
Section Lex.
  Context {A : Type} (cmp : A -> A -> comparison).
  Hypothesis cmp_eq : forall x y, cmp x y = Eq <-> x = y.
  Hypothesis cmp_antisym : forall x y, cmp y x = CompOpp (cmp x y).
  Hypothesis cmp_trans : forall x y z, cmp x y = Lt -> cmp y z = Lt -> cmp x z = Lt.

  Lemma lex_cmp_refl a : lex_cmp cmp a a = Eq.
  Proof.
    induction a as [|x a IH]; cbn; [reflexivity|].
    rewrite (proj2 (cmp_eq x x) eq_refl). exact IH.
  Qed.
  Lemma lex_cmp_eq a : forall b, lex_cmp cmp a b = Eq <-> a = b.
  Proof.
    induction a as [|x a IH]; intros [|y b]; cbn; split; intro H; try congruence; try reflexivity.
    - destruct (cmp x y) eqn:E; try discriminate. apply cmp_eq in E. apply IH in H. congruence.
    - injection H as -> ->. rewrite (proj2 (cmp_eq y y) eq_refl). apply IH. reflexivity.
  Qed.
  Lemma lex_cmp_antisym a : forall b, lex_cmp cmp b a = CompOpp (lex_cmp cmp a b).
  Proof.
    induction a as [|x a IH]; intros [|y b]; cbn; try reflexivity.
    rewrite cmp_antisym. destruct (cmp x y); cbn; auto.
  Qed.
  Lemma lex_cmp_trans a : forall b c,
    lex_cmp cmp a b = Lt -> lex_cmp cmp b c = Lt -> lex_cmp cmp a c = Lt.
  Proof.
    induction a as [|x a IH]; intros [|y b] [|z c]; cbn; try congruence; intros H1 H2.
    destruct (cmp x y) eqn:E1; try discriminate.
    - apply cmp_eq in E1. subst y. destruct (cmp x z) eqn:E2; try congruence. eauto.
    - destruct (cmp y z) eqn:E2; try discriminate.
      + apply cmp_eq in E2. subst z. rewrite E1. reflexivity.
      + rewrite (cmp_trans _ _ _ E1 E2). reflexivity.
  Qed.
  (** Comparison of equal-length blocks decides; longer tails only matter when the
      blocks agree. *)
  Lemma lex_cmp_app a : forall b a' b',
    length a = length b ->
    lex_cmp cmp (a ++ a') (b ++ b') =
    match lex_cmp cmp a b with Eq => lex_cmp cmp a' b' | c => c end.
  Proof.
    induction a as [|x a IH]; intros [|y b] a' b' H; cbn in *; try discriminate; [reflexivity|].
    destruct (cmp x y); auto.
  Qed.
End Lex.

Lemma byte_cmp_eq x y : byte_cmp x y = Eq <-> x = y.
Proof.
  unfold byte_cmp. rewrite N.compare_eq_iff. split; [apply byte_val_inj|congruence].
Qed.
Lemma byte_cmp_antisym x y : byte_cmp y x = CompOpp (byte_cmp x y).
Proof. unfold byte_cmp. apply N.compare_antisym. Qed.
Lemma byte_cmp_trans x y z : byte_cmp x y = Lt -> byte_cmp y z = Lt -> byte_cmp x z = Lt.
Proof. unfold byte_cmp. rewrite !N.compare_lt_iff. lia. Qed.

Lemma bytes_cmp_eq a b : bytes_cmp a b = Eq <-> a = b.
Proof. apply lex_cmp_eq, byte_cmp_eq. Qed.
Lemma bytes_cmp_refl a : bytes_cmp a a = Eq.
Proof. apply bytes_cmp_eq; reflexivity. Qed.
Lemma bytes_cmp_antisym a b : bytes_cmp b a = CompOpp (bytes_cmp a b).
Proof. apply lex_cmp_antisym, byte_cmp_antisym. Qed.
Lemma bytes_cmp_trans a b c : bytes_cmp a b = Lt -> bytes_cmp b c = Lt -> bytes_cmp a c = Lt.
Proof. apply lex_cmp_trans; [apply byte_cmp_eq|apply byte_cmp_trans]. Qed.

(** ** Bits *)
Lemma bits_of_byte_length b : length (bits_of_byte b) = 8.
Proof. destruct b; reflexivity. Qed.
Lemma bits_of_bytes_length l : length (bits_of_bytes l) = 8 * length l.
Proof.
  induction l as [|b l IH]; [reflexivity|].
  change (bits_of_bytes (b :: l)) with (bits_of_byte b ++ bits_of_bytes l).
  rewrite app_length, bits_of_byte_length, IH. cbn [length]. lia.
Qed.
Lemma bits_of_bytes_cons b l : bits_of_bytes (b :: l) = bits_of_byte b ++ bits_of_bytes l.
Proof. reflexivity. Qed.
Lemma bits_of_bytes_app a b : bits_of_bytes (a ++ b) = bits_of_bytes a ++ bits_of_bytes b.
Proof. apply flat_map_app. Qed.

Lemma pack_bits_of_bytes l : pack_bits (bits_of_bytes l) = l.
Proof.
  induction l as [|b l IH]; [reflexivity|].
  rewrite bits_of_bytes_cons. destruct b; cbn [bits_of_byte app pack_bits]. rewrite IH. reflexivity.
Qed.

Lemma bits_of_byte_inj a b : bits_of_byte a = bits_of_byte b -> a = b.
Proof. destruct a, b; cbn. intro H. injection H. intros; subst; reflexivity. Qed.
Lemma bits_of_bytes_inj a b : bits_of_bytes a = bits_of_bytes b -> a = b.
Proof. intro H. rewrite <- (pack_bits_of_bytes a), <- (pack_bits_of_bytes b), H. reflexivity. Qed.

(** Number of bytes [pack_bits] produces and the padding it adds. *)
Definition pad_len (n : nat) : nat := (8 - n mod 8) mod 8.

Lemma strong_len_ind {A} (P : list A -> Prop) :
  (forall l, (forall m, length m < length l -> P m) -> P l) -> forall l, P l.
Proof.
  intros H l. remember (length l) as n eqn:E. revert l E.
  induction n as [n IH] using lt_wf_ind. intros l ->. apply H. intros m Hm. eapply IH; eauto.
Qed.

Lemma bits_of_pack_bits l :
  bits_of_bytes (pack_bits l) = l ++ repeat false (pad_len (length l)).
Proof.
  induction l as [l IH] using strong_len_ind.
  do 8 (destruct l as [|? l]; [reflexivity|]).
  cbn [pack_bits]. rewrite bits_of_bytes_cons, IH by (cbn; lia).
  cbn [bits_of_byte app length].
  assert (E : pad_len (S (S (S (S (S (S (S (S (length l))))))))) = pad_len (length l)).
  { unfold pad_len. f_equal. f_equal.
    replace (S (S (S (S (S (S (S (S (length l))))))))) with (length l + 1 * 8) by lia.
    apply Nat.mod_add. lia. }
  rewrite E. reflexivity.
Qed.

(** Numeric value of a bit string, most significant bit first. *)
Fixpoint bval_acc (acc : N) (l : list bool) : N :=
  match l with
  | [] => acc
  | b :: r => bval_acc (2 * acc + N.b2n b) r
  end.
Definition bval (l : list bool) : N := bval_acc 0 l.

Lemma bval_acc_spec l : forall acc, bval_acc acc l = (acc * 2 ^ N.of_nat (length l) + bval l)%N.
Proof.
  unfold bval. induction l as [|b l IH]; intro acc.
  - cbn. lia.
  - cbn [bval_acc]. rewrite IH, (IH (2 * 0 + N.b2n b)%N).
    cbn [length]. rewrite Nat2N.inj_succ, N.pow_succ_r'. nia.
Qed.
Lemma bval_cons b l : bval (b :: l) = (N.b2n b * 2 ^ N.of_nat (length l) + bval l)%N.
Proof. unfold bval at 1. cbn [bval_acc]. rewrite bval_acc_spec. destruct b; cbn [N.b2n]; lia. Qed.
Lemma bval_app a b : bval (a ++ b) = (bval a * 2 ^ N.of_nat (length b) + bval b)%N.
Proof.
  induction a as [|x a IH]; cbn [app]; [cbn; lia|].
  rewrite !bval_cons, IH, app_length, Nat2N.inj_add, N.pow_add_r. nia.
Qed.
Lemma bval_bound l : (bval l < 2 ^ N.of_nat (length l))%N.
Proof.
  induction l as [|b l IH]; [cbn; lia|].
  rewrite bval_cons. cbn [length]. rewrite Nat2N.inj_succ, N.pow_succ_r'.
  destruct b; cbn [N.b2n]; nia.
Qed.
Lemma bval_repeat_false n : bval (repeat false n) = 0%N.
Proof.
  induction n as [|n IH]; [reflexivity|]. cbn [repeat]. rewrite bval_cons, IH. reflexivity.
Qed.

Definition bool_cmp (a b : bool) : comparison :=
  match a, b with
  | false, true => Lt | true, false => Gt | _, _ => Eq
  end.
Definition bits_cmp := lex_cmp bool_cmp.
Lemma bool_cmp_eq x y : bool_cmp x y = Eq <-> x = y.
Proof. destruct x, y; cbn; split; congruence. Qed.
Lemma bool_cmp_antisym x y : bool_cmp y x = CompOpp (bool_cmp x y).
Proof. destruct x, y; reflexivity. Qed.
Lemma bits_cmp_eq a b : bits_cmp a b = Eq <-> a = b.
Proof. apply lex_cmp_eq, bool_cmp_eq. Qed.

(** On equal lengths the lexicographic order of bits is numeric order. *)
Lemma bits_cmp_bval a : forall b, length a = length b ->
  bits_cmp a b = N.compare (bval a) (bval b).
Proof.
  unfold bits_cmp. induction a as [|x a IH]; intros [|y b] H; cbn [length] in *; try discriminate.
  - reflexivity.
  - injection H as H. cbn [lex_cmp]. rewrite !bval_cons.
    assert (Ha := bval_bound a). assert (Hb := bval_bound b). rewrite H in Ha |- *.
    destruct x, y; cbn [bool_cmp N.b2n]; rewrite ?(IH b H).
    + rewrite !N.mul_1_l. destruct (N.compare_spec (bval a) (bval b)); symmetry;
      [apply N.compare_eq_iff | apply N.compare_lt_iff | apply N.compare_gt_iff]; lia.
    + symmetry. apply N.compare_gt_iff. lia.
    + symmetry. apply N.compare_lt_iff. lia.
    + cbn. reflexivity.
Qed.
Lemma bval_inj a b : length a = length b -> bval a = bval b -> a = b.
Proof.
  intros H E. apply bits_cmp_eq. rewrite bits_cmp_bval by exact H. apply N.compare_eq_iff, E.
Qed.

Lemma byte_val_bval b : byte_val b = bval (bits_of_byte b).
Proof. destruct b as [[] [] [] [] [] [] [] []]; reflexivity. Qed.

(** Byte order is bit order. *)
Lemma bytes_cmp_bits a : forall b, bytes_cmp a b = bits_cmp (bits_of_bytes a) (bits_of_bytes b).
Proof.
  unfold bytes_cmp, bits_cmp. induction a as [|x a IH]; intros [|y b].
  - reflexivity.
  - destruct y; reflexivity.
  - destruct x; reflexivity.
  - rewrite !bits_of_bytes_cons, lex_cmp_app by (rewrite !bits_of_byte_length; reflexivity).
    cbn [lex_cmp]. unfold byte_cmp at 1. rewrite !byte_val_bval.
    fold bits_cmp. rewrite <- bits_cmp_bval by (rewrite !bits_of_byte_length; reflexivity).
    destruct (bits_cmp (bits_of_byte x) (bits_of_byte y)); auto.
Qed.

Lemma position_Some {A} (f : A -> bool) l i :
  position f l = Some i ->
  exists x, nth_error l i = Some x /\ f x = true /\ forall j y, j < i -> nth_error l j = Some y -> f y = false.
Proof.
  revert i. induction l as [|a l IH]; intros i H; cbn in H; [discriminate|].
  destruct (f a) eqn:Fa.
  - injection H as <-. exists a. repeat split; auto. intros; lia.
  - destruct (position f l) as [j|]; [|discriminate]. injection H as <-.
    destruct (IH j eq_refl) as (x & H1 & H2 & H3). exists x. repeat split; auto.
    intros [|k] y Hk Hy; cbn in Hy; [congruence|]. eapply H3; eauto. lia.
Qed.
Lemma position_None {A} (f : A -> bool) l : position f l = None <-> forall x, In x l -> f x = false.
Proof.
  induction l as [|a l IH]; cbn; [split; [intros _ x []|auto]|].
  destruct (f a) eqn:Fa.
  - split; [discriminate|]. intro H. rewrite (H a (or_introl eq_refl)) in Fa. discriminate.
  - destruct (position f l); cbn; split; try discriminate.
    + intro H. exfalso. assert (Some n = None); [|discriminate]. apply IH. auto.
    + intros _ x [<-|Hx]; auto. apply IH; auto.
    + reflexivity.
Qed.

Lemma firstn_skipn_nth_error {A} (l : list A) i x :
  nth_error l i = Some x -> l = firstn i l ++ x :: skipn (S i) l.
Proof.
  revert i. induction l as [|a l IH]; intros [|i] H; cbn in *; try discriminate.
  - injection H as ->. reflexivity.
  - f_equal. apply IH, H.
Qed.
