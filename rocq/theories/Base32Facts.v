(** Facts about src/base32.rs. *)
From Verif Require Import Base BaseFacts Base32.

Lemma pop_u5_fst x : fst (pop_u5_from_bitvec x) = bval (firstn 5 (x ++ repeat false 5)).
Proof.
  unfold pop_u5_from_bitvec; cbn [fst].
  do 5 (destruct x as [|[] x]; [reflexivity| |]); try reflexivity.
Qed.
Lemma pop_u5_bound x : (fst (pop_u5_from_bitvec x) < 32)%N.
Proof.
  rewrite pop_u5_fst.
  assert (H := bval_bound (firstn 5 (x ++ repeat false 5))).
  rewrite firstn_length_le in H by (rewrite app_length, repeat_length; lia). exact H.
Qed.

(** Encoding one group and decoding it. *)
Lemma table_idx : forall v, v < 32 ->
  exists ch, nth_error TABLE v = Some ch /\ nth v TABLE zero = ch /\
    to_lower ch = ch /\ position (fun t => byte_eqb t ch) TABLE = Some v.
Proof.
  intros v Hv.
  do 32 (destruct v as [|v]; [eexists; repeat split; vm_compute; reflexivity|]). lia.
Qed.

Lemma bits_of_idx_bval g : length g = 5 -> bits_of_idx (bval g) = g.
Proof.
  do 5 (destruct g as [|? g]; [discriminate|]). destruct g; [|discriminate].
  intros _. repeat match goal with b : bool |- _ => destruct b end; reflexivity.
Qed.

Definition from_one (ch : byte) : option (list bool) :=
  option_map (fun i => bits_of_idx (N.of_nat i))
    (position (fun t => byte_eqb t (to_lower ch)) TABLE).

Lemma from_base32_loop_acc x : forall res,
  from_base32_loop x res =
  match from_base32_loop x [] with Ok r => Ok (res ++ r) | Err e => Err e end.
Proof.
  induction x as [|ch x IH]; intro res; cbn [from_base32_loop].
  - rewrite app_nil_r. reflexivity.
  - destruct (position _ TABLE) as [i|]; [|reflexivity].
    rewrite IH, (IH ([] ++ _)). destruct (from_base32_loop x []); [|reflexivity].
    rewrite app_assoc. reflexivity.
Qed.
Lemma from_base32_loop_cons ch x :
  from_base32_loop (ch :: x) [] =
  match position (fun t => byte_eqb t (to_lower ch)) TABLE with
  | None => Err (UnknownByte (to_lower ch))
  | Some i => match from_base32_loop x [] with
              | Ok r => Ok (bits_of_idx (N.of_nat i) ++ r)
              | Err e => Err e
              end
  end.
Proof.
  cbn [from_base32_loop]. destruct (position _ TABLE); [|reflexivity].
  rewrite from_base32_loop_acc. reflexivity.
Qed.
Lemma from_base32_loop_app a : forall b,
  from_base32_loop (a ++ b) [] =
  match from_base32_loop a [] with
  | Ok r => match from_base32_loop b [] with Ok r' => Ok (r ++ r') | Err e => Err e end
  | Err e => Err e
  end.
Proof.
  induction a as [|ch a IH]; intro b; cbn [app].
  - cbn. destruct (from_base32_loop b []); reflexivity.
  - rewrite !from_base32_loop_cons, IH. destruct (position _ TABLE); [|reflexivity].
    destruct (from_base32_loop a []); [|reflexivity].
    destruct (from_base32_loop b []); [|reflexivity]. rewrite app_assoc. reflexivity.
Qed.

Definition pad5 (n : nat) : nat := (5 - n mod 5) mod 5.

Lemma to_base32_loop_step f b x :
  to_base32_loop (S f) (b :: x) =
  nth (N.to_nat (bval (firstn 5 ((b :: x) ++ repeat false 5)))) TABLE zero
    :: to_base32_loop f (skipn 5 (b :: x)).
Proof.
  cbn [to_base32_loop]. destruct (pop_u5_from_bitvec (b :: x)) as [v rest] eqn:E.
  assert (Hv : v = fst (pop_u5_from_bitvec (b :: x))) by (rewrite E; reflexivity).
  assert (Hr : rest = snd (pop_u5_from_bitvec (b :: x))) by (rewrite E; reflexivity).
  rewrite pop_u5_fst in Hv. subst. reflexivity.
Qed.

Lemma decode_loop scratch : forall f, length scratch <= f ->
  from_base32_loop (to_base32_loop f scratch) [] =
  Ok (scratch ++ repeat false (pad5 (length scratch))).
Proof.
  induction scratch as [scratch IH] using strong_len_ind. intros f Hf.
  destruct scratch as [|b x].
  { destruct f; reflexivity. }
  destruct f as [|f]; [cbn in Hf; lia|].
  rewrite to_base32_loop_step, from_base32_loop_cons.
  set (g := firstn 5 ((b :: x) ++ repeat false 5)).
  assert (Hg : length g = 5).
  { unfold g. rewrite firstn_length_le; [reflexivity|]. rewrite app_length, repeat_length. lia. }
  assert (Hb : N.to_nat (bval g) < 32).
  { assert (H := bval_bound g). rewrite Hg in H. change (2 ^ N.of_nat 5)%N with 32%N in H. lia. }
  destruct (table_idx _ Hb) as (ch & _ & -> & -> & ->).
  rewrite IH by (cbn in Hf |- *; destruct x as [|? [|? [|? [|? ?]]]]; cbn in *; lia).
  rewrite N2Nat.id, bits_of_idx_bval by exact Hg.
  unfold g.
  destruct x as [|b1 [|b2 [|b3 [|b4 x]]]]; try reflexivity.
  cbn [skipn firstn app repeat length]. f_equal.
  replace (S (S (S (S (S (length x)))))) with (length x + 1 * 5) by lia.
  unfold pad5. rewrite Nat.mod_add by lia. reflexivity.
Qed.

Lemma decode_to_base32 x :
  from_base32_loop (to_base32 x) [] =
  Ok (bits_of_bytes x ++ repeat false (pad5 (8 * length x))).
Proof.
  unfold to_base32. rewrite decode_loop by reflexivity. rewrite bits_of_bytes_length. reflexivity.
Qed.

Lemma base32_roundtrip x : from_base32 (to_base32 x) (8 * length x) = Ok (bits_of_bytes x).
Proof.
  unfold from_base32. rewrite decode_to_base32. f_equal.
  rewrite <- (bits_of_bytes_length x), firstn_app, Nat.sub_diag, firstn_all, firstn_O, app_nil_r.
  reflexivity.
Qed.

(** Truncation: decoding fewer than the encoded bits (or keeping the pad bits). *)
Lemma base32_decode_prefix x n :
  from_base32 (to_base32 x) n = Ok (firstn n (bits_of_bytes x ++ repeat false (pad5 (8 * length x)))).
Proof. unfold from_base32. rewrite decode_to_base32. reflexivity. Qed.

Lemma to_base32_loop_length f : forall scratch, length scratch <= f ->
  length (to_base32_loop f scratch) = (length scratch + 4) / 5.
Proof.
  induction f as [|f IH]; intros scratch Hf.
  - destruct scratch; [reflexivity|cbn in Hf; lia].
  - destruct scratch as [|b x]; [reflexivity|].
    rewrite to_base32_loop_step. cbn [length].
    rewrite IH by (rewrite skipn_length; cbn in Hf |- *; lia).
    rewrite skipn_length. cbn [length].
    destruct (le_lt_dec (length x) 3) as [H|H].
    + replace (S (length x) - 5 + 4) with 4 by lia.
      destruct x as [|? [|? [|? [|? x]]]]; cbn [length] in *; try lia; reflexivity.
    + replace (S (length x) + 4) with ((S (length x) - 5 + 4) + 1 * 5) by lia.
      rewrite Nat.div_add by lia. lia.
Qed.
Lemma to_base32_length x : length (to_base32 x) = (8 * length x + 4) / 5.
Proof.
  unfold to_base32. rewrite to_base32_loop_length by reflexivity. rewrite bits_of_bytes_length. reflexivity.
Qed.

Lemma to_base32_loop_in_table f : forall scratch, Forall (fun ch => In ch TABLE) (to_base32_loop f scratch).
Proof.
  induction f as [|f IH]; intro scratch; [constructor|].
  destruct scratch as [|b x]; [constructor|].
  rewrite to_base32_loop_step. constructor; [|apply IH].
  apply nth_In. change (length TABLE) with 32.
  set (g := firstn 5 ((b :: x) ++ repeat false 5)).
  assert (Hg : length g = 5).
  { unfold g. rewrite firstn_length_le; [reflexivity|]. rewrite app_length, repeat_length. lia. }
  assert (H := bval_bound g). rewrite Hg in H. change (2 ^ N.of_nat 5)%N with 32%N in H. lia.
Qed.
Lemma to_base32_in_table x : Forall (fun ch => In ch TABLE) (to_base32 x).
Proof. apply to_base32_loop_in_table. Qed.

(** The [i]-th character encodes bits [5i..5i+4]. *)
Lemma to_base32_loop_nth f : forall scratch i, length scratch <= f -> i < (length scratch + 4) / 5 ->
  nth i (to_base32_loop f scratch) zero =
  nth (N.to_nat (bval (firstn 5 (skipn (5 * i) scratch ++ repeat false 5)))) TABLE zero.
Proof.
  induction f as [|f IH]; intros scratch i Hf Hi.
  - destruct scratch; [cbn in Hi; lia|cbn in Hf; lia].
  - destruct scratch as [|b x]; [cbn in Hi; lia|].
    rewrite to_base32_loop_step. destruct i as [|i]; [reflexivity|].
    cbn [nth].
    assert (Hlen : (length (skipn 5 (b :: x)) + 4) / 5 = (length (b :: x) + 4) / 5 - 1).
    { rewrite skipn_length. cbn [length] in *.
      destruct (le_lt_dec (length x) 3) as [H|H].
      - destruct x as [|? [|? [|? [|? x]]]]; cbn [length] in *; try lia; reflexivity.
      - replace (S (length x) + 4) with ((S (length x) - 5 + 4) + 1 * 5) by lia.
        rewrite Nat.div_add by lia. lia. }
    rewrite IH; [|rewrite skipn_length; cbn in Hf |- *; lia|lia].
    replace (5 * S i) with (5 + 5 * i) by lia.
    assert (Hs : forall (l : list bool) m n, skipn n (skipn m l) = skipn (m + n) l).
    { intros l m. revert l. induction m as [|m IHm]; intros l n; [reflexivity|].
      destruct l as [|c l]; cbn; [destruct n; reflexivity|]. apply IHm. }
    rewrite Hs. reflexivity.
Qed.

(** Which strings decode. *)
Lemma position_table_None ch : position (fun t => byte_eqb t ch) TABLE = None <-> ~ In ch TABLE.
Proof.
  rewrite position_None. split.
  - intros H Hin. specialize (H _ Hin). rewrite byte_eqb_refl in H. discriminate.
  - intros H x Hx. destruct (byte_eqb x ch) eqn:E; [|reflexivity].
    apply byte_eqb_eq in E. subst. contradiction.
Qed.

Lemma from_base32_loop_ok_iff x :
  (exists r, from_base32_loop x [] = Ok r) <-> Forall (fun ch => In (to_lower ch) TABLE) x.
Proof.
  induction x as [|ch x IH].
  - split; [constructor|]. intros _. exists []. reflexivity.
  - rewrite from_base32_loop_cons. split.
    + intros (r & H). destruct (position _ TABLE) as [i|] eqn:E; [|discriminate].
      destruct (from_base32_loop x []) as [r'|] eqn:E2; [|discriminate].
      constructor.
      * destruct (In_dec ascii_dec (to_lower ch) TABLE) as [Hi|Hi]; [exact Hi|].
        apply position_table_None in Hi. congruence.
      * apply IH. exists r'. reflexivity.
    + intro H. apply Forall_cons_iff in H as [Hc Hx]. apply IH in Hx as (r & ->).
      destruct (position _ TABLE) as [i|] eqn:E.
      * eexists; reflexivity.
      * apply position_table_None in E. contradiction.
Qed.

Lemma from_base32_loop_length x r : from_base32_loop x [] = Ok r -> length r = 5 * length x.
Proof.
  revert r; induction x as [|c x IHx]; intros r E2.
  - cbn in E2. injection E2 as <-; reflexivity.
  - rewrite from_base32_loop_cons in E2.
    destruct (position _ TABLE) as [i|]; [|discriminate].
    destruct (from_base32_loop x []) as [r0|]; [|discriminate].
    assert (E : bits_of_idx (N.of_nat i) ++ r0 = r) by congruence. subst r.
    rewrite app_length, (IHx r0 eq_refl). cbn [length bits_of_idx]. lia.
Qed.

Lemma from_base32_ok_iff x n :
  (exists r, from_base32 x n = Ok r) <-> Forall (fun ch => In (to_lower ch) TABLE) x.
Proof.
  rewrite <- from_base32_loop_ok_iff. unfold from_base32. split.
  - intros (r & H). destruct (from_base32_loop x []) as [r0|] eqn:E; [|discriminate].
    exists r0. reflexivity.
  - intros (r & ->). eexists; reflexivity.
Qed.
Lemma from_base32_length x n r : from_base32 x n = Ok r -> length r = Nat.min n (5 * length x).
Proof.
  unfold from_base32. destruct (from_base32_loop x []) as [r0|] eqn:E; [|discriminate].
  intro H. injection H as <-. rewrite firstn_length, (from_base32_loop_length _ _ E). reflexivity.
Qed.

Lemma to_lower_idem ch : to_lower (to_lower ch) = to_lower ch.
Proof.
  destruct ch as [[] [] [] [] [] [] [] []]; reflexivity.
Qed.
Lemma from_base32_loop_lower x : from_base32_loop (map to_lower x) [] = from_base32_loop x [].
Proof.
  induction x as [|ch x IH]; [reflexivity|].
  cbn [map]. rewrite !from_base32_loop_cons, IH, to_lower_idem. reflexivity.
Qed.

(** Decoding determines the (case-folded) text. *)
Lemma position_table_inj a b i :
  position (fun t => byte_eqb t a) TABLE = Some i ->
  position (fun t => byte_eqb t b) TABLE = Some i -> a = b.
Proof.
  intros Ha Hb. apply position_Some in Ha as (x & Hx & Ex & _), Hb as (y & Hy & Ey & _).
  apply byte_eqb_eq in Ex, Ey. congruence.
Qed.
Lemma position_table_bound a i : position (fun t => byte_eqb t a) TABLE = Some i -> i < 32.
Proof.
  intro H. apply position_Some in H as (x & Hx & _). change 32 with (length TABLE).
  apply nth_error_Some. congruence.
Qed.
Lemma bits_of_idx_inj i j : i < 32 -> j < 32 ->
  bits_of_idx (N.of_nat i) = bits_of_idx (N.of_nat j) -> i = j.
Proof.
  intros Hi Hj H.
  assert (E : forall k, k < 32 -> bval (bits_of_idx (N.of_nat k)) = N.of_nat k).
  { intros k Hk. do 32 (destruct k as [|k]; [reflexivity|]). lia. }
  apply Nat2N.inj. rewrite <- (E i Hi), <- (E j Hj), H. reflexivity.
Qed.
Lemma from_base32_loop_inj x : forall y r,
  from_base32_loop x [] = Ok r -> from_base32_loop y [] = Ok r -> map to_lower x = map to_lower y.
Proof.
  induction x as [|a x IH]; intros y r Hx Hy.
  - apply from_base32_loop_length in Hy. injection Hx as <-. destruct y; [reflexivity|cbn in Hy; lia].
  - destruct y as [|b y].
    { apply from_base32_loop_length in Hx. injection Hy as <-. cbn in Hx; lia. }
    rewrite from_base32_loop_cons in Hx, Hy.
    destruct (position _ TABLE) as [i|] eqn:Ei in Hx; [|discriminate].
    destruct (position _ TABLE) as [j|] eqn:Ej in Hy; [|discriminate].
    destruct (from_base32_loop x []) as [rx|] eqn:Ex; [|discriminate].
    destruct (from_base32_loop y []) as [ry|] eqn:Ey; [|discriminate].
    assert (Hr : bits_of_idx (N.of_nat i) ++ rx = r) by congruence. subst r. clear Hx.
    assert (Hy' : bits_of_idx (N.of_nat j) ++ ry = bits_of_idx (N.of_nat i) ++ rx) by congruence.
    clear Hy. rename Hy' into Hy.
    assert (Hl : length (bits_of_idx (N.of_nat j)) = length (bits_of_idx (N.of_nat i))) by reflexivity.
    assert (E1 : bits_of_idx (N.of_nat j) = bits_of_idx (N.of_nat i) /\ ry = rx).
    { clear - Hy Hl. revert Hy. generalize (bits_of_idx (N.of_nat j)) (bits_of_idx (N.of_nat i)) Hl.
      induction l as [|u l IHl]; intros [|v m] Hlm E; cbn in *; try discriminate; [auto|].
      injection E as -> E. injection Hlm as Hlm. destruct (IHl m Hlm E) as [-> ->]. auto. }
    destruct E1 as [E1 ->].
    apply bits_of_idx_inj in E1; [|eapply position_table_bound; eauto..]. subst j.
    cbn [map]. f_equal; [eapply position_table_inj; eauto|]. eapply IH; eauto.
Qed.
