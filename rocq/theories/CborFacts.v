(** Facts about Cbor.v. *)
From Verif Require Import Base BaseFacts Cbor.

Section ValueInd.
  Context (P : value -> Prop).
  Context (HU : forall n, P (VUInt n)) (HB : forall b, P (VBytes b)) (HT : forall t, P (VText t)).
  Context (HA : forall l, Forall P l -> P (VArray l)).
  Context (HM : forall l, Forall (fun p => P (fst p) /\ P (snd p)) l -> P (VMap l)).
  Fixpoint value_nested_ind (v : value) : P v :=
    match v with
    | VUInt n => HU n
    | VBytes b => HB b
    | VText t => HT t
    | VArray l =>
        HA l ((fix go l := match l return Forall P l with
                           | [] => Forall_nil _
                           | x :: r => Forall_cons _ (value_nested_ind x) (go r)
                           end) l)
    | VMap l =>
        HM l ((fix go l := match l return Forall (fun p => P (fst p) /\ P (snd p)) l with
                           | [] => Forall_nil _
                           | x :: r => Forall_cons _ (conj (value_nested_ind (fst x)) (value_nested_ind (snd x))) (go r)
                           end) l)
    end.
End ValueInd.

Fixpoint wf_value (v : value) : Prop :=
  match v with
  | VUInt n => (n < 2 ^ 64)%N
  | VBytes b => (lenN b < 2 ^ 64)%N
  | VText t => (lenN t < 2 ^ 64)%N /\ utf8_valid t = true
  | VArray l => (lenN l < 2 ^ 64)%N /\
      (fix all l := match l with [] => True | x :: r => wf_value x /\ all r end) l
  | VMap l => (lenN l < 2 ^ 64)%N /\
      (fix all l := match l with [] => True | (k, x) :: r => wf_value k /\ wf_value x /\ all r end) l
  end.
Lemma wf_array l : wf_value (VArray l) <-> (lenN l < 2 ^ 64)%N /\ Forall wf_value l.
Proof.
  cbn. apply and_iff_compat_l. induction l as [|x l IH]; [split; constructor|].
  rewrite Forall_cons_iff, <- IH. reflexivity.
Qed.
Lemma wf_map l : wf_value (VMap l) <->
  (lenN l < 2 ^ 64)%N /\ Forall (fun p => wf_value (fst p) /\ wf_value (snd p)) l.
Proof.
  cbn. apply and_iff_compat_l. induction l as [|[k x] l IH]; [split; constructor|].
  rewrite Forall_cons_iff, <- IH. cbn. tauto.
Qed.

Lemma be_length k n : length (be k n) = k.
Proof. induction k as [|k IH]; [reflexivity|]. cbn. rewrite IH. reflexivity. Qed.
Lemma be_val_be k n : forall acc,
  be_val acc (be k n) = (acc * 256 ^ N.of_nat k + n mod 256 ^ N.of_nat k)%N.
Proof.
  induction k as [|k IH]; intro acc.
  - cbn. rewrite N.mod_1_r. lia.
  - cbn [be be_val]. rewrite IH, byte_val_of, Nat2N.inj_succ, N.pow_succ_r'.
    set (p := (256 ^ N.of_nat k)%N).
    assert (p <> 0)%N by (apply N.pow_nonzero; lia).
    rewrite (N.mul_comm 256 p), N.mod_mul_r by lia. lia.
Qed.
Lemma take_be_be k n r : (n < 256 ^ N.of_nat k)%N -> take_be k (be k n ++ r) = Some (n, r).
Proof.
  intro H. unfold take_be. rewrite app_length, be_length.
  replace (Nat.leb k (k + length r)) with true by (symmetry; apply Nat.leb_le; lia).
  rewrite firstn_app, be_length, Nat.sub_diag, firstn_O, app_nil_r.
  rewrite <- (be_length k n) at 1. rewrite firstn_all, be_val_be, N.mod_small by exact H.
  rewrite skipn_app, be_length, Nat.sub_diag. cbn [skipn].
  rewrite <- (be_length k n) at 2. rewrite skipn_all. reflexivity.
Qed.

Lemma head_byte m a : (m < 8)%N -> (a < 32)%N ->
  (byte_val (byte_of (m * 32 + a)) / 32 = m)%N /\ (byte_val (byte_of (m * 32 + a)) mod 32 = a)%N.
Proof.
  intros Hm Ha. rewrite byte_val_of, N.mod_small by lia.
  split.
  - rewrite N.div_add_l by lia. rewrite N.div_small by lia. lia.
  - rewrite N.add_comm, N.mod_add by lia. apply N.mod_small. lia.
Qed.
Lemma head_nonempty m n : 1 <= length (head m n).
Proof. unfold head. repeat (destruct (_ <? _)%N); cbn; lia. Qed.
Lemma dec_head_head m n r : (m < 8)%N -> (n < 2 ^ 64)%N -> dec_head (head m n ++ r) = Some (m, n, r).
Proof.
  intros Hm Hn. unfold head.
  destruct (n <? 24)%N eqn:E1.
  { apply N.ltb_lt in E1. destruct (head_byte m n Hm ltac:(lia)) as [Hq Hr].
    cbn [app dec_head]. rewrite Hq, Hr. replace (n <? 24)%N with true by (symmetry; apply N.ltb_lt; lia). reflexivity. }
  destruct (n <? 2 ^ 8)%N eqn:E2.
  { apply N.ltb_lt in E2. destruct (head_byte m 24 Hm ltac:(lia)) as [Hq Hr].
    cbn [app dec_head]. rewrite Hq, Hr. change (24 <? 24)%N with false. change (24 =? 24)%N with true.
    cbn [andb]. rewrite take_be_be by (cbn; lia). reflexivity. }
  destruct (n <? 2 ^ 16)%N eqn:E3.
  { apply N.ltb_lt in E3. destruct (head_byte m 25 Hm ltac:(lia)) as [Hq Hr].
    cbn [app dec_head]. rewrite Hq, Hr. change (25 <? 24)%N with false. change (25 =? 24)%N with false.
    change (25 =? 25)%N with true. rewrite take_be_be by (cbn; lia). reflexivity. }
  destruct (n <? 2 ^ 32)%N eqn:E4.
  { apply N.ltb_lt in E4. destruct (head_byte m 26 Hm ltac:(lia)) as [Hq Hr].
    cbn [app dec_head]. rewrite Hq, Hr. change (26 <? 24)%N with false. change (26 =? 24)%N with false.
    change (26 =? 25)%N with false. change (26 =? 26)%N with true. rewrite take_be_be by (cbn; lia). reflexivity. }
  destruct (head_byte m 27 Hm ltac:(lia)) as [Hq Hr].
  cbn [app dec_head]. rewrite Hq, Hr. change (27 <? 24)%N with false. change (27 =? 24)%N with false.
  change (27 =? 25)%N with false. change (27 =? 26)%N with false. change (27 =? 27)%N with true.
  rewrite take_be_be by (change (256 ^ N.of_nat 8)%N with (2 ^ 64)%N; exact Hn). reflexivity.
Qed.

Lemma take_bytes_app b r : take_bytes (lenN b) (b ++ r) = Some (b, r).
Proof.
  unfold take_bytes, lenN. rewrite app_length, Nat2N.id.
  replace (N.of_nat (length b) <=? N.of_nat (length b + length r))%N with true by (symmetry; apply N.leb_le; lia).
  rewrite firstn_app, Nat.sub_diag, firstn_all, firstn_O, app_nil_r.
  rewrite skipn_app, Nat.sub_diag, skipn_all. reflexivity.
Qed.

Lemma dec_items_enc {A} (item : bytes -> option (A * bytes)) (e : A -> bytes) l :
  Forall (fun a => 1 <= length (e a) /\ forall r, item (e a ++ r) = Some (a, r)) l ->
  forall g rest, length l <= g ->
  dec_items item g (lenN l) (flat_map e l ++ rest) = Some (l, rest).
Proof.
  induction l as [|a l IH]; intros HF g rest Hg.
  - destruct g; reflexivity.
  - apply Forall_cons_iff in HF as [[_ Ha] HF]. destruct g as [|g]; [cbn in Hg; lia|].
    cbn [dec_items flat_map]. unfold lenN. cbn [length].
    replace (N.of_nat (S (length l)) =? 0)%N with false by (symmetry; apply N.eqb_neq; lia).
    rewrite <- app_assoc, Ha.
    replace (N.of_nat (S (length l)) - 1)%N with (lenN l) by (unfold lenN; lia).
    rewrite IH by (auto; cbn in Hg; lia). reflexivity.
Qed.
Lemma flat_map_length_ge {A} (e : A -> bytes) l :
  Forall (fun a => 1 <= length (e a)) l -> length l <= length (flat_map e l).
Proof.
  induction 1 as [|a l Ha _ IH]; [reflexivity|]. cbn. rewrite app_length. lia.
Qed.
Lemma in_flat_map_length {A} (e : A -> bytes) l a : In a l -> length (e a) <= length (flat_map e l).
Proof.
  induction l as [|b l IH]; [intros []|]. cbn. rewrite app_length. intros [->|H]; [lia|].
  specialize (IH H). lia.
Qed.

Lemma enc_nonempty v : 1 <= length (enc v).
Proof. destruct v; cbn [enc]; rewrite ?app_length; pose proof (fun m n => head_nonempty m n) as H;
  repeat match goal with |- context [length (head ?m ?n)] => specialize (H m n) end; lia. Qed.

Lemma dec_enc v : wf_value v ->
  forall fuel rest, length (enc v) <= fuel -> dec fuel (enc v ++ rest) = Some (v, rest).
Proof.
  induction v as [n|b|t|l IH|l IH] using value_nested_ind; intros Hwf fuel rest Hf;
    (destruct fuel as [|f]; [exfalso; pose proof (enc_nonempty (VUInt 0)); match goal with
       | Hf : length (enc ?v) <= 0 |- _ => pose proof (enc_nonempty v); lia end|]);
    cbn [dec enc].
  - cbn in Hwf. rewrite dec_head_head by (auto; lia). reflexivity.
  - cbn in Hwf. rewrite <- app_assoc, dec_head_head by (auto; lia). cbn [N.eqb Pos.eqb].
    rewrite take_bytes_app. reflexivity.
  - cbn in Hwf. destruct Hwf as [Hl Hu]. rewrite <- app_assoc, dec_head_head by (auto; lia).
    cbn [N.eqb Pos.eqb]. rewrite take_bytes_app, Hu. reflexivity.
  - apply wf_array in Hwf as [Hl Hwf]. cbn [enc] in Hf. rewrite app_length in Hf.
    pose proof (head_nonempty 4 (lenN l)) as Hh.
    rewrite <- app_assoc, dec_head_head by (auto; lia).
    cbn [N.eqb Pos.eqb].
    rewrite (dec_items_enc (dec f) enc).
    + reflexivity.
    + rewrite Forall_forall in *. intros a Ha. split; [apply enc_nonempty|].
      intro r. apply IH; auto. pose proof (in_flat_map_length enc l a Ha). lia.
    + rewrite app_length. pose proof (flat_map_length_ge enc l) as HH.
      specialize (HH ltac:(apply Forall_forall; intros; apply enc_nonempty)). lia.
  - apply wf_map in Hwf as [Hl Hwf]. cbn [enc] in Hf. rewrite app_length in Hf.
    pose proof (head_nonempty 5 (lenN l)) as Hh.
    rewrite <- app_assoc, dec_head_head by (auto; lia).
    cbn [N.eqb Pos.eqb].
    set (e := fun '(k, x) => enc k ++ enc x) in *.
    rewrite (dec_items_enc (dec_pair (dec f)) e).
    + reflexivity.
    + rewrite Forall_forall in *. intros [k x] Ha. unfold e at 1. rewrite app_length. split.
      { pose proof (enc_nonempty k). lia. }
      intro r. unfold dec_pair, e. rewrite <- app_assoc.
      pose proof (in_flat_map_length e l (k, x) Ha) as HL. unfold e in HL at 1. rewrite app_length in HL.
      destruct (IH _ Ha) as [IHk IHx]. destruct (Hwf _ Ha) as [Wk Wx]. cbn [fst snd] in *.
      rewrite IHk by (auto; lia). rewrite IHx by (auto; lia). reflexivity.
    + rewrite app_length. pose proof (flat_map_length_ge e l) as HH.
      specialize (HH ltac:(apply Forall_forall; intros [k x] _; unfold e; rewrite app_length;
                           pose proof (enc_nonempty k); lia)). lia.
Qed.

Lemma dec_all_enc v : wf_value v -> dec_all (enc v) = Some v.
Proof.
  intro H. unfold dec_all. rewrite <- (app_nil_r (enc v)) at 2.
  rewrite dec_enc by (auto; lia). reflexivity.
Qed.
