(** Facts about the SQL tables of Store.v. *)
From Verif Require Import Base BaseFacts Key Keyish Object Path World Store WorldFacts SpecKey KeyFacts.
From Coq Require Import Sorted.

Definition table := list (bytes * bytes).
(** Rows in strictly increasing key order. *)
Definition sorted_table (l : table) : Prop :=
  StronglySorted (fun a b => bytes_cmp (fst a) (fst b) = Lt) l.

Lemma bytes_ltb_lt a b : bytes_ltb a b = true <-> bytes_cmp a b = Lt.
Proof. unfold bytes_ltb. destruct (bytes_cmp a b); split; congruence. Qed.
Lemma bytes_cmp_lt_neq a b : bytes_cmp a b = Lt -> a <> b.
Proof. intros H ->. rewrite bytes_cmp_refl in H. discriminate. Qed.
Lemma bytes_not_lt a b : bytes_ltb a b = false -> a <> b -> bytes_cmp b a = Lt.
Proof.
  unfold bytes_ltb. intros H N. rewrite bytes_cmp_antisym. destruct (bytes_cmp a b) eqn:C; cbn.
  - apply bytes_cmp_eq in C. contradiction.
  - discriminate.
  - reflexivity.
Qed.

Lemma assoc_ins_row k v l k' : assoc k l = None ->
  assoc k' (ins_row k v l) = if bytes_eqb k k' then Some v else assoc k' l.
Proof.
  induction l as [|[a b] l IH]; cbn; intro H; [reflexivity|].
  destruct (bytes_eqb a k) eqn:E1; [discriminate|].
  destruct (bytes_ltb k a); cbn; [reflexivity|].
  rewrite IH by exact H. destruct (bytes_eqb a k') eqn:E2; [|reflexivity].
  destruct (bytes_eqb k k') eqn:E3; [|reflexivity].
  apply bytes_eqb_eq in E2, E3. subst. rewrite bytes_eqb_refl in E1. discriminate.
Qed.
Lemma assoc_ignore k v l k' :
  assoc k' (insert_or_ignore k v l) =
  match assoc k' l with Some x => Some x | None => if bytes_eqb k k' then Some v else None end.
Proof.
  unfold insert_or_ignore. destruct (assoc k l) as [x|] eqn:E.
  - destruct (assoc k' l) eqn:E2; [reflexivity|]. destruct (bytes_eqb k k') eqn:E3; [|reflexivity].
    apply bytes_eqb_eq in E3. congruence.
  - rewrite assoc_ins_row by exact E. destruct (bytes_eqb k k') eqn:E3.
    + apply bytes_eqb_eq in E3. subst. rewrite E. reflexivity.
    + destruct (assoc k' l); reflexivity.
Qed.
Lemma assoc_remove k l k' :
  assoc k' (filter (fun '(a, _) => negb (bytes_eqb a k)) l) = if bytes_eqb k k' then None else assoc k' l.
Proof.
  induction l as [|[a b] l IH]; cbn.
  - destruct (bytes_eqb k k'); reflexivity.
  - destruct (bytes_eqb a k) eqn:E1; cbn; rewrite IH.
    + apply bytes_eqb_eq in E1. subst. destruct (bytes_eqb k k') eqn:E2; reflexivity.
    + destruct (bytes_eqb a k') eqn:E2; [|reflexivity]. destruct (bytes_eqb k k') eqn:E3; [|reflexivity].
      apply bytes_eqb_eq in E2, E3. subst. rewrite bytes_eqb_refl in E1. discriminate.
Qed.
Lemma assoc_replace k v l k' :
  assoc k' (insert_or_replace k v l) = if bytes_eqb k k' then Some v else assoc k' l.
Proof.
  unfold insert_or_replace. rewrite assoc_ins_row by (rewrite assoc_remove, bytes_eqb_refl; reflexivity).
  rewrite assoc_remove. destruct (bytes_eqb k k'); reflexivity.
Qed.
Lemma assoc_In k v l : assoc k l = Some v -> In (k, v) l.
Proof.
  induction l as [|[a b] l IH]; cbn; [discriminate|]. destruct (bytes_eqb a k) eqn:E1.
  - apply bytes_eqb_eq in E1. subst. intro H. left. congruence.
  - intro H. right. auto.
Qed.
Lemma assoc_None k l : assoc k l = None <-> ~ In k (map fst l).
Proof.
  induction l as [|[a b] l IH]; cbn; [tauto|]. destruct (bytes_eqb a k) eqn:E1.
  - apply bytes_eqb_eq in E1. subst. split; [discriminate|tauto].
  - apply bytes_eqb_neq in E1. rewrite IH. tauto.
Qed.

Lemma In_ins_row x k v l : In x (ins_row k v l) <-> x = (k, v) \/ In x l.
Proof.
  induction l as [|[a b] l IH]; cbn; [intuition congruence|].
  destruct (bytes_ltb k a); cbn; [intuition congruence|]. rewrite IH. intuition congruence.
Qed.
Lemma In_ignore x k v l : In x (insert_or_ignore k v l) -> x = (k, v) \/ In x l.
Proof.
  unfold insert_or_ignore. destruct (assoc k l); [auto|]. apply In_ins_row.
Qed.
Lemma In_ignore_old x k v l : In x l -> In x (insert_or_ignore k v l).
Proof.
  unfold insert_or_ignore. destruct (assoc k l); [auto|]. intro. apply In_ins_row. auto.
Qed.

Lemma sorted_ins_row k v l : assoc k l = None -> sorted_table l -> sorted_table (ins_row k v l).
Proof.
  induction l as [|[a b] l IH]; cbn; intros H HS.
  - repeat constructor.
  - destruct (bytes_eqb a k) eqn:E1; [discriminate|]. apply bytes_eqb_neq in E1.
    apply StronglySorted_inv in HS as [HS HF].
    destruct (bytes_ltb k a) eqn:E2.
    + apply bytes_ltb_lt in E2. constructor; [constructor; assumption|]. constructor; [exact E2|].
      eapply Forall_impl; [|exact HF]. intros [c d] Hc. cbn in *. eapply bytes_cmp_trans; eassumption.
    + constructor; [apply IH; assumption|]. apply Forall_forall. intros [c d] Hc. apply In_ins_row in Hc as [Hc|Hc].
      * injection Hc as -> ->. cbn. apply bytes_not_lt; [exact E2|congruence].
      * rewrite Forall_forall in HF. apply HF, Hc.
Qed.
Lemma sorted_ignore k v l : sorted_table l -> sorted_table (insert_or_ignore k v l).
Proof.
  unfold insert_or_ignore. destruct (assoc k l) eqn:E; [auto|]. apply sorted_ins_row, E.
Qed.
Lemma StronglySorted_filter {A} (R : A -> A -> Prop) f l :
  StronglySorted R l -> StronglySorted R (filter f l).
Proof.
  induction 1 as [|x l HS IH HF]; cbn; [constructor|]. destruct (f x); [|exact IH].
  constructor; [exact IH|]. apply Forall_forall. intros y Hy. apply filter_In in Hy as [Hy _].
  rewrite Forall_forall in HF. auto.
Qed.
Lemma sorted_replace k v l : sorted_table l -> sorted_table (insert_or_replace k v l).
Proof.
  intro H. unfold insert_or_replace. apply sorted_ins_row.
  - rewrite assoc_remove, bytes_eqb_refl. reflexivity.
  - apply StronglySorted_filter, H.
Qed.
Lemma StronglySorted_map {A B} (R : B -> B -> Prop) (g : A -> B) l :
  StronglySorted (fun a b => R (g a) (g b)) l -> StronglySorted R (map g l).
Proof.
  induction 1 as [|x l HS IH HF]; cbn; constructor; [exact IH|].
  apply Forall_map. exact HF.
Qed.
Lemma sorted_keys l : sorted_table l -> StronglySorted (fun a b => bytes_cmp a b = Lt) (map fst l).
Proof. apply (StronglySorted_map (fun a b => bytes_cmp a b = Lt)). Qed.
Lemma sorted_lt_NoDup l : StronglySorted (fun a b => bytes_cmp a b = Lt) l -> NoDup l.
Proof.
  induction 1 as [|x l HS IH HF]; constructor; [|exact IH]. intro Hx. rewrite Forall_forall in HF.
  apply HF in Hx. rewrite bytes_cmp_refl in Hx. discriminate.
Qed.
Lemma sorted_NoDup l : sorted_table l -> NoDup (map fst l).
Proof. intro H. apply sorted_lt_NoDup, sorted_keys, H. Qed.

Lemma In_assoc k v l : sorted_table l -> In (k, v) l -> assoc k l = Some v.
Proof.
  intros HS. apply sorted_NoDup in HS. induction l as [|[a b] l IH]; cbn; [tauto|].
  cbn in HS. inv HS. intros [H|H].
  - injection H as -> ->. rewrite bytes_eqb_refl. reflexivity.
  - destruct (bytes_eqb a k) eqn:E; [|auto]. apply bytes_eqb_eq in E. subst.
    exfalso. match goal with H : ~ _ |- _ => apply H end. apply (in_map fst) in H. exact H.
Qed.

(** Number of rows with a given key. *)
Lemma count_key k l : sorted_table l ->
  length (filter (fun '(a, _) => bytes_eqb a k) l) = match assoc k l with Some _ => 1 | None => 0 end.
Proof.
  intros HS. apply sorted_NoDup in HS. induction l as [|[a b] l IH]; cbn; [reflexivity|].
  cbn in HS. inv HS. specialize (IH ltac:(assumption)). destruct (bytes_eqb a k) eqn:E; [|exact IH].
  apply bytes_eqb_eq in E. subst. cbn. rewrite IH. destruct (assoc k l) eqn:E2; [|reflexivity].
  exfalso. match goal with H : ~ _ |- _ => apply H end. apply assoc_In, (in_map fst) in E2. exact E2.
Qed.

(** ** Range queries *)
Lemma in_select_between start end_ l k :
  In k (select_between start end_ l) <-> In k (map fst l) /\ in_range start end_ k.
Proof.
  unfold select_between. rewrite filter_In, andb_true_iff.
  unfold in_range, spec_le. apply and_iff_compat_l.
  assert (A : bytes_leb start k = true <-> start = k \/ spec_lt start k).
  { unfold bytes_leb. rewrite <- bytes_cmp_lt. destruct (bytes_cmp start k) eqn:C.
    - apply bytes_cmp_eq in C. tauto.
    - tauto.
    - split; [discriminate|]. intros [->|]; [rewrite bytes_cmp_refl in C; discriminate|congruence]. }
  rewrite A. apply and_iff_compat_l. destruct end_ as [e|]; [|tauto].
  rewrite bytes_ltb_lt. apply bytes_cmp_lt.
Qed.
Lemma sorted_select_between start end_ l :
  sorted_table l -> StronglySorted (fun a b => bytes_cmp a b = Lt) (select_between start end_ l).
Proof. intro H. apply StronglySorted_filter, sorted_keys, H. Qed.

(** ** The reflog *)
Definition rows_ok (rows : list row) : Prop := StronglySorted (fun a b => (r_id a < r_id b)%N) rows.
Lemma next_id_gt rows r : In r rows -> (r_id r < next_id rows)%N.
Proof.
  unfold next_id. induction rows as [|x rows IH]; cbn; [tauto|]. intros [->|H]; [lia|].
  specialize (IH H). lia.
Qed.
Lemma StronglySorted_snoc {A} (R : A -> A -> Prop) l x :
  StronglySorted R l -> Forall (fun y => R y x) l -> StronglySorted R (l ++ [x]).
Proof.
  induction 1 as [|y l HS IH HF]; cbn; intro H; [repeat constructor|]. inv H.
  constructor; [auto|]. apply Forall_app. auto.
Qed.
Lemma rows_ok_push rows n r k : rows_ok rows -> rows_ok (rows ++ [Row (next_id rows) n r k]).
Proof.
  intro H. apply StronglySorted_snoc; [exact H|]. apply Forall_forall. intros x Hx. apply next_id_gt, Hx.
Qed.
Lemma ins_desc_max x l : Forall (fun y => (r_id y <= r_id x)%N) l -> ins_desc x l = x :: l.
Proof.
  destruct l as [|y l]; [reflexivity|]. intro H. inv H. cbn.
  replace (r_id y <=? r_id x)%N with true by (symmetry; apply N.leb_le; assumption). reflexivity.
Qed.
Lemma order_desc_rev l : rows_ok l -> order_desc l = rev l.
Proof.
  unfold order_desc. intro H.
  enough (G : forall acc, (forall x y, In x acc -> In y l -> (r_id x < r_id y)%N) ->
    fold_left (fun acc x => ins_desc x acc) l acc = rev l ++ acc).
  { rewrite G, app_nil_r; [reflexivity|intros x y []]. }
  induction H as [|x l HS IH HF]; intros acc Hacc; cbn; [reflexivity|].
  rewrite ins_desc_max.
  - rewrite IH.
    + rewrite <- app_assoc. reflexivity.
    + intros a b [<-|Ha] Hb; [rewrite Forall_forall in HF; auto|]. apply Hacc; [assumption|right; assumption].
  - apply Forall_forall. intros a Ha. specialize (Hacc a x Ha (or_introl eq_refl)). lia.
Qed.
Lemma select_reflog_rev n r rows : rows_ok rows ->
  select_reflog n r rows = map r_key (rev (filter (row_matches n r) rows)).
Proof. intro H. unfold select_reflog. rewrite order_desc_rev; [reflexivity|]. apply StronglySorted_filter, H. Qed.
Lemma opt_bytes_eqb_eq a b : opt_bytes_eqb a b = true <-> a = b.
Proof.
  destruct a, b; cbn; try (split; congruence). rewrite bytes_eqb_eq. split; congruence.
Qed.
Lemma row_matches_iff n r x : row_matches n r x = true <-> r_name x = n /\ r_remote x = r.
Proof. unfold row_matches. rewrite andb_true_iff, bytes_eqb_eq, opt_bytes_eqb_eq. tauto. Qed.

(** ** Lists of keys *)
Lemma map_result_app {A B X} (f : A -> result B X) (g : B -> A) l :
  (forall b, f (g b) = Ok b) -> map_result f (map g l) = Ok l.
Proof. intro H. induction l as [|b l IH]; cbn; [reflexivity|]. rewrite H, IH. reflexivity. Qed.
