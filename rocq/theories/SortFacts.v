(** Sorting and the order of paths. *)
From Coq Require Import Permutation Sorted RelationClasses.
From Verif Require Import Base BaseFacts Key Path World Dir Diff SpecRun SpecDir SpecDiff.

Section Sort.
  Context {A : Type} (cmp : A -> A -> comparison).
  Hypothesis cmp_antisym : forall x y, cmp y x = CompOpp (cmp x y).
  Lemma ins_perm x l : Permutation (x :: l) (sort_ins cmp x l).
  Proof.
    induction l as [|y l IH]; cbn; [reflexivity|]. destruct (cmp x y); try reflexivity.
    rewrite perm_swap. constructor. exact IH.
  Qed.
  Lemma sort_perm l : Permutation l (sort cmp l).
  Proof. induction l as [|x l IH]; cbn; [constructor|]. rewrite <- ins_perm. constructor. exact IH. Qed.
  Definition le (x y : A) : Prop := cmp x y <> Gt.
  Lemma ins_sorted x l : Sorted le l -> Sorted le (sort_ins cmp x l).
  Proof.
    induction l as [|y l IH]; cbn; intro H; [constructor; constructor|]. destruct (cmp x y) eqn:Q.
    - constructor; [exact H|]. constructor. unfold le. congruence.
    - constructor; [exact H|]. constructor. unfold le. congruence.
    - inversion H as [|? ? H1 H2]; subst. constructor; [apply IH, H1|].
      assert (Y : cmp y x = Lt) by (rewrite cmp_antisym, Q; reflexivity).
      destruct l as [|z l]; cbn; [constructor; unfold le; congruence|]. inversion H2; subst.
      destruct (cmp x z); constructor; unfold le in *; congruence.
  Qed.
  Lemma sort_sorted l : Sorted le (sort cmp l).
  Proof. induction l as [|x l IH]; cbn; [constructor|]. apply ins_sorted, IH. Qed.
End Sort.
Lemma sort_in {A} (cmp : A -> A -> comparison) l x : In x (sort cmp l) <-> In x l.
Proof. split; apply Permutation_in; [symmetry|]; apply sort_perm. Qed.

(** *** Paths *)
Lemma lex_lt_iff {A} (cmp : A -> A -> comparison) (lt : A -> A -> Prop) : (forall x y, cmp x y = Lt <-> lt x y) -> (forall x y, cmp x y = Eq <-> x = y) ->
  forall a b, lex_cmp cmp a b = Lt <-> lex_lt lt a b.
Proof.
  intros H1 H2. induction a as [|x a IH]; intros [|y b]; cbn; split; intro H; try discriminate; try (inversion H; fail); try reflexivity; try apply lex_end.
  - destruct (cmp x y) eqn:Q; [|apply lex_head, H1, Q|discriminate]. apply H2 in Q as ->. apply lex_tail, IH, H.
  - inversion H as [|? ? ? ? L|? ? ? L]; subst.
    + rewrite (proj2 (H1 x y) L). reflexivity.
    + rewrite (proj2 (H2 y y) eq_refl). apply IH, L.
Qed.
Lemma byte_lt_iff a b : byte_cmp a b = Lt <-> byte_lt a b.
Proof. unfold byte_cmp, byte_lt. rewrite N.compare_lt_iff. reflexivity. Qed.
Lemma name_cmp_lt a b : bytes_cmp a b = Lt <-> lex_lt byte_lt a b.
Proof. apply lex_lt_iff; [apply byte_lt_iff|apply byte_cmp_eq]. Qed.
Lemma lex_map_normal a : forall b, lex_cmp comp_cmp (map Normal a) (map Normal b) = lex_cmp bytes_cmp a b.
Proof. induction a as [|x a IH]; intros [|y b]; cbn; try reflexivity. destruct (bytes_cmp x y); auto. Qed.
Lemma path_cmp_named a b : path_cmp (named a) (named b) = lex_cmp bytes_cmp a b.
Proof. unfold path_cmp. cbn. apply lex_map_normal. Qed.
Lemma loc_cmp_lt a b : lex_cmp bytes_cmp a b = Lt <-> loc_lt a b.
Proof. apply lex_lt_iff; [apply name_cmp_lt|apply bytes_cmp_eq]. Qed.
Lemma loc_cmp_eq a b : lex_cmp bytes_cmp a b = Eq <-> a = b.
Proof. apply lex_cmp_eq, bytes_cmp_eq. Qed.
Lemma loc_lt_trans a b c : loc_lt a b -> loc_lt b c -> loc_lt a c.
Proof. rewrite <- !loc_cmp_lt. apply lex_cmp_trans; [apply bytes_cmp_eq|apply bytes_cmp_trans]. Qed.
Lemma loc_lt_irrefl a : ~ loc_lt a a.
Proof. rewrite <- loc_cmp_lt. rewrite (proj2 (loc_cmp_eq a a) eq_refl). discriminate. Qed.

(** Sorted by path first. *)
Lemma sort_by_path {A} (cmp : A -> A -> comparison) (get : A -> path) (l : list A) :
  (forall x y, cmp y x = CompOpp (cmp x y)) -> (forall x y, path_cmp (get x) (get y) <> Eq -> cmp x y = path_cmp (get x) (get y)) ->
  Forall (fun x => exists r, get x = named r) l -> NoDup (map get l) -> by_path get (sort cmp l).
Proof.
  intros AS K F N. pose proof (sort_sorted cmp AS l) as S. pose proof (sort_perm cmp l) as P.
  assert (F' : Forall (fun x => exists r, get x = named r) (sort cmp l)) by (rewrite <- P; exact F).
  assert (N' : NoDup (map get (sort cmp l))) by (rewrite <- P; exact N). clear F N P. revert S F' N'. generalize (sort cmp l). clear l.
  intros l S F N.
  assert (H : exists rs, map get l = map named rs /\ Sorted loc_lt rs).
  { induction l as [|x l IH]; [exists []; split; [reflexivity|constructor]|]. inversion S as [|? ? S1 S2]; subst. inversion F as [|? ? [r Hr] F1]; subst.
    inversion N as [|? ? N1 N2]; subst. destruct IH as (rs & M & Sr); auto. exists (r :: rs). split; [cbn; congruence|]. constructor; [exact Sr|].
    destruct l as [|y l]; destruct rs as [|s rs]; try discriminate; constructor. cbn in M. inversion M as [[M1 M2]]. inversion S2 as [|? ? Le]; subst.
    assert (Q : path_cmp (get x) (get y) = lex_cmp bytes_cmp r s) by (rewrite Hr, M1; apply path_cmp_named).
    apply loc_cmp_lt. destruct (lex_cmp bytes_cmp r s) eqn:C; [|reflexivity|].
    - apply loc_cmp_eq in C. subst s. exfalso. apply N1. left. congruence.
    - exfalso. apply Le. rewrite K; rewrite Q; [reflexivity|discriminate]. }
  destruct H as (rs & M & Sr). exists rs. split; [exact M|]. apply Sorted_StronglySorted; [|exact Sr]. exact loc_lt_trans.
Qed.

(** *** The comparisons of results *)
Lemma then_opp a b : then_cmp (CompOpp a) (CompOpp b) = CompOpp (then_cmp a b).
Proof. destruct a; reflexivity. Qed.
Lemma comp_cmp_antisym a b : comp_cmp b a = CompOpp (comp_cmp a b).
Proof. destruct a, b; try reflexivity. apply bytes_cmp_antisym. Qed.
Lemma path_cmp_antisym a b : path_cmp b a = CompOpp (path_cmp a b).
Proof.
  unfold path_cmp. destruct (p_abs a), (p_abs b); try (apply lex_cmp_antisym, comp_cmp_antisym).
  - destruct (p_comps b); reflexivity.
  - destruct (p_comps a); reflexivity.
Qed.
Lemma bool_cmp_antisym' a b : Diff.bool_cmp b a = CompOpp (Diff.bool_cmp a b).
Proof. destruct a, b; reflexivity. Qed.
Lemma key_cmp_antisym a b : key_cmp b a = CompOpp (key_cmp a b).
Proof. destruct a, b. apply bytes_cmp_antisym. Qed.
Lemma opt_cmp_antisym a b : opt_cmp key_cmp b a = CompOpp (opt_cmp key_cmp a b).
Proof. destruct a, b; try reflexivity. apply key_cmp_antisym. Qed.
Lemma added_cmp_antisym a b : added_cmp b a = CompOpp (added_cmp a b).
Proof. unfold added_cmp. rewrite (path_cmp_antisym (ad_path a)), (bool_cmp_antisym' (ad_isdir a)), (opt_cmp_antisym (ad_key a)), !then_opp. reflexivity. Qed.
Lemma deleted_cmp_antisym a b : deleted_cmp b a = CompOpp (deleted_cmp a b).
Proof. unfold deleted_cmp. rewrite (path_cmp_antisym (dl_path a)), (bool_cmp_antisym' (dl_isdir a)), (opt_cmp_antisym (dl_key a)), !then_opp. reflexivity. Qed.
Lemma modified_cmp_antisym a b : modified_cmp b a = CompOpp (modified_cmp a b).
Proof. unfold modified_cmp. rewrite (path_cmp_antisym (md_path a)), (key_cmp_antisym (md_old a)), (key_cmp_antisym (md_new a)), !then_opp. reflexivity. Qed.
Lemma added_by_path l : Forall (fun x => exists r, ad_path x = named r) l -> NoDup (map ad_path l) -> by_path ad_path (sort_added l).
Proof. apply sort_by_path; [apply added_cmp_antisym|]. intros x y H. unfold added_cmp. destruct (path_cmp (ad_path x) (ad_path y)); congruence || reflexivity. Qed.
Lemma modified_by_path l : Forall (fun x => exists r, md_path x = named r) l -> NoDup (map md_path l) -> by_path md_path (sort_modified l).
Proof. apply sort_by_path; [apply modified_cmp_antisym|]. intros x y H. unfold modified_cmp. destruct (path_cmp (md_path x) (md_path y)); congruence || reflexivity. Qed.
