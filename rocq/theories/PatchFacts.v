(** Facts about the hunks of a patch (Diff.v). *)
From Verif Require Import Base BaseFacts Key Object Path World WorldFacts Store File Filter Dir Diff SpecDiff SpecPatch ResolveFacts.

(** *** Numbered lines *)
Lemma countb_app {A} (p : A -> bool) a b : countb p (a ++ b) = (countb p a + countb p b)%N.
Proof. unfold countb, lenN. rewrite filter_app, app_length. lia. Qed.
Definition plk (k : dkind) (l : bytes) : pline := match k with KSame => LContext l | KAdd => LAdd l | KRem => LRemove l end.
Definition numbered (b a : N) (out : list dlineno) : Prop :=
  forall i d, nth_error out i = Some d ->
    dl_before d = (b + countb of_old (firstn i (map pline_of out)))%N /\ dl_after d = (a + countb of_new (firstn i (map pline_of out)))%N.
Lemma numbered_app b a o1 o2 : numbered b a o1 ->
  numbered (b + countb of_old (map pline_of o1)) (a + countb of_new (map pline_of o1)) o2 -> numbered b a (o1 ++ o2).
Proof.
  intros H1 H2 i d H. rewrite map_app, firstn_app, map_length, !countb_app.
  destruct (Nat.lt_ge_cases i (length o1)) as [L|L].
  - rewrite nth_error_app1 in H by exact L. apply H1 in H. replace (i - length o1) with 0 by lia. cbn. destruct H. split; lia.
  - rewrite nth_error_app2 in H by exact L. apply H2 in H. rewrite (firstn_all2 (map pline_of o1)) by (rewrite map_length; exact L). destruct H. split; lia.
Qed.
Lemma number_lines_ok k ls : forall b a out b' a', number_lines k ls b a = (out, (b', a')) ->
  map pline_of out = map (plk k) ls /\ numbered b a out /\
  b' = (b + countb of_old (map pline_of out))%N /\ a' = (a + countb of_new (map pline_of out))%N.
Proof.
  induction ls as [|l ls IH]; intros b a out b' a' H; cbn in H.
  - injection H as <- <- <-. split; [reflexivity|]. split; [intros [|i] d X; discriminate X|]. cbn. unfold countb, lenN. cbn. lia.
  - destruct (match k with KSame => _ | KAdd => _ | KRem => _ end) as [b1 a1] eqn:E1. destruct (number_lines k ls b1 a1) as [out' [b2 a2]] eqn:E2.
    injection H as <- <- <-. apply IH in E2 as (M & Nu & Hb & Ha).
    assert (K1 : (b1 = b + countb of_old [pline_of (DL b a k l)])%N /\ (a1 = a + countb of_new [pline_of (DL b a k l)])%N).
    { destruct k; injection E1 as <- <-; cbn; unfold countb, lenN; cbn; lia. }
    split; [cbn [map]; rewrite M; destruct k; reflexivity|]. split.
    + apply (numbered_app b a [DL b a k l] out').
      * intros [|i] d X; [|destruct i; discriminate X]. injection X as <-. cbn. unfold countb, lenN. cbn. lia.
      * destruct K1 as [K1 K2]. cbn [map]. rewrite <- K1, <- K2. exact Nu.
    + destruct K1. change (map pline_of (DL b a k l :: out')) with ([pline_of (DL b a k l)] ++ map pline_of out'). rewrite !countb_app. split; lia.
Qed.
Lemma lines_ok ds : forall b a, map pline_of (lines_ln ds b a) = diff_plines ds /\ numbered b a (lines_ln ds b a).
Proof.
  induction ds as [|d ds IH]; intros b a; cbn [lines_ln diff_plines flat_map].
  - split; [reflexivity|]. intros [|i] x X; discriminate X.
  - destruct (match d with Same s => _ | Add s => _ | Rem s => _ end) as [k s] eqn:E1.
    destruct (number_lines k (split_nl [] s) b a) as [out [b' a']] eqn:E2. apply number_lines_ok in E2 as (M & Nu & -> & ->).
    destruct (IH (b + countb of_old (map pline_of out))%N (a + countb of_new (map pline_of out))%N) as [M' Nu']. split.
    + rewrite map_app, M', M. f_equal. destruct d; injection E1 as <- <-; reflexivity.
    + apply numbered_app; assumption.
Qed.

(** *** Slices *)
Lemma nth_slice {A} a b (l : list A) i : nth_error (slice a b l) i = if Nat.ltb i (b - a) then nth_error l (a + i) else None.
Proof.
  unfold slice. destruct (Nat.ltb_spec i (b - a)).
  - rewrite <- (firstn_skipn a l) at 2. destruct (Nat.le_gt_cases a (length l)) as [L|L].
    + rewrite nth_error_app2, firstn_length_le by (rewrite ?firstn_length_le; lia). replace (a + i - a) with i by lia.
      rewrite <- (firstn_skipn (b - a) (skipn a l)) at 2. destruct (Nat.lt_ge_cases i (length (firstn (b - a) (skipn a l)))) as [K|K].
      * rewrite nth_error_app1 by exact K. reflexivity.
      * rewrite (proj2 (nth_error_None _ _) K). rewrite firstn_length in K. rewrite firstn_skipn. symmetry. apply nth_error_None. lia.
    + rewrite firstn_skipn. rewrite (skipn_all2 l) by lia. rewrite firstn_nil. destruct i; symmetry; apply nth_error_None; lia.
  - apply nth_error_None. rewrite firstn_length. lia.
Qed.
Lemma slice_map {A B} (f : A -> B) a b l : map f (slice a b l) = slice a b (map f l).
Proof. unfold slice. rewrite <- firstn_map, skipn_map. reflexivity. Qed.
Lemma slice_len {A} a b (l : list A) : b <= length l -> length (slice a b l) = b - a.
Proof. intro H. unfold slice. rewrite firstn_length, skipn_length. lia. Qed.
Lemma firstn_slice {A} a b (l : list A) : a <= b -> firstn b l = firstn a l ++ slice a b l.
Proof.
  intro H. unfold slice. replace b with (a + (b - a)) at 1 by lia. revert l. induction a as [|a IH]; intro l; [reflexivity|].
  destruct l as [|x l]; cbn [firstn skipn app Nat.add]; [rewrite firstn_nil; reflexivity|]. f_equal.
  assert (E1 : forall n m (k : list A), firstn (n + m) k = firstn n k ++ firstn m (skipn n k)).
  { clear. induction n as [|n IH]; intros m k; [reflexivity|]. destruct k; cbn; [rewrite firstn_nil; reflexivity|f_equal; apply IH]. }
  apply E1.
Qed.

(** *** Near lines *)
Lemma is_change_line d : is_change d = changed (pline_of d).
Proof. destruct d as [? ? [] ?]; reflexivity. Qed.
Lemma window_near (L : list dlineno) i : i < length L -> existsb is_change (window L i) = true <-> near (map pline_of L) i.
Proof.
  intro Hi. unfold window. rewrite existsb_exists. set (lo := i - before_context). set (hi := Nat.min (i + after_context) (length L - 1)).
  change (firstn (hi + 1 - lo) (skipn lo L)) with (slice lo (hi + 1) L). unfold before_context, after_context in *. split.
  - intros (d & I & C). apply In_nth_error in I as [n I]. rewrite nth_slice in I. destruct (Nat.ltb_spec n (hi + 1 - lo)); [|discriminate].
    exists (lo + n), (pline_of d). split; [apply map_nth_error, I|]. split; [rewrite <- is_change_line; exact C|]. unfold hi, lo in *. lia.
  - intros (j & l & Nj & C & J1 & J2). rewrite nth_error_map in Nj. destruct (nth_error L j) as [d|] eqn:D; [|discriminate]. injection Nj as <-.
    exists d. split; [|rewrite is_change_line; exact C]. apply (nth_error_In _ (j - lo)). rewrite nth_slice.
    assert (j < length L) by (apply nth_error_Some; congruence).
    destruct (Nat.ltb_spec (j - lo) (hi + 1 - lo)); [|unfold hi, lo in *; lia]. replace (lo + (j - lo)) with j by (unfold lo; lia). exact D.
Qed.
Lemma nth_flagged (L : list dlineno) i : nth_error (flagged L) i = option_map (fun d => (existsb is_change (window L i), d)) (nth_error L i).
Proof.
  unfold flagged. set (f := fun i => existsb is_change (window L i)).
  assert (G : forall (l : list dlineno) o, nth_error (combine (map f (seq o (length l))) l) i = option_map (fun d => (f (o + i), d)) (nth_error l i)).
  { revert i. induction i as [|i IH]; intros [|x l] o; cbn; try reflexivity; [rewrite Nat.add_0_r; reflexivity|].
    rewrite IH. replace (S o + i) with (o + S i) by lia. reflexivity. }
  exact (G L 0).
Qed.

(** *** Runs *)
Section Runs.
  Context {A : Type}.
  Fixpoint alternating (gs : list (bool * list A)) : Prop :=
    match gs with
    | [] => True
    | (b, xs) :: r => xs <> [] /\ match r with [] => True | (b', _) :: _ => b' <> b end /\ alternating r
    end.
  Lemma runs_ok (l : list (bool * A)) : alternating (group_runs l) /\ concat (map (fun g => map (pair (fst g)) (snd g)) (group_runs l)) = l.
  Proof.
    induction l as [|[b x] l [IH1 IH2]]; [split; [exact I|reflexivity]|]. cbn [group_runs]. destruct (group_runs l) as [|[b' xs] gs].
    - cbn in IH2. subst l. split; [cbn; repeat split; discriminate|reflexivity].
    - destruct (Bool.eqb b b') eqn:X.
      + apply Bool.eqb_prop in X. subst b'. cbn in IH1. destruct IH1 as (N & D & R). split; [cbn; split; [discriminate|auto]|].
        cbn in IH2 |- *. rewrite IH2. reflexivity.
      + split.
        * cbn in IH1 |- *. split; [discriminate|]. split; [|exact IH1]. intros ->. rewrite Bool.eqb_reflx in X. discriminate.
        * cbn in IH2 |- *. rewrite IH2. reflexivity.
  Qed.
  Fixpoint ivs (o : nat) (gs : list (bool * list A)) : list (nat * nat) :=
    match gs with
    | [] => []
    | (b, xs) :: r => if b then (o, o + length xs) :: ivs (o + length xs) r else ivs (o + length xs) r
    end.
  Definition total (gs : list (bool * list A)) : nat := length (concat (map snd gs)).
  Lemma sep_mono from from' n l : from <= from' -> separated from' n l -> separated from n l.
  Proof. destruct l as [|[a b] l]; cbn; [auto|]. intros H (? & ? & ? & ?). repeat split; auto; lia. Qed.
  Lemma ivs_sep gs : forall o, alternating gs ->
    separated (match gs with (false, _) :: _ => S o | _ => o end) (o + total gs) (ivs o gs).
  Proof.
    induction gs as [|[b xs] gs IH]; intros o H; cbn [ivs]; [destruct o; exact I|]. cbn in H. destruct H as (N & D & R).
    specialize (IH (o + length xs) R). unfold total in *. cbn [map concat]. rewrite app_length. rewrite <- Nat.add_assoc in IH.
    assert (length xs > 0) by (destruct xs; [congruence|cbn; lia]). cbn [snd]. destruct b.
    - cbn [separated]. split; [lia|]. split; [lia|]. split; [lia|]. destruct gs as [|[b' ys] gs]; [exact I|]. destruct b'; [congruence|]. exact IH.
    - eapply sep_mono; [|exact IH]. destruct gs as [|[[|] ys] gs]; lia.
  Qed.
  Lemma ivs_flag gs : forall o i, (exists a b, In (a, b) (ivs o gs) /\ a <= o + i < b) <->
    exists x, nth_error (concat (map (fun g => map (pair (fst g)) (snd g)) gs)) i = Some (true, x).
  Proof.
    induction gs as [|[b xs] gs IH]; intros o i; cbn [ivs map concat fst snd].
    - split; [intros (a & b & [] & _)|intros (x & H); destruct i; discriminate H].
    - destruct (Nat.lt_ge_cases i (length xs)) as [L|L].
      + rewrite nth_error_app1 by (rewrite map_length; exact L). rewrite nth_error_map. destruct (nth_error xs i) as [x|] eqn:X; [|apply nth_error_None in X; lia].
        cbn. assert (NI : ~ exists a b, In (a, b) (ivs (o + length xs) gs) /\ a <= o + i < b).
        { assert (Lo : forall gs o a b, In (a, b) (ivs o gs) -> o <= a).
          { clear. induction gs as [|[b xs] gs IH]; intros o a c H; [destruct H|]. cbn in H. destruct b; [destruct H as [H|H]; [injection H as <- <-; lia|]|]; apply IH in H; lia. }
          intros (a & c & H & R). apply Lo in H. lia. }
        destruct b; cbn.
        * split; [eauto|]. intros _. exists o, (o + length xs). split; [left; reflexivity|lia].
        * split; [intro H; destruct (NI H)|intros (y & H); discriminate].
      + rewrite nth_error_app2 by (rewrite map_length; exact L). rewrite map_length. rewrite <- (IH (o + length xs) (i - length xs)).
        replace (o + length xs + (i - length xs)) with (o + i) by lia. destruct b; [|reflexivity]. split.
        * intros (a & c & [H|H] & R); [injection H as <- <-; lia|eauto].
        * intros (a & c & H & R). exists a, c. split; [right; exact H|exact R].
  Qed.
  Lemma ivs_slices gs : forall o (pre : list A), length pre = o ->
    Forall2 (fun iv g => snd g = slice (fst iv) (snd iv) (pre ++ concat (map snd gs))) (ivs o gs) (filter fst gs).
  Proof.
    induction gs as [|[b xs] gs IH]; intros o pre Hp; cbn [ivs filter fst map concat]; [constructor|].
    assert (IH' := IH (o + length xs) (pre ++ xs)). rewrite app_length, Hp in IH'. specialize (IH' eq_refl). rewrite <- app_assoc in IH'. cbn [snd].
    destruct b; [|exact IH']. constructor; [|exact IH']. cbn [fst snd]. unfold slice. rewrite <- Hp, skipn_app, skipn_all, Nat.sub_diag. cbn [app skipn].
    replace (length pre + length xs - length pre) with (length xs) by lia. rewrite firstn_app, firstn_all, Nat.sub_diag, firstn_O, app_nil_r. reflexivity.
  Qed.
End Runs.

(** *** Hunks *)
Lemma hunk_ok L a b : numbered 1 1 L -> a < b -> b <= length L ->
  exists h, hunk_of (slice a b L) = Some h /\ h_lines h = slice a b (map pline_of L) /\
    actual_range of_old (map pline_of L) a b (h_old h) /\ actual_range of_new (map pline_of L) a b (h_new h).
Proof.
  intros Nu Hab Hb. assert (LS : length (slice a b L) = b - a) by (apply slice_len, Hb).
  assert (Fi : nth_error (slice a b L) 0 = nth_error L a) by (rewrite nth_slice, Nat.add_0_r; destruct (Nat.ltb_spec 0 (b - a)); [reflexivity|lia]).
  assert (La : nth_error (slice a b L) (b - a - 1) = nth_error L (b - 1)) by (rewrite nth_slice; destruct (Nat.ltb_spec (b - a - 1) (b - a)); [f_equal; lia|lia]).
  destruct (nth_error L a) as [f|] eqn:Nf; [|apply nth_error_None in Nf; lia]. destruct (nth_error L (b - 1)) as [z|] eqn:Nz; [|apply nth_error_None in Nz; lia].
  unfold hunk_of. rewrite <- slice_map. remember (slice a b L) as g eqn:G. destruct g as [|f' g']; [discriminate Fi|]. injection Fi as ->.
  assert (La' : exists q, rev (f :: g') = z :: q).
  { destruct (@exists_last _ (f :: g') ltac:(discriminate)) as (q & y & Q). rewrite Q in La, LS |- *. rewrite rev_unit. exists (rev q). f_equal.
    rewrite app_length in LS. cbn in LS. rewrite nth_error_app2 in La by lia. replace (b - a - 1 - length q) with 0 in La by lia. injection La as ->. reflexivity. }
  destruct La' as [q ->]. apply Nu in Nf as [Nf1 Nf2]. apply Nu in Nz as [Nz1 Nz2].
  assert (Q : forall p, countb p (firstn (b - 1) (map pline_of L)) = (countb p (firstn a (map pline_of L)) + countb p (slice a (b - 1) (map pline_of L)))%N).
  { intro p. rewrite (firstn_slice a (b - 1)) by lia. apply countb_app. }
  rewrite Q in Nz1, Nz2. unfold checked_sub. rewrite Nf1, Nf2, Nz1, Nz2.
  replace (1 + countb of_old (firstn a (map pline_of L)) <=? 1 + (countb of_old (firstn a (map pline_of L)) + countb of_old (slice a (b - 1) (map pline_of L))))%N with true by (symmetry; apply N.leb_le; lia).
  replace (1 + countb of_new (firstn a (map pline_of L)) <=? 1 + (countb of_new (firstn a (map pline_of L)) + countb of_new (slice a (b - 1) (map pline_of L))))%N with true by (symmetry; apply N.leb_le; lia).
  eexists. split; [reflexivity|]. cbn [h_lines h_old h_new]. split; [reflexivity|]. unfold actual_range. cbn [pr_start pr_count]. repeat split; lia.
Qed.
Lemma all_some_map {A B C} (f : B -> option C) (P : A -> C -> Prop) (l : list A) (m : list B) :
  Forall2 (fun a b => exists c, f b = Some c /\ P a c) l m -> exists cs, all_some (map f m) = Some cs /\ Forall2 P l cs.
Proof.
  induction 1 as [|a b l m (c & Fc & Pc) _ (cs & Hc & IH)]; [exists []; split; [reflexivity|constructor]|]. exists (c :: cs). cbn. rewrite Fc, Hc. split; [reflexivity|constructor; assumption].
Qed.
Lemma hunks_ok ds : exists ivl hs, hunks_of ds = Some hs /\ separated 0 (length (diff_plines ds)) ivl /\
  (forall i, i < length (diff_plines ds) -> (near (diff_plines ds) i <-> exists a b, In (a, b) ivl /\ a <= i < b)) /\
  Forall2 (hunk_at (diff_plines ds)) ivl hs.
Proof.
  destruct (lines_ok ds 1 1) as [ML Nu]. rewrite <- ML. unfold hunks_of. set (L := lines_ln ds 1 1) in *. set (gs := group_runs (flagged L)).
  destruct (runs_ok (flagged L)) as [Alt Cat]. fold gs in Alt, Cat. rewrite map_length.
  assert (Cat' : concat (map snd gs) = L).
  { assert (X : map snd (flagged L) = L).
    { unfold flagged. assert (Y : forall (l : list bool) (m : list dlineno), length l = length m -> map snd (combine l m) = m).
      { induction l as [|x l IH]; intros [|y m] Hl; cbn in *; try discriminate; [reflexivity|f_equal; apply IH; lia]. }
      apply Y. rewrite map_length, seq_length. reflexivity. }
    rewrite <- X at 1. rewrite <- Cat. rewrite concat_map, map_map. f_equal. apply map_ext. intros [b xs]. cbn. rewrite map_map. cbn. rewrite map_id. reflexivity. }
  pose proof (ivs_sep gs 0 Alt) as Sp. cbn [Nat.add] in Sp. unfold total in Sp. rewrite Cat' in Sp.
  assert (Sp0 : separated 0 (length L) (ivs 0 gs)) by (eapply sep_mono; [|exact Sp]; destruct gs as [|[[|] ?] ?]; lia).
  pose proof (ivs_slices gs 0 [] eq_refl) as Sl. cbn [app] in Sl. rewrite Cat' in Sl.
  assert (Bd : forall from l a b, separated from (length L) l -> In (a, b) l -> a < b /\ b <= length L).
  { clear. intros from l. revert from. induction l as [|[a' b'] l IH]; intros from a b H I; [destruct I|]. destruct I as [I|I]; [injection I as -> ->; cbn in H; tauto|]. cbn in H. eapply IH; [apply H|exact I]. }
  assert (F : Forall2 (fun iv g => exists h, (fun '(_, g) => hunk_of g) g = Some h /\ hunk_at (map pline_of L) iv h) (ivs 0 gs) (filter fst gs)).
  { assert (Bd' : forall iv, In iv (ivs 0 gs) -> fst iv < snd iv /\ snd iv <= length L) by (intros [a b] I; exact (Bd _ _ a b Sp0 I)).
    clear -Sl Bd' Nu. induction Sl as [|[a b] [f g] l m Q Sl IH]; constructor.
    - cbn [fst snd] in *. subst g. destruct (Bd' (a, b) (or_introl eq_refl)) as [B1 B2]. cbn in B1, B2. destruct (hunk_ok L a b Nu B1 B2) as (h & H1 & H2 & H3 & H4).
      exists h. split; [exact H1|]. repeat split; try apply H3; try apply H4; exact H2.
    - apply IH. intros iv I. apply Bd'. right. exact I. }
  apply all_some_map in F as (hs & Hs & F). exists (ivs 0 gs), hs. split.
  { exact Hs. }
  split; [exact Sp0|]. split; [|exact F]. intros i Hi. pose proof (ivs_flag gs 0 i) as X. cbn [Nat.add] in X. rewrite X, Cat, nth_flagged.
  destruct (nth_error L i) as [d|] eqn:D; [|apply nth_error_None in D; lia]. cbn. rewrite <- (window_near L i Hi). split.
  - intro H. rewrite H. eauto.
  - intros (x & H). congruence.
Qed.
