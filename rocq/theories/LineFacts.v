(** Line statistics (C43), and the changed lines in the hunks (C42). *)
From Coq Require Import Permutation Sorted RelationClasses.
From Verif Require Import Base BaseFacts Key Cbor Object Path World WorldFacts Store File Filter Dir Diff Commit SpecStore StoreCalls SpecRun SpecDiff SpecPatch
  ObjStoreFacts FileFacts FileRun DirLive CompareFacts PatchFacts Reader SortFacts.

(** ** Hunks *)
Lemma filter_none {A} (p : A -> bool) l : (forall i x, nth_error l i = Some x -> p x = false) -> filter p l = [].
Proof.
  induction l as [|x l IH]; intro H; [reflexivity|]. cbn [filter]. rewrite (H 0 x eq_refl). apply IH. intros i y. apply (H (S i)).
Qed.
Lemma skipn_skipn {A} a : forall b (l : list A), skipn a (skipn b l) = skipn (a + b) l.
Proof.
  induction b as [|b IH]; intro l; [rewrite Nat.add_0_r; reflexivity|]. destruct l as [|x l]; [rewrite !skipn_nil; reflexivity|].
  rewrite Nat.add_succ_r, !skipn_cons. apply IH.
Qed.
Lemma nth_error_skipn {A} n : forall (l : list A) i, nth_error (skipn n l) i = nth_error l (n + i).
Proof. induction n as [|n IH]; intros [|x l] i; try reflexivity; [destruct i; reflexivity|]. cbn [skipn Nat.add nth_error]. apply IH. Qed.
Lemma nth_error_firstn {A} n : forall (l : list A) i, i < n -> nth_error (firstn n l) i = nth_error l i.
Proof. induction n as [|n IH]; intros [|x l] [|i] L; try reflexivity; try lia. cbn [firstn nth_error]. apply IH. lia. Qed.
Lemma slice_split {A} (l : list A) from a b : from <= a -> a <= b -> skipn from l = slice from a l ++ slice a b l ++ skipn b l.
Proof.
  intros L1 L2. unfold slice.
  rewrite <- (firstn_skipn (a - from) (skipn from l)) at 1. f_equal. rewrite skipn_skipn. replace (a - from + from) with a by lia.
  rewrite <- (firstn_skipn (b - a) (skipn a l)) at 1. f_equal. rewrite skipn_skipn. f_equal. lia.
Qed.
Lemma changed_kept ls ivl : forall from, separated from (length ls) ivl ->
  (forall i x, from <= i -> nth_error ls i = Some x -> changed x = true -> exists a b, In (a, b) ivl /\ a <= i < b) ->
  filter changed (concat (map (fun '(a, b) => slice a b ls) ivl)) = filter changed (skipn from ls).
Proof.
  assert (Sl : forall a b i (x : pline), nth_error (slice a b ls) i = Some x -> nth_error ls (a + i) = Some x /\ a + i < b).
  { intros a b i x H. unfold slice in H. assert (i < b - a). { destruct (Nat.lt_ge_cases i (b - a)) as [|G]; [assumption|]. rewrite (proj2 (nth_error_None _ _)) in H; [discriminate|]. rewrite firstn_length. lia. }
    split; [|lia]. rewrite nth_error_firstn in H by assumption. rewrite nth_error_skipn in H. exact H. }
  assert (In0 : forall ivl from a b, separated from (length ls) ivl -> In (a, b) ivl -> from <= a).
  { induction ivl0 as [|[a b] r IH]; intros from a' b' Sp I; [destruct I|]. destruct I as [Q|I].
    - injection Q as -> ->. apply Sp.
    - destruct Sp as (L1 & L2 & L3 & Sp). specialize (IH _ _ _ Sp I). lia. }
  induction ivl as [|[a b] r IH]; intros from Sp H.
  - cbn. symmetry. apply filter_none. intros i x Hx. destruct (changed x) eqn:C; [|reflexivity]. rewrite nth_error_skipn in Hx.
    destruct (H (from + i) x) as (a & b & [] & _); [lia|exact Hx|exact C].
  - cbn [map concat]. pose proof Sp as (L1 & L2 & L3 & Sp'). rewrite (slice_split ls from a b) by lia. rewrite !filter_app.
    rewrite (filter_none _ (slice from a ls)).
    + cbn [app]. f_equal. rewrite (IH _ Sp').
      * destruct (skipn b ls) as [|y q] eqn:Q.
        -- replace (skipn (S b) ls) with (@nil pline); [reflexivity|]. symmetry. apply skipn_all2. apply (f_equal (@length pline)) in Q. rewrite skipn_length in Q. cbn in Q. lia.
        -- assert (Nb : nth_error ls b = Some y) by (rewrite <- (Nat.add_0_r b), <- nth_error_skipn, Q; reflexivity).
           replace (skipn (S b) ls) with q by (replace (S b) with (1 + b) by lia; rewrite <- skipn_skipn, Q; reflexivity).
           cbn [filter]. destruct (changed y) eqn:C; [|reflexivity]. exfalso. destruct (H b y) as (a' & b' & [I|I] & J); [lia|exact Nb|exact C| |].
           ++ injection I as -> ->. lia.
           ++ specialize (In0 _ _ _ _ Sp' I). lia.
      * intros i x Li Hx C. destruct (H i x) as (a' & b' & [I|I] & J); [lia|exact Hx|exact C| |eauto]. injection I as -> ->. lia.
    + intros i x Hx. apply Sl in Hx as [Hx Lt]. destruct (changed x) eqn:C; [|reflexivity]. exfalso. destruct (H (from + i) x) as (a' & b' & [I|I] & J); [lia|exact Hx|exact C| |].
      * injection I as -> ->. lia.
      * specialize (In0 _ _ _ _ Sp' I). lia.
Qed.
Lemma hunks_changed ds : exists hs, hunks_of ds = Some hs /\ filter changed (concat (map h_lines hs)) = filter changed (diff_plines ds).
Proof.
  destruct (hunks_ok ds) as (ivl & hs & H & Sp & Nr & F). exists hs. split; [exact H|].
  replace (map h_lines hs) with (map (fun '(a, b) => slice a b (diff_plines ds)) ivl).
  - rewrite (changed_kept _ _ 0 Sp); [reflexivity|]. intros i x _ Hx C. apply Nr; [apply nth_error_Some; rewrite Hx; discriminate|]. exists i, x. repeat split; auto; lia.
  - clear -F. induction F as [|[a b] h ivl hs Hh F IH]; [reflexivity|]. cbn [map]. f_equal; [|exact IH]. symmetry. apply Hh.
Qed.

(** ** Statistics *)
Section Stats.
  Context {E : Env}.
  Notation ds := sqlite_ds.
  Notation silent := (reader (fun _ => False)).
  Lemma silent_done {A} (m : M A) w a w' : silent m -> m w = (Done a, w') -> ticked w w' /\ calm m (cur_db w) (Done a) [].
  Proof.
    intros R H. destruct (rd_done _ m R _ _ _ H) as (o & S & C & F). destruct o as [|x o]; [|inversion F; contradiction]. split; [|exact C].
    destruct S as (t & f & ->). exists t, f. destruct w; reflexivity.
  Qed.
  Lemma calm_here {A} (m : M A) w r o : calm m (cur_db w) r o -> exists w', m (set_faults w []) = (r, w').
  Proof. intro C. destruct (C (set_faults w [])) as (w' & H & _); [reflexivity|destruct w; reflexivity|eauto]. Qed.
  Lemma silent_mapM {A B} (f : A -> M B) l : (forall x, silent (f x)) -> forall w ys w', mapM f l w = (Done ys, w') ->
    ticked w w' /\ Forall2 (fun x y => calm (f x) (cur_db w) (Done y) []) l ys.
  Proof.
    intro S. induction l as [|x l IH]; intros w ys w' H; cbn [mapM] in H.
    - apply ret_done in H as [-> ->]. split; [apply ticked_refl|constructor].
    - apply bind_done in H as (y & w1 & H1 & H). apply bind_done in H as (zs & w2 & H2 & H). apply ret_done in H as [-> ->].
      destruct (silent_done _ _ _ _ (S x) H1) as [T1 C1]. destruct (IH _ _ _ H2) as [T2 F]. rewrite (cur_ticked _ _ T1) in F.
      split; [eapply ticked_trans; eassumption|constructor; assumption].
  Qed.
  Lemma read_vec_stored k w d w' : Diff.read_vec ds k w = (Done d, w') -> ticked w w' /\ stored_bytes w k d.
  Proof.
    intro H. destruct (silent_done _ _ _ _ (rd_read_vec _ k) H) as [T C]. split; [exact T|]. intros v F Q.
    destruct (C v F Q) as (v' & X & _). unfold Diff.read_vec in X. apply unwrap_done in X. rewrite X. reflexivity.
  Qed.
  Lemma stored_db w v k d : cur_db w = cur_db v -> stored_bytes w k d -> stored_bytes v k d.
  Proof. intros Q S w' F C. apply S; [exact F|]. rewrite C. symmetry. exact Q. Qed.
  Lemma newlines_filter d : length (filter (fun b => byte_eqb b "010"%char) d) = newlines d.
  Proof.
    unfold newlines. induction d as [|b d IH]; [reflexivity|]. cbn [filter count_occ]. destruct (Ascii.ascii_dec b "010"%char) as [->|N].
    - rewrite (proj2 (byte_eqb_eq _ _) eq_refl). cbn [length]. rewrite IH. reflexivity.
    - destruct (byte_eqb b "010"%char) eqn:Q; [apply byte_eqb_eq in Q; contradiction|exact IH].
  Qed.
  Lemma only_old_filter l : length (filter (fun l => match l with DLeft _ => true | _ => false end) l) = only_old l.
  Proof. induction l as [|[] l IH]; cbn [filter length only_old]; congruence. Qed.
  Lemma only_new_filter l : length (filter (fun l => match l with DRight _ => true | _ => false end) l) = only_new l.
  Proof. induction l as [|[] l IH]; cbn [filter length only_new]; congruence. Qed.
  Lemma forall2_concat {A B} (R : A -> B -> Prop) (key : A -> option key) (l : list A) ys :
    Forall2 (fun x y => match key x with Some _ => exists s, y = [s] /\ R x s | None => y = [] end) l ys ->
    Forall2 R (filter (fun x => match key x with Some _ => true | None => false end) l) (concat ys).
  Proof.
    induction 1 as [|x y l ys Hx F IH]; [constructor|]. cbn [filter concat]. destruct (key x); [|subst y; exact IH]. destruct Hx as (s & -> & Rs). constructor; assumption.
  Qed.
  Lemma filter_filter {A} (p q : A -> bool) l : filter q (filter p l) = filter (fun x => p x && q x) l.
  Proof. induction l as [|x l IH]; [reflexivity|]. cbn [filter]. destruct (p x); cbn [filter andb]; [destruct (q x)|]; rewrite IH; reflexivity. Qed.
  Lemma forall2_imp {A B} (R R' : A -> B -> Prop) l ys : (forall x y, R x y -> R' x y) -> Forall2 R l ys -> Forall2 R' l ys.
  Proof. intros H. induction 1; constructor; auto. Qed.

  Lemma line_ct_stored k w n w' : line_ct ds k w = (Done n, w') -> exists d, stored_bytes w k d /\ n = newlines d.
  Proof.
    unfold line_ct. intro H. apply bind_done in H as (d & w1 & H1 & H). apply ret_done in H as [-> ->]. exists d. split; [eapply read_vec_stored, H1|apply newlines_filter].
  Qed.
  Lemma line_stat_done r w l w' : line_stat ds r w = (Done l, w') -> ticked w w' /\
    exists A D M, l = A ++ D ++ M /\ Forall2 (added_stat w) (added_files r) A /\ Forall2 (deleted_stat w) (deleted_files r) D /\ Forall2 (modified_stat w) (df_modified r) M.
  Proof.
    intro H. pose proof (silent_done _ _ _ _ (rd_line_stat _ r) H) as [T _]. split; [exact T|].
    unfold line_stat in H. apply bind_done in H as (a & w1 & H1 & H). apply bind_done in H as (d & w2 & H2 & H). apply bind_done in H as (m & w3 & H3 & H). apply ret_done in H as [-> ->].
    apply silent_mapM in H1 as [T1 F1]; [|intro x; destruct (ad_key x); [apply rd_bind; [apply rd_line_ct|intro]|]; apply rd_ret].
    apply silent_mapM in H2 as [T2 F2]; [|intro x; destruct (dl_key x); [apply rd_bind; [apply rd_line_ct|intro]|]; apply rd_ret].
    apply silent_mapM in H3 as [T3 F3]; [|intro x; apply rd_bind; [apply rd_read_vec|intro]; apply rd_bind; [apply rd_read_vec|intro]; apply rd_ret].
    rewrite (cur_ticked _ _ T1) in F2. rewrite (cur_ticked _ _ T2), (cur_ticked _ _ T1) in F3.
    assert (Z : cur_db (set_faults w []) = cur_db w) by (destruct w; reflexivity).
    exists (concat a), (concat d), m. split; [reflexivity|]. split; [|split].
    - unfold added_files. rewrite <- filter_filter. apply forall2_concat. eapply forall2_imp; [|exact F1]. intros x y C. apply calm_here in C as [w'' C].
      destruct (ad_key x) as [k|] eqn:K.
      + apply bind_done in C as (n & w4 & C1 & C). apply ret_done in C as [-> _]. apply line_ct_stored in C1 as (b & S & ->). eexists. split; [reflexivity|].
        exists k, b. split; [exact K|]. split; [eapply stored_db; eassumption|reflexivity].
      + apply ret_done in C as [-> _]. reflexivity.
    - unfold deleted_files. rewrite <- filter_filter. apply forall2_concat. eapply forall2_imp; [|exact F2]. intros x y C. apply calm_here in C as [w'' C].
      destruct (dl_key x) as [k|] eqn:K.
      + apply bind_done in C as (n & w4 & C1 & C). apply ret_done in C as [-> _]. apply line_ct_stored in C1 as (b & S & ->). eexists. split; [reflexivity|].
        exists k, b. split; [exact K|]. split; [eapply stored_db; eassumption|reflexivity].
      + apply ret_done in C as [-> _]. reflexivity.
    - eapply forall2_imp; [|exact F3]. intros x y C. apply calm_here in C as [w'' C]. apply bind_done in C as (b & w4 & C1 & C). apply bind_done in C as (c & w5 & C2 & C).
      apply ret_done in C as [-> _]. apply read_vec_stored in C1 as [T4 S1]. apply read_vec_stored in C2 as [_ S2]. exists b, c.
      split; [eapply stored_db; eassumption|]. split; [eapply stored_db; [|exact S2]; rewrite (cur_ticked _ _ T4); exact Z|]. rewrite only_old_filter, only_new_filter. reflexivity.
  Qed.
  Lemma print_done t a w w' : print t a w = (Done tt, w') -> w_out w' = Printed t a :: w_out w.
  Proof.
    unfold print. match goal with |- op ?e _ = _ -> _ => destruct (op_case e w) as (f & w1 & -> & T) end. intro H. destruct f; try discriminate H. injection H as <-.
    destruct T as (t' & f' & ->). reflexivity.
  Qed.
  Lemma print_stats_done l : forall w w', print_stats l w = (Done tt, w') -> w_out w' = rev (map stat_event l) ++ w_out w.
  Proof.
    induction l as [|s l IH]; intros w w' H; cbn [print_stats] in H; [apply ret_done in H as [_ ->]; reflexivity|].
    apply bind_done in H as ([] & w1 & H1 & H). apply IH in H. apply print_done in H1. rewrite H, H1. cbn [map rev]. rewrite <- app_assoc. reflexivity.
  Qed.
  Lemma filestat_antisym a b : filestat_cmp b a = CompOpp (filestat_cmp a b).
  Proof. unfold filestat_cmp. rewrite (path_cmp_antisym (st_name a)), (Nat.compare_antisym (st_added a) (st_added b)), (Nat.compare_antisym (st_removed a) (st_removed b)), !then_opp. reflexivity. Qed.
  Lemma print_stat_done r w w' : print_stat_diff_result ds r w = (Done tt, w') ->
    exists A D M l, Forall2 (added_stat w) (added_files r) A /\ Forall2 (deleted_stat w) (deleted_files r) D /\ Forall2 (modified_stat w) (df_modified r) M /\
      Permutation (A ++ D ++ M) l /\ Sorted (fun a b => path_cmp (st_name a) (st_name b) <> Gt) l /\ w_out w' = rev (map stat_event l) ++ w_out w.
  Proof.
    unfold print_stat_diff_result. intro H. apply bind_done in H as (l & w1 & H1 & H). apply line_stat_done in H1 as [T (A & D & M & -> & F1 & F2 & F3)].
    apply print_stats_done in H. exists A, D, M, (sort filestat_cmp (A ++ D ++ M)). split; [exact F1|]. split; [exact F2|]. split; [exact F3|]. split; [apply sort_perm|]. split.
    - clear H. pose proof (sort_sorted filestat_cmp filestat_antisym (A ++ D ++ M)) as Sd. induction Sd as [|x l S IH Hd]; [constructor|]. constructor; [exact IH|].
      destruct Hd as [|y l' Hy]; constructor. unfold le, filestat_cmp in Hy. destruct (path_cmp (st_name x) (st_name y)); [discriminate|discriminate|exact Hy].
    - rewrite H. f_equal. destruct T as (t & f & ->). destruct w; reflexivity.
  Qed.
End Stats.
