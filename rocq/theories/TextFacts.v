(** What [show] and [log] print (C69). *)
From Coq Require Import Permutation Sorted RelationClasses.
From Verif Require Import Base BaseFacts Key KeyFacts Keyish Cbor Object Path World WorldFacts Store File Filter Dir Diff Commit Main SpecKey SpecStore SpecResolve StoreCalls SpecRun SpecProc
  SpecFile SpecDir SpecCache SpecDiff SpecPatch SpecShow SpecCmd SpecOut StoreFacts TableFacts Frame DbRel Integrity ObjStoreFacts ResolveFacts SessionFacts FsFacts FilePlan ObjectFacts FileFacts FileRun DirFacts DirPlan DirTree DirTrip DirLive
  CompareFacts DiffFacts SnapFacts PatchFacts Reader SortFacts LineFacts ShowFacts ProcFacts CmdFacts OutFacts SpecText.

(** ** Lines *)
Lemma byte_eqb_refl b : byte_eqb b b = true.
Proof. apply byte_eqb_eq. reflexivity. Qed.
Lemma split_cut (s : bytes) : forall cur : bytes, ~ In "010"%char cur ->
  (~ In "010"%char s /\ split_nl cur s = [rev cur ++ s]) \/
  (exists a r : bytes, s = a ++ "010"%char :: r /\ ~ In "010"%char a /\ split_nl cur s = (rev cur ++ a) :: split_nl [] r).
Proof.
  induction s as [|b s IH]; intros cur N; cbn [split_nl].
  - left. split; [intros []|]. rewrite app_nil_r. reflexivity.
  - destruct (byte_eqb b "010"%char) eqn:Q.
    + apply byte_eqb_eq in Q as ->. right. exists [], s. rewrite app_nil_r. auto using in_nil.
    + assert (Nb : b <> "010"%char) by (intros ->; rewrite byte_eqb_refl in Q; discriminate).
      destruct (IH (b :: cur)) as [[N' H]|(a & r & -> & N' & H)]; [intros [X|I]; [congruence|auto]| |].
      * left. split; [intros [X|I]; [congruence|auto]|]. etransitivity; [exact H|]. cbn [rev]. rewrite <- app_assoc. reflexivity.
      * right. exists (b :: a), r. split; [reflexivity|]. split; [intros [X|I]; [congruence|auto]|]. etransitivity; [exact H|]. cbn [rev]. rewrite <- app_assoc. reflexivity.
Qed.
Lemma split_some s cur : split_nl cur s <> [].
Proof. revert cur. induction s as [|b s IH]; intro cur; cbn [split_nl]; [discriminate|]. destruct (byte_eqb b "010"%char); [discriminate|apply IH]. Qed.
Lemma strip_end l : exists cr, l = strip_cr l ++ cr /\ (cr = ["013"%char] \/ cr = [] /\ ~ ends_cr (strip_cr l)).
Proof.
  unfold strip_cr. destruct (rev l) as [|b r] eqn:Q.
  - exists []. rewrite app_nil_r. split; [reflexivity|]. right. split; [reflexivity|]. intros [l' ->]. rewrite rev_app_distr in Q. discriminate Q.
  - assert (Ql : l = rev r ++ [b]) by (rewrite <- (rev_involutive l), Q; reflexivity). destruct (byte_eqb b "013"%char) eqn:Qb.
    + apply byte_eqb_eq in Qb as ->. exists ["013"%char]. split; [exact Ql|left; reflexivity].
    + exists []. rewrite app_nil_r. split; [reflexivity|]. right. split; [reflexivity|]. intros [l' H]. rewrite H in Q. rewrite rev_app_distr in Q. cbn in Q. injection Q as <- _. rewrite byte_eqb_refl in Qb. discriminate.
Qed.
Lemma str_lines_cons x y l s : split_nl [] s = x :: y :: l -> str_lines s = strip_cr x :: match rev (y :: l) with [] :: r => map strip_cr (rev r) | _ => map strip_cr (y :: l) end.
Proof.
  intro H. unfold str_lines. rewrite H. cbn [rev]. destruct (rev (y :: l)) as [|z r] eqn:Q; [apply (f_equal (@rev _)) in Q; rewrite rev_involutive in Q; discriminate|].
  cbn [rev] in Q. rewrite Q. cbn [app]. destruct z; [|reflexivity]. rewrite rev_app_distr. reflexivity.
Qed.
Lemma str_lines_of n : forall s, length s <= n -> lines_of s (str_lines s).
Proof.
  induction n as [|n IH]; intros s L; [destruct s; [constructor|cbn in L; lia]|].
  destruct (split_cut s (@nil byte) (in_nil (a := _))) as [[N H]|(a & r & -> & N & H)]; cbn [rev app] in H.
  - assert (Hn : s = [] \/ s <> []) by (destruct s; [left; reflexivity|right; discriminate]). destruct Hn as [->|Hn]; [constructor|].
    assert (X : str_lines s = [strip_cr s]) by (unfold str_lines; match goal with |- context [split_nl ?c s] => change (split_nl c s) with (split_nl (@nil byte) s); replace (split_nl (@nil byte) s) with [s] by (symmetry; exact H) end; cbn [rev app map]; destruct s; [congruence|reflexivity]). rewrite X. clear X.
    destruct (strip_end s) as (cr & Q & C). rewrite Q at 1. constructor; [|exact C|intro X; apply Hn; rewrite Q; exact X].
    intro I. apply N. rewrite Q. apply in_or_app. left. exact I.
  - destruct (split_nl [] r) as [|y l] eqn:Qr; [destruct (split_some _ _ Qr)|]. rewrite (str_lines_cons _ _ _ _ H), <- Qr.
    destruct (strip_end a) as (cr & Q & C).
    replace (a ++ "010"%char :: r) with (strip_cr a ++ cr ++ "010"%char :: r) by (rewrite app_assoc; f_equal; symmetry; exact Q).
    constructor; [|exact C|].
    + intro I. apply N. rewrite Q. apply in_or_app. left. exact I.
    + apply (IH r). rewrite app_length in L. cbn in L. lia.
Qed.
Lemma lines_fun s ls : lines_of s ls -> forall ls', lines_of s ls' -> ls' = ls.
Proof.
  assert (Cut : forall (a b s t : bytes), ~ In "010"%char a -> ~ In "010"%char b -> a ++ "010"%char :: s = b ++ "010"%char :: t -> a = b /\ s = t).
  { induction a as [|x a IH]; intros [|y b] s0 t Na Nb Q; cbn in Q.
    - injection Q as ->. auto.
    - injection Q as Q1 Q2. destruct Nb. left. auto.
    - injection Q as Q1 Q2. destruct Na. left. auto.
    - injection Q as -> Q2. destruct (IH b s0 t) as [-> ->]; auto; intro; [apply Na|apply Nb]; right; assumption. }
  assert (Cr : forall l cr l' cr', (cr = ["013"%char] \/ cr = [] /\ ~ ends_cr l) -> (cr' = ["013"%char] \/ cr' = [] /\ ~ ends_cr l') -> l ++ cr = l' ++ cr' -> l = l').
  { intros l cr l' cr' [->|[-> N]] [->|[-> N']] Q.
    - apply app_inj_tail in Q. apply Q.
    - rewrite app_nil_r in Q. destruct N'. exists l. auto.
    - rewrite app_nil_r in Q. destruct N. exists l'. auto.
    - rewrite !app_nil_r in Q. exact Q. }
  assert (Nc : forall l cr, ~ In "010"%char l -> (cr = ["013"%char] \/ cr = [] /\ ~ ends_cr l) -> ~ In "010"%char (l ++ cr)).
  { intros l cr N C I. apply in_app_or in I as [I|I]; [auto|]. destruct C as [->|[-> _]]; [destruct I as [I|[]]; discriminate I|destruct I]. }
  induction 1 as [|l cr s ls N C _ IH|l cr N C Ne]; intros ls' H.
  - inversion H as [|l cr s ls N C L Q|l cr N C Ne Q]; [reflexivity| |exfalso; auto]. destruct l; destruct cr; discriminate Q.
  - inversion H as [Q|l' cr' s' ls0 N' C' L' Q|l' cr' N' C' Ne' Q].
    + destruct l; destruct cr; discriminate Q.
    + rewrite !app_assoc in Q. apply Cut in Q as [Q1 Q2]; [|apply Nc; assumption|apply Nc; assumption]. subst s'. f_equal; [symmetry; eapply Cr; [exact C|exact C'|auto]|apply IH; exact L'].
    + exfalso. apply (Nc _ _ N' C'). rewrite Q. rewrite app_assoc. apply in_or_app. right. left. reflexivity.
  - inversion H as [Q|l' cr' s' ls0 N' C' L' Q|l' cr' N' C' Ne' Q].
    + exfalso. auto.
    + exfalso. apply (Nc _ _ N C). rewrite <- Q. rewrite app_assoc. apply in_or_app. right. left. reflexivity.
    + f_equal. symmetry. eapply Cr; [exact C|exact C'|auto].
Qed.
Lemma lines_exact s ls : lines_of s ls <-> ls = str_lines s.
Proof. split; [intro H; apply (lines_fun s); [apply (str_lines_of (length s)); lia|exact H]|intros ->; apply (str_lines_of (length s)); lia]. Qed.

(** ** Lists in the order of paths *)
Lemma named_eq a b : named a = named b -> a = b.
Proof. intro H. injection H as H. revert b H. induction a as [|x a IH]; intros [|y b] H; cbn in H; try discriminate H; [reflexivity|]. injection H as -> H. f_equal. apply IH, H. Qed.
Lemma by_path_filter {A} (get : A -> path) f l : by_path get l -> by_path get (filter f l).
Proof.
  intros (rs & M & S). revert rs M S. induction l as [|x l IH]; intros rs M S; [exists []; split; [reflexivity|constructor]|].
  destruct rs as [|r rs]; [discriminate M|]. cbn in M. injection M as Mx M. inversion S as [|? ? S1 S2]; subst. destruct (IH rs M S1) as (rs' & M' & S'). cbn [filter]. destruct (f x); [|exists rs'; auto].
  exists (r :: rs'). split; [cbn; congruence|]. constructor; [exact S'|]. rewrite Forall_forall in S2 |- *. intros y I. apply S2.
  assert (J : In (named y) (map get (filter f l))) by (rewrite M'; apply in_map, I). apply in_map_iff in J as (a & Qa & J). apply filter_In in J as [J _].
  assert (K : In (get a) (map named rs)) by (rewrite <- M; apply in_map, J). apply in_map_iff in K as (z & Qz & K). rewrite Qa in Qz. apply named_eq in Qz as ->. exact K.
Qed.
Lemma by_path_sorted {A} (get : A -> path) l : Sorted (fun a b => path_cmp (get a) (get b) <> Gt) l -> Forall (fun x => exists r, get x = named r) l -> NoDup (map get l) -> by_path get l.
Proof.
  intros S F N. assert (H : exists rs, map get l = map named rs /\ Sorted loc_lt rs).
  { induction l as [|x l IH]; [exists []; split; [reflexivity|constructor]|]. inversion S as [|? ? S1 S2]; subst. inversion F as [|? ? [r Hr] F1]; subst.
    inversion N as [|? ? N1 N2]; subst. destruct IH as (rs & M & Sr); auto. exists (r :: rs). split; [cbn; congruence|]. constructor; [exact Sr|].
    destruct l as [|y l]; destruct rs as [|s rs]; try discriminate; constructor. cbn in M. inversion M as [[M1 M2]]. inversion S2 as [|? ? Le]; subst.
    assert (Q : path_cmp (get x) (get y) = lex_cmp bytes_cmp r s) by (rewrite Hr, M1; apply path_cmp_named).
    apply loc_cmp_lt. destruct (lex_cmp bytes_cmp r s) eqn:C; [|reflexivity|].
    - apply loc_cmp_eq in C. subst s. exfalso. apply N1. left. congruence.
    - exfalso. apply Le. rewrite Q. reflexivity. }
  destruct H as (rs & M & Sr). exists rs. split; [exact M|]. apply Sorted_StronglySorted; [|exact Sr]. exact loc_lt_trans.
Qed.
Lemma by_path_nodup {A} (get : A -> path) l : by_path get l -> NoDup (map get l).
Proof.
  intros (rs & -> & S). induction S as [|r rs S IH F]; [constructor|]. cbn [map]. constructor; [|exact IH]. intro I. apply in_map_iff in I as (y & Q & I). apply named_eq in Q as ->.
  rewrite Forall_forall in F. exact (loc_lt_irrefl _ (F _ I)).
Qed.
Lemma listed_of {A B} (get : A -> path) (l : list A) (ys : list B) (R : A -> B -> Prop) (D : loc -> Prop) (P : loc -> B -> Prop) :
  by_path get l -> Forall2 R l ys -> (forall x, D x <-> exists a, In a l /\ get a = named x) ->
  (forall a b x, In a l -> R a b -> get a = named x -> P x b) -> exists L, map snd L = ys /\ map (fun p => named (fst p)) L = map get l /\ listed D P L.
Proof.
  intros (rs & M & S) F HD HP.
  assert (Ln : length rs = length ys) by (rewrite <- (map_length named rs), <- M, map_length; clear -F; induction F; cbn; congruence).
  exists (combine rs ys). assert (X : map fst (combine rs ys) = rs /\ map snd (combine rs ys) = ys).
  { clear -Ln. revert ys Ln. induction rs as [|r rs IH]; intros [|y ys] Ln; try discriminate Ln; [split; reflexivity|]. cbn in *. destruct (IH ys) as [-> ->]; [lia|]. split; reflexivity. }
  destruct X as [X1 X2]. split; [exact X2|]. split; [rewrite M, <- (map_map fst named), X1; reflexivity|]. split; [rewrite X1; exact S|]. split.
  - intro x. rewrite X1, HD. split.
    + intro I. assert (J : In (named x) (map get l)) by (rewrite M; apply in_map, I). apply in_map_iff in J as (a & Q & J). eauto.
    + intros (a & I & Q). assert (J : In (get a) (map named rs)) by (rewrite <- M; apply in_map, I). apply in_map_iff in J as (z & Qz & J). rewrite Q in Qz. apply named_eq in Qz as ->. exact J.
  - clear X1 X2 HD S. revert rs M Ln. induction F as [|a b l ys Rab F IH]; intros rs M Ln x y I; [destruct rs; destruct I|].
    destruct rs as [|r rs]; [destruct I|]. cbn in M, Ln. injection M as M1 M2. destruct I as [I|I].
    + injection I as <- <-. eapply HP; [left; reflexivity|exact Rab|exact M1].
    + eapply IH; [intros; eapply HP; eauto; right; assumption|exact M2|lia|exact I].
Qed.

Section TextFacts.
  Context {E : Env}.
  Notation ds := sqlite_ds.
  Definition fmt (p : patch) : bytes := show_patch p ++ ["010"%char].
  Definition add_patch (w : world) (a : added_result) (p : patch) : Prop :=
    exists k bs, ad_key a = Some k /\ stored_bytes w k bs /\ utf8_valid bs = true /\ p = whole_file_patch (ad_path a) bs LAdd true.
  Definition mod_patch (w : world) (m : modified_result) (p : patch) : Prop :=
    exists b a hs, stored_bytes w (md_old m) b /\ stored_bytes w (md_new m) a /\ hunks_of (changeset (lossy b) (lossy a)) = Some hs /\
      p = Patch (display (md_path m)) (display (md_path m)) hs.
  Lemma fmt_files (w : world) (l : list added_result) ys :
    Forall2 (fun x y => if negb (ad_isdir x) && has_key (ad_key x) then exists p, y = fmt p /\ add_patch w x p else y = []) l ys ->
    exists ps, concat ys = concat (map fmt ps) /\ Forall2 (add_patch w) (filter (fun x => negb (ad_isdir x) && has_key (ad_key x)) l) ps.
  Proof.
    induction 1 as [|x y l ys Hx F (ps & Q & Fp)]; [exists []; split; [reflexivity|constructor]|]. cbn [filter concat]. destruct (negb (ad_isdir x) && has_key (ad_key x)).
    - destruct Hx as (p & -> & Ap). exists (p :: ps). split; [cbn; rewrite Q; reflexivity|constructor; assumption].
    - subst y. exists ps. auto.
  Qed.
  Lemma fmt_changed (w : world) (l : list modified_result) ys : Forall2 (fun x y => exists p, y = fmt p /\ mod_patch w x p) l ys ->
    exists ps, concat ys = concat (map fmt ps) /\ Forall2 (mod_patch w) l ps.
  Proof.
    induction 1 as [|x y l ys (p & -> & Ap) F (ps & Q & Fp)]; [exists []; split; [reflexivity|constructor]|]. exists (p :: ps). split; [cbn; rewrite Q; reflexivity|constructor; assumption].
  Qed.
  Lemma patch_done r w w' : df_deleted r = [] -> print_patch_diff_result ds r w = (Done tt, w') ->
    exists A M, Forall2 (add_patch w) (added_files r) A /\ Forall2 (mod_patch w) (df_modified r) M /\
      says w w' [Printed "patch" [concat (map fmt (A ++ M))]].
  Proof.
    unfold print_patch_diff_result, create_diff_patch_result. intros Dn H. rewrite Dn in H. apply bind_done in H as (s & w1 & H & Hp). apply print_done in Hp.
    apply bind_done in H as (a & w2 & Ha & H). cbn [mapM] in H. apply bind_done in H as (d & w3 & Hd & H). apply ret_done in Hd as [-> ->].
    apply bind_done in H as (m & w4 & Hm & H). apply ret_done in H as [-> ->].
    apply silent_mapM in Ha as [Ta Fa]; [|intro; apply rd_whole]. apply silent_mapM in Hm as [Tm Fm]; [|intro; apply rd_bind; [apply rd_read_vec|intro]; apply rd_bind; [apply rd_read_vec|intro]; apply rd_patch_string].
    rewrite (cur_ticked _ _ Ta) in Fm. assert (Z : cur_db (set_faults w []) = cur_db w) by (destruct w; reflexivity).
    destruct (fmt_files w (df_added r) a) as (A & QA & FA).
    { eapply forall2_imp; [|exact Fa]. intros x y C. cbn beta in C. apply calm_here in C as [v C]. unfold whole_file in C. destruct (ad_isdir x); cbn [negb andb]; [apply ret_done in C as [-> _]; reflexivity|].
      destruct (ad_key x) as [k|] eqn:K; cbn [has_key]; [|apply ret_done in C as [-> _]; reflexivity]. apply bind_done in C as (bs & v1 & C1 & C). apply read_vec_stored in C1 as [_ Sb].
      destruct (utf8_valid bs) eqn:U; [|discriminate C]. apply ret_done in C as [-> _]. exists (whole_file_patch (ad_path x) bs LAdd true). split; [reflexivity|].
      exists k, bs. split; [exact K|]. split; [eapply stored_db; eassumption|]. split; [exact U|reflexivity]. }
    destruct (fmt_changed w (df_modified r) m) as (M & QM & FM).
    { eapply forall2_imp; [|exact Fm]. intros x y C. cbn beta in C. apply calm_here in C as [v C]. apply bind_done in C as (b & v1 & C1 & C). apply bind_done in C as (c & v2 & C2 & C).
      apply read_vec_stored in C1 as [T1 S1]. apply read_vec_stored in C2 as [_ S2]. unfold patch_from_file_string in C. destruct (hunks_of (changeset (lossy b) (lossy c))) as [hs|] eqn:Hh; [|discriminate C].
      apply ret_done in C as [-> _]. exists (Patch (display (md_path x)) (display (md_path x)) hs). split; [reflexivity|]. exists b, c, hs.
      split; [eapply stored_db; eassumption|]. split; [eapply stored_db; [|exact S2]; rewrite (cur_ticked _ _ T1); exact Z|]. auto. }
    exists A, M. split; [exact FA|]. split; [exact FM|]. unfold says. rewrite Hp, (ticked_out _ _ Tm), (ticked_out _ _ Ta), QA, QM. cbn [rev app]. rewrite map_app, concat_app. reflexivity.
  Qed.
  Lemma hunks_made d hs : hunks_of d = Some hs -> hunks_from d hs.
  Proof. intro H. destruct (hunks_ok d) as (ivl & hs' & H' & S & N & F). rewrite H' in H. injection H as ->. exists ivl. auto. Qed.

  Lemma patch_text w new old r w0 w' : cur_db w0 = cur_db w -> db_result w (Some new) old r -> print_patch_diff_result ds r w0 = (Done tt, w') -> exists l, says w0 w' l /\ tree_text w KPatch new old l.
  Proof.
    intros Qd (Dn & Da & Dm & Ba & Bm) H. apply (patch_done _ _ _ Dn) in H as (PA & PM & FA & FM & Sy). eexists. split; [exact Sy|].
    destruct (listed_of ad_path (added_files r) PA (add_patch w0) (fun x => exists k, new_file w new old x k) (new_patch w new old)) as (LA & QA & _ & LA').
    - apply by_path_filter, Ba.
    - exact FA.
    - intro x. unfold added_files. split.
      + intros (k & T & N). exists (Added (named x) false (Some k)). split; [apply filter_In; split; [apply Da; exists x, k, false; auto|reflexivity]|reflexivity].
      + intros (a & I & Q). apply filter_In in I as [I F]. apply Da in I as (y & k & d & T & N & ->). cbn in Q, F. apply named_eq in Q as ->. destruct d; [discriminate F|]. exists k. split; assumption.
    - intros a b x I (k & bs & K & S & U & ->) Q. unfold added_files in I. apply filter_In in I as [I F]. apply Da in I as (y & k' & d & T & N & ->). cbn in Q, F, K. apply named_eq in Q as ->.
      destruct d; [discriminate F|]. injection K as ->. exists k, bs. split; [split; assumption|]. split; [eapply stored_bytes_cur; [|exact S]; congruence|]. split; [exact U|].
      exists (str_lines bs). split; [apply lines_exact; reflexivity|]. unfold whole_file_patch. cbn [ad_path]. repeat f_equal. unfold lenN. rewrite map_length. reflexivity.
    - destruct (listed_of md_path (df_modified r) PM (mod_patch w0) (fun x => exists k k', changed_file w new old x k k') (changed_patch w new old)) as (LM & QM & _ & LM').
      + exact Bm.
      + exact FM.
      + intro x. split.
        * intros (k & k' & d & d' & T & T' & N). exists (Modified (named x) k' k). split; [apply Dm; exists x, k, d, k', d'; auto|reflexivity].
        * intros (a & I & Q). apply Dm in I as (y & k & d & k' & d' & T & T' & N & ->). cbn in Q. apply named_eq in Q as ->. exists k, k', d, d'. auto.
      + intros a b x I (b0 & a0 & hs & S1 & S2 & Hh & ->) Q. apply Dm in I as (y & k & d & k' & d' & T & T' & N & ->). cbn in Q, S1, S2. apply named_eq in Q as ->.
        exists k, k', b0, a0. split; [exists d, d'; auto|]. split; [eapply stored_bytes_cur; [|exact S1]; congruence|]. split; [eapply stored_bytes_cur; [|exact S2]; congruence|].
        exists hs. split; [apply hunks_made, Hh|reflexivity].
      + exists LA, LM. split; [exact LA'|]. split; [exact LM'|]. replace (map snd (LA ++ LM)) with (PA ++ PM) by (rewrite <- QA, <- QM; symmetry; apply map_app). reflexivity.
  Qed.
  Lemma F2_map {A B C} (R : A -> B -> Prop) (f : A -> C) (g : B -> C) l ys : (forall a b, R a b -> g b = f a) -> Forall2 R l ys -> map g ys = map f l.
  Proof. intros H. induction 1 as [|a b l ys Rab F IH]; [reflexivity|]. cbn. rewrite IH, (H _ _ Rab). reflexivity. Qed.
  Lemma NoDup_app' {A} (l m : list A) : NoDup l -> NoDup m -> (forall x, In x l -> ~ In x m) -> NoDup (l ++ m).
  Proof.
    intros N M D. induction N as [|x l Nx N IH]; [exact M|]. cbn. constructor; [|apply IH; intros; apply D; right; assumption].
    intro I. apply in_app_or in I as [I|I]; [auto|]. exact (D x (or_introl eq_refl) I).
  Qed.
  Lemma stat_text w new old r w0 w' : cur_db w0 = cur_db w -> db_result w (Some new) old r -> print_stat_diff_result ds r w0 = (Done tt, w') -> exists l, says w0 w' l /\ tree_text w KStat new old l.
  Proof.
    intros Qd (Dn & Da & Dm & Ba & Bm) H. apply print_stat_done in H as (A & D & M & l & FA & FD & FM & P & S & Out).
    assert (D = []) as -> by (unfold deleted_files in FD; rewrite Dn in FD; inversion FD; reflexivity). cbn [app] in P.
    assert (QA : map st_name A = map ad_path (added_files r)) by (apply (F2_map (added_stat w0)); [intros a b (k & d & _ & _ & ->); reflexivity|exact FA]).
    assert (QM : map st_name M = map md_path (df_modified r)) by (apply (F2_map (modified_stat w0)); [intros a b (k & d & _ & _ & ->); reflexivity|exact FM]).
    assert (IA : forall s, In s A -> exists x k bs, new_file w new old x k /\ stored_bytes w k bs /\ s = FileStat (named x) (newlines bs) 0).
    { intros s I. apply (F2_in _ _ _ _ FA) in I as (a & I & k & bs & K & Sb & ->). unfold added_files in I. apply filter_In in I as [I F]. apply Da in I as (x & k' & d & T & N & ->). cbn in K, F. injection K as ->.
      destruct d; [discriminate F|]. exists x, k, bs. split; [split; assumption|]. split; [eapply stored_bytes_cur; [|exact Sb]; congruence|reflexivity]. }
    assert (IM : forall s, In s M -> exists x k k' b a, changed_file w new old x k k' /\ stored_bytes w k' b /\ stored_bytes w k a /\
                   s = FileStat (named x) (only_new (diff_lines (lossy b) (lossy a))) (only_old (diff_lines (lossy b) (lossy a)))).
    { intros s I. apply (F2_in _ _ _ _ FM) in I as (m & I & b & a & S1 & S2 & ->). apply Dm in I as (x & k & d & k' & d' & T & T' & N & ->). cbn in S1, S2.
      exists x, k, k', b, a. split; [exists d, d'; auto|]. split; [eapply stored_bytes_cur; [|exact S1]; congruence|]. split; [eapply stored_bytes_cur; [|exact S2]; congruence|reflexivity]. }
    assert (Bl : by_path st_name l).
    { apply by_path_sorted; [exact S| |].
      - rewrite <- P. apply Forall_forall. intros s I. apply in_app_or in I as [I|I]; [apply IA in I as (x & k & bs & _ & _ & ->)|apply IM in I as (x & k & k' & b & a & _ & _ & _ & ->)]; exists x; reflexivity.
      - rewrite <- P. rewrite map_app. apply NoDup_app'.
        + rewrite QA. apply by_path_nodup, by_path_filter, Ba.
        + rewrite QM. apply by_path_nodup, Bm.
        + intros p I J. apply in_map_iff in I as (s & <- & I). apply in_map_iff in J as (s' & Q & J). apply IA in I as (x & k & bs & [_ N] & _ & ->). apply IM in J as (y & k1 & k' & b & a & (d & d' & _ & T' & _) & _ & _ & ->).
          cbn in Q. apply named_eq in Q as ->. exact (N _ _ T'). }
    destruct (listed_of st_name l (map (fun s => (st_added s, st_removed s)) l) (fun s p => p = (st_added s, st_removed s))
               (fun x => (exists k, new_file w new old x k) \/ (exists k k', changed_file w new old x k k')) (file_stat w new old)) as (L & QL & X & LL).
    - exact Bl.
    - clear. induction l; cbn; constructor; auto.
    - intro x. split.
      + intros [(k & T & N)|(k & k' & d & d' & T & T' & N)].
        * assert (I : In (Added (named x) false (Some k)) (added_files r)) by (apply filter_In; split; [apply Da; exists x, k, false; auto|reflexivity]).
          apply (F2_in' _ _ _ _ FA) in I as (s & I & k' & bs & _ & _ & Q). exists s. split; [apply (Permutation_in _ P), in_or_app; left; exact I|rewrite Q; reflexivity].
        * assert (I : In (Modified (named x) k' k) (df_modified r)) by (apply Dm; exists x, k, d, k', d'; auto).
          apply (F2_in' _ _ _ _ FM) in I as (s & I & b & a & _ & _ & Q). exists s. split; [apply (Permutation_in _ P), in_or_app; right; exact I|rewrite Q; reflexivity].
      + intros (s & I & Q). apply (Permutation_in _ (Permutation_sym P)) in I. apply in_app_or in I as [I|I].
        * apply IA in I as (y & k & bs & T & _ & ->). cbn in Q. apply named_eq in Q as ->. left. eauto.
        * apply IM in I as (y & k & k' & b & a & T & _ & _ & ->). cbn in Q. apply named_eq in Q as ->. right. eauto.
    - intros s p x I -> Q. apply (Permutation_in _ (Permutation_sym P)) in I. apply in_app_or in I as [I|I].
      + apply IA in I as (y & k & bs & T & Sb & ->). cbn in Q. apply named_eq in Q as ->. left. exists k, bs. auto.
      + apply IM in I as (y & k & k' & b & a & T & S1 & S2 & ->). cbn in Q. apply named_eq in Q as ->. right. exists k, k', b, a. auto.
    - exists (map stat_event l). split; [exact Out|]. exists L. split; [exact LL|].
      clear -QL X. revert l QL X. induction L as [|[x [a b]] L IH]; intros [|s l] QL X; try discriminate; [reflexivity|]. cbn in *. injection QL as Qa Qb QL. injection X as X0 X.
      rewrite IH with (l := l); auto. unfold stat_event. rewrite <- X0, Qa, Qb. reflexivity.
  Qed.
  (** ** Objects *)
  Lemma shown_untouched o w w' : shown o w w' -> untouched w w'.
  Proof. intros (t & f & ->). destruct w; repeat split. Qed.
  Lemma rdr_untouched {A} (m : M A) w a w' : reader anything m -> m w = (Done a, w') -> untouched w w'.
  Proof. intros R H. destruct (rd_done _ _ R _ _ _ H) as (o & S & _). eapply shown_untouched, S. Qed.
  Lemma silent_says {A} (m : M A) w a w' : reader (fun _ => False) m -> m w = (Done a, w') -> says w w' [] /\ cur_db w' = cur_db w.
  Proof. intros R H. destruct (silent_done _ _ _ _ R H) as [T _]. split; [apply says_silent, ticked_out, T|apply cur_ticked, T]. Qed.
  Lemma print_says t a w w' : print t a w = (Done tt, w') -> says w w' [Printed t a] /\ cur_db w' = cur_db w.
  Proof. intro H. split; [exact (print_done _ _ _ _ H)|]. exact (rdr_db (print t a) w tt w' (rd_print anything t a I) H). Qed.
  Lemma says_cons e l w w1 w' : says w w1 [e] -> says w1 w' l -> says w w' (e :: l).
  Proof. exact (says_trans w w1 w' [e] l). Qed.
  Lemma base_done c w to w' : base_of c w = (Done to, w') -> base_tree w c to.
  Proof.
    unfold base_of, base_tree. intro H. destruct (c_parents c) as [|p ps]; [apply ret_done in H as [-> _]; reflexivity|].
    apply bind_done in H as (po & w1 & H1 & H). apply bind_done in H as (pc & w2 & H2 & H). apply ret_done in H as [-> _].
    pose proof (get_reads _ _ _ _ H1) as R. apply unwrap_done, commit_done in H2 as [_ Co]. exists pc. split; [exists po; auto|reflexivity].
  Qed.
  Lemma base_fun w c a b : base_tree w c a -> base_tree w c b -> a = b.
  Proof.
    unfold base_tree. destruct (c_parents c); [congruence|]. intros (p & (o & R & C) & ->) (p' & (o' & R' & C') & ->).
    rewrite (reads_fun _ _ _ _ R' R) in C'. specialize (C w). rewrite C' in C. injection C as ->. reflexivity.
  Qed.
  Lemma base_db w v c to : cur_db w = cur_db v -> base_tree w c to -> base_tree v c to.
  Proof. intro Q. unfold base_tree. destruct (c_parents c); [auto|]. intros (p' & R & ->). exists p'. split; [eapply reads_commit_db; eauto|reflexivity]. Qed.
  Lemma compare_unwrapped k to w r w' : tidy w k -> tidy_of w to -> unwrap (compare ds (TDatabase k) to) w = (Done r, w') -> ticked w w' /\ db_result w (Some k) to r.
  Proof. intros T1 T2 H. apply unwrap_done in H. eapply compare_db_done; eassumption. Qed.
  Lemma db_result_cur w v from to r : cur_db v = cur_db w -> db_result w from to r -> db_result v from to r.
  Proof.
    intros Q (A & B & C & D). split; [exact A|]. assert (Q' : cur_db w = cur_db v) by auto. split; [|split; [|exact D]].
    - intro a. rewrite B. split; intros (x & k & d & T & N & ->); exists x, k, d; (split; [eapply tree_cur; [|exact T]; auto|]); (split; [|reflexivity]); intros k' d' T'; eapply N, tree_cur; [|exact T'| |exact T']; auto.
    - intro b. rewrite C. split; intros (x & k & d & k' & d' & T & T' & N & ->); exists x, k, d, k', d'; (split; [eapply tree_cur; [|exact T]; auto|]); (split; [eapply tree_cur; [|exact T']; auto|auto]).
  Qed.
  Lemma rest_text w c kd w0 w' : cur_db w0 = cur_db w -> tidy_commit w c -> rest_of c kd w0 = (Done tt, w') -> exists old l, base_tree w c old /\ says w0 w' l /\ tree_text w kd (c_tree c) old l.
  Proof.
    intros Q [T1 T2] H. unfold rest_of in H. apply bind_done in H as (old & w1 & H1 & H). apply bind_done in H as (r & w2 & H2 & H).
    pose proof (base_done _ _ _ _ H1) as B. apply (base_db _ w) in B; [|exact Q]. apply silent_says in H1 as [S1 C1]; [|unfold base_of; destruct (c_parents c); [apply rd_ret|apply rd_bind; [apply rd_unwrap, rd_get_obj|intro]; apply rd_bind; [apply rd_unwrap, rd_commit_of|intro]; apply rd_ret]].
    assert (Q1 : cur_db w1 = cur_db w) by congruence.
    apply compare_unwrapped in H2 as [T D]; [|exact (tidy_cur w w1 (Some (c_tree c)) Q1 T1)|exact (tidy_cur w w1 old Q1 (T2 _ B))].
    apply (db_result_cur _ w) in D; [|symmetry; exact Q1]. assert (Q2 : cur_db w2 = cur_db w) by (rewrite (cur_ticked _ _ T); exact Q1).
    assert (X : exists l, says w2 w' l /\ tree_text w kd (c_tree c) old l) by (destruct kd; [eapply stat_text|eapply patch_text]; eassumption).
    destruct X as (l & S & X). exists old, l. split; [exact B|]. split; [|exact X].
    apply (says_trans w0 w1 w' [] l S1). apply (says_trans w1 w2 w' [] l); [apply says_silent, ticked_out, T|exact S].
  Qed.
  Lemma is_commit_fun w k c c' : is_commit w k c -> is_commit w k c' -> c' = c.
  Proof. intros (o & R & _ & C) (o' & R' & _ & C'). rewrite (reads_fun _ _ _ _ R' R) in C'. specialize (C w). rewrite C' in C. injection C as ->. reflexivity. Qed.
  Lemma tidy_commit_db w v c : cur_db v = cur_db w -> tidy_commit w c -> tidy_commit v c.
  Proof. intros Q [A B]. split; [exact (tidy_cur w v (Some (c_tree c)) Q A)|]. intros old H. apply (tidy_cur w); [exact Q|]. apply B. eapply base_db; [|exact H]. exact Q. Qed.
  Lemma commit_shown f k kd w w0 w' c : cur_db w0 = cur_db w -> is_commit w k c -> tidy_commit w c -> display_obj ds (S f) k kd w0 = (Done tt, w') ->
    exists l, says w0 w' l /\ commit_text w kd k c l.
  Proof.
    intros Q (o & Ro & To & Co) T H. rewrite display_eq in H. apply bind_done in H as (o' & w1 & H1 & H).
    assert (o' = o) as -> by (eapply reads_fun; [eapply get_reads, H1|eapply reads_db; [|exact Ro]; auto]). rewrite To in H.
    apply silent_says in H1 as [S1 C1]; [|apply rd_unwrap, rd_get_obj].
    apply bind_done in H as ([] & w2 & H2 & H). apply print_says in H2 as [S2 C2].
    apply bind_done in H as (c' & w3 & H3 & H). apply unwrap_done, commit_done in H3 as [-> Co']. assert (c' = c) as -> by (specialize (Co w); rewrite Co' in Co; injection Co as ->; reflexivity).
    apply bind_done in H as ([] & w4 & H4 & H). apply print_says in H4 as [S4 C4]. apply bind_done in H as ([] & w5 & H5 & H). apply print_says in H5 as [S5 C5].
    apply bind_done in H as ([] & w6 & H6 & H). apply print_says in H6 as [S6 C6].
    apply (rest_text w) in H as (old & l & B & S & X); [|congruence|exact T]. eexists. split; [|exists old, l; split; [exact B|split; [exact X|reflexivity]]].
    apply (says_trans w0 w1 w' [] _ S1). repeat (eapply says_cons; [eassumption|]). exact S.
  Qed.
  Definition piece (d : bytes) : event := Printed "raw" [d].
  Lemma written f : forall k w w', read_data ds stdout_write f k tt w = (Done tt, w') -> cur_db w' = cur_db w /\
    exists ps, says w w' (map piece ps) /\ forall n s v, f <= n -> w_faults v = [] -> cur_db v = cur_db w -> exists v', read_data ds vec_write n k s v = (Done (s ++ concat ps), v') /\ w_faults v' = [] /\ cur_db v' = cur_db v.
  Proof.
    induction f as [|f IH]; intros k w w' H; [discriminate H|]. cbn [read_data] in H. apply bind_done in H as (o & w1 & H1 & H).
    assert (G : forall v, w_faults v = [] -> cur_db v = cur_db w -> exists v', get_obj ds k v = (Done o, v') /\ w_faults v' = [] /\ cur_db v' = cur_db v).
    { intros v F C. destruct (silent_done _ _ _ _ (rd_get_obj _ k) H1) as [_ Cm]. destruct (Cm v F C) as (v' & X & Sh & F'). exists v'. split; [exact X|]. split; [exact F'|exact (shown_cur _ _ _ Sh)]. }
    apply silent_says in H1 as [S1 C1]; [|apply rd_get_obj]. destruct (o_type o) eqn:To; try discriminate H.
    - (* tree *)
      assert (X : forall l w1 w', (fix each (l : list key) (s : unit) : M unit := match l with [] => ret s | k' :: r => s' <- read_data ds stdout_write f k' s ;; each r s' end) l tt w1 = (Done tt, w') ->
        cur_db w' = cur_db w1 /\ exists ps, says w1 w' (map piece ps) /\ forall n s v, f <= n -> w_faults v = [] -> cur_db v = cur_db w1 ->
          exists v', (fix each (l : list key) (s : bytes) : M bytes := match l with [] => ret s | k' :: r => s' <- read_data ds vec_write n k' s ;; each r s' end) l s v = (Done (s ++ concat ps), v') /\ w_faults v' = [] /\ cur_db v' = cur_db v).
      { clear -IH. induction l as [|k l IHl]; intros w1 w' H.
        - apply ret_done in H as [_ ->]. split; [reflexivity|]. exists []. split; [reflexivity|]. intros n s v _ F C. exists v. rewrite app_nil_r. auto.
        - apply bind_done in H as ([] & w2 & H2 & H). apply IH in H2 as (C2 & ps & S2 & R2). apply IHl in H as (C3 & qs & S3 & R3). split; [congruence|]. exists (ps ++ qs). split.
          + rewrite map_app. eapply says_trans; eassumption.
          + intros n s v L F C. destruct (R2 n s v L F C) as (v1 & X1 & F1 & D1). destruct (R3 n (s ++ concat ps) v1 L F1) as (v2 & X2 & F2 & D2); [congruence|].
            exists v2. split; [|split; [exact F2|congruence]]. unfold bind at 1. rewrite X1. etransitivity; [exact X2|]. rewrite concat_app, app_assoc. reflexivity. }
      apply X in H as (C2 & ps & S2 & R2). split; [congruence|]. exists ps. split; [exact (says_trans _ _ _ [] _ S1 S2)|].
      intros n s v L F C. destruct n as [|n]; [lia|]. destruct (G v F C) as (v1 & X1 & F1 & D1). destruct (R2 n s v1) as (v2 & X2 & F2 & D2); [lia|exact F1|congruence|].
      exists v2. cbn [read_data]. unfold bind at 1. rewrite X1, To. split; [exact X2|]. split; [exact F2|congruence].
    - (* blob *)
      assert (X : w_out w' = piece (o_data o) :: w_out w1 /\ cur_db w' = cur_db w1).
      { unfold stdout_write, write_stdout in H. match type of H with op ?e _ = _ => destruct (op_case e w1) as (fl & w2 & Q & T) end. rewrite Q in H. destruct fl; try discriminate H. injection H as <-.
        destruct T as (t' & f' & ->). destruct w1; split; reflexivity. }
      destruct X as [X1 X2]. split; [congruence|]. exists [o_data o]. split; [exact (says_trans w w1 w' [] [piece (o_data o)] S1 X1)|].
      intros n s v L F C. destruct n as [|n]; [lia|]. destruct (G v F C) as (v1 & Y1 & F1 & D1). exists v1. cbn [read_data]. unfold bind at 1. rewrite Y1, To. unfold vec_write. cbn [concat]. rewrite app_nil_r. auto.
    - destruct (o_keys o) as [|k' [|]] eqn:Ko; try discriminate H. apply IH in H as (C2 & ps & S2 & R2). split; [congruence|]. exists ps. split; [exact (says_trans _ _ _ [] _ S1 S2)|].
      intros n s v L F C. destruct n as [|n]; [lia|]. destruct (G v F C) as (v1 & X1 & F1 & D1). destruct (R2 n s v1) as (v2 & X2 & F2 & D2); [lia|exact F1|congruence|].
      exists v2. cbn [read_data]. unfold bind at 1. rewrite X1, To, Ko. split; [exact X2|]. split; [exact F2|congruence].
  Qed.
  Lemma object_shown w kd : (forall k c, is_commit w k c -> tidy_commit w c) -> forall f k w0 w', f <= stack -> cur_db w0 = cur_db w -> display_obj ds f k kd w0 = (Done tt, w') ->
    exists l, says w0 w' l /\ object_text w kd k l.
  Proof.
    intro T. induction f as [|f IH]; intros k w0 w' L Q H; [discriminate H|]. pose proof H as H0. rewrite display_eq in H. apply bind_done in H as (o & w1 & H1 & H).
    assert (Ro : reads_as w k (Done o)) by (eapply reads_db; [exact Q|eapply get_reads, H1]). apply silent_says in H1 as [S1 C1]; [|apply rd_unwrap, rd_get_obj].
    assert (Data : o_type o = FileBlob \/ o_type o = FileBlobTree -> read_data ds stdout_write f k tt w1 = (Done tt, w') -> exists l, says w0 w' l /\ object_text w kd k l).
    { intros To R. apply written in R as (C2 & ps & S2 & R2). exists (map piece ps). split; [exact (says_trans _ _ _ [] _ S1 S2)|]. apply (ot_data _ _ _ o); [exact Ro|exact To|].
      intros v F C. destruct (R2 stack [] v) as (v' & X & _); [lia|exact F|congruence|]. rewrite X. reflexivity. }
    destruct (o_type o) eqn:To; try discriminate H.
    - apply Data; [auto|exact H].
    - apply Data; [auto|exact H].
    - assert (X : exists c, is_commit w k c).
      { apply bind_done in H as ([] & w2 & _ & H). apply bind_done in H as (c & w3 & H & _). apply unwrap_done, commit_done in H as [_ Co]. exists c, o. auto. }
      destruct X as [c Ic]. destruct (commit_shown f k kd w w0 w' c Q Ic (T _ _ Ic) H0) as (l & S & X). exists l. split; [exact S|]. eapply ot_commit; eassumption.
    - apply print_says in H as [S2 _]. eexists. split; [exact (says_trans _ _ _ [] _ S1 S2)|]. eapply ot_dir; eassumption.
    - destruct (o_keys o) as [|k' [|]] eqn:Ko; try discriminate H. apply IH in H as (l & S & X); [|lia|congruence]. exists l. split; [exact (says_trans _ _ _ [] _ S1 S)|]. eapply ot_file; eassumption.
  Qed.

  (** ** Histories *)
  Lemma step_text w k kd next w0 w' c : cur_db w0 = cur_db w -> is_commit w k c -> tidy_commit w c -> log_step k kd next w0 = (Done tt, w') ->
    exists t w1, cur_db w1 = cur_db w /\ next c w1 = (Done tt, w') /\ says w0 w1 (t ++ [Printed "" []; Printed "" []]) /\ commit_text w kd k c t.
  Proof.
    intros Q Ic T H. unfold log_step in H. apply bind_done in H as ([] & w1 & H1 & H). apply bind_done in H as ([] & w2 & H2 & H). apply bind_done in H as ([] & w3 & H3 & H).
    apply bind_done in H as (o & w4 & H4 & H). apply bind_done in H as (c' & w5 & H5 & H). apply unwrap_done, commit_done in H5 as [-> Co].
    pose proof (rdr_db _ _ _ _ (rd_display anything (fun _ => I) (fun _ => I) (fun _ => I) stack k kd) H1) as D1.
    destruct stack as [|f] eqn:Sk; [discriminate H1|]. apply (commit_shown f k kd w) with (c := c) in H1 as (t & S1 & X); auto. apply print_says in H2 as [S2 C2]. apply print_says in H3 as [S3 C3].
    pose proof (get_reads _ _ _ _ H4) as R4. apply silent_says in H4 as [S4 C4]; [|apply rd_unwrap, rd_get_obj].
    assert (c' = c) as ->.
    { destruct Ic as (o' & R & _ & C). assert (o = o') as -> by (eapply reads_fun; [exact R4|eapply reads_db; [|exact R]; congruence]). specialize (C w). rewrite Co in C. injection C as ->. reflexivity. }
    exists t, w4. split; [congruence|]. split; [exact H|]. split; [|exact X]. eapply says_trans; [exact S1|]. eapply says_cons; [exact S2|]. apply (says_trans w2 w3 w4 [_] [] S3 S4).
  Qed.
  Lemma loop_text w kd k l : lineage w k l -> (forall k', In k' l -> exists c, is_commit w k' c /\ tidy_commit w c) -> forall fuel c w0 w', reads_commit w k c -> cur_db w0 = cur_db w ->
    log_loop ds fuel c kd w0 = (Done tt, w') -> exists t, says w0 w' t /\ commits_text w kd (tl l) t.
  Proof.
    intro Li. induction Li as [k c Rc Pc|k c p ps l Rc Pc Li IH]; intros Al fuel c' w0 w' Rc' Q H.
    - assert (c' = c) as -> by (destruct Rc as (o & R1 & C1), Rc' as (o' & R2 & C2); rewrite (reads_fun _ _ _ _ R2 R1) in C2; specialize (C1 w); rewrite C2 in C1; injection C1; auto).
      exists []. split; [|exists []; split; [constructor|reflexivity]]. destruct fuel; cbn [log_loop] in H; rewrite Pc in H; apply ret_done in H as [_ ->]; reflexivity.
    - assert (c' = c) as -> by (destruct Rc as (o & R1 & C1), Rc' as (o' & R2 & C2); rewrite (reads_fun _ _ _ _ R2 R1) in C2; specialize (C1 w); rewrite C2 in C1; injection C1; auto).
      destruct fuel as [|f]; cbn [log_loop] in H; rewrite Pc in H; [discriminate H|]. change (log_step p kd (fun c' => log_loop ds f c' kd) w0 = (Done tt, w')) in H.
      assert (Ip : exists r, l = p :: r) by (destruct Li; eauto). destruct Ip as [r ->]. destruct (Al p) as (c2 & I2 & T2); [right; left; reflexivity|].
      destruct (step_text w p kd _ w0 w' c2 Q I2 T2 H) as (t & w1 & Q1 & H' & S & X). clear H. rename H' into H.
      assert (R2 : reads_commit w p c2) by (destruct I2 as (o & R & _ & C); exists o; auto).
      destruct (IH (fun k' I => Al k' (or_intror I)) f c2 w1 w' R2 Q1 H) as (u & Su & ts & Ft & ->).
      eexists. split; [eapply says_trans; [exact S|exact Su]|]. cbn [tl] in *. exists (t :: ts). split; [constructor; [exists c2; auto|exact Ft]|reflexivity].
  Qed.
  Lemma log_text w kd k l w0 w' : cur_db w0 = cur_db w -> lineage w k l -> (forall k', In k' l -> exists c, is_commit w k' c /\ tidy_commit w c) -> log_obj ds k kd w0 = (Done tt, w') ->
    exists t, says w0 w' t /\ commits_text w kd l t.
  Proof.
    intros Q Li Al H. unfold log_obj in H. apply bind_done in H as (o & w1 & H1 & H). apply silent_says in H1 as [S1 C1]; [|apply rd_unwrap, rd_get_obj].
    destruct (o_type o) eqn:To; try discriminate H.
    assert (Ik : exists r, l = k :: r) by (destruct Li; eauto). destruct Ik as [r ->]. destruct (Al k) as (c & Ic & Tc); [left; reflexivity|].
    change (log_step k kd (fun c' => log_loop ds loop_bound c' kd) w1 = (Done tt, w')) in H. assert (Q1 : cur_db w1 = cur_db w) by congruence. destruct (step_text w k kd _ w1 w' c Q1 Ic Tc H) as (t & w2 & Q2 & H' & S & X). clear H. rename H' into H.
    assert (Rc : reads_commit w k c) by (destruct Ic as (o' & R & _ & C); exists o'; auto).
    destruct (loop_text w kd k (k :: r) Li Al loop_bound c w2 w' Rc Q2 H) as (u & Su & ts & Ft & ->). cbn [tl] in Ft.
    eexists. split; [exact (says_trans w0 w1 w' [] _ S1 (says_trans _ _ _ _ _ S Su))|]. exists (t :: ts). split; [constructor; [exists c; auto|exact Ft]|reflexivity].
  Qed.

  (** ** Commands *)
  Lemma asked k w key w' : world_ok w -> key_or_head k w = (Done key, w') -> ticked w w' /\ asked_for w k key.
  Proof.
    intros W H. destruct k as [ki|]; cbn [key_or_head] in H; [apply canon_done; assumption|]. unfold get_head_key in H. apply bind_done in H as (n & w1 & H1 & H).
    apply head_done in H1 as [T1 Hn]. apply latest_done in H as [T2 (l & Hl)]; [|eapply ok_ticked; eassumption]. split; [eapply ticked_trans; eassumption|].
    exists n, l. rewrite (cur_ticked _ _ T1) in Hl. auto.
  Qed.
  Lemma show_prints cm w s w1 k w2 : reachable w -> starts cm w (Some s) w1 -> (forall k c, is_commit w1 k c -> tidy_commit w1 c) ->
    run_command cm (Some s) (CShow k) w1 = (Done tt, w2) -> exists key l, asked_for w1 k key /\ object_text w1 KPatch key l /\ says w1 w2 l /\ untouched w1 w2.
  Proof.
    intros R St T H. cbn [run_command with_ds] in H. unfold cmd_show in H. apply bind_done in H as (key & w1' & H1 & H). apply asked in H1 as [Tk A]; [|eapply started_ok; eassumption].
    pose proof (rdr_untouched _ _ _ _ (rd_display anything (fun _ => I) (fun _ => I) (fun _ => I) stack key KPatch) H) as U.
    destruct (object_shown w1 KPatch T stack key w1' w2 (Nat.le_refl _) (cur_ticked _ _ Tk) H) as (l & S & X). exists key, l. split; [exact A|]. split; [exact X|]. split.
    - apply (says_trans w1 w1' w2 [] l); [apply says_silent, ticked_out, Tk|exact S].
    - eapply untouched_trans; [apply alike_untouched, alike_ticked, Tk|exact U].
  Qed.
  Lemma log_prints cm w s w1 k w2 : reachable w -> starts cm w (Some s) w1 -> (forall k c, is_commit w1 k c -> tidy_commit w1 c) ->
    run_command cm (Some s) (CLog k) w1 = (Done tt, w2) -> exists key l, asked_for w1 k key /\ lineage w1 key l /\ untouched w1 w2 /\
      ((forall k', In k' l -> exists c, is_commit w1 k' c) -> exists t, says w1 w2 t /\ commits_text w1 KStat l t).
  Proof.
    intros R St T H. cbn [run_command with_ds] in H. unfold cmd_log in H. apply bind_done in H as (key & w1' & H1 & H). apply asked in H1 as [Tk A]; [|eapply started_ok; eassumption].
    pose proof (rdr_untouched _ _ _ _ (rd_log anything (fun _ => I) (fun _ => I) (fun _ => I) key KStat) H) as U.
    pose proof (log_done _ _ _ _ H) as (_ & l & Li & _). assert (Q : cur_db w1' = cur_db w1) by apply cur_ticked, Tk.
    exists key, l. split; [exact A|]. split; [eapply lineage_db; [|exact Li]; exact Q|]. split; [eapply untouched_trans; [apply alike_untouched, alike_ticked, Tk|exact U]|].
    intro Al. destruct (log_text w1 KStat key l w1' w2 Q) as (t & S & X); [eapply lineage_db; [|exact Li]; exact Q| |exact H|].
    - intros k' I. destruct (Al k' I) as (c & Ic). exists c. split; [exact Ic|exact (T _ _ Ic)].
    - exists t. split; [apply (says_trans w1 w1' w2 [] t); [apply says_silent, ticked_out, Tk|exact S]|exact X].
  Qed.
End TextFacts.
