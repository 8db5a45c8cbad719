(** The results of [compare] in terms of the trees. *)
From Coq Require Import Permutation Sorted RelationClasses.
From Verif Require Import Base BaseFacts Key KeyFacts Cbor CborFacts Object ObjectFacts Path World WorldFacts Store File Filter Dir Diff SpecStore StoreCalls SpecRun SpecFile SpecDir SpecCache SpecDiff
  Frame DbRel Integrity ObjStoreFacts SessionFacts FilePlan FileFacts ChunkFacts FileRun FsFacts DirPlan DirFacts GetFacts DirTrip FetchSafe DirTree DirWalk WalkFacts CacheFacts HashFacts SortFacts CompareFacts.

Lemma NoDup_filter_map {A B} (f : A -> B) (g : A -> bool) l : NoDup (map f l) -> NoDup (map f (filter g l)).
Proof.
  induction l as [|x l IH]; cbn; intro N; [constructor|]. inversion N as [|? ? N1 N2]; subst. destruct (g x); cbn; [|auto].
  constructor; [|auto]. intro I. apply in_map_iff in I as (y & Q & I). apply filter_In in I as [I _]. apply N1. rewrite <- Q. apply in_map, I.
Qed.
Lemma concat_nodup {A B} (f : A -> list B) (get : B -> A) l : NoDup l -> (forall x y, In x l -> In y (f x) -> get y = x) ->
  (forall x, In x l -> length (f x) <= 1) -> NoDup (map get (concat (map f l))).
Proof.
  induction l as [|x l IH]; cbn; intros N G L; [constructor|]. inversion N as [|? ? N1 N2]; subst. rewrite map_app. apply NoDup_app.
  - specialize (L x (or_introl eq_refl)). destruct (f x) as [|y [|]]; cbn in *; try lia; repeat constructor. intros [].
  - apply IH; auto.
  - intros a I J. apply in_map_iff in I as (y & <- & I). apply in_map_iff in J as (z & Q & J). apply in_concat in J as (ys & J1 & J2).
    apply in_map_iff in J1 as (x' & <- & J1). assert (get y = x) by auto. assert (get z = x') by auto. congruence.
Qed.

Lemma forall2_in {A B} (Q : A -> B -> Prop) l l' b : Forall2 Q l l' -> In b l' -> exists a, In a l /\ Q a b.
Proof. intro H. induction H as [|x y l l' H1 H2 IH]; intro I; [destruct I|]. destruct I as [<-|I]; [exists x; cbn; auto|]. destruct (IH I) as (a & I1 & I2). exists a. cbn. auto. Qed.

Section DiffFacts.
  Context {E : Env}.
  Notation ds := sqlite_ds.
  Definition lists (w : world) (to : option key) (m : pmap (key * bool)) : Prop :=
    Forall plain (map fst m) /\ NoDup (map fst m) /\ forall q k d, In (q, (k, d)) m <-> exists x, q = named x /\ tree_of w to x k d.
  Lemma to_lists w0 to w m w' : cur_db w = cur_db w0 -> tidy_of w0 to -> compare_to to w = (Done m, w') -> ticked w w' /\ lists w0 to m.
  Proof.
    intros C T H. destruct to as [k|]; cbn in *.
    - apply (walk_tree w0) in H as (A & B & D & L); auto. split; [exact A|]. split; [exact B|]. split; [exact D|]. exact L.
    - apply ret_done in H as [-> ->]. split; [apply ticked_refl|]. split; [constructor|]. split; [constructor|]. intros. split; [intros []|intros (? & ? & [])].
  Qed.
  Lemma lists_get w to m x k d : lists w to m -> pm_get m (named x) = Some (k, d) <-> tree_of w to x k d.
  Proof.
    intros (P & N & L). rewrite pm_get_in by (auto; reflexivity). rewrite L. split.
    - intros (y & Q & T). apply rel_inj in Q. subst. exact T.
    - intro T. eauto.
  Qed.
  Lemma lists_mem w to m x : lists w to m -> pmem (map fst m) (named x) = true <-> exists k d, tree_of w to x k d.
  Proof.
    intro H. split.
    - intro I. apply pm_get_some in I as [[k d] I]. apply (lists_get _ _ _ _ _ _ H) in I. eauto.
    - intros (k & d & T). apply (lists_get _ _ _ _ _ _ H) in T. destruct (pmem (map fst m) (named x)) eqn:Q; [reflexivity|]. apply pm_get_mem in Q. congruence.
  Qed.
  Lemma lists_nomem w to m x : lists w to m -> pmem (map fst m) (named x) = false <-> forall k d, ~ tree_of w to x k d.
  Proof.
    intro H. rewrite <- Bool.not_true_iff_false, (lists_mem _ _ _ _ H). split; [intros N k d T; apply N; eauto|intros N (k & d & T); exact (N _ _ T)].
  Qed.
  Lemma lists_keys w to m q : lists w to m -> In q (map fst m) -> exists x k d, q = named x /\ tree_of w to x k d.
  Proof. intros (_ & _ & L) I. apply in_map_iff in I as ([q' [k d]] & <- & I). apply L in I as (x & -> & T). exists x, k, d. auto. Qed.

  (** *** Between stored trees *)
  Definition db_result (w : world) (from to : option key) (r : diff_result) : Prop :=
    df_deleted r = [] /\
    (forall a, In a (df_added r) <-> exists x k d, tree_of w from x k d /\ (forall k' d', ~ tree_of w to x k' d') /\ a = Added (named x) d (Some k)) /\
    (forall b, In b (df_modified r) <-> exists x k d k' d', tree_of w from x k d /\ tree_of w to x k' d' /\ k <> k' /\ b = Modified (named x) k' k) /\
    by_path ad_path (df_added r) /\ by_path md_path (df_modified r).
  Lemma db_lists w from to m m' : lists w from m -> lists w to m' ->
    db_result w from to (DiffResult [] (sort_added (map (db_added m) (filter (fun x => negb (pmem (map fst m') x)) (map fst m))))
                     (sort_modified (concat (map (db_modified m m') (filter (pmem (map fst m')) (map fst m)))))).
  Proof.
    intros L L'. pose proof L as (P & N & _).
    assert (Ad : forall a, In a (map (db_added m) (filter (fun x => negb (pmem (map fst m') x)) (map fst m))) <->
      exists x k d, tree_of w from x k d /\ (forall k' d', ~ tree_of w to x k' d') /\ a = Added (named x) d (Some k)).
    { intro a. rewrite in_map_iff. split.
      - intros (q & <- & I). apply filter_In in I as [I J]. apply (lists_keys _ _ _ _ L) in I as (x & k & d & -> & T). exists x, k, d. split; [exact T|].
        apply negb_true_iff in J. split; [apply (lists_nomem _ _ _ _ L'), J|]. apply (lists_get _ _ _ _ _ _ L) in T. unfold db_added. rewrite T. reflexivity.
      - intros (x & k & d & T & T' & ->). exists (named x). split.
        + apply (lists_get _ _ _ _ _ _ L) in T. unfold db_added. rewrite T. reflexivity.
        + apply filter_In. split; [|apply negb_true_iff, (lists_nomem _ _ _ _ L'), T']. destruct L as (_ & _ & L). apply in_map_iff. exists (named x, (k, d)). split; [reflexivity|].
          apply L. eauto. }
    assert (Md : forall b, In b (concat (map (db_modified m m') (filter (pmem (map fst m')) (map fst m)))) <->
      exists x k d k' d', tree_of w from x k d /\ tree_of w to x k' d' /\ k <> k' /\ b = Modified (named x) k' k).
    { intro b. rewrite in_concat. split.
      - intros (bs & I & J). apply in_map_iff in I as (q & <- & I). apply filter_In in I as [I K]. apply (lists_keys _ _ _ _ L) in I as (x & k & d & -> & T).
        apply (lists_mem _ _ _ _ L') in K as (k' & d' & T'). exists x, k, d, k', d'. pose proof T as G. pose proof T' as G'.
        apply (lists_get _ _ _ _ _ _ L) in G. apply (lists_get _ _ _ _ _ _ L') in G'. unfold db_modified in J. rewrite G, G' in J.
        destruct (key_eqb k k') eqn:Q; [destruct J|]. destruct J as [<-|[]]. split; [exact T|]. split; [exact T'|]. split; [|reflexivity].
        intros ->. rewrite (proj2 (key_eqb_eq k' k') eq_refl) in Q. discriminate.
      - intros (x & k & d & k' & d' & T & T' & Ne & ->). exists (db_modified m m' (named x)). split.
        + apply in_map. apply filter_In. split; [|apply (lists_mem _ _ _ _ L'); eauto]. destruct L as (_ & _ & L). apply in_map_iff. exists (named x, (k, d)). split; [reflexivity|].
          apply L. eauto.
        + apply (lists_get _ _ _ _ _ _ L) in T. apply (lists_get _ _ _ _ _ _ L') in T'. unfold db_modified. rewrite T, T'. destruct (key_eqb k k') eqn:Q; [|left; reflexivity].
          apply key_eqb_eq in Q. contradiction. }
    split; [reflexivity|]. cbn [df_added df_modified]. split; [intro a; unfold sort_added; rewrite sort_in; apply Ad|]. split; [intro b; unfold sort_modified; rewrite sort_in; apply Md|]. split.
    - apply added_by_path.
      + apply Forall_forall. intros a I. apply Ad in I as (x & k & d & _ & _ & ->). exists x. reflexivity.
      + rewrite map_map. rewrite (map_ext _ (fun x => x)) by (intro x; unfold db_added; destruct (pm_get m x) as [[]|]; reflexivity). rewrite map_id. apply NoDup_filter, N.
    - apply modified_by_path.
      + apply Forall_forall. intros a I. apply Md in I as (x & ? & ? & ? & ? & _ & _ & _ & ->). exists x. reflexivity.
      + apply concat_nodup; [apply NoDup_filter, N| |].
        * intros x y _ I. unfold db_modified in I. destruct (pm_get m x) as [[]|]; [|destruct I]. destruct (pm_get m' x) as [[]|]; [|destruct I].
          destruct (key_eqb _ _); [destruct I|]. destruct I as [<-|[]]. reflexivity.
        * intros x _. unfold db_modified. destruct (pm_get m x) as [[]|]; [|cbn; lia]. destruct (pm_get m' x) as [[]|]; [|cbn; lia]. destruct (key_eqb _ _); cbn; lia.
  Qed.
  Lemma compare_db_gen k to w v m w1 m' w2 : cur_db v = cur_db w -> tidy w k -> tidy_of w to ->
    walk_fs_items ds k v = (Done m, w1) -> compare_to to w1 = (Done m', w2) ->
    ((exists x k' d, tree_of w to x k' d /\ forall k'' d', ~ in_tree w k x k'' d') /\ compare ds (TDatabase k) to v = (Panicked PIndex, w2)) \/
    ((forall x k' d, tree_of w to x k' d -> exists k'' d', in_tree w k x k'' d') /\ exists r, compare ds (TDatabase k) to v = (Done r, w2) /\ db_result w (Some k) to r).
  Proof.
    intros Cv Tk Tt W1 W2. assert (W1' : compare_to (Some k) v = (Done m, w1)) by exact W1.
    apply (to_lists w (Some k)) in W1' as [T1 L]; [|exact Cv|exact Tk].
    apply (to_lists w) in W2 as W2'; [|rewrite (cur_ticked _ _ T1); exact Cv|exact Tt]. destruct W2' as [T2 L'].
    assert (Q : compare ds (TDatabase k) to v = compare_tail (inr m) m' w2).
    { rewrite compare_eq. unfold compare_src, bind. rewrite W1. cbn [ret]. rewrite W2. reflexivity. }
    rewrite Q, tail_db. destruct (gone (inr m) m') as [|q l] eqn:G.
    - right. split.
      + intros x k' d T. rewrite gone_nil in G. apply (lists_mem _ _ _ _ L). apply G. destruct L' as (_ & _ & L'). apply in_map_iff. exists (named x, (k', d)). split; [reflexivity|apply L'; eauto].
      + eexists. split; [reflexivity|]. apply db_lists; assumption.
    - left. split; [|reflexivity]. assert (I : In q (gone (inr m) m')) by (rewrite G; left; reflexivity). apply filter_In in I as [I J]. apply negb_true_iff in J.
      apply (lists_keys _ _ _ _ L') in I as (x & k' & d & -> & T). exists x, k', d. split; [exact T|]. apply (lists_nomem _ (Some k) _ _ L), J.
  Qed.
  Lemma compare_db_cases k to w m w1 m' w2 : tidy w k -> tidy_of w to ->
    walk_fs_items ds k w = (Done m, w1) -> compare_to to w1 = (Done m', w2) ->
    ((exists x k' d, tree_of w to x k' d /\ forall k'' d', ~ in_tree w k x k'' d') /\ compare ds (TDatabase k) to w = (Panicked PIndex, w2)) \/
    ((forall x k' d, tree_of w to x k' d -> exists k'' d', in_tree w k x k'' d') /\ exists r, compare ds (TDatabase k) to w = (Done r, w2) /\ db_result w (Some k) to r).
  Proof. apply compare_db_gen. reflexivity. Qed.
  Lemma compare_db_done k to w r w' : tidy w k -> tidy_of w to -> compare ds (TDatabase k) to w = (Done r, w') ->
    ticked w w' /\ db_result w (Some k) to r.
  Proof.
    intros Tk Tt H. pose proof H as H0. rewrite compare_eq in H. apply bind_done in H as (src & w1 & H1 & H). apply bind_done in H as (m' & w2 & H2 & H).
    apply bind_done in H1 as (m & w1' & H1 & H1'). apply ret_done in H1' as [-> ->].
    destruct (compare_db_cases k to w m w1' m' w2 Tk Tt H1 H2) as [[_ Q]|(_ & r' & Q & R)]; rewrite Q in H0; inversion H0; subst.
    split; [|exact R]. eapply ticked_trans; [eapply walk_ticked, H1|]. apply (to_lists w) in H2 as [T2 _]; auto. apply cur_ticked. eapply walk_ticked, H1.
  Qed.

  (** *** Between a directory and a stored tree *)
  Definition fs_lists (ex : list bytes) (fo p : path) (w : world) (m : pmap bool) : Prop :=
    Forall plain (map fst m) /\ NoDup (map fst m) /\
    forall q d, In (q, d) m <-> exists x e, q = named x /\ on_disk ex fo p w x e /\ d = is_dir (w_fs w) (locate (w_cwd w) p ++ x).
  Lemma src_lists p ex fo w src w' : fs_ok (w_fs w) -> compare_src (TFileSystem p ex fo) w = (Done src, w') ->
    ticked w w' /\ exists m, src = inl (p, m) /\ fs_lists ex fo p w m.
  Proof.
    intros O H. cbn in H. apply bind_done in H as (f & w1 & H1 & H). unfold make_filter_fn in H1. destruct (forallb glob_valid ex); [|discriminate].
    apply ret_done in H1 as [-> ->]. apply bind_done in H as (m & w1 & H1 & H). apply ret_done in H as [-> ->].
    apply real_lists in H1 as (T & P & N & L); [|exact O]. split; [exact T|]. exists m. split; [reflexivity|]. split; [exact P|]. split; [exact N|].
    intros q d. rewrite L. change named with rel_path. split; intros (x & e & H); exists x, e; unfold on_disk in *; tauto.
  Qed.
  Lemma fs_get ex fo p w m x d : fs_lists ex fo p w m -> pm_get m (named x) = Some d <-> exists e, on_disk ex fo p w x e /\ d = is_dir (w_fs w) (locate (w_cwd w) p ++ x).
  Proof.
    intros (P & N & L). rewrite pm_get_in by (auto; reflexivity). rewrite L. split.
    - intros (y & e & Q & T). apply rel_inj in Q. subst. eauto.
    - intros (e & T). eauto.
  Qed.
  Lemma fs_keys ex fo p w m q : fs_lists ex fo p w m -> In q (map fst m) <-> exists x e, q = named x /\ on_disk ex fo p w x e.
  Proof.
    intros (P & N & L). split.
    - intro I. apply in_map_iff in I as ([q' d] & <- & I). apply L in I as (x & e & -> & T & _). exists x, e. auto.
    - intros (x & e & -> & T). apply in_map_iff. eexists (named x, _). split; [reflexivity|]. apply L. exists x, e. split; [reflexivity|]. split; [exact T|reflexivity].
  Qed.
  Lemma locate_join cwd p x : locate cwd (join p (named x)) = locate cwd p ++ x.
  Proof. destruct (join_rel p x) as [A B]. change (named x) with (rel_path x). unfold locate. rewrite A, B, fold_left_app, fold_normal. reflexivity. Qed.

  Definition fs_added (ex : list bytes) (fo p : path) (w : world) (to : option key) (log : list bytes) (a : added_result) : Prop :=
    exists x e, on_disk ex fo p w x e /\ (forall k d, ~ tree_of w to x k d) /\ ad_path a = named x /\
      ((e = EDir /\ ad_isdir a = true /\ ad_key a = None) \/
       (e <> EDir /\ ad_isdir a = false /\ exists l c st k, stat (w_fs w) (w_cwd w) (named x) = Some (l, EFile c st) /\ ad_key a = Some k /\ hashed_as log c k)).
  Definition fs_result (ex : list bytes) (fo p : path) (w : world) (to : option key) (log : list bytes) (r : diff_result) : Prop :=
    df_deleted r = [] /\
    (forall x k d, tree_of w to x k d -> exists e, on_disk ex fo p w x e) /\
    (forall a, In a (df_added r) -> fs_added ex fo p w to log a) /\
    (forall x e, on_disk ex fo p w x e -> (exists k d, tree_of w to x k d) \/ In (named x) (map ad_path (df_added r))) /\
    (forall b, In b (df_modified r) -> exists x c st k d k', on_disk ex fo p w x (EFile c st) /\ tree_of w to x k d /\ hashed_as log c k' /\ k' <> k /\ b = Modified (named x) k k') /\
    (forall x e k d, on_disk ex fo p w x e -> tree_of w to x k d -> e = EDir \/
       exists c st k', e = EFile c st /\ hashed_as log c k' /\ (k' <> k -> In (Modified (named x) k k') (df_modified r))) /\
    by_path ad_path (df_added r) /\ by_path md_path (df_modified r).

  (** Hashing keeps the cache right. *)
  Definition good (w : world) : Prop := triples_ok (w_fs w) /\ cache_right w.
  Lemma good_crel w w' : crel w w' -> good w -> good w'.
  Proof. intros C [T R]. split; [|eapply right_mono; eassumption]. destruct C as ((-> & _) & _). exact T. Qed.
  Lemma hash_good p w : steady_reads -> good w -> good (snd (hash_fs_item ds p w)).
  Proof.
    intros St [T R]. split; [|apply hash_keeps; assumption]. pose proof (rel_hash_fs_item fr p w) as (F & _). rewrite F. exact T.
  Qed.
  Lemma fs_tail p ex fo w to src to_map w2 r w' : steady_reads -> fs_lists ex fo p w src -> lists w to to_map ->
    fr w w2 -> good w2 -> compare_tail (inl (p, src)) to_map w2 = (Done r, w') ->
    fr w w' /\ good w' /\ fs_result ex fo p w to (w_hashed w') r.
  Proof.
    intros St L L' F2 G2 H. apply tail_done in H as (G & added & w3 & modified & H1 & H3 & ->). cbn [src_keys] in *.
    pose proof L as (Pl & Nd & _).
    set (la := filter (fun x => negb (pmem (map fst to_map) x)) (map fst src)) in *. set (lm := filter (pmem (map fst to_map)) (map fst src)) in *.
    assert (La : forall q, In q la <-> exists x e, q = named x /\ on_disk ex fo p w x e /\ forall k d, ~ tree_of w to x k d).
    { intro q. unfold la. rewrite filter_In, (fs_keys _ _ _ _ _ _ L), negb_true_iff. split.
      - intros ((x & e & -> & O) & M). pose proof (proj1 (lists_nomem _ _ _ _ L') M). exists x, e. auto.
      - intros (x & e & -> & O & M). split; [eauto|]. apply (lists_nomem _ _ _ _ L'), M. }
    assert (Lm : forall q, In q lm <-> exists x e k d, q = named x /\ on_disk ex fo p w x e /\ tree_of w to x k d).
    { intro q. unfold lm. rewrite filter_In, (fs_keys _ _ _ _ _ _ L). split.
      - intros ((x & e & -> & O) & M). apply (lists_mem _ _ _ _ L') in M as (k & d & T). exists x, e, k, d. auto.
      - intros (x & e & k & d & -> & O & M). split; [eauto|]. apply (lists_mem _ _ _ _ L'). eauto. }
    set (Inv := fun u : world => fr w u /\ good u).
    apply (mapM_inv Inv (fun u q a => ad_path a = q /\ fs_added ex fo p w to (w_hashed u) a)) in H1; [| | |split; assumption].
    - apply (mapM_inv Inv (fun u q bs => forall x e k d, q = named x -> on_disk ex fo p w x e -> tree_of w to x k d ->
        (bs = [] /\ e = EDir) \/ exists c st k', e = EFile c st /\ hashed_as (w_hashed u) c k' /\ ((k' = k /\ bs = []) \/ (k' <> k /\ bs = [Modified (named x) k k'])))) in H3; [| | |apply H1].
      + destruct H1 as ((F3 & G3) & F23 & A). destruct H3 as ((F' & G') & F33 & B). split; [exact F'|]. split; [exact G'|]. split; [reflexivity|]. cbn [df_added df_modified].
        assert (A' : forall a, In a added -> fs_added ex fo p w to (w_hashed w') a).
        { intros a I. apply (forall2_in _ _ _ _ A) in I as (q & _ & _ & (x & e & O & N & Pa & K)). exists x, e. split; [exact O|]. split; [exact N|]. split; [exact Pa|].
          destruct K as [K|(K1 & K2 & l & c & st & k & K3 & K4 & K5)]; [auto|]. right. split; [exact K1|]. split; [exact K2|]. exists l, c, st, k. split; [exact K3|]. split; [exact K4|].
          eapply hashed_mono; [apply F33|exact K5]. }
        assert (Pa : map ad_path added = la).
        { generalize la A. clear. intros la A. induction A as [|q a qs as_ [Q _] A IH]; cbn; congruence. }
        assert (Bf : forall q bs, In (q, bs) (combine lm modified) -> forall x e k d, q = named x -> on_disk ex fo p w x e -> tree_of w to x k d ->
          (bs = [] /\ e = EDir) \/ exists c st k', e = EFile c st /\ hashed_as (w_hashed w') c k' /\ ((k' = k /\ bs = []) \/ (k' <> k /\ bs = [Modified (named x) k k']))).
        { generalize lm modified B. clear. intros lm modified B. induction B as [|q bs qs bss H B IH]; intros q' bs' I; [destruct I|]. destruct I as [I|I]; [inversion I; subst; exact H|eauto]. }
        assert (Len : length lm = length modified) by (generalize lm modified B; clear; intros lm modified B; induction B; cbn; congruence).
        assert (Cm : forall q, In q lm -> exists bs, In (q, bs) (combine lm modified) /\ In bs modified).
        { generalize lm modified Len. clear. intros lm. induction lm as [|q l IH]; intros [|b bs] Len q' I; try discriminate; [destruct I|]. destruct I as [<-|I].
          - exists b. cbn. auto.
          - destruct (IH bs) with (q := q') as (b' & I1 & I2); [cbn in Len; lia|exact I|]. exists b'. cbn. auto. }
        assert (Cb : forall bs, In bs modified -> exists q, In (q, bs) (combine lm modified) /\ In q lm).
        { generalize lm modified Len. clear. intros lm. induction lm as [|q l IH]; intros [|b bs] Len q' I; try discriminate; [destruct I|]. destruct I as [<-|I].
          - exists q. cbn. auto.
          - destruct (IH bs) with (bs := q') as (b' & I1 & I2); [cbn in Len; lia|exact I|]. exists b'. cbn. auto. }
        split; [|split; [|split; [|split; [|split; [|split]]]]].
        * intros x k d T. pose proof (proj1 (gone_nil (inl (p, src)) to_map) G (named x)) as I. cbn [src_keys] in I.
          assert (I' : In (named x) (map fst to_map)). { destruct L' as (_ & _ & L'). apply in_map_iff. exists (named x, (k, d)). split; [reflexivity|apply L'; eauto]. }
          apply I in I'. apply pmem_iff in I'; [|exact Pl|reflexivity]. apply (fs_keys _ _ _ _ _ _ L) in I' as (x' & e & Q & O). apply rel_inj in Q. subst x'. eauto.
        * intros a I. apply sort_in in I. auto.
        * intros x e O. destruct (pmem (map fst to_map) (named x)) eqn:Q; [left; apply (lists_mem _ _ _ _ L'), Q|right]. pose proof (proj1 (lists_nomem _ _ _ _ L') Q) as N.
          apply Permutation_in with (l := map ad_path added); [apply Permutation_map, sort_perm|]. rewrite Pa. apply La. eauto.
        * intros b I. apply sort_in in I. apply in_concat in I as (bs & I & J). destruct (Cb _ I) as (q & K1 & K2). apply Lm in K2 as (x & e & k & d & -> & O & T).
          destruct (Bf _ _ K1 _ _ _ _ eq_refl O T) as [[-> _]|(c & st & k' & -> & Hh & [[-> ->]|[Ne ->]])]; try (destruct J; fail). destruct J as [<-|[]].
          exists x, c, st, k, d, k'. auto.
        * intros x e k d O T. assert (I : In (named x) lm) by (apply Lm; eauto 8). destruct (Cm _ I) as (bs & I1 & I2).
          destruct (Bf _ _ I1 _ _ _ _ eq_refl O T) as [[-> ->]|(c & st & k' & -> & Hh & K)]; [auto|]. right. exists c, st, k'. split; [reflexivity|]. split; [exact Hh|].
          intro Ne. destruct K as [[-> _]|[_ ->]]; [contradiction|]. apply sort_in, in_concat. eexists. split; [exact I2|]. left. reflexivity.
        * apply added_by_path.
          -- apply Forall_forall. intros a I. apply A' in I as (x & e & _ & _ & Q & _). eauto.
          -- rewrite Pa. apply NoDup_filter, Nd.
        * apply modified_by_path.
          -- apply Forall_forall. intros b I. apply in_concat in I as (bs & I & J). destruct (Cb _ I) as (q & K1 & K2). apply Lm in K2 as (x & e & k & d & -> & O & T).
             destruct (Bf _ _ K1 _ _ _ _ eq_refl O T) as [[-> _]|(c & st & k' & -> & Hh & [[-> ->]|[Ne ->]])]; try (destruct J; fail). destruct J as [<-|[]]. exists x. reflexivity.
          -- assert (Nm : NoDup lm) by apply NoDup_filter, Nd.
             assert (X : Forall2 (fun q bs => length bs <= 1 /\ forall b, In b bs -> md_path b = q) lm modified).
             { assert (Y : forall q bs, In (q, bs) (combine lm modified) -> length bs <= 1 /\ forall b, In b bs -> md_path b = q).
               { intros q bs K1. assert (K2 := in_combine_l _ _ _ _ K1). apply Lm in K2 as (x & e & k & d & -> & O & T).
                 destruct (Bf _ _ K1 _ _ _ _ eq_refl O T) as [[-> _]|(c & st & k' & -> & Hh & [[-> ->]|[Ne ->]])]; (split; [cbn; lia|intros b Ib; first [destruct Ib as [<-|[]]; reflexivity | destruct Ib]]). }
               generalize lm modified Len Y. clear. intros lm. induction lm as [|q l IH]; intros [|b bs] Len Y; try discriminate; constructor; [apply Y; left; reflexivity|].
               apply IH; [cbn in Len; lia|]. intros. apply Y. right. assumption. }
             generalize lm modified X Nm. clear. intros lm modified X Nm. induction X as [|q bs qs bss [H1 H2] X IH]; cbn; [constructor|]. inversion Nm as [|? ? N1 N2]; subst. rewrite map_app. apply NoDup_app; auto.
             ++ destruct bs as [|b [|]]; cbn in *; try lia; repeat constructor. intros [].
             ++ intros y I J. apply in_map_iff in I as (b & <- & I). rewrite (H2 _ I) in J. apply in_map_iff in J as (b' & Q & J). apply in_concat in J as (bs' & J1 & J2).
                clear -X J1 J2 Q N1. induction X as [|q' bs0 qs bss [H1 H2] X IH]; [destruct J1|]. destruct J1 as [->|J1]; [apply N1; left; rewrite <- Q; symmetry; apply H2, J2|].
                apply IH; auto. intro. apply N1. right. assumption.
      + intros u u' q bs Fu K x e k d Q O T. destruct (K _ _ _ _ Q O T) as [?|(c & st & k' & ? & Hh & ?)]; [auto|]. right. exists c, st, k'. split; [assumption|]. split; [|assumption].
        eapply hashed_mono; [apply Fu|exact Hh].
      + intros q u bs u' I [Fu Gu] H. unfold f_modified in H. apply Lm in I as (x0 & e0 & k0 & d0 & -> & O & T).
        assert (G1 : exists dd, pm_get src (named x0) = Some dd /\ dd = is_dir (w_fs w) (locate (w_cwd w) p ++ x0)) by (eexists; split; [apply (fs_get _ _ _ _ _ _ _ L); eauto|reflexivity]).
        destruct G1 as (dd & G1 & Ed). unfold pm_index at 1 in H. rewrite G1 in H. unfold bind at 2 in H. cbn [ret] in H.
        assert (Hd : e0 = EDir <-> dd = true). { rewrite Ed. unfold is_dir. destruct O as (_ & -> & _). destruct e0; split; congruence. }
        destruct dd.
        * unfold bind in H. cbn in H. inversion H; subst. split; [split; assumption|]. split; [reflexivity|]. intros x e k d Q O' T'. apply rel_inj in Q. subst x. left. split; [reflexivity|].
          destruct O as (_ & O & _), O' as (_ & O' & _). rewrite O in O'. inversion O'; subst. tauto.
        * apply bind_done in H as (ko & u1 & H1' & H). apply bind_done in H1' as (h & u2 & H1' & H2'). apply ret_done in H2' as [-> ->].
          pose proof (hash_good (join p (named x0)) u St Gu) as Gh. rewrite H1' in Gh. cbn [snd] in Gh.
          pose proof (rel_hash_fs_item fr (join p (named x0)) u) as Fh. rewrite H1' in Fh. cbn [snd] in Fh.
          apply hash_right in H1' as (l & c & st & S & Hh); [|exact St|apply Gu].
          pose proof Fu as (Fu1 & Fu2 & _). rewrite Fu1, Fu2 in S. apply stat_locate in S as (El & Lk & _). rewrite locate_join in El. subst l.
          pose proof (proj2 (lists_get _ _ _ _ _ _ L') T) as G3. unfold pm_index in H. rewrite G3 in H. unfold bind in H. cbn [ret fst] in H.
          assert (Fin : (Inv u2 /\ fr u u2)) by (split; [split; [etransitivity; eassumption|exact Gh]|exact Fh]).
          assert (K : forall bs, (h = k0 /\ bs = []) \/ (h <> k0 /\ bs = [Modified (named x0) k0 h]) ->
            forall x e k d, named x0 = named x -> on_disk ex fo p w x e -> tree_of w to x k d -> (bs = [] /\ e = EDir) \/
            exists c st k', e = EFile c st /\ hashed_as (w_hashed u2) c k' /\ ((k' = k /\ bs = []) \/ (k' <> k /\ bs = [Modified (named x) k k']))).
          { intros bs' Kb x e k d Q O' T'. apply rel_inj in Q. subst x. right. exists c, st, h. destruct O' as (_ & O' & _). rewrite Lk in O'. inversion O'; subst.
            split; [reflexivity|]. split; [exact Hh|]. pose proof (proj2 (lists_get _ _ _ _ _ _ L') T') as G3'. rewrite G3 in G3'. inversion G3'; subst. exact Kb. }
          destruct (key_eqb h k0) eqn:Qk; inversion H; subst; (split; [apply Fin|]; split; [apply Fin|]; apply K).
          -- left. split; [apply key_eqb_eq, Qk|reflexivity].
          -- right. split; [|reflexivity]. intros ->. rewrite (proj2 (key_eqb_eq k0 k0) eq_refl) in Qk. discriminate.
    - intros u u' q a Fu (Q & x & e & O & N & Pa & K). split; [exact Q|]. exists x, e. split; [exact O|]. split; [exact N|]. split; [exact Pa|].
      destruct K as [K|(K1 & K2 & l & c & st & k & K3 & K4 & K5)]; [auto|]. right. split; [exact K1|]. split; [exact K2|]. exists l, c, st, k. split; [exact K3|]. split; [exact K4|].
      eapply hashed_mono; [apply Fu|exact K5].
    - intros q u a u' I [Fu Gu] H. apply La in I as (x & e & -> & O & N). unfold f_added in H.
      assert (G1 : exists dd, pm_get src (named x) = Some dd /\ dd = is_dir (w_fs w) (locate (w_cwd w) p ++ x)) by (eexists; split; [apply (fs_get _ _ _ _ _ _ _ L); eauto|reflexivity]).
      destruct G1 as (dd & G1 & Ed). unfold pm_index in H. rewrite G1 in H. unfold bind at 1 in H. cbn [ret] in H.
      assert (Hd : e = EDir <-> dd = true). { rewrite Ed. unfold is_dir. destruct O as (_ & -> & _). destruct e; split; congruence. }
      destruct dd.
      + inversion H; subst. split; [split; assumption|]. split; [reflexivity|]. split; [reflexivity|]. exists x, e. split; [exact O|]. split; [exact N|]. split; [reflexivity|]. left. cbn. tauto.
      + apply bind_done in H as (rr & u1 & H1' & H). pose proof (hash_good (named x) u St Gu) as Gh. pose proof (rel_hash_fs_item fr (named x) u) as Fh.
        apply try_done in H1' as [(h & -> & H1')|(er & -> & H1')]; [|discriminate]. apply ret_done in H as [-> ->]. rewrite H1' in Gh, Fh. cbn [snd] in *.
        apply hash_right in H1' as (l & c & st & S & Hh); [|exact St|apply Gu]. pose proof Fu as (Fu1 & Fu2 & _). rewrite Fu1, Fu2 in S.
        split; [split; [etransitivity; eassumption|exact Gh]|]. split; [exact Fh|]. split; [reflexivity|]. exists x, e. split; [exact O|]. split; [exact N|]. split; [reflexivity|]. right.
        split; [intro; assert (false = true) by tauto; discriminate|]. split; [reflexivity|]. exists l, c, st, h. auto.
  Qed.
  Lemma compare_fs_done p ex fo to w r w' : steady_reads -> fs_ok (w_fs w) -> triples_ok (w_fs w) -> cache_right w -> tidy_of w to ->
    compare ds (TFileSystem p ex fo) to w = (Done r, w') -> fr w w' /\ good w' /\ fs_result ex fo p w to (w_hashed w') r.
  Proof.
    intros St O T R Td H. rewrite compare_eq in H. apply bind_done in H as (src & w1 & H1 & H). apply bind_done in H as (m' & w2 & H2 & H).
    apply src_lists in H1 as (T1 & m & -> & L); [|exact O]. apply (to_lists w) in H2 as [T2 L']; [|apply cur_ticked, T1|exact Td].
    pose proof (ticked_trans _ _ _ T1 T2) as T12. eapply fs_tail; eauto; [apply fr_ticked, T12|]. eapply good_crel; [apply crel_ticked, T12|]. split; assumption.
  Qed.
End DiffFacts.
