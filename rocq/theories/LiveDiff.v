(** Exactly when comparing a directory with a stored tree succeeds. *)
From Coq Require Import RelationClasses.
From Verif Require Import Base BaseFacts TableFacts Key KeyFacts Cbor CborFacts Object ObjectFacts Path World WorldFacts Store File Filter Dir Diff Commit Main SpecStore StoreCalls SpecRun SpecProc SpecFile SpecDir SpecCache SpecDiff SpecLive
  Frame DbRel Integrity ObjStoreFacts SessionFacts FilePlan FileFacts ChunkFacts FileRun FsFacts DirPlan DirFacts GetFacts DirTrip FetchSafe DirTree DirWalk WalkFacts DirLive CacheFacts HashFacts CompareFacts DiffFacts CheckoutFacts
  Reader SpecPatch SpecShow SpecOut OutFacts SnapFacts ShowFacts LiveFacts.

Section LiveDiff.
  Context {E : Env}.
  Notation ds := sqlite_ds.

  (** Storing leaves the cache alone. *)
  Definition kc (w w' : world) : Prop := w_cache w' = w_cache w /\ w_ctxn w' = w_ctxn w.
  #[export] Instance kc_pre : PreOrder kc.
  Proof. split; [intro w; split; reflexivity|]. intros a b c [] []. split; congruence. Qed.
  Ltac op_kc := match goal with |- rel _ ?m => intro w; try unfold m end;
    match goal with |- context [op ?e ?x] => let fl := fresh "fl" in let w1 := fresh "w1" in let E1 := fresh "E1" in let T := fresh "T" in
      destruct (op_case e x) as (fl & w1 & E1 & T); rewrite E1; clear E1; transitivity w1; [destruct T as (? & ? & ->); split; reflexivity|]; clear T end.
  #[export] Instance kc_Rd : RdPrims kc.
  Proof.
    split; [exact _|..].
    - intros A q. unfold db_read. op_kc. destruct fl; split; reflexivity.
    - intros t a. unfold print. op_kc. destruct fl; split; reflexivity.
    - intros d. unfold write_stdout. op_kc. destruct fl; split; reflexivity.
    - intros A q. unfold fs_query. op_kc. destruct fl; cbn; try (split; reflexivity). destruct (q _ _); split; reflexivity.
    - intro p. unfold fs_read_dir. op_kc. cbn. destruct (stat _ _ _) as [[l [| | |]]|]; destruct fl as [|[|]| |]; split; reflexivity.
    - intro p. unfold fs_open_read. op_kc. cbn. destruct (stat _ _ _) as [[l [| | |]]|]; destruct fl as [|[|]| |]; split; reflexivity.
  Qed.
  #[export] Instance kc_Put : PutPrims kc.
  Proof.
    split. intro d. unfold put. cbn [raw_put sqlite_ds]. unfold sqlite_raw_put. apply rel_bind; [exact _|intro w; split; reflexivity|].
    intro k. apply rel_bind; [exact _| |intros ? w; split; reflexivity]. intro w. unfold db_write.
    match goal with |- context [op ?e ?x] => destruct (op_case e x) as (fl & w1 & E1 & T) end. rewrite E1.
    transitivity w1; [destruct T as (? & ? & ->); split; reflexivity|].
    assert (P : forall d, kc w1 (put_db d w1)) by (intro d'; unfold put_db; destruct (w_txn w1); split; reflexivity).
    destruct fl as [| | |[|]]; cbn; try (split; reflexivity); try apply P; destruct (w_txn w1); try (split; reflexivity); apply P.
  Qed.
  Lemma kc_cur w w' : kc w w' -> cur_cache w' = cur_cache w.
  Proof. intros [H1 H2]. unfold cur_cache. rewrite H1, H2. reflexivity. Qed.
  (** *** Hashing a file *)
  Definition calm_at (f : fs) (cwd : loc) (u : world) : Prop := w_faults u = [] /\ here f cwd u /\ cache_readable u.
  Lemma calm_ticked f cwd u u' : calm_at f cwd u -> ticked u u' -> w_faults u' = [] -> calm_at f cwd u'.
  Proof.
    intros (_ & H & C) T F. split; [exact F|]. split; [eapply here_ticked; eassumption|]. intros a b I. eapply C.
    destruct T as (? & ? & ->). exact I.
  Qed.
  Lemma cache_get_live ck u : w_faults u = [] -> cache_readable u -> exists r u', cache_get ck u = (Done r, u') /\ ticked u u' /\ w_faults u' = [].
  Proof.
    intros F C. unfold cache_get, cache_read. unfold bind at 1. match goal with |- context [op ?e u] => destruct (op_live e u F) as (w1 & T & F1 & ->) end.
    assert (cur_cache w1 = cur_cache u) as -> by (destruct T as (? & ? & ->); reflexivity).
    destruct (assoc (cache_bytes ck) (cur_cache u)) as [d|] eqn:A; [|eexists _, _; split; [reflexivity|auto]].
    apply assoc_In in A. apply C in A as [k ->]. unfold lift_result. rewrite from_as_db_key. eexists _, _. split; [reflexivity|auto].
  Qed.
  Lemma cache_put_live ck k u : w_faults u = [] -> cache_readable u ->
    exists u', cache_put ck k u = (Done tt, u') /\ w_faults u' = [] /\ w_fs u' = w_fs u /\ w_cwd u' = w_cwd u /\ cache_readable u'.
  Proof.
    intros F C. unfold cache_put, cache_write. match goal with |- context [op ?e u] => destruct (op_live e u F) as (w1 & T & F1 & ->) end.
    eexists. split; [reflexivity|]. destruct (ticked_fs _ _ T) as [X1 X2].
    assert (Y : forall c, w_faults (put_cache c w1) = w_faults w1 /\ w_fs (put_cache c w1) = w_fs w1 /\ w_cwd (put_cache c w1) = w_cwd w1) by (intro c; unfold put_cache; destruct (w_ctxn w1); auto).
    destruct (Y (insert_or_ignore (cache_bytes ck) (as_db_key k) (cur_cache w1))) as (-> & -> & ->). split; [exact F1|]. split; [exact X1|]. split; [exact X2|].
    intros a b I. rewrite cur_put_cache in I. apply In_ignore in I as [I|I]; [inv I; eauto|]. eapply C. destruct T as (? & ? & ->). exact I.
  Qed.
  Lemma hash_live p u f cwd l c st : calm_at f cwd u -> moderate f -> stat f cwd p = Some (l, EFile c st) ->
    exists k u', hash_fs_item ds p u = (Done k, u') /\ calm_at f cwd u'.
  Proof.
    intros Cu Mo S. pose proof Cu as (F & Hw & C). destruct (stat_locate _ _ _ _ _ S) as (_ & L & _). pose proof (Mo _ _ L) as Sz. cbn in Sz.
    unfold hash_fs_item, fs_metadata.
    match goal with |- context [bind (fs_query ?q)] => destruct (query_live q u (MFile (wrap64 (lenN c)) st) F) as (w1 & T1 & F1 & Qm) end.
    { destruct Hw as [-> ->]. rewrite S. reflexivity. }
    rewrite (run_bind _ _ _ _ _ Qm). clear Qm. pose proof (calm_ticked _ _ _ _ Cu T1 F1) as C1. pose proof C1 as (_ & Hw1 & _).
    destruct (open_live p w1 l c st F1) as (w2 & t & T2 & F2 & Qr); [destruct Hw1 as [-> ->]; exact S|].
    rewrite (run_bind _ _ _ _ _ Qr). clear Qr. cbn beta iota. pose proof (calm_ticked _ _ _ _ C1 T2 F2) as C2.
    match goal with |- context [cache_get ?ck] => destruct (cache_get_live ck w2 F2 (proj2 (proj2 C2))) as (r & w3 & Q3 & T3 & F3) end.
    rewrite (run_bind _ _ _ _ _ Q3). clear Q3. pose proof (calm_ticked _ _ _ _ C2 T3 F3) as C3. destruct r as [h|]; [eexists _, _; split; [reflexivity|exact C3]|].
    destruct (put_data_live (segment (read_sizes t c) c) w3 F3) as (h & w4 & Q & F4); [rewrite stream_segment; reflexivity|rewrite stream_segment; exact Sz|].
    rewrite (run_bind _ _ _ _ _ Q).
    assert (K4 : cur_cache w4 = cur_cache w3 /\ here f cwd w4).
    { pose proof (rel_put_data crel (segment (read_sizes t c) c) w3) as X. rewrite Q in X. destruct X as ((X1 & X2 & _) & X3 & X4). cbn [snd] in *.
      split; [|destruct C3 as (_ & [H1 H2] & _); split; congruence]. apply kc_cur. pose proof (rel_put_data kc (segment (read_sizes t c) c) w3) as X. rewrite Q in X. exact X. }
    destruct (put_item_live (file_item (wrap64 (lenN c)) h) w4 f cwd F4 (proj2 K4) (file_object _ _)) as (k & w5 & Q5 & F5 & H5).
    rewrite (run_bind _ _ _ _ _ Q5).
    assert (K5 : cur_cache w5 = cur_cache w4).
    { apply kc_cur. pose proof (rel_put_item kc (file_item (wrap64 (lenN c)) h) w4) as X. rewrite Q5 in X. exact X. }
    match goal with |- context [cache_put ?ck k] => destruct (cache_put_live ck k w5 F5) as (w6 & Q6 & F6 & X1 & X2 & X3) end.
    { intros a b I. rewrite K5, (proj1 K4) in I. eapply (proj2 (proj2 C3)), I. }
    unfold try. unfold bind at 1. rewrite Q6. eexists _, _. split; [reflexivity|]. split; [exact F6|]. split; [|exact X3]. destruct H5. split; congruence.
  Qed.

  (** *** Comparing *)
  Lemma mapM_live {A B} (Inv : world -> Prop) (f : A -> M B) : forall l,
    (forall x u, In x l -> Inv u -> exists y u', f x u = (Done y, u') /\ Inv u') ->
    forall u, Inv u -> exists ys u', mapM f l u = (Done ys, u') /\ Inv u'.
  Proof.
    induction l as [|x l IH]; intros Step u I; cbn [mapM]; [eexists _, _; split; [reflexivity|exact I]|].
    destruct (Step x u (or_introl eq_refl) I) as (y & u1 & Q1 & I1). rewrite (run_bind _ _ _ _ _ Q1).
    destruct (IH (fun x u H => Step x u (or_intror H)) u1 I1) as (ys & u2 & Q2 & I2). rewrite (run_bind _ _ _ _ _ Q2). eexists _, _. split; [reflexivity|exact I2].
  Qed.
  Lemma stat_below_disk f cwd p l x e : stat f cwd p = Some (l, EDir) -> closed f -> x <> [] -> lookup f (l ++ x) = Some e -> stat f cwd (join p (named x)) = Some (l ++ x, e).
  Proof.
    intros S C. revert e. induction x as [|n x IH] using rev_ind; intros e N L; [congruence|]. clear N. change (named (x ++ [n])) with (rel_path (x ++ [n])). rewrite join_push.
    rewrite app_assoc in *. apply stat_push; [|exact L]. pose proof (C _ _ _ L) as D. destruct x as [|a x].
    - rewrite app_nil_r in *. change (rel_path []) with path_empty. rewrite stat_base, S. reflexivity.
    - apply IH; [discriminate|exact D].
  Qed.
  Lemma locate_found f cwd p l e : stat f cwd p = Some (l, e) -> l = locate cwd p.
  Proof. intro S. apply stat_locate in S. apply S. Qed.
  Lemma here_self w : here (w_fs w) (w_cwd w) w.
  Proof. split; reflexivity. Qed.

  Lemma walk_base base : path_empty = rel_path [] /\ p_comps base = p_comps base ++ map Normal [].
  Proof. split; [reflexivity|]. cbn. rewrite app_nil_r. reflexivity. Qed.
  Lemma there_db w fo : is_there w fo -> exists l e, stat (w_fs w) (w_cwd w) fo = Some (l, e) /\ e <> EDangling.
  Proof. intros (l & e & m & S & M). exists l, e. split; [exact S|]. intros ->. discriminate M. Qed.
  Lemma src_live p ex fo w : w_faults w = [] -> is_there w fo -> forallb glob_valid ex = true -> directory w p ->
    listable ex (locate (w_cwd w) fo) (w_fs w) p (locate (w_cwd w) p) stack ->
    exists src w', compare_src (TFileSystem p ex fo) w = (Done src, w') /\ w_faults w' = [].
  Proof.
    intros F Th G (l & S) Li. cbn [compare_src]. unfold make_filter_fn. rewrite G. rewrite (run_bind _ _ _ _ _ (eq_refl : ret (filter_fn ex fo) w = (Done (filter_fn ex fo), w))).
    pose proof (locate_found _ _ _ _ _ S) as ->.
    assert (Sb : stat (w_fs w) (w_cwd w) (join p (rel_path [])) = Some (locate (w_cwd w) p, EDir)) by (change (rel_path []) with path_empty; rewrite stat_base, S; reflexivity).
    destruct (list_lives ex fo (w_fs w) (w_cwd w) p (there_db _ _ Th) stack [] w _ EDir p F (here_self w) eq_refl (proj2 (walk_base p)) Sb Li) as (m & w1 & Q & F1 & _).
    unfold walk_real_fs_items. change path_empty with (rel_path []). rewrite (run_bind _ _ _ _ _ Q). eexists _, _. split; [reflexivity|exact F1].
  Qed.
  Lemma src_needs p ex fo w src w' : fs_ok (w_fs w) -> compare_src (TFileSystem p ex fo) w = (Done src, w') ->
    forallb glob_valid ex = true /\ directory w p /\ listable ex (locate (w_cwd w) fo) (w_fs w) p (locate (w_cwd w) p) stack.
  Proof.
    intros O H. cbn [compare_src] in H. apply bind_done in H as (f & w1 & H1 & H). unfold make_filter_fn in H1. destruct (forallb glob_valid ex); [|discriminate].
    apply ret_done in H1 as [-> ->]. split; [reflexivity|]. apply bind_done in H as (m & w1 & H1 & H).
    unfold walk_real_fs_items in H1. change path_empty with (rel_path []) in H1.
    apply (list_needs ex fo (w_fs w) (w_cwd w) p (fs_ok_closed _ O) stack [] w m w1 p (here_self w) eq_refl (proj2 (walk_base p))) in H1 as (l & e & S & Li).
    change (rel_path []) with path_empty in S. rewrite stat_base in S. destruct (stat (w_fs w) (w_cwd w) p) as [[l' [| | |]]|] eqn:S'; inv S.
    split; [exists l; exact S'|]. rewrite <- (locate_found _ _ _ _ _ S'). exact Li.
  Qed.

  Lemma fs_listed ex fo p w m x e : fs_lists ex fo p w m -> on_disk ex fo p w x e -> pm_get m (named x) = Some (is_dir (w_fs w) (locate (w_cwd w) p ++ x)).
  Proof. intros L D. apply (fs_get _ _ _ _ _ _ _ L). eauto. Qed.
  Lemma tail_live p ex fo w to src to_map u : fs_lists ex fo p w src -> lists w to to_map -> moderate (w_fs w) -> fs_ok (w_fs w) ->
    calm_at (w_fs w) (w_cwd w) u -> comparable ex fo p w to ->
    exists r u', compare_tail (inl (p, src)) to_map u = (Done r, u') /\ w_faults u' = [].
  Proof.
    intros L L' Mo O Cu ((l & S) & Li & In1 & New). pose proof (locate_found _ _ _ _ _ S) as El.
    assert (Gone : gone (inl (p, src)) to_map = []).
    { apply gone_nil. intros q I. apply (lists_keys _ _ _ _ L') in I as (x & k & d & -> & T). cbn [src_keys]. apply pmem_in. apply (fs_keys _ _ _ _ _ _ L).
      destruct (In1 _ _ _ T) as [e D]. exists x, e. auto. }
    assert (Kind : forall x e, on_disk ex fo p w x e -> e = EDir \/ exists c st, e = EFile c st).
    { intros x e (N & Lk & I). destruct (Li _ _ Lk) as [_ K]; [intros r1 r2 Q N1 _; eapply I; eassumption|]. apply K, I. }
    unfold compare_tail. cbn [src_keys].
    destruct (mapM_live (calm_at (w_fs w) (w_cwd w)) (f_added (inl (p, src))) (filter (fun x => negb (pmem (map fst to_map) x)) (map fst src))) with (u := u) as (added & u1 & Q1 & C1); [|exact Cu|].
    { intros q v I Cv. apply filter_In in I as [I Nm]. apply negb_true_iff in Nm. apply (fs_keys _ _ _ _ _ _ L) in I as (x & e & -> & D).
      unfold f_added, pm_index. rewrite (fs_listed _ _ _ _ _ _ _ L D).
      rewrite (run_bind _ _ _ _ _ (eq_refl : ret _ v = (Done _, v))). destruct (Kind _ _ D) as [->|(c & st & ->)]; pose proof D as (N & Lk & _).
      - assert (is_dir (w_fs w) (locate (w_cwd w) p ++ x) = true) as -> by (unfold is_dir; rewrite Lk; reflexivity). eexists _, _. split; [reflexivity|exact Cv].
      - assert (is_dir (w_fs w) (locate (w_cwd w) p ++ x) = false) as -> by (unfold is_dir; rewrite Lk; reflexivity).
        destruct (New x c st D) as (l1 & c1 & st1 & S1); [apply (lists_nomem _ _ _ _ L'), Nm|].
        destruct (hash_live _ _ _ _ _ _ _ Cv Mo S1) as (k & v1 & Q & C1). unfold try. unfold bind at 1. rewrite Q. eexists _, _. split; [reflexivity|exact C1]. }
    rewrite (run_bind _ _ _ _ _ Q1). fold (gone (inl (p, src)) to_map). change (map fst src) with (src_keys (inl (p, src))) at 1. fold (gone (inl (p, src)) to_map).
    pose proof (gone_panics (inl (p, src)) to_map u1) as Gp. rewrite Gone in Gp. rewrite Gone. cbn [mapM]. rewrite (run_bind _ _ _ _ _ (eq_refl : ret [] u1 = (Done [], u1))).
    destruct (mapM_live (calm_at (w_fs w) (w_cwd w)) (f_modified (inl (p, src)) to_map) (filter (pmem (map fst to_map)) (map fst src))) with (u := u1) as (mods & u2 & Q2 & C2); [|exact C1|].
    { intros q v I Cv. apply filter_In in I as [I Nm]. apply (fs_keys _ _ _ _ _ _ L) in I as (x & e & -> & D).
      unfold f_modified, pm_index. rewrite (fs_listed _ _ _ _ _ _ _ L D).
      apply (lists_mem _ _ _ _ L') in Nm as (k & d & T). apply (lists_get _ _ _ _ _ _ L') in T. rewrite T.
      destruct (Kind _ _ D) as [->|(c & st & ->)]; pose proof D as (N & Lk & _).
      - assert (is_dir (w_fs w) (locate (w_cwd w) p ++ x) = true) as -> by (unfold is_dir; rewrite Lk; reflexivity). eexists _, _. split; [reflexivity|exact Cv].
      - assert (is_dir (w_fs w) (locate (w_cwd w) p ++ x) = false) as -> by (unfold is_dir; rewrite Lk; reflexivity).
        subst l. pose proof (stat_below_disk _ _ _ _ _ _ S (fs_ok_closed _ O) N Lk) as S1.
        destruct (hash_live _ _ _ _ _ _ _ Cv Mo S1) as (h & v1 & Q & C2). unfold bind, ret. rewrite Q. destruct (key_eqb h (fst (k, d))); eexists _, _; (split; [reflexivity|exact C2]). }
    rewrite (run_bind _ _ _ _ _ Q2). eexists _, _. split; [reflexivity|apply C2].
  Qed.
  Lemma tail_needs p ex fo w to src to_map u r u' : fs_lists ex fo p w src -> lists w to to_map -> fr w u ->
    compare_tail (inl (p, src)) to_map u = (Done r, u') ->
    (forall x k d, tree_of w to x k d -> exists e, on_disk ex fo p w x e) /\
    (forall x c st, on_disk ex fo p w x (EFile c st) -> (forall k d, ~ tree_of w to x k d) -> found_here w x).
  Proof.
    intros L L' Fu H. apply tail_done in H as (G & added & w3 & modified & H1 & H3 & ->). cbn [src_keys] in *. split.
    - intros x k d T. pose proof (proj1 (gone_nil _ _) G) as G'. specialize (G' (named x)). cbn [src_keys] in G'.
      destruct L as (Pl & Nd & Ll). apply pmem_iff in G'; [|exact Pl|reflexivity|].
      + apply (fs_keys _ _ _ _ _ _ (conj Pl (conj Nd Ll))) in G' as (x' & e & Q & D). assert (x' = x) as ->; [|eauto]. symmetry. apply rel_inj. exact Q.
      + apply (lists_get _ _ _ _ _ _ L') in T. apply pm_get_in in T; [|apply L'|apply L'|reflexivity]. apply in_map_iff. exists (named x, (k, d)). auto.
    - intros x c st D Nt.
      assert (I : In (named x) (filter (fun x => negb (pmem (map fst to_map) x)) (map fst src))).
      { apply filter_In. split; [apply (fs_keys _ _ _ _ _ _ L); eauto|]. apply negb_true_iff. apply (lists_nomem _ _ _ _ L'), Nt. }
      apply (mapM_inv (fr w) (fun _ q _ => forall x c st, q = named x -> on_disk ex fo p w x (EFile c st) -> found_here w x)) in H1; [|intros; eauto| |exact Fu].
      + destruct H1 as (_ & _ & A). clear -A I D. revert A. generalize added. induction (filter _ _) as [|q l IH]; [destruct I|]. intros ys A. inv A. destruct I as [->|I]; eauto.
      + intros q v y v' Iq Fv H. 
        assert (Fv' : fr v v').
        { unfold f_added in H. apply bind_done in H as (b & v1 & Hb & H). unfold pm_index in Hb. destruct (pm_get src q) as [d|]; [|discriminate]. apply ret_done in Hb as [-> ->].
          destruct d; [apply ret_done in H as [-> ->]; reflexivity|]. apply bind_done in H as (rr & v2 & Hh & H). pose proof (rel_hash_fs_item fr q v) as F2.
          apply try_done in Hh as [(a & -> & Q)|(e & -> & Q)]; rewrite Q in F2; [|discriminate]. apply ret_done in H as [-> ->]. exact F2. }
        split; [etransitivity; eassumption|]. split; [exact Fv'|]. intros x' c' st' -> D'. 
        unfold f_added in H. apply bind_done in H as (b & v1 & Hb & H). unfold pm_index in Hb.
        rewrite (fs_listed _ _ _ _ _ _ _ L D') in Hb. apply ret_done in Hb as [-> ->].
        pose proof D' as (_ & Lk & _). unfold is_dir in H. rewrite Lk in H. apply bind_done in H as (rr & v2 & Hh & H).
        apply try_done in Hh as [(a & -> & Q)|(e & -> & Q)]; [|discriminate]. apply hash_done in Q as (l1 & c1 & st1 & S1 & _). exists l1, c1, st1.
        destruct Fv as (F1 & F2 & _). rewrite <- F1, <- F2. exact S1.
  Qed.
  Lemma compare_fs_lives p ex fo to w : at_rest w -> is_there w fo -> forallb glob_valid ex = true -> tidy_of w to -> walkable_of w to ->
    comparable ex fo p w to -> exists r w', compare ds (TFileSystem p ex fo) to w = (Done r, w') /\ w_faults w' = [].
  Proof.
    intros [(F & O & Mo) Cr] Th G Tt Wt C. rewrite compare_eq.
    pose proof C as (Di & Li & A & B). destruct (src_live _ _ _ _ F Th G Di Li) as (src & w1 & H1 & F1). destruct (src_lists _ _ _ _ _ _ O H1) as (T1 & m & -> & L).
    assert (exists m' w2, compare_to to w1 = (Done m', w2) /\ w_faults w2 = []) as (m' & w2 & H2 & F2).
    { destruct to as [k|]; [|eexists _, _; split; [reflexivity|exact F1]]. destruct (walkable_gives _ _ Wt) as (m' & o & Gv).
      destruct (Gv w1 F1 (cur_ticked _ _ T1)) as (w2 & Q & _ & F2). eexists _, _. split; [exact Q|exact F2]. }
    destruct (to_lists w to w1 m' w2 (cur_ticked _ _ T1) Tt H2) as [T2 L'].
    assert (Cu : calm_at (w_fs w) (w_cwd w) w2).
    { apply (calm_ticked _ _ w); [|eapply ticked_trans; eassumption|exact F2]. split; [exact F|]. split; [apply here_self|exact Cr]. }
    destruct (tail_live _ _ _ _ _ _ _ _ L L' Mo O Cu C) as (r & u' & Q & Fu). rewrite (run_bind _ _ _ _ _ H1), (run_bind _ _ _ _ _ H2). exists r, u'. split; [exact Q|]. apply Fu.
  Qed.
  Lemma compare_fs_exactly p ex fo to w : at_rest w -> is_there w fo -> tidy_of w to -> walkable_of w to ->
    (exists r w', compare ds (TFileSystem p ex fo) to w = (Done r, w')) <-> forallb glob_valid ex = true /\ comparable ex fo p w to.
  Proof.
    intros Ar Th Tt Wt. split.
    - intros (r & w' & H). rewrite compare_eq in H. destruct Ar as [(F & O & Mo) Cr]. apply bind_done in H as (src & w1 & H1 & H). apply bind_done in H as (m' & w2 & H2 & H).
      destruct (src_needs _ _ _ _ _ _ O H1) as (G & Di & Li). destruct (src_lists _ _ _ _ _ _ O H1) as (T1 & m & -> & L).
      destruct (to_lists w to w1 m' w2 (cur_ticked _ _ T1) Tt H2) as [T2 L'].
      destruct (tail_needs _ _ _ _ _ _ _ _ _ _ L L' (fr_ticked _ _ (ticked_trans _ _ _ T1 T2)) H) as [A B]. split; [exact G|]. split; [exact Di|]. split; [exact Li|]. split; [exact A|exact B].
    - intros [G C]. destruct (compare_fs_lives p ex fo to w Ar Th G Tt Wt C) as (r & w' & H & _). eauto.
  Qed.
End LiveDiff.
