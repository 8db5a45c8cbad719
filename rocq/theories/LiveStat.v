(** Exactly when [compare --stat] succeeds, and what the cache has in it. *)
From Coq Require Import RelationClasses.
From Verif Require Import Base BaseFacts TableFacts Key KeyFacts Keyish Cbor CborFacts Object ObjectFacts Path World WorldFacts Store File Filter Dir Diff Commit Main SpecStore StoreCalls SpecRun SpecProc SpecFile SpecDir SpecClosure
  SpecCache SpecDiff SpecPatch SpecShow SpecOut SpecCmd SpecText SpecShape SpecLive Frame DbRel Integrity ObjStoreFacts SessionFacts FilePlan FileFacts ChunkFacts FileRun FsFacts DirPlan DirFacts GetFacts DirTrip DirTree DirWalk
  WalkFacts DirLive CacheFacts HashFacts SortFacts CompareFacts DiffFacts LineFacts CheckoutFacts ProcFacts CmdFacts InitFacts Reader OutFacts SnapFacts ShowFacts Closure ShapeFacts ShapeTop LiveFacts LiveDiff LiveCmd LiveStart.

Section LiveStat.
  Context {E : Env}.
  Notation ds := sqlite_ds.
  #[local] Existing Instance calm_pre.
  #[local] Existing Instance calm_Rd.
  #[local] Existing Instance calm_Put.
  #[local] Existing Instance calm_Cache.
  #[local] Existing Instance calm_Fs.

  Definition held (w : world) : Prop := no_coll (w_hashed w) -> cache_kept (cur_cache w) (cur_db w).
  Definition hi (w : world) : Prop := w_faults w = [] /\ inv w /\ held w.
  Lemma file_le d d' k : le d d' -> stored_file d k -> stored_file d' k.
  Proof. intros L (o & O & T). exists o. split; [eapply object_le; eassumption|exact T]. Qed.
  Lemma kept_le c d d' : le d d' -> cache_kept c d -> cache_kept c d'.
  Proof. intros L H a b I. destruct (H a b I) as (k & -> & S). exists k. split; [reflexivity|]. eapply file_le; eassumption. Qed.
  Lemma held_ext w w' : ext w w' -> cur_cache w' = cur_cache w -> held w -> held w'.
  Proof. intros (I & L & _) C H NC. rewrite C. eapply kept_le; [exact L|]. apply H. eapply coll_incl; eassumption. Qed.
  Lemma hi_ticked w w' : ticked w w' -> w_faults w' = [] -> hi w -> hi w'.
  Proof.
    intros T F (_ & I & H). split; [exact F|]. split; [|eapply held_ext; [apply ticked_ext, T|destruct T as (? & ? & ->); reflexivity|exact H]].
    eapply inv_same; [|exact I]. destruct T as (? & ? & ->). repeat split.
  Qed.
  (** A file's object. *)
  Lemma put_file_held size h u k u' : inv u -> ref Data h u -> (size < 2 ^ 64)%N -> put_item ds (file_item size h) u = (Done k, u') ->
    inv u' /\ ext u u' /\ (no_coll (w_hashed u') -> stored_file (cur_db u') k).
  Proof.
    intros I R S H. assert (X : tri (fun w => True /\ ref Data h w) (put_item ds (file_item size h)) (fun k w => no_coll (w_hashed w) -> stored_file (cur_db w) k)).
    { unfold put_item. destruct (object_of_fsitem (file_item size h)) as [o|] eqn:O; [|apply tri_fail]. destruct (obj_fits o) eqn:F.
      - apply (tri_conseq (put_obj ds o) (fun w => no_coll (w_hashed w) -> well_formed (cur_db w) o) (fun k w => no_coll (w_hashed w) -> object_at (cur_db w) (as_db_key k) = Some o)); [apply tri_put_obj| |].
        + intros v [_ Rv] NC. pose proof (fsitem_object _ _ O F S) as D. unfold object_of_fsitem in O. cbn [fi_names file_item forallb fi_type fi_children fsitem_objtype] in O.
          unfold well_formed. inv O. cbn [o_type o_keys] in *. exists size, h. split; [reflexivity|]. split; [apply Rv, NC|exact D].
        + intros k' v Ob NC. exists o. split; [apply Ob, NC|]. unfold object_of_fsitem in O. cbn in O. inv O. reflexivity.
      - cbn [of_option]. intros w Iw _. unfold bind, ret, put_obj. rewrite F. split; [exact Iw|]. intros; discriminate. }
    destruct (X u I (conj Logic.I R)) as [I' D]. rewrite H in I'. destruct (D k u' H) as [Ex Q]. auto.
  Qed.
  Lemma calm_step {A} (m : M A) v a v' : rel InitFacts.calm m -> m v = (Done a, v') -> w_faults v = [] -> w_faults v' = [].
  Proof. intros R Hm Fv. specialize (R v Fv). rewrite Hm in R. apply R. Qed.
  Lemma calm_get ck : rel InitFacts.calm (cache_get ck).
  Proof. unfold cache_get. apply rel_bind; [exact _|apply cp_read|]. intros [d|]; [|apply rel_ret; exact _]. apply rel_bind; [exact _| |intro; apply rel_ret; exact _]. intros w F. destruct (from_db_key d); cbn; auto. Qed.
  Lemma hash_held p u k u' : hi u -> hash_fs_item ds p u = (Done k, u') -> hi u' /\ ext u u' /\ (no_coll (w_hashed u') -> stored_file (cur_db u') k).
  Proof.
    intros (F & I & He) H. assert (F' : w_faults u' = []). { pose proof (rel_hash_fs_item InitFacts.calm p u) as C. rewrite H in C. apply C, F. }
    unfold hash_fs_item in H. apply bind_done in H as (m & u1 & H1 & H). pose proof (calm_step _ _ _ _ (rel_metadata InitFacts.calm p) H1 F) as F1. apply metadata_done in H1 as (T1 & l & e & S1 & M1).
    destruct m as [|size st|]; try discriminate H. apply bind_done in H as (r & u2 & H2 & H). pose proof (calm_step _ _ _ _ (rp_openread p) H2 F1) as F2. apply open_read_done in H2 as (T2 & l' & c & st' & t & S2 & R2).
    assert (Sz : (size < 2 ^ 64)%N) by (destruct e; cbn in M1; inv M1; apply wrap64_lt).
    destruct r as [[st2 fsize] reads]. cbv zeta in H. apply bind_done in H as (cc & u3 & H3 & H). set (ck := CacheKey (s_inode st2) (s_mtime st2) fsize) in *.
    pose proof (calm_step _ _ _ _ (calm_get ck) H3 F2) as F3. apply cache_get_done in H3 as [T3 L3]. pose proof (ticked_trans _ _ _ (ticked_trans _ _ _ T1 T2) T3) as T.
    pose proof (ticked_ext _ _ T) as Ex. assert (Cc : cur_cache u3 = cur_cache u) by (destruct T as (? & ? & ->); reflexivity).
    assert (I3 : inv u3) by (eapply inv_same; [|exact I]; destruct T as (? & ? & ->); repeat split).
    assert (He3 : held u3) by (eapply held_ext; eassumption). destruct cc as [h|].
    - apply ret_done in H as [-> ->]. split; [split; [exact F'|split; assumption]|]. split; [exact Ex|]. intro NC. specialize (He3 NC).
      rewrite looked_up_eq in L3. assert (Cc2 : cur_cache u2 = cur_cache u3) by (destruct T3 as (? & ? & ->); reflexivity). rewrite Cc2 in L3.
      destruct (assoc (cache_bytes ck) (cur_cache u3)) as [b|] eqn:A; [|discriminate L3]. apply assoc_In in A. destruct (He3 _ _ A) as (k & -> & St). cbn [answer] in L3. rewrite from_as_db_key in L3. inv L3. exact St.
    - apply bind_done in H as (h & u4 & H4 & H). destruct (tri_put_data reads (fun _ => True) u3 I3 Logic.I) as [I4 D4]. rewrite H4 in I4. destruct (D4 _ _ H4) as [E4 R4]. cbn [snd] in I4.
      assert (K4 : cur_cache u4 = cur_cache u3). { pose proof (rel_put_data kc reads u3) as X. rewrite H4 in X. apply kc_cur, X. }
      apply bind_done in H as (k' & u5 & H5 & H). destruct (put_file_held _ _ _ _ _ I4 R4 Sz H5) as (I5 & E5 & St5).
      assert (K5 : cur_cache u5 = cur_cache u4). { pose proof (rel_put_item kc (file_item size h) u4) as X. rewrite H5 in X. apply kc_cur, X. }
      pose proof (ext_trans _ _ _ Ex (ext_trans _ _ _ E4 E5)) as E05. assert (He5 : held u5) by (eapply held_ext; [exact (ext_trans _ _ _ E4 E5)|congruence|exact He3]).
      apply bind_done in H as (x & u6 & H6 & H). apply ret_done in H as [-> ->].
      pose proof (still_cache_put ck k' u5) as S6. rewrite H6 in S6. cbn [snd] in S6. pose proof (still_ext _ _ S6) as E6. destruct S6 as [S6 _].
      assert (St6 : no_coll (w_hashed u6) -> stored_file (cur_db u6) k').
      { intro NC. destruct E6 as (A & B & _). eapply file_le; [exact B|]. apply St5. eapply coll_incl; eassumption. }
      split; [|split; [exact (ext_trans _ _ _ E05 E6)|exact St6]]. split; [exact F'|]. split; [eapply inv_same; eassumption|].
      pose proof (calm_step _ _ _ _ (rel_put_data InitFacts.calm _) H4 F3) as F4. pose proof (calm_step _ _ _ _ (rel_put_item InitFacts.calm _) H5 F4) as F5.
      intro NC. specialize (St6 NC). assert (He6 : cache_kept (cur_cache u5) (cur_db u6)).
      { destruct E6 as (A & B & _). eapply kept_le; [exact B|]. apply He5. eapply coll_incl; eassumption. }
      unfold cache_put, cache_write, try in H6. match type of H6 with context [op ?e u5] => destruct (op_live e u5 F5) as (w1 & T6 & F6 & R6) end. rewrite R6 in H6. inv H6.
      intros a b Ia. rewrite cur_put_cache in Ia. apply In_ignore in Ia as [Ia|Ia]; [inv Ia; exists k'; split; [reflexivity|exact St6]|].
      apply (He6 a). destruct T6 as (? & ? & ->). exact Ia.
  Qed.

  (** ** The keys in what is reported *)
  Lemma mapM_ext {A B} (Q : world -> A -> B -> Prop) (f : A -> M B) :
    (forall w w' x y, ext w w' -> Q w x y -> Q w' x y) ->
    forall l, (forall x w y w', In x l -> hi w -> f x w = (Done y, w') -> hi w' /\ ext w w' /\ Q w' x y) ->
    forall w ys w', hi w -> mapM f l w = (Done ys, w') -> hi w' /\ ext w w' /\ Forall2 (Q w') l ys.
  Proof.
    intro Mono. induction l as [|x l IH]; intros Step w ys w' I H; cbn [mapM] in H.
    - apply ret_done in H as [-> ->]. split; [exact I|]. split; [apply ext_refl|constructor].
    - apply bind_done in H as (y & w1 & H1 & H). apply bind_done in H as (zs & w2 & H2 & H). apply ret_done in H as [-> ->].
      apply Step in H1 as (I1 & F1 & Q1); [|left; reflexivity|exact I]. apply IH in H2 as (I2 & F2 & Q2); [|intros; eapply Step; eauto; right; assumption|exact I1].
      split; [exact I2|]. split; [eapply ext_trans; eassumption|]. constructor; [eapply Mono; eassumption|exact Q2].
  Qed.
  Definition filed (u : world) (k : key) : Prop := no_coll (w_hashed u) -> stored_file (cur_db u) k.
  Lemma filed_ext u u' k : ext u u' -> filed u k -> filed u' k.
  Proof. intros (I & L & _) H NC. eapply file_le; [exact L|]. apply H. eapply coll_incl; eassumption. Qed.
  Lemma tail_held p ex fo w to src to_map u r u' : fs_lists ex fo p w src -> lists w to to_map ->
    listable ex (locate (w_cwd w) fo) (w_fs w) p (locate (w_cwd w) p) stack ->
    hi u -> compare_tail (inl (p, src)) to_map u = (Done r, u') ->
    hi u' /\ ext u u' /\ df_deleted r = [] /\
    (forall a k, In a (df_added r) -> ad_isdir a = false -> ad_key a = Some k -> filed u' k) /\
    (forall m, In m (df_modified r) -> filed u' (md_new m) /\ exists x c st d, on_disk ex fo p w x (EFile c st) /\ tree_of w to x (md_old m) d) /\
    (forall x c st k d, on_disk ex fo p w x (EFile c st) -> tree_of w to x k d -> (exists m, In m (df_modified r) /\ md_old m = k) \/ filed u' k).
  Proof.
    intros L L' Li Hu H. apply tail_done in H as (G & added & w3 & modified & H1 & H3 & ->). cbn [src_keys df_deleted df_added df_modified] in *.
    assert (Kind : forall x e, on_disk ex fo p w x e -> e = EDir \/ exists c st, e = EFile c st).
    { intros x e (N & Lk & I). destruct (Li _ _ Lk) as [_ K]; [intros r1 r2 Q N1 _; eapply I; eassumption|]. apply K, I. }
    apply (mapM_ext (fun u _ y => forall k, ad_isdir y = false -> ad_key y = Some k -> filed u k)) in H1 as (I3 & E3 & A3); [|intros v v' x y X H k0 D K; eapply filed_ext; eauto| |exact Hu].
    2: { intros q v y v' _ Iv H. unfold f_added in H. apply bind_done in H as (b & v1 & Hb & H). unfold pm_index in Hb. destruct (pm_get src q) as [d|]; [|discriminate]. apply ret_done in Hb as [-> ->].
      destruct d; [apply ret_done in H as [-> ->]; split; [exact Iv|]; split; [apply ext_refl|intros; discriminate]|].
      apply bind_done in H as (rr & v2 & Hh & H). apply try_done in Hh as [(a & -> & Q)|(e & -> & Q)]; [|discriminate]. apply ret_done in H as [-> ->].
      destruct (hash_held _ _ _ _ Iv Q) as (I2 & E2 & S2). split; [exact I2|]. split; [exact E2|]. cbn. intros k _ K. inv K. exact S2. }
    apply (mapM_ext (fun u q ys =>
      (forall m, In m ys -> filed u (md_new m) /\ exists x c st d, on_disk ex fo p w x (EFile c st) /\ tree_of w to x (md_old m) d) /\
      (forall x c st k d, q = named x -> on_disk ex fo p w x (EFile c st) -> tree_of w to x k d -> (exists m, In m ys /\ md_old m = k) \/ filed u k))) in H3 as (I4 & E4 & A4); [| | |exact I3].
    - split; [exact I4|]. split; [eapply ext_trans; eassumption|]. split; [reflexivity|]. split; [|split].
      + intros a k I. unfold sort_added in I. apply (Permutation.Permutation_in _ (Permutation.Permutation_sym (sort_perm added_cmp added))) in I. intros D K. eapply filed_ext; [exact E4|].
        clear -A3 I D K. induction A3 as [|x y l l' Q A IH]; [destruct I|]. destruct I as [->|I]; eauto.
      + intros m I. unfold sort_modified in I. apply (Permutation.Permutation_in _ (Permutation.Permutation_sym (sort_perm modified_cmp (concat modified)))) in I. clear -A4 I.
        induction A4 as [|x y l l' Q A IH]; [destruct I|]. cbn [concat] in I. apply in_app_iff in I as [I|I]; [exact (proj1 Q m I)|auto].
      + intros x c st k d D T.
        assert (I : In (named x) (filter (pmem (map fst to_map)) (map fst src))).
        { apply filter_In. split; [apply (fs_keys _ _ _ _ _ _ L); eauto|]. apply (lists_mem _ _ _ _ L'). eauto. }
        assert (Z : (exists m, In m (concat modified) /\ md_old m = k) \/ filed u' k).
        { clear -A4 I D T. induction A4 as [|q y l l' Q A IH]; [destruct I|]. cbn [concat]. destruct I as [->|I].
          - destruct (proj2 Q x c st k d eq_refl D T) as [(m & Im & M)|F]; [left; exists m; split; [apply in_app_iff; auto|exact M]|auto].
          - destruct (IH I) as [(m & Im & M)|F]; [left; exists m; split; [apply in_app_iff; auto|exact M]|auto]. }
        destruct Z as [(m & Im & M)|Z]; [left|auto]. exists m. split; [|exact M]. unfold sort_modified. eapply Permutation.Permutation_in; [apply sort_perm|exact Im].
    - intros v v' q ys X [Q1 Q2]. split.
      + intros m I. destruct (Q1 m I) as [F1 R]. split; [eapply filed_ext; eassumption|exact R].
      + intros x c st k d Q D T. destruct (Q2 x c st k d Q D T) as [R|F2]; [auto|]. right. eapply filed_ext; eassumption.
    - intros q v ys v' I Iv H. apply filter_In in I as [I Nm]. apply (fs_keys _ _ _ _ _ _ L) in I as (x & e & -> & D).
      unfold f_modified, pm_index in H. rewrite (fs_listed _ _ _ _ _ _ _ L D) in H.
      pose proof Nm as Tk. apply (lists_mem _ _ _ _ L') in Tk as (k & d & T). pose proof T as T0. apply (lists_get _ _ _ _ _ _ L') in T0. rewrite T0 in H.
      destruct (Kind _ _ D) as [->|(c & st & ->)]; pose proof D as (N & Lk & _); unfold is_dir in H; rewrite Lk in H.
      + unfold bind, ret in H. inv H. split; [exact Iv|]. split; [apply ext_refl|]. split; [intros m []|]. intros x' c' st' k' d' Q D' _. apply rel_inj in Q. subst x'.
        destruct D' as (_ & Lk' & _). rewrite Lk in Lk'. discriminate.
      + apply bind_done in H as (f & v1 & H1 & H). apply bind_done in H1 as (b & v2 & Hb & H1). apply ret_done in Hb as [-> ->]. apply bind_done in H1 as (h & v3 & Hh & H1). apply ret_done in H1 as [-> ->].
        apply bind_done in H as (tk & v4 & Ht & H). apply ret_done in Ht as [-> ->]. cbn [fst] in H.
        destruct (hash_held _ _ _ _ Iv Hh) as (I2 & E2 & S2).
        destruct (key_eqb h k) eqn:Ke; apply ret_done in H as [-> ->]; (split; [exact I2|]; split; [exact E2|]; split).
        * intros m [].
        * intros x' c' st' k' d' Q D' T'. apply rel_inj in Q. subst x'. apply (lists_get _ _ _ _ _ _ L') in T'. rewrite T0 in T'. inv T'. apply key_eqb_eq in Ke. subst h. right. exact S2.
        * intros m [<-|[]]. cbn. split; [exact S2|]. exists x, c, st, d. auto.
        * intros x' c' st' k' d' Q D' T'. apply rel_inj in Q. subst x'. apply (lists_get _ _ _ _ _ _ L') in T'. rewrite T0 in T'. inv T'. left. eexists. split; [left; reflexivity|reflexivity].
  Qed.

  (** ** The command *)
  Lemma started_sound cm w st w1 : reachable w -> starts cm w st w1 -> sound w1.
  Proof.
    intros R S. assert (G : rel snd_rel (setup cm)).
    { unfold setup. apply rel_bind; [exact _|apply rel_open_repo; exact _|intro]. apply rel_bind; [exact _|apply rel_open_cache; exact _|intros _].
      apply rel_bind; [exact _|apply rel_ignore_on; [exact _|apply pc_begin]|intros _]. apply rel_bind; [exact _|apply pc_cache_begin|intros _]. apply rel_ret; exact _. }
    specialize (G (close_all w) (conj (reachable_full w R) Logic.I)). unfold starts in S. rewrite S in G. exact G.
  Qed.
  Lemma sound_ticked w w' : ticked w w' -> sound w -> sound w'.
  Proof. intros (t & f & ->) H. exact H. Qed.
  Lemma file_bytes d k : stored_file d k -> holds_bytes d k.
  Proof. intros (o & O & T). exists o. auto. Qed.
  Lemma bytes_le d d' k : le d d' -> holds_bytes d k -> holds_bytes d' k.
  Proof. intros L (o & O & T). exists o. split; [eapply object_le; eassumption|exact T]. Qed.
  Lemma shown_same o w w' : shown o w w' -> w_hashed w' = w_hashed w /\ cur_db w' = cur_db w.
  Proof. intros H. split; [|eapply shown_cur; exact H]. destruct H as (t & f & ->). reflexivity. Qed.
  Lemma stat_report t p ex fo v r u : at_rest v -> is_there v fo -> hi v -> sound v -> shp (cur_db v) -> full (cur_db v) -> deep_enough v -> points (cur_db v) Item t ->
    comparable ex fo p v (Some t) ->
    compare ds (TFileSystem p ex fo) (Some t) v = (Done r, u) -> no_coll (w_hashed u) -> deep_enough u ->
    works (print_stat_diff_result ds r) (cur_db u) <-> no_file_for_dir ex fo p v t.
  Proof.
    intros Ar Th Hv So Sh Fu De P Co H NC Du.
    assert (Iu : inv u). { pose proof (rel_inv_compare (TFileSystem p ex fo) (Some t) v (proj1 (proj2 Hv))) as X. rewrite H in X. exact X. }
    assert (Fu' : full (cur_db u)). { destruct (calm_compare (TFileSystem p ex fo) (Some t) (fun _ => True) v So Logic.I) as [X _]. rewrite H in X. apply sound_cur, X. }
    assert (Shu : shp (cur_db u)) by (apply typed_cur; [apply Iu|exact NC]).
    rewrite compare_eq in H. destruct Ar as [(F & O & Mo) Cr]. apply bind_done in H as (src & w1 & H1 & H). apply bind_done in H as (m' & w2 & H2 & H).
    destruct (src_lists _ _ _ _ _ _ O H1) as (T1 & m & -> & L).
    assert (Tt : tidy_of v (Some t)) by (apply item_tidy; assumption).
    destruct (to_lists v (Some t) w1 m' w2 (cur_ticked _ _ T1) Tt H2) as [T2 L'].
    pose proof (ticked_trans _ _ _ T1 T2) as T.
    assert (F2 : w_faults w2 = []).
    { eapply calm_step; [|exact H2|]; [apply rel_walk_fs_items; exact _|]. destruct Co as (Di & Li & _).
      destruct (src_live p ex fo v F Th (proj1 (src_needs _ _ _ _ _ _ O H1)) Di Li) as (x & y & Q & Fy). rewrite H1 in Q. inv Q. exact Fy. }
    pose proof Co as (_ & Li & _).
    destruct (tail_held _ _ _ _ _ _ _ _ _ _ L L' Li (hi_ticked _ _ T F2 Hv) H) as (_ & Ex & D & A & Mf & Mb).
    assert (Lv : le (cur_db v) (cur_db u)). { rewrite <- (cur_ticked _ _ T). apply Ex. }
    rewrite works_stat by exact D. split.
    - intros [_ B] x c st k d Od Tr. destruct d; [|reflexivity]. exfalso.
      destruct (tree_kind _ _ _ _ _ Sh P Tr) as [_ (o & R & To)]. apply reads_object in R. apply (object_le _ _ _ _ Lv) in R.
      destruct (Mb _ _ _ _ _ Od Tr) as [(md & I & <-)|Fi].
      + destruct (B _ I) as [(bs & S) _]. apply reads_object in R. exact (dir_no_bytes _ _ _ _ R To S).
      + destruct (Fi NC) as (o' & O' & T'). rewrite R in O'. inv O'. congruence.
    - intros Nf. split.
      + intros a k I Nd K. apply bytes_stored; try assumption. apply file_bytes. exact (A _ _ I Nd K NC).
      + intros md I. destruct (Mf _ I) as [Fi (x & c & st & d & Od & Tr)]. split; (apply bytes_stored; try assumption).
        * rewrite (Nf _ _ _ _ _ Od Tr) in Tr. destruct (tree_kind _ _ _ _ _ Sh P Tr) as [_ Hb]. eapply bytes_le; eassumption.
        * apply file_bytes, Fi, NC.
  Qed.
  Theorem compare_stat_exactly cm w s w1 p k : well_used w -> starts cm w (Some s) w1 -> at_rest w1 -> deep_enough w1 -> cache_kept (cur_cache w1) (cur_db w1) ->
    (forall ki, k = Some ki -> names_only w1 Item ki) ->
    let w2 := snd (run_command cm (Some s) (CCompare p k true) w1) in
    let base := match p with Some q => q | None => ds_repo s end in
    no_coll (w_hashed w2) -> deep_enough w2 ->
    fst (run_command cm (Some s) (CCompare p k true) w1) = Done tt <->
    globs_ok cm /\ (k = None -> has_head w1) /\
    exists t, compared_to w1 k t /\ comparable (cm_exclude cm) (ds_folder s) base w1 (Some t) /\ no_file_for_dir (cm_exclude cm) (ds_folder s) base w1 t.
  Proof.
    intros U S Ar De Ck Nm w2 q NC D2.
    assert (NC1 : no_coll (w_hashed w1)). { eapply coll_incl; [|exact NC]. apply (files_kept cm s (CCompare p k true) eq_refl w1). }
    pose proof (starts_there _ _ _ _ S) as Th. destruct (used_started _ _ _ _ U S) as [W Ty]. pose proof (typed_cur _ Ty NC1) as Sh.
    pose proof (started_sound _ _ _ _ (used_reachable _ U) S) as So. pose proof (sound_cur _ So) as Fu.
    assert (Hi1 : hi w1) by (split; [apply Ar|]; split; [split; assumption|intros _; exact Ck]).
    assert (Common : forall t v r u, tree_arg k w1 = (Done t, v) -> ticked w1 v -> w_faults v = [] -> points (cur_db w1) Item t -> comparable (cm_exclude cm) (ds_folder s) q w1 (Some t) ->
      compare ds (TFileSystem q (cm_exclude cm) (ds_folder s)) (Some t) v = (Done r, u) -> w_faults u = [] ->
      (fst (run_command cm (Some s) (CCompare p k true) w1) = Done tt <-> no_file_for_dir (cm_exclude cm) (ds_folder s) q w1 t)).
    { intros t v r u Hk T Fv P Co Hc Fu5. pose proof (alike_ticked _ _ T) as A. pose proof (cur_ticked _ _ T) as Cv.
      assert (Run : run_command cm (Some s) (CCompare p k true) w1 = print_stat_diff_result ds r u).
      { cbn [run_command with_ds]. unfold cmd_compare. fold (tree_arg k). rewrite (run_bind _ _ _ _ _ Hk). cbv zeta. fold q. rewrite (run_bind _ _ _ _ _ Hc). reflexivity. }
      subst w2. rewrite Run in *. destruct (gives_total (print_stat_diff_result ds r) (cur_db u) ltac:(apply rd_print_stat; intro; exact Logic.I)) as (x & ou & G).
      destruct (G u Fu5 eq_refl) as (w' & Hw & Sw & _). rewrite Hw in *. cbn [fst snd] in *. destruct (shown_same _ _ _ Sw) as [Hs Cs]. rewrite Hs in NC. unfold deep_enough in D2. rewrite Cs in D2.
      assert (Cov : comparable (cm_exclude cm) (ds_folder s) q v (Some t)) by (destruct A as (X & Y & _); apply (comparable_alike _ _ _ v w1); congruence).
      pose proof (stat_report t q (cm_exclude cm) (ds_folder s) v r u (rest_alike _ _ A Fv Ar) (there_alike _ _ _ A Th) (hi_ticked _ _ T Fv Hi1) (sound_ticked _ _ T So)
        ltac:(rewrite Cv; exact Sh) ltac:(rewrite Cv; exact Fu) ltac:(unfold deep_enough; rewrite Cv; exact De) ltac:(rewrite Cv; exact P) Cov Hc NC D2) as X.
      assert (Y : x = Done tt <-> works (print_stat_diff_result ds r) (cur_db u)).
      { split; [intros ->; exists tt, ou; exact G|]. intros ([] & G'). eapply gives_fun; [exists ou; exact G|exact G']. }
      rewrite Y, X. unfold no_file_for_dir, on_disk. destruct A as (Xf & Xc & _). rewrite Xf, Xc.
      split; intros Z y c st ky d Od Tr; (eapply Z; [exact Od|]); (eapply tree_cur; [|exact Tr]); congruence. }
    split.
    - intros Run. pose proof Run as Run0. cbn [run_command with_ds] in Run0. unfold cmd_compare in Run0. fold (tree_arg k) in Run0. cbv zeta in Run0. fold q in Run0.
      match type of Run0 with fst ?m = _ => destruct m as [x wx] eqn:H end. cbn in Run0. subst x.
      apply bind_done in H as (t & v & Hk & H). apply bind_done in H as (r & u & Hc & _). destruct (arg_done cm w s w1 U S _ _ _ Hk) as [Hh Ct].
      destruct (arg_live cm w s w1 U S NC1 Ar k t Nm Hh Ct) as (v' & T & Fv & P & Hk'). rewrite Hk in Hk'. inv Hk'. rename v' into v.
      destruct (compare_here q (cm_exclude cm) (ds_folder s) (Some t) w1 v (alike_ticked _ _ T) Fv Ar Th Sh Fu De P) as [Ne Li]. destruct Ne as [G Co]; [eauto|].
      destruct (Li (conj G Co)) as (r' & u' & Hc' & Fu5). rewrite Hc in Hc'. inv Hc'.
      split; [exact G|]. split; [exact Hh|]. exists t. split; [exact Ct|]. split; [exact Co|]. apply (Common _ _ _ _ Hk T Fv P Co Hc Fu5), Run.
    - intros (G & Hh & t & Ct & Co & Nf). destruct (arg_live cm w s w1 U S NC1 Ar k t Nm Hh Ct) as (v & T & Fv & P & Hk).
      destruct (compare_here q (cm_exclude cm) (ds_folder s) (Some t) w1 v (alike_ticked _ _ T) Fv Ar Th Sh Fu De P) as [_ Li]. destruct (Li (conj G Co)) as (r & u & Hc & Fu5).
      apply (Common _ _ _ _ Hk T Fv P Co Hc Fu5), Nf.
  Qed.
End LiveStat.
