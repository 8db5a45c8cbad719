(** What [compare] does. *)
From Coq Require Import Permutation Sorted RelationClasses.
From Verif Require Import Base BaseFacts Key KeyFacts Cbor CborFacts Object ObjectFacts Path World WorldFacts Store File Filter Dir Diff SpecStore StoreCalls SpecRun SpecFile SpecDir SpecCache SpecDiff
  Frame DbRel Integrity ObjStoreFacts SessionFacts FilePlan FileFacts ChunkFacts FileRun FsFacts DirPlan DirFacts GetFacts DirTrip FetchSafe DirTree DirWalk WalkFacts CacheFacts HashFacts SortFacts.

Section CompareFacts.
  Context {E : Env}.
  Notation ds := sqlite_ds.

  (** *** Walking the store *)
  Lemma tidy_child w k i k' : tidy w k -> item_at w k i -> fi_type i = ItDir -> In k' (fi_children i) -> tidy w k'.
  Proof. intros T (o & R & F) Ty I k1 o1 i1 En. apply T. eapply eo_child; eauto. Qed.
  Lemma tidy_here w k i : tidy w k -> item_at w k i -> fi_type i = ItDir -> Forall entry_name (fi_names i) /\ NoDup (fi_names i).
  Proof. intros T (o & R & F) Ty. eapply T; eauto. constructor. Qed.
  Lemma get_item_at w0 k w i w' : cur_db w = cur_db w0 -> get_fsitem ds k w = (Done i, w') -> ticked w w' /\ item_at w0 k i.
  Proof.
    intros C H. apply get_fsitem_done in H as (T & o & F & v & V & D). split; [exact T|]. exists o. split; [|exact F]. apply reads_iff. rewrite <- C. eauto.
  Qed.
  Lemma combine_nodup {A B} (a : list A) : forall b : list B, NoDup b -> NoDup (map snd (combine a b)).
  Proof.
    induction a as [|x a IH]; intros [|y b] N; cbn; try constructor; inversion N; subst; auto.
    intro I. apply in_map_iff in I as ([x' y'] & Q & I). cbn in Q. subst. apply in_combine_r in I. auto.
  Qed.
  Definition kind_of (i : fsitem) : bool := match fi_type i with ItDir => true | ItFile => false end.
  Definition found (w : world) (k : key) (x : loc) (k' : key) (d : bool) : Prop :=
    at_path w k x k' /\ exists i, item_at w k' i /\ d = kind_of i.
  Lemma walk_lists w0 fuel : forall k r w m w', cur_db w = cur_db w0 -> tidy w0 k ->
    internal_walk_fs_items ds fuel k (rel_path r) w = (Done m, w') ->
    Forall plain (map fst m) /\ NoDup (map fst m) /\
    forall q k' d, In (q, (k', d)) m <-> exists x, q = rel_path (r ++ x) /\ found w0 k x k' d /\ (r ++ x = [] -> d = false).
  Proof.
    induction fuel as [|g IH]; intros k r w m w' C T H; [discriminate|]. cbn [internal_walk_fs_items] in H.
    apply bind_done in H as (i & w1 & H1 & H). apply (get_item_at w0) in H1 as [T1 It]; [|exact C].
    assert (C1 : cur_db w1 = cur_db w0) by (rewrite (cur_ticked _ _ T1); exact C).
    destruct (fi_type i) eqn:Ty.
    - destruct (tidy_here _ _ _ T It Ty) as [En Nn].
      change (walk_each g (rel_path r) (combine (fi_children i) (fi_names i)) (if is_empty_path (rel_path r) then [] else [(rel_path r, (k, true))]) w1 = (Done m, w')) in H.
      set (acc := if is_empty_path (rel_path r) then [] else [(rel_path r, (k, true))]) in H.
      assert (K : forall l acc w1, (forall c n, In (c, n) l -> entry_name n /\ tidy w0 c) -> NoDup (map snd l) ->
        cur_db w1 = cur_db w0 -> Forall plain (map fst acc) -> NoDup (map fst acc) ->
        (forall n x, In n (map snd l) -> ~ In (rel_path (r ++ n :: x)) (map fst acc)) ->
        walk_each g (rel_path r) l acc w1 = (Done m, w') ->
        Forall plain (map fst m) /\ NoDup (map fst m) /\
        forall q k' d, In (q, (k', d)) m <-> In (q, (k', d)) acc \/ exists n c x, In (c, n) l /\ q = rel_path (r ++ n :: x) /\ found w0 c x k' d).
      { clear -IH. induction l as [|[c n] l IHl]; intros acc w1 Hl N C1 P Na D H; cbn [walk_each] in H.
        - apply ret_done in H as [-> _]. split; [exact P|]. split; [exact Na|]. intros q k' d. split; [auto|]. intros [?|(? & ? & ? & [] & _)]. assumption.
        - apply bind_done in H as (sb & w2 & H1 & H2). cbn [map snd] in N. inversion N as [|? ? N1 N2]; subst.
          destruct (Hl c n (or_introl eq_refl)) as [En Tc]. rewrite join_plain in H1 by exact En.
          assert (Er : path_push (rel_path r) n = rel_path (r ++ [n])) by (unfold path_push, rel_path; cbn; rewrite map_app; reflexivity).
          rewrite Er in H1. pose proof (walk_ticked _ _ _ _ _ _ H1) as T2. apply IH in H1 as (P1 & N3 & L1); [|exact C1|exact Tc].
          assert (Sb : forall q, In q (map fst sb) -> exists x, q = rel_path (r ++ n :: x)).
          { intros q I. apply in_map_iff in I as ([q' [k' d]] & <- & I). apply L1 in I as (x & -> & _). exists x. rewrite <- app_assoc. reflexivity. }
          assert (Pa : Forall plain (map fst (acc ++ sb))) by (rewrite map_app; apply Forall_app; auto).
          assert (Nd : NoDup (map fst (acc ++ sb))).
          { rewrite map_app. apply NoDup_app; auto. intros q I I'. apply Sb in I' as [x ->]. apply (D n x); [left; reflexivity|exact I]. }
          rewrite pm_extend_app in H2 by assumption. apply IHl in H2; auto.
          + destruct H2 as (A1 & A2 & A3). split; [exact A1|]. split; [exact A2|]. intros q k' d. rewrite A3, in_app_iff, L1. split.
            * intros [[I|(x & -> & F & _)]|(n' & c' & x & I & -> & F)]; [auto|right; exists n, c, x|right; exists n', c', x].
              -- rewrite <- app_assoc. cbn. auto.
              -- cbn. auto.
            * intros [I|(n' & c' & x & [I|I] & -> & F)]; [auto| |].
              -- inversion I; subst. left. right. exists x. rewrite <- app_assoc. cbn. split; [reflexivity|]. split; [exact F|]. destruct r; discriminate.
              -- right. exists n', c', x. auto.
          + intros c' n' I. apply Hl. right. exact I.
          + rewrite (cur_ticked _ _ T2). exact C1.
          + intros n' x I J. rewrite map_app in J. apply in_app_or in J as [J|J].
            * apply (D n' x); [right; exact I|exact J].
            * apply Sb in J as [y Q]. apply rel_inj in Q. apply app_inv_head in Q. inversion Q; subst. auto. }
      apply K in H as (P & N & L); auto.
      + split; [exact P|]. split; [exact N|]. intros q k' d. rewrite L. split.
        * intros [I|(n & c & x & I & -> & F1 & j & F2 & F3)].
          -- subst acc. destruct r as [|r0 r]; [destruct I|]. destruct I as [I|[]]. inversion I; subst. exists []. rewrite app_nil_r. split; [reflexivity|].
             split; [|discriminate]. split; [constructor|]. exists i. split; [exact It|]. unfold kind_of. rewrite Ty. reflexivity.
          -- exists (n :: x). split; [reflexivity|]. split; [|destruct r; discriminate]. split; [|eauto]. destruct It as (o & R & F). eapply ap_in; eauto.
        * intros (x & -> & (A & j & J & ->) & Z). inversion A as [|? o i' n k1 x' ? R F Ty' I A']; subst.
          -- left. pose proof (item_fun _ _ _ _ It J) as <-. subst acc. rewrite app_nil_r in *. unfold kind_of in *. rewrite Ty in *. destruct r; [specialize (Z eq_refl); discriminate|].
             left. reflexivity.
          -- right. assert (item_at w0 k i') as It' by (exists o; auto). pose proof (item_fun _ _ _ _ It It') as <-. exists n, k1, x'. split; [exact I|]. split; [reflexivity|]. split; [exact A'|eauto].
      + intros c n I. split; [rewrite Forall_forall in En; apply En; eapply in_combine_r; eauto|]. eapply tidy_child; eauto. eapply in_combine_l; eauto.
      + apply combine_nodup, Nn.
      + subst acc. destruct r; cbn; constructor; [reflexivity|constructor].
      + subst acc. destruct r; cbn; constructor; [intros []|constructor].
      + intros n x _ I. subst acc. destruct r as [|r0 r]; [destruct I|]. destruct I as [I|[]]. apply rel_inj in I.
        rewrite <- (app_nil_r (r0 :: r)) in I at 1. apply app_inv_head in I. discriminate.
    - apply ret_done in H as [-> _]. split; [constructor; [reflexivity|constructor]|]. split; [constructor; [intros []|constructor]|]. intros q k' d. split.
      + intros [I|[]]. inversion I; subst. exists []. rewrite app_nil_r. split; [reflexivity|]. split; [|auto]. split; [constructor|]. exists i. split; [exact It|]. unfold kind_of. rewrite Ty. reflexivity.
      + intros (x & -> & (A & j & J & ->) & _). inversion A as [|? o i' n k1 x' ? R F Ty' I A']; subst.
        * pose proof (item_fun _ _ _ _ It J) as <-. unfold kind_of. rewrite Ty, app_nil_r. left. reflexivity.
        * assert (item_at w0 k i') as It' by (exists o; auto). pose proof (item_fun _ _ _ _ It It') as <-. congruence.
  Qed.
  Lemma in_tree_found w k x k' d : in_tree w k x k' d <-> found w k x k' d /\ (x = [] -> d = false).
  Proof.
    split.
    - intros (A & i & I & -> & Z). split; [split; [exact A|eauto]|exact Z].
    - intros ((A & i & I & ->) & Z). split; [exact A|]. exists i. auto.
  Qed.
  Lemma walk_tree w0 k w m w' : cur_db w = cur_db w0 -> tidy w0 k -> walk_fs_items ds k w = (Done m, w') ->
    ticked w w' /\ Forall plain (map fst m) /\ NoDup (map fst m) /\
    forall q k' d, In (q, (k', d)) m <-> exists x, q = named x /\ in_tree w0 k x k' d.
  Proof.
    intros C T H. split; [eapply walk_ticked, H|]. apply (walk_lists w0 _ _ [] _ _ _ C T) in H as (P & N & L). split; [exact P|]. split; [exact N|].
    intros q k' d. rewrite L. cbn [app]. split; intros (x & A & B).
    - exists x. split; [exact A|]. apply in_tree_found. tauto.
    - apply in_tree_found in B. exists x. tauto.
  Qed.
  (** Trees inserted from a file system are tidy. *)
  Lemma put_tidy fuel p ex db w k w1 w2 : world_ok w -> fs_ok (w_fs w) ->
    put_fs_item ds fuel p (filter_fn ex db) w = (Done k, w1) -> no_coll (w_hashed w1) -> still_stored w1 w2 -> tidy w2 k.
  Proof.
    intros W O H NC R. pose proof (put_proper _ _ _ _ _ _ _ _ W O H NC R) as Pn. apply put_dir in H as (e & t & objs & S & Sh & P & _ & Ho & _); auto.
    assert (Ho2 : forall o, In o objs -> holds w2 o) by (intros o I; eapply still_holds; eauto).
    apply put_stored in P; [|eapply shows_sized; eauto]. pose proof (shows_distinct _ _ _ O _ _ Sh) as Dt.
    intros k' o i En Rd F Ty. split; [eapply Pn; eauto|]. clear Pn Sh. revert t P Dt. induction En as [k|k o' i' k' k'' H1 H2 H3 H4 H5 IH]; intros t P Dt.
    - pose proof (stored_item _ _ w2 t k Ho2 P) as It. assert (X : item_at w2 k i) by (exists o; auto). destruct t as [size reads|kids].
      + destruct It as (h & It & _). pose proof (item_fun _ _ _ _ X It) as ->. discriminate.
      + destruct It as (ks & It & _). pose proof (item_fun _ _ _ _ X It) as ->. apply distinct_dir in Dt. apply Dt.
    - pose proof (stored_item _ _ w2 t k Ho2 P) as It. assert (X : item_at w2 k i') by (exists o'; auto). destruct t as [size reads|kids].
      + destruct It as (h & It & _). pose proof (item_fun _ _ _ _ X It) as ->. discriminate.
      + destruct It as (ks & It & Sa). pose proof (item_fun _ _ _ _ X It) as ->. cbn [fi_children dir_item] in H4. apply distinct_dir in Dt as [_ Dt].
        destruct (stored_all_nth _ _ _ _ Sa) as [Le Nth]. 
        assert (exists n, In (k', n) (combine ks (map fst kids))) as [n I].
        { apply In_nth with (d := k') in H4 as (j & Lj & Ej). exists (nth j (map fst kids) []). rewrite <- Ej at 1. rewrite <- combine_nth by (rewrite map_length; exact Le).
          apply nth_In. rewrite combine_length, map_length, Le. lia. }
        apply Nth in I as (t & I & St). rewrite Forall_forall in Dt. eapply IH; eauto. exact (Dt _ I).
  Qed.

  (** *** The structure of [compare] *)
  Lemma mapM_inv {A B} (Inv : world -> Prop) (Q : world -> A -> B -> Prop) (f : A -> M B) :
    (forall w w' x y, fr w w' -> Q w x y -> Q w' x y) ->
    forall l, (forall x w y w', In x l -> Inv w -> f x w = (Done y, w') -> Inv w' /\ fr w w' /\ Q w' x y) ->
    forall w ys w', Inv w -> mapM f l w = (Done ys, w') -> Inv w' /\ fr w w' /\ Forall2 (Q w') l ys.
  Proof.
    intro Mono. induction l as [|x l IH]; intros Step w ys w' I H; cbn [mapM] in H.
    - apply ret_done in H as [-> ->]. split; [exact I|]. split; [reflexivity|constructor].
    - apply bind_done in H as (y & w1 & H1 & H). apply bind_done in H as (zs & w2 & H2 & H). apply ret_done in H as [-> ->].
      apply Step in H1 as (I1 & F1 & Q1); [|left; reflexivity|exact I]. apply IH in H2 as (I2 & F2 & Q2); [|intros; eapply Step; eauto; right; assumption|exact I1].
      split; [exact I2|]. split; [etransitivity; eassumption|]. constructor; [eapply Mono; eassumption|exact Q2].
  Qed.
  Definition source : Type := (path * pmap bool) + pmap (key * bool).
  Definition src_keys (s : source) : list path := match s with inl (_, m) => map fst m | inr m => map fst m end.
  Definition pmem (l : list path) (p : path) : bool := existsb (path_eqb p) l.
  Definition f_added (src : source) (x : path) : M added_result :=
               match src with
               | inl (_, m) =>
                   isdir <- pm_index m x ;;
                   if (isdir : bool) then ret (Added x true None)
                   else
                     r <- try (hash_fs_item ds x) ;;
                     match r with
                     | Ok h => ret (Added x false (Some h))
                     | Err _ => panic_with PExplicit
                     end
               | inr m => e <- pm_index m x ;; ret (Added x (snd e) (Some (fst e)))
               end.
  Definition f_deleted (src : source) (to_map : pmap (key * bool)) (x : path) : M deleted_result :=
                 e <- pm_index to_map x ;;
                 isdir <- match src with
                          | inl (_, m) => pm_index m x
                          | inr m => e' <- pm_index m x ;; ret (snd e')
                          end ;;
                 ret (Deleted x isdir (Some (fst e))).
  Definition f_modified (src : source) (to_map : pmap (key * bool)) (x : path) : M (list modified_result) :=
                  f <- match src with
                       | inl (base, m) =>
                           isdir <- pm_index m x ;;
                           if (isdir : bool) then ret None
                           else h <- hash_fs_item ds (join base x) ;; ret (Some h)
                       | inr m => e <- pm_index m x ;; ret (Some (fst e))
                       end ;;
                  match f with
                  | None => ret []
                  | Some k =>
                      t <- pm_index to_map x ;;
                      if key_eqb k (fst t) then ret []
                      else ret [Modified x (fst t) k]
                  end.
  Definition compare_src (from : difftarget) : M source :=
           match from with
           | TFileSystem p excludes folder =>
               f <- make_filter_fn excludes folder ;;
               m <- walk_real_fs_items p f ;;
               ret (inl (p, m))
           | TDatabase k => m <- walk_fs_items ds k ;; ret (inr m)
           end.
  Definition compare_to (to : option key) : M (pmap (key * bool)) :=
    match to with
    | Some t => walk_fs_items ds t
    | None => ret []
    end.
  Definition compare_tail (src : source) (to_map : pmap (key * bool)) : M diff_result :=
    added <- mapM (f_added src) (filter (fun x => negb (pmem (map fst to_map) x)) (src_keys src)) ;;
    deleted <- mapM (f_deleted src to_map) (filter (fun x => negb (pmem (src_keys src) x)) (map fst to_map)) ;;
    modified <- mapM (f_modified src to_map) (filter (pmem (map fst to_map)) (src_keys src)) ;;
    ret (DiffResult (sort_deleted deleted) (sort_added added) (sort_modified (concat modified))).
  Lemma compare_eq from to : compare ds from to = (src <- compare_src from ;; to_map <- compare_to to ;; compare_tail src to_map).
  Proof. reflexivity. Qed.

  Lemma path_eqb_sym p q : path_eqb p q = path_eqb q p.
  Proof.
    unfold path_eqb. f_equal.
    - destruct (p_abs p), (p_abs q); reflexivity.
    - apply Bool.eq_iff_eq_true. rewrite !comps_eqb_eq. split; congruence.
  Qed.
  Lemma pm_get_mem {A} (m : pmap A) x : pm_get m x = None <-> pmem (map fst m) x = false.
  Proof.
    unfold pmem. induction m as [|[p a] m IH]; cbn; [tauto|]. rewrite (path_eqb_sym x p). destruct (path_eqb p x); cbn; [split; discriminate|exact IH].
  Qed.
  Lemma pm_get_some {A} (m : pmap A) x : pmem (map fst m) x = true -> exists a, pm_get m x = Some a.
  Proof. intro H. destruct (pm_get m x) as [a|] eqn:Q; [eauto|]. apply pm_get_mem in Q. congruence. Qed.
  Lemma deleted_panics src to_map x w : pmem (src_keys src) x = false -> pmem (map fst to_map) x = true ->
    f_deleted src to_map x w = (Panicked PIndex, w).
  Proof.
    intros H1 H2. apply pm_get_some in H2 as [a H2]. unfold f_deleted, pm_index at 1. rewrite H2. unfold bind at 1. cbn [ret].
    destruct src as [[b m]|m]; cbn [src_keys] in H1; apply pm_get_mem in H1; unfold pm_index; rewrite H1; reflexivity.
  Qed.
  Lemma pmem_in l x : In x l -> pmem l x = true.
  Proof. intro I. apply existsb_exists. exists x. split; [exact I|apply path_eqb_refl]. Qed.
  Lemma pmem_iff l x : Forall plain l -> plain x -> pmem l x = true <-> In x l.
  Proof.
    intros F P. split; [|apply pmem_in]. intro H. apply existsb_exists in H as (y & I & Q). rewrite Forall_forall in F. apply path_eqb_eq in Q; auto. congruence.
  Qed.
  (** The deleted paths. *)
  Definition gone (src : source) (to_map : pmap (key * bool)) : list path := filter (fun x => negb (pmem (src_keys src) x)) (map fst to_map).
  Lemma gone_panics src to_map w : mapM (f_deleted src to_map) (gone src to_map) w = match gone src to_map with [] => (Done [], w) | _ => (Panicked PIndex, w) end.
  Proof.
    destruct (gone src to_map) as [|x l] eqn:G; [reflexivity|]. cbn [mapM].
    assert (I : In x (gone src to_map)) by (rewrite G; left; reflexivity). apply filter_In in I as [I1 I2]. apply negb_true_iff in I2.
    unfold bind. rewrite deleted_panics by (auto using pmem_in). reflexivity.
  Qed.
  Lemma gone_nil src to_map : gone src to_map = [] <-> forall x, In x (map fst to_map) -> pmem (src_keys src) x = true.
  Proof.
    split.
    - intros G x I. destruct (pmem (src_keys src) x) eqn:Q; [reflexivity|]. assert (X : In x (gone src to_map)) by (apply filter_In; rewrite Q; auto). rewrite G in X. destruct X.
    - intro H. destruct (gone src to_map) as [|x l] eqn:G; [reflexivity|]. assert (X : In x (gone src to_map)) by (rewrite G; left; reflexivity).
      apply filter_In in X as [X1 X2]. rewrite (H _ X1) in X2. discriminate.
  Qed.
  Lemma tail_done src to_map w r w' : compare_tail src to_map w = (Done r, w') ->
    gone src to_map = [] /\ exists added w1 modified,
      mapM (f_added src) (filter (fun x => negb (pmem (map fst to_map) x)) (src_keys src)) w = (Done added, w1) /\
      mapM (f_modified src to_map) (filter (pmem (map fst to_map)) (src_keys src)) w1 = (Done modified, w') /\
      r = DiffResult [] (sort_added added) (sort_modified (concat modified)).
  Proof.
    unfold compare_tail. intro H. apply bind_done in H as (added & w1 & H1 & H). apply bind_done in H as (deleted & w2 & H2 & H).
    fold (gone src to_map) in H2. rewrite gone_panics in H2. destruct (gone src to_map); [|discriminate]. inversion H2; subst.
    apply bind_done in H as (modified & w3 & H3 & H). apply ret_done in H as [-> ->]. split; [reflexivity|]. exists added, w2, modified. auto.
  Qed.
  (** C37: no result ever lists a deletion. *)
  Lemma compare_no_deleted from to w r w' : compare ds from to w = (Done r, w') -> df_deleted r = [].
  Proof.
    rewrite compare_eq. intro H. apply bind_done in H as (src & w1 & _ & H). apply bind_done in H as (m & w2 & _ & H).
    apply tail_done in H as (_ & added & w3 & modified & _ & _ & ->). reflexivity.
  Qed.

  (** *** Between stored trees *)
  Definition db_added (m : pmap (key * bool)) (x : path) : added_result :=
    match pm_get m x with Some (k, d) => Added x d (Some k) | None => Added x false None end.
  Definition db_modified (m m' : pmap (key * bool)) (x : path) : list modified_result :=
    match pm_get m x, pm_get m' x with
    | Some (k, _), Some (k', _) => if key_eqb k k' then [] else [Modified x k' k]
    | _, _ => []
    end.
  Lemma mapM_pure {A B} (f : A -> M B) (g : A -> B) l w : (forall x, In x l -> f x w = (Done (g x), w)) -> mapM f l w = (Done (map g l), w).
  Proof.
    induction l as [|x l IH]; intro H; cbn [mapM map]; [reflexivity|]. unfold bind. rewrite H by (left; reflexivity). rewrite IH by (intros; apply H; right; assumption). reflexivity.
  Qed.
  Lemma tail_db m m' w : compare_tail (inr m) m' w =
    match gone (inr m) m' with
    | [] => (Done (DiffResult [] (sort_added (map (db_added m) (filter (fun x => negb (pmem (map fst m') x)) (map fst m))))
                     (sort_modified (concat (map (db_modified m m') (filter (pmem (map fst m')) (map fst m)))))), w)
    | _ => (Panicked PIndex, w)
    end.
  Proof.
    unfold compare_tail. cbn [src_keys].
    unfold bind at 1. rewrite (mapM_pure _ (db_added m)).
    2: { intros x I. apply filter_In in I as [I _]. apply pmem_in, pm_get_some in I as [[k d] I]. unfold f_added, pm_index, db_added. rewrite I. reflexivity. }
    unfold bind at 1. fold (gone (inr m) m'). change (filter (fun x => negb (pmem (map fst m) x)) (map fst m')) with (gone (inr m) m').
    rewrite gone_panics. destruct (gone (inr m) m'); [|reflexivity]. unfold bind at 1. rewrite (mapM_pure _ (db_modified m m')).
    2: { intros x I. apply filter_In in I as [I J]. apply pmem_in, pm_get_some in I as [[k d] I]. apply pm_get_some in J as [[k' d'] J].
         unfold f_modified, pm_index, db_modified. rewrite I, J. cbn. destruct (key_eqb k k'); reflexivity. }
    reflexivity.
  Qed.
End CompareFacts.
