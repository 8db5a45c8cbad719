(** Keys of directories; walks. *)
From Verif Require Import Base BaseFacts Key Cbor CborFacts Object ObjectFacts Path World WorldFacts Store File Filter Dir SpecStore StoreCalls SpecRun SpecFile SpecDir
  Frame DbRel Integrity ObjStoreFacts SessionFacts FilePlan FileFacts ChunkFacts FileRun FsFacts DirPlan DirFacts GetFacts DirTrip FetchSafe DirTree.

Section DirWalk.
  Context {E : Env}.
  Notation ds := sqlite_ds.

  (** *** Keys *)
  Lemma quiet_null : quiet null_ds.
  Proof. intros o w. unfold put_obj. destruct (obj_fits o); cbn; auto. Qed.
  Lemma map_fst_eq {A} (kids kids' : list (name * A)) : map fst kids = map fst kids' ->
    (forall n t t', In (n, t) kids -> In (n, t') kids' -> t = t') -> kids = kids'.
  Proof.
    revert kids'. induction kids as [|[n t] l IH]; intros [|[n' t'] l'] M H; try discriminate; [reflexivity|]. cbn in M. inv M.
    f_equal; [f_equal; eapply H; left; reflexivity|]. apply IH; [assumption|]. intros m a b Ha Hb. eapply H; right; eassumption.
  Qed.
  Lemma shows_fun f f' keep keep' t : (forall i j c, read_sizes i c = read_sizes j c) ->
    forall p l p' l' t', same_files f l f' l' -> same_order f l f' l' ->
    (forall r, r <> [] -> keep (below p r) (l ++ r) = keep' (below p' r) (l' ++ r)) ->
    shows f keep p l t -> shows f' keep' p' l' t' -> t = t'.
  Proof.
    intro RS. induction t as [size reads|kids IH] using rtree_ind'; intros p l p' l' t' SF SO K Sh Sh'.
    - apply shows_file_inv in Sh as (c & st & tk & X & -> & ->). pose proof (SF []) as S0. rewrite !app_nil_r, X in S0.
      inversion Sh' as [? ? c' st' tk' X' | ? ? ? X']; subst; rewrite X' in S0; [|tauto]. subst c'. rewrite (RS tk tk'). reflexivity.
    - apply shows_dir_inv in Sh as (H1 & H2 & H3). pose proof (SF []) as S0. rewrite !app_nil_r, H1 in S0.
      destruct t' as [size reads|kids'].
      + apply shows_file_inv in Sh' as (c & st & tk & X & -> & ->). rewrite X in S0. tauto.
      + apply shows_dir_inv in Sh' as (H1' & H2' & H3'). f_equal. rewrite Forall_forall in IH. apply map_fst_eq.
        * rewrite H2, H2'. pose proof (SO []) as C0. rewrite !app_nil_r in C0. rewrite C0. apply filter_ext. intro n.
          exact (K [n] ltac:(discriminate)).
        * intros n t t' I I'. apply (IH _ I (path_push p n) (l ++ [n]) (path_push p' n) (l' ++ [n])); auto.
          -- intro r. rewrite <- !app_assoc. apply SF.
          -- intro r. rewrite <- !app_assoc. apply SO.
          -- intros r N. rewrite !push_below, !below_app, <- !app_assoc. apply K. discriminate.
  Qed.
  Lemma put_key_fun s s' fuel fuel' p p' ex ex' db db' w w' k k' w1 w1' : quiet s -> quiet s' -> (forall i j c, read_sizes i c = read_sizes j c) ->
    put_fs_item s fuel p (filter_fn ex db) w = (Done k, w1) -> put_fs_item s' fuel' p' (filter_fn ex' db') w' = (Done k', w1') ->
    let l := locate (w_cwd w) p in let l' := locate (w_cwd w') p' in
    same_files (w_fs w) l (w_fs w') l' -> same_order (w_fs w) l (w_fs w') l' ->
    (forall r, r <> [] -> excluded ex (locate (w_cwd w) db) p l r <-> excluded ex' (locate (w_cwd w') db') p' l' r) -> k = k'.
  Proof.
    intros Q Q' RS H H' l l' SF SO X.
    destruct (put_fs_item_done s Q (filter_fn ex db) (w_fs w) (w_cwd w) _ (filter_answers ex db (w_fs w) (w_cwd w)) fuel p w k w1) as (m & e & t & S & Sh & objs & P & _); [split; reflexivity|exact H|].
    destruct (put_fs_item_done s' Q' (filter_fn ex' db') (w_fs w') (w_cwd w') _ (filter_answers ex' db' (w_fs w') (w_cwd w')) fuel' p' w' k' w1') as (m' & e' & t' & S' & Sh' & objs' & P' & _); [split; reflexivity|exact H'|].
    pose proof (proj1 (stat_locate _ _ _ _ _ S)) as ->. pose proof (proj1 (stat_locate _ _ _ _ _ S')) as ->.
    assert (t = t'); [|congruence]. refine (shows_fun _ _ _ _ t RS _ _ _ _ t' SF SO _ Sh Sh').
    intros r N. specialize (X r N). apply Bool.eq_iff_eq_true. rewrite !kept_excluded. tauto.
  Qed.

  (** *** Walks *)
  Fixpoint wl (q : path) (t : rtree) : pmap bool :=
    match t with
    | RFile _ _ => [(q, false)]
    | RDir kids =>
        (fix go (l : list (name * rtree)) (acc : pmap bool) : pmap bool :=
           match l with
           | [] => acc
           | (n, t) :: r => go r (pm_extend acc (wl (path_push q n) t))
           end) kids (if is_empty_path q then [] else [(q, true)])
    end.
  Definition wl_kids (q : path) : list (name * rtree) -> pmap bool -> pmap bool :=
    fix go (l : list (name * rtree)) (acc : pmap bool) : pmap bool :=
           match l with
           | [] => acc
           | (n, t) :: r => go r (pm_extend acc (wl (path_push q n) t))
           end.
  Definition flags (m : pmap (key * bool)) : pmap bool := map (fun '(q, (_, d)) => (q, d)) m.
  Lemma insert_flags m q k d : flags (pm_insert m q (k, d)) = pm_insert (flags m) q d.
  Proof. induction m as [|[q' [k' d']] m IH]; cbn; [reflexivity|]. destruct (path_eqb q' q); cbn; [reflexivity|]. f_equal. exact IH. Qed.
  Lemma extend_flags l : forall m, flags (pm_extend m l) = pm_extend (flags m) (flags l).
  Proof.
    unfold pm_extend. induction l as [|[q [k d]] l IH]; intro m; cbn [fold_left flags map]; [reflexivity|]. rewrite IH, insert_flags. reflexivity.
  Qed.
  Definition walk_each (g : nat) (p : path) : list (key * name) -> pmap (key * bool) -> M (pmap (key * bool)) :=
    fix each (l : list (key * name)) (acc : pmap (key * bool)) : M (pmap (key * bool)) :=
               match l with
               | [] => ret acc
               | (c, n) :: r =>
                   sub <- internal_walk_fs_items ds g c (join_name p n) ;;
                   each r (pm_extend acc sub)
               end.
  Lemma walk_ticked fuel : forall k p w m w', internal_walk_fs_items ds fuel k p w = (Done m, w') -> ticked w w'.
  Proof.
    induction fuel as [|g IH]; intros k p w m w' H; [discriminate|]. cbn [internal_walk_fs_items] in H.
    apply bind_done in H as (i & w1 & H1 & H). apply get_fsitem_done in H1 as (T & _). destruct (fi_type i); [|inv H; exact T].
    change (walk_each g p (combine (fi_children i) (fi_names i)) (if is_empty_path p then [] else [(p, (k, true))]) w1 = (Done m, w')) in H.
    revert T H. match goal with |- context [walk_each _ _ _ ?a _] => generalize a end. revert w1.
    induction (combine (fi_children i) (fi_names i)) as [|[c n] l IHl]; intros w1 acc T H; cbn [walk_each] in H; [inv H; exact T|].
    apply bind_done in H as (sb & w2 & H1 & H2). eapply IHl; [|exact H2]. eapply ticked_trans; [exact T|]. eapply IH, H1.
  Qed.
  Lemma walk_db objs D t : proper_tree t -> forall fuel k p w m w', (forall o, In o objs -> holds w o) -> stored objs D t k ->
    internal_walk_fs_items ds fuel k p w = (Done m, w') -> flags m = wl p t.
  Proof.
    induction t as [size reads|kids IH] using rtree_ind'; intros Pt fuel k p w m w' Ho S H; (destruct fuel as [|g]; [discriminate|]);
      cbn [internal_walk_fs_items] in H; apply bind_done in H as (i & w1 & H1 & H).
    - destruct S as (h & o & S1 & S2 & S3 & S4 & -> & S6). apply (get_item_holds (file_item size h)) in H1 as [-> T]; auto. cbn in H. inv H. reflexivity.
    - apply stored_dir in S as (ks & o & S1 & S2 & S3 & -> & S5). apply (get_item_holds (dir_item (map fst kids) ks)) in H1 as [-> T]; auto; [|apply wrap64_lt].
      cbn [fi_type fi_children fi_names dir_item] in H.
      change (walk_each g p (combine ks (map fst kids)) (if is_empty_path p then [] else [(p, (obj_key o, true))]) w1 = (Done m, w')) in H.
      change (wl p (RDir kids)) with (wl_kids p kids (if is_empty_path p then [] else [(p, true)])).
      assert (Ho1 : forall o, In o objs -> holds w1 o) by (intros x Hx; eapply holds_ticked; eauto).
      cut (forall acc w1 ks, stored_all objs D kids ks -> walk_each g p (combine ks (map fst kids)) acc w1 = (Done m, w') ->
        (forall o, In o objs -> holds w1 o) -> flags m = wl_kids p kids (flags acc)).
      { intro K. rewrite (K _ _ _ S5 H Ho1). f_equal. destruct (is_empty_path p); reflexivity. }
      apply proper_dir in Pt. clear S1 S2 S3 T Ho S5 H Ho1 ks w1.
      induction IH as [|[n t] l Ht Hl IHl]; intros acc w1 ks S5 H Ho1.
      + destruct ks as [|k ks]; [|destruct S5]. cbn in H. inv H. reflexivity.
      + destruct ks as [|k ks]; [destruct S5|]. destruct S5 as [S5 S6]. cbn [map fst combine walk_each] in H.
        apply bind_done in H as (sb & w2 & H1 & H2). inv Pt. destruct H3 as [En Pt]. cbn [fst snd] in *. rewrite join_plain in H1 by exact En.
        pose proof (walk_ticked _ _ _ _ _ _ H1) as T1. apply (Ht Pt _ _ _ _ _ _ Ho1 S5) in H1. cbn [wl_kids]. rewrite <- H1, <- extend_flags.
        eapply IHl; eauto. intros x Hx. eapply holds_ticked; eauto.
  Qed.
  (** Relative paths. *)
  Definition rel_path (r : loc) : path := Path false (map Normal r) false.
  Lemma drop_normals r : drop_curdir (map Normal r) = map Normal r.
  Proof. induction r as [|n r IH]; cbn; [reflexivity|]. f_equal. exact IH. Qed.
  Lemma join_rel b r : p_abs (join b (rel_path r)) = p_abs b /\ p_comps (join b (rel_path r)) = p_comps b ++ map Normal r.
  Proof.
    unfold join. cbn [rel_path p_abs p_comps]. destruct (is_empty_path b) eqn:Em.
    - unfold is_empty_path in Em. destruct b as [[|] [|] ?]; try discriminate. auto.
    - rewrite drop_normals. destruct r as [|n r]; cbn; [rewrite app_nil_r|]; auto.
  Qed.
  Definition real_each (g : nat) (base p : path) (flt : path -> M bool) : list name -> pmap bool -> M (pmap bool) :=
    fix each (l : list name) (acc : pmap bool) : M (pmap bool) :=
                    match l with
                    | [] => ret acc
                    | n :: r =>
                        keep <- flt (path_push (join base p) n) ;;
                        if (keep : bool) then
                          sub <- internal_walk_real_fs_items g base (path_push p n) flt ;;
                          each r (pm_extend acc sub)
                        else each r acc
                    end.
  Section Real.
    Context (f : fs) (cwd : loc) (flt : path -> M bool) (keep : path -> loc -> bool) (A : answers flt f cwd keep) (base : path).
    Lemma real_ticked fuel : forall p w m w', here f cwd w -> internal_walk_real_fs_items fuel base p flt w = (Done m, w') -> ticked w w'.
    Proof.
      induction fuel as [|g IH]; intros p w m w' Hw H; [discriminate|]. cbn [internal_walk_real_fs_items] in H.
      apply bind_done in H as (mt & w1 & H1 & H). apply metadata_done in H1 as (T1 & _). pose proof (here_ticked _ _ _ _ Hw T1) as Hw1.
      destruct mt; [|inv H; exact T1|discriminate]. apply bind_done in H as ([names err] & w2 & H2 & H). apply read_dir_done in H2 as (T2 & _).
      pose proof (here_ticked _ _ _ _ Hw1 T2) as Hw2. pose proof (ticked_trans _ _ _ T1 T2) as T.
      apply bind_done in H as (x & w3 & H3 & H). destruct err; [discriminate|]. inv H.
      change (real_each g base p flt names (if is_empty_path p then [] else [(p, true)]) w2 = (Done m, w')) in H3.
      clear T1 T2 Hw1 Hw. revert H3. match goal with |- context [real_each _ _ _ _ _ ?a _] => generalize a as acc end. intros acc H3. revert acc w2 T Hw2 H3.
      induction names as [|n l IHl]; intros acc w2 T Hw2 H3; cbn [real_each] in H3; [inv H3; exact T|].
      apply bind_done in H3 as (b & u & H1 & H3). destruct (A _ _ _ _ (proj1 Hw2) (proj2 Hw2) H1) as [T1 _]. pose proof (here_ticked _ _ _ _ Hw2 T1) as Hu.
      destruct b.
      - apply bind_done in H3 as (sb & u1 & H2 & H3). pose proof (IH _ _ _ _ Hu H2) as T2. eapply IHl; [| |exact H3].
        + eapply ticked_trans; [exact T|]. eapply ticked_trans; eassumption.
        + eapply here_ticked; eassumption.
      - eapply IHl; [| |exact H3]; [eapply ticked_trans; eassumption|exact Hu].
    Qed.
    Lemma walk_real t : forall fuel r l w m w' pp, here f cwd w -> shows f keep pp l t ->
      p_abs pp = p_abs base -> p_comps pp = p_comps base ++ map Normal r -> l = locate cwd pp ->
      internal_walk_real_fs_items fuel base (rel_path r) flt w = (Done m, w') -> m = wl (rel_path r) t.
    Proof.
      induction t as [size reads|kids IH] using rtree_ind'; intros fuel r l w m w' pp Hw Sh Ea Ec El H; (destruct fuel as [|g]; [discriminate|]);
        cbn [internal_walk_real_fs_items] in H; apply bind_done in H as (mt & w1 & H1 & H); destruct (join_rel base r) as [Ja Jc];
        apply metadata_done in H1 as (T1 & l' & e & S1 & M1); rewrite (here_stat f cwd) in S1 by exact Hw; pose proof (here_ticked _ _ _ _ Hw T1) as Hw1;
        destruct (stat_locate _ _ _ _ _ S1) as (El' & L & _);
        assert (l' = l) as -> by (rewrite El', El; unfold locate; rewrite Ja, Jc, Ea, Ec; reflexivity).
      - apply shows_file_inv in Sh as (c & st & tk & X & -> & ->). rewrite X in L. inv L. cbn in M1. inv M1. inv H. reflexivity.
      - apply shows_dir_inv in Sh as (X & Hn & Hk). rewrite X in L. inv L. cbn in M1. inv M1.
        apply bind_done in H as ([names err] & w2 & H2 & H). apply read_dir_done in H2 as (T2 & l2 & S2 & R2).
        rewrite (here_stat f cwd), S1 in S2 by exact Hw1. inv S2. rewrite (proj1 Hw1) in R2. pose proof (here_ticked _ _ _ _ Hw1 T2) as Hw2.
        apply bind_done in H as (x & w3 & H3 & H). destruct err; [discriminate|]. inv H. destruct R2 as [R2|[? R2]]; inv R2.
        match type of H3 with _ = _ => change (real_each g base (rel_path r) flt (children f (locate cwd pp)) (if is_empty_path (rel_path r) then [] else [(rel_path r, true)]) w2 = (Done m, w')) in H3 end.
        change (wl (rel_path r) (RDir kids)) with (wl_kids (rel_path r) kids (if is_empty_path (rel_path r) then [] else [(rel_path r, true)])).
        set (l := locate cwd pp) in *. clear T1 T2 Hw1 Hw.
        cut (forall names kids acc w2, Forall (fun x => forall fuel r l w m w' pp, here f cwd w -> shows f keep pp l (snd x) ->
               p_abs pp = p_abs base -> p_comps pp = p_comps base ++ map Normal r -> l = locate cwd pp ->
               internal_walk_real_fs_items fuel base (rel_path r) flt w = (Done m, w') -> m = wl (rel_path r) (snd x)) kids ->
             map fst kids = filter (fun n => keep (path_push pp n) (l ++ [n])) names ->
             (forall n t, In (n, t) kids -> shows f keep (path_push pp n) (l ++ [n]) t) -> incl names (children f l) ->
             here f cwd w2 -> real_each g base (rel_path r) flt names acc w2 = (Done m, w') -> m = wl_kids (rel_path r) kids acc).
        { intro K. eapply K; eauto. apply incl_refl. }
        clear IH Hn Hk H3 Hw2 w2 kids. induction names as [|n names IHn]; intros kids acc w2 IH Hn Hk Sub Hw2 H3; cbn [real_each] in H3.
        + cbn in Hn. destruct kids; [|discriminate]. inv H3. reflexivity.
        + apply bind_done in H3 as (b & u & H1 & H3). destruct (A _ _ _ _ (proj1 Hw2) (proj2 Hw2) H1) as [T B]. pose proof (here_ticked _ _ _ _ Hw2 T) as Hu.
          destruct (child_lookup f l n) as [e Le]; [apply Sub; left; reflexivity|].
          assert (Pp : path_push (join base (rel_path r)) n = path_push pp n) by (unfold path_push; rewrite Ja, Jc, Ea, Ec; reflexivity).
          rewrite Pp in B. pose proof (stat_push _ _ _ _ n _ S1 Le) as Sn. rewrite Pp in Sn. specialize (B _ _ Sn). subst b.
          cbn [filter] in Hn. assert (Sub' : incl names (children f l)) by (intros y Hy; apply Sub; right; exact Hy).
          destruct (keep (path_push pp n) (l ++ [n])).
          * destruct kids as [|[n' t] kids]; [discriminate|]. cbn [map fst] in Hn. inv Hn. apply bind_done in H3 as (sb & u1 & G2 & H3).
            pose proof (real_ticked _ _ _ _ _ Hu G2) as T2. 
            assert (Er : path_push (rel_path r) n = rel_path (r ++ [n])) by (unfold path_push, rel_path; cbn; rewrite map_app; reflexivity).
            rewrite Er in G2. eapply (Forall_inv IH) in G2; [|exact Hu|apply Hk; left; reflexivity|exact Ea| |].
            -- cbn [wl_kids]. cbn [snd] in G2. rewrite Er, <- G2. eapply IHn; [exact (Forall_inv_tail IH)|assumption| |exact Sub'|eapply here_ticked; eassumption|exact H3].
               intros m' t' I. apply Hk. right. exact I.
            -- cbn. rewrite Ec, map_app, app_assoc. reflexivity.
            -- unfold l. rewrite <- locate_push. reflexivity.
          * eapply IHn; eassumption.
    Qed.
  End Real.
  Lemma walks_agree fuel p ex db w k w1 w2 m w3 w4 m' w5 : world_ok w -> fs_ok (w_fs w) ->
    put_fs_item ds fuel p (filter_fn ex db) w = (Done k, w1) -> no_coll (w_hashed w1) -> still_stored w1 w2 ->
    walk_fs_items ds k w2 = (Done m, w3) ->
    w_fs w4 = w_fs w -> w_cwd w4 = w_cwd w -> walk_real_fs_items p (filter_fn ex db) w4 = (Done m', w5) ->
    m' = flags m.
  Proof.
    intros W O H NC R Wd Hf Hc Wr. apply put_dir in H as (e & t & objs & S & Sh & P & _ & Ho & _); auto.
    assert (Ho2 : forall o, In o objs -> holds w2 o) by (intros o I; eapply still_holds; eauto).
    apply put_stored in P; [|eapply shows_sized; eauto]. pose proof (shows_proper _ _ _ O _ _ Sh) as Pt.
    rewrite (walk_db _ _ t Pt _ _ _ _ _ _ Ho2 P Wd).
    eapply (walk_real (w_fs w) (w_cwd w) _ _ (filter_answers ex db _ _) p t _ [] _ _ _ _ p); [split; eassumption|exact Sh|reflexivity| |reflexivity|exact Wr].
    cbn. rewrite app_nil_r. reflexivity.
  Qed.
End DirWalk.
