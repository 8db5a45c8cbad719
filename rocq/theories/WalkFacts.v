(** What the walks list. *)
From Verif Require Import Base BaseFacts Key Cbor CborFacts Object ObjectFacts Path World WorldFacts Store File Filter Dir SpecStore StoreCalls SpecRun SpecFile SpecDir
  Frame DbRel Integrity ObjStoreFacts SessionFacts FilePlan FileFacts ChunkFacts FileRun FsFacts DirPlan DirFacts GetFacts DirTrip FetchSafe DirTree DirWalk.

(** *** Maps of paths *)
Definition plain (p : path) : Prop := p_slash p = false.
Lemma comp_eqb_eq a b : comp_eqb a b = true <-> a = b.
Proof.
  destruct a, b; cbn; split; intro H; try discriminate; try reflexivity.
  - apply bytes_eqb_true in H. congruence.
  - inversion H. apply bytes_eqb_refl.
Qed.
Lemma comps_eqb_eq a : forall b, comps_eqb a b = true <-> a = b.
Proof.
  induction a as [|x a IH]; intros [|y b]; cbn; split; intro H; try discriminate; try reflexivity.
  - apply andb_true_iff in H as [H1 H2]. apply comp_eqb_eq in H1. apply IH in H2. congruence.
  - inversion H. subst. apply andb_true_iff. split; [apply comp_eqb_eq; reflexivity|apply IH; reflexivity].
Qed.
Lemma path_eqb_eq p q : plain p -> plain q -> path_eqb p q = true <-> p = q.
Proof.
  destruct p as [a c s], q as [a' c' s']. unfold plain, path_eqb. cbn. intros -> ->. rewrite andb_true_iff, comps_eqb_eq, Bool.eqb_true_iff.
  split; [intros [-> ->]; reflexivity|]. intro H. inversion H. auto.
Qed.
Lemma path_eqb_refl p : path_eqb p p = true.
Proof. unfold path_eqb. rewrite Bool.eqb_reflx. apply comps_eqb_eq. reflexivity. Qed.
Lemma pm_insert_new {A} (m : pmap A) q a : Forall plain (map fst m) -> plain q -> ~ In q (map fst m) -> pm_insert m q a = m ++ [(q, a)].
Proof.
  induction m as [|[p b] m IH]; cbn; intros F P N; [reflexivity|]. inv F. destruct (path_eqb p q) eqn:Q.
  - apply path_eqb_eq in Q; auto. subst. tauto.
  - f_equal. apply IH; auto.
Qed.
Lemma pm_extend_app {A} (l : pmap A) : forall m, Forall plain (map fst (m ++ l)) -> NoDup (map fst (m ++ l)) -> pm_extend m l = m ++ l.
Proof.
  unfold pm_extend. induction l as [|[q a] l IH]; intros m F N; cbn [fold_left]; [rewrite app_nil_r; reflexivity|].
  assert (F' := F). rewrite map_app in F', N. apply Forall_app in F' as [F1 F2]. cbn in F2, N. inv F2.
  pose proof (NoDup_remove_2 _ _ _ N) as N2. rewrite pm_insert_new by (auto; intro I; apply N2, in_or_app; auto).
  rewrite IH; rewrite <- app_assoc; cbn [app]; auto. rewrite map_app. exact N.
Qed.
Lemma pm_get_in {A} (m : pmap A) q a : Forall plain (map fst m) -> NoDup (map fst m) -> plain q -> pm_get m q = Some a <-> In (q, a) m.
Proof.
  induction m as [|[p b] m IH]; cbn; intros F N P; [split; [discriminate|intros []]|]. inv F. inv N. destruct (path_eqb p q) eqn:Q.
  - apply path_eqb_eq in Q; auto. subst. split.
    + intro H. inv H. auto.
    + intros [H|H]; [inv H; reflexivity|]. exfalso. apply H3. apply in_map_iff. exists (q, a). auto.
  - rewrite IH by auto. split; [auto|]. intros [H|H]; [inv H; rewrite path_eqb_refl in Q; discriminate|exact H].
Qed.
Lemma pm_get_none {A} (m : pmap A) q : Forall plain (map fst m) -> plain q -> pm_get m q = None <-> ~ In q (map fst m).
Proof.
  induction m as [|[p b] m IH]; cbn; intros F P; [tauto|]. inv F. destruct (path_eqb p q) eqn:Q.
  - apply path_eqb_eq in Q; auto. subst. split; [discriminate|tauto].
  - rewrite IH by auto. split; [|tauto]. intros H [X|X]; [|tauto]. subst. rewrite path_eqb_refl in Q. discriminate.
Qed.

Section WalkFacts.
  Context {E : Env}.
  Notation ds := sqlite_ds.

  Fixpoint distinct (t : rtree) : Prop :=
    match t with
    | RFile _ _ => True
    | RDir kids => NoDup (map fst kids) /\
        (fix go (l : list (name * rtree)) : Prop := match l with [] => True | (_, t) :: r => distinct t /\ go r end) kids
    end.
  Lemma distinct_dir kids : distinct (RDir kids) <-> NoDup (map fst kids) /\ Forall (fun x => distinct (snd x)) kids.
  Proof.
    cbn [distinct]. apply and_iff_compat_l. induction kids as [|[n t] l IH]; [split; constructor|]. rewrite Forall_cons_iff, <- IH. cbn. tauto.
  Qed.
  Lemma shows_distinct f keep t : fs_ok f -> forall p l, shows f keep p l t -> distinct t.
  Proof.
    intro O. induction t as [size reads|kids IH] using rtree_ind'; intros p l Sh; [exact I|]. apply shows_dir_inv in Sh as (H1 & H2 & H3).
    apply distinct_dir. split.
    - rewrite H2. apply NoDup_filter. apply children_nodup, O.
    - rewrite Forall_forall in *. intros [n t] I. eapply (IH _ I). apply H3, I.
  Qed.
  Definition is_rdir (t : rtree) : bool := match t with RDir _ => true | _ => false end.
  Fixpoint wlist (r : loc) (t : rtree) : pmap bool :=
    match t with
    | RFile _ _ => [(rel_path r, false)]
    | RDir kids => (match r with [] => [] | _ => [(rel_path r, true)] end) ++
        (fix go (l : list (name * rtree)) : pmap bool := match l with [] => [] | (n, t) :: k => wlist (r ++ [n]) t ++ go k end) kids
    end.
  Definition wlists (r : loc) : list (name * rtree) -> pmap bool :=
    fix go (l : list (name * rtree)) : pmap bool := match l with [] => [] | (n, t) :: k => wlist (r ++ [n]) t ++ go k end.
  Lemma wlists_in r kids q d : In (q, d) (wlists r kids) <-> exists n t, In (n, t) kids /\ In (q, d) (wlist (r ++ [n]) t).
  Proof.
    induction kids as [|[n t] l IH]; cbn [wlists]; [split; [intros []|intros (? & ? & [] & _)]|]. rewrite in_app_iff, IH. split.
    - intros [H|(n' & t' & I & H)]; [exists n, t|exists n', t']; cbn; auto.
    - intros (n' & t' & [I|I] & H); [inv I; auto|]. right. eauto.
  Qed.
  Lemma rel_inj r r' : rel_path r = rel_path r' -> r = r'.
  Proof. unfold rel_path. intro H. assert (H1 : map Normal r = map Normal r') by congruence. clear H. revert r' H1. induction r as [|x r IH]; intros [|y r'] H; try discriminate; auto. cbn in H. inv H. f_equal. auto. Qed.
  Lemma wlist_in t : forall r q d, In (q, d) (wlist r t) <-> exists x t', sub t x t' /\ q = rel_path (r ++ x) /\ d = is_rdir t' /\ (r ++ x = [] -> d = false).
  Proof.
    induction t as [size reads|kids IH] using rtree_ind'; intros r q d.
    - cbn [wlist In]. split.
      + intros [H|[]]. inv H. exists [], (RFile size reads). rewrite app_nil_r. split; [constructor|auto].
      + intros (x & t' & S & -> & -> & _). inv S. rewrite app_nil_r. auto.
    - change (In (q, d) ((match r with [] => [] | _ => [(rel_path r, true)] end) ++ wlists r kids) <->
        exists x t', sub (RDir kids) x t' /\ q = rel_path (r ++ x) /\ d = is_rdir t' /\ (r ++ x = [] -> d = false)).
      rewrite in_app_iff, wlists_in. rewrite Forall_forall in IH. split.
      + intros [H|(n & t & I & H)].
        * exists [], (RDir kids). rewrite app_nil_r. destruct r as [|m r]; [destruct H|]. destruct H as [H|[]]. inv H. split; [constructor|]. repeat split; discriminate.
        * apply (IH _ I) in H as (x & t' & S & -> & -> & N). exists (n :: x), t'. split; [econstructor; eauto|].
          rewrite <- app_assoc in N |- *. cbn in *. auto.
      + intros (x & t' & S & -> & -> & N). inv S.
        * left. rewrite app_nil_r in *. destruct r; [specialize (N eq_refl); discriminate|]. left. reflexivity.
        * right. exists n, t. split; [assumption|]. apply (IH _ H0). exists r0, t'. rewrite <- app_assoc. cbn. auto.
  Qed.
  Lemma wlist_plain t r : Forall plain (map fst (wlist r t)).
  Proof.
    apply Forall_forall. intros q H. apply in_map_iff in H as ([q' d] & <- & H). apply wlist_in in H as (x & t' & _ & -> & _). reflexivity.
  Qed.
  Lemma NoDup_app {A} (a b : list A) : NoDup a -> NoDup b -> (forall x, In x a -> ~ In x b) -> NoDup (a ++ b).
  Proof.
    induction a as [|x a IH]; cbn; intros Na Nb D; [exact Nb|]. inv Na. constructor.
    - intro I. apply in_app_or in I as [I|I]; [auto|]. eapply D; [left; reflexivity|exact I].
    - apply IH; auto.
  Qed.
  Lemma NoDup_app_l {A} (a b : list A) : NoDup (a ++ b) -> NoDup a.
  Proof. induction a as [|x a IH]; cbn; intro N; [constructor|]. inv N. constructor; [intro I; apply H1, in_or_app; auto|auto]. Qed.
  Lemma wlists_keys r kids q : In q (map fst (wlists r kids)) -> exists n t x, In (n, t) kids /\ q = rel_path (r ++ n :: x).
  Proof.
    intro H. apply in_map_iff in H as ([q' d] & <- & H). apply wlists_in in H as (n & t & I & H). apply wlist_in in H as (x & t' & _ & -> & _).
    exists n, t, x. rewrite <- app_assoc. auto.
  Qed.
  Lemma wlist_nodup t : distinct t -> forall r, NoDup (map fst (wlist r t)).
  Proof.
    induction t as [size reads|kids IH] using rtree_ind'; intros Dt r; [repeat constructor; intros []|].
    apply distinct_dir in Dt as [N Dt].
    change (NoDup (map fst ((match r with [] => [] | _ => [(rel_path r, true)] end) ++ wlists r kids))).
    assert (K : NoDup (map fst (wlists r kids))).
    { induction kids as [|[n t] l IHl]; [constructor|]. inv IH. inv Dt. inv N. cbn [wlists]. rewrite map_app. apply NoDup_app; auto.
      intros q H H'. apply in_map_iff in H as ([q' d] & <- & H). apply wlist_in in H as (x & t' & _ & -> & _). cbn [fst] in H'.
      apply wlists_keys in H' as (n' & t1 & x' & I & X). apply rel_inj in X. rewrite <- app_assoc in X. apply app_inv_head in X. inv X.
      apply H5. apply in_map_iff. exists (n', t1). auto. }
    destruct r as [|m r]; [exact K|]. cbn [app map fst]. constructor; [|exact K]. intro H. apply wlists_keys in H as (n & t & x & _ & X).
    apply rel_inj in X. change (m :: r ++ n :: x) with ((m :: r) ++ n :: x) in X. rewrite <- (app_nil_r (m :: r)) in X at 1. apply app_inv_head in X. discriminate.
  Qed.
  Lemma wl_wlist t : distinct t -> forall r, wl (rel_path r) t = wlist r t.
  Proof.
    induction t as [size reads|kids IH] using rtree_ind'; intros Dt r; [reflexivity|].
    change (wl (rel_path r) (RDir kids)) with (wl_kids (rel_path r) kids (if is_empty_path (rel_path r) then [] else [(rel_path r, true)])).
    change (wlist r (RDir kids)) with ((match r with [] => [] | _ => [(rel_path r, true)] end) ++ wlists r kids).
    pose proof (wlist_nodup _ Dt r) as N. pose proof (wlist_plain (RDir kids) r) as P. 
    change (wlist r (RDir kids)) with ((match r with [] => [] | _ => [(rel_path r, true)] end) ++ wlists r kids) in N, P.
    apply distinct_dir in Dt as [_ Dt].
    cut (forall acc, NoDup (map fst (acc ++ wlists r kids)) -> Forall plain (map fst (acc ++ wlists r kids)) -> wl_kids (rel_path r) kids acc = acc ++ wlists r kids).
    { intro K. rewrite <- K by assumption. f_equal. destruct r; reflexivity. }
    clear N P.
    induction kids as [|[n t] l IHl]; intros acc N P; cbn [wl_kids wlists]; [rewrite app_nil_r; reflexivity|]. inv IH. inv Dt. cbn [snd] in *.
    replace (path_push (rel_path r) n) with (rel_path (r ++ [n])) by (unfold path_push, rel_path; cbn; rewrite map_app; reflexivity).
    rewrite H1 by assumption. cbn [wlists] in N, P. rewrite app_assoc in N, P. rewrite pm_extend_app.
    - rewrite app_assoc. apply IHl; auto.
    - rewrite map_app in P. apply Forall_app in P. apply P.
    - rewrite map_app in N. apply NoDup_app_l in N. exact N.
  Qed.

  Section Real.
    Context (f : fs) (cwd : loc) (flt : path -> M bool) (keep : path -> loc -> bool) (A : answers flt f cwd keep) (base : path).
    Lemma real_tree fuel : forall r w m w' pp, here f cwd w ->
      p_abs pp = p_abs base -> p_comps pp = p_comps base ++ map Normal r ->
      internal_walk_real_fs_items fuel base (rel_path r) flt w = (Done m, w') ->
      exists t, shows f keep pp (locate cwd pp) t.
    Proof.
      induction fuel as [|g IH]; intros r w m w' pp Hw Ea Ec H; [discriminate|]. cbn [internal_walk_real_fs_items] in H.
      apply bind_done in H as (mt & w1 & H1 & H); destruct (join_rel base r) as [Ja Jc].
      apply metadata_done in H1 as (T1 & l' & e & S1 & M1); rewrite (here_stat f cwd) in S1 by exact Hw; pose proof (here_ticked _ _ _ _ Hw T1) as Hw1.
      destruct (stat_locate _ _ _ _ _ S1) as (El' & L & _).
      assert (l' = locate cwd pp) as -> by (rewrite El'; unfold locate; rewrite Ja, Jc, Ea, Ec; reflexivity).
      destruct e as [|c st| |]; inv M1; try discriminate.
      - apply bind_done in H as ([names err] & w2 & H2 & H). apply read_dir_done in H2 as (T2 & l2 & S2 & R2).
        rewrite (here_stat f cwd), S1 in S2 by exact Hw1. inv S2. rewrite (proj1 Hw1) in R2. pose proof (here_ticked _ _ _ _ Hw1 T2) as Hw2.
        apply bind_done in H as (x & w3 & H3 & H). destruct err; [discriminate|]. inv H. destruct R2 as [R2|[? R2]]; inv R2.
        match type of H3 with _ = _ => change (real_each g base (rel_path r) flt (children f (locate cwd pp)) (if is_empty_path (rel_path r) then [] else [(rel_path r, true)]) w2 = (Done m, w')) in H3 end.
        set (l := locate cwd pp) in *.
        cut (forall names acc w2, incl names (children f l) -> here f cwd w2 -> real_each g base (rel_path r) flt names acc w2 = (Done m, w') ->
          exists kids, map fst kids = filter (fun n => keep (path_push pp n) (l ++ [n])) names /\
            forall n t, In (n, t) kids -> shows f keep (path_push pp n) (l ++ [n]) t).
        { intro K. destruct (K _ _ _ (incl_refl _) Hw2 H3) as (kids & K1 & K2). exists (RDir kids). apply sh_dir; auto. }
        clear H3 Hw2 w2 T1 T2 Hw Hw1 w1. induction names as [|n names IHn]; intros acc w2 Sub Hw2 H3; cbn [real_each] in H3.
        + exists []. split; [reflexivity|intros n t []].
        + apply bind_done in H3 as (b & u & H1 & H3). destruct (A _ _ _ _ (proj1 Hw2) (proj2 Hw2) H1) as [T B]. pose proof (here_ticked _ _ _ _ Hw2 T) as Hu.
          destruct (child_lookup f l n) as [e Le]; [apply Sub; left; reflexivity|].
          assert (Pp : path_push (join base (rel_path r)) n = path_push pp n) by (unfold path_push; rewrite Ja, Jc, Ea, Ec; reflexivity).
          rewrite Pp in B. pose proof (stat_push _ _ _ _ n _ S1 Le) as Sn. rewrite Pp in Sn. specialize (B _ _ Sn). subst b.
          assert (Sub' : incl names (children f l)) by (intros y Hy; apply Sub; right; exact Hy). cbn [filter].
          destruct (keep (path_push pp n) (l ++ [n])).
          * apply bind_done in H3 as (sb & u1 & G2 & H3).
            pose proof (real_ticked f cwd flt keep A base _ _ _ _ _ Hu G2) as T2. 
            assert (Er : path_push (rel_path r) n = rel_path (r ++ [n])) by (unfold path_push, rel_path; cbn; rewrite map_app; reflexivity).
            rewrite Er in G2. assert (Ec' : p_comps (path_push pp n) = p_comps base ++ map Normal (r ++ [n])) by (cbn; rewrite Ec, map_app, app_assoc; reflexivity).
            destruct (IH _ _ _ _ (path_push pp n) Hu Ea Ec' G2) as [t St].
            rewrite locate_push in St. fold l in St.
            destruct (IHn _ _ Sub' (here_ticked _ _ _ _ Hu T2) H3) as (kids & K1 & K2). exists ((n, t) :: kids). split; [cbn; congruence|].
            intros n' t' [X|X]; [inv X; exact St|auto].
          * eapply IHn; eassumption.
      - exists (RFile (wrap64 (lenN c)) (segment (read_sizes 0 c) c)). eapply sh_file, L.
    Qed.
  End Real.
  Lemma real_lists ex db base w m w' : fs_ok (w_fs w) -> walk_real_fs_items base (filter_fn ex db) w = (Done m, w') ->
    let l := locate (w_cwd w) base in
    ticked w w' /\ Forall plain (map fst m) /\ NoDup (map fst m) /\
    forall q d, In (q, d) m <-> exists r e, q = rel_path r /\ r <> [] /\ lookup (w_fs w) (l ++ r) = Some e /\
      included ex (locate (w_cwd w) db) base l r /\ d = is_dir (w_fs w) (l ++ r).
  Proof.
    intros O H l. pose proof (filter_answers ex db (w_fs w) (w_cwd w)) as A.
    assert (Hw : here (w_fs w) (w_cwd w) w) by (split; reflexivity). split; [eapply real_ticked; eauto|].
    destruct (real_tree _ _ _ _ A base stack [] w m w' base Hw eq_refl) as [t Sh]; [cbn; rewrite app_nil_r; reflexivity|exact H|].
    assert (M : m = wl (rel_path []) t).
    { eapply (walk_real _ _ _ _ A base t stack [] _ w m w' base Hw Sh); auto. cbn. rewrite app_nil_r. reflexivity. }
    pose proof (shows_distinct _ _ _ O _ _ Sh) as Dt. rewrite wl_wlist in M by exact Dt. subst m.
    split; [apply wlist_plain|]. split; [apply wlist_nodup, Dt|]. intros q d. rewrite wlist_in. cbn [app].
    assert (IsD : forall r t', sub t r t' -> is_rdir t' = is_dir (w_fs w) (l ++ r)).
    { intros r t' S. destruct (sub_shows _ _ _ _ _ O S _ _ Sh) as (_ & _ & p' & Sh'). unfold is_dir, l. destruct t'.
      - apply shows_file_inv in Sh' as (c & st & tk & -> & _). reflexivity.
      - apply shows_dir_inv in Sh' as (-> & _). reflexivity. }
    split.
    - intros (r & t' & S & -> & -> & N). destruct (sub_shows _ _ _ _ _ O S _ _ Sh) as ((e & L) & K & _). exists r, e.
      split; [reflexivity|]. split.
      + intros ->. specialize (N eq_refl). unfold walk_real_fs_items in H.
        (* a file cannot be walked: the path is taken as a directory *)
        rewrite (IsD _ _ S) in N. rewrite app_nil_r in *. destruct stack as [|g]; [discriminate|]. cbn [internal_walk_real_fs_items] in H.
        apply bind_done in H as (mt & w1 & H1 & _). apply metadata_done in H1 as (_ & l' & e' & S1 & M1).
        destruct (stat_locate _ _ _ _ _ S1) as (El' & L' & _). destruct (join_rel base []) as [Ja Jc]. change (rel_path []) with path_empty in Ja, Jc.
        assert (l' = l) as -> by (rewrite El'; unfold l, locate; rewrite Ja, Jc; cbn; rewrite app_nil_r; reflexivity).
        unfold stat in S1. destruct (resolve (w_fs w) (w_cwd w) (join base path_empty)) as [l0|] eqn:R; [|discriminate].
        assert (Sl : p_slash (join base path_empty) = true).
        { unfold resolve in R. unfold join in *. cbn [p_abs path_empty] in *. destruct (is_empty_path base) eqn:Em; [cbn in R; discriminate|]. reflexivity. }
        rewrite Sl in S1. unfold is_dir in N. rewrite L' in N. destruct (lookup (w_fs w) l0) as [[| | |]|]; inv S1. discriminate.
      + split; [exact L|]. split; [apply kept_included, K|]. apply IsD, S.
    - intros (r & e & -> & N & L & K & ->). apply kept_included in K. destruct (shows_sub _ _ _ O _ _ _ _ Sh L K) as [t' S].
      exists r, t'. split; [exact S|]. split; [reflexivity|]. split; [symmetry; apply IsD, S|congruence].
  Qed.
End WalkFacts.
