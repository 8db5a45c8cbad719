(** Snapshots and what [compare] says about them. *)
From Coq Require Import Permutation Sorted RelationClasses.
From Verif Require Import Base BaseFacts Key KeyFacts Cbor CborFacts Object ObjectFacts Path World WorldFacts Store File Filter Dir Diff Main SpecStore StoreCalls SpecRun SpecProc SpecFile SpecDir SpecCache SpecDiff
  Frame DbRel Integrity ObjStoreFacts SessionFacts FilePlan FileFacts ChunkFacts FileRun FsFacts DirPlan DirFacts GetFacts DirTrip FetchSafe DirTree DirWalk WalkFacts CacheFacts HashFacts SortFacts CompareFacts DiffFacts.

Section SnapFacts.
  Context {E : Env}.
  Notation ds := sqlite_ds.

  Definition dir_key (log : list bytes) (k : key) : Prop :=
    exists names ks o, object_of_fsitem (dir_item names ks) = Some o /\ obj_fits o = true /\ In (encode_object o) log /\ k = obj_key o.
  Lemma dir_key_file log c k : no_coll log -> keeps_data c -> hashed_as log c k -> dir_key log k -> False.
  Proof.
    intros NC L H (names & ks & o & A1 & A2 & A3 & ->). apply hashed_plan in H as (t & objs & P & I).
    apply pfile_parts in P as (h & o' & B1 & B2 & B3 & B4 & _ & _); [|apply L].
    assert (o = o') as <- by (apply (enc_key_inj log); auto; apply I, in_map, B3).
    apply fsitem_object in A1; [|exact A2|apply wrap64_lt]. apply fsitem_object in B1; [|exact B2|apply wrap64_lt]. rewrite A1 in B1. inversion B1.
  Qed.
  Definition leaf (log : list bytes) (e : entry) (k : key) (d : bool) : Prop :=
    (e = EDir /\ d = true /\ dir_key log k) \/ exists c st, e = EFile c st /\ d = false /\ hashed_as log c k.
  Lemma put_tree fuel p ex db w k w1 w2 : steady_reads -> world_ok w -> fs_ok (w_fs w) ->
    put_fs_item ds fuel p (filter_fn ex db) w = (Done k, w1) -> no_coll (w_hashed w1) -> still_stored w1 w2 ->
    (forall x k' d, in_tree w2 k x k' d -> exists e, snapped w ex db p x e /\ leaf (w_hashed w1) e k' d) /\
    (forall x e, snapped w ex db p x e -> (x = [] -> e <> EDir) -> exists k' d, in_tree w2 k x k' d).
  Proof.
    intros St W O H NC R.
    destruct (put_fs_item_done ds quiet_sqlite (filter_fn ex db) (w_fs w) (w_cwd w) _ (filter_answers ex db (w_fs w) (w_cwd w)) fuel p w k w1) as (l & e0 & t & S & Sh & objs & P & U); [split; reflexivity|exact H|].
    pose proof (proj1 (stat_locate _ _ _ _ _ S)) as ->. destruct (puts_holds _ _ _ U W NC) as (_ & _ & _ & Ho). destruct (puts_grow _ _ _ U) as [Ig _].
    assert (Ho2 : forall o, In o objs -> holds w2 o) by (intros o I; eapply still_holds; eauto).
    apply (ptr_stored (fun reads h => exists objs', pdata reads = (objs', Done h) /\ incl objs' objs)) in P; [|eapply shows_sized; eauto|eauto].
    set (D := fun reads h => exists objs', pdata reads = (objs', Done h) /\ incl objs' objs) in P.
    assert (Leaf : forall x t' k', sub t x t' -> stored objs D t' k' -> exists e, lookup (w_fs w) (locate (w_cwd w) p ++ x) = Some e /\ included ex (locate (w_cwd w) db) p (locate (w_cwd w) p) x /\ leaf (w_hashed w1) e k' (is_rdir t')).
    { intros x t' k' Sb Sd. destruct (sub_shows _ _ _ _ _ O Sb _ _ Sh) as ((e & L) & K & p' & Sh'). exists e. split; [exact L|]. split; [apply kept_included, K|].
      destruct t' as [size reads|kids].
      - right. apply shows_file_inv in Sh' as (c & st & tk & X & -> & ->). rewrite L in X. inversion X; subst. exists c, st. split; [reflexivity|]. split; [reflexivity|].
        destruct Sd as (h & o & S1 & S2 & S3 & S4 & -> & (objs' & S6 & S7)). eapply (plan_hashed c tk (objs' ++ [o])); [exact St| |].
        + unfold pfile. cbn [ptr]. rewrite S6. unfold pbind, pitem. rewrite S1. unfold pput. rewrite S2. reflexivity.
        + intros y Hy. rewrite map_app in Hy. apply in_app_or in Hy as [Hy|[<-|[]]]; apply Ig; [|apply in_map, S4]. apply in_map_iff in Hy as (z & <- & Hz). apply in_map, S7, Hz.
      - left. apply shows_dir_inv in Sh' as (X & _). rewrite L in X. inversion X; subst. split; [reflexivity|]. split; [reflexivity|].
        apply stored_dir in Sd as (ks & o & S1 & S2 & S3 & -> & S5). exists (map fst kids), ks, o. split; [exact S1|]. split; [exact S2|]. split; [apply Ig, in_map, S3|reflexivity]. }
    assert (Kind : forall t' k' i, stored objs D t' k' -> item_at w2 k' i -> kind_of i = is_rdir t').
    { intros t' k' i Sd It. pose proof (stored_item _ _ _ _ _ Ho2 Sd) as X. destruct t' as [size reads|kids]; [destruct X as (h & X & _)|destruct X as (ks & X & _)]; rewrite (item_fun _ _ _ _ It X); reflexivity. }
    split.
    - intros x k' d T. apply in_tree_found in T as ((A & i & It & ->) & Z). destruct (at_sub _ _ _ _ _ _ _ Ho2 P A) as (t' & Sb & Sd).
      destruct (Leaf _ _ _ Sb Sd) as (e & L & K & Lf). rewrite <- (Kind _ _ _ Sd It) in Lf. exists e. split; [split; assumption|exact Lf].
    - intros x e [L K] Z. apply kept_included in K. destruct (shows_sub _ _ _ O _ _ _ _ Sh L K) as [t' Sb]. destruct (sub_at _ _ _ _ _ _ Ho2 Sb _ P) as (k' & A & Sd).
      destruct (Leaf _ _ _ Sb Sd) as (e' & L' & _ & Lf). rewrite L in L'. inversion L'; subst e'.
      assert (exists i, item_at w2 k' i) as [i It]. { pose proof (stored_item _ _ _ _ _ Ho2 Sd) as X. destruct t'; destruct X as (? & X & _); eauto. }
      exists k', (kind_of i). apply in_tree_found. split; [split; [exact A|eauto]|]. intros ->. rewrite (Kind _ _ _ Sd It).
      destruct Lf as [(-> & _ & _)|(c & st & -> & Q & _)]; [|exact Q]. exfalso. apply Z; reflexivity.
  Qed.
  Lemma rel_setup (R : world -> world -> Prop) {PR : RdPrims R} {PX : ProcPrims R} {PN : OpenPrims R} cm : rel R (setup cm).
  Proof.
    unfold setup. apply rel_bind; [exact _|apply rel_open_repo; exact _|intro st]. apply rel_bind; [exact _|apply rel_open_cache; exact _|intros _].
    apply rel_bind; [exact _|apply rel_ignore_on; [exact _|apply pc_begin]|intros _]. apply rel_bind; [exact _|apply pc_cache_begin|intros _]. apply rel_ret. exact _.
  Qed.
  Lemma working_ok w : working w -> world_ok w.
  Proof.
    induction 1 as [w S|w fuel p ex fo _ IH|w from to _ IH|cm w st w1 Rw S|w calls _ IH|w w' _ IH D H C T].
    - apply session_ok, S.
    - exact (rel_put_fs_item ok_rel fuel _ (rel_filter_fn ok_rel ex fo) p w IH).
    - exact (rel_compare ok_rel from to w IH).
    - pose proof (rel_setup ok_rel cm (close_all w) (close_all_world_ok _ (reachable_ok _ Rw))) as X. rewrite S in X. exact X.
    - apply world_ok_run, IH.
    - destruct IH as [W1 W2]. split; [rewrite D, H; exact W1|rewrite T, H; exact W2].
  Qed.
  Lemma wk_files w f : working w -> working (set_fs w f).
  Proof. intro W. apply (wk_other w); try reflexivity. exact W. Qed.
  Lemma snapshot_tree w0 ex fo p k w : steady_reads -> no_coll (w_hashed w) -> snapshot w0 ex fo p k w ->
    tidy w k /\ (forall x k' d, in_tree w k x k' d -> exists e, snapped w0 ex fo p x e /\ leaf (w_hashed w) e k' d) /\
    (forall x e, snapped w0 ex fo p x e -> (x = [] -> e <> EDir) -> exists k' d, in_tree w k x k' d).
  Proof.
    intros St NC (fuel & w1 & S & O & P & R & I). apply working_ok in S. assert (NC1 : no_coll (w_hashed w1)) by (eapply no_coll_incl; eauto).
    split; [eapply put_tidy; eauto|]. destruct (put_tree _ _ _ _ _ _ _ _ St S O P NC1 R) as [A B]. split; [|exact B].
    intros x k' d T. destruct (A _ _ _ T) as (e & Sn & L). exists e. split; [exact Sn|]. destruct L as [(-> & -> & names & ks & o & L1 & L2 & L3 & L4)|(c & st & -> & -> & L)].
    - left. split; [reflexivity|]. split; [reflexivity|]. exists names, ks, o. auto.
    - right. exists c, st. split; [reflexivity|]. split; [reflexivity|]. eapply hashed_mono; eassumption.
  Qed.

  (** C35 *)
  Lemma changed_listed w0 ex0 fo0 p0 k w p ex fo r w' : steady_reads -> snapshot w0 ex0 fo0 p0 k w -> in_order w ->
    compare ds (TFileSystem p ex fo) (Some k) w = (Done r, w') -> no_coll (w_hashed w') ->
    forall x c st c0 st0, on_disk ex fo p w x (EFile c st) -> snapped w0 ex0 fo0 p0 x (EFile c0 st0) -> keeps_data c -> keeps_data c0 ->
    (c <> c0 <-> exists k0 k1, hashed_as (w_hashed w') c0 k0 /\ hashed_as (w_hashed w') c k1 /\ In (Modified (named x) k0 k1) (df_modified r)).
  Proof.
    intros St Sn (O & T & R) H NC x c st c0 st0 Od Sd Kc Kc0.
    pose proof (rel_compare fr (TFileSystem p ex fo) (Some k) w) as F. rewrite H in F. destruct F as (_ & _ & F). cbn [snd] in F.
    assert (NCw : no_coll (w_hashed w)) by (eapply no_coll_incl; eauto). destruct (snapshot_tree _ _ _ _ _ _ St NCw Sn) as (Td & A & B).
    apply (compare_fs_done p ex fo (Some k)) in H as (_ & _ & _ & _ & _ & _ & M1 & M2 & _); auto.
    destruct (B _ _ Sd) as (k0 & d & It); [discriminate|]. destruct (A _ _ _ It) as (e & [Le _] & Lf). destruct Sd as [Ld _]. rewrite Ld in Le. inversion Le; subst e.
    destruct Lf as [(X & _)|(c' & st' & X & -> & Hk)]; [discriminate|]. inversion X; subst c' st'. apply (hashed_mono _ _ _ _ F) in Hk.
    destruct (M2 _ _ _ _ Od It) as [X'|(c' & st' & k1 & X' & Hk1 & Md)]; [discriminate|]. inversion X'; subst c' st'. split.
    - intro Ne. exists k0, k1. split; [exact Hk|]. split; [exact Hk1|]. apply Md. intros ->. apply Ne. exact (hashed_inj _ _ _ _ NC Kc Kc0 Hk1 Hk).
    - intros (k0' & k1' & _ & _ & I) ->. destruct (M1 _ I) as (x' & c2 & st2 & k2 & d2 & k3 & O2 & T2 & H2 & N2 & Q). injection Q as Q1 Q2 Q3. subst k0' k1'.
      assert (x = x') as <- by (apply rel_inj; exact (f_equal (fun y => Path false y false) Q1)). assert (c2 = c0) as -> by (destruct Od as (_ & Od & _), O2 as (_ & O2 & _); rewrite Od in O2; inversion O2; reflexivity).
      apply N2. destruct (A _ _ _ T2) as (e & [Le' _] & Lf'). rewrite Ld in Le'. inversion Le'; subst e.
      destruct Lf' as [(X2 & _)|(c' & st' & X2 & _ & Hk')]; [discriminate|]. inversion X2; subst c' st'. eapply hashed_fun; [exact St|exact H2|exact Hk'].
  Qed.
  (** C39 *)
  Lemma clean_same w0 ex0 fo0 p0 k w p ex fo r w' : steady_reads -> snapshot w0 ex0 fo0 p0 k w -> in_order w ->
    compare ds (TFileSystem p ex fo) (Some k) w = (Done r, w') -> no_coll (w_hashed w') ->
    (forall x c st, on_disk ex fo p w x (EFile c st) -> keeps_data c) -> (forall x c st, snapped w0 ex0 fo0 p0 x (EFile c st) -> keeps_data c) ->
    nothing_differs r ->
    (forall x e, on_disk ex fo p w x e -> exists e0, snapped w0 ex0 fo0 p0 x e0 /\
       (e = EDir \/ exists c st st0, e = EFile c st /\ e0 = EFile c st0)) /\
    (forall x e0, snapped w0 ex0 fo0 p0 x e0 -> (x = [] -> e0 <> EDir) -> exists e, on_disk ex fo p w x e).
  Proof.
    intros St Sn (O & T & R) H NC K1 K2 Em.
    pose proof (rel_compare fr (TFileSystem p ex fo) (Some k) w) as F. rewrite H in F. destruct F as (_ & _ & F). cbn [snd] in F.
    assert (NCw : no_coll (w_hashed w)) by (eapply no_coll_incl; eauto). destruct (snapshot_tree _ _ _ _ _ _ St NCw Sn) as (Td & A & B).
    apply (compare_fs_done p ex fo (Some k)) in H as (_ & _ & _ & D & _ & A2 & _ & M2 & _); auto.
    destruct Em as (_ & Ea & Emd). rewrite Ea in A2. rewrite Emd in M2. split.
    - intros x e Od.
      assert (Ex : exists k' d, in_tree w k x k' d).
      { destruct (A2 x e Od) as [X|[]]. exact X. }
      destruct Ex as (k' & d & It). destruct (A _ _ _ It) as (e0 & Sd & Lf). exists e0. split; [exact Sd|].
      destruct (M2 _ _ _ _ Od It) as [->|(c & st & k1 & -> & Hk1 & Md)]; [auto|]. right.
      assert (k1 = k') as ->. { destruct (key_eq_dec k1 k') as [|Ne]; [assumption|]. destruct (Md Ne). }
      destruct Lf as [(-> & _ & Dk)|(c0 & st0 & -> & _ & Hk)].
      + exfalso. eapply (dir_key_file (w_hashed w')); [exact NC|eapply K1, Od|exact Hk1|]. destruct Dk as (names & ks & o & L1 & L2 & L3 & L4). exists names, ks, o. auto.
      + exists c, st, st0. split; [reflexivity|]. f_equal. symmetry. refine (hashed_inj (w_hashed w') _ _ _ NC (K1 _ _ _ Od) (K2 _ _ _ Sd) Hk1 _). eapply hashed_mono; eassumption.
    - intros x e0 Sd Z. destruct (B _ _ Sd Z) as (k' & d & It). eapply D; exact It.
  Qed.
  Lemma same_clean w0 ex0 fo0 p0 k w p ex fo r w' : steady_reads -> snapshot w0 ex0 fo0 p0 k w -> in_order w ->
    compare ds (TFileSystem p ex fo) (Some k) w = (Done r, w') -> no_coll (w_hashed w') ->
    (forall x e, on_disk ex fo p w x e -> exists e0, snapped w0 ex0 fo0 p0 x e0 /\
       (e = EDir \/ exists c st st0, e = EFile c st /\ e0 = EFile c st0)) ->
    nothing_differs r.
  Proof.
    intros St Sn (O & T & R) H NC Sm.
    pose proof (rel_compare fr (TFileSystem p ex fo) (Some k) w) as F. rewrite H in F. destruct F as (_ & _ & F). cbn [snd] in F.
    assert (NCw : no_coll (w_hashed w)) by (eapply no_coll_incl; eauto). destruct (snapshot_tree _ _ _ _ _ _ St NCw Sn) as (Td & A & B).
    apply (compare_fs_done p ex fo (Some k)) in H as (_ & _ & D0 & D & A1 & A2 & M1 & M2 & _); auto.
    unfold nothing_differs. rewrite D0. destruct (df_added r) as [|a l].
    - destruct (df_modified r) as [|m l]; [auto|]. exfalso. destruct (M1 m (or_introl eq_refl)) as (x & c & st & k0 & d & k1 & Od & It & Hk & Ne & _).
      destruct (Sm _ _ Od) as (e0 & Sd & [X|(c' & st' & st0 & X & ->)]); [discriminate|]. inversion X; subst c' st'.
      destruct (A _ _ _ It) as (e & [Le _] & Lf). destruct Sd as [Ld _]. rewrite Ld in Le. inversion Le; subst e.
      destruct Lf as [(Y & _)|(c' & st' & Y & _ & Hk')]; [discriminate|]. inversion Y; subst. apply Ne. eapply hashed_fun; eauto.
    - exfalso. destruct (A1 a (or_introl eq_refl)) as (x & e & Od & N & _). destruct (Sm _ _ Od) as (e0 & Sd & _).
      destruct Od as (Nx & _). destruct (B _ _ Sd) as (k' & d & It); [intro; contradiction|]. exact (N _ _ It).
  Qed.
  (** C38 *)
  Lemma added_keys w to p ex fo r w' : steady_reads -> in_order w -> tidy_of w to ->
    compare ds (TFileSystem p ex fo) to w = (Done r, w') ->
    forall a, In a (df_added r) -> ad_isdir a = false ->
    exists x e c st k, ad_path a = named x /\ on_disk ex fo p w x e /\ lookup (w_fs w) (w_cwd w ++ x) = Some (EFile c st) /\
      ad_key a = Some k /\ hashed_as (w_hashed w') c k.
  Proof.
    intros St (O & T & R) Td H a I Nd. apply compare_fs_done in H as (_ & _ & _ & _ & A1 & _); auto.
    destruct (A1 _ I) as (x & e & Od & _ & Pa & [(_ & Z & _)|(_ & _ & l & c & st & k & S & K & Hh)]); [congruence|].
    apply stat_locate in S as (El & L & _). exists x, e, c, st, k. split; [exact Pa|]. split; [exact Od|]. split; [|split; assumption].
    rewrite <- L. f_equal. rewrite El. unfold locate. cbn [named p_abs p_comps]. rewrite fold_normal. reflexivity.
  Qed.

  (** C34: a right cache stays right, whatever happens. *)
  Definition gr (w w' : world) : Prop := good w -> good w'.
  #[local] Instance gr_pre : PreOrder gr.
  Proof. split; [intros w H; exact H|]. intros a b c H K G. exact (K (H G)). Qed.
  Lemma rel_gr {A} (m : M A) : rel crel m -> rel gr m.
  Proof. intros H w. intro G. eapply good_crel; [apply H|exact G]. Qed.
  #[local] Instance gr_Rd : RdPrims gr.
  Proof.
    split; [exact _|intros; apply rel_gr..]; [apply crel_read|apply (rp_print (R := crel))|apply (rp_stdout (R := crel))|apply (rp_fsq (R := crel))|apply (rp_readdir (R := crel))|apply (rp_openread (R := crel))].
  Qed.
  #[local] Instance gr_Put : PutPrims gr.
  Proof. split. intro. apply rel_gr, pp_put. Qed.
  Lemma rel_hash_gr p : steady_reads -> rel gr (hash_fs_item ds p).
  Proof. intros St w G. apply hash_good; assumption. Qed.
  Lemma rel_compare_gr from to : steady_reads -> rel gr (compare ds from to).
  Proof.
    intro St. rewrite compare_eq. apply rel_bind; [exact _| |intro src].
    - destruct from as [p ex fo|k]; cbn [compare_src].
      + apply rel_make_filter_fn; [exact _|]. intros f Hf. apply rel_bind; [exact _|apply rel_walk_real_fs_items; [exact _|exact Hf]|intro; apply rel_ret; exact _].
      + apply rel_bind; [exact _|apply rel_walk_fs_items; exact _|intro; apply rel_ret; exact _].
    - apply rel_bind; [exact _| |intro m].
      + destruct to; [apply rel_walk_fs_items; exact _|apply rel_ret; exact _].
      + unfold compare_tail. assert (Ix : forall A (mm : pmap A) x, rel gr (pm_index mm x)).
        { intros A mm x. unfold pm_index. destruct (pm_get mm x); [apply rel_ret; exact _|intros w H; exact H]. }
        apply rel_bind; [exact _| |intro]; [|apply rel_bind; [exact _| |intro]; [|apply rel_bind; [exact _| |intro; apply rel_ret; exact _]]]; apply rel_mapM; try exact _; intro x.
        * unfold f_added. destruct src as [[b ms]|ms]; (apply rel_bind; [exact _|apply Ix|intro d]); [|apply rel_ret; exact _]. destruct d; [apply rel_ret; exact _|].
          apply rel_bind; [exact _|apply rel_try, rel_hash_gr, St|]. intros [h|]; [apply rel_ret; exact _|intros w H; exact H].
        * unfold f_deleted. apply rel_bind; [exact _|apply Ix|intro e]. apply rel_bind; [exact _| |intro; apply rel_ret; exact _].
          destruct src as [[b ms]|ms]; [apply Ix|]. apply rel_bind; [exact _|apply Ix|intro; apply rel_ret; exact _].
        * unfold f_modified. apply rel_bind; [exact _| |].
          -- destruct src as [[b ms]|ms]; (apply rel_bind; [exact _|apply Ix|intro d]); [|apply rel_ret; exact _]. destruct d; [apply rel_ret; exact _|].
             apply rel_bind; [exact _|apply rel_hash_gr, St|intro; apply rel_ret; exact _].
          -- intros [h|]; [|apply rel_ret; exact _]. apply rel_bind; [exact _|apply Ix|]. intros t. destruct (key_eqb h (fst t)); apply rel_ret; exact _.
  Qed.
  Lemma right_empty w : w_cache w = [] -> w_ctxn w = None \/ w_ctxn w = Some [] -> cache_right w.
  Proof.
    intros C1 C2. split; intros l c st k L A; rewrite looked_up_eq in A; unfold cur_cache in A; cbn [w_ctxn set_ctxn w_cache] in A.
    - destruct C2 as [C2|C2]; rewrite C2 in A; rewrite ?C1 in A; discriminate.
    - rewrite C1 in A. discriminate.
  Qed.
  Lemma snapshot_kept w0 ex fo p k w w' : snapshot w0 ex fo p k w -> still_stored w w' /\ incl (w_hashed w) (w_hashed w') -> snapshot w0 ex fo p k w'.
  Proof.
    intros (fuel & w1 & A & B & C & D & I) [D' I']. exists fuel, w1.
    split; [exact A|]. split; [exact B|]. split; [exact C|]. split; [intros h v H; apply D', D, H|exact (incl_tran I I')].
  Qed.
  Lemma reads_still w w' k o : still_stored w w' -> reads_as w k (Done o) -> reads_as w' k (Done o).
  Proof. rewrite !reads_iff. intros S (v & H & D). exists v. split; [apply S, H|exact D]. Qed.
End SnapFacts.
