(** Stored trees seen through the store; fetching stays inside the destination. *)
From Verif Require Import Base BaseFacts Key Cbor CborFacts Object ObjectFacts Path World WorldFacts Store File Filter Dir SpecStore StoreCalls SpecRun SpecFile SpecDir
  Frame DbRel Integrity ObjStoreFacts SessionFacts FilePlan FileFacts ChunkFacts FileRun FsFacts DirPlan DirFacts GetFacts DirTrip FetchSafe.

Section DirTree.
  Context {E : Env}.
  Notation ds := sqlite_ds.

  Lemma reads_iff w k o : reads_as w k (Done o) <-> exists v, assoc (as_db_key k) (d_data (cur_db w)) = Some v /\ decode_object v = Some o.
  Proof.
    unfold reads_as. rewrite get_obj_eq. unfold bind at 1, db_read, op. cbn [w_faults set_faults set_tick].
    change (cur_db (set_tick (set_faults w []) (S (w_tick (set_faults w []))))) with (cur_db w).
    destruct (assoc (as_db_key k) (d_data (cur_db w))) as [v|]; cbn; [|split; [discriminate|intros (v & H & _); discriminate]].
    destruct (decode_object v) as [x|] eqn:D; cbn.
    - split; [intro H; inv H; eauto|]. intros (v' & H1 & H2). inv H1. congruence.
    - split; [discriminate|]. intros (v' & H1 & H2). inv H1. congruence.
  Qed.
  Lemma holds_reads w o : holds w o -> reads_as w (obj_key o) (Done o).
  Proof. intros [F H]. apply reads_iff. eexists. split; [exact H|]. apply decode_encode, F. Qed.
  Lemma reads_fun w k o o' : reads_as w k (Done o) -> reads_as w k (Done o') -> o = o'.
  Proof. unfold reads_as. congruence. Qed.
  Lemma db_item_iff w k i : db_item (cur_db w) k = Some i <-> item_at w k i.
  Proof.
    unfold db_item, item_at. split.
    - destruct (assoc (as_db_key k) (d_data (cur_db w))) as [v|] eqn:Q; [|discriminate]. destruct (decode_object v) as [o|] eqn:D; [|discriminate].
      intro H. exists o. split; [|exact H]. apply reads_iff. eauto.
    - intros (o & H1 & H2). apply reads_iff in H1 as (v & -> & ->). exact H2.
  Qed.
  Lemma item_fun w k i i' : item_at w k i -> item_at w k i' -> i = i'.
  Proof. intros H K. apply db_item_iff in H, K. congruence. Qed.
  Lemma holds_item w i o : object_of_fsitem i = Some o -> obj_fits o = true -> (fi_size i < 2 ^ 64)%N -> holds w o -> item_at w (obj_key o) i.
  Proof. intros H F S Ho. exists o. split; [apply holds_reads, Ho|]. eapply fsitem_object; eassumption. Qed.

  (** C26 *)
  Lemma fetch_keeps fuel k q w x e : lookup (w_fs w) x = Some e -> lookup (w_fs (snd (get_fs_item ds fuel k q w))) x = Some e.
  Proof.
    intro L. destruct (get_fs_stays (w_fs w) (w_cwd w) (fun _ _ => True) (cur_db w) (fun _ _ => True)) with (fuel := fuel) (k := k) (p := q) (w := w) as [[_ C] _]; auto.
    - split; [reflexivity|]. intro y. left. reflexivity.
    - destruct (C x) as [X|[X _]]; congruence.
  Qed.
  (** C27 *)
  Lemma entries_snoc w k k1 i k2 : entries_of w k k1 -> item_at w k1 i -> fi_type i = ItDir -> In k2 (fi_children i) -> entries_of w k k2.
  Proof.
    intros H (o & R & F) T I. induction H as [k|k o' i' k' k'' H1 H2 H3 H4 H5 IH].
    - eapply eo_child; eauto. constructor.
    - eapply eo_child; eauto.
  Qed.
  Lemma fetch_inside fuel k q w x : proper_names w k ->
    lookup (w_fs (snd (get_fs_item ds fuel k q w))) x = lookup (w_fs w) x \/
    (lookup (w_fs w) x = None /\
     ((exists r, x = locate (w_cwd w) q ++ r) \/
      (lookup (w_fs (snd (get_fs_item ds fuel k q w))) x = Some EDir /\
       exists a b, p_comps q = a ++ b /\ x = locate (w_cwd w) (Path (p_abs q) a false)))).
  Proof.
    intro P. set (A := fun (x : loc) (e : option entry) => (exists r, x = locate (w_cwd w) q ++ r) \/
      (e = Some EDir /\ exists a b, p_comps q = a ++ b /\ x = locate (w_cwd w) (Path (p_abs q) a false))).
    destruct (get_fs_stays (w_fs w) (w_cwd w) A (cur_db w)
      (fun k' p => entries_of w k k' /\ exists r, p_abs p = p_abs q /\ p_comps p = p_comps q ++ map Normal r)) with (fuel := fuel) (k := k) (p := q) (w := w) as [[_ C] _]; auto.
    - intros k' p i (En & r & Ha & Hc) _ _. split.
      + intro e. left. exists r. unfold locate. rewrite Ha, Hc, fold_left_app, fold_normal. reflexivity.
      + intros a b Hab _. rewrite Hc in Hab. apply app_eq_app in Hab as (y & [[H1 H2]|[H1 H2]]).
        * right. split; [reflexivity|]. exists a, y. split; [exact H1|]. unfold locate, base_loc. rewrite Ha. reflexivity.
        * left. apply map_eq_app in H2 as (r1 & r2 & -> & <- & <-). exists r1. subst a. rewrite fold_left_app, fold_normal. unfold locate, base_loc. rewrite Ha. reflexivity.
    - intros k' p i c n (En & r & Ha & Hc) It Ty I. apply db_item_iff in It. split.
      + eapply entries_snoc; eauto. eapply in_combine_l; eauto.
      + destruct It as (o & R & F). pose proof (P _ _ _ En R F Ty) as N. rewrite Forall_forall in N. rewrite join_plain by (apply N; eapply in_combine_r; eauto).
        exists (r ++ [n]). split; [exact Ha|]. cbn. rewrite Hc, map_app, app_assoc. reflexivity.
    - split; [constructor|]. exists []. split; [reflexivity|]. rewrite app_nil_r. reflexivity.
    - split; [reflexivity|]. intro y. left. reflexivity.
    - exact (C x).
  Qed.

  (** *** Subtrees *)
  Inductive sub : rtree -> loc -> rtree -> Prop :=
  | sub_here t : sub t [] t
  | sub_in kids n t r t' : In (n, t) kids -> sub t r t' -> sub (RDir kids) (n :: r) t'.
  Lemma stored_all_nth objs D kids : forall ks, stored_all objs D kids ks ->
    length ks = length kids /\ forall k n, In (k, n) (combine ks (map fst kids)) -> exists t, In (n, t) kids /\ stored objs D t k.
  Proof.
    induction kids as [|[n t] l IH]; intros [|k ks] H; cbn in H; try tauto.
    - split; [reflexivity|intros k n []].
    - destruct H as [H1 H2]. destruct (IH _ H2) as [L K]. split; [cbn; congruence|]. cbn [map fst combine In]. intros k' n' [I|I].
      + inv I. exists t. cbn. auto.
      + destruct (K _ _ I) as (t' & I' & S). exists t'. cbn. auto.
  Qed.
  Lemma stored_all_back objs D kids : forall ks n t, stored_all objs D kids ks -> In (n, t) kids ->
    exists k, In (k, n) (combine ks (map fst kids)) /\ stored objs D t k.
  Proof.
    induction kids as [|[m s] l IH]; intros [|k ks] n t H I; cbn in H, I; try tauto; destruct I as [I|I].
    - inv I. exists k. cbn. tauto.
    - destruct (IH ks n t) as (k' & J & S); [tauto|exact I|]. exists k'. cbn. auto.
  Qed.
  (** The item of a stored tree. *)
  Lemma stored_item objs D w t k : (forall o, In o objs -> holds w o) -> stored objs D t k ->
    match t with
    | RFile size reads => exists h, item_at w k (file_item size h) /\ D reads h
    | RDir kids => exists ks, item_at w k (dir_item (map fst kids) ks) /\ stored_all objs D kids ks
    end.
  Proof.
    intros Ho S. destruct t as [size reads|kids].
    - destruct S as (h & o & S1 & S2 & S3 & S4 & -> & S6). exists h. split; [|exact S6]. eapply holds_item; eauto.
    - apply stored_dir in S as (ks & o & S1 & S2 & S3 & -> & S5). exists ks. split; [|exact S5]. eapply holds_item; eauto. apply wrap64_lt.
  Qed.
  Lemma at_sub objs D w t k r k' : (forall o, In o objs -> holds w o) -> stored objs D t k -> at_path w k r k' ->
    exists t', sub t r t' /\ stored objs D t' k'.
  Proof.
    intros Ho S H. revert t S. induction H as [k|k o i n k' r k'' H1 H2 H3 H4 H5 IH]; intros t S.
    - exists t. split; [constructor|exact S].
    - pose proof (stored_item objs D w t k Ho S) as It. assert (I : item_at w k i) by (exists o; auto). destruct t as [size reads|kids].
      + destruct It as (h & It & _). pose proof (item_fun _ _ _ _ I It) as ->. discriminate.
      + destruct It as (ks & It & Sa). pose proof (item_fun _ _ _ _ I It) as ->. cbn [fi_children fi_names dir_item] in H4.
        apply (stored_all_nth _ _ _ _ Sa) in H4 as (t & In1 & S1). destruct (IH _ S1) as (t' & U & S'). exists t'. split; [econstructor; eauto|exact S'].
  Qed.
  Lemma sub_at objs D w t r t' : (forall o, In o objs -> holds w o) -> sub t r t' -> forall k, stored objs D t k ->
    exists k', at_path w k r k' /\ stored objs D t' k'.
  Proof.
    intros Ho H. induction H as [t|kids n t r t' I H IH]; intros k S; [exists k; split; [constructor|exact S]|].
    pose proof (stored_item objs D w _ k Ho S) as (ks & (o & R & F) & Sa). destruct (stored_all_back _ _ _ _ _ _ Sa I) as (k1 & J & S1).
    destruct (IH _ S1) as (k' & A & S'). exists k'. split; [|exact S']. eapply ap_in; eauto.
  Qed.
  Lemma sub_shows f keep t r t' : fs_ok f -> sub t r t' -> forall p l, shows f keep p l t ->
    (exists e, lookup f (l ++ r) = Some e) /\ kept_all keep p l r /\ exists p', shows f keep p' (l ++ r) t'.
  Proof.
    intros O H. induction H as [t|kids n t r t' I H IH]; intros p l Sh.
    - rewrite app_nil_r. split; [inversion Sh; eauto|]. split; [intros r1 n r2 X; destruct r1; discriminate|eauto].
    - apply shows_dir_inv in Sh as (H1 & H3 & H4). destruct (IH _ _ (H4 _ _ I)) as (L & K & p' & S'). rewrite <- app_assoc in L, S'. cbn [app] in L, S'.
      split; [exact L|]. split; [|eauto]. intros r1 m r2 Hr. destruct r1 as [|n' r1].
      + inv Hr. cbn [app]. assert (In m (map fst kids)) as J by (apply in_map_iff; exists (m, t); auto). rewrite H3 in J. apply filter_In in J as [_ J]. exact J.
      + inv Hr. specialize (K r1 m r2 eq_refl). rewrite push_below, below_app, <- app_assoc in K. exact K.
  Qed.
  Lemma shows_sub f keep t : fs_ok f -> forall p l r e, shows f keep p l t -> lookup f (l ++ r) = Some e -> kept_all keep p l r -> exists t', sub t r t'.
  Proof.
    intro O. induction t as [size reads|kids IH] using rtree_ind'; intros p l r e Sh L K; (destruct r as [|n r]; [eexists; constructor|]).
    - apply shows_file_inv in Sh as (c & st & tk & X & _). eapply fs_ok_parent in L; [|exact O|discriminate]. congruence.
    - apply shows_dir_inv in Sh as (H1 & H3 & H4).
      assert (In n (map fst kids)) as I.
      { rewrite H3. apply filter_In. split; [|apply (K [] n r eq_refl)].
        replace (l ++ n :: r) with ((l ++ [n]) ++ r) in L by (rewrite <- app_assoc; reflexivity).
        destruct r as [|m r]; [rewrite app_nil_r in L; eapply lookup_child, L|].
        eapply fs_ok_parent in L; [|exact O|discriminate]. eapply lookup_child, L. }
      apply in_map_iff in I as ([n' t] & X & I). cbn in X. subst n'. rewrite Forall_forall in IH.
      destruct (IH _ I (path_push p n) (l ++ [n]) r e) as [t' S].
      + apply H4, I.
      + rewrite <- app_assoc. exact L.
      + intros r1 m r2 ->. rewrite push_below, below_app, <- app_assoc. apply (K (n :: r1) m r2). reflexivity.
      + exists t'. econstructor; eauto.
  Qed.

  (** C27: inserted keys only have proper names. *)
  Lemma put_proper fuel p ex db w k w1 w2 : world_ok w -> fs_ok (w_fs w) ->
    put_fs_item ds fuel p (filter_fn ex db) w = (Done k, w1) -> no_coll (w_hashed w1) -> still_stored w1 w2 -> proper_names w2 k.
  Proof.
    intros W O H NC R. apply put_dir in H as (e & t & objs & S & Sh & P & _ & Ho & _); auto.
    assert (Ho2 : forall o, In o objs -> holds w2 o) by (intros o I; eapply still_holds; eauto).
    apply put_stored in P; [|eapply shows_sized; eauto]. apply shows_proper in Sh; [|exact O]. clear -P Sh Ho2.
    intros k' o i En. revert t P Sh. induction En as [k|k o' i' k' k'' H1 H2 H3 H4 H5 IH]; intros t P Sh Rd F Ty.
    - pose proof (stored_item _ _ w2 t k Ho2 P) as It. assert (X : item_at w2 k i) by (exists o; auto). destruct t as [size reads|kids].
      + destruct It as (h & It & _). pose proof (item_fun _ _ _ _ X It) as ->. discriminate.
      + destruct It as (ks & It & _). pose proof (item_fun _ _ _ _ X It) as ->. cbn [fi_names dir_item]. apply proper_dir in Sh.
        apply Forall_map. eapply Forall_impl; [|exact Sh]. cbn. tauto.
    - pose proof (stored_item _ _ w2 t k Ho2 P) as It. assert (X : item_at w2 k i') by (exists o'; auto). destruct t as [size reads|kids].
      + destruct It as (h & It & _). pose proof (item_fun _ _ _ _ X It) as ->. discriminate.
      + destruct It as (ks & It & Sa). pose proof (item_fun _ _ _ _ X It) as ->. cbn [fi_children dir_item] in H4. apply proper_dir in Sh.
        destruct (stored_all_nth _ _ _ _ Sa) as [Len K].
        assert (exists n, In (k', n) (combine ks (map fst kids))) as [n I].
        { clear -H4 Len. revert ks Len H4. induction kids as [|[n t] l IHl]; intros [|k ks] Len I; cbn in *; try tauto; try discriminate.
          destruct I as [->|I]; [eauto|]. destruct (IHl ks) as [m Hm]; [congruence|exact I|]. eauto. }
        destruct (K _ _ I) as (t & It' & St). rewrite Forall_forall in Sh. apply (IH t St); auto. apply (Sh (n, t)), It'.
  Qed.

  (** C28 *)
  Lemma put_contents fuel p ex db w k w1 w2 : world_ok w -> fs_ok (w_fs w) ->
    put_fs_item ds fuel p (filter_fn ex db) w = (Done k, w1) -> no_coll (w_hashed w1) -> still_stored w1 w2 ->
    let l := locate (w_cwd w) p in
    (forall r, (exists k', at_path w2 k r k') <-> (exists e, lookup (w_fs w) (l ++ r) = Some e) /\ included ex (locate (w_cwd w) db) p l r) /\
    forall r k', at_path w2 k r k' ->
      (lookup (w_fs w) (l ++ r) = Some EDir /\ exists names kids, item_at w2 k' (dir_item names kids) /\ length kids = length names) \/
      (exists c st h, lookup (w_fs w) (l ++ r) = Some (EFile c st) /\ item_at w2 k' (file_item (wrap64 (lenN c)) h) /\
         ((forall t, lossless (segment (read_sizes t c) c)) -> reads_data w2 h c)).
  Proof.
    intros W O H NC R l. apply put_dir in H as (e & t & objs & S & Sh & P & _ & Ho & _); auto. fold l in S, Sh.
    assert (Ho2 : forall o, In o objs -> holds w2 o) by (intros o I; eapply still_holds; eauto).
    apply put_stored in P; [|eapply shows_sized; eauto]. split.
    - intro r. rewrite <- kept_included. split.
      + intros (k' & A). destruct (at_sub _ _ _ _ _ _ _ Ho2 P A) as (t' & U & _). destruct (sub_shows _ _ _ _ _ O U _ _ Sh) as (L & K & _). auto.
      + intros [[e' L] K]. destruct (shows_sub _ _ _ O _ _ _ _ Sh L K) as [t' U]. destruct (sub_at _ _ _ _ _ _ Ho2 U _ P) as (k' & A & _). eauto.
    - intros r k' A. destruct (at_sub _ _ _ _ _ _ _ Ho2 P A) as (t' & U & St). destruct (sub_shows _ _ _ _ _ O U _ _ Sh) as (_ & _ & p' & Sh').
      pose proof (stored_item _ _ w2 t' k' Ho2 St) as It. destruct t' as [size reads|kids].
      + right. apply shows_file_inv in Sh' as (c & st & tk & L & -> & ->). destruct It as (h & It & D). exists c, st, h. split; [exact L|]. split; [exact It|].
        intro Ls. specialize (D (Ls tk)). rewrite stream_segment in D. cbn [fst] in D. eapply den_reads; eauto.
      + left. apply shows_dir_inv in Sh' as (L & _). destruct It as (ks & It & Sa). split; [exact L|]. eexists _, _. split; [exact It|].
        rewrite map_length. apply (stored_all_nth _ _ _ _ Sa).
  Qed.
End DirTree.
