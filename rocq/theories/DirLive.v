(** Storing and fetching directories succeed when nothing fails. *)
From Verif Require Import Base BaseFacts Key Cbor CborFacts Object ObjectFacts Path World WorldFacts Store File Filter Dir SpecStore StoreCalls SpecRun SpecFile SpecDir
  Frame DbRel Integrity ObjStoreFacts SessionFacts FilePlan FileFacts ChunkFacts FileRun FsFacts DirPlan DirFacts GetFacts DirTrip FetchSafe DirTree DirWalk WalkFacts.

Section DirLive.
  Context {E : Env}.
  Notation ds := sqlite_ds.

  (** *** Calls that succeed *)
  Lemma op_live {A} (eff : fault -> M A) w : w_faults w = [] ->
    exists w1, ticked w w1 /\ w_faults w1 = [] /\ op eff w = eff FOk w1.
  Proof.
    intro F. destruct (op_unfold eff w) as (f & r & E1 & G). destruct (G F) as [-> ->]. rewrite E1.
    eexists. split; [eexists _, _; reflexivity|]. split; reflexivity.
  Qed.
  Lemma run_bind {A B} (m : M A) (k : A -> M B) w a w1 : m w = (Done a, w1) -> (x <- m ;; k x) w = k a w1.
  Proof. intro H. unfold bind. rewrite H. reflexivity. Qed.
  Lemma query_live {A} (q : fs -> loc -> option A) w a : w_faults w = [] -> q (w_fs w) (w_cwd w) = Some a ->
    exists w1, ticked w w1 /\ w_faults w1 = [] /\ fs_query q w = (Done a, w1).
  Proof.
    intros F H. unfold fs_query. match goal with |- context [op ?e w] => destruct (op_live e w F) as (w1 & T & F1 & ->) end.
    exists w1. split; [exact T|]. split; [exact F1|]. destruct (ticked_fs _ _ T) as [-> ->]. rewrite H. reflexivity.
  Qed.
  Lemma read_dir_live p w l : w_faults w = [] -> stat (w_fs w) (w_cwd w) p = Some (l, EDir) ->
    exists w1, ticked w w1 /\ w_faults w1 = [] /\ fs_read_dir p w = (Done (children (w_fs w) l, false), w1).
  Proof.
    intros F H. unfold fs_read_dir. match goal with |- context [op ?e w] => destruct (op_live e w F) as (w1 & T & F1 & ->) end.
    exists w1. split; [exact T|]. split; [exact F1|]. destruct (ticked_fs _ _ T) as [-> ->]. rewrite H. reflexivity.
  Qed.
  Lemma open_live p w l c st : w_faults w = [] -> stat (w_fs w) (w_cwd w) p = Some (l, EFile c st) ->
    exists w1 t, ticked w w1 /\ w_faults w1 = [] /\ fs_open_read p w = (Done (st, wrap64 (lenN c), segment (read_sizes t c) c), w1).
  Proof.
    intros F H. unfold fs_open_read. match goal with |- context [op ?e w] => destruct (op_live e w F) as (w1 & T & F1 & ->) end.
    exists w1, (w_tick w1). split; [exact T|]. split; [exact F1|]. destruct (ticked_fs _ _ T) as [-> ->]. rewrite H. reflexivity.
  Qed.
  Lemma change_live {A} (full : fs -> loc -> nat -> option (A * fs)) part w : w_faults w = [] ->
    (forall t, exists a f', full (w_fs w) (w_cwd w) t = Some (a, f')) ->
    exists a w', fs_change full part w = (Done a, w') /\ w_faults w' = [].
  Proof.
    intros F H. unfold fs_change. match goal with |- context [op ?e w] => destruct (op_live e w F) as (w1 & T & F1 & ->) end.
    destruct (ticked_fs _ _ T) as [-> ->]. destruct (H (w_tick w1)) as (a & f' & ->). eexists _, _. split; [reflexivity|exact F1].
  Qed.
  Lemma head_len m n : length (head m n) <= 9.
  Proof. unfold head. repeat (destruct (_ <? _)%N); cbn; lia. Qed.
  Lemma item_size i : (lenN (enc (value_of_fsitem i)) <= 200 + names_size (fi_names i))%N.
  Proof.
    assert (H : exists a, enc (value_of_fsitem i) = a ++ flat_map (fun n => enc (VText n)) (fi_names i) /\ length a <= 200).
    { unfold value_of_fsitem. cbn [enc flat_map]. rewrite (flat_map_concat_map enc (map VText _)), map_map, <- flat_map_concat_map.
      eexists. rewrite app_nil_r. split; [rewrite !app_assoc; f_equal|]. rewrite !app_length.
      pose proof (head_len 0 (fi_size i)). 
      repeat match goal with |- context [length (head ?a ?b)] => pose proof (head_len a b); generalize dependent (length (head a b)); intros end.
      assert (length (fsitemtype_name (fi_type i)) <= 9) by (destruct (fi_type i); cbn; lia). cbn. unfold byte in *. lia. }
    destruct H as (a & -> & La). unfold lenN. rewrite app_length.
    assert (K : (N.of_nat (length (flat_map (fun n => enc (VText n)) (fi_names i))) <= names_size (fi_names i))%N).
    { induction (fi_names i) as [|n l IH]; cbn [flat_map names_size fold_right]; [cbn; lia|]. fold (names_size l).
      change (enc (VText n)) with (head 3 (lenN n) ++ n). rewrite !app_length. pose proof (head_len 3 (lenN n)). unfold lenN in *. blia. }
    unfold byte in *. lia.
  Qed.
  Lemma file_small sz h : small (length (enc (value_of_fsitem (file_item sz h)))).
  Proof. unfold small. pose proof (item_size (file_item sz h)) as Y. cbn [fi_names file_item names_size fold_right] in Y. unfold lenN in Y. lia. Qed.
  Lemma one_small (h : key) : small (length [h]).
  Proof. unfold small. cbn [length]. lia. Qed.
  Lemma names_size_count l : (lenN l <= names_size l)%N.
  Proof. unfold lenN. induction l as [|n l IH]; cbn [length names_size fold_right]; [lia|]. fold (names_size l). blia. Qed.

  (** *** Storing *)
  Lemma storable_child f l g n : storable f l (S g) -> storable f (l ++ [n]) g.
  Proof.
    intros H r e L. rewrite <- app_assoc in *. cbn [app] in *. destruct (H _ _ L) as [H1 H2]. cbn in H1. split; [lia|exact H2].
  Qed.
  Lemma names_size_filter P l : (names_size (filter P l) <= names_size l)%N.
  Proof. induction l as [|n l IH]; cbn; [lia|]. destruct (P n); cbn; fold (names_size l) in *; try fold (names_size (filter P l)) in *; lia. Qed.
  Lemma file_object sz h : exists o, object_of_fsitem (file_item sz h) = Some o /\ obj_fits o = true.
  Proof.
    unfold object_of_fsitem. change (forallb utf8_valid (fi_names (file_item sz h))) with true. cbv iota.
    eexists. split; [reflexivity|]. apply fits_small; [apply file_small|apply one_small].
  Qed.
  Lemma dir_object kids names (P : name -> bool) : map fst kids = filter P names -> (names_size names + 200 < 2 ^ 62)%N ->
    Forall (fun n => utf8_valid n = true) names ->
    exists o, object_of_fsitem (dir_item (map fst kids) (map snd kids)) = Some o /\ obj_fits o = true.
  Proof.
    intros M H Hu. unfold object_of_fsitem. cbn [fi_names dir_item].
    assert (U : forallb utf8_valid (map fst kids) = true).
    { rewrite M. apply forallb_forall. intros n I. apply filter_In in I as [I _]. rewrite Forall_forall in Hu. auto. }
    rewrite U. eexists. split; [reflexivity|].
    assert (Sz : (names_size (map fst kids) <= names_size names)%N) by (rewrite M; apply names_size_filter). apply fits_small.
    - unfold small. pose proof (item_size (dir_item (map fst kids) (map snd kids))) as X. unfold lenN in X. cbn [fi_names dir_item] in X. lia.
    - unfold small. cbn [fi_children dir_item]. pose proof (names_size_count (map fst kids)) as X. unfold lenN in X. rewrite map_length in *. lia.
  Qed.
  Lemma put_item_live i w f cwd : w_faults w = [] -> here f cwd w -> (exists o, object_of_fsitem i = Some o /\ obj_fits o = true) ->
    exists k w', put_item ds i w = (Done k, w') /\ w_faults w' = [] /\ here f cwd w'.
  Proof.
    intros F Hw (o & H & Fi). unfold put_item. rewrite H. cbn [of_option].
    rewrite (run_bind _ _ _ _ _ (eq_refl : ret o w = (Done o, w))). destruct (put_obj_nofault o w F Fi) as (w' & P & F').
    exists (obj_key o), w'. split; [exact P|]. split; [exact F'|].
    destruct (quiet_sqlite o w) as [Q1 Q2]. rewrite P in Q1, Q2. cbn [snd] in Q1, Q2. destruct Hw. split; congruence.
  Qed.
  Lemma put_data_live reads w : w_faults w = [] -> snd (stream reads) = false -> (lenN (fst (stream reads)) + 5 < 2 ^ 62)%N ->
    exists k w', put_data ds reads w = (Done k, w') /\ w_faults w' = [].
  Proof.
    intros F S L. pose proof (pdata_total reads (small_len _ L)) as T. rewrite S in T. destruct T as (l & k & T).
    pose proof (fitting_data reads) as Fi. unfold fitting in Fi. rewrite T in Fi. destruct (exec_nofault _ w F Fi) as (w' & X & F').
    exists k, w'. split; [|exact F']. eapply follows_intro; [|exact X]. cbn [fst]. pose proof (follows_data ds reads) as Fo. rewrite T in Fo. exact Fo.
  Qed.
  Lemma filter_live ex db f cwd q w x e : w_faults w = [] -> here f cwd w ->
    stat f cwd q = Some (x, e) -> e <> EDangling -> (exists l e', stat f cwd db = Some (l, e') /\ e' <> EDangling) ->
    exists w1, ticked w w1 /\ w_faults w1 = [] /\ filter_fn ex db q w = (Done (kept ex (locate cwd db) q x), w1).
  Proof.
    intros F Hw S Ne (l & e' & S' & Ne'). unfold filter_fn.
    assert (C : forall w p y u, w_faults w = [] -> here f cwd w -> stat f cwd p = Some (y, u) -> u <> EDangling ->
      exists w1, ticked w w1 /\ w_faults w1 = [] /\ unwrap (fs_canonicalize p) w = (Done y, w1)).
    { intros v p y u Fv Hv Sv Nv. unfold unwrap, fs_canonicalize.
      match goal with |- context [fs_query ?q v] => destruct (query_live q v y Fv) as (w1 & T & F1 & ->) end; [|eauto].
      destruct Hv as [-> ->]. rewrite Sv. destruct u; congruence. }
    destruct (C w q x e F Hw S Ne) as (w1 & T1 & F1 & Q1). destruct (C w1 db l e' F1 (here_ticked _ _ _ _ Hw T1) S' Ne') as (w2 & T2 & F2 & Q2).
    exists w2. split; [eapply ticked_trans; eassumption|]. split; [exact F2|]. unfold bind. rewrite Q1, Q2. apply stat_locate in S' as (-> & _).
    unfold kept. destruct (names_prefix (locate cwd db) x); reflexivity.
  Qed.
  Lemma put_live ex db f cwd : (exists l e', stat f cwd db = Some (l, e') /\ e' <> EDangling) ->
    forall fuel p l e w, w_faults w = [] -> here f cwd w -> stat f cwd p = Some (l, e) -> storable f l fuel ->
    exists k w', put_fs_item ds fuel p (filter_fn ex db) w = (Done k, w') /\ w_faults w' = [] /\ here f cwd w'.
  Proof.
    intro Db. induction fuel as [|g IH]; intros p l e w F Hw S St.
    { destruct (stat_locate _ _ _ _ _ S) as (_ & L & _). rewrite <- (app_nil_r l) in L. apply St in L as [L _]. cbn in L. lia. }
    destruct (stat_locate _ _ _ _ _ S) as (_ & L & _). rewrite <- (app_nil_r l) in L. destruct (St _ _ L) as [_ Ok]. rewrite app_nil_r in L, Ok.
    cbn [put_fs_item]. unfold fs_metadata at 1.
    assert (exists mt, meta_of e = Some mt) as [mt Mt] by (destruct e; cbn; eauto; destruct Ok).
    match goal with |- context [bind (fs_query ?q)] => destruct (query_live q w mt F) as (w1 & T1 & F1 & Qm) end.
    { destruct Hw as [-> ->]. rewrite S. exact Mt. }
    rewrite (run_bind _ _ _ _ _ Qm). clear Qm.
    pose proof (here_ticked _ _ _ _ Hw T1) as Hw1. destruct e as [|c st| |]; inv Mt; try (exfalso; exact Ok).
    - destruct (read_dir_live p w1 l F1) as (w2 & T2 & F2 & Qr); [destruct Hw1 as [-> ->]; exact S|].
      rewrite (run_bind _ _ _ _ _ Qr). clear Qr. rewrite (proj1 Hw1). pose proof (here_ticked _ _ _ _ Hw1 T2) as Hw2.
      change (fix each (l0 : list name) : M (list (name * key)) := _) with (put_each ds (filter_fn ex db) g p).
      assert (K : forall names w2, incl names (children f l) -> w_faults w2 = [] -> here f cwd w2 ->
        exists kids w3, put_each ds (filter_fn ex db) g p names w2 = (Done kids, w3) /\ w_faults w3 = [] /\ here f cwd w3 /\
          map fst kids = filter (fun n => kept ex (locate cwd db) (path_push p n) (l ++ [n])) names).
      { clear -IH S St Db. induction names as [|n names IHn]; intros w2 I2 F2 Hw2; cbn [put_each filter].
        - eexists _, _. split; [reflexivity|]. auto.
        - destruct (child_lookup f l n) as [e Le]; [apply I2; left; reflexivity|]. pose proof (stat_push _ _ _ _ _ _ S Le) as Sn.
          assert (Ne : e <> EDangling).
          { intros ->. apply St in Le as [_ []]. }
          destruct (filter_live ex db f cwd (path_push p n) w2 _ _ F2 Hw2 Sn Ne Db) as (u & T & Fu & Q). rewrite (run_bind _ _ _ _ _ Q).
          pose proof (here_ticked _ _ _ _ Hw2 T) as Hu. assert (In' : incl names (children f l)) by (intros x Hx; apply I2; right; exact Hx).
          destruct (kept ex (locate cwd db) (path_push p n) (l ++ [n])).
          + destruct (IH _ _ _ _ Fu Hu Sn (storable_child _ _ _ _ St)) as (k & u1 & Q1 & Fu1 & Hu1). rewrite (run_bind _ _ _ _ _ Q1).
            destruct (IHn _ In' Fu1 Hu1) as (kids & w3 & Q3 & F3 & H3 & M3). rewrite (run_bind _ _ _ _ _ Q3). eexists _, _. split; [reflexivity|].
            split; [exact F3|]. split; [exact H3|]. cbn. congruence.
          + apply IHn; auto. }
      destruct (K _ w2 (incl_refl _) F2 Hw2) as (kids & w3 & Q & F3 & Hw3 & M). rewrite (run_bind _ _ _ _ _ Q).
      apply put_item_live; [exact F3|exact Hw3|]. destruct Ok as [H Hu]. eapply dir_object; eassumption.
    - destruct (open_live p w1 l c st F1) as (w2 & t & T2 & F2 & Qr); [destruct Hw1 as [-> ->]; exact S|].
      rewrite (run_bind _ _ _ _ _ Qr). clear Qr.
      pose proof (here_ticked _ _ _ _ Hw1 T2) as Hw2.
      destruct (put_data_live (segment (read_sizes t c) c) w2 F2) as (h & w3 & Q & F3); [rewrite stream_segment; reflexivity|rewrite stream_segment; exact Ok|].
      cbn beta iota. rewrite (run_bind _ _ _ _ _ Q). apply put_data_done in Q as (objs & _ & X). apply exec_puts in X. pose proof (here_puts _ quiet_sqlite _ _ _ _ _ Hw2 X) as Hw3.
      apply put_item_live; [exact F3|exact Hw3|apply file_object].
  Qed.

  (** *** Fetching *)
  Lemma get_item_live i o w : object_of_fsitem i = Some o -> obj_fits o = true -> (fi_size i < 2 ^ 64)%N -> holds w o -> w_faults w = [] ->
    exists w1, ticked w w1 /\ w_faults w1 = [] /\ get_fsitem ds (obj_key o) w = (Done i, w1).
  Proof.
    intros H F Sz Ho NF. destruct (get_holds_nofault w o NF Ho) as (w1 & T & F1 & G). exists w1. split; [exact T|]. split; [exact F1|].
    unfold get_fsitem. rewrite (run_bind _ _ _ _ _ G). rewrite (fsitem_object i o) by assumption. reflexivity.
  Qed.
  Lemma write_live l d w : w_faults w = [] -> exists w', file_write l tt d w = (Done tt, w') /\ w_faults w' = [].
  Proof.
    intro F. unfold file_write, fs_write.
    match goal with |- context [fs_change ?full ?part w] => destruct (change_live full part w F) as ([] & w' & Q & F') end; [eauto|].
    exists w'. split; [exact Q|exact F'].
  Qed.
  Lemma write_data_live objs k bs fuel l w : (forall o, In o objs -> holds w o) -> den objs 5 k bs -> 5 < fuel -> w_faults w = [] ->
    exists w', read_data ds (file_write l) fuel k tt w = (Done tt, w') /\ w_faults w' = [].
  Proof.
    intros Ho D L F.
    destruct (read_live (file_write l) (fun _ acc w1 => fs_only w w1 /\ w_faults w1 = []) objs) with (acc := @nil byte) (n := 5) (k := k) (bs := bs) (f := fuel) (s := tt) (w := w)
      as ([] & w' & R & O & F'); auto.
    - intros _ acc w1 [O F1]. split; [exact F1|]. intros o I. eapply only_holds; eauto.
    - intros _ acc w1 w2 [O F1] T F2. split; [eapply fs_only_trans; [exact O|apply ticked_only, T]|exact F2].
    - intros [] acc w1 d [O F1]. destruct (write_live l d w1 F1) as (w2 & Q & F2). exists tt, w2. split; [exact Q|]. split; [|exact F2].
      apply write_done in Q as [O2 _]. eapply fs_only_trans; eassumption.
    - split; [apply fs_only_refl|exact F].
    - eauto.
  Qed.

  (** The place to fetch to: in the directory [l] named by [d], following [r]. *)
  Definition dest (f : fs) (cwd : loc) (d : path) (l : loc) (r : loc) : Prop :=
    walk_comps f (base_loc cwd d) (p_comps d) = Some l /\ lookup f l = Some EDir /\
    (forall a z, r = a ++ z -> z <> [] -> lookup f (l ++ a) = None \/ lookup f (l ++ a) = Some EDir) /\
    free f (l ++ r).
  Lemma walk_mono f f' cs : grows f f' -> forall b m, walk_comps f b cs = Some m -> walk_comps f' b cs = Some m.
  Proof.
    intro G. induction cs as [|c cs IH]; cbn; intros b m H; [exact H|]. destruct (is_dir f b) eqn:D; [|discriminate].
    apply is_dir_iff, G, is_dir_iff in D. rewrite D. auto.
  Qed.
  Lemma below_not_empty d r : r <> [] -> is_empty_path (below d r) = false.
  Proof. intro N. unfold is_empty_path, below. cbn. destruct r as [|n r]; [congruence|]. cbn. destruct (p_comps d); cbn; apply andb_false_r. Qed.
  Lemma below_parent d r n : parent (below d (r ++ [n])) = Some (below d r).
  Proof.
    unfold parent, below. cbn [p_comps p_abs]. rewrite map_app, app_assoc. cbn [map]. rewrite removelast_last.
    destruct ((p_comps d ++ map Normal r) ++ [Normal n]) eqn:Q; [apply snoc_not_nil in Q; destruct Q|]. reflexivity.
  Qed.
  Lemma make_file_live objs h size fuel d l r w bs : (forall o, In o objs -> holds w o) -> den objs 5 h bs -> 5 < fuel -> w_faults w = [] ->
    r <> [] -> dest (w_fs w) (w_cwd w) d l r ->
    exists w', make_file fuel (file_item size h) (below d r) w = (Done tt, w') /\ w_faults w' = [].
  Proof.
    intros Ho D L F N (Wk & Dl & Rm & Fr). destruct r as [|n r _] using rev_ind; [congruence|]. unfold make_file. rewrite below_parent.
    assert (M : exists w1, fs_create_dir_all (below d r) w = (Done tt, w1) /\ w_faults w1 = []).
    { unfold fs_create_dir_all. destruct (is_empty_path (below d r)); [exists w; split; [reflexivity|exact F]|].
      match goal with |- context [fs_change ?full ?part w] => destruct (change_live full part w F) as ([] & w' & Q & F') end; [|eauto].
      intros _. destruct (mkdirs_some r (w_fs w) l Dl) as [f' Hf].
      { intros a z ->. apply (Rm a (z ++ [n])); [rewrite app_assoc; reflexivity|apply snoc_not_nil]. }
      exists tt, f'. cbn [below p_comps p_abs]. unfold base_loc in *. cbn [below p_abs].
      rewrite (mkdirs_app _ _ _ _ _ (mkdirs_walked _ _ _ _ Wk Dl)). pose proof (walk_locate _ _ _ _ Wk) as <-. rewrite Hf. reflexivity. }
    destruct M as (w1 & M & F1). rewrite (run_bind _ _ _ _ _ M). apply mkdir_done in M as [O1 M].
    assert (G1 : walk_comps (w_fs w1) (base_loc (w_cwd w1) d) (p_comps d ++ map Normal r) = Some (l ++ r) /\ lookup (w_fs w1) (l ++ r) = Some EDir /\
      lookup (w_fs w1) (l ++ r ++ [n]) = None).
    { unfold base_loc in *. rewrite (only_cwd _ _ O1). destruct M as [[Em ->]|[_ M]].
      - destruct r as [|m r]; [|rewrite below_not_empty in Em by discriminate; discriminate]. cbn [map]. rewrite !app_nil_r.
        split; [exact Wk|]. split; [exact Dl|]. specialize (Fr []). rewrite app_nil_r in Fr. exact Fr.
      - cbn [below p_comps p_abs] in M. pose proof (mkdirs_walk _ _ _ _ M) as [M1 M2]. rewrite fold_left_app, fold_normal in M1, M2.
        pose proof (walk_locate _ _ _ _ Wk) as X. rewrite <- X in M1, M2. split; [exact M1|]. split; [exact M2|].
        pose proof (Fr []) as Fr0. rewrite app_nil_r in Fr0. apply mkdirs_adds in M.
        destruct (M (l ++ r ++ [n])) as [->|(_ & Q & a & z & Ha & Hy)]; [exact Fr0|]. exfalso.
        apply app_eq_app in Ha as (y & [[Ha Hz]|[Ha Hz]]).
        + assert (Wa : lookup (w_fs w) (fold_left step_comp a (if p_abs d then [] else w_cwd w)) = Some EDir).
          { destruct y as [|c y]; [rewrite app_nil_r in Ha; subst a; rewrite <- X; exact Dl|]. eapply walk_dirs; [exact Wk|exact Ha|discriminate]. }
          rewrite <- Hy in Wa. congruence.
        + subst a. rewrite fold_left_app, <- X in Hy. apply map_eq_app in Hz as (r1 & r2 & -> & <- & _). rewrite fold_normal in Hy. apply app_inv_head in Hy.
          apply (f_equal (@length _)) in Hy. rewrite !app_length in Hy. cbn in Hy. lia. }
    destruct G1 as (G1 & G2 & G3).
    assert (C : exists m w2, fs_create_new (below d (r ++ [n])) w1 = (Done m, w2) /\ w_faults w2 = []).
    { unfold fs_create_new. match goal with |- context [fs_change ?full ?part w1] => destruct (change_live full part w1 F1) as (m & w' & Q & F') end; [|eauto].
      intro t. unfold create_new_eff, resolve. rewrite below_not_empty by apply snoc_not_nil. cbn [below p_abs p_comps p_slash].
      rewrite map_app, app_assoc, walk_app. unfold base_loc in G1. rewrite G1. cbn [map walk_comps]. apply is_dir_iff in G2. rewrite G2. cbn [step_comp].
      rewrite <- app_assoc, G3. eauto. }
    destruct C as (m & w2 & C & F2). rewrite (run_bind _ _ _ _ _ C). apply create_new_done in C as (O2 & _). cbn [write_item_data file_item fi_children].
    eapply (write_data_live objs); eauto. intros o I. eapply only_holds; [exact O2|]. eapply only_holds; eauto.
  Qed.
  Fixpoint height (t : rtree) : nat :=
    match t with
    | RFile _ _ => 1
    | RDir kids => S ((fix go (l : list (name * rtree)) : nat := match l with [] => 0 | (_, t) :: r => Nat.max (height t) (go r) end) kids)
    end.
  Definition heights : list (name * rtree) -> nat :=
    fix go (l : list (name * rtree)) : nat := match l with [] => 0 | (_, t) :: r => Nat.max (height t) (go r) end.
  Lemma dest_sibling f f' cwd d l r n n' fl : dest f cwd d l (r ++ [n']) -> n <> n' ->
    made_all f f' (base_loc cwd d) (p_comps d ++ map Normal (r ++ [n])) fl -> dest f' cwd d l (r ++ [n']).
  Proof.
    intros (Wk & Dl & Rm & Fr) N (G & _ & B). pose proof (walk_locate _ _ _ _ Wk) as X.
    assert (Y : fold_left step_comp (p_comps d ++ map Normal (r ++ [n])) (base_loc cwd d) = l ++ r ++ [n]) by (rewrite fold_left_app, fold_normal, <- X; reflexivity).
    rewrite Y in B.
    assert (C : forall y, lookup f' y = lookup f y \/ (exists z, y = l ++ (r ++ [n]) ++ z) \/ (lookup f' y = Some EDir /\ exists a z, y = l ++ a /\ r ++ [n] = a ++ z)).
    { intro y. destruct (B y) as [H|(Ny & [(z & c & _ & ->)|(D & z & c & u & v & _ & Hu & Hv & ->)])].
      - auto.
      - right. left. exists z. rewrite <- !app_assoc. reflexivity.
      - rewrite <- app_assoc, <- map_app in Hu. apply app_eq_app in Hu as (e & [[Hu He]|[Hu He]]).
        + exfalso. assert (lookup f (fold_left step_comp u (base_loc cwd d)) = Some EDir); [|congruence].
          destruct e as [|c0 e]; [rewrite app_nil_r in Hu; subst u; rewrite <- X; exact Dl|]. eapply walk_dirs; [exact Wk|exact Hu|discriminate].
        + subst u. rewrite fold_left_app, <- X. apply map_eq_app in He as (r1 & r2 & He & <- & _). rewrite fold_normal.
          rewrite fold_left_app, <- X, fold_normal in D.
          apply app_eq_app in He as (e & [[He _]|[He _]]).
          * right. right. split; [exact D|]. exists r1, e. auto.
          * right. left. exists e. subst r1. reflexivity. }
    split; [eapply walk_mono; eassumption|]. split; [apply G, Dl|]. split.
    - intros a z Ha Hz. destruct (C (l ++ a)) as [->|[(y & Hy)|(Dy & _)]]; [eapply Rm; eassumption| |auto].
      exfalso. apply app_inv_head in Hy. subst a. destruct z as [|m z _] using rev_ind; [congruence|]. rewrite app_assoc in Ha. apply app_inj_tail in Ha as [Ha _].
      apply (f_equal (@length _)) in Ha. rewrite !app_length in Ha. cbn in Ha. lia.
    - intro x. destruct (C ((l ++ r ++ [n']) ++ x)) as [->|[(y & Hy)|(_ & a & z & Hy & Ha)]]; [apply Fr| |].
      + exfalso. rewrite <- !app_assoc in Hy. apply app_inv_head, app_inv_head in Hy. inv Hy. congruence.
      + exfalso. rewrite <- !app_assoc in Hy. apply app_inv_head in Hy. subst a. rewrite <- app_assoc in Ha. apply app_inv_head in Ha. inv Ha. congruence.
  Qed.
  Lemma get_live objs t : forall fuel k d l r w, proper_tree t -> distinct t ->
    (forall o, In o objs -> holds w o) -> w_faults w = [] ->
    stored objs (fun reads h => den objs 5 h (fst (stream reads))) t k ->
    height t + 6 <= fuel -> r <> [] -> dest (w_fs w) (w_cwd w) d l r ->
    exists w', get_fs_item ds fuel k (below d r) w = (Done tt, w') /\ w_faults w' = [].
  Proof.
    induction t as [size reads|kids IH] using rtree_ind'; intros fuel k d l r w Pt Dt Ho F S Hf N De; (destruct fuel as [|g]; [cbn in Hf; lia|]); rewrite get_fs_item_eq.
    - destruct S as (h & o & S1 & S2 & S3 & S4 & -> & S6). destruct (get_item_live (file_item size h) o w S1 S2 S3 (Ho _ S4) F) as (w1 & T & F1 & Q).
      rewrite (run_bind _ _ _ _ _ Q). cbn [fi_type file_item]. pose proof (ticked_only _ _ T) as O1. destruct (ticked_fs _ _ T) as [Ef Ec].
      eapply (make_file_live objs); eauto.
      + intros x Hx. eapply only_holds; eauto.
      + cbn in Hf. lia.
      + rewrite Ef, Ec. exact De.
    - apply stored_dir in S as (ks & o & S1 & S2 & S3 & -> & S5).
      destruct (get_item_live (dir_item (map fst kids) ks) o w S1 S2 (wrap64_lt _) (Ho _ S3) F) as (w1 & T & F1 & Q).
      rewrite (run_bind _ _ _ _ _ Q). cbn [fi_type dir_item fi_children fi_names].
      pose proof (ticked_only _ _ T) as O1. destruct (ticked_fs _ _ T) as [Ef Ec].
      assert (Ho1 : forall o, In o objs -> holds w1 o) by (intros x Hx; eapply only_holds; eauto).
      apply proper_dir in Pt. apply distinct_dir in Dt as [Nd Dt]. change (height (RDir kids)) with (S (heights kids)) in Hf.
      assert (De1 : forall n, In n (map fst kids) -> dest (w_fs w1) (w_cwd w1) d l (r ++ [n])).
      { intros n _. rewrite Ef, Ec. destruct De as (A & B & C & Fr). split; [exact A|]. split; [exact B|]. split.
        - intros a z Ha Hz. destruct z as [|m z _] using rev_ind; [congruence|]. rewrite app_assoc in Ha. apply app_inj_tail in Ha as [-> _].
          destruct z as [|m' z]; [rewrite app_nil_r in *; left; specialize (Fr []); rewrite app_nil_r in Fr; exact Fr|]. eapply C; [reflexivity|discriminate].
        - intro x. rewrite <- !app_assoc. specialize (Fr ([n] ++ x)). rewrite <- app_assoc in Fr. exact Fr. }
      clear Q T Ef Ec O1 S1 S2 S3 o Ho F De. revert w1 ks S5 Ho1 F1 De1. induction IH as [|[n t] kl Ht Hl IHl]; intros w1 ks S5 Ho1 F1 De1.
      + destruct ks as [|k ks]; [|destruct S5]. exists w1. split; [reflexivity|exact F1].
      + destruct ks as [|k ks]; [destruct S5|]. destruct S5 as [S5 S6]. cbn [map fst combine get_each]. inv Pt. inv Dt. inv Nd. destruct H1 as [En Pt].
        cbn [fst snd] in *. cbn [heights] in Hf. fold heights in Hf. rewrite join_plain by exact En. rewrite push_below, below_app.
        assert (Hg : height t + 6 <= g) by lia.
        destruct (Ht g k d l (r ++ [n]) w1 Pt H3 Ho1 F1 S5 Hg (snoc_not_nil _ _) (De1 n (or_introl eq_refl))) as (w2 & Q & F2).
        rewrite (run_bind _ _ _ _ _ Q). apply (get_done objs t) in Q as [O2 M2]; auto.
        apply IHl; auto; [lia| |].
        * intros x Hx. eapply only_holds; eauto.
        * intros n' Hn'. rewrite (only_cwd _ _ O2). eapply dest_sibling; [apply De1; right; exact Hn'| |exact M2]. intros ->. contradiction.
  Qed.
  Lemma storable_height f keep t : forall p l g, shows f keep p l t -> storable f l g -> height t <= g.
  Proof.
    induction t as [size reads|kids IH] using rtree_ind'; intros p l g Sh St.
    - apply shows_file_inv in Sh as (c & st & t & L & _). rewrite <- (app_nil_r l) in L. apply St in L as [L _]. cbn in *. lia.
    - apply shows_dir_inv in Sh as (L & _ & Sh). rewrite <- (app_nil_r l) in L. apply St in L as [L _]. cbn [length] in L. destruct g as [|g]; [lia|].
      change (height (RDir kids)) with (S (heights kids)). apply le_n_S. induction IH as [|[n t] r Ht Hr IHr]; [cbn; lia|]. cbn [heights]. fold heights. cbn [snd] in Ht.
      apply Nat.max_lub; [|apply IHr; intros n' t' I; apply Sh; right; exact I].
      eapply Ht; [apply Sh; left; reflexivity|]. apply storable_child, St.
  Qed.
  (** *** Together *)
  Lemma lossless_small reads : length (fst (stream reads)) < chunk_max -> lossless reads.
  Proof.
    intros L w st w' H. apply (follows_done _ _ _ _ _ _ (follows_loop ds _ _ _)) in H as (l & P & _). left.
    apply ploop_small in P as [_ (h & ->)]; [reflexivity|reflexivity|exact L].
  Qed.
  Lemma lossless_small_below f l : (forall r c, content f (l ++ r) = Some c -> length c < chunk_max) -> lossless_below f l.
  Proof. intros H r c t Hc. apply lossless_small. rewrite stream_segment. apply (H r c Hc). Qed.
  Lemma insert_live fuel p ex db w e : w_faults w = [] ->
    stat (w_fs w) (w_cwd w) p = Some (locate (w_cwd w) p, e) ->
    (exists l e', stat (w_fs w) (w_cwd w) db = Some (l, e') /\ e' <> EDangling) ->
    storable (w_fs w) (locate (w_cwd w) p) fuel ->
    exists k w1, put_fs_item ds fuel p (filter_fn ex db) w = (Done k, w1) /\ w_faults w1 = [].
  Proof.
    intros F S D St. destruct (put_live ex db (w_fs w) (w_cwd w) D fuel p _ e w F (conj eq_refl eq_refl) S St) as (k & w1 & H & F1 & _). eauto.
  Qed.
  Lemma fetch_live fuel p ex db w k w1 w2 fuel' d n depth : world_ok w -> fs_ok (w_fs w) ->
    put_fs_item ds fuel p (filter_fn ex db) w = (Done k, w1) -> no_coll (w_hashed w1) ->
    lossless_below (w_fs w) (locate (w_cwd w) p) -> storable (w_fs w) (locate (w_cwd w) p) depth ->
    still_stored w1 w2 -> w_faults w2 = [] -> depth + 6 <= fuel' ->
    walk_comps (w_fs w2) (base_loc (w_cwd w2) d) (p_comps d) = Some (locate (w_cwd w2) d) ->
    lookup (w_fs w2) (locate (w_cwd w2) d) = Some EDir -> free (w_fs w2) (locate (w_cwd w2) (path_push d n)) ->
    exists w3, get_fs_item ds fuel' k (path_push d n) w2 = (Done tt, w3) /\ w_faults w3 = [].
  Proof.
    intros W O H NC L St R F Hf Wk Dd Fr. apply put_dir in H as (e & t & objs & S & Sh & P & _ & Ho & _); auto.
    rewrite push_below. eapply (get_live objs t); eauto.
    - eapply shows_proper; eauto.
    - eapply shows_distinct; eauto.
    - intros o I. eapply still_holds; eauto.
    - eapply shows_lossless; eauto. apply put_stored; [eapply shows_sized; eauto|exact P].
    - pose proof (storable_height _ _ _ _ _ _ Sh St). lia.
    - discriminate.
    - split; [exact Wk|]. split; [exact Dd|]. split.
      + intros [|x a] z Ha Hz; [rewrite app_nil_r; auto|]. inv Ha. destruct a; [|discriminate]. cbn in *. congruence.
      + rewrite locate_push in Fr. exact Fr.
  Qed.
End DirLive.
