(** Facts about checking out what was stored, and about the checkout command. *)
From Verif Require Import Base BaseFacts Key Cbor CborFacts Object ObjectFacts Path World WorldFacts Store File Filter Dir Diff Commit Main SpecStore StoreCalls SpecRun SpecProc SpecFile SpecDir SpecCache SpecDiff SpecShow SpecCmd
  SpecCheckout Frame DbRel Integrity ObjStoreFacts SessionFacts FilePlan FileFacts ChunkFacts FileRun FsFacts DirPlan DirFacts GetFacts DirTrip FetchSafe DirTree CheckoutFacts HashFacts CompareFacts DiffFacts SnapFacts ShowFacts ProcFacts QueryFacts InitFacts CmdFacts.

Section CheckoutCmd.
  Context {E : Env}.
  Notation ds := sqlite_ds.

  (** *** Trees made from a file system *)
  Lemma put_lengths fuel p ex db w k w1 w2 : world_ok w -> fs_ok (w_fs w) ->
    put_fs_item ds fuel p (filter_fn ex db) w = (Done k, w1) -> no_coll (w_hashed w1) -> still_stored w1 w2 ->
    forall k' i, entries_of w2 k k' -> item_at w2 k' i -> fi_type i = ItDir -> length (fi_names i) = length (fi_children i).
  Proof.
    intros W O H NC R. apply put_dir in H as (e & t & objs & S & Sh & P & _ & Ho & _); auto.
    assert (Ho2 : forall o, In o objs -> holds w2 o) by (intros o I; eapply still_holds; eauto).
    apply put_stored in P; [|eapply shows_sized; eauto]. clear Sh.
    intros k' i En X Ty. revert t P. induction En as [k|k o' i' k' k'' H1 H2 H3 H4 H5 IH]; intros t P.
    - pose proof (stored_item _ _ w2 t k Ho2 P) as It. destruct t as [size reads|kids].
      + destruct It as (h & It & _). pose proof (item_fun _ _ _ _ X It) as ->. discriminate.
      + destruct It as (ks & It & Sa). pose proof (item_fun _ _ _ _ X It) as ->. destruct (stored_all_nth _ _ _ _ Sa) as [Le _]. cbn [fi_names fi_children dir_item]. rewrite map_length. symmetry. exact Le.
    - pose proof (stored_item _ _ w2 t k Ho2 P) as It. assert (X' : item_at w2 k i') by (exists o'; auto). destruct t as [size reads|kids].
      + destruct It as (h & It & _). pose proof (item_fun _ _ _ _ X' It) as ->. discriminate.
      + destruct It as (ks & It & Sa). pose proof (item_fun _ _ _ _ X' It) as ->. cbn [fi_children dir_item] in H4.
        destruct (stored_all_nth _ _ _ _ Sa) as [Le Nth].
        assert (exists n, In (k', n) (combine ks (map fst kids))) as [n I].
        { apply In_nth with (d := k') in H4 as (j & Lj & Ej). exists (nth j (map fst kids) []). rewrite <- Ej at 1. rewrite <- combine_nth by (rewrite map_length; exact Le).
          apply nth_In. rewrite combine_length, map_length, Le. lia. }
        apply Nth in I as (t & I & St). eapply IH; eauto.
  Qed.
  Lemma put_regular fuel p ex db w k w1 w2 : world_ok w -> fs_ok (w_fs w) ->
    put_fs_item ds fuel p (filter_fn ex db) w = (Done k, w1) -> no_coll (w_hashed w1) -> still_stored w1 w2 -> regular w2 k.
  Proof.
    intros W O H NC R k' i En It Ty. pose proof (put_lengths _ _ _ _ _ _ _ _ W O H NC R k' i En It Ty) as L. destruct It as (o & Ro & Fo).
    destruct (put_tidy _ _ _ _ _ _ _ _ W O H NC R k' o i En Ro Fo Ty) as [A B]. auto.
  Qed.
  Lemma snapshot_regular w0 ex fo p k w : snapshot w0 ex fo p k w -> no_coll (w_hashed w) -> regular w k.
  Proof. intros (fuel & w1 & S & O & P & R & I) NC. apply working_ok in S. eapply put_regular; eauto. eapply no_coll_incl; eauto. Qed.
  Lemma reads_yields w k bs : reads_data w k bs -> yields w k bs.
  Proof. intro H. exists 6. exact H. Qed.
  Lemma snapshot_files w0 ex fo p k w : snapshot w0 ex fo p k w -> no_coll (w_hashed w) -> lossless_below (w_fs w0) (locate (w_cwd w0) p) ->
    let src := locate (w_cwd w0) p in
    forall r, (dir_at w k r <-> lookup (w_fs w0) (src ++ r) = Some EDir /\ included ex (locate (w_cwd w0) fo) p src r) /\
      (forall c, file_at w k r c <-> content (w_fs w0) (src ++ r) = Some c /\ included ex (locate (w_cwd w0) fo) p src r).
  Proof.
    intros (fuel & w1 & S & O & P & R & I) NC Ls src. apply working_ok in S. apply (no_coll_incl _ _ I) in NC.
    destruct (put_contents _ _ _ _ _ _ _ _ S O P NC R) as [A B]. fold src in A, B. intro r.
    assert (F : forall k' i, at_path w k r k' -> item_at w k' i -> (fi_type i = ItDir /\ lookup (w_fs w0) (src ++ r) = Some EDir) \/
      (fi_type i = ItFile /\ exists c h, content (w_fs w0) (src ++ r) = Some c /\ fi_children i = [h] /\ yields w h c)).
    { intros k' i K It. destruct (B r k' K) as [(L & ns & ks & It' & _)|(c & st & h & L & It' & Y)]; pose proof (item_fun _ _ _ _ It It') as ->; [left; auto|].
      right. split; [reflexivity|]. exists c, h. unfold content. rewrite L. split; [reflexivity|]. split; [reflexivity|].
      apply reads_yields, Y. intro t. apply (Ls r). unfold content. fold src. rewrite L. reflexivity. }
    assert (G : forall e, lookup (w_fs w0) (src ++ r) = Some e -> included ex (locate (w_cwd w0) fo) p src r -> exists k' i, at_path w k r k' /\ item_at w k' i).
    { intros e L In. destruct (proj2 (A r)) as [k' K]; [eauto|]. exists k'. destruct (B r k' K) as [(_ & ns & ks & It & _)|(c & st & h & _ & It & _)]; eauto. }
    split; [|intro c]; split.
    - intros (k' & i & K & It & Ty). split; [|apply A; eauto]. destruct (F _ _ K It) as [[_ L]|[Ty' _]]; [exact L|congruence].
    - intros [L In]. destruct (G _ L In) as (k' & i & K & It). exists k', i. split; [exact K|]. split; [exact It|].
      destruct (F _ _ K It) as [[Ty _]|(_ & c & h & L' & _)]; [exact Ty|]. unfold content in L'. rewrite L in L'. discriminate.
    - intros (k' & i & h & rest & K & It & Ty & Ch & Y). split; [|apply A; eauto]. destruct (F _ _ K It) as [[Ty' _]|(_ & c' & h' & L & Ch' & Y')]; [congruence|].
      assert (h' = h) by congruence. subst h'. rewrite (yields_fun _ _ _ _ Y Y'). exact L.
    - intros [L In]. pose proof L as L0. unfold content in L0. destruct (lookup (w_fs w0) (src ++ r)) as [e|] eqn:Le; [|discriminate]. destruct (G _ eq_refl In) as (k' & i & K & It).
      destruct (F _ _ K It) as [[_ L']|(Ty & c' & h & L' & Ch & Y)]; [injection L' as ->; discriminate|]. exists k', i, h, []. rewrite L in L'. injection L' as <-. auto 6.
  Qed.
  (** *** Restoring a snapshot *)
  Lemma file_absent w k r c : file_at w k r c -> ~ absent w k r.
  Proof. intros (k' & i & h & rest & K & _) A. exact (A k' K). Qed.
  Lemma dir_absent w k r : dir_at w k r -> ~ absent w k r.
  Proof. intros (k' & i & K & _) A. exact (A k' K). Qed.
  Lemma restore_files w0 ex0 fo0 p0 k ex fo g p w w' : snapshot w0 ex0 fo0 p0 k w -> no_coll (w_hashed w) -> lossless_below (w_fs w0) (locate (w_cwd w0) p0) ->
    fs_ok (w_fs w) -> ~ In ParentDir (p_comps p) ->
    checkout_fs_item ds g k p (filter_fn ex fo) w = (Done tt, w') ->
    let src := locate (w_cwd w0) p0 in let out := locate (w_cwd w) p in
    (forall r c, content (w_fs w') (out ++ r) = Some c <->
       (content (w_fs w0) (src ++ r) = Some c /\ included ex0 (locate (w_cwd w0) fo0) p0 src r) \/
       (spared ex (locate (w_cwd w) fo) (w_fs w) w k p out r /\ absent w k r /\ content (w_fs w) (out ++ r) = Some c)) /\
    (forall x, ~ under out x -> lookup (w_fs w') x = lookup (w_fs w) x) /\ fs_only w w'.
  Proof.
    intros Sn NC Ls O NP H src out. pose proof (snapshot_regular _ _ _ _ _ _ Sn NC) as Rg.
    destruct (checkout_done ex fo g k p w w' Rg (fs_ok_closed _ O) NP H) as (On & _ & Out & At). fold out in Out, At.
    split; [|split; [exact Out|exact On]]. intros r c. pose proof (proj2 (snapshot_files _ _ _ _ _ _ Sn NC Ls r) c) as Fi. fold src in Fi. rewrite <- Fi.
    destruct (At r) as [(D & L & L')|[(b & F & L')|[(Ab & Sp & L')|(Ab & Sp & L')]]].
    - unfold content at 1. rewrite L'. split; [discriminate|]. intros [F|(_ & Ab & _)]; [|destruct (dir_absent _ _ _ D Ab)].
      exfalso. pose proof (proj1 Fi F) as [F1 _]. pose proof (proj1 (proj1 (snapshot_files _ _ _ _ _ _ Sn NC Ls r)) D) as [D1 _]. fold src in D1. unfold content in F1. rewrite D1 in F1. discriminate.
    - rewrite L'. split.
      + intro Q. injection Q as ->. left. exact F.
      + intros [F2|(_ & Ab & _)]; [|destruct (file_absent _ _ _ _ F Ab)]. apply Fi in F2. apply (proj2 (snapshot_files _ _ _ _ _ _ Sn NC Ls r)) in F. fold src in F. f_equal. destruct F, F2. congruence.
    - unfold content at 1. rewrite L'. split; [intro Q; right; auto|]. intros [F|(_ & _ & Q)]; [destruct (file_absent _ _ _ _ F Ab)|exact Q].
    - unfold content at 1. rewrite L'. split; [discriminate|]. intros [F|(Sp' & _)]; [destruct (file_absent _ _ _ _ F Ab)|contradiction].
  Qed.
  (** *** The command *)
  Lemma checkout_command cm s w w' : world_ok w -> run_command cm (Some s) CCheckout w = (Done tt, w') ->
    exists t v, head_tree w (Some t) /\ ticked w v /\ checkout_fs_item ds stack t (ds_repo s) (filter_fn (cm_exclude cm) (ds_folder s)) v = (Done tt, w').
  Proof.
    intros W H. cbn [run_command with_ds] in H. unfold cmd_checkout, get_head_key in H.
    apply bind_done in H as (k & v2 & H2 & H). apply bind_done in H2 as (name & v1 & H1 & H2). apply head_done in H1 as [T1 Hd].
    pose proof (cur_ticked _ _ T1) as C1. apply latest_done in H2 as [T2 (l & Hi)]; [|eapply alike_ok; [apply alike_ticked, T1|exact W]].
    pose proof (cur_ticked _ _ T2) as C2. apply bind_done in H as (f & v3 & H3 & H). unfold make_filter_fn in H3. destruct (forallb glob_valid (cm_exclude cm)); [|discriminate].
    apply ret_done in H3 as [-> ->]. apply bind_done in H as (c & v4 & H4 & H). apply commit_key_done in H4 as [T4 R].
    exists (c_tree c), v4. split; [|split; [exact (ticked_trans _ _ _ (ticked_trans _ _ _ T1 T2) T4)|exact H]].
    exists name. split; [exact Hd|]. exists k, l, c. rewrite <- C1. split; [exact Hi|]. split; [|reflexivity]. eapply reads_commit_cur; [|exact R]. congruence.
  Qed.
  Lemma head_tree_fun w a b : head_tree w (Some a) -> head_tree w (Some b) -> a = b.
  Proof.
    intros (n & H & k & l & c & Hi & R & ->) (n' & H' & k' & l' & c' & Hi' & R' & ->). assert (n' = n) by congruence. subst n'.
    assert (k' = k) by congruence. subst k'. f_equal. eapply reads_commit_fun; eassumption.
  Qed.
  Lemma dir_at_cur w w' k r : cur_db w' = cur_db w -> dir_at w k r -> dir_at w' k r.
  Proof. intros C (k' & i & K & It & T). exists k', i. split; [eapply at_path_cur; eassumption|]. split; [eapply item_cur; eassumption|exact T]. Qed.
  Lemma absent_cur w w' k r : cur_db w' = cur_db w -> absent w k r -> absent w' k r.
  Proof. intros C A k' K. apply (A k'). eapply at_path_cur; [|exact K]. congruence. Qed.
  Lemma spared_imp w w' ex dbl f k p l r : cur_db w' = cur_db w -> spared ex dbl f w k p l r -> spared ex dbl f w' k p l r.
  Proof. intros C (r1 & n & r2 & Q & D & A & X). exists r1, n, r2. split; [exact Q|]. split; [eapply dir_at_cur; eassumption|]. split; [eapply absent_cur; eassumption|exact X]. Qed.
  Lemma spared_cur w w' ex dbl f k p l r : cur_db w = cur_db w' -> spared ex dbl f w k p l r <-> spared ex dbl f w' k p l r.
  Proof. intro C. split; apply spared_imp; congruence. Qed.
  Theorem commit_checkout cm w s w1 m w2 cm' v v1 v2 : reachable w -> starts cm w (Some s) w1 -> fs_ok (w_fs w1) ->
    lossless_below (w_fs w1) (locate (w_cwd w1) (ds_repo s)) ->
    run_command cm (Some s) (CCommit None m None) w1 = (Done tt, w2) -> attrs_fits (Attrs m []) ->
    reachable v -> starts cm' v (Some s) v1 -> cur_db v1 = cur_db w2 -> incl (w_hashed w2) (w_hashed v1) -> no_coll (w_hashed v1) -> fs_ok (w_fs v1) -> ~ In ParentDir (p_comps (ds_repo s)) ->
    run_command cm' (Some s) CCheckout v1 = (Done tt, v2) ->
    exists k, head_tree v1 (Some k) /\
    let src := locate (w_cwd w1) (ds_repo s) in let out := locate (w_cwd v1) (ds_repo s) in
    (forall r c, content (w_fs v2) (out ++ r) = Some c <->
       (content (w_fs w1) (src ++ r) = Some c /\ included (cm_exclude cm) (locate (w_cwd w1) (ds_folder s)) (ds_repo s) src r) \/
       (spared (cm_exclude cm') (locate (w_cwd v1) (ds_folder s)) (w_fs v1) v1 k (ds_repo s) out r /\ absent v1 k r /\ content (w_fs v1) (out ++ r) = Some c)) /\
    (forall x, ~ under out x -> lookup (w_fs v2) x = lookup (w_fs v1) x) /\ cur_db v2 = cur_db v1.
  Proof.
    intros Rw S O Ls H AF Rv Sv D I NC Ov NP C. assert (NC2 : no_coll (w_hashed w2)) by (eapply no_coll_incl; eauto).
    destruct (commit_works _ _ _ _ _ _ _ _ Rw S O H NC2 AF) as (name & tree & k & w0 & N & F0 & C0 & Sn & Ic & One & _). cbn [branch_of] in N.
    pose proof (push_branches _ _ _ _ One) as [Hi _]. destruct One as (_ & Hd & _).
    assert (Ht : head_tree v1 (Some tree)).
    { exists name. rewrite D. split; [congruence|]. eexists k, _, _. split; [exact Hi|]. split; [eapply reads_commit_cur; [exact D|apply commit_reads, Ic]|reflexivity]. }
    apply checkout_command in C as (t & u & Ht' & T & C); [|exact (working_ok _ (wk_start _ _ _ _ Rv Sv))]. pose proof (head_tree_fun _ _ _ Ht' Ht) as ->.
    exists tree. split; [exact Ht|]. cbv zeta. destruct (ticked_fs _ _ T) as [Fu Cu]. pose proof (cur_ticked _ _ T) as Du.
    assert (Hu : w_hashed u = w_hashed v1) by (destruct T as (? & ? & ->); reflexivity).
    assert (SS : still_stored w2 u) by (intros h x X; rewrite Du, D; exact X).
    assert (Snu : snapshot w0 (cm_exclude cm) (ds_folder s) (ds_repo s) tree u).
    { eapply snapshot_kept; [exact Sn|]. split; [exact SS|]. rewrite Hu. exact I. }
    assert (Lw : lossless_below (w_fs w0) (locate (w_cwd w0) (ds_repo s))) by (rewrite F0, C0; exact Ls).
    destruct (restore_files w0 _ _ _ _ _ _ _ _ u v2 Snu ltac:(rewrite Hu; exact NC) Lw ltac:(rewrite Fu; exact Ov) NP C) as (A & B & On).
    rewrite Fu, Cu, F0, C0 in *. split; [|split; [exact B|etransitivity; [apply (only_cur _ _ On)|exact Du]]].
    intros r c. rewrite A. assert (Ab : absent u tree r <-> absent v1 tree r) by (split; intros Q k' K; apply (Q k'); [apply (at_cur_iff u v1)|apply (at_cur_iff v1 u)]; congruence || exact K).
    assert (Sp : forall X f, spared X (locate (w_cwd v1) (ds_folder s)) f u tree (ds_repo s) (locate (w_cwd v1) (ds_repo s)) r <-> spared X (locate (w_cwd v1) (ds_folder s)) f v1 tree (ds_repo s) (locate (w_cwd v1) (ds_repo s)) r).
    { intros X f. apply spared_cur. exact Du. }
    rewrite Ab, Sp. reflexivity.
  Qed.
  Lemma combine_snd_fun {A B} : forall (a : list A) (b : list B) x y n, NoDup b -> In (x, n) (combine a b) -> In (y, n) (combine a b) -> y = x.
  Proof.
    induction a as [|u a IH]; intros [|v b] x y n N H K; cbn in *; try tauto. apply NoDup_cons_iff in N as [N1 N2].
    destruct H as [H|H], K as [K|K].
    - congruence.
    - exfalso. inv H. apply N1. eapply in_combine_r, K.
    - exfalso. inv K. apply N1. eapply in_combine_r, H.
    - eapply IH; eauto.
  Qed.
  Lemma at_path_fun w k r : regular w k -> forall k1 k2, at_path w k r k1 -> at_path w k r k2 -> k1 = k2.
  Proof.
    intros R k1 k2 H. revert k2. induction H as [k|k o i n k' r k'' H1 H2 H3 H4 H5 IH]; intros k2 K; inversion K as [|? o' i' ? c' ? ? G1 G2 G3 G4 G5]; subst; [reflexivity|].
    assert (I : item_at w k i) by (exists o; auto). assert (I' : item_at w k i') by (exists o'; auto). pose proof (item_fun _ _ _ _ I I') as <-.
    destruct (R k i (eo_refl w k) I H3) as (_ & N & L).
    assert (c' = k') by (eapply combine_snd_fun; eassumption). subst c'. apply IH; [|exact G5].
    intros k3 i3 En. apply R. eapply eo_child; eauto. eapply in_combine_l, H4.
  Qed.
  Theorem checkout_outcome ex db g k p w w' : regular w k -> fs_ok (w_fs w) -> ~ In ParentDir (p_comps p) ->
    checkout_fs_item ds g k p (filter_fn ex db) w = (Done tt, w') ->
    let l := locate (w_cwd w) p in
    (forall r, outcome_at ex (locate (w_cwd w) db) (w_fs w) (w_fs w') w k p l r) /\
    (forall x, ~ under l x -> lookup (w_fs w') x = lookup (w_fs w) x) /\ cur_db w' = cur_db w.
  Proof. intros R O N H l. destruct (checkout_done ex db g k p w w' R (fs_ok_closed _ O) N H) as (A & _ & B & C). split; [exact C|]. split; [exact B|apply (only_cur _ _ A)]. Qed.
  Theorem directories_needed ex db g k p w w' : regular w k -> fs_ok (w_fs w) -> ~ In ParentDir (p_comps p) ->
    checkout_fs_item ds g k p (filter_fn ex db) w = (Done tt, w') ->
    forall r, dir_at w k r -> lookup (w_fs w) (locate (w_cwd w) p ++ r) = Some EDir.
  Proof.
    intros R O N H r D. destruct (checkout_outcome ex db g k p w w' R O N H) as (A & _). destruct (A r) as [(_ & L & _)|[(c & F & _)|[(Ab & _)|(Ab & _)]]]; [exact L| | |]; try (destruct (dir_absent _ _ _ D Ab)).
    exfalso. destruct D as (k1 & i1 & K1 & I1 & T1), F as (k2 & i2 & h & rest & K2 & I2 & T2 & _).
    pose proof (at_path_fun w k r R k1 k2 K1 K2) as ->. pose proof (item_fun _ _ _ _ I1 I2) as ->. congruence.
  Qed.
  Theorem restores w0 ex0 fo0 p0 k ex fo g p w w' : snapshot w0 ex0 fo0 p0 k w -> no_coll (w_hashed w) -> lossless_below (w_fs w0) (locate (w_cwd w0) p0) ->
    fs_ok (w_fs w) -> ~ In ParentDir (p_comps p) ->
    checkout_fs_item ds g k p (filter_fn ex fo) w = (Done tt, w') ->
    let src := locate (w_cwd w0) p0 in let out := locate (w_cwd w) p in
    (forall r c, content (w_fs w') (out ++ r) = Some c <->
       (content (w_fs w0) (src ++ r) = Some c /\ included ex0 (locate (w_cwd w0) fo0) p0 src r) \/
       (spared ex (locate (w_cwd w) fo) (w_fs w) w k p out r /\ absent w k r /\ content (w_fs w) (out ++ r) = Some c)) /\
    (forall x, ~ under out x -> lookup (w_fs w') x = lookup (w_fs w) x) /\ cur_db w' = cur_db w.
  Proof.
    intros S NC L O N H. destruct (restore_files w0 ex0 fo0 p0 k ex fo g p w w' S NC L O N H) as (A & B & C). split; [exact A|]. split; [exact B|apply (only_cur _ _ C)].
  Qed.
  Theorem outside_harmless ex db g k p w o w' : proper_names w k -> (forall r, starts_with (below p r) blessed = false) ->
    checkout_fs_item ds g k p (filter_fn ex db) w = (o, w') ->
    one_emptied (w_fs w) (w_fs w') (locate (w_cwd w) p) /\ (o = Done tt -> w_fs w' = w_fs w).
  Proof.
    intros P B H. destruct (checkout_unblessed ex db g k p w P B) as (_ & A & D). rewrite H in A, D. split; [exact A|]. intro Q. apply D, Q.
  Qed.
End CheckoutCmd.
