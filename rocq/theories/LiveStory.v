(** The checkout command, and a commit followed by a checkout. *)
From Coq Require Import RelationClasses.
From Verif Require Import Base BaseFacts TableFacts Key KeyFacts Keyish Cbor CborFacts Object ObjectFacts Path World WorldFacts Store File Filter Dir Diff Commit Main SpecStore StoreCalls SpecRun SpecProc SpecCmd SpecFile SpecDir SpecCache SpecDiff SpecShape SpecLive
  SpecClosure Closure Frame DbRel Integrity StoreFacts ProcFacts InitFacts ObjStoreFacts SessionFacts FilePlan FileFacts ChunkFacts FileRun FsFacts DirPlan DirFacts GetFacts DirTrip FetchSafe DirTree DirWalk WalkFacts DirLive CacheFacts HashFacts CompareFacts DiffFacts CheckoutFacts
  Reader SpecPatch SpecShow SpecOut SpecText CmdFacts OutFacts SnapFacts ShowFacts ShapeFacts ShapeTop Ends SpecCheckout LiveFacts LiveDiff LiveCmd LiveStart CheckoutCmd LiveCheckout.

Section LiveStory.
  Context {E : Env}.
  Notation ds := sqlite_ds.

  (** *** Where the repository is *)
  Lemma walk_dirs f r : forall b m, walk_comps f b (map Normal r) = Some m -> forall a c, r = a ++ c -> c <> [] -> lookup f (b ++ a) = Some EDir.
  Proof.
    induction r as [|n r IH]; intros b m H a c Q N; [destruct a; [destruct c; [congruence|discriminate]|discriminate]|]. cbn [map walk_comps] in H. destruct (is_dir f b) eqn:D; [|discriminate].
    destruct a as [|x a]; [rewrite app_nil_r; apply is_dir_iff, D|]. cbn [step_comp] in H. injection Q as <- ->. specialize (IH _ _ H a c eq_refl N). rewrite <- app_assoc in IH. exact IH.
  Qed.
  Lemma starts_place cm w s w1 d : w_faults w = [] -> starts cm w (Some s) w1 -> cm_db_path cm = named d -> d <> [] ->
    exists e, above (w_cwd w) e /\ s = DsState (abs_path (e ++ d)) (abs_path (e ++ removelast d)) /\ (forall a b, e ++ d = a ++ b -> lookup (w_fs w1) a = Some EDir).
  Proof.
    intros F S Cp Nd. pose proof (setup_before _ _ _ _ S) as (_ & _ & G & _). apply setup_steps in S as (v1 & _ & _ & H1 & _).
    unfold open_repo in H1. apply bind_done in H1 as (fo & v0 & H0 & H1). pose proof (nearest _ (close_all w) _ _ F H0) as Nr. pose proof (find_ticked _ (close_all w) _ _ F H0) as [T0 F0].
    destruct fo as [x|]; [|apply ret_done in H1 as [X _]; discriminate X]. destruct Nr as (e & Ab & -> & _ & _). rewrite Cp, join_abs in H1 by exact Nd.
    assert (Pa : parent (abs_path (e ++ d)) = Some (abs_path (e ++ removelast d))).
    { unfold parent, abs_path. cbn [p_comps p_abs]. destruct (exists_last Nd) as (d' & n & ->). rewrite removelast_last, app_assoc, (map_app Normal (e ++ d')). cbn [map]. rewrite removelast_last.
      destruct (map Normal (e ++ d') ++ [Normal n]) eqn:Q; [apply snoc_not_nil in Q; destruct Q|]. reflexivity. }
    rewrite Pa in H1. apply bind_done in H1 as (l & v5 & H5 & H1). apply bind_done in H1 as ([] & v6 & _ & H1). apply ret_done in H1 as [X ->]. inv X.
    exists e. split; [exact Ab|]. split; [reflexivity|]. intros a b Q. apply G.
    rewrite join_file in H5. unfold sqlite_open in H5. match type of H5 with op ?f _ = _ => destruct (op_live f v0 F0) as (v2 & T2 & F2 & Ev) end. rewrite Ev in H5.
    unfold open_db_eff in H5. destruct (resolve (w_fs v2) (w_cwd v2) (abs_path ((e ++ d) ++ [snapcd_db]))) as [x|] eqn:Rs; [|discriminate H5].
    destruct (ticked_fs _ _ (ticked_trans _ _ _ T0 T2)) as [Q1 _]. change (w_fs (close_all w)) with (w_fs w) in Q1. unfold resolve, is_empty_path, abs_path in Rs. cbn [p_abs p_comps negb andb] in Rs. rewrite Q1 in Rs.
    apply (walk_dirs _ _ [] _ Rs a (b ++ [snapcd_db])); [rewrite Q, <- app_assoc; reflexivity|apply snoc_not_nil].
  Qed.

  (** *** The command *)
  Lemma blessed_home x : starts_with (abs_path x) blessed = true <-> in_home x.
  Proof.
    unfold in_home. change blessed with (abs_path (map str ["home"; "jess"; "src"; "snapcd"; "repo"]%string)). generalize (map str ["home"; "jess"; "src"; "snapcd"; "repo"]%string) as h.
    intro h. unfold starts_with, abs_path, is_empty_path. cbn [p_abs p_comps Bool.eqb negb andb]. rewrite orb_false_r.
    revert x. induction h as [|a h IH]; intro x; cbn [map comps_prefix]; [split; [exists x; reflexivity|reflexivity]|].
    destruct x as [|b x]; cbn [map comps_prefix]; [split; [discriminate|intros [y Y]; discriminate Y]|]. rewrite andb_true_iff, IH. cbn [comp_eqb]. split.
    - intros [A [y ->]]. apply bytes_eqb_true in A. subst. exists y. reflexivity.
    - intros [y Y]. injection Y as -> ->. split; [apply bytes_eqb_refl|exists y; reflexivity].
  Qed.
  Lemma below_abs l r : below (abs_path l) r = abs_path (l ++ r).
  Proof. unfold below, abs_path. cbn [p_abs p_comps]. rewrite map_app. reflexivity. Qed.
  Lemma ready_iff ex dbl w k l : ready ex dbl (w_fs w) w k (abs_path l) l <-> can_checkout ex dbl w k l.
  Proof.
    unfold ready, can_checkout. split; intros (A & B & C & D); (split; [exact A|]); (split; [exact B|]); split.
    - intros r H. destruct (C r H) as [C1 C2]. split; [exact C1|]. apply blessed_home. rewrite <- below_abs. exact C2.
    - intros r n e H1 H2 H3 H4. apply blessed_home. rewrite <- below_abs. eauto.
    - intros r H. destruct (C r H) as [C1 C2]. split; [exact C1|]. rewrite below_abs. apply blessed_home, C2.
    - intros r n e H1 H2 H3 H4. rewrite below_abs. apply blessed_home. eauto.
  Qed.
  Lemma item_regular w k : shp (cur_db w) -> points (cur_db w) Item k -> regular w k.
  Proof.
    intros S P k' i H (o & R & D) T. apply (entries_item _ _ _ S H) in P. destruct (item_formed _ _ _ _ S P R D) as [(T' & _)|(_ & To & _ & N1 & N2)]; [congruence|]. split; [exact N1|]. split; [exact N2|].
    apply reads_object in R. pose proof (formed _ _ _ S R) as Wf. unfold well_formed in Wf. rewrite To in Wf. destruct Wf as (names & ks & _ & _ & D' & Le & _). rewrite D in D'. injection D' as ->. exact Le.
  Qed.
  Lemma abs_noparent l : ~ In ParentDir (p_comps (abs_path l)).
  Proof. unfold abs_path. cbn [p_comps]. intro I. apply in_map_iff in I as (x & Q & _). discriminate. Qed.
  Lemma locate_abs cwd l : locate cwd (abs_path l) = l.
  Proof. apply db_locate. Qed.

  Lemma checkout_exactly cm w w1 e d : well_used w -> w_faults w = [] -> starts cm w (Some (DsState (abs_path (e ++ d)) (abs_path (e ++ removelast d)))) w1 ->
    d <> [] -> (forall a b, e ++ d = a ++ b -> lookup (w_fs w1) a = Some EDir) -> no_coll (w_hashed w1) -> deep_enough w1 -> fs_ok (w_fs w1) ->
    (exists w2, run_command cm (Some (DsState (abs_path (e ++ d)) (abs_path (e ++ removelast d)))) CCheckout w1 = (Done tt, w2)) <->
    globs_ok cm /\ has_head w1 /\ exists t, head_tree w1 (Some t) /\ can_checkout (cm_exclude cm) (e ++ d) w1 t (e ++ removelast d).
  Proof.
    intros U F S Nd Dirs NC De O. set (dbl := e ++ d) in *. set (l := e ++ removelast d) in *.
    assert (W : world_ok w1) by exact (proj1 (used_started _ _ _ _ U S)). assert (Sh : shp (cur_db w1)) by exact (typed_cur _ (proj2 (used_started _ _ _ _ U S)) NC).
    assert (Fu : full (cur_db w1)) by exact (started_full _ _ _ _ (used_reachable _ U) S). destruct (calm_setup _ _ _ _ S F) as [F1 _].
    assert (Ldb : exists n, dbl = l ++ [n]). { destruct (exists_last Nd) as (d' & n & ->). exists n. unfold dbl, l. rewrite removelast_last, app_assoc. reflexivity. }
    destruct Ldb as [n0 Ldb]. cbn [run_command with_ds]. unfold cmd_checkout, get_head_key. cbn [ds_folder ds_repo].
    assert (Item : forall t, head_tree w1 (Some t) -> points (cur_db w1) Item t).
    { intros t (n & B & k & r & c & Hi & R & ->). destruct (newest_commit _ _ _ _ _ W Sh Hi) as [c' Ic]. rewrite (reads_commit_fun _ _ _ _ R (commit_reads _ _ _ Ic)). eapply commit_formed; eassumption. }
    split.
    - intros (w2 & H). pose proof H as H'. apply bind_done in H' as (k & v2 & H2 & H'). apply bind_done in H2 as (n & v1 & H1 & _). pose proof (head_text _ _ _ H1) as Ut. pose proof (head_done _ _ _ H1) as [_ B].
      apply bind_done in H' as (f & v3 & H3 & _). split; [exact (filter_globs _ _ _ _ _ H3)|]. split; [exists n; auto|].
      destruct (checkout_command cm (DsState (abs_path dbl) (abs_path l)) w1 w2 W H) as (t & v & Ht & T & C). cbn [ds_folder ds_repo] in C. exists t. split; [exact Ht|].
      pose proof (cur_ticked _ _ T) as Cu. destruct (ticked_fs _ _ T) as [Fv Cv].
      apply checkout_needs in C; [|apply (regular_cur w1); [exact Cu|apply item_regular; auto]|rewrite Fv; apply fs_ok_closed, O|apply abs_noparent].
      rewrite locate_abs in C. apply ready_iff. rewrite <- Fv. apply (ready_ext _ _ (w_fs v) (w_fs v) v w1); [congruence|reflexivity|exact C].
    - intros (G & (n & B & Ut) & t & Ht & Can). destruct Ht as (n' & B' & k & r & c & Hi & R & ->). assert (n' = n) as -> by congruence.
      assert (Ht : head_tree w1 (Some (c_tree c))) by (exists n; split; [exact B|]; exists k, r, c; auto).
      destruct (branch_live None w1 n F1 B (fun _ => Ut)) as (v1 & H1 & T1 & Fv1). cbn [refname_or_head] in H1.
      destruct (newest_try n v1 (ok_ticked _ _ T1 W) Fv1) as (v2 & H2 & T2 & Fv2). rewrite (cur_ticked _ _ T1), Hi in H2. apply try_done in H2 as [(a & Q & H2)|(x & Q & _)]; [|discriminate]. injection Q as <-.
      unfold bind at 1. unfold bind at 1. rewrite H1, H2. rewrite (run_bind _ _ _ _ _ (filter_run _ (abs_path dbl) v2 G)).
      destruct (newest_commit _ _ _ _ _ W Sh Hi) as [c' Ic]. pose proof (reads_commit_fun _ _ _ _ R (commit_reads _ _ _ Ic)) as <-. pose proof (ticked_trans _ _ _ T1 T2) as T12.
      destruct (commit_get k c v2 Fv2 (is_commit_cur _ _ _ _ (cur_ticked _ _ T12) Ic)) as (v3 & H3 & T3 & Fv3). rewrite (run_bind _ _ _ _ _ H3). pose proof (ticked_trans _ _ _ T12 T3) as T.
      pose proof (cur_ticked _ _ T) as Cu. destruct (ticked_fs _ _ T) as [Fv Cv]. pose proof (Item _ Ht) as P. pose proof P as (o & Ob & _).
      destruct (checkout_lives (cm_exclude cm) dbl (cur_db w1) stack Sh (c_tree c) (abs_path l) l v3) as (w2 & H4 & _).
      + exact (complete_stack _ _ _ Fu De Ob).
      + exact P.
      + exact Fv3.
      + exact Cu.
      + apply (regular_cur w1); [exact Cu|apply item_regular; auto].
      + rewrite Fv. apply fs_ok_closed, O.
      + rewrite Fv. apply O.
      + apply abs_noparent.
      + reflexivity.
      + rewrite Fv. unfold resolve, is_empty_path, abs_path. cbn [p_abs p_comps negb andb]. apply (walk_normals _ l []). intros a b Q _. apply (Dirs a (b ++ [n0])). rewrite Ldb, Q, <- app_assoc. reflexivity.
      + rewrite Fv. intros a b Q. exact (Dirs a b Q).
      + intros n1 b Q. rewrite Ldb in Q. apply app_inv_head in Q. congruence.
      + apply (ready_ext _ _ (w_fs w1) (w_fs v3) w1 v3); [exact Cu|intros; rewrite Fv; reflexivity|]. apply ready_iff, Can.
      + exists w2. exact H4.
  Qed.

  (** *** Commit, then checkout *)
  #[local] Existing Instance silent_pre.
  #[local] Existing Instance silent_Quiet.
  #[local] Existing Instance silent_Put.
  #[local] Instance silent_Ref : RefPrims silent.
  Proof. constructor; intros; apply silent_write. Qed.
  Lemma commit_quiet cm s p m r w o w' : run_command cm (Some s) (CCommit p m r) w = (o, w') -> w_out w' = w_out w.
  Proof. intro H. pose proof (rel_cmd_commit silent cm s p m r w) as X. cbn [run_command with_ds] in H. rewrite H in X. apply X. Qed.
  Lemma snapshot_places w0 ex fo p k w : snapshot w0 ex fo p k w -> no_coll (w_hashed w) ->
    let l := locate (w_cwd w0) p in
    forall r, (dir_at w k r <-> lookup (w_fs w0) (l ++ r) = Some EDir /\ included ex (locate (w_cwd w0) fo) p l r) /\
      (leaf_at w k r -> exists c st, lookup (w_fs w0) (l ++ r) = Some (EFile c st) /\ included ex (locate (w_cwd w0) fo) p l r) /\
      (absent w k r <-> ~ ((exists e, lookup (w_fs w0) (l ++ r) = Some e) /\ included ex (locate (w_cwd w0) fo) p l r)).
  Proof.
    intros (fuel & w1 & S & O & P & R & I) NC l r. apply working_ok in S. apply (no_coll_incl _ _ I) in NC. destruct (put_contents _ _ _ _ _ _ _ _ S O P NC R) as [A B]. fold l in A, B.
    split; [split|split; [|split]].
    - intros (k' & i & K & It & Ty). split; [|apply A; eauto]. destruct (B r k' K) as [(L & _)|(c & st & h & L & It' & _)]; [exact L|]. pose proof (item_fun _ _ _ _ It It') as ->. discriminate.
    - intros [L In]. destruct (proj2 (A r)) as [k' K]; [eauto|]. destruct (B r k' K) as [(_ & ns & ks & It & _)|(c & st & h & L' & _)]; [|congruence]. exists k', (dir_item ns ks). auto.
    - intros (k' & i & K & It & Ty). destruct (B r k' K) as [(_ & ns & ks & It' & _)|(c & st & h & L & _)]; [pose proof (item_fun _ _ _ _ It It') as ->; discriminate|]. exists c, st. split; [exact L|]. apply A. eauto.
    - intros Ab H. apply A in H as [k' K]. exact (Ab k' K).
    - intros N k' K. apply N, A. eauto.
  Qed.
  Lemma snapshot_cur w0 ex fo p k w w' : cur_db w' = cur_db w -> incl (w_hashed w) (w_hashed w') -> snapshot w0 ex fo p k w -> snapshot w0 ex fo p k w'.
  Proof. intros C I H. eapply snapshot_kept; [exact H|]. split; [|exact I]. intros x v X. rewrite C. exact X. Qed.
  Theorem story cm w e d db m : well_used w -> quiet_disk w -> cache_there w -> repository_at cm w e d db ->
    let l := e ++ removelast d in let dbl := e ++ d in let ex := cm_exclude cm in
    globs_ok cm -> (exists n, rp_head (repo_of db) = Some n /\ utf8_valid n = true) -> can_store ex (abs_path dbl) (abs_path l) w -> lossless_below (w_fs w) l ->
    (lenN m < 2 ^ 62)%N -> utf8_valid m = true ->
    exists w', run_process cm (CCommit None m None) w = (Some 0%N, w') /\ w_out w' = w_out w /\ w_fs w' = w_fs w /\
      forall v db', outside w' v -> w_faults v = [] -> cache_there v -> repository_at cm v e d db' ->
        no_coll (w_hashed v) -> length (d_data db') <= stack -> fs_ok (w_fs v) -> in_home l -> room_for ex dbl l (w_fs w) (w_fs v) ->
        exists v', run_process cm CCheckout v = (Some 0%N, v') /\ w_out v' = w_out v /\
          (forall r c, content (w_fs v') (l ++ r) = Some c <->
             (content (w_fs w) (l ++ r) = Some c /\ included ex dbl (abs_path l) l r) \/
             (content (w_fs v) (l ++ r) = Some c /\ left_alone ex dbl l (w_fs w) r)) /\
          (forall x, ~ under l x -> lookup (w_fs v') x = lookup (w_fs v) x).
  Proof.
    intros U Qd Ct Rp l dbl ex G Hd Cs Ls Lm Um. pose proof Qd as (F & O & Mo). pose proof Rp as (Cp & Nd & _).
    assert (Place : forall x, cache_there x -> cache_place x).
    { intros x. unfold cache_there, cache_place. destruct cache_dir as [p|]; [|trivial]. intros (c & -> & D). exists c. split; [reflexivity|]. intros a b Q. right. apply (D a b). exact Q. }
    destruct (start_found cm w e d db F (Place _ Ct) Rp) as (w1 & S & F1 & C1 & D1 & O1 & Cn1 & Cu1 & H1 & Fs1). specialize (Fs1 Ct). fold l dbl in S. set (s := DsState (abs_path dbl) (abs_path l)) in *.
    destruct (proj2 (commit_exactly cm w s w1 None m None (used_reachable _ U) S ltac:(unfold quiet_disk; rewrite Fs1; auto) Lm)) as [w2 R2].
    { split; [exact G|]. split; [intros _; unfold has_head; rewrite Cu1; exact Hd|]. unfold can_store in *. cbn [ds_folder ds_repo s]. rewrite Fs1, C1. exact Cs. }
    destruct (process_live cm _ w (Some s) w1 w2 F S R2) as (w' & P & Ow & Fw & Sw & Cw & Hw & _ & Dw). specialize (Dw s eq_refl).
    pose proof (commit_quiet _ _ _ _ _ _ _ _ R2) as O2.
    assert (Keep : w_fs w2 = w_fs w1 /\ w_conn w2 = w_conn w1).
    { pose proof (rel_cmd_commit silent cm s None m None w1) as X. cbn [run_command with_ds] in R2. rewrite R2 in X. destruct X as (_ & A & _ & B). auto. }
    destruct Keep as [Fs2 Cn2]. exists w'. split; [exact P|]. split; [congruence|]. split; [congruence|].
    intros v db' Ou Fv Ctv Rpv NC De Ov Home Room.
    assert (Uv : well_used v).
    { apply (wu_outside w'); [|exact Ou]. replace w' with (snd (run_process cm (CCommit None m None) w)) by (rewrite P; reflexivity). apply wu_process; [exact U|].
      intros st x Sx. unfold starts in S, Sx. rewrite S in Sx. injection Sx as <- <-. rewrite Fs1. split; [exact O|exact Um]. }
    destruct Ou as [Dv Hv].
    destruct (start_found cm v e d db' Fv (Place _ Ctv) Rpv) as (v1 & Sv & Fv1 & Cv1 & Dv1 & Ov1 & Cnv1 & Cuv1 & Hv1 & Fsv1). specialize (Fsv1 Ctv). fold l dbl in Sv. fold s in Sv.
    assert (Db : cur_db v1 = cur_db w2).
    { rewrite Cuv1, <- Dw, Cn2, Cn1. destruct Rpv as (_ & _ & _ & _ & _ & _ & Kn). rewrite Dv in Kn. unfold db_at. rewrite Kn. reflexivity. }
    assert (In12 : incl (w_hashed w2) (w_hashed v1)) by (rewrite Hv1, Hv, Hw; apply incl_refl).
    assert (NC1 : no_coll (w_hashed v1)) by (rewrite Hv1; exact NC). assert (NC2 : no_coll (w_hashed w2)) by (eapply no_coll_incl; eauto).
    assert (AF : attrs_fits (Attrs m [])).
    { split; [eapply N.lt_trans; [exact Lm|reflexivity]|]. split; [exact Um|]. apply wf_map. split; [reflexivity|constructor]. }
    destruct (commit_works cm w s w1 None m None w2 (used_reachable _ U) S ltac:(rewrite Fs1; exact O) R2 NC2 AF) as (name & tree & k & w0 & N & F0 & C0 & Sn & Ic & One & _).
    cbn [branch_of ds_folder ds_repo s] in N, Sn. pose proof (push_branches _ _ _ _ One) as [Hi _]. destruct One as (_ & Hdk & _).
    assert (Ht : head_tree v1 (Some tree)).
    { exists name. rewrite Db. split; [congruence|]. eexists k, _, _. split; [exact Hi|]. split; [eapply reads_commit_cur; [exact Db|apply commit_reads, Ic]|reflexivity]. }
    pose proof (snapshot_cur _ _ _ _ _ _ v1 Db In12 Sn) as Sn1.
    assert (Places := snapshot_places _ _ _ _ _ _ Sn1 NC1). cbv zeta in Places. rewrite !locate_abs, F0, Fs1 in Places.
    assert (Dirs : forall a b, dbl = a ++ b -> lookup (w_fs v1) a = Some EDir) by (rewrite Fsv1; destruct Rpv as (_ & _ & X & _); exact X).
    destruct (proj2 (checkout_exactly cm v v1 e d Uv Fv Sv Nd Dirs NC1 ltac:(unfold deep_enough; rewrite Cuv1; exact De) ltac:(rewrite Fsv1; exact Ov))) as [v2 Rv2].
    { split; [exact G|]. split.
      - exists name. rewrite Db, Hdk. split; [exact N|]. destruct Hd as (n & B & Ut). rewrite Cu1 in N. congruence.
      - exists tree. split; [exact Ht|]. unfold can_checkout. rewrite Fsv1. destruct Room as [Rd Rf]. fold dbl l. split; [|split; [|split]].
        + intros r Dr. apply Rd. apply (proj1 (Places r)), Dr.
        + intros r n Dr. apply Rd. apply (proj1 (Places r)), Dr.
        + intros r Lf. destruct (proj1 (proj2 (Places r)) Lf) as (c & st & L). split; [eapply Rf, L|]. destruct Home as [y ->]. exists (y ++ r). rewrite <- app_assoc. reflexivity.
        + intros r n x _ _ _ _. destruct Home as [y ->]. exists (y ++ r). rewrite <- app_assoc. reflexivity. }
    fold dbl l in Rv2. fold s in Rv2.
    destruct (process_live cm _ v (Some s) v1 v2 Fv Sv Rv2) as (v' & P' & Ow' & _ & Sw' & _). exists v'. split; [exact P'|].
    assert (Qv2 : w_out v2 = w_out v1).
    { destruct (checkout_command cm s v1 v2 (proj1 (used_started _ _ _ _ Uv Sv)) Rv2) as (t & u & Ht' & T & C). cbn [ds_folder ds_repo s] in C. pose proof (CheckoutCmd.head_tree_fun _ _ _ Ht' Ht) as ->.
      destruct (ticked_fs _ _ T) as [Fu Cu]. apply checkout_done in C as (On & _); [|apply (regular_cur v1); [exact (cur_ticked _ _ T)|eapply snapshot_regular; eassumption]|rewrite Fu, Fsv1; apply fs_ok_closed, Ov|apply abs_noparent].
      destruct On as (t1 & r1 & f1 & ->). destruct T as (t2 & r2 & ->). reflexivity. }
    split; [congruence|]. 
    destruct (commit_checkout cm w s w1 m w2 cm v v1 v2 (used_reachable _ U) S) as (tree' & Ht' & Rest & Out & _); auto.
    { rewrite Fs1. exact O. }
    { cbn [ds_repo s]. rewrite locate_abs, Fs1. exact Ls. }
    { apply used_reachable, Uv. }
    { rewrite Fsv1. exact Ov. }
    { apply abs_noparent. }
    pose proof (CheckoutCmd.head_tree_fun _ _ _ Ht' Ht) as ->. cbn [ds_folder ds_repo s] in Rest, Out. rewrite !locate_abs, Fs1, Fsv1 in Rest. rewrite locate_abs, Fsv1 in Out. rewrite Sw'. fold ex in Rest. 
    split; [|exact Out]. intros r c. rewrite Rest. apply or_iff_compat_l. split.
    - intros ((r1 & n & r2 & -> & Dr & Ab & X) & _ & Cv). split; [exact Cv|]. exists r1, n, r2. split; [reflexivity|]. split; [apply (proj1 (Places r1)), Dr|]. destruct X as [X|X]; [exact X|exfalso].
      assert (Z : lookup (w_fs v) (l ++ r1 ++ n :: r2) = None \/ r2 = []).
      { destruct r2 as [|a r2]; [right; reflexivity|left]. replace (l ++ r1 ++ n :: a :: r2) with ((l ++ r1 ++ [n]) ++ a :: r2) by (rewrite <- !app_assoc; reflexivity).
        apply closed_none; [apply fs_ok_closed, Ov|rewrite X; discriminate|discriminate]. }
      unfold content in Cv. destruct Z as [Z|Z]; [rewrite Z in Cv; discriminate|]. subst r2. rewrite X in Cv. discriminate.
    - intros (Cv & r1 & n & r2 & -> & Cm & X).
      assert (Ab : forall q, absent v1 tree (r1 ++ n :: q)).
      { intro q. apply (proj2 (proj2 (Places (r1 ++ n :: q)))). intros [_ In]. apply (In (r1 ++ [n]) q); [rewrite <- app_assoc; reflexivity|apply snoc_not_nil|exact X]. }
      split; [|split; [apply Ab|exact Cv]]. exists r1, n, r2. split; [reflexivity|]. split; [apply (proj1 (Places r1)), Cm|]. split; [apply Ab|]. left. exact X.
  Qed.
End LiveStory.
