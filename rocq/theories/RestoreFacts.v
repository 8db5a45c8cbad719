(** An old commit can be checked out again. *)
From Coq Require Import RelationClasses.
From Verif Require Import Base BaseFacts TableFacts Key KeyFacts Keyish Cbor CborFacts Object ObjectFacts Path World WorldFacts Store File Filter Dir Diff Commit Main SpecStore StoreCalls SpecRun SpecProc SpecCmd SpecFile SpecDir SpecCache SpecDiff SpecShape SpecLive
  SpecClosure Closure Frame DbRel Integrity StoreFacts ProcFacts InitFacts ObjStoreFacts SessionFacts FilePlan FileFacts ChunkFacts FileRun FsFacts DirPlan DirFacts GetFacts DirTrip FetchSafe DirTree DirWalk WalkFacts DirLive CacheFacts HashFacts CompareFacts DiffFacts CheckoutFacts
  Reader SpecPatch SpecShow SpecOut SpecText CmdFacts OutFacts SnapFacts ShowFacts ShapeFacts ShapeTop Ends SpecCheckout LiveFacts LiveDiff LiveCmd LiveStart CheckoutCmd LiveCheckout LiveCache LiveRead LiveStory SpecRestore.

Section RestoreFacts.
  Context {E : Env}.
  Notation ds := sqlite_ds.

  Lemma there_place x : cache_there x -> cache_place x.
  Proof.
    unfold cache_there, cache_place. destruct cache_dir as [p|]; [|trivial]. intros (c & -> & D). exists c. split; [reflexivity|]. intros a b Q. right. apply (D a b). exact Q.
  Qed.
  Lemma later_hashed l w v : later l w v -> incl (w_hashed w) (w_hashed v).
  Proof.
    induction 1 as [w|w v cm c _ IH _|w v u _ IH [_ Hu]]; [apply incl_refl|eapply incl_tran; [exact IH|apply hx_process]|rewrite Hu; exact IH].
  Qed.
  Lemma still_commit w v k c : still_stored w v -> is_commit w k c -> is_commit v k c.
  Proof. intros S (o & R & T & C). exists o. split; [eapply reads_still; eassumption|auto]. Qed.
  Lemma at_file d db w e cm : repository_at cm w e d db -> db_at (w_dbs w) (db_file e d) = db.
  Proof. intros (_ & _ & _ & _ & _ & _ & Kn). unfold db_at, db_file. rewrite Kn. reflexivity. Qed.

  (** A snapshot that is the newest of HEAD's branch is checked out. *)
  Lemma snapshot_back cm v e d db n w0 tree : well_used v -> stands_in cm v e d db -> head_named db n -> globs_ok cm ->
    no_coll (w_hashed v) -> length (d_data db) <= stack ->
    let l := e ++ removelast d in let dbl := e ++ d in let ex := cm_exclude cm in
    lossless_below (w_fs w0) l -> in_home l -> room_for ex dbl l (w_fs w0) (w_fs v) ->
    (forall v1, cur_db v1 = db -> w_hashed v1 = w_hashed v -> snapshot w0 ex (abs_path dbl) (abs_path l) tree v1 /\ head_tree v1 (Some tree)) ->
    exists v', run_process cm CCheckout v = (Some 0%N, v') /\ w_out v' = w_out v /\ restored ex dbl l (w_fs w0) (w_fs v) (w_fs v') /\
      w_hashed v' = w_hashed v /\ db_at (w_dbs v') (db_file e d) = db.
  Proof.
    intros Uv (Fv & Ctv & Ov & Rpv) (Hn & Un) G NC De l dbl ex Ls Home Room Snap. pose proof Rpv as (Cp & Nd & _).
    destruct (start_found cm v e d db Fv (there_place _ Ctv) Rpv) as (v1 & Sv & Fv1 & Cv1 & Dv1 & Ov1 & Cnv1 & Cuv1 & Hv1 & Fsv1). specialize (Fsv1 Ctv). fold l dbl in Sv. set (s := DsState (abs_path dbl) (abs_path l)) in *.
    assert (NC1 : no_coll (w_hashed v1)) by (rewrite Hv1; exact NC). destruct (Snap v1 Cuv1 Hv1) as [Sn1 Ht].
    assert (Places := snapshot_places _ _ _ _ _ _ Sn1 NC1). cbv zeta in Places. rewrite !locate_abs in Places.
    assert (Dirs : forall a b, dbl = a ++ b -> lookup (w_fs v1) a = Some EDir) by (rewrite Fsv1; destruct Rpv as (_ & _ & X & _); exact X).
    destruct (proj2 (checkout_exactly cm v v1 e d Uv Fv Sv Nd Dirs NC1 ltac:(unfold deep_enough; rewrite Cuv1; exact De) ltac:(rewrite Fsv1; exact Ov))) as [v2 Rv2].
    { split; [exact G|]. split; [exists n; rewrite Cuv1; auto|]. exists tree. split; [exact Ht|]. unfold can_checkout. rewrite Fsv1. destruct Room as [Rd Rf]. fold dbl l. split; [|split; [|split]].
      - intros r Dr. apply Rd. apply (proj1 (Places r)), Dr.
      - intros r m Dr. apply Rd. apply (proj1 (Places r)), Dr.
      - intros r Lf. destruct (proj1 (proj2 (Places r)) Lf) as (c & st & L). split; [eapply Rf, L|]. destruct Home as [y ->]. exists (y ++ r). rewrite <- app_assoc. reflexivity.
      - intros r m x _ _ _ _. destruct Home as [y ->]. exists (y ++ r). rewrite <- app_assoc. reflexivity. }
    fold dbl l in Rv2. fold s in Rv2.
    destruct (process_live cm _ v (Some s) v1 v2 Fv Sv Rv2) as (v' & P' & Ow' & _ & Sw' & _ & Hw' & _ & Dw'). specialize (Dw' s eq_refl). exists v'. split; [exact P'|].
    destruct (checkout_command cm s v1 v2 (proj1 (used_started _ _ _ _ Uv Sv)) Rv2) as (t & u & Ht' & T & C). cbn [ds_folder ds_repo s] in C. pose proof (CheckoutCmd.head_tree_fun _ _ _ Ht' Ht) as ->.
    destruct (ticked_fs _ _ T) as [Fu Cu]. pose proof (cur_ticked _ _ T) as Du. assert (Hu : w_hashed u = w_hashed v1) by (destruct T as (? & ? & ->); reflexivity).
    assert (Snu : snapshot w0 ex (abs_path dbl) (abs_path l) tree u) by (apply (snapshot_cur _ _ _ _ _ v1); [exact Du|rewrite Hu; apply incl_refl|exact Sn1]).
    destruct (restore_files w0 _ _ _ _ _ _ _ _ u v2 Snu ltac:(rewrite Hu; exact NC1) ltac:(rewrite locate_abs; exact Ls) ltac:(rewrite Fu, Fsv1; exact Ov) (abs_noparent _) C) as (Rest & Out & On).
    rewrite !locate_abs, Fu, Fsv1 in Rest. rewrite locate_abs, Fu, Fsv1 in Out. split.
    { destruct On as (t1 & r1 & f1 & ->). destruct T as (t2 & r2 & ->). cbn in Ow'. congruence. }
    assert (Keep : w_hashed v' = w_hashed v /\ db_at (w_dbs v') (db_file e d) = db).
    { destruct On as (t1 & r1 & f1 & ->). destruct T as (t2 & r2 & ->). split; [rewrite Hw'; exact Hv1|]. change (w_conn _) with (w_conn v1) in Dw'. rewrite Cnv1 in Dw'. rewrite <- Cuv1. exact Dw'. }
    cut (restored ex dbl l (w_fs w0) (w_fs v) (w_fs v')); [intro Cut; split; [exact Cut|exact Keep]|].
    rewrite Sw'. assert (NCu : no_coll (w_hashed u)) by (rewrite Hu; exact NC1). assert (Pu := snapshot_places _ _ _ _ _ _ Snu NCu). cbv zeta in Pu. rewrite !locate_abs in Pu.
    destruct (checkout_outcome _ _ _ _ _ u v2 (snapshot_regular _ _ _ _ _ _ Snu NCu) ltac:(rewrite Fu, Fsv1; exact Ov) (abs_noparent _) C) as (Oc & _). rewrite !locate_abs, Fu, Fsv1 in Oc.
    assert (Alone : forall r en, lookup (w_fs v) (l ++ r) = Some en -> en <> ESpecial -> spared ex dbl (w_fs v) u tree (abs_path l) l r -> left_alone ex dbl l (w_fs w0) r).
    { intros r en Cv Ne (r1 & m & r2 & -> & Dr & Ab & X). exists r1, m, r2. split; [reflexivity|]. split; [apply (proj1 (Pu r1)), Dr|]. destruct X as [X|X]; [exact X|exfalso].
      destruct r2 as [|a r2]; [rewrite Cv in X; congruence|]. replace (l ++ r1 ++ m :: a :: r2) with ((l ++ r1 ++ [m]) ++ a :: r2) in Cv by (rewrite <- !app_assoc; reflexivity).
      rewrite closed_none in Cv; [discriminate|apply fs_ok_closed, Ov|rewrite X; discriminate|discriminate]. }
    assert (Spare : forall r, left_alone ex dbl l (w_fs w0) r -> spared ex dbl (w_fs v) u tree (abs_path l) l r /\ absent u tree r).
    { intros r (r1 & m & r2 & -> & Cm & X).
      assert (Ab : forall q, absent u tree (r1 ++ m :: q)).
      { intro q. apply (proj2 (proj2 (Pu (r1 ++ m :: q)))). intros [_ In]. apply (In (r1 ++ [m]) q); [rewrite <- app_assoc; reflexivity|apply snoc_not_nil|exact X]. }
      split; [|apply Ab]. exists r1, m, r2. split; [reflexivity|]. split; [apply (proj1 (Pu r1)), Cm|]. split; [apply Ab|]. left. exact X. }
    split; [|split; [|exact Out]].
    - intros r c. rewrite Rest. apply or_iff_compat_l. split.
      + intros (Sp & _ & Cv). split; [exact Cv|]. unfold content in Cv. destruct (lookup (w_fs v) (l ++ r)) as [en|] eqn:L; [|discriminate]. apply (Alone r en L); [intros ->; discriminate|exact Sp].
      + intros (Cv & La). destruct (Spare r La) as [Sp Ab]. auto.
    - intro r. destruct (Oc r) as [(D & L & L')|[(b & Fb & L')|[(Ab & Sp & L')|(Ab & Sp & L')]]].
      + split; [intros _; left; apply (proj1 (Pu r)), D|intros _; exact L'].
      + assert (Nd' : ~ dir_at u tree r).
        { intros (k1 & i1 & K1 & I1 & T1). destruct Fb as (k2 & i2 & h & rest & K2 & I2 & T2 & _). pose proof (at_path_fun u tree r (snapshot_regular _ _ _ _ _ _ Snu NCu) k1 k2 K1 K2) as ->. pose proof (item_fun _ _ _ _ I1 I2) as ->. congruence. }
        split.
        * intro Q. unfold content in L'. rewrite Q in L'. discriminate.
        * intros [Cm|[_ La]]; [destruct Nd'; apply (proj1 (Pu r)), Cm|]. destruct (file_absent _ _ _ _ Fb (proj2 (Spare r La))).
      + rewrite L'. split.
        * intro Q. right. split; [exact Q|]. apply (Alone r EDir Q); [discriminate|exact Sp].
        * intros [Cm|[Q _]]; [|exact Q]. destruct (dir_absent u tree r); [apply (proj1 (Pu r)), Cm|exact Ab].
      + rewrite L'. split; [discriminate|]. intros [Cm|[_ La]]; [|destruct Sp; apply Spare, La]. destruct (dir_absent u tree r); [apply (proj1 (Pu r)), Cm|exact Ab].
  Qed.

  (** What a commit leaves behind, whatever happens later. *)
  Lemma commit_stays cm w e d db n m : well_used w -> quiet_disk w -> stands_in cm w e d db -> head_named db n -> globs_ok cm ->
    let l := e ++ removelast d in let dbl := e ++ d in let ex := cm_exclude cm in
    can_store ex (abs_path dbl) (abs_path l) w -> (lenN m < 2 ^ 62)%N -> utf8_valid m = true ->
    exists w', run_process cm (CCommit None m None) w = (Some 0%N, w') /\ w_out w' = w_out w /\ w_fs w' = w_fs w /\ well_used w' /\
      (no_coll (w_hashed w') -> exists w0 k tree, w_fs w0 = w_fs w /\ history n None (repo_of (db_at (w_dbs w') (db_file e d))) = k :: history n None (repo_of db) /\
         rp_head (repo_of (db_at (w_dbs w') (db_file e d))) = Some n /\
         forall v v1, later (db_file e d) w' v -> cur_db v1 = db_at (w_dbs v) (db_file e d) -> w_hashed v1 = w_hashed v ->
           snapshot w0 ex (abs_path dbl) (abs_path l) tree v1 /\ is_commit v1 k (Commit tree (firstn 1 (history n None (repo_of db))) (Attrs m []))).
  Proof.
    intros U Qd (F & Ct & O & Rp) (Hn & Un) G l dbl ex Cs Lm Um. pose proof Rp as (Cp & Nd & _).
    destruct (start_found cm w e d db F (there_place _ Ct) Rp) as (w1 & S & F1 & C1 & D1 & O1 & Cn1 & Cu1 & H1 & Fs1). specialize (Fs1 Ct). fold l dbl in S. set (s := DsState (abs_path dbl) (abs_path l)) in *.
    destruct (proj2 (commit_exactly cm w s w1 None m None (used_reachable _ U) S ltac:(unfold quiet_disk; rewrite Fs1; auto; destruct Qd as (_ & _ & Mo); auto) Lm)) as [w2 R2].
    { split; [exact G|]. split; [intros _; exists n; rewrite Cu1; auto|]. unfold can_store in *. cbn [ds_folder ds_repo s]. rewrite Fs1, C1. exact Cs. }
    destruct (process_live cm _ w (Some s) w1 w2 F S R2) as (w' & P & Ow & Fw & Sw & Cw & Hw & _ & Dw). specialize (Dw s eq_refl).
    pose proof (commit_quiet _ _ _ _ _ _ _ _ R2) as O2.
    assert (Fs2 : w_fs w2 = w_fs w1) by (pose proof (files_kept cm s (CCommit None m None) eq_refl w1) as X; rewrite R2 in X; apply X).
    exists w'. split; [exact P|]. split; [congruence|]. split; [congruence|]. split.
    { replace w' with (snd (run_process cm (CCommit None m None) w)) by (rewrite P; reflexivity). apply wu_process; [exact U|].
      intros st x Sx. unfold starts in S, Sx. rewrite S in Sx. injection Sx as <- <-. rewrite Fs1. split; [exact O|exact Um]. }
    rewrite Hw. intro NC2. assert (AF : attrs_fits (Attrs m [])).
    { split; [eapply N.lt_trans; [exact Lm|reflexivity]|]. split; [exact Um|]. apply wf_map. split; [reflexivity|constructor]. }
    destruct (commit_works cm w s w1 None m None w2 (used_reachable _ U) S ltac:(rewrite Fs1; exact O) R2 NC2 AF) as (name & tree & k & w0 & N & F0 & C0 & Sn & Ic & One & _ & _ & Cn2).
    cbn [branch_of ds_folder ds_repo s] in N, Sn. pose proof (push_branches _ _ _ _ One) as [Hi _]. destruct One as (_ & Hdk & _). rewrite Cu1 in *. assert (name = n) as -> by congruence.
    rewrite Cn2, Cn1 in Dw. change (e ++ d ++ [str "snapcd.db"]) with (db_file e d) in Dw. rewrite Dw.
    exists w0, k, tree. split; [congruence|]. split; [exact Hi|]. split; [congruence|].
    intros v v1 La Cv Hv. pose proof (later_hashed _ _ _ La) as Ih. pose proof (proj1 (later_grows _ _ _ La)) as Gr. rewrite Dw in Gr.
    assert (SS : still_stored w2 v1) by (intros h x X; rewrite Cv; apply Gr, X). split; [|exact (still_commit _ _ _ _ SS Ic)].
    eapply snapshot_kept; [exact Sn|]. split; [exact SS|]. rewrite Hv, <- Hw. exact Ih.
  Qed.

  (** C79 *)
  Theorem back_again cm w e d db n m : well_used w -> quiet_disk w -> stands_in cm w e d db -> head_named db n -> globs_ok cm ->
    let l := e ++ removelast d in let dbl := e ++ d in let ex := cm_exclude cm in
    can_store ex (abs_path dbl) (abs_path l) w -> lossless_below (w_fs w) l -> in_home l -> (lenN m < 2 ^ 62)%N -> utf8_valid m = true ->
    exists w', run_process cm (CCommit None m None) w = (Some 0%N, w') /\ w_out w' = w_out w /\ w_fs w' = w_fs w /\ well_used w' /\
      (no_coll (w_hashed w') -> exists k, history n None (repo_of (db_at (w_dbs w') (db_file e d))) = k :: history n None (repo_of db) /\
         (forall v db1 n1 r, later (db_file e d) w' v -> well_used v -> stands_in cm v e d db1 -> no_coll (w_hashed v) -> length (d_data db1) <= stack ->
            head_named db1 n1 -> history n1 None (repo_of db1) = k :: r -> room_for ex dbl l (w_fs w) (w_fs v) ->
            exists v', run_process cm CCheckout v = (Some 0%N, v') /\ w_out v' = w_out v /\ restored ex dbl l (w_fs w) (w_fs v) (w_fs v')) /\
         (forall v db1 n1 ki, later (db_file e d) w' v -> well_used v -> stands_in cm v e d db1 -> no_coll (w_hashed v) -> head_named db1 n1 -> taken_for cm v ki k ->
            exists u, run_process cm (CRefUpdate ki None) v = (Some 0%N, u) /\ w_fs u = w_fs v /\ w_out u = w_out v /\
              forall u1 db2, outside u u1 -> stands_in cm u1 e d db2 -> length (d_data db2) <= stack -> no_coll (w_hashed u1) -> room_for ex dbl l (w_fs w) (w_fs u1) ->
              exists u2, run_process cm CCheckout u1 = (Some 0%N, u2) /\ w_out u2 = w_out u1 /\ restored ex dbl l (w_fs w) (w_fs u1) (w_fs u2))).
  Proof.
    intros U Qd Std Hn G l dbl ex Cs Ls Home Lm Um.
    destruct (commit_stays cm w e d db n m U Qd Std Hn G Cs Lm Um) as (w' & P & Ow & Sw & Uw & K). exists w'. split; [exact P|]. split; [exact Ow|]. split; [exact Sw|]. split; [exact Uw|].
    intro NC. destruct (K NC) as (w0 & k & tree & F0 & Hi & _ & Stay). fold l dbl ex in Stay. exists k. split; [exact Hi|].
    assert (Main : forall v db1 n1 r, later (db_file e d) w' v -> well_used v -> stands_in cm v e d db1 -> no_coll (w_hashed v) -> length (d_data db1) <= stack ->
            head_named db1 n1 -> history n1 None (repo_of db1) = k :: r -> room_for ex dbl l (w_fs w) (w_fs v) ->
            exists v', run_process cm CCheckout v = (Some 0%N, v') /\ w_out v' = w_out v /\ restored ex dbl l (w_fs w) (w_fs v) (w_fs v')).
    { intros v db1 n1 r La Uv Sv NCv De Hn1 Hi1 Room. rewrite <- F0 in *. destruct (snapshot_back cm v e d db1 n1 w0 tree) as (v' & X1 & X2 & X3 & _); try assumption; [|exists v'; auto].
      intros v1 Cv Hv. pose proof Sv as (_ & _ & _ & Rpv). pose proof (at_file _ _ _ _ _ Rpv) as Af. destruct (Stay v v1 La ltac:(congruence) Hv) as [Sn Ic]. split; [exact Sn|].
      exists n1. rewrite Cv. split; [apply Hn1|]. eexists k, r, _. split; [exact Hi1|]. split; [apply commit_reads, Ic|reflexivity]. }
    split; [exact Main|].
    intros v db1 n1 ki La Uv Sv NCv Hn1 Tk. pose proof Sv as (Fv & Ctv & Ov & Rpv). pose proof (at_file _ _ _ _ _ Rpv) as Af.
    destruct (start_found cm v e d db1 Fv (there_place _ Ctv) Rpv) as (v1 & S1 & Fv1 & Cv1 & Dv1 & Ov1 & Cnv1 & Cuv1 & Hv1 & Fsv1). specialize (Fsv1 Ctv). fold l dbl in S1. set (s := DsState (abs_path dbl) (abs_path l)) in *.
    pose proof (Tk _ _ S1) as Dn.
    destruct (ref_update_live cm v s v1 ki None n1 k (used_reachable _ Uv) S1 Fv Dn) as [v2 R2]; [cbn [branch_of]; rewrite Cuv1; apply Hn1|intros _; apply Hn1|].
    destruct (ref_update_works cm v s v1 ki None v2 (used_reachable _ Uv) S1 R2) as (n1' & k' & Bn & Dn' & Pu & (Fq & Cq & Nq & Oq)). pose proof (denotes_fun _ _ _ _ Dn Dn') as ->. cbn [branch_of] in Bn. rewrite Cuv1 in Bn, Pu. assert (n1' = n1) as -> by (destruct Hn1; congruence).
    destruct (process_live cm _ v (Some s) v1 v2 Fv S1 R2) as (u & Pr & Ou & Fu & Su & Cu & Hu & _ & Du). specialize (Du s eq_refl). rewrite Nq, Cnv1 in Du. change (e ++ d ++ [str "snapcd.db"]) with (db_file e d) in Du.
    exists u. split; [exact Pr|]. split; [congruence|]. split; [congruence|].
    intros u1 db2 Out Su1 De NCu Room.
    assert (Uu : well_used u1).
    { apply (wu_outside u); [|exact Out]. replace u with (snd (run_process cm (CRefUpdate ki None) v)) by (rewrite Pr; reflexivity). apply wu_process; [exact Uv|].
      intros st x Sx. unfold starts in S1, Sx. rewrite S1 in Sx. injection Sx as <- <-. rewrite Fsv1. split; [exact Ov|]. intros k1 D1. pose proof (denotes_fun _ _ _ _ Dn D1) as ->.
      destruct (Stay v v1 La ltac:(congruence) Hv1) as [_ (o & R & Ty & _)]. exists o. split; [apply reads_object, R|exact Ty]. }
    assert (Th : exists c st, lookup (w_fs v) (db_file e d) = Some (EFile c st)) by (destruct Rpv as (_ & _ & _ & _ & _ & X & _); exact X).
    assert (La1 : later (db_file e d) w' u1).
    { apply (later_outside _ _ u); [|exact Out]. replace u with (snd (run_process cm (CRefUpdate ki None) v)) by (rewrite Pr; reflexivity). apply later_process; [exact La|exact Th]. }
    assert (Q2 : db2 = cur_db v2) by (pose proof Su1 as (_ & _ & _ & Rp2); pose proof (at_file _ _ _ _ _ Rp2) as A2; destruct Out as [Od _]; congruence).
    assert (H2 : head_named db2 n1 /\ history n1 None (repo_of db2) = k :: history n1 None (repo_of db1)).
    { destruct Pu as (_ & Ph & Pl). rewrite Q2. unfold head_named in *. rewrite Ph. split; [exact Hn1|]. rewrite (pushed_history _ _ _ _ _ Pl). unfold pushed_under. cbn [ph_name ph_remote]. rewrite bytes_eqb_refl. reflexivity. }
    destruct H2 as [Hn2 Hi2]. exact (Main u1 db2 n1 _ La1 Uu Su1 NCu De Hn2 Hi2 Room).
  Qed.
End RestoreFacts.
