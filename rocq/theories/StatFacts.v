(** How [compare --stat] ends. *)
From Coq Require Import RelationClasses.
From Verif Require Import Base BaseFacts TableFacts Key KeyFacts Keyish Cbor CborFacts Object ObjectFacts Path World WorldFacts Store File Filter Dir Diff Commit Main SpecStore StoreCalls SpecRun SpecProc SpecCmd SpecFile SpecDir SpecCache SpecDiff SpecShape SpecLive SpecStoring SpecLooking
  SpecClosure Closure Frame DbRel Integrity StoreFacts ProcFacts InitFacts ObjStoreFacts SessionFacts FilePlan FileFacts ChunkFacts FileRun FsFacts DirPlan DirFacts GetFacts DirTrip FetchSafe DirTree DirWalk WalkFacts DirLive CacheFacts HashFacts CompareFacts DiffFacts CheckoutFacts
  Reader SpecPatch SpecShow SpecOut SpecText CmdFacts OutFacts SnapFacts ShowFacts ShapeFacts ShapeTop LiveFacts LiveDiff LiveCmd LiveStart FatalFacts FatalCmd SparedFacts PanicFacts StoringFacts Ends LiveStat LookingFacts.

Section StatFacts.
  Context {E : Env}.
  Notation ds := sqlite_ds.
  Theorem stat_ends cm w s w1 p k t : well_used w -> w_faults w = [] -> starts cm w (Some s) w1 -> at_rest w1 -> deep_enough w1 -> cache_kept (cur_cache w1) (cur_db w1) ->
    let q := match p with Some x => x | None => ds_repo s end in let c := CCompare p k true in
    looks_at s w1 (CCompare p k false) q (Some t) ->
    let w2 := snd (run_command cm (Some s) c w1) in no_coll (w_hashed w2) -> length (d_data (cur_db w2)) + 1 < stack ->
    let ex := cm_exclude cm in let fo := ds_folder s in let dbl := locate (w_cwd w1) fo in let l := locate (w_cwd w1) q in
    (~ globs_ok cm -> exists w', run_process cm c w = (Some 101%N, w')) /\
    (globs_ok cm ->
      (0 < stack -> ~ directory w1 q -> says_fatal cm c (Some s) w w1) /\
      (directory w1 q -> shallow (w_fs w1) l ->
        does_it cm c (Some s) w w1 /\ comparable ex fo q w1 (Some t) /\ no_file_for_dir ex fo q w1 t \/
        says_fatal cm c (Some s) w w1 /\ strange ex dbl (w_fs w1) q l \/
        (exists w', run_process cm c w = (Some 101%N, w')) /\
          (nowhere ex dbl (w_fs w1) q l \/ lost ex fo q w1 (Some t) \/ astray ex fo q w1 (Some t) \/ comparable ex fo q w1 (Some t) /\ ~ no_file_for_dir ex fo q w1 t))).
  Proof.
    intros U Fw S Ar De Ck q c (_ & Hh & Nm & t' & Q & Ct) w2 NC2 L2 ex fo dbl l. injection Q as <-.
    assert (NC : no_coll (w_hashed w1)). { eapply coll_incl; [|exact NC2]. apply (files_kept cm s c eq_refl w1). }
    pose proof (starts_there _ _ _ _ S) as Th. destruct (used_started _ _ _ _ U S) as [W Ty]. pose proof (typed_cur _ Ty NC) as Sh.
    pose proof (started_sound _ _ _ _ (used_reachable _ U) S) as So. pose proof (sound_cur _ So) as Fu. pose proof (proj1 (proj1 Ar)) as F.
    destruct (arg_live cm w s w1 U S NC Ar k t Nm Hh Ct) as (v & T & Fv & P & Hk). pose proof (alike_ticked _ _ T) as A. pose proof (cur_ticked _ _ T) as C. pose proof A as (Fs & Cw & _).
    assert (R : run_command cm (Some s) c w1 = bind (compare ds (TFileSystem q ex fo) (Some t)) (print_stat_diff_result ds) v).
    { cbn [run_command with_ds c]. unfold cmd_compare. fold (tree_arg k). rewrite (run_bind _ _ _ _ _ Hk). reflexivity. }
    assert (Er : forall e w2, run_command cm (Some s) c w1 = (Error e, w2) -> says_fatal cm c (Some s) w w1).
    { intros e u X. destruct (calm_setup _ _ _ _ S Fw) as [_ C1]. pose proof (calm_command cm (Some s) c w1 F) as [F2 C2]. rewrite X in F2, C2. cbn [snd] in F2, C2. specialize (C2 C1).
      destruct (finish_fatal (Some s) e u F2 C2) as (w3 & Fi & F3 & O3 & _). exists u, (close_all w3), e. split; [exact X|]. split; [|exact O3].
      unfold run_process. rewrite main_split. pose proof S as S'. unfold starts in S'. rewrite (run_bind _ _ _ _ _ S'). unfold bind, try. rewrite X, Fi. reflexivity. }
    assert (Pa : forall pa w2, run_command cm (Some s) c w1 = (Panicked pa, w2) -> exists w', run_process cm c w = (Some 101%N, w')) by (intros pa u X; eexists; eapply process_panics; eassumption).
    unfold bind in R. split.
    - intro G. assert (X : forallb glob_valid ex = false) by (unfold globs_ok in G; subst ex; destruct (forallb glob_valid (cm_exclude cm)); congruence).
      apply (Pa (PUnwrap None) v). rewrite R, compare_eq. cbn [compare_src]. unfold bind, make_filter_fn. rewrite X. reflexivity.
    - intro G. split.
      + intros Ps N. assert (exists g, stack = Datatypes.S g) as [g Sg] by (destruct stack as [|g]; [lia|eauto]).
        destruct (compare_misses q ex fo (Some t) v g Fv G Sg) as (e & u & X); [unfold directory; rewrite Fs, Cw; exact N|]. rewrite X in R. eapply Er, R.
      + intros Di Sw. pose proof (rest_alike _ _ A Fv Ar) as Arv. pose proof (there_alike _ _ _ A Th) as Thv.
        assert (Tt : tidy_of v (Some t)) by (apply item_tidy; rewrite C; assumption).
        assert (Wt : walkable_of v (Some t)) by (apply tree_walkable; unfold deep_enough; rewrite C; assumption).
        pose proof (compare_ends q ex fo (Some t) v Arv Thv G Tt Wt) as En. unfold directory in En. rewrite Fs, Cw in En. specialize (En Di Sw). apply (ends_alike ex fo q w1 v (Some t) _ C Fs Cw) in En.
        destruct (compare ds (TFileSystem q ex fo) (Some t) v) as [[r|e|pa| |] u] eqn:X; cbn in En.
        * destruct (compare_here q ex fo (Some t) w1 v A Fv Ar Th Sh Fu De P) as [Ne Li]. destruct Ne as [_ Co]; [eauto|].
          destruct (Li (conj G Co)) as (r' & u' & X' & Fu'). rewrite X in X'. injection X' as <- <-.
          pose proof (compare_stat_exactly cm w s w1 p k U S Ar De Ck Nm NC2 ltac:(unfold deep_enough; fold c w2; lia)) as Ex. fold c in Ex. rewrite R in Ex.
          pose proof (spared_stat r u Fu') as [Sp _].
          assert (Fuu : full (cur_db u)). { destruct (calm_compare (TFileSystem q ex fo) (Some t) (fun _ => True) v (sound_ticked _ _ T So) Logic.I) as [Y _]. rewrite X in Y. apply sound_cur, Y. }
          assert (Lu : length (d_data (cur_db u)) + 1 < stack).
          { destruct (ShowFacts.gives_total (print_stat_diff_result ds r) (cur_db u) ltac:(apply Reader.rd_print_stat; intro; exact Logic.I)) as (x & ou & Gv). destruct (Gv u Fu' eq_refl) as (w' & Hw & Sh' & _).
            destruct (shown_same _ _ _ Sh') as [_ Cs]. subst w2. rewrite R, Hw in L2. cbn [snd] in L2. rewrite Cs in L2. exact L2. }
          pose proof (blunt_stat (cur_db u) Fuu Lu r u eq_refl) as B. destruct (ends_print_stat (cur_db u) Fuu Lu r u eq_refl) as [Dv _].
          destruct (print_stat_diff_result ds r u) as [[[]|e|pa| |] w3] eqn:Pr; cbn [fst] in *; try contradiction.
          -- left. assert (N : no_file_for_dir ex fo q w1 t). { destruct Ex as [Ex _]. destruct (Ex eq_refl) as (_ & _ & t0 & Ct0 & _ & N). destruct (arg_live cm w s w1 U S NC Ar k t0 Nm Hh Ct0) as (v0 & _ & _ & _ & Hk0). rewrite Hk in Hk0. injection Hk0 as <- _. exact N. }
             split; [|auto]. destruct (process_live cm c w (Some s) w1 w3 Fw S R) as (w' & Pp & Rest). exists w3, w'. split; [exact R|]. split; [exact Pp|apply Rest].
          -- right. right. split; [eapply Pa, R|]. right. right. right. split; [exact Co|]. intro N. destruct Ex as [_ Ex]. discriminate Ex. split; [exact G|]. split; [exact Hh|]. exists t. auto.
        * right. left. split; [eapply Er, R|exact En].
        * right. right. split; [eapply Pa, R|]. tauto.
        * contradiction.
        * contradiction.
  Qed.
End StatFacts.
