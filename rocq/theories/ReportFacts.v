(** When [show] reports a file that is not text, and when it panics. *)
From Coq Require Import Sorted RelationClasses.
From Verif Require Import Base BaseFacts TableFacts Key KeyFacts Keyish Cbor Object Path World WorldFacts Store File Filter Dir Diff Commit Pretty Main SpecKey SpecResolve SpecStore StoreCalls SpecRun SpecProc SpecCmd SpecFile SpecDir SpecCache SpecDiff SpecPatch SpecShow SpecOut SpecClosure SpecShape SpecLive SpecFatal SpecFetch SpecPanic SpecScreen SpecText Screen SpecReport
  Frame DbRel Closure Integrity StoreFacts ProcFacts InitFacts ObjStoreFacts SessionFacts FilePlan FileFacts FsFacts DirPlan DirFacts DiffFacts CmdFacts FileRun DirLive Ends ResolveFacts QueryFacts Reader ShowFacts OutFacts ShapeFacts ShapeTop LiveCmd LiveFetch LiveRead LiveStart FatalFacts FatalCmd SparedFacts PanicFacts.

Section ReportFacts.
  Context {E : Env}.
  Notation ds := sqlite_ds.
  Notation rdr := (reader anything).

  Lemma gives_ext {A} (m m' : M A) d r : (forall w, m w = m' w) -> gives m d r -> gives m' d r.
  Proof. intros Q (o & C). exists o. intros w F Cd. rewrite <- Q. apply C; assumption. Qed.
  Lemma gives_fail {A} e d : gives (@fail A e) d (Error e).
  Proof. exists []. intros w F _. exists w. split; [reflexivity|]. split; [apply shown_refl|exact F]. Qed.
  Lemma display_gives f k kd w c r : is_commit w k c -> gives (rest_of c kd) (cur_db w) r -> gives (display_obj ds (S f) k kd) (cur_db w) r.
  Proof.
    intros (o & Ro & To & Co) G. apply gives_get in Ro. apply unwrap_pure in Ro. eapply gives_ext; [intro v; symmetry; apply display_eq|].
    eapply gives_bind; [exact Ro|]. rewrite To. eapply gives_bind; [apply gives_print|]. eapply gives_bind; [apply unwrap_pure, gives_commit_of, Co|].
    do 3 (eapply gives_bind; [apply gives_print|]). exact G.
  Qed.
  (** Each call works, or gives the same error. *)
  Lemma gives_mapM {A B} (f : A -> M B) e d l : (forall x, rdr (f x)) -> (forall x, In x l -> works (f x) d \/ gives (f x) d (Error e)) ->
    works (mapM f l) d \/ gives (mapM f l) d (Error e) /\ exists x, In x l /\ gives (f x) d (Error e).
  Proof.
    intro R. induction l as [|x l IH]; intro H; cbn [mapM]; [left; apply works_ret|].
    destruct (H x (or_introl eq_refl)) as [(y & G)|G].
    - destruct IH as [(ys & Gs)|[Gs (z & I & Gz)]]; [intros z I; apply H; right; exact I| |].
      + left. eexists. eapply gives_bind; [exact G|]. eapply gives_bind; [exact Gs|apply gives_ret].
      + right. split; [|exists z; split; [right; exact I|exact Gz]]. eapply gives_bind; [exact G|]. eapply gives_stop; [exact Gs|reflexivity].
    - right. split; [|exists x; split; [left; reflexivity|exact G]]. eapply gives_stop; [exact G|reflexivity].
  Qed.
  Lemma whole_gives w p k mk b bs : stored_bytes w k bs -> utf8_valid bs = false -> gives (whole_file ds false p (Some k) mk b) (cur_db w) (Error EBinary).
  Proof. intros S V. unfold whole_file. eapply gives_bind; [apply stored_gives, S|]. rewrite V. apply gives_fail. Qed.
  Lemma blunt_gives {A} (P : A -> Prop) (m : M A) w e : blunt (cur_db w) P m -> ~ gives m (cur_db w) (Error e).
  Proof.
    intros B (o & C). assert (Z : cur_db (set_faults w []) = cur_db w) by (destruct w; reflexivity). specialize (B (set_faults w []) Z). destruct (C (set_faults w []) eq_refl Z) as (w' & Q & _). rewrite Q in B. exact B.
  Qed.
  Section At.
    Context (w : world) (Sh : shp (cur_db w)) (Fu : full (cur_db w)) (L : length (d_data (cur_db w)) + 1 < stack).
    Let De : deep_enough w.
    Proof. unfold deep_enough. lia. Qed.
    Lemma patch_outcome r new old : db_result w (Some new) old r -> points (cur_db w) Item new ->
      (gives (print_patch_diff_result ds r) (cur_db w) (Error EBinary) /\
       exists x k bs, in_tree w new x k false /\ (forall k' d', ~ tree_of w old x k' d') /\ stored_bytes w k bs /\ utf8_valid bs = false) \/
      ((forall e, ~ gives (print_patch_diff_result ds r) (cur_db w) (Error e)) /\
       forall x k bs, in_tree w new x k false -> (forall k' d', ~ tree_of w old x k' d') -> stored_bytes w k bs -> utf8_valid bs = true).
    Proof.
      intros (D0 & Da & Dm & _) P. cbn [tree_of] in Da.
      set (f := fun x => whole_file ds (ad_isdir x) (ad_path x) (ad_key x) LAdd true).
      assert (Rf : forall x, rdr (f x)) by (intro; apply rd_whole).
      assert (C : forall a, In a (df_added r) -> works (f a) (cur_db w) \/ gives (f a) (cur_db w) (Error EBinary) /\
        exists x k bs, in_tree w new x k false /\ (forall k' d', ~ tree_of w old x k' d') /\ stored_bytes w k bs /\ utf8_valid bs = false).
      { intros a Ia. apply Da in Ia as (x & k & d & T & N & ->). unfold f. cbn [ad_isdir ad_path ad_key]. destruct d; [left; apply works_ret|].
        destruct (bytes_stored w k Sh Fu De (proj2 (tree_kind _ _ _ _ _ Sh P T))) as (bs & Sb). destruct (utf8_valid bs) eqn:V.
        - left. apply works_whole. eauto.
        - right. split; [eapply whole_gives; eassumption|]. exists x, k, bs. auto. }
      destruct (gives_mapM f EBinary (cur_db w) (df_added r) Rf) as [(a & G)|[G (z & I & Gz)]].
      - intros x I. destruct (C x I) as [X|[X _]]; auto.
      - right. split.
        + intros e Ge. unfold print_patch_diff_result, create_diff_patch_result in Ge. fold f in Ge. rewrite D0 in Ge. cbn [mapM] in Ge.
          revert Ge. intros (o & Co). assert (Z : cur_db (set_faults w []) = cur_db w) by (destruct w; reflexivity). destruct (Co (set_faults w []) eq_refl Z) as (w' & Q & _).
          destruct G as [o' G]. destruct (G (set_faults w []) eq_refl Z) as (w1 & Q1 & S1 & F1). rewrite bind_assoc, (run_bind _ _ _ _ _ Q1) in Q. clear Q1 Co C G.
          match type of Q with ?m w1 = _ => assert (B : blunt (cur_db w) any m) end.
          { eapply (blunt_bind _ any); [|intros; apply blunt_print]. eapply (blunt_bind _ any); [apply blunt_ret; exact I|intros ? _]. eapply (blunt_bind _ any); [|intros; apply blunt_ret; exact I]. apply blunt_mapM. intro m.
            eapply blunt_bind; [apply blunt_vec; assumption|intros b _]. eapply blunt_bind; [apply blunt_vec; assumption|intros b' _]. unfold patch_from_file_string. destruct (hunks_of _); [apply blunt_ret; exact I|apply blunt_panic]. }
          specialize (B w1). rewrite (shown_cur _ _ _ S1) in B. specialize (B Z). rewrite Q in B. exact B.
        + intros x k bs T N Sb. destruct (utf8_valid bs) eqn:V; [reflexivity|exfalso]. assert (W : works (mapM f (df_added r)) (cur_db w)) by (exists a; exact G). rewrite works_mapM in W by exact Rf.
          destruct (W (Added (named x) false (Some k))) as (y & Gy); [apply Da; exists x, k, false; auto|]. pose proof (gives_fun _ _ _ _ Gy (whole_gives w (named x) k LAdd true bs Sb V)) as Q. discriminate Q.
      - left. split; [|destruct (C z I) as [(y & W)|[_ X]]; [pose proof (gives_fun _ _ _ _ W Gz) as Q; discriminate Q|exact X]].
        unfold print_patch_diff_result, create_diff_patch_result. fold f. eapply gives_stop; [eapply gives_stop; [exact G|reflexivity]|reflexivity].
    Qed.
    Lemma base_fun c to to' : base_tree w c to -> base_tree w c to' -> to = to'.
    Proof. intros B B'. apply gives_base in B, B'. pose proof (gives_fun _ _ _ _ B B') as Q. injection Q. auto. Qed.
    Lemma commit_fun k c c' : is_commit w k c -> is_commit w k c' -> c = c'.
    Proof. intros (o & R & _ & C) I. eapply reads_is; [exact I|]. exists o. split; [exact R|exact C]. Qed.
    Lemma display_outcome f k c : is_commit w k c ->
      (gives (display_obj ds (S f) k KPatch) (cur_db w) (Error EBinary) /\ brings_binary w k) \/ ((forall e, ~ gives (display_obj ds (S f) k KPatch) (cur_db w) (Error e)) /\ ~ brings_binary w k).
    Proof.
      intro Ic. destruct (has_base _ _ _ Sh Ic) as [to B]. destruct (commit_formed _ _ _ Sh Ic) as [Pt _]. pose proof (base_item _ _ _ _ Sh Ic B) as Pb. pose proof (commit_tidy _ _ _ Sh Ic) as [T1 T2].
      assert (Un : brings_binary w k -> (forall x k' d, tree_of w to x k' d -> exists k'' d', in_tree w (c_tree c) x k'' d') /\
         exists x k' bs, in_tree w (c_tree c) x k' false /\ (forall k'' d', ~ tree_of w to x k'' d') /\ stored_bytes w k' bs /\ utf8_valid bs = false).
      { intros (c' & to' & Ic' & B' & H). rewrite <- (commit_fun _ _ _ Ic Ic') in *. rewrite <- (base_fun _ _ _ B B') in *. exact H. }
      assert (Out : forall r, gives (rest_of c KPatch) (cur_db w) r -> gives (display_obj ds (S f) k KPatch) (cur_db w) r) by (intro r; apply display_gives, Ic).
      assert (Not : (forall e, ~ gives (rest_of c KPatch) (cur_db w) (Error e)) -> forall e, ~ gives (display_obj ds (S f) k KPatch) (cur_db w) (Error e)).
      { intros H e G. destruct (gives_total (rest_of c KPatch) (cur_db w) (rd_rest c KPatch)) as [r Gr]. pose proof (gives_fun _ _ _ _ G (Out r Gr)) as <-. exact (H e Gr). }
      destruct (compare_gives w (c_tree c) to T1 (T2 _ B)) as [((x & k' & d & T & N) & G)|(A & r & G & D)].
      - apply tree_walkable; assumption.
      - destruct to; [apply tree_walkable; assumption|exact I].
      - right. split.
        + apply Not. intros e Ge. apply gives_unwrap in G. cbn [unwrapped] in G.
          assert (Q : gives (rest_of c KPatch) (cur_db w) (Panicked PIndex)).
          { unfold rest_of. eapply gives_bind; [apply gives_base, B|]. eapply gives_stop; [exact G|reflexivity]. }
          pose proof (gives_fun _ _ _ _ Ge Q) as Z. discriminate Z.
        + intro Bb. destruct (Un Bb) as [H _]. destruct (H _ _ _ T) as (k'' & d' & T'). exact (N _ _ T').
      - assert (Gr : forall r', gives (print_patch_diff_result ds r) (cur_db w) r' -> gives (rest_of c KPatch) (cur_db w) r').
        { intros r' X. unfold rest_of. eapply gives_bind; [apply gives_base, B|]. eapply gives_bind; [apply unwrap_pure, G|exact X]. }
        destruct (patch_outcome r (c_tree c) to D Pt) as [[X H]|[X H]].
        + left. split; [apply Out, Gr, X|]. exists c, to. auto.
        + right. split.
          * apply Not. intros e Ge. destruct (gives_total (print_patch_diff_result ds r) (cur_db w)) as [r' G']; [apply (rd_kind KPatch)|]. pose proof (gives_fun _ _ _ _ Ge (Gr _ G')) as <-. exact (X e G').
          * intro Bb. destruct (Un Bb) as [_ (x & k' & bs & T & N & Sb & V)]. rewrite (H _ _ _ T N Sb) in V. discriminate V.
    Qed.
  End At.

  Theorem show_exits cm w s w1 k key : well_used w -> w_faults w = [] -> starts cm w (Some s) w1 -> no_coll (w_hashed w1) ->
    length (d_data (cur_db w1)) + 1 < stack -> can_ask w1 k -> asked_for w1 k key ->
    (viewable w1 key -> exists w2 w', run_command cm (Some s) (CShow k) w1 = (Done tt, w2) /\ run_process cm (CShow k) w = (Some 0%N, w') /\ w_out w' = w_out w2) /\
    (brings_binary w1 key -> exists w2 w' e, run_command cm (Some s) (CShow k) w1 = (Error e, w2) /\ run_process cm (CShow k) w = (Some 0%N, w') /\ w_out w' = Printed "fatal:" [] :: w_out w2) /\
    (~ viewable w1 key -> ~ brings_binary w1 key -> exists w', run_process cm (CShow k) w = (Some 101%N, w')).
  Proof.
    intros U F St NC L Ca A. destruct (used_started _ _ _ _ U St) as [W T]. pose proof (typed_cur _ T NC) as Sh. pose proof (started_full _ _ _ _ (used_reachable _ U) St) as Fu.
    assert (De : deep_enough w1) by (unfold deep_enough; lia). assert (Lc : length (d_data (cur_db w1)) < stack) by lia. pose proof Ca as [F1 Hu]. destruct (asked_live w1 k key W F1 Hu A) as (v & Hk & Tk & Fv). pose proof (cur_ticked _ _ Tk) as Cv.
    assert (Rd : rdr (display_obj ds stack key KPatch)) by (apply (rd_display anything (fun _ => I) (fun _ => I) (fun _ => I))).
    assert (Hh : k = None -> has_head w1).
    { intro Q. eapply asked_text; eassumption. }
    destruct (show_exactly_all cm w s w1 k U St NC Lc F1) as [_ Vw].
    assert (Run : run_command cm (Some s) (CShow k) w1 = display_obj ds stack key KPatch v).
    { cbn [run_command with_ds]. unfold cmd_show. rewrite (run_bind _ _ _ _ _ Hk). reflexivity. }
    split; [|split].
    - intro V. destruct Vw as (w2 & R); [split; [exact Hh|eauto]|]. destruct (process_live cm (CShow k) w (Some s) w1 w2 F St R) as (w' & Pp & Rest). exists w2, w'. split; [exact R|]. split; [exact Pp|]. apply Rest.
    - intro Bb. pose proof Bb as (c & to & Ic & _). pose proof Ic as (o & R & _). apply reads_object in R. destruct (stack_pos _ _ _ De R) as [f Sf].
      destruct (display_outcome w1 Sh Fu L f key c Ic) as [[(o' & G) _]|[_ N]]; [|destruct (N Bb)]. rewrite <- Sf in G. destruct (G v Fv Cv) as (w2 & Q & _). rewrite <- Run in Q.
      destruct (calm_setup _ _ _ _ St F) as [_ C1]. pose proof (calm_command cm (Some s) (CShow k) w1 F1) as [F2 C2]. rewrite Q in F2, C2. cbn [snd] in F2, C2. specialize (C2 C1).
      destruct (finish_fatal (Some s) EBinary w2 F2 C2) as (w3 & Fi & F3 & O3 & _). exists w2, (close_all w3), EBinary. split; [exact Q|]. split; [|exact O3].
      unfold run_process. rewrite main_split. pose proof St as S. unfold starts in S. rewrite (run_bind _ _ _ _ _ S). unfold bind, try. rewrite Q, Fi. reflexivity.
    - intros NV NB. destruct (run_command cm (Some s) (CShow k) w1) as [r w2] eqn:R. pose proof (spared_command cm (Some s) (CShow k) w1 F1) as [Sp _]. rewrite R in Sp. cbn [fst] in Sp.
      destruct (ends_display (cur_db w1) Fu L stack key KPatch L v Cv) as [Dv _]. rewrite <- Run in Dv.
      destruct r as [[]|e|p| |]; try contradiction; [exfalso|exfalso|eexists; eapply process_panics; eassumption].
      + apply NV. destruct (proj1 (show_exactly_all cm w s w1 k U St NC Lc F1)) as [_ (key' & A' & V)]; [eauto|]. assert (key' = key) as ->; [|exact V].
        destruct (asked_live w1 k key' W F1 Hu A') as (v' & Hk' & _). congruence.
      + destruct (object_at (cur_db w1) (as_db_key key)) as [o|] eqn:O.
        * pose proof (formed _ _ _ Sh O) as Wf. unfold well_formed in Wf. destruct (o_type o) eqn:To; try (destruct Wf; fail).
          all: try (apply NV; left; exists o; split; [exact O|]; cbn; auto; fail). all: try (apply NV; right; left; exists o; split; [exact O|]; cbn; auto; fail).
          assert (Pv : points (cur_db w1) Version key) by (exists o; split; [exact O|exact To]). destruct (version_commit _ _ Sh Pv) as [c Ic]. destruct (stack_pos _ _ _ De O) as [f Sf].
          destruct (display_outcome w1 Sh Fu L f key c Ic) as [[_ Bb]|[N _]]; [exact (NB Bb)|]. apply (N e). rewrite <- Sf. destruct (gives_total _ (cur_db w1) Rd) as [r G]. pose proof G as (o' & C).
          destruct (C v Fv Cv) as (v' & Q & _). rewrite <- Run in Q. injection Q as <- _. exact G.
        * pose proof (blunt_object (cur_db w1) key v Cv) as Bo. destruct stack as [|f]; [lia|]. cbn [display_obj] in Run. unfold bind at 1 in Run.
          destruct (unwrap (get_obj ds key) v) as [[o|e'| | |] v'] eqn:Q; try contradiction; try discriminate Run. destruct Bo as [_ Bo]. congruence.
  Qed.
End ReportFacts.
