(** What [checkout-head] prints and does. *)
From Coq Require Import RelationClasses Sorted.
From Verif Require Import Base BaseFacts TableFacts Key KeyFacts Keyish Cbor CborFacts Object ObjectFacts Path World WorldFacts Store File Filter Dir Diff Commit Main SpecStore StoreCalls SpecRun SpecProc SpecFile SpecDir SpecClosure
  SpecCache SpecDiff SpecPatch SpecShow SpecOut SpecCmd SpecText SpecShape SpecLive SpecHonest SpecHead Screen SpecScreen Frame DbRel Integrity ObjStoreFacts SessionFacts QueryFacts FilePlan FileFacts ChunkFacts FileRun FsFacts DirPlan DirFacts GetFacts DirTrip DirTree DirWalk
  WalkFacts DirLive CacheFacts HashFacts SortFacts CompareFacts DiffFacts SimplifyFacts LineFacts CheckoutFacts ProcFacts CmdFacts InitFacts Reader OutFacts SnapFacts ShowFacts Closure ShapeFacts ShapeTop LiveFacts LiveDiff LiveCmd LiveStart LiveStat LiveCache LiveStory ScreenFacts HonestFacts.

Section Head.
  Context {E : Env}.
  Notation ds := sqlite_ds.
  #[local] Existing Instances CmdFacts.sound_pre CmdFacts.sound_Rd CmdFacts.sound_Put CmdFacts.sound_Cache.
  Lemma kept_some {A} (get : A -> path) l : by_path get l -> keep_topmost get l = [] -> l = [].
  Proof.
    intros B K. destruct (keep_spec get l B) as (_ & _ & _ & C). destruct l as [|a l]; [reflexivity|exfalso]. destruct B as (rs & Mr & _). destruct rs as [|r rs]; [discriminate Mr|]. cbn in Mr. injection Mr as Q _.
    destruct (C a r (or_introl eq_refl) Q) as (x & (b & I & _) & _); [rewrite K; intros []|]. rewrite K in I. destruct I.
  Qed.
  Lemma clean_report ex fo p w to log r A M : fs_result ex fo p w to log r -> report_of r = report_lists A M -> (diff_result_empty r = true <-> A = [] /\ M = []).
  Proof.
    intros (D & _ & _ & _ & _ & _ & SA & _) Q. assert (X : report_of r = [] <-> diff_result_empty r = true).
    { unfold report_of, report, diff_result_empty, simplify. cbn [df_added df_deleted df_modified]. rewrite D. cbn [keep_topmost fold_left map listing app].
      pose proof (kept_some ad_path _ SA) as K. destruct (df_added r) as [|a l] eqn:Ea.
      - cbn. destruct (df_modified r); cbn; split; intro; try reflexivity; discriminate.
      - destruct (keep_topmost ad_path (a :: l)) as [|b m] eqn:Ek; [specialize (K eq_refl); discriminate|]. cbn. split; discriminate. }
    rewrite <- X, Q. unfold report_lists, report. destruct A as [|[x b] A], M as [|y M]; cbn; split; try (intros [? ?]); try discriminate; auto.
  Qed.
  Lemma head_run cm s n w w' : world_ok w -> no_errors w -> cmd_checkout_head cm s n w = (Done tt, w') ->
    exists to v r v', head_tree w to /\ alike w v /\ w_out v = w_out w /\
      compare ds (TFileSystem (ds_repo s) (cm_exclude cm) (ds_folder s)) to v = (Done r, v') /\ adds_objects (cur_db w) (cur_db v') /\
      if diff_result_empty r
      then cur_db w' = upd_state (insert_or_replace (str "HEAD") n) (cur_db v') /\ w_hashed w' = w_hashed v' /\ says v' w' [Printed "Ok, new head." []]
      else exists v5, alike v' v5 /\ says v' v5 [Printed "Cannot checkout: working directory is not clean" []] /\ print_diff_result r v5 = (Done tt, w').
  Proof.
    intros W NE H. unfold cmd_checkout_head in H.
    apply bind_done in H as (name & v1 & H1 & H). pose proof (rel_head_or_fail fewer w) as Fw. rewrite H1 in Fw. apply (fewer_no_errors w v1) in NE; [|exact Fw].
    apply head_done in H1 as [T1 Hd]. pose proof (ticked_out _ _ T1) as U1. apply alike_ticked in T1. pose proof (alike_cur _ _ T1) as C1. pose proof (alike_ok _ _ T1 W) as W1.
    apply bind_done in H as (got & v2 & H2 & H). apply bind_done in H as (to & v3 & H3 & H).
    assert (X : alike w v3 /\ w_out v3 = w_out w /\ match to with
       | None => history name None (repo_of (cur_db w)) = []
       | Some t => exists k l c, history name None (repo_of (cur_db w)) = k :: l /\ reads_commit w k c /\ t = c_tree c
       end).
    { apply try_done in H2 as [(k & -> & H2)|(e & -> & H2)].
      - apply latest_done in H2 as [T2 (l & Hi)]; [|exact W1]. pose proof (ticked_out _ _ T2) as U2. pose proof (alike_trans _ _ _ T1 (alike_ticked _ _ T2)) as T12. apply bind_done in H3 as (c & v & H4 & H3). apply ret_done in H3 as [-> ->].
        apply commit_key_done in H4 as [T4 R]. pose proof (ticked_out _ _ T4) as U4. split; [exact (alike_trans _ _ _ T12 (alike_ticked _ _ T4))|]. split; [congruence|]. exists k, l, c. rewrite <- C1. split; [exact Hi|]. split; [|reflexivity].
        eapply reads_commit_cur; [|exact R]. symmetry. apply alike_cur, T12.
      - apply ret_done in H3 as [-> ->]. apply latest_error in H2 as (_ & Y1 & Y2); [|exact W1]. assert (Q : e = ERefNotFound \/ e <> ERefNotFound) by (destruct e; try (left; reflexivity); right; discriminate).
        destruct Q as [Q|Q]; [|destruct (Y2 Q NE)]. destruct (Y1 Q) as [T2 Hi]. pose proof (ticked_out _ _ T2) as U2. rewrite <- C1. split; [exact (alike_trans _ _ _ T1 (alike_ticked _ _ T2))|]. split; [congruence|exact Hi]. }
    destruct X as (T3 & U3 & Tr). apply bind_done in H as (r & v4 & H4 & H).
    exists to, v3, r, v4. split; [exists name; auto|]. split; [exact T3|]. split; [exact U3|]. split; [exact H4|].
    rewrite <- (alike_cur _ _ T3).
    assert (N3 : no_errors v3).
    { apply (fewer_no_errors v1 v3); [|exact NE]. pose proof (rel_try fewer (reflog_get ds name None) (rel_reflog_get fewer name None) v1) as Y. rewrite H2 in Y.
      etransitivity; [exact Y|]. cbn [snd]. assert (G : rel fewer (match got with Ok k => c <- commit_from_key ds k ;; ret (Some (c_tree c)) | Err _ => ret None end)).
      { destruct got; [|apply rel_ret; exact _]. apply rel_bind; [exact _|apply rel_commit_from_key; exact _|intro; apply rel_ret; exact _]. }
      specialize (G v2). rewrite H3 in G. exact G. }
    pose proof (rel_compare CmdFacts.sound (TFileSystem (ds_repo s) (cm_exclude cm) (ds_folder s)) to v3) as Y. rewrite H4 in Y. destruct (Y N3) as [N4 A4]. cbn [snd] in *. split; [exact A4|].
    destruct (diff_result_empty r).
    - apply bind_done in H as ([] & v5 & H5 & H). apply printed in H as [T6 O6]. rewrite (alike_cur _ _ T6). cbn [put_head ds] in H5. unfold put_head in H5. cbn [raw_put_state ds] in H5. unfold sqlite_raw_put_state in H5.
      apply db_write_done in H5 as (v & T & -> & C5). rewrite cur_put. split; [reflexivity|].
      destruct T6 as (_ & _ & _ & _ & _ & _ & _ & ->). unfold says. rewrite O6. unfold put_db. destruct T as (? & ? & ->). destruct (w_txn _); split; reflexivity.
    - apply bind_done in H as ([] & v5 & H5 & H). apply printed in H5 as [T5 O5]. exists v5. split; [exact T5|]. split; [exact O5|exact H].
  Qed.
  Theorem head_says cm w s w1 n w2 : reachable w -> starts cm w (Some s) w1 -> steady_reads -> in_order w1 -> no_errors w1 ->
    (forall t, head_tree w1 (Some t) -> tidy w1 t) -> run_command cm (Some s) (CCheckoutHead n) w1 = (Done tt, w2) ->
    exists to A M, head_tree w1 to /\ differences (cm_exclude cm) (ds_folder s) (ds_repo s) w1 to (w_hashed w2) A M /\
      (A = [] /\ M = [] /\ moves_head (cur_db w1) (cur_db w2) n /\ says w1 w2 [Printed "Ok, new head." []] \/
       ~ (A = [] /\ M = []) /\ adds_objects (cur_db w1) (cur_db w2) /\ says w1 w2 (Printed "Cannot checkout: working directory is not clean" [] :: report_lists A M)).
  Proof.
    intros R S St O NE Td H. pose proof (started_ok _ _ _ _ R S) as W. cbn [run_command with_ds] in H. apply head_run in H as (to & v & r & v' & Ht & Al & Uv & H & Ad & D); auto.
    assert (Tt : tidy_of w1 to) by (destruct to; [apply Td, Ht|exact I]).
    pose proof (alike_order _ _ Al O) as (O1 & O2 & O3). pose proof (alike_cur _ _ Al) as C.
    pose proof (compare_silent _ _ _ _ _ H) as (So & Sf & Sc & _). apply compare_fs_done in H as ((_ & _ & Ih) & _ & Fr); auto; [|eapply tidy_cur; eassumption].
    pose proof Fr as Fr'. apply fs_differences in Fr as (A & M & Df & Q). pose proof (clean_report _ _ _ _ _ _ _ _ _ Fr' Q) as Cl. destruct Al as (Af & Ac & _).
    exists to, A, M. split; [exact Ht|]. destruct (diff_result_empty r).
    - destruct D as (Db & Hh & Sy). rewrite Hh. split; [apply (differences_cur _ _ _ w1 v); auto|]. left. destruct (proj1 Cl eq_refl) as [-> ->]. split; [reflexivity|]. split; [reflexivity|]. split.
      + rewrite Db. destruct Ad as (L & S2 & Ob). split; [|unfold repo_of; cbn [upd_state d_state rp_head]; rewrite assoc_replace, bytes_eqb_refl; reflexivity].
        split; [exact L|]. cbn [upd_state d_state d_data]. rewrite S2. split; [intros k Nk; apply assoc_replace_other, Nk|exact Ob].
      + unfold says in *. rewrite Sy, So, Uv. reflexivity.
    - destruct D as (v5 & A5 & S5 & P). apply report_done in P as [Ap Sp]. pose proof (alike_trans _ _ _ A5 Ap) as A6.
      split; [apply (differences_cur _ _ _ w1 v); auto; destruct A6 as (_ & _ & _ & _ & _ & _ & _ & ->); exact Df|]. right. split; [intro X; apply Cl in X; discriminate|].
      split; [rewrite (alike_cur _ _ A6); exact Ad|]. rewrite Q in Sp. unfold says in *. rewrite Sp, S5, So, Uv. cbn [rev]. rewrite <- !app_assoc. reflexivity.
  Qed.
  Theorem head_shows {F : Fmt} cm w s w1 n w2 : reachable w -> starts cm w (Some s) w1 -> steady_reads -> in_order w1 -> no_errors w1 ->
    (forall t, head_tree w1 (Some t) -> tidy w1 t) -> run_command cm (Some s) (CCheckoutHead n) w1 = (Done tt, w2) ->
    exists to A M, head_tree w1 to /\ differences (cm_exclude cm) (ds_folder s) (ds_repo s) w1 to (w_hashed w2) A M /\
      (A = [] /\ M = [] /\ moves_head (cur_db w1) (cur_db w2) n /\ writes_lines w1 w2 [str "Ok, new head."] \/
       ~ (A = [] /\ M = []) /\ adds_objects (cur_db w1) (cur_db w2) /\
       writes_lines w1 w2 (str "Cannot checkout: working directory is not clean" :: report_lines (map entry_text A) (map (fun x => entry_text (x, true)) M))).
  Proof.
    intros R S St O NE Td H. destruct (head_says cm w s w1 n w2 R S St O NE Td H) as (to & A & M & Ht & D & [(QA & QM & Mv & Sy)|(N & Ad & Sy)]); exists to, A, M; (split; [exact Ht|]; split; [exact D|]).
    - left. repeat (split; [assumption|]). eapply shows_line; [exact Sy|]. cbn [render]. unfold render0, line. cbn [String.eqb concat]. reflexivity.
    - right. repeat (split; [assumption|]). eapply lines_of_events; [exact Sy|]. cbn [map concat]. rewrite report_text, text_cons. reflexivity.
  Qed.
  Variable T : cachekey -> bytes.
  Theorem honest_head {F : Fmt} cm w s w1 n w2 : honest T w -> starts cm w (Some s) w1 -> steady_reads -> fs_ok (w_fs w1) -> agrees T (w_fs w1) -> no_coll (w_hashed w1) -> no_errors w1 ->
    run_command cm (Some s) (CCheckoutHead n) w1 = (Done tt, w2) ->
    exists to A M, head_tree w1 to /\ differences (cm_exclude cm) (ds_folder s) (ds_repo s) w1 to (w_hashed w2) A M /\
      (A = [] /\ M = [] /\ moves_head (cur_db w1) (cur_db w2) n /\ writes_lines w1 w2 [str "Ok, new head."] \/
       ~ (A = [] /\ M = []) /\ adds_objects (cur_db w1) (cur_db w2) /\
       writes_lines w1 w2 (str "Cannot checkout: working directory is not clean" :: report_lines (map entry_text A) (map (fun x => entry_text (x, true)) M))).
  Proof.
    intros H S St O A NC NE R. apply (head_shows cm w s w1 n w2); [apply used_reachable, (honest_used T _ H)|exact S|exact St|eapply (honest_order T); eassumption|exact NE|eapply (honest_tidy T); eassumption|exact R].
  Qed.
  Theorem head_story {F : Fmt} cm w e d db m n : honest T w -> steady_reads -> quiet_disk w -> cache_there w -> agrees T (w_fs w) -> repository_at cm w e d db ->
    let l := e ++ removelast d in let dbl := e ++ d in let ex := cm_exclude cm in
    globs_ok cm -> (exists n, rp_head (repo_of db) = Some n /\ utf8_valid n = true) -> can_store ex (abs_path dbl) (abs_path l) w -> lossless_below (w_fs w) l ->
    (lenN m < 2 ^ 62)%N -> utf8_valid m = true ->
    exists w', run_process cm (CCommit None m None) w = (Some 0%N, w') /\ w_fs w' = w_fs w /\ honest T w' /\
      forall v db', outside w' v -> w_cache v = w_cache w' \/ w_cache v = [] -> quiet_disk v -> cache_there v -> agrees T (w_fs v) -> repository_at cm v e d db' ->
        no_coll (w_hashed v) -> length (d_data db') <= stack -> listable ex dbl (w_fs v) (abs_path l) l stack -> lossless_below (w_fs v) l ->
        (forall r e0, committed ex dbl l (w_fs w) r e0 -> lookup (w_fs v) (l ++ r) <> None) ->
        (forall x c st, now ex dbl l (w_fs v) x (EFile c st) -> (forall e0, ~ committed ex dbl l (w_fs w) x e0) -> found_here v x) ->
        exists v' db2, run_process cm (CCheckoutHead n) v = (Some 0%N, v') /\ w_fs v' = w_fs v /\ db_at (w_dbs v') (dbl ++ [str "snapcd.db"]) = db2 /\
          (no_coll (w_hashed v') ->
             (unedited ex dbl l (w_fs w) (w_fs v) -> moves_head db' db2 n /\ writes_lines v v' [str "Ok, new head."]) /\
             (~ unedited ex dbl l (w_fs w) (w_fs v) -> adds_objects db' db2 /\ exists A M, edits ex dbl l (w_fs w) (w_fs v) A M /\
                writes_lines v v' (str "Cannot checkout: working directory is not clean" :: report_lines (map entry_text A) (map (fun x => entry_text (x, true)) M)))).
  Proof.
    intros Hw St Qd Ct Ag Rp l dbl ex G Hd Cs Ls Lm Um. pose proof Qd as (F0 & O & Mo). pose proof Rp as (Cp & Nd & _). pose proof (honest_used T _ Hw) as U.
    assert (Place : forall x, cache_there x -> cache_place x).
    { intros x. unfold cache_there, cache_place. destruct cache_dir as [p|]; [|trivial]. intros (c & -> & D). exists c. split; [reflexivity|]. intros a b Q. right. apply (D a b). exact Q. }
    destruct (start_found cm w e d db F0 (Place _ Ct) Rp) as (w1 & S & F1 & C1 & D1 & O1 & Cn1 & Cu1 & H1 & Fs1). specialize (Fs1 Ct). fold l dbl in S. set (s := DsState (abs_path dbl) (abs_path l)) in *.
    destruct (proj2 (commit_exactly cm w s w1 None m None (used_reachable _ U) S ltac:(unfold quiet_disk; rewrite Fs1; auto) Lm)) as [w2 R2].
    { split; [exact G|]. split; [intros _; unfold has_head; rewrite Cu1; exact Hd|]. unfold can_store in *. cbn [ds_folder ds_repo s]. rewrite Fs1, C1. exact Cs. }
    destruct (process_live cm _ w (Some s) w1 w2 F0 S R2) as (w' & P & Ow & Fw & Sw & Cw & Hhw & _ & Dw). specialize (Dw s eq_refl).
    assert (Fs2 : w_fs w2 = w_fs w1) by (pose proof (files_kept cm s (CCommit None m None) eq_refl w1) as X; rewrite R2 in X; apply X).
    assert (Hw' : honest T w').
    { replace w' with (snd (run_process cm (CCommit None m None) w)) by (rewrite P; reflexivity). apply ho_process; [exact Hw|]. intros st x Sx. unfold starts in S, Sx. rewrite S in Sx. injection Sx as <- <-. rewrite Fs1. auto. }
    exists w'. split; [exact P|]. split; [congruence|]. split; [exact Hw'|].
    intros v db' Ou Cv Qv Ctv Agv Rpv NC De Li Lg Kp Fo. pose proof Qv as (Fv & Ov & Mv). pose proof (ho_outside T _ _ Hw' Ou Cv) as Hv. pose proof (honest_used T _ Hv) as Uv. destruct Ou as [Dv Hhv].
    destruct (start_found cm v e d db' Fv (Place _ Ctv) Rpv) as (v1 & Sv & Fv1 & Cv1 & Dv1 & Ov1 & Cnv1 & Cuv1 & Hv1 & Fsv1). specialize (Fsv1 Ctv). fold l dbl in Sv. fold s in Sv.
    assert (In12 : incl (w_hashed w2) (w_hashed v1)) by (rewrite Hv1, Hhv, Hhw; apply incl_refl).
    assert (NC1 : no_coll (w_hashed v1)) by (rewrite Hv1; exact NC). assert (NC2 : no_coll (w_hashed w2)) by (eapply no_coll_incl; eauto).
    assert (AF : attrs_fits (Attrs m [])).
    { split; [eapply N.lt_trans; [exact Lm|reflexivity]|]. split; [exact Um|]. apply wf_map. split; [reflexivity|constructor]. }
    destruct (commit_works cm w s w1 None m None w2 (used_reachable _ U) S ltac:(rewrite Fs1; exact O) R2 NC2 AF) as (name & tree & k & w0 & N & Fs0 & C0 & Sn & Ic & One & _ & _ & Cn2).
    assert (Db : cur_db v1 = cur_db w2).
    { rewrite Cuv1, <- Dw, Cn2, Cn1. destruct Rpv as (_ & _ & _ & _ & _ & _ & Kn). rewrite Dv in Kn. unfold db_at. rewrite Kn. reflexivity. }
    cbn [branch_of ds_folder ds_repo s] in N, Sn. pose proof (push_branches _ _ _ _ One) as [Hi _]. destruct One as (_ & Hdk & _).
    assert (Ht : head_tree v1 (Some tree)).
    { exists name. rewrite Db. split; [congruence|]. eexists k, _, _. split; [exact Hi|]. split; [eapply reads_commit_cur; [exact Db|apply commit_reads, Ic]|reflexivity]. }
    assert (Rc : reads_commit v1 k (Commit tree (firstn 1 (history name None (repo_of (cur_db w1)))) (Attrs m []))) by (eapply reads_commit_cur; [exact Db|apply commit_reads, Ic]).
    pose proof (snapshot_cur _ _ _ _ _ _ v1 Db In12 Sn) as Sn1. destruct (snapshot_tree _ _ _ _ _ _ St NC1 Sn1) as (_ & TA & TB).
    assert (Hdv : rp_head (repo_of (cur_db v1)) = Some name) by (rewrite Db, Hdk; exact N).
    assert (Hiv : history name None (repo_of (cur_db v1)) = k :: history name None (repo_of (cur_db w1))) by (rewrite Db; exact Hi).
    assert (Ar : at_rest v1).
    { split; [unfold quiet_disk; rewrite Fsv1; auto|]. eapply (honest_readable T); [exact Hv|exact St|exact Sv|rewrite Fsv1; exact Agv]. }
    assert (Sd : forall x e, snapped w0 ex (abs_path dbl) (abs_path l) x e <-> committed ex dbl l (w_fs w) x e) by (intros x y; unfold snapped, committed; rewrite !locate_abs, Fs0, Fs1; reflexivity).
    assert (Od : forall x e, on_disk ex (abs_path dbl) (abs_path l) v1 x e <-> now ex dbl l (w_fs v) x e) by (intros x y; unfold on_disk, now, committed; rewrite !locate_abs, Fsv1; reflexivity).
    destruct (proj2 (checkout_head_exactly cm v s v1 Uv Sv NC1 ltac:(unfold deep_enough; rewrite Cuv1; exact De) Ar n)) as [v2 Rv2].
    { split; [exists name; split; [exact Hdv|]; destruct Hd as (n0 & B & Ut); rewrite Cu1 in N; congruence|]. split; [exact G|]. intros t Ht'. rewrite (LiveCmd.head_tree_fun _ _ _ Ht Ht').
      cbn [ds_folder ds_repo s]. fold ex. split; [|split; [|split]].
      - exists l. rewrite Fsv1, stat_abs.
        + destruct Rpv as (_ & _ & Dirs & _). rewrite (Dirs l [last d []]); [reflexivity|]. unfold l. rewrite <- app_assoc. f_equal. apply app_removelast_last, Nd.
        + intros a b Q _. destruct Rpv as (_ & _ & Dirs & _). apply (Dirs a (b ++ [last d []])). rewrite app_assoc, <- Q. unfold l. rewrite <- app_assoc. f_equal. apply app_removelast_last, Nd.
      - rewrite !locate_abs, Fsv1. exact Li.
      - intros x k' dd It. destruct (TA _ _ _ It) as (e0 & C & Lf). apply Sd in C. pose proof (Kp _ _ C) as Kx. destruct (lookup (w_fs v) (l ++ x)) as [e1|] eqn:L1; [|congruence]. exists e1. apply Od. split; [|split; [exact L1|apply C]].
        intros ->. destruct It as (_ & i & _ & Q1 & Q2). specialize (Q2 eq_refl). subst dd.
        destruct Lf as [(_ & Q & _)|(c & st & -> & _)]; [congruence|]. destruct C as [C _]. rewrite app_nil_r in C. destruct Rp as (_ & _ & Dirs & _). rewrite (Dirs l [last d []]) in C; [discriminate|].
        unfold l. rewrite <- app_assoc. f_equal. apply app_removelast_last, Nd.
      - intros x c st X N1. unfold found_here. rewrite Fsv1, Cv1. apply (Fo x c st); [apply Od, X|]. intros e0 C. apply Sd in C. destruct (TB _ _ C) as (k' & dd & It); [|exact (N1 _ _ It)]. intros ->. destruct X as (X & _). congruence. }
    destruct (process_live cm _ v (Some s) v1 v2 Fv Sv Rv2) as (v' & P' & Ow' & _ & Sw' & _ & Hv' & _ & Dv'). specialize (Dv' s eq_refl). exists v', (cur_db v2).
    split; [exact P'|]. pose proof (files_kept cm s (CCheckoutHead n) eq_refl v1) as Fk. rewrite Rv2 in Fk. destruct Fk as (Fk & _ & Ik). cbn [snd] in Fk, Ik. split; [congruence|].
    assert (Cn : w_conn v2 = dbl ++ [str "snapcd.db"]) by (unfold dbl; rewrite <- app_assoc, <- Cnv1; pose proof (kl_command cm s (CCheckoutHead n) ltac:(discriminate) v1 Fv1) as (_ & X & _); rewrite Rv2 in X; exact X).
    split; [rewrite <- Cn; exact Dv'|]. rewrite Hv'. intro NC'.
    destruct (honest_head cm v s v1 n v2 Hv Sv St ltac:(rewrite Fsv1; exact Ov) ltac:(rewrite Fsv1; exact Agv) NC1 ltac:(intros f If; rewrite Fv1 in If; destruct If) Rv2) as (to & A & M & Ht' & Df & Ca).
    rewrite (LiveCmd.head_tree_fun _ _ _ Ht Ht') in Df. cbn [ds_folder ds_repo s] in Df.
    assert (Ed : edits ex dbl l (w_fs w) (w_fs v) A M).
    { rewrite <- Fsv1. eapply (diff_edits w0 ex (abs_path dbl) (abs_path l) tree v1 (w_hashed v2)); [exact St|exact Sn1|congruence|reflexivity|reflexivity|exact Ik|exact NC'|exact Ls|rewrite Fsv1; exact Lg|exact Df]. }
    pose proof (edits_none _ _ _ _ _ _ _ Ed) as En.
    assert (Wl : forall ls, writes_lines v1 v2 ls -> writes_lines v v' ls) by (intros ls Wr; unfold writes_lines, writes, screen in *; rewrite Ow', <- Ov1; exact Wr).
    rewrite <- Cuv1. destruct Ca as [(QA & QM & Mv1 & Wr)|(Ne & Ad & Wr)].
    - split; [intros _; split; [exact Mv1|apply Wl, Wr]|]. intro Nu. destruct Nu. apply En. auto.
    - split; [intro Un; destruct Ne; apply En, Un|]. intros _. split; [exact Ad|]. exists A, M. split; [exact Ed|apply Wl, Wr].
  Qed.
End Head.
