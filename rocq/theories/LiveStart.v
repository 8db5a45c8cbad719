(** Starting, ending, and [init]. *)
From Coq Require Import RelationClasses.
From Verif Require Import Base BaseFacts TableFacts Key KeyFacts Cbor CborFacts Object ObjectFacts Path World WorldFacts Store File Filter Dir Diff Commit Main SpecStore StoreCalls SpecRun SpecProc SpecCmd SpecFile SpecDir SpecCache SpecDiff SpecLive
  Frame DbRel Integrity ProcFacts InitFacts FsFacts DirPlan DirFacts GetFacts DirTrip DirWalk DirLive CheckoutFacts SessionFacts FileRun CmdFacts OutFacts.

Section LiveStart.
  Context {E : Env}.
  Notation ds := sqlite_ds.

  (** *** The end of a process *)
  Lemma finish_live st w : w_faults w = [] -> w_ctxn w <> None -> exists w', finish st (Ok tt) w = (Done tt, w') /\ w_faults w' = [] /\ w_out w' = w_out w /\ w_fs w' = w_fs w /\ w_cwd w' = w_cwd w /\ w_hashed w' = w_hashed w /\
    (st = None -> w_dbs w' = w_dbs w).
  Proof.
    intros F C. cbn [finish].
    assert (X : exists v, ignore_on st db_commit w = (Done tt, v) /\ w_faults v = [] /\ w_ctxn v = w_ctxn w /\ w_out v = w_out w /\ w_fs v = w_fs w /\ w_cwd v = w_cwd w /\ w_hashed v = w_hashed w /\ (st = None -> w_dbs v = w_dbs w)).
    { destruct st as [s|]; cbn [ignore_on]; [|exists w; repeat (split; [reflexivity || exact F|]); auto]. unfold bind, try, db_commit.
      match goal with |- context [op ?e w] => destruct (op_live e w F) as (w1 & T & F1 & ->) end. destruct T as (t & r & ->). cbn in F1 |- *.
      destruct (w_txn w) eqn:Tx; eexists; (split; [reflexivity|]); cbn; unfold commit_now; cbn; rewrite ?Tx; cbn; repeat (split; [reflexivity || exact F1|]); discriminate. }
    destruct X as (v & X & Fv & Cv & Ov & Sv & Wv & Hv & Dv). rewrite (run_bind _ _ _ _ _ X). unfold cache_commit.
    match goal with |- context [op ?e v] => destruct (op_live e v Fv) as (w1 & T & F1 & ->) end. destruct T as (t & r & ->). cbn in F1 |- *. rewrite Cv. destruct (w_ctxn w) as [c|] eqn:Cw; [|congruence].
    eexists. split; [reflexivity|]. unfold cache_commit_now. cbn. rewrite Cv. cbn. auto 10.
  Qed.
  Lemma process_live cm c w st w1 w2 : w_faults w = [] -> starts cm w st w1 -> run_command cm st c w1 = (Done tt, w2) ->
    exists w', run_process cm c w = (Some 0%N, w') /\ w_out w' = w_out w2 /\ w_faults w' = [] /\ w_fs w' = w_fs w2 /\ w_cwd w' = w_cwd w2 /\ w_hashed w' = w_hashed w2 /\
      (st = None -> w_dbs w' = w_dbs w2) /\ (forall s, st = Some s -> db_at (w_dbs w') (w_conn w2) = cur_db w2).
  Proof.
    intros F S R. destruct (calm_setup _ _ _ _ S F) as [F1 C1]. pose proof (calm_command cm st c w1 F1) as [F2 C2]. rewrite R in F2, C2. cbn [snd] in F2, C2. specialize (C2 C1).
    destruct (finish_live st w2 F2 C2) as (w3 & Fi & F3 & O3 & S3 & W3 & H3 & D3).
    assert (P : run_process cm c w = (Some 0%N, close_all w3)).
    { unfold run_process. rewrite main_split. unfold starts in S. rewrite (run_bind _ _ _ _ _ S). unfold bind, try. rewrite R, Fi. reflexivity. }
    exists (close_all w3). split; [exact P|]. split; [exact O3|]. split; [exact F3|]. split; [exact S3|]. split; [exact W3|]. split; [exact H3|]. split; [exact D3|].
    intros s ->. eapply commit_durable; [exact P|exact S|exact R|]. unfold commit_ok_next. rewrite F2. exact I.
  Qed.

  (** *** Walking along directories *)
  Lemma walk_normals f r : forall b, (forall a c, r = a ++ c -> c <> [] -> lookup f (b ++ a) = Some EDir) -> walk_comps f b (map Normal r) = Some (b ++ r).
  Proof.
    induction r as [|n r IH]; intros b H; cbn [map walk_comps]; [rewrite app_nil_r; reflexivity|].
    assert (D : is_dir f b = true) by (apply is_dir_iff; specialize (H [] (n :: r) eq_refl); rewrite app_nil_r in H; apply H; discriminate).
    rewrite D. cbn [step_comp]. rewrite IH; [rewrite <- app_assoc; reflexivity|]. intros a c -> N. specialize (H (n :: a) c eq_refl N). rewrite <- app_assoc. exact H.
  Qed.
  Lemma stat_abs f cwd x : (forall a c, x = a ++ c -> c <> [] -> lookup f a = Some EDir) -> stat f cwd (abs_path x) = match lookup f x with Some e => Some (x, e) | None => None end.
  Proof.
    intro H. unfold stat, resolve, abs_path, is_empty_path. cbn [p_abs p_comps p_slash negb andb]. rewrite (walk_normals f x []) by exact H. cbn [app]. destruct (lookup f x) as [[| | |]|]; reflexivity.
  Qed.
  Lemma join_abs x d : d <> [] -> join (abs_path x) (named d) = abs_path (x ++ d).
  Proof.
    intro N. unfold join, named, abs_path, is_empty_path. cbn [p_abs p_comps p_slash negb andb]. rewrite (drop_normals d). destruct d as [|n d]; [congruence|]. rewrite map_app. reflexivity.
  Qed.
  Lemma join_file x : join_name (abs_path x) snapcd_db = abs_path (x ++ [snapcd_db]).
  Proof. exact (join_abs x [snapcd_db] ltac:(discriminate)). Qed.
  Lemma join_file_rel d : d <> [] -> join_name (named d) snapcd_db = named (d ++ [snapcd_db]).
  Proof.
    intro N. unfold join_name. change (parse_path snapcd_db) with (named [snapcd_db]). unfold join, named, is_empty_path. cbn [p_abs p_comps p_slash negb andb].
    destruct d as [|n d]; [congruence|]. cbn. rewrite map_app. reflexivity.
  Qed.
  Lemma dirs_below f x : closed f -> lookup f x = Some EDir -> forall a c, x = a ++ c -> lookup f a = Some EDir.
  Proof.
    intros C L a c ->. destruct c as [|n c]; [rewrite app_nil_r in L; exact L|]. eapply closed_app; [exact C|exact L|discriminate].
  Qed.
  Lemma walk_dirs f r : forall b m, walk_comps f b (map Normal r) = Some m -> forall a c, r = a ++ c -> c <> [] -> lookup f (b ++ a) = Some EDir.
  Proof.
    induction r as [|n r IH]; intros b m H a c Q N; [destruct a, c; try discriminate; congruence|]. cbn [map walk_comps] in H. destruct (is_dir f b) eqn:D; [|discriminate].
    destruct a as [|x a]; [rewrite app_nil_r; apply is_dir_iff, D|]. cbn in Q. inv Q. cbn [step_comp] in H. specialize (IH _ _ H a c eq_refl N). rewrite <- app_assoc in IH. exact IH.
  Qed.
  (** Making directories along a clear way. *)
  Lemma make_way f l r : lookup f l = Some EDir -> clear_way f l r -> exists f', mkdirs None f l (map Normal r) = Some f' /\
    (forall a b, r = a ++ b -> lookup f' (l ++ a) = Some EDir) /\ (forall x, lookup f' x <> lookup f x -> lookup f x = None /\ lookup f' x = Some EDir /\ exists a b, r = a ++ b /\ x = l ++ a).
  Proof.
    intros D H. destruct (mkdirs_some r f l D H) as [f' M]. exists f'. split; [exact M|]. destruct (mkdirs_walk _ _ _ _ M) as [W L]. rewrite fold_normal in *. split.
    - intros a b ->. destruct b as [|n b]; [rewrite app_nil_r in *; exact L|]. eapply walk_dirs; [exact W|reflexivity|discriminate].
    - intros x N. destruct (mkdirs_adds _ _ _ _ _ M x) as [Q|(N1 & N2 & a & b & Q & ->)]; [congruence|]. split; [exact N1|]. split; [exact N2|].
      assert (exists a' b', r = a' ++ b' /\ a = map Normal a') as (a' & b' & -> & ->).
      { clear - Q. revert a Q. induction r as [|n r IH]; intros a Q; [destruct a; [exists [], []; auto|discriminate]|]. destruct a as [|x a]; [exists [], (n :: r); auto|].
        cbn in Q. inv Q. destruct (IH a H1) as (a' & b' & -> & ->). exists (n :: a'), b'. auto. }
      exists a', b'. split; [reflexivity|]. apply fold_normal.
  Qed.
  Lemma map_normal_inj a : forall b, map Normal a = map Normal b -> a = b.
  Proof. induction a as [|x a IH]; intros [|y b] H; inv H; [reflexivity|]. f_equal. auto. Qed.
  (** Opening the cache. *)
  Lemma open_cache_live w : w_faults w = [] -> cache_place w -> exists w', open_cache w = (Done tt, w') /\ w_faults w' = [] /\ w_cwd w' = w_cwd w /\ w_dbs w' = w_dbs w /\ w_out w' = w_out w /\
    w_txn w' = w_txn w /\ w_ctxn w' = w_ctxn w /\ w_conn w' = w_conn w /\ w_hashed w' = w_hashed w /\
    (forall x, lookup (w_fs w') x <> lookup (w_fs w) x -> lookup (w_fs w) x = None /\ lookup (w_fs w') x = Some EDir /\ exists c a b, cache_dir = Some (abs_path c) /\ c ++ [str "snapcd"] = a ++ b /\ x = a) /\
    (forall c a b, cache_dir = Some (abs_path c) -> c ++ [str "snapcd"] = a ++ b -> lookup (w_fs w') a = Some EDir) /\
    (cache_there w -> w_fs w' = w_fs w).
  Proof.
    intros F P. unfold cache_place, cache_there, open_cache in *. 
    assert (N : forall v, w_faults v = [] -> exists v', cache_new v = (Done tt, v') /\ ticked v v' /\ w_faults v' = []).
    { intros v Fv. unfold cache_new. match goal with |- context [op ?e v] => destruct (op_live e v Fv) as (v1 & T & F1 & ->) end. eauto. }
    destruct cache_dir as [p|] eqn:Cd.
    - destruct P as (c & -> & Cl). change (join_name (abs_path c) (str "snapcd")) with (join (abs_path c) (named [str "snapcd"])). rewrite join_abs by discriminate.
      destruct (make_way (w_fs w) [] (c ++ [str "snapcd"]) eq_refl Cl) as (f' & M & Dr & Ch).
      unfold fs_create_dir_all, abs_path, is_empty_path. cbn [p_abs p_comps negb andb]. unfold fs_change. unfold bind at 1.
      match goal with |- context [op ?e w] => destruct (op_live e w F) as (w1 & T & F1 & ->) end. destruct (ticked_fs _ _ T) as [Q1 Q2]. rewrite Q1, Q2. unfold base_loc. cbn [p_abs p_comps]. rewrite M. cbn [option_map].
      destruct (N (set_fs w1 f') F1) as (w2 & H2 & T2 & F2). exists w2. split; [exact H2|]. split; [exact F2|]. destruct T as (t & r & ->), T2 as (t2 & r2 & ->). cbn.
      repeat (split; [reflexivity|]). split; [|split].
      + intros x D. destruct (Ch x D) as (A & B & a & b & Q & ->). split; [exact A|]. split; [exact B|]. exists c, a, b. auto.
      + intros c' a b Q1' Q2'. assert (c' = c) as -> by (injection Q1' as Q; apply map_normal_inj in Q; congruence). eapply Dr, Q2'.
      + intros (c' & Q & D). assert (c' = c) as -> by (injection Q as Q; apply map_normal_inj in Q; congruence).
        assert (M' : mkdirs None (w_fs w) [] (map Normal (c ++ [str "snapcd"])) = Some (w_fs w)).
        { eapply mkdirs_walked; [apply (walk_normals _ _ []); intros a b Q' _; exact (D a b Q')|]. cbn [app]. apply (D _ []). rewrite app_nil_r. reflexivity. }
        congruence.
    - destruct (N w F) as (w2 & H2 & T2 & F2). rewrite (run_bind _ _ _ _ _ H2). eexists. split; [reflexivity|]. destruct T2 as (t2 & r2 & ->). cbn in *. split; [exact F2|]. repeat (split; [reflexivity|]). split; [intros x D; congruence|]. split; [discriminate|reflexivity].
  Qed.

  (** *** Starting *)
  Lemma find_ticked name w r w' : w_faults w = [] -> find_db_folder name w = (Done r, w') -> ticked w w' /\ w_faults w' = [].
  Proof.
    intros F H. unfold find_db_folder in H. unfold fs_current_dir, fs_query in H. unfold bind at 1 in H. match type of H with context [op ?e w] => destruct (op_live e w F) as (w1 & T & F1 & Eo) end. rewrite Eo in H. cbn in H. clear Eo.
    enough (X : forall l v v', w_faults v = [] -> find_in name l v = (Done r, v') -> ticked v v' /\ w_faults v' = []).
    { destruct (X _ _ _ F1 H) as [T2 F2]. split; [eapply ticked_trans; eassumption|exact F2]. }
    clear. induction l as [|d l IH]; intros v v' F H; cbn [find_in] in H; [apply ret_done in H as [_ ->]; split; [apply ticked_refl|exact F]|].
    rewrite (run_bind _ _ _ _ _ (quiet_exists _ v F)) in H.
    assert (T : ticked v (set_tick v (S (w_tick v)))) by (exists (S (w_tick v)), (w_faults v); destruct v; reflexivity).
    match type of H with (if ?b then _ else _) _ = _ => destruct b end; [apply ret_done in H as [_ ->]; split; [exact T|exact F]|].
    apply IH in H as [T2 F2]; [|exact F]. split; [eapply ticked_trans; eassumption|exact F2].
  Qed.
  Lemma begin_live st w : w_faults w = [] -> w_txn w = NoTxn -> w_ctxn w = None -> exists w', (ignore_on st db_begin ;;; cache_begin ;;; ret st) w = (Done st, w') /\ w_faults w' = [] /\
    w_fs w' = w_fs w /\ w_cwd w' = w_cwd w /\ w_dbs w' = w_dbs w /\ w_out w' = w_out w /\ w_conn w' = w_conn w /\ w_hashed w' = w_hashed w /\ (forall d, w_txn w' <> TxnDirty d).
  Proof.
    intros F Tx Cx.
    assert (X : exists v, ignore_on st db_begin w = (Done tt, v) /\ w_faults v = [] /\ w_ctxn v = None /\ w_fs v = w_fs w /\ w_cwd v = w_cwd w /\ w_dbs v = w_dbs w /\ w_out v = w_out w /\ w_conn v = w_conn w /\ w_hashed v = w_hashed w /\ forall d, w_txn v <> TxnDirty d).
    { destruct st as [s|]; cbn [ignore_on]; [|exists w; repeat (split; [reflexivity || assumption|]); rewrite Tx; discriminate]. unfold bind, try, db_begin.
      match goal with |- context [op ?e w] => destruct (op_live e w F) as (w1 & T & F1 & ->) end. destruct T as (t & r & ->). cbn in F1 |- *. rewrite Tx.
      eexists; (split; [reflexivity|]); cbn; repeat (split; [reflexivity || assumption|]); discriminate. }
    destruct X as (v & X & Fv & Cv & A1 & A2 & A3 & A4 & A5 & A6 & A7). rewrite (run_bind _ _ _ _ _ X). unfold bind, cache_begin.
    match goal with |- context [op ?e v] => destruct (op_live e v Fv) as (w1 & T & F1 & ->) end. destruct T as (t & r & ->). cbn in F1 |- *. rewrite Cv. eexists. split; [reflexivity|]. cbn. auto 10.
  Qed.
  Lemma start_none cm w : w_faults w = [] -> cache_place w -> (forall e, above (w_cwd w) e -> ~ is_there w (join (abs_path e) (cm_db_path cm))) ->
    exists w1, starts cm w None w1 /\ w_faults w1 = [] /\ w_cwd w1 = w_cwd w /\ w_dbs w1 = w_dbs w /\ w_out w1 = w_out w /\
    (forall x, lookup (w_fs w1) x <> lookup (w_fs w) x -> lookup (w_fs w) x = None /\ lookup (w_fs w1) x = Some EDir /\ exists c a b, cache_dir = Some (abs_path c) /\ c ++ [str "snapcd"] = a ++ b /\ x = a) /\
    (forall c a b, cache_dir = Some (abs_path c) -> c ++ [str "snapcd"] = a ++ b -> lookup (w_fs w1) a = Some EDir).
  Proof.
    intros F P No. destruct (nearest_total (cm_db_path cm) (close_all w) F) as (r & v0 & Fd). pose proof (nearest _ (close_all w) _ _ F Fd) as Nr. destruct r as [p|].
    { destruct Nr as (d & Ab & -> & Th & _). destruct (No d Ab Th). }
    pose proof (find_ticked _ (close_all w) _ _ F Fd) as [T F0]. destruct T as (t & r & ->).
    assert (Or : open_repo cm (close_all w) = (Done None, set_faults (set_tick (close_all w) t) r)) by (unfold open_repo; rewrite (run_bind _ _ _ _ _ Fd); reflexivity).
    unfold starts, setup. rewrite (run_bind _ _ _ _ _ Or). clear Or.
    destruct (open_cache_live (set_faults (set_tick (close_all w) t) r) F0 P) as (v1 & H1 & F1 & A1 & A2 & A3 & A4 & A5 & A6 & A7 & Ch & Dr & _). rewrite (run_bind _ _ _ _ _ H1).
    destruct (begin_live None v1 F1 A4 A5) as (v2 & H2 & F2 & B1 & B2 & B3 & B4 & B5 & B6 & B7). exists v2. split; [exact H2|]. split; [exact F2|]. split; [rewrite B2; exact A1|]. split; [rewrite B3; exact A2|]. split; [rewrite B4; exact A3|].
    rewrite B1. split; [exact Ch|exact Dr].
  Qed.
  Lemma above_same cwd e : above cwd e -> length cwd <= length e -> e = cwd.
  Proof. intros [r ->] L. rewrite app_length in L. destruct r; [rewrite app_nil_r; reflexivity|cbn in L; lia]. Qed.
  Lemma above_fun cwd e e' : above cwd e -> above cwd e' -> length e = length e' -> e = e'.
  Proof. intros [r ->] [r' Q] L. apply app_inv_prefix in Q; [|exact L]. apply Q. Qed.
  Lemma start_found cm w e d db : w_faults w = [] -> cache_place w -> repository_at cm w e d db ->
    exists w1, starts cm w (Some (DsState (abs_path (e ++ d)) (abs_path (e ++ removelast d)))) w1 /\ w_faults w1 = [] /\ w_cwd w1 = w_cwd w /\ w_dbs w1 = w_dbs w /\ w_out w1 = w_out w /\
      w_conn w1 = e ++ d ++ [str "snapcd.db"] /\ cur_db w1 = db /\ w_hashed w1 = w_hashed w /\ (cache_there w -> w_fs w1 = w_fs w).
  Proof.
    intros F P (Cp & Nd & Dirs & Ab & Far & (ct & st & Fl) & Kn).
    assert (Th : is_there w (join (abs_path e) (named d))).
    { rewrite join_abs by exact Nd. exists (e ++ d), EDir, MDir. split; [|reflexivity]. rewrite stat_abs; [rewrite (Dirs (e ++ d) []); [reflexivity|rewrite app_nil_r; reflexivity]|]. intros a c Q _. eapply Dirs, Q. }
    destruct (nearest_total (cm_db_path cm) (close_all w) F) as (r & v0 & Fd). pose proof (nearest _ (close_all w) _ _ F Fd) as Nr. rewrite Cp in Nr. destruct r as [p|]; [|destruct (Nr e Ab Th)].
    destruct Nr as (e' & Ab' & -> & Th' & Far'). assert (e' = e) as ->.
    { apply (above_fun (w_cwd w)); [exact Ab'|exact Ab|]. destruct (Nat.lt_trichotomy (length e') (length e)) as [L|[L|L]]; [destruct (Far' e Ab L Th)|exact L|destruct (Far e' Ab' L Th')]. }
    rewrite join_abs in Fd by exact Nd. pose proof (find_ticked _ (close_all w) _ _ F Fd) as [T F0]. destruct T as (t & r & ->). set (v0 := set_faults (set_tick (close_all w) t) r) in *.
    assert (Pa : parent (abs_path (e ++ d)) = Some (abs_path (e ++ removelast d))).
    { unfold parent, abs_path. cbn [p_comps p_abs]. destruct (exists_last Nd) as (d' & n & ->). rewrite removelast_last, app_assoc, (map_app Normal (e ++ d')). cbn [map]. rewrite removelast_last.
      destruct (map Normal (e ++ d') ++ [Normal n]) eqn:Q; [apply snoc_not_nil in Q; destruct Q|]. reflexivity. }
    assert (Op : exists v2, sqlite_open (join_name (abs_path (e ++ d)) snapcd_db) v0 = (Done (e ++ d ++ [str "snapcd.db"]), v2) /\ ticked v0 v2 /\ w_faults v2 = []).
    { rewrite join_file. unfold sqlite_open. match goal with |- context [op ?x v0] => destruct (op_live x v0 F0) as (v2 & T2 & F2 & ->) end. exists v2. split; [|split; [exact T2|exact F2]].
      assert (Q : open_db_eff (abs_path ((e ++ d) ++ [snapcd_db])) v2 = Some (e ++ d ++ [str "snapcd.db"], v2)).
      { unfold open_db_eff. destruct T2 as (t2 & r2 & ->). cbn [w_fs w_cwd w_dbs set_faults set_tick v0 close_all set_ctxn set_txn].
        unfold resolve, is_empty_path, abs_path. cbn [p_abs p_comps p_slash negb andb]. rewrite (walk_normals (w_fs w) ((e ++ d) ++ [snapcd_db]) []).
        - cbn [app]. rewrite <- app_assoc. change snapcd_db with (str "snapcd.db"). match type of Fl with lookup _ ?z = _ => match goal with |- context [lookup (w_fs w) ?y] => change y with z end end. rewrite Fl, Kn. reflexivity.
        - intros a c Q Nc. cbn [app]. destruct (exists_last Nc) as (c' & n & ->). rewrite app_assoc in Q. apply app_inj_tail in Q as [Q _]. eapply Dirs, Q. }
      rewrite Q. reflexivity. }
    destruct Op as (v2 & H2 & T2 & F2). set (v3 := set_txn (set_conn v2 (e ++ d ++ [str "snapcd.db"])) NoTxn).
    assert (Or : open_repo cm (close_all w) = (Done (Some (DsState (abs_path (e ++ d)) (abs_path (e ++ removelast d)))), v3)).
    { unfold open_repo. rewrite (run_bind _ _ _ _ _ Fd), Pa, (run_bind _ _ _ _ _ H2). reflexivity. }
    unfold starts, setup. rewrite (run_bind _ _ _ _ _ Or). clear Or.
    assert (Q3 : w_fs v3 = w_fs w /\ w_cwd v3 = w_cwd w /\ w_dbs v3 = w_dbs w /\ w_out v3 = w_out w /\ w_ctxn v3 = None /\ w_hashed v3 = w_hashed w) by (destruct T2 as (? & ? & ->); repeat split).
    destruct Q3 as (Q1 & Q2 & Q3 & Q4 & Q5 & Q6). assert (P3 : cache_place v3) by (unfold cache_place in *; rewrite Q1; exact P).
    destruct (open_cache_live v3 F2 P3) as (v4 & H4 & F4 & A1 & A2 & A3 & A4 & A5 & A6 & A7 & _ & _ & Ct). rewrite (run_bind _ _ _ _ _ H4).
    destruct (begin_live (Some (DsState (abs_path (e ++ d)) (abs_path (e ++ removelast d)))) v4 F4 A4) as (v5 & H5 & F5 & B1 & B2 & B3 & B4 & B5 & B6 & B7); [rewrite A5; exact Q5|].
    exists v5. split; [exact H5|]. split; [exact F5|]. split; [congruence|]. split; [congruence|]. split; [congruence|]. assert (C : w_conn v5 = e ++ d ++ [str "snapcd.db"]) by (rewrite B5, A6; reflexivity). split; [exact C|].
    assert (D : cur_db v5 = disk v5) by (unfold cur_db; destruct (w_txn v5) as [| |x] eqn:Tx; [reflexivity|reflexivity|destruct (B7 x eq_refl)]). rewrite D. split; [unfold disk, db_at; rewrite C, B3, A2, Q3, Kn; reflexivity|]. split; [congruence|].
    intro Ht. rewrite B1, Ct, Q1; [reflexivity|]. unfold cache_there in *. rewrite Q1. exact Ht.
  Qed.

  (** *** A new repository *)
  Lemma entry_eq (a b : option entry) : {a = b} + {a <> b}.
  Proof.
    assert (S : forall x y : stamp, {x = y} + {x <> y}) by (decide equality; [apply Z.eq_dec|apply N.eq_dec]). assert (B : forall x y : bytes, {x = y} + {x <> y}) by apply (list_eq_dec ascii_dec).
    decide equality. decide equality.
  Qed.
  Lemma assoc_loc_set {A} l (d : A) dbs : assoc_loc l (assoc_set l d dbs) = Some d.
  Proof. induction dbs as [|[l' d'] r IH]; cbn; [rewrite names_eqb_refl; reflexivity|]. destruct (names_eqb l' l) eqn:Q; cbn; rewrite Q; [reflexivity|exact IH]. Qed.
  Lemma init_live cm w d : w_faults w = [] -> no_repository cm w d -> cache_place w -> cache_elsewhere w d ->
    exists w', run_process cm CInit w = (Some 0%N, w') /\ w_out w' = w_out w /\ w_faults w' = [] /\ w_cwd w' = w_cwd w /\ grows (w_fs w) (w_fs w') /\
      repository_at cm w' (w_cwd w) d (Db [] [(str "HEAD", str "master")] []) /\ cache_place w'.
  Proof.
    intros F (Cp & Nd & O & Dc & Cw & No) P El. set (l := w_cwd w ++ d ++ [str "snapcd.db"]).
    destruct (start_none cm w F P) as (w1 & S & F1 & A1 & A2 & A3 & Ch & Dr); [rewrite Cp; exact No|].
    assert (Up : forall a b, w_cwd w = a ++ b -> lookup (w_fs w) a = Some EDir) by (intros a b Q; eapply dirs_below; [apply fs_ok_closed, O|exact Dc|exact Q]).
    assert (G1 : grows (w_fs w) (w_fs w1)).
    { intros x e L. destruct (entry_eq (lookup (w_fs w1) x) (lookup (w_fs w) x)) as [Q|Q]; [congruence|]. destruct (Ch x Q) as (Z & _). congruence. }
    assert (N0 : lookup (w_fs w) (w_cwd w ++ d) = None).
    { destruct (Cw d [] ltac:(rewrite app_nil_r; reflexivity)) as [Z|Z]; [exact Z|]. destruct (No (w_cwd w)); [exists []; rewrite app_nil_r; reflexivity|].
      rewrite join_abs by exact Nd. exists (w_cwd w ++ d), EDir, MDir. split; [|reflexivity]. rewrite stat_abs; [rewrite Z; reflexivity|]. intros a c Q _. eapply dirs_below; [apply fs_ok_closed, O|exact Z|exact Q]. }
    assert (Nl : lookup (w_fs w) l = None).
    { destruct (lookup (w_fs w) l) eqn:Z; [|reflexivity]. unfold l in Z. rewrite app_assoc in Z. apply (fs_ok_closed _ O) in Z. congruence. }
    assert (N1 : lookup (w_fs w1) (w_cwd w ++ d) = None).
    { destruct (entry_eq (lookup (w_fs w1) (w_cwd w ++ d)) (lookup (w_fs w) (w_cwd w ++ d))) as [Q|Q]; [congruence|]. destruct (Ch _ Q) as (_ & _ & c & a & b & Cd & Q1 & Q2). subst a. destruct (El c b Cd). rewrite Q1, <- app_assoc. reflexivity. }
    assert (Nl1 : lookup (w_fs w1) l = None).
    { destruct (entry_eq (lookup (w_fs w1) l) (lookup (w_fs w) l)) as [Q|Q]; [congruence|]. destruct (Ch _ Q) as (_ & _ & c & a & b & Cd & Q1 & Q2). subst a. destruct (El c ([str "snapcd.db"] ++ b) Cd). rewrite Q1. unfold l. rewrite <- !app_assoc. reflexivity. }
    assert (Cw1 : clear_way (w_fs w1) (w_cwd w) d).
    { intros a b Q. destruct (entry_eq (lookup (w_fs w1) (w_cwd w ++ a)) (lookup (w_fs w) (w_cwd w ++ a))) as [Z|Z]; [rewrite Z; eapply Cw, Q|]. destruct (Ch _ Z) as (_ & Z2 & _). right. exact Z2. }
    destruct (make_way (w_fs w1) (w_cwd w) d (G1 _ _ Dc) Cw1) as (f2 & M & Dr2 & Ch2).
    assert (G2 : grows (w_fs w1) f2) by (eapply adds_grows, mkdirs_adds, M).
    assert (Nl2 : lookup f2 l = None).
    { destruct (entry_eq (lookup f2 l) (lookup (w_fs w1) l)) as [Z|Z]; [congruence|]. destruct (Ch2 _ Z) as (_ & _ & a & b & Q1 & Q2). unfold l in Q2. apply app_inv_head in Q2. apply (f_equal (@length name)) in Q1, Q2. rewrite app_length in *. cbn in Q2. lia. }
    (* the command *)
    assert (R : exists w2 st, run_command cm None CInit w1 = (Done tt, w2) /\ w_out w2 = w_out w1 /\ w_cwd w2 = w_cwd w1 /\ w_fs w2 = fs_set f2 l (EFile [] st) /\ assoc_loc l (w_dbs w2) = Some (Db [] [(str "HEAD", str "master")] [])).
    { cbn [run_command]. unfold cmd_init. rewrite Cp, join_file_rel by exact Nd. unfold fs_create_dir_all.
      assert (Ne : is_empty_path (named d) = false) by (destruct d; [congruence|reflexivity]). rewrite Ne. clear Ne. unfold fs_change. unfold bind at 1.
      match goal with |- context [op ?e w1] => destruct (op_live e w1 F1) as (v1 & T1 & Fv1 & ->) end. destruct T1 as (t1 & r1 & ->). cbn [w_fs w_cwd set_faults set_tick]. unfold base_loc at 1. unfold named at 1 2. cbn [p_abs p_comps].
      rewrite A1, M. cbn [option_map]. unfold sqlite_open. unfold bind at 1.
      match goal with |- context [op ?e ?x] => destruct (op_live e x Fv1) as (v2 & T2 & Fv2 & ->) end. destruct T2 as (t2 & r2 & ->).
      assert (Op : open_db_eff (named (d ++ [snapcd_db])) (set_faults (set_tick (set_fs (set_faults (set_tick w1 t1) r1) f2) t2) r2) =
        Some (l, set_dbs (set_fs (set_faults (set_tick (set_fs (set_faults (set_tick w1 t1) r1) f2) t2) r2) (fs_set f2 l (EFile [] (Stamp (fresh_inode t2) (clock t2))))) (assoc_set l db_empty (w_dbs w1)))).
      { unfold open_db_eff. cbn [w_fs w_cwd w_dbs w_tick set_faults set_tick set_fs]. unfold resolve.
        assert (Ne : is_empty_path (named (d ++ [snapcd_db])) = false) by (destruct d; reflexivity). rewrite Ne. unfold named. cbn [p_abs p_comps p_slash]. rewrite A1, (walk_normals f2).
        - change (w_cwd w ++ d ++ [snapcd_db]) with l. rewrite Nl2. reflexivity.
        - intros a c Q Nc. destruct (exists_last Nc) as (c' & n & ->). rewrite app_assoc in Q. apply app_inj_tail in Q as [Q _]. eapply Dr2, Q. }
      rewrite Op. unfold db_write_at. match goal with |- context [op ?e ?x] => destruct (op_live e x Fv2) as (v3 & T3 & Fv3 & ->) end. destruct T3 as (t3 & r3 & ->).
      eexists _, _. split; [reflexivity|]. cbn. split; [reflexivity|]. split; [first [exact A1|symmetry; exact A1]|]. split; [reflexivity|]. rewrite assoc_loc_set. unfold db_at. rewrite assoc_loc_set. reflexivity. }
    destruct R as (w2 & st & R & O2 & W2 & S2 & K2).
    destruct (process_live cm CInit w None w1 w2 F S R) as (w' & Pr & Ow & Fw & Sw & Cww & _ & Dw & _). specialize (Dw eq_refl).
    assert (G3 : grows f2 (fs_set f2 l (EFile [] st))).
    { intros x e L. rewrite lookup_fs_set. destruct x as [|n x]; [exact L|]. destruct (names_eqb l (n :: x)) eqn:En; [|exact L]. apply names_eqb_eq in En. subst l. congruence. }
    assert (G : grows (w_fs w) (w_fs w')) by (rewrite Sw, S2; eapply grows_trans; [exact G1|]; eapply grows_trans; [exact G2|exact G3]).
    assert (Dirs : forall a b, w_cwd w ++ d = a ++ b -> lookup (w_fs w') a = Some EDir).
    { intros a b Q. rewrite Sw, S2. apply G3. apply app_eq_app in Q as (m & [[Q1 Q2]|[Q1 Q2]]).
      - apply G2, G1. eapply Up, Q1.
      - rewrite Q1. eapply Dr2, Q2. }
    exists w'. split; [exact Pr|]. split; [congruence|]. split; [exact Fw|]. split; [congruence|]. split; [exact G|]. split.
    - split; [exact Cp|]. split; [exact Nd|]. split; [exact Dirs|]. rewrite Cww, W2, A1. split; [exists []; rewrite app_nil_r; reflexivity|]. split.
      + intros e' [r Q] L. exfalso. apply (f_equal (@length name)) in Q. rewrite app_length in Q. unfold name, loc in *. lia.
      + split; [|rewrite Dw; exact K2]. exists [], st. fold l. rewrite Sw, S2, lookup_fs_set. unfold l at 2. destruct (w_cwd w) as [|n x] eqn:Ec; cbn [app].
        * destruct d as [|n x]; [congruence|]. cbn [app]. change (n :: x ++ [str "snapcd.db"]) with ((n :: x) ++ [str "snapcd.db"]). rewrite names_eqb_refl. reflexivity.
        * rewrite names_eqb_refl. reflexivity.
    - unfold cache_place in *. destruct cache_dir as [p|] eqn:Cd; [|exact I]. destruct P as (c & -> & _). exists c. split; [reflexivity|]. intros a b Q. right. cbn [app]. rewrite Sw, S2. apply G3, G2. eapply Dr; [reflexivity|exact Q].
  Qed.
End LiveStart.
