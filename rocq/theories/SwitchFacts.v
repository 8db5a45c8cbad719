(** Switching branches: [checkout-head], [checkout], and what [status] says then. *)
From Coq Require Import RelationClasses Sorted.
From Verif Require Import Base BaseFacts TableFacts Key KeyFacts Keyish Cbor CborFacts Object ObjectFacts Path World WorldFacts Store File Filter Dir Diff Commit Main SpecStore StoreCalls SpecRun SpecProc SpecFile SpecDir SpecClosure
  SpecCache SpecDiff SpecPatch SpecShow SpecOut SpecCmd SpecText SpecShape SpecCheckout SpecLive SpecHonest SpecRestore SpecHead SpecHistory SpecChronicle Screen SpecScreen Frame DbRel Integrity ObjStoreFacts SessionFacts FilePlan FileFacts ChunkFacts FileRun FsFacts DirPlan DirFacts GetFacts DirTrip DirTree DirWalk
  WalkFacts DirLive CacheFacts HashFacts SortFacts CompareFacts DiffFacts LineFacts CheckoutFacts CheckoutCmd ProcFacts CmdFacts InitFacts Reader OutFacts SnapFacts ShowFacts Closure ShapeFacts ShapeTop LiveFacts LiveDiff LiveCmd LiveStart LiveStat LiveCache LiveStory ScreenFacts HonestFacts RestoreFacts HeadFacts CleanFacts HistoryFacts ChronicleFacts.

Section Switch.
  Context {E : Env}.
  Variable T : cachekey -> bytes.

  (** A snapshot that is the newest of HEAD's branch is compared with the files before
      HEAD is moved. *)
  Lemma snapshot_head {F : Fmt} cm v e d db n k r w0 tree c n' : honest T v -> steady_reads -> quiet_disk v -> agrees T (w_fs v) -> stands_in cm v e d db -> head_named db n ->
    history n None (repo_of db) = k :: r -> globs_ok cm -> no_coll (w_hashed v) -> length (d_data db) <= stack ->
    let l := e ++ removelast d in let dbl := e ++ d in let ex := cm_exclude cm in
    lossless_below (w_fs w0) l -> lossless_below (w_fs v) l -> listable ex dbl (w_fs v) (abs_path l) l stack ->
    (forall x e0, committed ex dbl l (w_fs w0) x e0 -> lookup (w_fs v) (l ++ x) <> None) ->
    (forall x c st, now ex dbl l (w_fs v) x (EFile c st) -> (forall e0, ~ committed ex dbl l (w_fs w0) x e0) -> found_here v x) ->
    (exists en, lookup (w_fs w0) l = Some en /\ forall b st, en <> EFile b st) ->
    c_tree c = tree -> (forall v1, cur_db v1 = db -> w_hashed v1 = w_hashed v -> snapshot w0 ex (abs_path dbl) (abs_path l) tree v1 /\ is_commit v1 k c) ->
    exists v', run_process cm (CCheckoutHead n') v = (Some 0%N, v') /\ w_fs v' = w_fs v /\
      (no_coll (w_hashed v') ->
        (unedited ex dbl l (w_fs w0) (w_fs v) -> moves_head db (db_at (w_dbs v') (db_file e d)) n' /\ writes_lines v v' [str "Ok, new head."]) /\
        (~ unedited ex dbl l (w_fs w0) (w_fs v) -> adds_objects db (db_at (w_dbs v') (db_file e d)) /\ exists A M, edits ex dbl l (w_fs w0) (w_fs v) A M /\
           writes_lines v v' (str "Cannot checkout: working directory is not clean" :: report_lines (map entry_text A) (map (fun x => entry_text (x, true)) M)))).
  Proof.
    intros Hv St Qv Ag (Fv & Ctv & Ov & Rpv) (Hn & Un) Hi G NC De l dbl ex Ls Lg Li Kp Fo Top Ct Snap. pose proof Rpv as (Cp & Nd & Dirs & _). pose proof (honest_used _ _ Hv) as Uv.
    destruct (start_found cm v e d db Fv (there_place _ Ctv) Rpv) as (v1 & Sv & Fv1 & Cv1 & Dv1 & Ov1 & Cnv1 & Cuv1 & Hv1 & Fsv1). specialize (Fsv1 Ctv). fold l dbl in Sv. set (s := DsState (abs_path dbl) (abs_path l)) in *.
    assert (NC1 : no_coll (w_hashed v1)) by (rewrite Hv1; exact NC). destruct (Snap v1 Cuv1 Hv1) as [Sn1 Ic]. pose proof (commit_reads _ _ _ Ic) as Rc.
    assert (Ht : head_tree v1 (Some tree)).
    { exists n. rewrite Cuv1. split; [exact Hn|]. exists k, r, c. split; [exact Hi|]. split; [exact Rc|congruence]. }
    destruct (snapshot_tree _ _ _ _ _ _ St NC1 Sn1) as (_ & TA & TB).
    assert (Ar : at_rest v1).
    { split; [unfold quiet_disk in *; rewrite Fsv1; tauto|]. eapply honest_readable; [exact Hv|exact St|exact Sv|rewrite Fsv1; exact Ag]. }
    assert (Sd : forall x e, snapped w0 ex (abs_path dbl) (abs_path l) x e <-> committed ex dbl l (w_fs w0) x e) by (intros x y; unfold snapped, committed; rewrite !locate_abs; reflexivity).
    assert (Od : forall x e, on_disk ex (abs_path dbl) (abs_path l) v1 x e <-> now ex dbl l (w_fs v) x e) by (intros x y; unfold on_disk, now, committed; rewrite !locate_abs, Fsv1; reflexivity).
    assert (Up : forall a b, l = a ++ b -> lookup (w_fs v) a = Some EDir).
    { intros a b Q. apply (Dirs a (b ++ [last d []])). rewrite app_assoc, <- Q. unfold l. rewrite <- app_assoc. f_equal. apply app_removelast_last, Nd. }
    destruct (proj2 (checkout_head_exactly cm v s v1 Uv Sv NC1 ltac:(unfold deep_enough; rewrite Cuv1; exact De) Ar n')) as [v2 Rv2].
    { split; [exists n; rewrite Cuv1; auto|]. split; [exact G|]. intros t Ht'. assert (t = Some tree) as -> by (first [exact (LiveCmd.head_tree_fun _ _ _ Ht' Ht)|symmetry; exact (LiveCmd.head_tree_fun _ _ _ Ht' Ht)]).
      cbn [ds_folder ds_repo s]. fold ex. split; [|split; [|split]].
      - exists l. rewrite Fsv1, stat_abs; [|intros a b Q _; eapply Up, Q]. rewrite (Up l []); [reflexivity|rewrite app_nil_r; reflexivity].
      - rewrite !locate_abs, Fsv1. exact Li.
      - intros x k' dd It. destruct (TA _ _ _ It) as (e0 & C & Lf). apply Sd in C. pose proof (Kp _ _ C) as Kx. destruct (lookup (w_fs v) (l ++ x)) as [e1|] eqn:L1; [|congruence]. exists e1. apply Od. split; [|split; [exact L1|apply C]].
        intros ->. destruct It as (_ & i & _ & Q1 & Q2). specialize (Q2 eq_refl). subst dd.
        destruct Lf as [(_ & Q & _)|(b & st & -> & _)]; [congruence|]. destruct C as [C _]. rewrite app_nil_r in C. destruct Top as (en & L & N). rewrite L in C. injection C as ->. exact (N _ _ eq_refl).
      - intros x b st X N1. unfold found_here. rewrite Fsv1, Cv1. apply (Fo x b st); [apply Od, X|]. intros e0 C. apply Sd in C. destruct (TB _ _ C) as (k' & dd & It); [|exact (N1 _ _ It)]. intros ->. destruct X as (X & _). congruence. }
    destruct (process_live cm _ v (Some s) v1 v2 Fv Sv Rv2) as (v' & P' & Ow' & _ & Sw' & _ & Hv' & _ & Dv'). specialize (Dv' s eq_refl). exists v'.
    split; [exact P'|]. pose proof (files_kept cm s (CCheckoutHead n') eq_refl v1) as Fk. rewrite Rv2 in Fk. destruct Fk as (Fk & _ & Ik). cbn [snd] in Fk, Ik. split; [congruence|].
    assert (Cn : w_conn v2 = db_file e d) by (unfold db_file; rewrite <- Cnv1; pose proof (kl_command cm s (CCheckoutHead n') ltac:(discriminate) v1 Fv1) as (_ & X & _); rewrite Rv2 in X; exact X).
    rewrite Cn in Dv'. rewrite Dv', Hv'. intro NC'.
    destruct (honest_head _ cm v s v1 n' v2 Hv Sv St ltac:(rewrite Fsv1; exact Ov) ltac:(rewrite Fsv1; exact Ag) NC1 ltac:(intros f If; rewrite Fv1 in If; destruct If) Rv2) as (to & A & M & Ht' & Df & Ca).
    assert (to = Some tree) as -> by (first [exact (LiveCmd.head_tree_fun _ _ _ Ht' Ht)|symmetry; exact (LiveCmd.head_tree_fun _ _ _ Ht' Ht)]). cbn [ds_folder ds_repo s] in Df.
    assert (Ed : edits ex dbl l (w_fs w0) (w_fs v) A M).
    { rewrite <- Fsv1. eapply (diff_edits w0 ex (abs_path dbl) (abs_path l) tree v1 (w_hashed v2)); [exact St|exact Sn1|reflexivity|reflexivity|reflexivity|exact Ik|exact NC'|exact Ls|rewrite Fsv1; exact Lg|exact Df]. }
    pose proof (edits_none _ _ _ _ _ _ _ Ed) as En.
    assert (Wl : forall ls, writes_lines v1 v2 ls -> writes_lines v v' ls) by (intros ls Wr; unfold writes_lines, writes, screen in *; rewrite Ow', <- Ov1; exact Wr).
    rewrite <- Cuv1. destruct Ca as [(QA & QM & Mv1 & Wr)|(Ne & Ad & Wr)].
    - split; [intros _; split; [exact Mv1|apply Wl, Wr]|]. intro Nu. destruct Nu. apply En. auto.
    - split; [intro Une; destruct Ne; apply En, Une|]. intros _. split; [exact Ad|]. exists A, M. split; [exact Ed|apply Wl, Wr].
  Qed.

  (** A process that starts in the repository with files that conform to [T] keeps the
      machine honest. *)
  Lemma honest_run cm c v e d db : honest T v -> agrees T (w_fs v) -> stands_in cm v e d db -> (forall w1, sensible w1 c) -> honest T (snd (run_process cm c v)).
  Proof.
    intros Hv Ag (Fv & Ctv & Ov & Rpv) Se. apply ho_process; [exact Hv|].
    destruct (start_found cm v e d db Fv (there_place _ Ctv) Rpv) as (v1 & S1 & _ & _ & _ & _ & _ & _ & _ & Fsv1). specialize (Fsv1 Ctv).
    intros st x Sx. unfold starts in S1, Sx. rewrite S1 in Sx. injection Sx as <- <-. rewrite Fsv1. split; [exact Ov|]. split; [apply Se|exact Ag].
  Qed.
  Lemma stands_file cm v e d db : stands_in cm v e d db -> db_at (w_dbs v) (db_file e d) = db.
  Proof. intros (_ & _ & _ & Rp). eapply at_file, Rp. Qed.
  Lemma stands_there cm v e d db : stands_in cm v e d db -> exists c st, lookup (w_fs v) (db_file e d) = Some (EFile c st).
  Proof. intros (_ & _ & _ & Rp). destruct Rp as (_ & _ & _ & _ & _ & X & _). exact X. Qed.

  (** C89 *)
  Theorem switched {F : Fmt} cm e d wa na0 ma ba ka wa' wb nb0 mb bb kb wb' v db na ra nb rb : globs_ok cm -> steady_reads ->
    commits_here cm e d wa na0 ma ba ka wa' -> commits_here cm e d wb nb0 mb bb kb wb' -> later (db_file e d) wa' v -> later (db_file e d) wb' v ->
    honest T v -> quiet_disk v -> agrees T (w_fs v) -> stands_in cm v e d db -> no_coll (w_hashed v) -> length (d_data db) <= stack ->
    head_named db na -> history na None (repo_of db) = ka :: ra -> history nb None (repo_of db) = kb :: rb -> utf8_valid nb = true ->
    let l := e ++ removelast d in let dbl := e ++ d in let ex := cm_exclude cm in
    lossless_below (w_fs v) l -> listable ex dbl (w_fs v) (abs_path l) l stack ->
    (forall x e0, committed ex dbl l (w_fs wa) x e0 -> lookup (w_fs v) (l ++ x) <> None) ->
    (forall x c st, now ex dbl l (w_fs v) x (EFile c st) -> (forall e0, ~ committed ex dbl l (w_fs wa) x e0) -> found_here v x) ->
    exists v', run_process cm (CCheckoutHead nb) v = (Some 0%N, v') /\ w_fs v' = w_fs v /\
      (no_coll (w_hashed v') ->
        (~ unedited ex dbl l (w_fs wa) (w_fs v) -> adds_objects db (db_at (w_dbs v') (db_file e d)) /\ exists A M, edits ex dbl l (w_fs wa) (w_fs v) A M /\
           writes_lines v v' (str "Cannot checkout: working directory is not clean" :: report_lines (map entry_text A) (map (fun x => entry_text (x, true)) M))) /\
        (unedited ex dbl l (w_fs wa) (w_fs v) -> writes_lines v v' [str "Ok, new head."] /\ moves_head db (db_at (w_dbs v') (db_file e d)) nb /\
           forall u db1, outside v' u -> w_cache u = w_cache v' \/ w_cache u = [] -> agrees T (w_fs u) -> stands_in cm u e d db1 -> length (d_data db1) <= stack -> in_home l -> room_for ex dbl l (w_fs wb) (w_fs u) ->
           exists u', run_process cm CCheckout u = (Some 0%N, u') /\ w_out u' = w_out u /\ restored ex dbl l (w_fs wb) (w_fs u) (w_fs u') /\
             forall x db2, outside u' x -> w_fs x = w_fs u' -> w_cache x = w_cache u' \/ w_cache x = [] -> quiet_disk x -> agrees T (w_fs x) -> stands_in cm x e d db2 ->
               lossless_below (w_fs x) l -> listable ex dbl (w_fs x) (abs_path l) l stack ->
               exists x', run_process cm CStatus x = (Some 0%N, x') /\ w_fs x' = w_fs x /\
                 (no_coll (w_hashed x') -> writes_lines x x' [str "HEAD: " ++ nb ++ str " [" ++ firstn 8 (as_user_key kb) ++ str "]"]))).
  Proof.
    intros G St Ca Cb La Lb Hv Qv Ag Sv NC De Hn Hia Hib Ub l dbl ex Lg Li Kp Fo.
    destruct (commit_made _ _ _ _ _ _ _ _ _ G Ca) as (Lsa & Ta & _ & _ & a0 & treea & Fa & Staya). destruct (commit_made _ _ _ _ _ _ _ _ _ G Cb) as (Lsb & Tb & _ & _ & b0 & treeb & Fb & Stayb). fold l dbl ex in Lsa, Ta, Staya, Lsb, Tb, Stayb.
    rewrite <- Fa in *. rewrite <- Fb in Lsb, Tb.
    assert (Topa : exists en, lookup (w_fs a0) l = Some en /\ forall b st, en <> EFile b st) by (exists EDir; split; [exact Ta|discriminate]).
    assert (Topb : exists en, lookup (w_fs b0) l = Some en /\ forall b st, en <> EFile b st) by (exists EDir; split; [exact Tb|discriminate]).
    assert (Sa : forall v1, cur_db v1 = db -> w_hashed v1 = w_hashed v -> snapshot a0 ex (abs_path dbl) (abs_path l) treea v1 /\ is_commit v1 ka (Commit treea (firstn 1 ba) (Attrs ma []))).
    { intros v1 C1 H1. apply (Staya v v1 La); [|exact H1]. rewrite C1. symmetry. eapply stands_file, Sv. }
    destruct (snapshot_head cm v e d db na ka ra a0 treea (Commit treea (firstn 1 ba) (Attrs ma [])) nb Hv St Qv Ag Sv Hn Hia G NC De Lsa Lg Li Kp Fo Topa eq_refl Sa) as (v' & Pv & Fv' & K).
    exists v'. split; [exact Pv|]. split; [exact Fv'|]. intro NC'. destruct (K NC') as [Yes No]. split; [exact No|]. intro Un. destruct (Yes Un) as [Mv Wr]. split; [exact Wr|]. split; [exact Mv|].
    intros u db1 Ou Cu Agu Su De1 Home Room.
    assert (Hv' : honest T v') by (replace v' with (snd (run_process cm (CCheckoutHead nb) v)) by (rewrite Pv; reflexivity); eapply honest_run; eauto; intro; exact I).
    pose proof (ho_outside T _ _ Hv' Ou Cu) as Hu. pose proof (honest_used _ _ Hu) as Uu.
    assert (Lu : later (db_file e d) wb' u).
    { eapply later_outside; [|exact Ou]. replace v' with (snd (run_process cm (CCheckoutHead nb) v)) by (rewrite Pv; reflexivity). apply later_process; [exact Lb|eapply stands_there, Sv]. }
    assert (NCu : no_coll (w_hashed u)) by (destruct Ou as [_ ->]; exact NC').
    assert (Q1 : db1 = db_at (w_dbs v') (db_file e d)) by (pose proof (stands_file _ _ _ _ _ Su); destruct Ou as [Od _]; congruence).
    destruct Mv as [(Rl & _) Hd1]. rewrite <- Q1 in Rl, Hd1.
    assert (Hn1 : head_named db1 nb) by (split; assumption).
    assert (Hi1 : history nb None (repo_of db1) = kb :: rb) by (rewrite <- Hib; unfold history, repo_of; cbn [rp_log]; rewrite Rl; reflexivity).
    destruct (snapshot_back cm u e d db1 nb b0 treeb Uu Su Hn1 G NCu De1 Lsb Home ltac:(rewrite Fb; exact Room)) as (u' & Pu & Ou' & Rs & Hh & Dbu).
    { intros v1 Cv1 Hv1. destruct (Stayb u v1 Lu ltac:(rewrite Cv1; symmetry; eapply stands_file, Su) Hv1) as [Sn Ic]. split; [exact Sn|]. exists nb. rewrite Cv1. split; [exact Hd1|]. eexists kb, rb, _. split; [exact Hi1|]. split; [apply commit_reads, Ic|reflexivity]. }
    exists u'. split; [exact Pu|]. split; [exact Ou'|]. split; [rewrite Fb in Rs; exact Rs|].
    assert (Hu' : honest T u') by (replace u' with (snd (run_process cm CCheckout u)) by (rewrite Pu; reflexivity); eapply honest_run; eauto; intro; exact I).
    intros x db2 Ox Fx Cx Qx Agx Sx Lgx Lix. pose proof (ho_outside T _ _ Hu' Ox Cx) as Hx.
    assert (Lx : later (db_file e d) wb' x).
    { eapply later_outside; [|exact Ox]. replace u' with (snd (run_process cm CCheckout u)) by (rewrite Pu; reflexivity). apply later_process; [exact Lu|eapply stands_there, Su]. }
    assert (NCx : no_coll (w_hashed x)) by (destruct Ox as [_ ->]; rewrite Hh; exact NCu).
    assert (Q2 : db2 = db1) by (pose proof (stands_file _ _ _ _ _ Sx); destruct Ox as [Od _]; congruence). subst db2.
    assert (Lw : listable ex dbl (w_fs b0) (abs_path l) l stack).
    { destruct Cb as (dbb & _ & _ & Sb & _ & _ & Cs & _). destruct Sb as (_ & _ & _ & Rp). pose proof Rp as (_ & Nd & Dirs & _).
      destruct Cs as (l' & e' & Sl & Lw & _). fold l dbl ex in Sl, Lw. rewrite locate_abs in Lw. rewrite <- ?Fb in Lw, Sl, Dirs. rewrite stat_abs in Sl.
      - rewrite Tb in Sl. injection Sl as <- _. exact Lw.
      - intros a b Q _. apply (Dirs a (b ++ [last d []])). rewrite app_assoc, <- Q. unfold l. rewrite <- app_assoc. f_equal. apply app_removelast_last, Nd. }
    rewrite Fx in Lgx, Lix. destruct (restored_unedited ex dbl l _ _ _ _ Rs Lw Lix) as [Unx Kpx].
    assert (Fox : forall y c st, now ex dbl l (w_fs x) y (EFile c st) -> (forall e0, ~ committed ex dbl l (w_fs b0) y e0) -> found_here x y).
    { rewrite Fx. intros y c st N0 Nc. destruct (proj1 Unx _ _ N0) as [e0 C0]. destruct (Nc e0 C0). }
    rewrite <- Fx in Lgx, Lix, Kpx.
    assert (Sb : forall v1, cur_db v1 = db1 -> w_hashed v1 = w_hashed x -> snapshot b0 ex (abs_path dbl) (abs_path l) treeb v1 /\ is_commit v1 kb (Commit treeb (firstn 1 bb) (Attrs mb []))).
    { intros v1 C1 H1. apply (Stayb x v1 Lx); [|exact H1]. rewrite C1. symmetry. eapply stands_file, Sx. }
    destruct (snapshot_status T cm x e d db1 nb kb rb b0 treeb (Commit treeb (firstn 1 bb) (Attrs mb [])) Hx St Qx Agx Sx Hn1 Hi1 G NCx De1 Lsb Lgx Lix Kpx Fox Topb eq_refl Sb) as (x' & Px & Fx' & X).
    exists x'. split; [exact Px|]. split; [exact Fx'|]. intro NCx'. destruct (X NCx') as (A & M & Ed & Wrx). rewrite Fx in Ed. destruct (proj2 (edits_none _ _ _ _ _ _ _ Ed) Unx) as [-> ->]. exact Wrx.
  Qed.
End Switch.
