(** What an inserted directory is good for later: comparing with it and fetching it. *)
From Coq Require Import RelationClasses Sorted.
From Verif Require Import Base BaseFacts TableFacts Key KeyFacts Keyish Cbor CborFacts Object ObjectFacts Path World WorldFacts Store File Filter Dir Diff Commit Main SpecStore StoreCalls SpecRun SpecProc SpecFile SpecDir SpecClosure
  SpecCache SpecDiff SpecPatch SpecShow SpecOut SpecCmd SpecText SpecShape SpecCheckout SpecLive SpecFetch SpecHonest SpecRestore SpecInsert Screen SpecScreen Frame DbRel Integrity ObjStoreFacts SessionFacts FilePlan FileFacts ChunkFacts FileRun FsFacts DirPlan DirFacts GetFacts DirTrip DirTree DirWalk
  WalkFacts DirLive CacheFacts HashFacts SortFacts CompareFacts DiffFacts LineFacts CheckoutFacts CheckoutCmd ProcFacts CmdFacts InitFacts Reader OutFacts SnapFacts ShowFacts Closure ShapeFacts ShapeTop LiveFacts LiveDiff LiveCmd LiveStart LiveStat LiveCache LiveStory LiveFetch LiveRead ScreenFacts HonestFacts RestoreFacts.

Section Inserted.
  Context {E : Env}.
  Variable T : cachekey -> bytes.

  (** What an insert leaves behind, whatever happens later. *)
  Lemma insert_stays cm w e d db l : well_used w -> quiet_disk w -> stands_in cm w e d db -> globs_ok cm ->
    let dbl := e ++ d in let ex := cm_exclude cm in
    can_store ex (abs_path dbl) (abs_path l) w ->
    exists w' k, run_process cm (CInsert (abs_path l)) w = (Some 0%N, w') /\ w_out w' = Printed "inserted hash" [as_user_key k] :: w_out w /\ w_fs w' = w_fs w /\ well_used w' /\
      exists w0, w_fs w0 = w_fs w /\
         forall v v1, later (db_file e d) w' v -> cur_db v1 = db_at (w_dbs v) (db_file e d) -> w_hashed v1 = w_hashed v ->
           snapshot w0 ex (abs_path dbl) (abs_path l) k v1.
  Proof.
    intros U Qd (F & Ct & O & Rp) G dbl ex Cs. pose proof Rp as (Cp & Nd & _).
    destruct (start_found cm w e d db F (there_place _ Ct) Rp) as (w1 & S & F1 & C1 & D1 & O1 & Cn1 & Cu1 & H1 & Fs1). specialize (Fs1 Ct). fold dbl in S. set (s := DsState (abs_path dbl) (abs_path (e ++ removelast d))) in *.
    destruct (proj2 (insert_exactly cm w s w1 (abs_path l) S ltac:(unfold quiet_disk; rewrite Fs1; auto; destruct Qd as (_ & _ & Mo); auto))) as [w2 R2].
    { split; [exact G|]. unfold can_store in *. cbn [ds_folder ds_repo s]. rewrite Fs1, C1. exact Cs. }
    destruct (process_live cm _ w (Some s) w1 w2 F S R2) as (w' & P & Ow & Fw & Sw & Cw & Hw & _ & Dw). specialize (Dw s eq_refl).
    destruct (insert_works cm w s w1 (abs_path l) w2 (used_reachable _ U) S ltac:(rewrite Fs1; exact O) R2) as (k & Sn & O2 & Fs2 & _ & Ad).
    cbn [ds_folder ds_repo s] in Sn. exists w', k. split; [exact P|]. split; [unfold says in O2; cbn in O2; congruence|]. split; [congruence|]. split.
    { replace w' with (snd (run_process cm (CInsert (abs_path l)) w)) by (rewrite P; reflexivity). apply wu_process; [exact U|].
      intros st x Sx. unfold starts in S, Sx. rewrite S in Sx. injection Sx as <- <-. rewrite Fs1. split; [exact O|exact I]. }
    exists w1. split; [exact Fs1|]. assert (Cn2 : w_conn w2 = w_conn w1).
    { clear - R2. cbn [run_command with_ds] in R2. unfold cmd_insert in R2. apply bind_done in R2 as (f & v0 & H0 & R2). apply filter_done in H0 as [-> ->].
      apply bind_done in R2 as (k & v1 & H1 & R2). pose proof (stores_item _ _ _ _ _ _ _ H1) as (_ & _ & _ & _ & N). apply printed in R2 as [Al _]. destruct Al as (_ & _ & _ & Cn & _). congruence. }
    rewrite Cn2, Cn1 in Dw. change (e ++ d ++ [str "snapcd.db"]) with (db_file e d) in Dw.
    intros v v1 La Cv Hv. pose proof (later_hashed _ _ _ La) as Ih. pose proof (proj1 (later_grows _ _ _ La)) as Gr. rewrite Dw in Gr.
    eapply snapshot_kept; [exact Sn|]. split; [intros h x X; rewrite Cv; apply Gr, X|]. rewrite Hv, <- Hw. exact Ih.
  Qed.

  (** An argument that stands for a snapshot stands for a stored item. *)
  Lemma taken_item cm v s v1 ki k w0 ex fo p : starts cm v s v1 -> taken_for cm v ki k -> snapshot w0 ex fo p k v1 -> no_coll (w_hashed v1) -> names_only v1 Item ki.
  Proof. intros S Ta Sn NC k' D. pose proof (denotes_fun _ _ _ _ D (Ta _ _ S)) as Q. subst k'. eapply snapshot_points; eassumption. Qed.

  (** A snapshot is compared with the files. *)
  Lemma snapshot_compare {F : Fmt} cm v e d db ki k w0 l : honest T v -> steady_reads -> quiet_disk v -> agrees T (w_fs v) -> stands_in cm v e d db ->
    globs_ok cm -> no_coll (w_hashed v) -> length (d_data db) <= stack -> taken_for cm v ki k ->
    let dbl := e ++ d in let ex := cm_exclude cm in
    lossless_below (w_fs w0) l -> lossless_below (w_fs v) l -> listable ex dbl (w_fs v) (abs_path l) l stack ->
    (forall a b, l = a ++ b -> lookup (w_fs v) a = Some EDir) ->
    (forall x e0, committed ex dbl l (w_fs w0) x e0 -> lookup (w_fs v) (l ++ x) <> None) ->
    (forall x c st, now ex dbl l (w_fs v) x (EFile c st) -> (forall e0, ~ committed ex dbl l (w_fs w0) x e0) -> found_here v x) ->
    (exists en, lookup (w_fs w0) l = Some en /\ forall b st, en <> EFile b st) ->
    (forall v1, cur_db v1 = db -> w_hashed v1 = w_hashed v -> snapshot w0 ex (abs_path dbl) (abs_path l) k v1) ->
    exists v', run_process cm (CCompare (Some (abs_path l)) (Some ki) false) v = (Some 0%N, v') /\ w_fs v' = w_fs v /\
      (no_coll (w_hashed v') -> exists A M, edits ex dbl l (w_fs w0) (w_fs v) A M /\
         writes_lines v v' (report_lines (map entry_text A) (map (fun x => entry_text (x, true)) M))).
  Proof.
    intros Hv St Qv Ag (Fv & Ctv & Ov & Rpv) G NC De Ta dbl ex Ls Lg Li Up Kp Fo Top Snap. pose proof (honest_used _ _ Hv) as Uv.
    destruct (start_found cm v e d db Fv (there_place _ Ctv) Rpv) as (v1 & Sv & Fv1 & Cv1 & Dv1 & Ov1 & Cnv1 & Cuv1 & Hv1 & Fsv1). specialize (Fsv1 Ctv). fold dbl in Sv. set (s := DsState (abs_path dbl) (abs_path (e ++ removelast d))) in *.
    assert (NC1 : no_coll (w_hashed v1)) by (rewrite Hv1; exact NC). pose proof (Snap v1 Cuv1 Hv1) as Sn1. pose proof (Ta _ _ Sv) as Dk.
    pose proof (taken_item _ _ _ _ _ _ _ _ _ _ Sv Ta Sn1 NC1) as Nm. assert (Nm' : forall x, Some ki = Some x -> names_only v1 Item x) by (intros x [= <-]; exact Nm).
    destruct (snapshot_tree _ _ _ _ _ _ St NC1 Sn1) as (_ & TA & TB).
    assert (Ar : at_rest v1).
    { split; [unfold quiet_disk in *; rewrite Fsv1; tauto|]. eapply honest_readable; [exact Hv|exact St|exact Sv|rewrite Fsv1; exact Ag]. }
    assert (Sd : forall x e, snapped w0 ex (abs_path dbl) (abs_path l) x e <-> committed ex dbl l (w_fs w0) x e) by (intros x y; unfold snapped, committed; rewrite !locate_abs; reflexivity).
    assert (Od : forall x e, on_disk ex (abs_path dbl) (abs_path l) v1 x e <-> now ex dbl l (w_fs v) x e) by (intros x y; unfold on_disk, now, committed; rewrite !locate_abs, Fsv1; reflexivity).
    destruct (proj2 (compare_exactly cm v s v1 Uv Sv NC1 ltac:(unfold deep_enough; rewrite Cuv1; exact De) Ar (Some (abs_path l)) (Some ki) Nm')) as [v2 Rv2].
    { split; [exact G|]. split; [discriminate|]. exists k. split; [exact Dk|]. cbn [ds_folder ds_repo s]. fold ex. split; [|split; [|split]].
      - exists l. rewrite Fsv1, stat_abs; [|intros a b Q _; eapply Up, Q]. rewrite (Up l []); [reflexivity|rewrite app_nil_r; reflexivity].
      - rewrite !locate_abs, Fsv1. exact Li.
      - intros x k' dd It. destruct (TA _ _ _ It) as (e0 & C & Lf). apply Sd in C. pose proof (Kp _ _ C) as Kx. destruct (lookup (w_fs v) (l ++ x)) as [e1|] eqn:L1; [|congruence]. exists e1. apply Od. split; [|split; [exact L1|apply C]].
        intros ->. destruct It as (_ & i & _ & Q1 & Q2). specialize (Q2 eq_refl). subst dd.
        destruct Lf as [(_ & Q & _)|(b & st & -> & _)]; [congruence|]. destruct C as [C _]. rewrite app_nil_r in C. destruct Top as (en & L & N). rewrite L in C. injection C as ->. exact (N _ _ eq_refl).
      - intros x b st X N1. unfold found_here. rewrite Fsv1, Cv1. apply (Fo x b st); [apply Od, X|]. intros e0 C. apply Sd in C. destruct (TB _ _ C) as (k' & dd & It); [|exact (N1 _ _ It)]. intros ->. destruct X as (X & _). congruence. }
    destruct (process_live cm _ v (Some s) v1 v2 Fv Sv Rv2) as (v' & P' & Ow' & _ & Sw' & _ & Hv' & _). exists v'.
    split; [exact P'|]. pose proof (files_kept cm s (CCompare (Some (abs_path l)) (Some ki) false) eq_refl v1) as Fk. rewrite Rv2 in Fk. destruct Fk as (Fk & _ & Ik). cbn [snd] in Fk, Ik. split; [congruence|]. rewrite Hv'. intro NC'.
    destruct (honest_compare _ cm v s v1 (Some (abs_path l)) (Some ki) v2 Hv Sv St ltac:(rewrite Fsv1; exact Ov) ltac:(rewrite Fsv1; exact Ag) NC1 Nm' Rv2) as (t & A & M & Ct & Df & Wr).
    cbn [compared_to] in Ct. pose proof (denotes_fun _ _ _ _ Ct Dk) as Q. subst t. exists A, M. split.
    - cbn [ds_folder ds_repo s] in Df. rewrite <- Fsv1. eapply (diff_edits w0 ex (abs_path dbl) (abs_path l) k v1 (w_hashed v2)); [exact St|exact Sn1|reflexivity|reflexivity|reflexivity|exact Ik|exact NC'|exact Ls|rewrite Fsv1; exact Lg|exact Df].
    - unfold writes_lines, writes, screen in *. rewrite Ow', <- Ov1. exact Wr.
  Qed.

  (** A snapshot is fetched to a new place. *)
  Lemma snapshot_fetch cm v e d db ki k w0 l out : well_used v -> stands_in cm v e d db -> no_coll (w_hashed v) -> length (d_data db) <= stack -> taken_for cm v ki k ->
    let dbl := e ++ d in let ex := cm_exclude cm in
    lossless_below (w_fs w0) l -> out <> [] -> new_place (w_fs v) out ->
    (forall v1, cur_db v1 = db -> w_hashed v1 = w_hashed v -> snapshot w0 ex (abs_path dbl) (abs_path l) k v1) ->
    exists v', run_process cm (CFetch ki (abs_path out)) v = (Some 0%N, v') /\ w_out v' = w_out v /\ recreated ex dbl l (w_fs w0) (w_fs v) (w_fs v') out.
  Proof.
    intros Uv (Fv & Ctv & Ov & Rpv) NC De Ta dbl ex Ls No (Fr & Up) Snap.
    destruct (start_found cm v e d db Fv (there_place _ Ctv) Rpv) as (v1 & Sv & Fv1 & Cv1 & Dv1 & Ov1 & Cnv1 & Cuv1 & Hv1 & Fsv1). specialize (Fsv1 Ctv). fold dbl in Sv. set (s := DsState (abs_path dbl) (abs_path (e ++ removelast d))) in *.
    assert (NC1 : no_coll (w_hashed v1)) by (rewrite Hv1; exact NC). pose proof (Snap v1 Cuv1 Hv1) as Sn1. pose proof (Ta _ _ Sv) as Dk.
    pose proof (taken_item _ _ _ _ _ _ _ _ _ _ Sv Ta Sn1 NC1) as Nm.
    assert (Way : forall r x y, out ++ r = x ++ y -> lookup (w_fs v) x = Some EDir \/ exists z, x = out ++ z).
    { intros r x y Q. apply app_eq_app in Q as (z & [[Q1 Q2]|[Q1 Q2]]); [|eauto]. destruct z as [|m z]; [right; exists []; rewrite app_nil_r in *; auto|]. left. eapply Up; [exact Q1|discriminate]. }
    destruct (proj2 (fetch_exactly cm v s v1 ki true out Uv Sv NC1 ltac:(unfold deep_enough; rewrite Cuv1; exact De) Fv1 Nm ltac:(cbn [start_of]; rewrite Fsv1; exact (Up [] out eq_refl No)))) as [v2 Rv2].
    { exists k. split; [exact Dk|]. intros r Lf. cbn [start_of]. rewrite Fsv1. split; [|exact (Fr r)]. intros x y Q _. cbn [app]. destruct (Way r x y Q) as [X|[z ->]]; [auto|left; exact (Fr z)]. }
    destruct (fetch_makes cm v s v1 ki true out v2 Uv Sv NC1 Nm Rv2) as (_ & _ & _ & _ & _ & _ & O2).
    destruct (used_started _ _ _ _ Uv Sv) as [W Ty]. pose proof (typed_cur _ Ty NC1) as Sh.
    assert (Made : made_tree v1 (w_fs v) (w_fs v2) k [] out).
    { pose proof Rv2 as H. cbn [run_command with_ds] in H. unfold cmd_fetch in H. apply bind_done in H as (k' & u & Hk & H). apply OutFacts.canon_done in Hk as [Tk D]; [|exact W]. pose proof (denotes_fun _ _ _ _ D Dk) as Q. subst k'.
      destruct (fetch_done v1 stack k true out u v2) as (_ & _ & M); [apply item_regular; [exact Sh|apply Nm, D]|apply cur_ticked, Tk|exact H|]. destruct (ticked_fs _ _ Tk) as [Fs _]. rewrite Fs, Fsv1 in M. exact M. }
    destruct Made as (M1 & M2 & M3). cbn [app] in M1, M2, M3.
    change (plain_path true out) with (abs_path out) in Rv2.
    destruct (process_live cm _ v (Some s) v1 v2 Fv Sv Rv2) as (v' & P' & Ow' & _ & Sw' & _ & Hv' & _). exists v'. split; [exact P'|]. split; [congruence|]. rewrite Sw'.
    assert (Fi := snapshot_files _ _ _ _ _ _ Sn1 NC1). cbv zeta in Fi. rewrite !locate_abs in Fi. specialize (Fi Ls).
    assert (Leaf : forall r, leaf_at v1 k r <-> exists c st, committed ex dbl l (w_fs w0) r (EFile c st)).
    { intro r. split.
      - intro Lf. destruct (M1 r Lf) as (c & Fa & _). apply (proj2 (Fi r)) in Fa as [C In]. unfold content in C. destruct (lookup (w_fs w0) (l ++ r)) as [[|c0 st| |]|] eqn:L; try discriminate. exists c0, st. split; assumption.
      - intros (c & st & L & In). destruct (proj2 (proj2 (Fi r) c)) as (k' & i & h & rest & A & B & C & _); [unfold content; rewrite L; auto|]. exists k', i. auto. }
    assert (File : forall r c, leaf_at v1 k r -> (content (w_fs v2) (out ++ r) = Some c <-> exists st, committed ex dbl l (w_fs w0) r (EFile c st))).
    { intros r c Lf. destruct (M1 r Lf) as (c0 & Fa & C0). apply (proj2 (Fi r)) in Fa as [C In]. rewrite C0. unfold content in C. destruct (lookup (w_fs w0) (l ++ r)) as [[|c1 st| |]|] eqn:L; try discriminate. injection C as ->. split.
      - intros [= ->]. exists st. split; assumption.
      - intros (st' & L' & _). congruence. }
    assert (Below : forall r, lookup (w_fs v2) (out ++ r) = None \/ exists x, leaf_at v1 k (r ++ x)).
    { intro r. destruct (M3 (out ++ r)) as [K|(_ & r' & x & y & Lf & Q & Z & _)]; [left; rewrite K; exact (Fr r)|]. right. exists y. subst x. rewrite <- app_assoc in Q. apply app_inv_head in Q. subst r'. exact Lf. }
    assert (Dirs : forall r x, leaf_at v1 k (r ++ x) -> x <> [] -> lookup (w_fs v2) (out ++ r) = Some EDir).
    { intros r x Lf Nx. apply (M2 (r ++ x) (out ++ r) x Lf); [apply app_assoc|exact Nx]. }
    split; [|split].
    - intros r c. split.
      + intro C. destruct (Below r) as [N|[[|m x] Lf]].
        * unfold content in C. rewrite N in C. discriminate.
        * rewrite app_nil_r in Lf. apply (File r c Lf), C.
        * unfold content in C. rewrite (Dirs r (m :: x) Lf) in C; discriminate.
      + intros (st & C). apply (File r c); [apply Leaf|]; eauto.
    - intro r. split.
      + intro L. destruct (Below r) as [N|[[|m x] Lf]]; [congruence| |].
        * rewrite app_nil_r in Lf. destruct (M1 r Lf) as (c & _ & C). unfold content in C. rewrite L in C. discriminate.
        * destruct (proj1 (Leaf _) Lf) as (c & st & C). exists (m :: x), c, st. split; [discriminate|exact C].
      + intros (x & c & st & Nx & C). apply (Dirs r x); [apply Leaf; eauto|exact Nx].
    - intros z N. destruct (M3 z) as [K|(N0 & r' & x & y & Lf & Q & Z & _)]; [exact K|]. subst z. destruct (Way r' x y Q) as [X|[z ->]]; [congruence|]. destruct (N z eq_refl).
  Qed.
End Inserted.
Section Story.
  Context {E : Env}.
  (** C88 *)
  Theorem inserted cm w e d db l : well_used w -> quiet_disk w -> steady_reads -> stands_in cm w e d db -> globs_ok cm ->
    let dbl := e ++ d in let ex := cm_exclude cm in
    can_store ex (abs_path dbl) (abs_path l) w -> lossless_below (w_fs w) l ->
    exists w' k, run_process cm (CInsert (abs_path l)) w = (Some 0%N, w') /\ w_out w' = Printed "inserted hash" [as_user_key k] :: w_out w /\ w_fs w' = w_fs w /\ well_used w' /\
      (forall (F : Fmt) T v db1 ki, later (db_file e d) w' v -> honest T v -> agrees T (w_fs v) -> quiet_disk v -> stands_in cm v e d db1 -> no_coll (w_hashed v) -> length (d_data db1) <= stack -> taken_for cm v ki k ->
         lookup (w_fs w) l = Some EDir -> (forall a b, l = a ++ b -> lookup (w_fs v) a = Some EDir) -> lossless_below (w_fs v) l -> listable ex dbl (w_fs v) (abs_path l) l stack ->
         (forall x e0, committed ex dbl l (w_fs w) x e0 -> lookup (w_fs v) (l ++ x) <> None) ->
         (forall x c st, now ex dbl l (w_fs v) x (EFile c st) -> (forall e0, ~ committed ex dbl l (w_fs w) x e0) -> found_here v x) ->
         exists v', run_process cm (CCompare (Some (abs_path l)) (Some ki) false) v = (Some 0%N, v') /\ w_fs v' = w_fs v /\
           (no_coll (w_hashed v') -> exists A M, edits ex dbl l (w_fs w) (w_fs v) A M /\
              writes_lines v v' (report_lines (map entry_text A) (map (fun x => entry_text (x, true)) M)))) /\
      (forall v db1 ki out, later (db_file e d) w' v -> well_used v -> stands_in cm v e d db1 -> no_coll (w_hashed v) -> length (d_data db1) <= stack -> taken_for cm v ki k ->
         out <> [] -> new_place (w_fs v) out ->
         exists v', run_process cm (CFetch ki (abs_path out)) v = (Some 0%N, v') /\ w_out v' = w_out v /\ recreated ex dbl l (w_fs w) (w_fs v) (w_fs v') out).
  Proof.
    intros U Qd St Std G dbl ex Cs Ls. destruct (insert_stays cm w e d db l U Qd Std G Cs) as (w' & k & P & Ow & Sw & Uw & w0 & F0 & K). exists w', k.
    split; [exact P|]. split; [exact Ow|]. split; [exact Sw|]. split; [exact Uw|]. rewrite <- F0 in Ls |- *. split.
    - intros F T v db1 ki La Hv Ag Qv Sv NC De Ta Top Up Lg Li Kp Fo. apply (snapshot_compare T cm v e d db1 ki k w0 l); auto.
      + exists EDir. split; [exact Top|discriminate].
      + intros v1 C1 H1. apply (K v v1 La); [|exact H1]. rewrite C1. symmetry. eapply at_file, Sv.
    - intros v db1 ki out La Uv Sv NC De Ta No Np. apply (snapshot_fetch cm v e d db1 ki k w0 l out); auto.
      intros v1 C1 H1. apply (K v v1 La); [|exact H1]. rewrite C1. symmetry. eapply at_file, Sv.
  Qed.
End Story.
