(** Exactly when the remaining commands succeed. *)
From Coq Require Import RelationClasses.
From Verif Require Import Base BaseFacts TableFacts Key KeyFacts Keyish Cbor CborFacts Object ObjectFacts Path World WorldFacts Store File Filter Dir Diff Commit Main SpecStore StoreCalls SpecRun SpecProc SpecCmd SpecFile SpecDir SpecCache SpecDiff SpecShape SpecLive
  SpecClosure Closure Frame DbRel Integrity StoreFacts ProcFacts InitFacts ObjStoreFacts SessionFacts FilePlan FileFacts ChunkFacts FileRun FsFacts DirPlan DirFacts GetFacts DirTrip FetchSafe DirTree DirWalk WalkFacts DirLive CacheFacts HashFacts CompareFacts DiffFacts CheckoutFacts
  Reader SpecPatch SpecShow SpecOut SpecText CmdFacts TextFacts OutFacts SnapFacts ShowFacts ShapeFacts ShapeTop Ends SpecCheckout LiveFacts LiveDiff LiveCmd LiveStart LiveCheckout LiveStory SpecFetch LiveFetch SortFacts.

Section LiveRead.
  Context {E : Env}.
  Notation ds := sqlite_ds.

  (** *** fetch *)
  Lemma fetch_exactly cm w s w1 ki a d : well_used w -> starts cm w (Some s) w1 -> no_coll (w_hashed w1) -> deep_enough w1 -> w_faults w1 = [] -> names_only w1 Item ki ->
    lookup (w_fs w1) (start_of w1 a) = Some EDir ->
    (exists w2, run_command cm (Some s) (CFetch ki (plain_path a d)) w1 = (Done tt, w2)) <-> exists k, denotes w1 ki k /\ can_fetch w1 k (start_of w1 a) d.
  Proof.
    intros U St NC L F Nm Db. destruct (used_started _ _ _ _ U St) as [W T]. pose proof (typed_cur _ T NC) as Sh. pose proof (started_full _ _ _ _ (used_reachable _ U) St) as Fu.
    cbn [run_command with_ds]. unfold cmd_fetch. split.
    - intros (w2 & H). apply bind_done in H as (k & v & Hk & H). apply OutFacts.canon_done in Hk as [Tk D]; [|exact W]. exists k. split; [exact D|].
      destruct (ticked_fs _ _ Tk) as [Fs Cw]. destruct (fetch_done w1 stack k a d v w2) as (_ & Fi & _); [apply item_regular; [exact Sh|apply Nm, D]|apply cur_ticked, Tk|exact H|].
      unfold fits in Fi. rewrite Fs in Fi. unfold start_of in *. rewrite Cw in Fi. exact Fi.
    - intros (k & D & Fi). destruct (canon_live ki w1 k W F D) as (v & Hk & Tk & Fv). rewrite (run_bind _ _ _ _ _ Hk). destruct (ticked_fs _ _ Tk) as [Fs Cw].
      pose proof (Nm k D) as Pt. pose proof Pt as (o & O & _). destruct (fetch_lives w1 stack Sh k a d v) as (w2 & H & _); [eapply complete_stack; eassumption|exact Pt|exact Fv|apply cur_ticked, Tk| | |eauto].
      + unfold start_of in *. rewrite Fs, Cw. exact Db.
      + unfold fits. rewrite Fs. unfold start_of in *. rewrite Cw. exact Fi.
  Qed.
  Lemma fetch_makes cm w s w1 ki a d w2 : well_used w -> starts cm w (Some s) w1 -> no_coll (w_hashed w1) -> names_only w1 Item ki ->
    run_command cm (Some s) (CFetch ki (plain_path a d)) w1 = (Done tt, w2) ->
    exists k, denotes w1 ki k /\ can_fetch w1 k (start_of w1 a) d /\ fetched w1 (w_fs w2) k (start_of w1 a) d /\ cur_db w2 = cur_db w1 /\ w_cwd w2 = w_cwd w1 /\ w_out w2 = w_out w1.
  Proof.
    intros U St NC Nm H. destruct (used_started _ _ _ _ U St) as [W T]. pose proof (typed_cur _ T NC) as Sh.
    cbn [run_command with_ds] in H. unfold cmd_fetch in H. apply bind_done in H as (k & v & Hk & H). apply OutFacts.canon_done in Hk as [Tk D]; [|exact W]. exists k. split; [exact D|].
    destruct (ticked_fs _ _ Tk) as [Fs Cw]. destruct (fetch_done w1 stack k a d v w2) as (O & Fi & M1 & M2 & M3); [apply item_regular; [exact Sh|apply Nm, D]|apply cur_ticked, Tk|exact H|].
    assert (B : start_of v a = start_of w1 a) by (unfold start_of; rewrite Cw; reflexivity). unfold fits in Fi. rewrite B, ?Fs in *. split; [exact Fi|]. split; [split; [exact M1|split; [exact M2|]]|].
    - intros z N. destruct (M3 z) as [K|(_ & r & x & y & L & Q & Z & _)]; [exact K|]. destruct (N r x y L Q Z).
    - pose proof (ticked_only _ _ Tk) as Ot. rewrite (only_cur _ _ O), (only_cur _ _ Ot), (only_cwd _ _ O). split; [reflexivity|]. split; [exact Cw|].
      rewrite <- (ticked_out _ _ Tk). destruct O as (? & ? & ? & ->). reflexivity.
  Qed.

  (** *** debug walk-tree *)
  Lemma print_tree_live m : forall w, w_faults w = [] -> exists w', print_tree m w = (Done tt, w').
  Proof.
    induction m as [|[p [k d]] m IH]; intros w F; cbn [print_tree]; [eexists; reflexivity|]. destruct (print_live "item" [path_text p; as_db_key k; if d then str "true" else str "false"] w F) as (w1 & H & F1).
    rewrite (run_bind _ _ _ _ _ H). apply IH, F1.
  Qed.
  Lemma walk_tree_exactly cm w s w1 ki : well_used w -> starts cm w (Some s) w1 -> no_coll (w_hashed w1) -> deep_enough w1 -> w_faults w1 = [] -> names_only w1 Item ki ->
    (exists w2, run_command cm (Some s) (CWalkTree ki) w1 = (Done tt, w2)) <-> exists k, denotes w1 ki k.
  Proof.
    intros U St NC L F Nm. destruct (used_started _ _ _ _ U St) as [W T]. pose proof (typed_cur _ T NC) as Sh. pose proof (started_full _ _ _ _ (used_reachable _ U) St) as Fu.
    cbn [run_command with_ds]. unfold cmd_walk_tree. split.
    - intros (w2 & H). apply bind_done in H as (k & v & Hk & H). apply OutFacts.canon_done in Hk as [Tk D]; [|exact W]. eauto.
    - intros (k & D). destruct (canon_live ki w1 k W F D) as (v & Hk & Tk & Fv). rewrite (run_bind _ _ _ _ _ Hk).
      pose proof (Nm k D) as Pt. pose proof Pt as (o & O & _).
      destruct (walk_works (cur_db w1) stack Sh k path_empty v (complete_stack _ _ _ Fu L O) Pt Fv (cur_ticked _ _ Tk)) as (m & w' & R & F' & _). unfold walk_fs_items.
      rewrite (run_bind _ _ _ _ _ R). apply print_tree_live, F'.
  Qed.

  (** *** show *)
  Lemma stdout_live b w : w_faults w = [] -> exists w', stdout_write tt b w = (Done tt, w') /\ w_faults w' = [] /\ cur_db w' = cur_db w.
  Proof. intro F. unfold stdout_write, write_stdout, print. rewrite op_nofault by exact F. eexists. split; [reflexivity|]. split; [exact F|reflexivity]. Qed.
  Lemma show_data d f k w : shp d -> complete d f (as_db_key k) -> points d Data k -> w_faults w = [] -> cur_db w = d -> exists w', display_obj ds (S f) k KPatch w = (Done tt, w').
  Proof.
    intros Sh C (o & O & T) F Cu. cbn [display_obj]. subst d. destruct (object_get w k o F O) as (v & G & Fv & Cv). unfold unwrap at 1, bind at 1. rewrite G.
    assert (exists w', read_data ds stdout_write f k tt v = (Done tt, w')) as X.
    { destruct (read_lives stdout_write (cur_db w)) with (n := f) (k := k) (w := v) as (w' & R & _); auto.
      - intros b u Fu Cu. destruct (stdout_live b u Fu) as (u' & H & F' & C'). exists u'. split; [exact H|]. split; [exact F'|congruence].
      - exists o. split; [exact O|]. left. exact T.
      - eauto. }
    destruct T as [T|T]; rewrite T; exact X.
  Qed.
  Lemma show_item d f k w : shp d -> complete d (S f) (as_db_key k) -> points d Item k -> w_faults w = [] -> cur_db w = d -> exists w', display_obj ds (S (S f)) k KPatch w = (Done tt, w').
  Proof.
    intros Sh C (o & O & T) F Cu. remember (S f) as g. cbn [display_obj]. subst d. destruct (object_get w k o F O) as (v & G & Fv & Cv). unfold unwrap at 1, bind at 1. rewrite G.
    pose proof (complete_keys (cur_db w) f (as_db_key k) o) as K. pose proof (formed _ _ _ Sh O) as Wf. unfold well_formed in Wf.
    destruct T as [T|T]; rewrite T in *.
    - destruct Wf as (size & c & Ks & Pc & _). rewrite Ks. subst g. eapply show_data; [exact Sh|apply K; [exact C|exact O|rewrite Ks; left; reflexivity]|exact Pc|exact Fv|exact Cv].
    - destruct (print_live "tree" [as_user_key k] v Fv) as (w' & H & _). eauto.
  Qed.
  Lemma asked_text k w key w' : key_or_head k w = (Done key, w') -> k = None -> has_head w.
  Proof.
    intros H ->. cbn [key_or_head] in H. unfold get_head_key in H. apply bind_done in H as (n & w1 & H1 & _). pose proof (head_text _ _ _ H1). apply head_done in H1 as [_ B]. exists n. auto.
  Qed.
  Lemma show_exactly_all cm w s w1 k : well_used w -> starts cm w (Some s) w1 -> no_coll (w_hashed w1) -> length (d_data (cur_db w1)) < stack -> w_faults w1 = [] ->
    (exists w2, run_command cm (Some s) (CShow k) w1 = (Done tt, w2)) <-> (k = None -> has_head w1) /\ exists key, asked_for w1 k key /\ viewable w1 key.
  Proof.
    intros U St NC L F. destruct (used_started _ _ _ _ U St) as [W T]. pose proof (typed_cur _ T NC) as Sh. pose proof (started_full _ _ _ _ (used_reachable _ U) St) as Fu.
    assert (De : deep_enough w1) by (unfold deep_enough; lia).
    cbn [run_command with_ds]. unfold cmd_show. split.
    - intros (w2 & H). apply bind_done in H as (key & v & Hk & H). split; [intro Q; eapply asked_text; eassumption|]. pose proof (asked _ _ _ _ W Hk) as [Tk A]. exists key. split; [exact A|].
      assert (exists o, object_at (cur_db w1) (as_db_key key) = Some o) as [o O].
      { destruct stack as [|f]; [discriminate|]. cbn [display_obj] in H. apply bind_done in H as (o & v2 & H2 & _). pose proof (get_reads _ _ _ _ H2) as R. apply reads_object in R. rewrite (cur_ticked _ _ Tk) in R. eauto. }
      pose proof (formed _ _ _ Sh O) as Wf. unfold well_formed in Wf. destruct (o_type o) eqn:To; try (destruct Wf; fail).
      all: try (left; exists o; split; [exact O|]; cbn; auto; fail). all: try (right; left; exists o; split; [exact O|]; cbn; auto; fail).
      right. right. assert (Pv : points (cur_db w1) Version key) by (exists o; split; [exact O|exact To]). destruct (version_commit _ _ Sh Pv) as [c Ic]. destruct (has_base _ _ _ Sh Ic) as [to B].
      exists c, to. split; [exact Ic|]. split; [exact B|]. destruct (stack_pos _ _ _ De O) as [f Sf]. apply (show_shaped f w1 key c KPatch to Sh Fu De Ic B). rewrite <- Sf.
      eapply done_works; [|exact H|symmetry; apply cur_ticked, Tk]. apply (rd_display anything (fun _ => I) (fun _ => I) (fun _ => I)).
    - intros (Hh & key & A & V). destruct (asked_live w1 k key W F) as (v & Hk & Tk & Fv); [|exact A|].
      { intros Q n Hn. destruct (Hh Q) as (n' & B & Ut). congruence. }
      rewrite (run_bind _ _ _ _ _ Hk). pose proof (cur_ticked _ _ Tk) as Cv.
      assert (Cs : forall o, object_at (cur_db w1) (as_db_key key) = Some o -> exists f, stack = S (S f) /\ complete (cur_db w1) (S f) (as_db_key key)).
      { intros o O. pose proof (object_complete _ _ _ Fu O) as C. destruct (d_data (cur_db w1)) as [|x l] eqn:Q; [unfold object_at in O; rewrite Q in O; discriminate|]. cbn [length] in *.
        destruct stack as [|[|f]]; try lia. exists f. split; [reflexivity|]. eapply complete_le; [exact C|lia]. }
      destruct V as [P|[P|(c & to & Ic & B & Pr)]].
      + pose proof P as (o & O & _). destruct (Cs o O) as (f & Sf & C). rewrite Sf. eapply show_data; eassumption.
      + pose proof P as (o & O & _). destruct (Cs o O) as (f & Sf & C). rewrite Sf. eapply show_item; eassumption.
      + pose proof Ic as (o & R & _). apply reads_object in R. destruct (stack_pos _ _ _ De R) as [f Sf].
        apply (ShapeTop.calm_ticked (display_obj ds stack key KPatch) w1 v (rd_display anything (fun _ => I) (fun _ => I) (fun _ => I) stack key KPatch) Fv Cv). rewrite Sf.
        apply (show_shaped f w1 key c KPatch to Sh Fu De Ic B), Pr.
  Qed.

  (** *** debug commit-tree *)
  Lemma canons_live l : forall w, world_ok w -> w_faults w = [] -> (forall ki, In ki l -> exists k, denotes w ki k) ->
    exists ks w', mapM (canonicalize ds) l w = (Done ks, w') /\ ticked w w' /\ w_faults w' = [] /\ length ks = length l.
  Proof.
    induction l as [|ki l IH]; intros w W F H; cbn [mapM]; [exists [], w; split; [reflexivity|]; split; [apply ticked_refl|auto]|].
    destruct (H ki (or_introl eq_refl)) as [k D]. destruct (canon_live ki w k W F D) as (v & Hk & Tk & Fv). rewrite (run_bind _ _ _ _ _ Hk).
    destruct (IH v (ok_ticked _ _ Tk W) Fv) as (ks & w' & H' & T' & F' & Ln).
    { intros ki' I. destruct (H ki' (or_intror I)) as [k' D']. exists k'. eapply denotes_cur; [apply cur_ticked, Tk|exact D']. }
    rewrite (run_bind _ _ _ _ _ H'). exists (k :: ks), w'. split; [reflexivity|]. split; [eapply ticked_trans; eassumption|]. cbn. auto.
  Qed.
  Lemma canons_done l : forall w ks w', world_ok w -> mapM (canonicalize ds) l w = (Done ks, w') -> forall ki, In ki l -> exists k, denotes w ki k.
  Proof.
    induction l as [|x l IH]; intros w ks w' W H ki I; [destruct I|]. cbn [mapM] in H. apply bind_done in H as (k & v & Hk & H). apply OutFacts.canon_done in Hk as [Tk D]; [|exact W].
    apply bind_done in H as (ks' & v' & H' & _). destruct I as [<-|I]; [eauto|]. destruct (IH v ks' v' (ok_ticked _ _ Tk W) H' ki I) as [k' D']. exists k'. eapply denotes_cur; [symmetry; apply cur_ticked, Tk|exact D'].
  Qed.
  Lemma sort_length {A} (c : A -> A -> comparison) l : length (sort c l) = length l.
  Proof. apply Permutation.Permutation_length, Permutation.Permutation_sym, sort_perm. Qed.
  Lemma commit_tree_exactly cm w s w1 t ps : reachable w -> starts cm w (Some s) w1 -> w_faults w1 = [] -> (lenN ps < 2 ^ 62)%N ->
    (exists w2, run_command cm (Some s) (CCommitTree t ps) w1 = (Done tt, w2)) <-> forall ki, In ki (t :: ps) -> exists k, denotes w1 ki k.
  Proof.
    intros R St F Ln. pose proof (started_ok _ _ _ _ R St) as W. cbn [run_command with_ds]. unfold cmd_commit_tree. split.
    - intros (w2 & H). apply bind_done in H as (k & v & Hk & H). apply OutFacts.canon_done in Hk as [Tk D]; [|exact W]. apply bind_done in H as (ks & v' & Hs & _).
      intros ki [<-|I]; [eauto|]. destruct (canons_done _ _ _ _ (ok_ticked _ _ Tk W) Hs ki I) as [k' D']. exists k'. eapply denotes_cur; [symmetry; apply cur_ticked, Tk|exact D'].
    - intro H. destruct (H t (or_introl eq_refl)) as [k D]. destruct (canon_live t w1 k W F D) as (v & Hk & Tk & Fv). rewrite (run_bind _ _ _ _ _ Hk).
      destruct (canons_live ps v (ok_ticked _ _ Tk W) Fv) as (ks & v2 & H' & T' & F' & Lk).
      { intros ki' I. destruct (H ki' (or_intror I)) as [k' D']. exists k'. eapply denotes_cur; [apply cur_ticked, Tk|exact D']. }
      rewrite (run_bind _ _ _ _ _ H'). unfold commit_tree. destruct (put_obj_nofault (object_of_commit (Commit k (sort key_cmp ks) attrs_default)) v2 F') as (v3 & H5 & F3).
      { unfold obj_fits, object_of_commit. cbn [o_data o_keys c_attrs c_tree c_parents]. apply andb_true_iff. split; [vm_compute; reflexivity|]. apply N.ltb_lt. unfold max_vec, lenN in *. cbn [length]. rewrite sort_length, Lk.
        change (2 ^ 63)%N with (2 * 2 ^ 62)%N. lia. }
      rewrite (run_bind _ _ _ _ _ H5). destruct (print_live "" [as_user_key (obj_key (object_of_commit (Commit k (sort key_cmp ks) attrs_default)))] v3 F3) as (w2 & H6 & _). eauto.
  Qed.

  (** *** References *)
  Lemma ref_update_exactly cm w s w1 ki r : reachable w -> starts cm w (Some s) w1 -> w_faults w = [] ->
    (exists w2, run_command cm (Some s) (CRefUpdate ki r) w1 = (Done tt, w2)) <-> (exists k, denotes w1 ki k) /\ (r = None -> has_head w1).
  Proof.
    intros R St F. pose proof (started_ok _ _ _ _ R St) as W. split.
    - intros (w2 & H). pose proof (ref_update_works _ _ _ _ _ _ _ R St H) as (n & k & B & D & _). split; [eauto|]. intros ->. cbn [run_command with_ds] in H. unfold cmd_ref_update in H.
      apply bind_done in H as (k' & v & Hk & H). apply OutFacts.canon_done in Hk as [Tk _]; [|exact W]. apply bind_done in H as (n' & v' & Hn & _). cbn [refname_or_head] in Hn. pose proof (head_text _ _ _ Hn). apply head_done in Hn as [_ Hn].
      rewrite (cur_ticked _ _ Tk) in Hn. exists n'. auto.
    - intros ((k & D) & Hh). destruct r as [n|]; [eapply (ref_update_live _ _ _ _ _ (Some n) n k); eauto; [reflexivity|discriminate]|]. destruct (Hh eq_refl) as (n & B & Ut). eapply (ref_update_live _ _ _ _ _ None n k); eauto.
  Qed.
  Lemma reflog_push_exactly cm w s w1 ki n rm : reachable w -> starts cm w (Some s) w1 -> w_faults w = [] ->
    (exists w2, run_command cm (Some s) (CReflogPush ki n rm) w1 = (Done tt, w2)) <-> exists k, denotes w1 ki k.
  Proof.
    intros R St F. split; [intros (w2 & H); destruct (reflog_push_works _ _ _ _ _ _ _ _ R St H) as (k & D & _); eauto|]. intros (k & D). eapply reflog_push_live; eassumption.
  Qed.
  Lemma ref_log_exactly cm w s w1 r rm : reachable w -> starts cm w (Some s) w1 -> w_faults w = [] ->
    (exists w2, run_command cm (Some s) (CRefLog r rm) w1 = (Done tt, w2)) <-> (r = None -> has_head w1).
  Proof.
    intros R St F. split.
    - intros (w2 & H) ->. cbn [run_command with_ds] in H. unfold cmd_ref_log in H. apply bind_done in H as (n' & v' & Hn & _). cbn [refname_or_head] in Hn. pose proof (head_text _ _ _ Hn). apply head_done in Hn as [_ Hn]. exists n'. auto.
    - intro Hh. destruct r as [n|]; [eapply (ref_log_live _ _ _ _ (Some n) rm n); eauto; [reflexivity|discriminate]|]. destruct (Hh eq_refl) as (n & B & Ut). eapply (ref_log_live _ _ _ _ None rm n); eauto.
  Qed.
  Lemma reflog_get_exactly cm w s w1 n rm : reachable w -> starts cm w (Some s) w1 -> w_faults w = [] ->
    (exists w2, run_command cm (Some s) (CReflogGet n rm) w1 = (Done tt, w2)) <-> history n rm (repo_of (cur_db w1)) <> [].
  Proof.
    intros R St F. split.
    - intros (w2 & H). destruct (reflog_get_works _ _ _ _ _ _ _ R St H) as (k & l & Hi & _). rewrite Hi. discriminate.
    - intro N. destruct (history n rm (repo_of (cur_db w1))) as [|k l] eqn:Hi; [congruence|]. eapply reflog_get_live; eassumption.
  Qed.
  Lemma get_head_exactly cm w s w1 : starts cm w (Some s) w1 -> w_faults w = [] ->
    (exists w2, run_command cm (Some s) CGetHead w1 = (Done tt, w2)) <-> (forall n, rp_head (repo_of (cur_db w1)) = Some n -> utf8_valid n = true).
  Proof.
    intros St F. split; [|intro U; eapply get_head_live; eassumption]. intros (w2 & H) n Hn. cbn [run_command with_ds] in H. unfold cmd_get_head, get_head in H. apply bind_done in H as (h & v & H & _).
    apply bind_done in H as (b & v' & H1 & H). apply db_read_done in H1 as [_ ->]. unfold repo_of in Hn. cbn in Hn. cbn in H. rewrite Hn in H. destruct (utf8_valid n); [reflexivity|discriminate].
  Qed.

  (** *** debug walk-fs-tree *)
  Definition all (q : path) : M bool := ret true.
  Lemma all_answers f cwd : answers all f cwd (fun _ _ => true).
  Proof. intros q w b w' _ _ H. apply ret_done in H as [-> ->]. split; [apply ticked_refl|auto]. Qed.
  Lemma all_live f cwd base : forall fuel r w l e, w_faults w = [] -> here f cwd w -> stat f cwd (join base (rel_path r)) = Some (l, e) -> walkable_at f l fuel ->
    exists m w', internal_walk_real_fs_items fuel base (rel_path r) all w = (Done m, w') /\ w_faults w' = [] /\ here f cwd w'.
  Proof.
    induction fuel as [|g IH]; intros r w l e F Hw S Li; destruct (stat_locate _ _ _ _ _ S) as (_ & L & _);
      (destruct (Li [] e) as [Pos Kind]; [rewrite app_nil_r; exact L|]); [cbn in Pos; lia|]. cbn [internal_walk_real_fs_items]. unfold fs_metadata at 1.
    assert (exists mt, meta_of e = Some mt) as [mt Mt] by (destruct Kind as [->|(c & st & ->)]; cbn; eauto).
    match goal with |- context [bind (fs_query ?q)] => destruct (query_live q w mt F) as (w1 & T1 & F1 & Qm) end.
    { destruct Hw as [-> ->]. rewrite S. exact Mt. }
    rewrite (run_bind _ _ _ _ _ Qm). clear Qm. pose proof (here_ticked _ _ _ _ Hw T1) as Hw1. destruct Kind as [->|(c & st & ->)]; inv Mt; [|eexists _, _; split; [reflexivity|]; auto].
    destruct (read_dir_live (join base (rel_path r)) w1 l F1) as (w2 & T2 & F2 & Qr); [destruct Hw1 as [-> ->]; exact S|].
    rewrite (run_bind _ _ _ _ _ Qr). clear Qr. rewrite (proj1 Hw1). pose proof (here_ticked _ _ _ _ Hw1 T2) as Hw2.
    match goal with |- context [bind ?a _] => change a with (real_each g base (rel_path r) all (children f l) (if is_empty_path (rel_path r) then [] else [(rel_path r, true)])) end.
    assert (K : forall names acc w2, incl names (children f l) -> w_faults w2 = [] -> here f cwd w2 ->
      exists m w3, real_each g base (rel_path r) all names acc w2 = (Done m, w3) /\ w_faults w3 = [] /\ here f cwd w3).
    { clear -IH S Li. induction names as [|n names IHn]; intros acc w2 I2 F2 Hw2; cbn [real_each]; [eexists _, _; split; [reflexivity|]; auto|].
      destruct (child_lookup f l n) as [e Le]; [apply I2; left; reflexivity|]. pose proof (stat_push _ _ _ _ _ _ S Le) as Sn.
      unfold bind at 1. cbn [all ret]. assert (Er : path_push (rel_path r) n = rel_path (r ++ [n])) by (unfold path_push, rel_path; cbn; rewrite map_app; reflexivity). rewrite Er.
      destruct (IH (r ++ [n]) w2 (l ++ [n]) e F2 Hw2) as (sb & u1 & Q1 & Fu1 & Hu1).
      { rewrite join_push. exact Sn. }
      { intros r' e' Lr. rewrite <- app_assoc in Lr. destruct (Li (n :: r') e' Lr) as [A B]. cbn [length] in A. split; [lia|exact B]. }
      rewrite (run_bind _ _ _ _ _ Q1). apply IHn; auto. intros x Hx; apply I2; right; exact Hx. }
    destruct (K (children f l) (if is_empty_path (rel_path r) then [] else [(rel_path r, true)]) w2 (incl_refl _) F2 Hw2) as (m & w3 & Q & F3 & Hw3). rewrite (run_bind _ _ _ _ _ Q).
    eexists _, _. split; [reflexivity|]. auto.
  Qed.
  Lemma walkable_dir f l g : closed f -> lookup f l = Some EDir -> (forall n e, lookup f (l ++ [n]) = Some e -> walkable_at f (l ++ [n]) g) -> walkable_at f l (S g).
  Proof.
    intros Cl L H [|n r] e Lr; [rewrite app_nil_r in Lr; split; [cbn; lia|]; left; congruence|].
    assert (exists e', lookup f (l ++ [n]) = Some e') as [e' L'].
    { destruct r as [|m r]; [eauto|]. exists EDir. eapply (closed_app f (l ++ [n]) (m :: r)); [exact Cl|rewrite <- app_assoc; exact Lr|discriminate]. }
    destruct (H n e' L' r e) as [A B]; [rewrite <- app_assoc; exact Lr|]. cbn [length]. split; [lia|exact B].
  Qed.
  Lemma all_needs f cwd base : closed f -> forall fuel r w m w', here f cwd w -> internal_walk_real_fs_items fuel base (rel_path r) all w = (Done m, w') ->
    exists l e, stat f cwd (join base (rel_path r)) = Some (l, e) /\ walkable_at f l fuel.
  Proof.
    intro Cl. induction fuel as [|g IH]; intros r w m w' Hw H; [discriminate|]. cbn [internal_walk_real_fs_items] in H.
    apply bind_done in H as (mt & w1 & H1 & H). apply metadata_done in H1 as (T1 & l & e & S & M1).
    rewrite (here_stat f cwd) in S by exact Hw. pose proof (here_ticked _ _ _ _ Hw T1) as Hw1. exists l, e. split; [exact S|].
    destruct (stat_locate _ _ _ _ _ S) as (_ & L & _). destruct e as [|c st| |]; inv M1; try discriminate.
    - apply bind_done in H as ([names err] & w2 & H2 & H). apply read_dir_done in H2 as (T2 & l' & S2 & R2).
      rewrite (here_stat f cwd), S in S2 by exact Hw1. inv S2. rewrite (proj1 Hw1) in R2. pose proof (here_ticked _ _ _ _ Hw1 T2) as Hw2.
      apply bind_done in H as (x & w3 & H3 & H). destruct err; [discriminate|]. apply ret_done in H as [-> ->]. destruct R2 as [R2|[? R2]]; inv R2.
      match type of H3 with ?a w2 = _ => change a with (real_each g base (rel_path r) all (children f l') (if is_empty_path (rel_path r) then [] else [(rel_path r, true)])) in H3 end.
      assert (K : forall names acc w2 x w3, incl names (children f l') -> here f cwd w2 -> real_each g base (rel_path r) all names acc w2 = (Done x, w3) ->
        forall n e, In n names -> lookup f (l' ++ [n]) = Some e -> walkable_at f (l' ++ [n]) g).
      { clear -IH S. induction names as [|n names IHn]; intros acc w2 x w3 I2 Hw2 H; cbn [real_each] in H; [intros n e []|].
        apply bind_done in H as (b & u & H1 & H). apply ret_done in H1 as [-> ->].
        destruct (child_lookup f l' n) as [e Le]; [apply I2; left; reflexivity|]. pose proof (stat_push _ _ _ _ _ _ S Le) as Sn.
        assert (In' : incl names (children f l')) by (intros y Hx; apply I2; right; exact Hx).
        apply bind_done in H as (sb & u1 & H2 & H). pose proof (real_ticked f cwd _ _ (all_answers f cwd) base _ _ _ _ _ Hw2 H2) as T2.
        intros m' e' [<-|I] Lm; [|eapply (IHn _ _ _ _ In' (here_ticked _ _ _ _ Hw2 T2) H); eassumption].
        assert (Er : path_push (rel_path r) n = rel_path (r ++ [n])) by (unfold path_push, rel_path; cbn; rewrite map_app; reflexivity). rewrite Er in H2.
        destruct (IH _ _ _ _ Hw2 H2) as (l2 & e2 & S2 & Li). rewrite join_push, Sn in S2. inv S2. exact Li. }
      apply walkable_dir; [exact Cl|exact L|]. intros n e Le. eapply K; [apply incl_refl|exact Hw2|exact H3|eapply lookup_child, Le|exact Le].
    - intros [|n r'] e Lr; [rewrite app_nil_r in Lr; split; [cbn; lia|]; right; exists c, st; congruence|]. exfalso. rewrite (closed_app f l (n :: r') e Cl Lr) in L by discriminate. discriminate L.
  Qed.
  Lemma print_fs_tree_live m : forall w, w_faults w = [] -> exists w', print_fs_tree m w = (Done tt, w').
  Proof.
    induction m as [|[p d] m IH]; intros w F; cbn [print_fs_tree]; [eexists; reflexivity|]. destruct (print_live "item" [path_text p; if d then str "true" else str "false"] w F) as (w1 & H & F1).
    rewrite (run_bind _ _ _ _ _ H). apply IH, F1.
  Qed.
  Lemma print_fs_tree_done m : forall w w', print_fs_tree m w = (Done tt, w') -> alike w w' /\ says w w' (map fs_event m).
  Proof.
    induction m as [|[p d] m IH]; intros w w' H; cbn [print_fs_tree] in H; [apply ret_done in H as [_ ->]; split; [apply alike_ticked, ticked_refl|reflexivity]|].
    apply bind_done in H as ([] & w1 & H1 & H). apply printed in H1 as [A1 O1]. apply IH in H as [A2 O2]. split; [eapply alike_trans; eassumption|].
    cbn [map]. match goal with |- says _ _ (?x :: ?l) => change (x :: l) with ([x] ++ l) end. eapply says_trans; [|exact O2]. unfold says. rewrite O1. reflexivity.
  Qed.
  Lemma walk_fs_exactly cm st w p : fs_ok (w_fs w) -> w_faults w = [] ->
    (exists w2, run_command cm st (CWalkFsTree p) w = (Done tt, w2)) <-> exists l, stat (w_fs w) (w_cwd w) p = Some (l, EDir) /\ walkable_at (w_fs w) l stack.
  Proof.
    intros O F. cbn [run_command]. unfold cmd_walk_fs_tree, walk_real_fs_items. change path_empty with (rel_path []). split.
    - intros (w2 & H). apply bind_done in H as (m & w1 & H1 & _). destruct (all_needs (w_fs w) (w_cwd w) p (fs_ok_closed _ O) stack [] w m w1 (here_self _) H1) as (l & e & S & Wk).
      change (rel_path []) with path_empty in S. rewrite stat_base in S. destruct (stat (w_fs w) (w_cwd w) p) as [[l0 [| | |]]|] eqn:Q; inv S. eauto.
    - intros (l & S & Wk). destruct (all_live (w_fs w) (w_cwd w) p stack [] w l EDir F (here_self _)) as (m & w' & H & F' & _); [change (rel_path []) with path_empty; rewrite stat_base, S; reflexivity|exact Wk|].
      unfold all in H. rewrite (run_bind _ _ _ _ _ H). apply print_fs_tree_live, F'.
  Qed.
  Lemma walk_fs_prints cm st w p w2 : fs_ok (w_fs w) -> run_command cm st (CWalkFsTree p) w = (Done tt, w2) ->
    exists l m, stat (w_fs w) (w_cwd w) p = Some (l, EDir) /\ NoDup (map fst m) /\
      (forall q d, In (q, d) m <-> exists r e, q = named r /\ r <> [] /\ lookup (w_fs w) (l ++ r) = Some e /\ d = is_dir (w_fs w) (l ++ r)) /\
      says w w2 (map fs_event m) /\ alike w w2.
  Proof.
    intros O H. cbn [run_command] in H. unfold cmd_walk_fs_tree, walk_real_fs_items in H. change path_empty with (rel_path []) in H. apply bind_done in H as (m & w1 & H1 & H2).
    pose proof (all_answers (w_fs w) (w_cwd w)) as A. pose proof (real_ticked _ _ _ _ A p _ _ _ _ _ (here_self w) H1) as T1.
    destruct (all_needs (w_fs w) (w_cwd w) p (fs_ok_closed _ O) stack [] w m w1 (here_self _) H1) as (l & e & S & _).
    change (rel_path []) with path_empty in S. rewrite stat_base in S. destruct (stat (w_fs w) (w_cwd w) p) as [[l0 [| | |]]|] eqn:Q; inv S.
    destruct (real_tree _ _ _ _ A p stack [] w m w1 p (here_self _) eq_refl) as [t Sh]; [cbn; rewrite app_nil_r; reflexivity|exact H1|].
    assert (M : m = wl (rel_path []) t).
    { eapply (walk_real _ _ _ _ A p t stack [] _ w m w1 p (here_self _) Sh); auto. cbn. rewrite app_nil_r. reflexivity. }
    pose proof (shows_distinct _ _ _ O _ _ Sh) as Dt. rewrite wl_wlist in M by exact Dt. subst m.
    assert (l = locate (w_cwd w) p) as -> by (apply stat_locate in Q as (-> & _); reflexivity). set (l := locate (w_cwd w) p) in *. exists l, (wlist [] t).
    apply print_fs_tree_done in H2 as [A2 O2].
    assert (IsD : forall r t', DirTree.sub t r t' -> is_rdir t' = is_dir (w_fs w) (l ++ r)).
    { intros r t' S. destruct (sub_shows _ _ _ _ _ O S _ _ Sh) as (_ & _ & p' & Sh'). unfold is_dir. destruct t'.
      - apply shows_file_inv in Sh' as (c & st0 & tk & -> & _). reflexivity.
      - apply shows_dir_inv in Sh' as (-> & _). reflexivity. }
    pose proof (stat_locate _ _ _ _ _ Q) as (_ & Ll & _).
    split; [reflexivity|]. split; [apply wlist_nodup, Dt|]. split; [|split; [|eapply alike_trans; [apply alike_ticked, T1|exact A2]]].
    - intros q d. rewrite wlist_in. cbn [app]. split.
      + intros (r & t' & S & -> & -> & N). destruct (sub_shows _ _ _ _ _ O S _ _ Sh) as ((e & L) & K & _). exists r, e. split; [reflexivity|]. split; [|split; [exact L|apply IsD, S]].
        intros ->. specialize (N eq_refl). rewrite (IsD _ _ S), app_nil_r in N. unfold is_dir in N. rewrite Ll in N. discriminate.
      + intros (r & e & -> & N & L & ->). destruct (shows_sub _ _ _ O _ _ _ _ Sh L) as [t' S]; [intros r1 n r2 _; reflexivity|].
        exists r, t'. split; [exact S|]. split; [reflexivity|]. split; [symmetry; apply IsD, S|congruence].
    - pose proof (says_silent w w1 (ticked_out _ _ T1)) as X. exact (says_trans _ _ _ _ _ X O2).
  Qed.
End LiveRead.
