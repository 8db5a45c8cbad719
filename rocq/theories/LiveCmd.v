(** Exactly when the commands that look at the working directory succeed. *)
From Coq Require Import RelationClasses.
From Verif Require Import Base BaseFacts TableFacts Key KeyFacts Keyish Cbor CborFacts Object ObjectFacts Path World WorldFacts Store File Filter Dir Diff Commit Main SpecStore StoreCalls SpecRun SpecProc SpecCmd SpecFile SpecDir SpecCache SpecDiff SpecShape SpecLive
  SpecClosure Closure Frame DbRel Integrity StoreFacts ProcFacts InitFacts ObjStoreFacts SessionFacts FilePlan FileFacts ChunkFacts FileRun FsFacts DirPlan DirFacts GetFacts DirTrip FetchSafe DirTree DirWalk WalkFacts DirLive CacheFacts HashFacts CompareFacts DiffFacts CheckoutFacts
  Reader SpecPatch SpecShow SpecOut SpecText CmdFacts OutFacts SnapFacts ShowFacts ShapeFacts ShapeTop LiveFacts LiveDiff.

Section LiveCmd.
  Context {E : Env}.
  Notation ds := sqlite_ds.

  (** *** The database folder is still there when the command runs *)
  Lemma exists_done p w w' : fs_exists p w = (Done true, w') -> is_there w p.
  Proof.
    unfold fs_exists. intro H. apply bind_done in H as (r & w1 & H1 & H). apply try_done in H1 as [(m & -> & Q)|(e & -> & Q)]; [|apply ret_done in H as [X _]; discriminate X].
    apply metadata_done in Q as (_ & l & e & S & M). exists l, e, m. auto.
  Qed.
  Lemma find_there name : forall l w p w', find_in name l w = (Done (Some p), w') -> is_there w p.
  Proof.
    induction l as [|d l IH]; intros w p w' H; cbn [find_in] in H; [apply ret_done in H as [X _]; discriminate X|].
    apply bind_done in H as (b & w1 & H1 & H). destruct b.
    - apply ret_done in H as [X ->]. inv X. eapply exists_done, H1.
    - apply IH in H as (l0 & e & m & S & M). assert (alike w w1) as A.
      { unfold fs_exists in H1. apply bind_done in H1 as (r & w2 & H2 & H1). assert (ticked w w2) as T.
        { apply try_done in H2 as [(m' & -> & Q)|(e' & -> & Q)]; [apply metadata_done in Q as [T _]; exact T|].
          unfold fs_metadata, fs_query in Q. match type of Q with op ?f _ = _ => destruct (op_case f w) as (fl & v & Ev & T) end. rewrite Ev in Q.
          destruct fl; try discriminate Q; [|inv Q; exact T|inv Q; exact T]. destruct (stat _ _ _) as [[? ?]|]; [destruct (meta_of _); inv Q|inv Q]; exact T. }
        destruct r; apply ret_done in H1 as [_ ->]; apply alike_ticked, T. }
      destruct A as (Fs & Cw & _). exists l0, e, m. rewrite <- Fs, <- Cw. auto.
  Qed.
  Lemma there_grows w w' p : grows (w_fs w) (w_fs w') -> w_cwd w' = w_cwd w -> is_there w p -> is_there w' p.
  Proof.
    intros G C (l & e & m & S & M). exists l, e, m. split; [|exact M]. rewrite C. clear M C. unfold stat, resolve in *.
    destruct (is_empty_path p); [discriminate|]. destruct (walk_comps (w_fs w) _ (p_comps p)) as [l0|] eqn:Wk; [|discriminate].
    rewrite (walk_mono _ _ _ G _ _ Wk). destruct (lookup (w_fs w) l0) as [e0|] eqn:L; [|discriminate]. rewrite (G _ _ L). exact S.
  Qed.
  Lemma starts_there cm w s w1 : starts cm w (Some s) w1 -> is_there w1 (ds_folder s).
  Proof.
    intro S. pose proof (setup_before _ _ _ _ S) as (_ & C & G & _). apply (there_grows _ _ _ G C). clear C G.
    apply setup_steps in S as (v1 & _ & _ & H1 & _).
    unfold open_repo in H1. apply bind_done in H1 as (fo & v0 & H0 & H1). destruct fo as [x|]; [|apply ret_done in H1 as [X _]; discriminate X].
    destruct (parent x) as [rp|]; [|discriminate]. apply bind_done in H1 as (l & v5 & H5 & H1). apply bind_done in H1 as ([] & v6 & H6 & H1). apply ret_done in H1 as [X ->]. inv X. cbn [ds_folder].
    unfold find_db_folder in H0. apply bind_done in H0 as (cwd & u & Hc & H0). apply find_there in H0 as (l0 & e & m & St & M).
    exists l0, e, m. split; [|exact M]. assert (ticked (close_all w) u) as T.
    { unfold fs_current_dir, fs_query in Hc. match type of Hc with op ?f _ = _ => destruct (op_case f (close_all w)) as (fl & v & Ev & T) end. rewrite Ev in Hc. destruct fl; inv Hc; exact T. }
    destruct (ticked_fs _ _ T) as [X1 X2]. rewrite X1, X2 in St. exact St.
  Qed.

  (** *** Storing *)
  Lemma filter_run ex d w : forallb glob_valid ex = true -> make_filter_fn ex d w = (Done (filter_fn ex d), w).
  Proof. intro G. unfold make_filter_fn. rewrite G. reflexivity. Qed.
  Lemma filter_globs ex d w f w' : make_filter_fn ex d w = (Done f, w') -> forallb glob_valid ex = true.
  Proof. unfold make_filter_fn. destruct (forallb glob_valid ex); [reflexivity|discriminate]. Qed.
  Lemma store_exactly ex fo p w v : quiet_disk w -> is_there w fo -> here (w_fs w) (w_cwd w) v -> w_faults v = [] ->
    (exists k v', put_fs_item ds stack p (filter_fn ex fo) v = (Done k, v')) <-> can_store ex fo p w.
  Proof.
    intros (F & O & Mo) Th Hv Fv. split.
    - intros (k & v' & H). assert (exists l e, stat (w_fs w) (w_cwd w) p = Some (l, e)) as (l & e & S).
      { destruct stack as [|g]; [discriminate|]. cbn [put_fs_item] in H. apply bind_done in H as (m & w1 & H1 & H). apply metadata_done in H1 as (T1 & l0 & e0 & S1 & M1).
        rewrite (here_stat (w_fs w) (w_cwd w)) in S1 by exact Hv. eauto. }
      exists l, e. split; [exact S|]. exact (put_needs ex fo (w_fs w) (w_cwd w) (fs_ok_closed _ O) stack p l e v k v' Hv S H).
    - intros (l & e & S & Li & Na). destruct (put_lives ex fo (w_fs w) (w_cwd w) (there_db _ _ Th) Mo stack p l e v Fv Hv S Li Na) as (k & v' & H & _). eauto.
  Qed.
  Lemma insert_exactly cm w s w1 p : starts cm w (Some s) w1 -> quiet_disk w1 ->
    (exists w2, run_command cm (Some s) (CInsert p) w1 = (Done tt, w2)) <-> globs_ok cm /\ can_store (cm_exclude cm) (ds_folder s) p w1.
  Proof.
    intros S Q. pose proof (starts_there _ _ _ _ S) as Th. pose proof (store_exactly (cm_exclude cm) (ds_folder s) p w1 w1 Q Th (here_self _) (proj1 Q)) as X.
    cbn [run_command with_ds]. unfold cmd_insert. split.
    - intros (w2 & H). apply bind_done in H as (f & v & Hf & H). pose proof (filter_globs _ _ _ _ _ Hf) as G. apply filter_done in Hf as [-> ->].
      apply bind_done in H as (k & v & Hp & H). split; [exact G|]. apply X. eauto.
    - intros [G St]. rewrite (run_bind _ _ _ _ _ (filter_run _ (ds_folder s) w1 G)). destruct St as (l & e & S1 & Li & Na).
      destruct Q as (F & O & Mo). destruct (put_lives _ _ _ _ (there_db _ _ Th) Mo stack p l e w1 F (here_self _) S1 Li Na) as (k & v' & H & F' & _).
      rewrite (run_bind _ _ _ _ _ H). destruct (print_live "inserted hash" [as_user_key k] v' F') as (w2 & P & _). eauto.
  Qed.

  (** *** Commits *)
  Lemma attrs_size m : (lenN (enc (value_of_attrs (Attrs m []))) <= 100 + lenN m)%N.
  Proof.
    unfold value_of_attrs, lenN. cbn [enc flat_map at_message at_extra]. rewrite !app_length.
    repeat match goal with |- context [length (head ?a ?b)] => pose proof (head_len a b); generalize dependent (length (head a b)); intros end.
    change (length (str "message")) with 7. change (length (str "extra")) with 5. cbn [length]. unfold byte in *. lia.
  Qed.
  Lemma commit_fits t ps m : (lenN m < 2 ^ 62)%N -> length ps <= 1 -> obj_fits (object_of_commit (Commit t ps (Attrs m []))) = true.
  Proof.
    intros L Lp. unfold obj_fits, object_of_commit. cbn [o_data o_keys c_attrs c_tree c_parents]. apply andb_true_iff. split; apply N.ltb_lt; unfold max_vec.
    - pose proof (attrs_size m). change (2 ^ 63)%N with (2 * 2 ^ 62)%N. lia.
    - unfold lenN. cbn [length]. change (2 ^ 63)%N with 9223372036854775808%N. lia.
  Qed.
  Lemma newest_missing n rm w : world_ok w -> w_faults w = [] -> history n rm (repo_of (cur_db w)) = [] ->
    exists w', reflog_get ds n rm w = (Error ERefNotFound, w') /\ ticked w w' /\ w_faults w' = [].
  Proof.
    intros W F H. cbn [reflog_get ds]. unfold sqlite_reflog_get, bind.
    destruct (db_read_nofault (fun d => hd_error (select_reflog n rm (d_reflog d))) w F) as (w1 & T & F1 & ->).
    rewrite (select_history _ _ _ _ (repo_of_abs _ _ (world_ok_cur _ W))), H. cbn [map hd_error]. exists w1. auto.
  Qed.
  (** Asking for the newest entry, when nothing fails. *)
  Lemma newest_try n w : world_ok w -> w_faults w = [] ->
    exists w', try (reflog_get ds n None) w = (Done (match history n None (repo_of (cur_db w)) with k :: _ => Ok k | [] => Err ERefNotFound end), w') /\ ticked w w' /\ w_faults w' = [].
  Proof.
    intros W F. unfold try. destruct (history n None (repo_of (cur_db w))) as [|k l] eqn:Hi.
    - destruct (newest_missing n None w W F Hi) as (w' & -> & T & F'). exists w'. auto.
    - destruct (newest_live n None w k l W F Hi) as (w' & -> & T & F'). exists w'. auto.
  Qed.
  Lemma head_text w n w' : head_or_fail w = (Done n, w') -> utf8_valid n = true.
  Proof.
    unfold head_or_fail, get_head. intro H. apply bind_done in H as (h & w1 & H1 & H). apply bind_done in H1 as (r & w2 & H2 & H1).
    apply of_option_done in H as [-> ->]. destruct r as [b|]; [|apply ret_done in H1 as [Q _]; discriminate Q].
    destruct (utf8_valid b) eqn:U; [|discriminate H1]. apply ret_done in H1 as [Q ->]. inv Q. exact U.
  Qed.
  Lemma branch_text r w n w' : refname_or_head r w = (Done n, w') -> r = None -> utf8_valid n = true.
  Proof. intros H ->. exact (head_text _ _ _ H). Qed.
  Lemma commit_exactly cm w s w1 p m r : reachable w -> starts cm w (Some s) w1 -> quiet_disk w1 -> (lenN m < 2 ^ 62)%N ->
    (exists w2, run_command cm (Some s) (CCommit p m r) w1 = (Done tt, w2)) <->
    globs_ok cm /\ (r = None -> has_head w1) /\ can_store (cm_exclude cm) (ds_folder s) (match p with Some q => q | None => ds_repo s end) w1.
  Proof.
    intros R S Q Lm. pose proof (starts_there _ _ _ _ S) as Th. pose proof (started_ok _ _ _ _ R S) as W.
    set (q := match p with Some q => q | None => ds_repo s end). cbn [run_command with_ds]. unfold cmd_commit. fold q. split.
    - intros (w2 & H). apply bind_done in H as (f & v & Hf & H). pose proof (filter_globs _ _ _ _ _ Hf) as G. apply filter_done in Hf as [-> ->].
      cbv zeta in H. apply bind_done in H as (n & v1 & H1 & H). pose proof (branch_text _ _ _ _ H1) as Ut. 
      pose proof (branch_done _ _ _ _ H1) as [T1 B]. destruct (branch_live r w1 n (proj1 Q) B Ut) as (v1' & H1' & _ & F1). rewrite H1 in H1'. inv H1'. rename v1' into v1.
      destruct (newest_try n v1 (ok_ticked _ _ T1 W) F1) as (v2 & H2 & T2 & F2). rewrite (run_bind _ _ _ _ _ H2) in H.
      apply bind_done in H as (ps & v3 & H3 & H). assert (v3 = v2) as -> by (destruct (history n None _); apply ret_done in H3; apply H3).
      apply bind_done in H as (t & v4 & H4 & _). split; [exact G|]. split.
      + intros ->. exists n. split; [exact B|auto].
      + apply (store_exactly (cm_exclude cm) (ds_folder s) q w1 v2 Q Th); [|exact F2|eauto]. apply (here_ticked _ _ w1); [apply here_self|]. eapply ticked_trans; eassumption.
    - intros (G & Hd & St). rewrite (run_bind _ _ _ _ _ (filter_run _ (ds_folder s) w1 G)). cbv zeta. destruct Q as (F & O & Mo).
      assert (exists n, branch_of r (repo_of (cur_db w1)) n /\ (r = None -> utf8_valid n = true)) as (n & B & Ut).
      { destruct r as [b|]; [exists b; split; [reflexivity|discriminate]|]. destruct (Hd eq_refl) as (n & B & U). exists n. auto. }
      destruct (branch_live r w1 n F B Ut) as (v1 & H1 & T1 & F1). rewrite (run_bind _ _ _ _ _ H1).
      destruct (newest_try n v1 (ok_ticked _ _ T1 W) F1) as (v2 & H2 & T2 & F2). rewrite (run_bind _ _ _ _ _ H2).
      assert (exists ps, length ps <= 1 /\ match (match history n None (repo_of (cur_db v1)) with k :: _ => Ok k | [] => Err ERefNotFound end) with Ok k => ret [k] | Err ERefNotFound => ret [] | Err e => fail e end v2 = (Done ps, v2)) as (ps & Lp & H3).
      { destruct (history n None _) as [|k l]; [exists []; split; [cbn; lia|reflexivity]|exists [k]; split; [cbn; lia|reflexivity]]. }
      rewrite (run_bind _ _ _ _ _ H3). destruct St as (l & e & S1 & Li & Na).
      assert (Hv : here (w_fs w1) (w_cwd w1) v2) by (apply (here_ticked _ _ w1); [apply here_self|eapply ticked_trans; eassumption]).
      destruct (put_lives _ _ _ _ (there_db _ _ Th) Mo stack q l e v2 F2 Hv S1 Li Na) as (t & v3 & H4 & F3 & _). rewrite (run_bind _ _ _ _ _ H4).
      unfold commit_tree. destruct (put_obj_nofault (object_of_commit (Commit t (sort key_cmp ps) (Attrs m []))) v3 F3) as (v4 & H5 & F4).
      { apply commit_fits; [exact Lm|]. destruct ps as [|a [|b ps]]; cbn in *; lia. }
      rewrite (run_bind _ _ _ _ _ H5). cbn [reflog_push ds]. unfold sqlite_reflog_push. edestruct write_live as (v5 & H6 & _); [exact F4|]. eauto.
  Qed.

  (** *** Comparing with the working directory *)
  Lemma newest_commit w n rm k l : world_ok w -> shp (cur_db w) -> history n rm (repo_of (cur_db w)) = k :: l -> exists c, is_commit w k c.
  Proof.
    intros W Sh H. apply version_commit; [exact Sh|]. assert (I : In k (history n rm (repo_of (cur_db w)))) by (rewrite H; left; reflexivity).
    unfold history in I. apply in_map_iff in I as (p & <- & I). apply filter_In in I as [I _]. cbn [repo_of rp_log] in I. apply in_rev, in_map_iff in I as (r & <- & I).
    destruct (dk_keys _ _ (world_ok_cur _ W) r I) as [k0 K]. unfold push_of. cbn [ph_key]. rewrite K, from_as_db_key. destruct Sh as [_ Sr]. specialize (Sr r I). rewrite K in Sr. exact Sr.
  Qed.
  Lemma comparable_alike ex fo p w v to : cur_db v = cur_db w -> w_fs v = w_fs w -> w_cwd v = w_cwd w -> comparable ex fo p v to -> comparable ex fo p w to.
  Proof.
    intros C F W (Di & Li & A & B). unfold comparable, directory, found_here in *. rewrite F, W in *.
    assert (O : forall x e, on_disk ex fo p v x e <-> on_disk ex fo p w x e) by (intros x e; unfold on_disk; rewrite F, W; reflexivity).
    split; [exact Di|]. split; [exact Li|]. split.
    - intros x k d T. destruct (A x k d) as [e D]; [eapply tree_cur; eassumption|]. exists e. apply O, D.
    - intros x c st D N. apply (B x c st); [apply O, D|]. intros k d T. apply (N k d). eapply tree_cur; [symmetry|]; eassumption.
  Qed.
  Lemma rest_alike w v : alike w v -> w_faults v = [] -> at_rest w -> at_rest v.
  Proof.
    intros (F & _ & _ & _ & _ & C1 & C2 & _) Fv ((_ & O & M) & Cr). unfold at_rest, quiet_disk. rewrite F. split; [auto|]. intros a b I. apply (Cr a b). unfold cur_cache in *. rewrite C1, C2 in I. exact I.
  Qed.
  Lemma there_alike w v p : alike w v -> is_there w p -> is_there v p.
  Proof. intros (F & C & _). apply there_grows; [rewrite F; apply grows_refl|exact C]. Qed.
  (** From a state like the one in which the command started. *)
  Lemma compare_here p ex fo to w v : alike w v -> w_faults v = [] -> at_rest w -> is_there w fo -> shp (cur_db w) -> full (cur_db w) -> deep_enough w ->
    match to with Some t => points (cur_db w) Item t | None => True end ->
    ((exists r w', compare ds (TFileSystem p ex fo) to v = (Done r, w')) -> forallb glob_valid ex = true /\ comparable ex fo p w to) /\
    (forallb glob_valid ex = true /\ comparable ex fo p w to -> exists r w', compare ds (TFileSystem p ex fo) to v = (Done r, w') /\ w_faults w' = []).
  Proof.
    intros A Fv Ar Th Sh Fu De P. pose proof (alike_cur _ _ A) as C. pose proof (rest_alike _ _ A Fv Ar) as Arv. pose proof (there_alike _ _ _ A Th) as Thv.
    assert (Tt : tidy_of v to) by (destruct to as [t|]; [apply item_tidy; rewrite C; assumption|exact I]).
    assert (Wt : walkable_of v to) by (destruct to as [t|]; [apply tree_walkable; unfold deep_enough; rewrite C; assumption|exact I]).
    destruct A as (F & W & _). split.
    - intros H. apply (compare_fs_exactly p ex fo to v Arv Thv Tt Wt) in H as [G Co]. split; [exact G|]. eapply comparable_alike; eassumption.
    - intros [G Co]. apply compare_fs_lives; try assumption. apply (comparable_alike _ _ _ v w); congruence.
  Qed.
  Lemma commit_get k c v : w_faults v = [] -> is_commit v k c -> exists v', commit_from_key ds k v = (Done c, v') /\ ticked v v' /\ w_faults v' = [].
  Proof.
    intros F (o & R & _ & C). apply reads_object in R. destruct (object_get v k o F R) as (v' & G & F' & _). exists v'. pose proof (get_obj_done _ _ _ _ G) as (T & _).
    unfold commit_from_key, unwrap. unfold bind at 1. rewrite G. rewrite C. auto.
  Qed.
  Lemma is_commit_cur w v k c : cur_db v = cur_db w -> is_commit w k c -> is_commit v k c.
  Proof. intros Q (o & R & T & C). exists o. split; [|auto]. apply reads_object. apply reads_object in R. rewrite Q. exact R. Qed.
  Lemma head_tree_fun w to to' : head_tree w to -> head_tree w to' -> to' = to.
  Proof.
    intros (n & H & X) (n' & H' & X'). rewrite H in H'. inv H'. destruct to as [t|], to' as [t'|]; try reflexivity.
    - destruct X as (k & l & c & Hi & R & ->), X' as (k' & l' & c' & Hi' & R' & ->). rewrite Hi in Hi'. inv Hi'. rewrite (reads_commit_fun _ _ _ _ R R'). reflexivity.
    - destruct X as (k & l & c & Hi & _). congruence.
    - destruct X' as (k & l & c & Hi & _). congruence.
  Qed.

  Section Looking.
    Context (cm : common) (w : world) (s : ds_state) (w1 : world).
    Hypothesis U : well_used w.
    Hypothesis S : starts cm w (Some s) w1.
    Hypothesis NC : no_coll (w_hashed w1).
    Hypothesis De : deep_enough w1.
    Hypothesis Ar : at_rest w1.
    Notation ex := (cm_exclude cm).
    Notation fo := (ds_folder s).
    Let W : world_ok w1 := proj1 (used_started _ _ _ _ U S).
    Let Sh : shp (cur_db w1) := typed_cur _ (proj2 (used_started _ _ _ _ U S)) NC.
    Let Fu : full (cur_db w1) := started_full _ _ _ _ (used_reachable _ U) S.
    Let Th : is_there w1 fo := starts_there _ _ _ _ S.
    Let F : w_faults w1 = [] := proj1 (proj1 Ar).

    Lemma head_tree_of n k l c : rp_head (repo_of (cur_db w1)) = Some n -> history n None (repo_of (cur_db w1)) = k :: l -> is_commit w1 k c -> head_tree w1 (Some (c_tree c)).
    Proof. intros H Hi Ic. exists n. split; [exact H|]. exists k, l, c. split; [exact Hi|]. split; [apply commit_reads, Ic|reflexivity]. Qed.
    Lemma status_exactly : (exists w2, run_command cm (Some s) CStatus w1 = (Done tt, w2)) <->
      has_head w1 /\ forall t, head_tree w1 (Some t) -> globs_ok cm /\ comparable ex fo (ds_repo s) w1 (Some t).
    Proof using U S NC De Ar.
      cbn [run_command with_ds]. unfold cmd_status. split.
      - intros (w2 & H). apply bind_done in H as (n & v1 & H1 & H). pose proof (head_text _ _ _ H1) as Ut. pose proof (head_done _ _ _ H1) as [T1 B].
        destruct (branch_live None w1 n F B (fun _ => Ut)) as (v1' & H1' & _ & F1). cbn [refname_or_head] in H1'. rewrite H1 in H1'. inv H1'. rename v1' into v1.
        split; [exists n; auto|]. intros t Ht.
        destruct (newest_try n v1 (ok_ticked _ _ T1 W) F1) as (v2 & H2 & T2 & F2). rewrite (run_bind _ _ _ _ _ H2), (cur_ticked _ _ T1) in H.
        destruct (history n None (repo_of (cur_db w1))) as [|k l] eqn:Hi.
        { destruct Ht as (n' & B' & k & l & c & Hi' & _). congruence. }
        destruct (newest_commit _ _ _ _ _ W Sh Hi) as [c Ic]. rewrite (head_tree_fun _ _ _ (head_tree_of n k l c B Hi Ic) Ht).
        apply bind_done in H as ([] & v3 & H3 & H). assert (F3 : w_faults v3 = []) by (destruct (print_live "HEAD:" [n; firstn 8 (as_user_key k)] v2 F2) as (x & Q & Fx); rewrite H3 in Q; inv Q; exact Fx).
        apply printed in H3 as [A3 _]. pose proof (alike_trans _ _ _ (alike_ticked _ _ (ticked_trans _ _ _ T1 T2)) A3) as A.
        destruct (commit_get k c v3 F3 (is_commit_cur _ _ _ _ (alike_cur _ _ A) Ic)) as (v4 & H4 & T4 & F4). rewrite (run_bind _ _ _ _ _ H4) in H.
        apply bind_done in H as (r & v5 & H5 & _).
        apply (compare_here (ds_repo s) ex fo (Some (c_tree c)) w1 v4 (alike_trans _ _ _ A (alike_ticked _ _ T4)) F4 Ar Th Sh Fu De); [|eauto].
        eapply commit_formed; eassumption.
      - intros [(n & B & Ut) Hc]. destruct (branch_live None w1 n F B (fun _ => Ut)) as (v1 & H1 & T1 & F1). cbn [refname_or_head] in H1. rewrite (run_bind _ _ _ _ _ H1).
        destruct (newest_try n v1 (ok_ticked _ _ T1 W) F1) as (v2 & H2 & T2 & F2). rewrite (run_bind _ _ _ _ _ H2), (cur_ticked _ _ T1).
        destruct (history n None (repo_of (cur_db w1))) as [|k l] eqn:Hi; [destruct (print_live "HEAD (no commits):" [n; n] v2 F2) as (v3 & H3 & _); eauto|].
        destruct (newest_commit _ _ _ _ _ W Sh Hi) as [c Ic]. pose proof (Hc _ (head_tree_of n k l c B Hi Ic)) as GC.
        destruct (print_live "HEAD:" [n; firstn 8 (as_user_key k)] v2 F2) as (v3 & H3 & F3). rewrite (run_bind _ _ _ _ _ H3).
        apply printed in H3 as [A3 _]. pose proof (alike_trans _ _ _ (alike_ticked _ _ (ticked_trans _ _ _ T1 T2)) A3) as A.
        destruct (commit_get k c v3 F3 (is_commit_cur _ _ _ _ (alike_cur _ _ A) Ic)) as (v4 & H4 & T4 & F4). rewrite (run_bind _ _ _ _ _ H4).
        destruct (compare_here (ds_repo s) ex fo (Some (c_tree c)) w1 v4 (alike_trans _ _ _ A (alike_ticked _ _ T4)) F4 Ar Th Sh Fu De) as [_ Li]; [eapply commit_formed; eassumption|].
        destruct (Li GC) as (r & v5 & H5 & F5). rewrite (run_bind _ _ _ _ _ H5). destruct (report_live r v5 F5) as (v6 & H6 & _). eauto.
    Qed.
    Lemma checkout_head_exactly n' : (exists w2, run_command cm (Some s) (CCheckoutHead n') w1 = (Done tt, w2)) <->
      has_head w1 /\ globs_ok cm /\ forall to, head_tree w1 to -> comparable ex fo (ds_repo s) w1 to.
    Proof using U S NC De Ar.
      cbn [run_command with_ds]. unfold cmd_checkout_head.
      assert (Tree : forall n v2, rp_head (repo_of (cur_db w1)) = Some n -> ticked w1 v2 -> w_faults v2 = [] ->
        exists to v3, head_tree w1 to /\ match to with Some t => points (cur_db w1) Item t | None => True end /\ ticked w1 v3 /\ w_faults v3 = [] /\
          match (match history n None (repo_of (cur_db w1)) with k :: _ => Ok k | [] => Err ERefNotFound end) with Ok k => c <- commit_from_key ds k ;; ret (Some (c_tree c)) | Err _ => ret None end v2 = (Done to, v3)).
      { intros n v2 B T F2. destruct (history n None (repo_of (cur_db w1))) as [|k l] eqn:Hi.
        - exists None, v2. split; [exists n; auto|]. auto.
        - destruct (newest_commit _ _ _ _ _ W Sh Hi) as [c Ic]. destruct (commit_get k c v2 F2 (is_commit_cur _ _ _ _ (cur_ticked _ _ T) Ic)) as (v3 & H3 & T3 & F3).
          exists (Some (c_tree c)), v3. split; [eapply head_tree_of; eassumption|]. split; [eapply commit_formed; eassumption|]. split; [eapply ticked_trans; eassumption|]. split; [exact F3|].
          rewrite (run_bind _ _ _ _ _ H3). reflexivity. }
      split.
      - intros (w2 & H). apply bind_done in H as (n & v1 & H1 & H). pose proof (head_text _ _ _ H1) as Ut. pose proof (head_done _ _ _ H1) as [T1 B].
        destruct (branch_live None w1 n F B (fun _ => Ut)) as (v1' & H1' & _ & F1). cbn [refname_or_head] in H1'. rewrite H1 in H1'. inv H1'. rename v1' into v1.
        split; [exists n; auto|].
        destruct (newest_try n v1 (ok_ticked _ _ T1 W) F1) as (v2 & H2 & T2 & F2). rewrite (run_bind _ _ _ _ _ H2), (cur_ticked _ _ T1) in H.
        destruct (Tree n v2 B (ticked_trans _ _ _ T1 T2) F2) as (to & v3 & Ht & P & T3 & F3 & H3). rewrite (run_bind _ _ _ _ _ H3) in H. apply bind_done in H as (r & v4 & H4 & _).
        destruct (compare_here (ds_repo s) ex fo to w1 v3 (alike_ticked _ _ T3) F3 Ar Th Sh Fu De P) as [Ne _]. destruct Ne as [G Co]; [eauto|]. split; [exact G|].
        intros to' Ht'. rewrite (head_tree_fun _ _ _ Ht Ht'). exact Co.
      - intros ((n & B & Ut) & G & Hc). destruct (branch_live None w1 n F B (fun _ => Ut)) as (v1 & H1 & T1 & F1). cbn [refname_or_head] in H1. rewrite (run_bind _ _ _ _ _ H1).
        destruct (newest_try n v1 (ok_ticked _ _ T1 W) F1) as (v2 & H2 & T2 & F2). rewrite (run_bind _ _ _ _ _ H2), (cur_ticked _ _ T1).
        destruct (Tree n v2 B (ticked_trans _ _ _ T1 T2) F2) as (to & v3 & Ht & P & T3 & F3 & H3). rewrite (run_bind _ _ _ _ _ H3).
        destruct (compare_here (ds_repo s) ex fo to w1 v3 (alike_ticked _ _ T3) F3 Ar Th Sh Fu De P) as [_ Li]. destruct (Li (conj G (Hc _ Ht))) as (r & v5 & H5 & F5). rewrite (run_bind _ _ _ _ _ H5).
        destruct (diff_result_empty r).
        + unfold put_head. cbn [raw_put_state ds]. unfold sqlite_raw_put_state. edestruct write_live as (v6 & H6 & F6); [exact F5|]. rewrite (run_bind _ _ _ _ _ H6). destruct (print_live "Ok, new head." [] v6 F6) as (v7 & H7 & _). eauto.
        + destruct (print_live "Cannot checkout: working directory is not clean" [] v5 F5) as (v6 & H6 & F6). rewrite (run_bind _ _ _ _ _ H6). destruct (report_live r v6 F6) as (v7 & H7 & _). eauto.
    Qed.
    (** Comparing with the tree of HEAD, or with a given tree. *)
    Definition tree_arg (k : option keyish) : M key := match k with Some k => canonicalize ds k | None => h <- get_head_key ;; c <- commit_from_key ds h ;; ret (c_tree c) end.
    Lemma arg_live k t : (forall ki, k = Some ki -> names_only w1 Item ki) -> (k = None -> has_head w1) -> compared_to w1 k t ->
      exists v, ticked w1 v /\ w_faults v = [] /\ points (cur_db w1) Item t /\ tree_arg k w1 = (Done t, v).
    Proof using U S NC Ar.
      intros Nm Hh Ct. destruct k as [ki|]; cbn [compared_to tree_arg] in *.
      - destruct (canon_live ki w1 t W F Ct) as (v & H & T & Fv). exists v. split; [exact T|]. split; [exact Fv|]. split; [apply (Nm ki eq_refl), Ct|exact H].
      - destruct Ct as (n & B & k & l & c & Hi & Rc & ->). destruct (newest_commit _ _ _ _ _ W Sh Hi) as [c' Ic]. rewrite (reads_is _ _ _ _ Ic Rc) in *. clear Rc c.
        destruct (asked_live w1 None k W F) as (v1 & H1 & T1 & F1); [|exists n, l; auto|].
        { intros _ n0 B0. destruct (Hh eq_refl) as (n1 & B1 & U1). congruence. }
        cbn [key_or_head] in H1. destruct (commit_get k c' v1 F1 (is_commit_cur _ _ _ _ (cur_ticked _ _ T1) Ic)) as (v2 & H2 & T2 & F2).
        exists v2. split; [eapply ticked_trans; eassumption|]. split; [exact F2|]. split; [eapply commit_formed; eassumption|]. rewrite (run_bind _ _ _ _ _ H1), (run_bind _ _ _ _ _ H2). reflexivity.
    Qed.
    Lemma arg_done k t v : tree_arg k w1 = (Done t, v) -> (k = None -> has_head w1) /\ compared_to w1 k t.
    Proof using U S.
      intro Hk. destruct k as [ki|]; cbn [compared_to tree_arg] in *.
      - apply canon_done in Hk as [_ D]; [|exact W]. split; [discriminate|exact D].
      - apply bind_done in Hk as (h & v1 & Hh & Hk). unfold get_head_key in Hh. apply bind_done in Hh as (n & v3 & Hn & Hh). pose proof (head_text _ _ _ Hn) as Ut. apply head_done in Hn as [T3 B].
        apply newest_done in Hh as [T4 (l & Hi)]; [|eapply ok_ticked; eassumption]. rewrite (cur_ticked _ _ T3) in Hi. apply bind_done in Hk as (c & v4 & Hc & Hk). apply commit_key_done in Hc as [T5 Rc]. apply ret_done in Hk as [-> _].
        split; [intros _; exists n; auto|]. exists n. split; [exact B|]. exists h, l, c. split; [exact Hi|]. split; [|reflexivity]. eapply reads_commit_cur; [|exact Rc]. symmetry. apply cur_ticked. eapply ticked_trans; eassumption.
    Qed.
    Lemma compare_exactly p k : (forall ki, k = Some ki -> names_only w1 Item ki) ->
      (exists w2, run_command cm (Some s) (CCompare p k false) w1 = (Done tt, w2)) <->
      globs_ok cm /\ (k = None -> has_head w1) /\ exists t, compared_to w1 k t /\ comparable ex fo (match p with Some q => q | None => ds_repo s end) w1 (Some t).
    Proof using U S NC De Ar.
      intro Nm. cbn [run_command with_ds]. unfold cmd_compare. fold (tree_arg k). set (q := match p with Some q => q | None => ds_repo s end). cbv zeta. split.
      - intros (w2 & H). apply bind_done in H as (t & v & Hk & H). apply bind_done in H as (r & v2 & H2 & _). destruct (arg_done _ _ _ Hk) as [Hh Ct].
        destruct (arg_live k t Nm Hh Ct) as (v' & T & Fv & P & Hk'). rewrite Hk in Hk'. inv Hk'. rename v' into v.
        destruct (compare_here q ex fo (Some t) w1 v (alike_ticked _ _ T) Fv Ar Th Sh Fu De P) as [Ne _]. destruct Ne as [G Co]; [eauto|]. split; [exact G|]. split; [exact Hh|]. eauto.
      - intros (G & Hh & t & Ct & Co). destruct (arg_live k t Nm Hh Ct) as (v & T & Fv & P & Hk). rewrite (run_bind _ _ _ _ _ Hk).
        destruct (compare_here q ex fo (Some t) w1 v (alike_ticked _ _ T) Fv Ar Th Sh Fu De P) as [_ Li]. destruct (Li (conj G Co)) as (r & v5 & H5 & F5). rewrite (run_bind _ _ _ _ _ H5).
        destruct (report_live r v5 F5) as (v6 & H6 & _). eauto.
    Qed.
  End Looking.
End LiveCmd.
