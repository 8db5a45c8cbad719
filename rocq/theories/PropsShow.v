(** Properties C40-C44 and C47: summaries, patches, statistics, commits and their history. *)
From Coq Require Import Permutation Sorted.
From Verif Require Import Base BaseFacts Key Cbor CborFacts Object ObjectFacts Path World WorldFacts SortFacts Store File Filter Dir Diff Commit Main SpecStore StoreCalls SpecRun SpecFile SpecDir SpecCache SpecDiff SpecPatch SpecShow
  ObjStoreFacts Integrity FileRun DirTree SessionFacts FsFacts CompareFacts DiffFacts SnapFacts SimplifyFacts PatchFacts Reader LineFacts ShowFacts Ends Checks Toy ToyRepo PropsCache PropsDiff.

(** ** C40 *)
(** Showing a commit succeeds (when nothing fails) exactly when nothing was deleted
    since its first parent and the data of everything added or changed can be read. *)
Theorem C40_show_exactly :
  forall (E : Env) f w k c kd to, is_commit w k c -> base_tree w c to ->
  tidy w (c_tree c) -> tidy_of w to -> walkable w (c_tree c) -> (forall t, to = Some t -> walkable w t) ->
  fst (display_obj sqlite_ds (S f) k kd (set_faults w [])) = Done tt <-> showable w kd (c_tree c) to.
Proof. intros E f w k c kd to. apply show_exactly. Qed.
Print Assumptions C40_show_exactly.
(** For commits of snapshots this means: nothing was deleted, and no directory and
    nothing that was or is one has another key. *)
Theorem C40_show_snapshots :
  forall (E : Env) w new old, 6 < stack -> no_coll (w_hashed w) ->
  (exists w0 ex fo p, snapshot w0 ex fo p new w) -> (forall t, old = Some t -> exists w0 ex fo p, snapshot w0 ex fo p t w) ->
  showable w KStat new old <->
  (forall x k d, tree_of w old x k d -> exists k' d', in_tree w new x k' d') /\
  (forall x k d k' d', in_tree w new x k d -> tree_of w old x k' d' -> k <> k' -> d = false /\ d' = false).
Proof. intros E w new old L NC Sn So. apply showable_snaps; auto. destruct old; [apply So; reflexivity|exact I]. Qed.
Print Assumptions C40_show_snapshots.
(** A deleted path always makes it panic. *)
Theorem C40_deleted_path_panics :
  forall (E : Env) f w k c kd p ps pc x k' d, is_commit w k c -> c_parents c = p :: ps -> reads_commit w p pc ->
  tidy w (c_tree c) -> tidy w (c_tree pc) -> walkable w (c_tree c) -> walkable w (c_tree pc) ->
  in_tree w (c_tree pc) x k' d -> (forall k'' d', ~ in_tree w (c_tree c) x k'' d') ->
  fst (display_obj sqlite_ds (S f) k kd (set_faults w [])) = Panicked PIndex.
Proof. intros E f w k c kd p ps pc x k' d. apply show_deleted. Qed.
Print Assumptions C40_deleted_path_panics.

(** The property as stated fails.  The repository of [toy_committed] with other files,
    a second commit made of them by the program, and what the program does then. *)
Definition sh_fs (f : bytes) (g : bytes) (more : fs) : fs :=
  [([str "r"], EDir); (in_r (str ".snapcd"), EDir); (in_r (str ".snapcd") ++ [str "snapcd.db"], EFile [] (Stamp 5 100));
   (in_r (str "f"), EFile f (Stamp 17 200)); (in_r (str "s"), EDir); (in_r (str "s") ++ [str "g"], EFile g (Stamp 18 200))] ++ more.
Definition sh_gone : fs :=
  [([str "r"], EDir); (in_r (str ".snapcd"), EDir); (in_r (str ".snapcd") ++ [str "snapcd.db"], EFile [] (Stamp 5 100));
   (in_r (str "s"), EDir); (in_r (str "s") ++ [str "g"], EFile (str "a") (Stamp 18 200))].
Definition sh_second (f : fs) : option N * world := run_process toy_cm (CCommit None (str "second") None) (set_fs toy_committed f).
Lemma outside_fs (w : world) f : outside w (set_fs w f).
Proof. repeat split. Qed.
Lemma sh_reachable f : reachable (set_fs toy_committed f).
Proof. exact (reach_outside _ _ toy_committed_reachable (outside_fs _ f)). Qed.
(** A file in a subdirectory changed. *)
Theorem C40_changed_subdirectory_refuted :
  exists (E : Env) cm w w', reachable w /\ w_faults w = [] /\ run_process cm (CCommit None (str "second") None) w = (Some 0%N, w') /\
    length (d_reflog (db_at (w_dbs w') toy_db)) = S (length (d_reflog (db_at (w_dbs w) toy_db))) /\
    fst (run_process cm (CShow None) w') = Some 101%N /\ fst (run_process cm (CLog None) w') = Some 101%N.
Proof.
  exists toy_env, toy_cm, (set_fs toy_committed (sh_fs (str "hello") (str "b") [])), (snd (sh_second (sh_fs (str "hello") (str "b") []))).
  split; [apply sh_reachable|]. split; [vm_compute; reflexivity|]. split; [vm_compute; reflexivity|]. vm_compute. auto.
Qed.
Print Assumptions C40_changed_subdirectory_refuted.
(** A file was deleted. *)
Theorem C40_deleted_file_refuted :
  exists (E : Env) cm w w', reachable w /\ w_faults w = [] /\ run_process cm (CCommit None (str "second") None) w = (Some 0%N, w') /\
    length (d_reflog (db_at (w_dbs w') toy_db)) = S (length (d_reflog (db_at (w_dbs w) toy_db))) /\
    fst (run_process cm (CShow None) w') = Some 101%N /\ fst (run_process cm (CLog None) w') = Some 101%N.
Proof.
  exists toy_env, toy_cm, (set_fs toy_committed sh_gone), (snd (sh_second sh_gone)).
  split; [apply sh_reachable|]. split; [vm_compute; reflexivity|]. split; [vm_compute; reflexivity|]. vm_compute. auto.
Qed.
Print Assumptions C40_deleted_file_refuted.
(** A file that is not UTF-8 was added: [show] reports an error. *)
Theorem C40_binary_file_refuted :
  exists (E : Env) cm w w', reachable w /\ w_faults w = [] /\ run_process cm (CCommit None (str "second") None) w = (Some 0%N, w') /\
    length (d_reflog (db_at (w_dbs w') toy_db)) = S (length (d_reflog (db_at (w_dbs w) toy_db))) /\
    In (Printed "fatal:" []) (w_out (snd (run_process cm (CShow None) w'))) /\ ~ In (Printed "fatal:" []) (w_out w').
Proof.
  set (f := sh_fs (str "hello") (str "a") [(in_r (str "x"), EFile [byte_of 255] (Stamp 20 200))]).
  exists toy_env, toy_cm, (set_fs toy_committed f), (snd (sh_second f)).
  split; [apply sh_reachable|]. split; [vm_compute; reflexivity|]. split; [vm_compute; reflexivity|]. vm_compute. split; [reflexivity|]. split; [auto 20|].
  intros H. repeat (destruct H as [H|H]; [discriminate H|]). exact H.
Qed.
Print Assumptions C40_binary_file_refuted.

(** Two commits, the second with "a" changed and "sub" added. *)
Definition sx_1 : outcome key * world := commit_tree sqlite_ds dx_k1 [] (Attrs (str "one") []) (snd dx_put2).
Definition sx_c1 : key := key_of (fst sx_1).
Definition sx_2 : outcome key * world := commit_tree sqlite_ds dx_k2 [sx_c1] (Attrs (str "two") []) (snd sx_1).
Definition sx_c2 : key := key_of (fst sx_2).
Lemma sx_1_done : commit_tree sqlite_ds dx_k1 [] (Attrs (str "one") []) (snd dx_put2) = (Done sx_c1, snd sx_1).
Proof. vm_compute. reflexivity. Qed.
Lemma sx_2_done : commit_tree sqlite_ds dx_k2 [sx_c1] (Attrs (str "two") []) (snd sx_1) = (Done sx_c2, snd sx_2).
Proof. vm_compute. reflexivity. Qed.
Lemma small_attrs m : (lenN m <? 2 ^ 64)%N = true -> utf8_valid m = true -> attrs_fits (Attrs m []).
Proof. intros H U. split; [apply N.ltb_lt, H|]. split; [exact U|]. apply wf_map. split; [reflexivity|constructor]. Qed.
Lemma sx_log : no_coll (w_hashed (snd sx_2)).
Proof. apply logb_ok. vm_compute. reflexivity. Qed.
Lemma sx_ok1 : world_ok (snd dx_put2).
Proof. exact (working_ok _ (wk_put _ 10 dx_src [] dx_folder dx_work2)). Qed.
Lemma commit_ok {E : Env} t l a w : world_ok w -> world_ok (snd (commit_tree sqlite_ds t l a w)).
Proof. rewrite commit_tree_eq. apply put_obj_ok. Qed.
Lemma sx_ok2 : world_ok (snd sx_1).
Proof. exact (commit_ok _ _ _ _ sx_ok1). Qed.
Lemma sx_kept : still_stored (snd dx_put2) (snd sx_2) /\ incl (w_hashed (snd dx_put2)) (w_hashed (snd sx_2)).
Proof. apply keptb_ok. vm_compute. reflexivity. Qed.
Lemma sx_kept1 : still_stored (snd sx_1) (snd sx_2) /\ incl (w_hashed (snd sx_1)) (w_hashed (snd sx_2)).
Proof. apply keptb_ok. vm_compute. reflexivity. Qed.
Lemma sx_commit2 : is_commit (snd sx_2) sx_c2 (Commit dx_k2 [sx_c1] (Attrs (str "two") [])).
Proof. exact (commit_tree_done _ _ _ _ _ _ sx_ok2 sx_log (small_attrs (str "two") eq_refl eq_refl) sx_2_done). Qed.
Lemma sx_commit1 : is_commit (snd sx_2) sx_c1 (Commit dx_k1 [] (Attrs (str "one") [])).
Proof.
  destruct (commit_tree_done _ _ _ _ _ _ sx_ok1 (no_coll_incl _ _ (proj2 sx_kept1) sx_log) (small_attrs (str "one") eq_refl eq_refl) sx_1_done) as (o & R & T & C).
  exists o. split; [|split; assumption]. eapply reads_still; [exact (proj1 sx_kept1)|exact R].
Qed.
Lemma sx_snap2 : snapshot (set_fs (snd dx_put1) dx_fs2) [] dx_folder dx_src dx_k2 (snd sx_2).
Proof. exact (snapshot_kept _ _ _ _ _ _ _ dx_snap2 sx_kept). Qed.
Lemma sx_snap1 : snapshot dx_w [] dx_folder dx_src dx_k1 (snd sx_2).
Proof. exact (snapshot_kept _ _ _ _ _ _ _ dx_snap1 sx_kept). Qed.
Lemma sx_walk k : (match fst (walk_fs_items sqlite_ds k (set_faults (snd sx_2) [])) with Done _ => true | _ => false end) = true -> walkable (snd sx_2) k.
Proof. unfold walkable. destruct (fst _) as [m| | | |]; intro H; try discriminate H. exists m. reflexivity. Qed.
Lemma sx_walk1 : walkable (snd sx_2) dx_k1.
Proof. apply sx_walk. vm_compute. reflexivity. Qed.
Lemma sx_walk2 : walkable (snd sx_2) dx_k2.
Proof. apply sx_walk. vm_compute. reflexivity. Qed.
Lemma sx_shown : fst (display_obj sqlite_ds 20 sx_c2 KPatch (set_faults (snd sx_2) [])) = Done tt.
Proof. vm_compute. reflexivity. Qed.
Example C40_example : showable (snd sx_2) KPatch dx_k2 (Some dx_k1).
Proof.
  refine (proj1 (C40_show_exactly toy_env 19 (snd sx_2) sx_c2 _ KPatch (Some dx_k1) sx_commit2 _ _ _ sx_walk2 _) sx_shown).
  - destruct sx_commit1 as (o & R & _ & C). exists (Commit dx_k1 [] (Attrs (str "one") [])). split; [exists o; split; assumption|reflexivity].
  - exact (C36_inserted_trees_tidy _ _ _ _ _ _ _ sx_snap2 sx_log).
  - exact (C36_inserted_trees_tidy _ _ _ _ _ _ _ sx_snap1 sx_log).
  - intros t H. injection H as <-. exact sx_walk1.
Qed.

(** ** C41 *)
(** Of the added paths and of the deleted paths, those remain, in the same order, that
    are not below another one; every path left out is below exactly one that remains.
    The modified paths are the same. *)
Theorem C41_topmost_added :
  forall r, by_path ad_path (df_added r) ->
  sublist (df_added (simplify r)) (df_added r) /\ by_path ad_path (df_added (simplify r)) /\
  (forall a x, In a (df_added r) -> ad_path a = named x ->
     (In a (df_added (simplify r)) <-> forall b y, In b (df_added r) -> ad_path b = named y -> ~ inside y x)) /\
  (forall a x, In a (df_added r) -> ad_path a = named x -> ~ In a (df_added (simplify r)) ->
     exists y, (exists b, In b (df_added (simplify r)) /\ ad_path b = named y) /\ inside y x /\
       forall b y', In b (df_added (simplify r)) -> ad_path b = named y' -> inside y' x -> y' = y).
Proof. intros r. exact (keep_spec ad_path (df_added r)). Qed.
Print Assumptions C41_topmost_added.
Theorem C41_topmost_deleted :
  forall r, by_path dl_path (df_deleted r) ->
  sublist (df_deleted (simplify r)) (df_deleted r) /\ by_path dl_path (df_deleted (simplify r)) /\
  (forall a x, In a (df_deleted r) -> dl_path a = named x ->
     (In a (df_deleted (simplify r)) <-> forall b y, In b (df_deleted r) -> dl_path b = named y -> ~ inside y x)) /\
  (forall a x, In a (df_deleted r) -> dl_path a = named x -> ~ In a (df_deleted (simplify r)) ->
     exists y, (exists b, In b (df_deleted (simplify r)) /\ dl_path b = named y) /\ inside y x /\
       forall b y', In b (df_deleted (simplify r)) -> dl_path b = named y' -> inside y' x -> y' = y).
Proof. intros r. exact (keep_spec dl_path (df_deleted r)). Qed.
Print Assumptions C41_topmost_deleted.
Theorem C41_modified_untouched : forall r, df_modified (simplify r) = df_modified r.
Proof. reflexivity. Qed.
Print Assumptions C41_modified_untouched.
Definition mk_added (l : list (list bytes)) : list added_result := map (fun x => Added (named x) false None) l.
Example C41_example :
  let r := DiffResult [] (mk_added [[str "a"]; [str "a"; str "b"]; [str "a"; str "b"; str "c"]; [str "ab"]; [str "c"; str "d"]]) [] in
  by_path ad_path (df_added r) /\ map ad_path (df_added (simplify r)) = [named [str "a"]; named [str "ab"]; named [str "c"; str "d"]].
Proof.
  split; [|vm_compute; reflexivity]. exists [[str "a"]; [str "a"; str "b"]; [str "a"; str "b"; str "c"]; [str "ab"]; [str "c"; str "d"]].
  split; [reflexivity|]. repeat (apply SSorted_cons; [|repeat (apply Forall_cons; [apply loc_cmp_lt; vm_compute; reflexivity|]); apply Forall_nil]). apply SSorted_nil.
Qed.

(** ** C42 *)
(** The lines of the line diff are cut into separate stretches.  A line is in one of
    them exactly when it is near a change.  Each hunk has the lines of its stretch,
    starts at the right line numbers, and its counts leave out the last line. *)
Theorem C42_hunks :
  forall ds, exists ivl hs, hunks_of ds = Some hs /\ separated 0 (length (diff_plines ds)) ivl /\
  (forall i, i < length (diff_plines ds) -> (near (diff_plines ds) i <-> exists a b, In (a, b) ivl /\ a <= i < b)) /\
  Forall2 (hunk_at (diff_plines ds)) ivl hs.
Proof. exact hunks_ok. Qed.
Print Assumptions C42_hunks.
(** The changed lines of the hunks are the changed lines of the line diff, in order. *)
Theorem C42_changed_lines :
  forall ds, exists hs, hunks_of ds = Some hs /\ filter changed (concat (map h_lines hs)) = filter changed (diff_plines ds).
Proof. exact hunks_changed. Qed.
Print Assumptions C42_changed_lines.
(** The counts in the headers are wrong. *)
Theorem C42_counts_refuted :
  exists ds h, hunks_of ds = Some [h] /\ h_lines h = diff_plines ds /\
    ~ right_range of_old (diff_plines ds) 0 (length (diff_plines ds)) (h_old h) /\ ~ right_range of_new (diff_plines ds) 0 (length (diff_plines ds)) (h_new h).
Proof.
  eexists [Rem (str "a"); World.Add (str "b"); Same (str "c")], _. split; [vm_compute; reflexivity|]. split; [vm_compute; reflexivity|].
  split; intros [_ H]; vm_compute in H; discriminate H.
Qed.
Print Assumptions C42_counts_refuted.
Example C42_example :
  option_map (map (fun h => (pr_start (h_old h), pr_count (h_old h), length (h_lines h)))) (hunks_of [Same (str "1"); Rem (str "2"); Same [ "010"; "010"; "010"; "010"; "010"; "010"; "010"; "010"; "010"; "010"; "010"]%char; World.Add (str "3")])
  = Some [(1%N, 4%N, 5); (10%N, 5%N, 6)].
Proof. vm_compute. reflexivity. Qed.

(** ** C43 *)
(** The statistics: one entry per added file, per deleted file and per modified path,
    with the lines of its data or the lines on one side of the line diff only. *)
Theorem C43_statistics :
  forall (E : Env) r w l w', line_stat sqlite_ds r w = (Done l, w') ->
  cur_db w' = cur_db w /\ w_fs w' = w_fs w /\
  exists A D M, l = A ++ D ++ M /\ Forall2 (added_stat w) (added_files r) A /\ Forall2 (deleted_stat w) (deleted_files r) D /\ Forall2 (modified_stat w) (df_modified r) M.
Proof.
  intros E r w l w' H. apply line_stat_done in H as [T X]. split; [apply cur_ticked, T|]. split; [|exact X]. destruct T as (t & f & ->). destruct w; reflexivity.
Qed.
Print Assumptions C43_statistics.
(** They are printed in the order of the paths. *)
Theorem C43_printed :
  forall (E : Env) r w w', print_stat_diff_result sqlite_ds r w = (Done tt, w') ->
  exists A D M l, Forall2 (added_stat w) (added_files r) A /\ Forall2 (deleted_stat w) (deleted_files r) D /\ Forall2 (modified_stat w) (df_modified r) M /\
    Permutation (A ++ D ++ M) l /\ Sorted (fun a b => path_cmp (st_name a) (st_name b) <> Gt) l /\ w_out w' = rev (map stat_event l) ++ w_out w.
Proof. intros E r w w'. apply print_stat_done. Qed.
Print Assumptions C43_printed.
Example C43_example :
  map (fun s => (st_name s, st_added s, st_removed s)) (match fst (line_stat sqlite_ds (diff_of (fst dx_cmp)) (snd dx_put2)) with Done l => l | _ => [] end)
  = [(named [str "sub"; str "c"], 0, 0); (named [str "a"], 1, 1)].
Proof. vm_compute. reflexivity. Qed.

(** ** C44 *)
(** The order of the parents given does not matter. *)
Theorem C44_parent_order :
  forall (E : Env) s t l l' a w, Permutation l l' -> commit_tree s t l a w = commit_tree s t l' a w.
Proof. intros E s t l l' a w. apply commit_tree_perm. Qed.
Print Assumptions C44_parent_order.
(** The key is that of a stored commit with this tree, these attributes and these
    parents in the order of their keys. *)
Theorem C44_commit_stored :
  forall (E : Env) t l a w k w', session w -> no_coll (w_hashed w') -> attrs_fits a -> commit_tree sqlite_ds t l a w = (Done k, w') ->
  exists ps, Permutation l ps /\ StronglySorted (fun a b => key_cmp a b <> Gt) ps /\ is_commit w' k (Commit t ps a).
Proof.
  intros E t l a w k w' S NC F H. exists (sort key_cmp l). split; [apply sort_perm|]. split; [apply sort_keys_sorted|].
  eapply commit_tree_done; eauto using session_ok.
Qed.
Print Assumptions C44_commit_stored.
Example C44_example :
  commit_tree sqlite_ds dx_k1 [dx_k1; dx_k2] (Attrs (str "m") []) dx_w = commit_tree sqlite_ds dx_k1 [dx_k2; dx_k1] (Attrs (str "m") []) dx_w /\
  session dx_w /\ no_coll (w_hashed (snd (commit_tree sqlite_ds dx_k1 [dx_k1; dx_k2] (Attrs (str "m") []) dx_w))) /\
  attrs_fits (Attrs (str "m") []) /\ exists k, fst (commit_tree sqlite_ds dx_k1 [dx_k1; dx_k2] (Attrs (str "m") []) dx_w) = Done k.
Proof.
  split; [apply C44_parent_order, perm_swap|]. split; [exact dx_session|]. split; [apply logb_ok; vm_compute; reflexivity|].
  split; [apply small_attrs; reflexivity|]. eexists. vm_compute. reflexivity.
Qed.

(** ** C47 *)
(** If [log] succeeds it went along the first parents down to a commit without parents
    and announced each of these commits once, in this order. *)
Theorem C47_log_first_parents :
  forall (E : Env) k kd w w', log_obj sqlite_ds k kd w = (Done tt, w') ->
  (exists c, is_commit w k c) /\ exists l, lineage w k l /\
    ((forall k', In k' l -> exists c, is_commit w k' c) -> filter is_header (w_out w') = rev (map header l) ++ filter is_header (w_out w)).
Proof. intros E k kd w w'. apply log_done. Qed.
Print Assumptions C47_log_first_parents.
(** It succeeds when nothing fails and each of them can be shown. *)
Theorem C47_log_succeeds :
  forall (E : Env) w kd k l c, is_commit w k c -> lineage w k l -> (forall k', In k' l -> shows_well w kd k') -> length l <= S loop_bound ->
  fst (log_obj sqlite_ds k kd (set_faults w [])) = Done tt.
Proof. intros E w kd k l c. apply log_works. Qed.
Print Assumptions C47_log_succeeds.
(** It ends in every reachable repository. *)
Theorem C47_log_ends :
  forall (E : Env) w l w', reachable w -> cur_db w' = db_at (w_dbs w) l ->
  length (d_data (db_at (w_dbs w) l)) + 1 < stack -> length (d_data (db_at (w_dbs w) l)) < loop_bound ->
  forall k kd, fst (log_obj sqlite_ds k kd w') <> Diverged.
Proof. intros E w l w' R C L L'. exact (proj2 (shows_end w l w' R C L) L'). Qed.
Print Assumptions C47_log_ends.
Lemma sx_lineage : lineage (snd sx_2) sx_c2 [sx_c2; sx_c1].
Proof.
  destruct sx_commit2 as (o & R & _ & C), sx_commit1 as (o' & R' & _ & C').
  eapply lin_step; [exists o; split; [exact R|exact C]|reflexivity|]. eapply lin_root; [exists o'; split; [exact R'|exact C']|reflexivity].
Qed.
Lemma sx_shows : forall k, In k [sx_c2; sx_c1] -> shows_well (snd sx_2) KStat k.
Proof. intros k [<-|[<-|[]]]; vm_compute; reflexivity. Qed.
Example C47_example :
  fst (log_obj sqlite_ds sx_c2 KStat (set_faults (snd sx_2) [])) = Done tt /\
  filter is_header (w_out (snd (log_obj sqlite_ds sx_c2 KStat (set_faults (snd sx_2) [])))) = rev [header sx_c2; header sx_c1].
Proof.
  split; [|vm_compute; reflexivity].
  apply (C47_log_succeeds toy_env _ _ _ _ _ sx_commit2 sx_lineage sx_shows). apply Nat.leb_le. reflexivity.
Qed.
