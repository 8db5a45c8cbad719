(** Commands and processes: C45, C46, C48-C51, C55-C57. *)
From Verif Require Import Base BaseFacts Key Keyish Cbor Object Path World WorldFacts Store File Filter Dir Diff Commit Main SpecStore StoreCalls SpecRun SpecProc
  SpecFile SpecDir SpecCache SpecDiff SpecShow SpecCmd ObjectFacts SnapFacts ProcFacts QueryFacts InitFacts CmdFacts Checks Toy ToyRepo PropsCache PropsDiff PropsShow.

(** *** Concrete processes, for the examples *)
Definition pm_of (o : outcome (option ds_state)) : ds_state := match o with Done (Some s) => s | _ => DsState (parse_path []) (parse_path []) end.
Definition pm_set : outcome (option ds_state) * world := setup toy_cm (close_all toy_inited).
Definition pm_s : ds_state := pm_of (fst pm_set).
Definition pm_w1 : world := snd pm_set.
Lemma pm_starts : starts toy_cm toy_inited (Some pm_s) pm_w1.
Proof. vm_compute. reflexivity. Qed.
Definition pm_run : outcome unit * world := run_command toy_cm (Some pm_s) (CCommit None (str "first") None) pm_w1.
Definition pm_w2 : world := snd pm_run.
Lemma pm_done : run_command toy_cm (Some pm_s) (CCommit None (str "first") None) pm_w1 = (Done tt, pm_w2).
Proof. vm_compute. reflexivity. Qed.
Definition pm_set2 : outcome (option ds_state) * world := setup toy_cm (close_all toy_committed).
Definition pm_v1 : world := snd pm_set2.
Lemma pm_starts2 : starts toy_cm toy_committed (Some pm_s) pm_v1.
Proof. vm_compute. reflexivity. Qed.
Definition pm_run2 : outcome unit * world := run_command toy_cm (Some pm_s) CStatus pm_v1.
Definition pm_v2 : world := snd pm_run2.
Lemma pm_done2 : run_command toy_cm (Some pm_s) CStatus pm_v1 = (Done tt, pm_v2).
Proof. vm_compute. reflexivity. Qed.
Lemma pm_there : there toy_inited toy_db.
Proof. eexists _, _. vm_compute. reflexivity. Qed.
Lemma pm_there2 : there toy_committed toy_db.
Proof. eexists _, _. vm_compute. reflexivity. Qed.
Lemma pm_commit : run_process toy_cm (CCommit None (str "first") None) toy_inited = (Some 0%N, toy_committed).
Proof. vm_compute. reflexivity. Qed.
Lemma reach_faults {E : Env} w fl : reachable w -> reachable (set_faults w fl).
Proof. intro R. apply (reach_outside w); [exact R|split; reflexivity]. Qed.
Lemma reach_files {E : Env} w f : reachable w -> reachable (set_fs w f).
Proof. intro R. apply (reach_outside w); [exact R|split; reflexivity]. Qed.
Lemma no_errors_none w : w_faults w = [] -> no_errors w.
Proof. intros F f I. rewrite F in I. destruct I. Qed.
Definition sizes (w : world) (l : loc) : nat * nat := (length (d_data (db_at (w_dbs w) l)), length (d_reflog (db_at (w_dbs w) l))).
Definition head_at (w : world) (l : loc) : option bytes := rp_head (repo_of (db_at (w_dbs w) l)).

(** ** C45 *)
(** When the commit command succeeds, its branch got one more entry on top: a stored
    commit whose tree is the snapshot of the path, with the message given and
    with the previous newest entry of the branch as its only parent, or none. Objects,
    HEAD and the rest of the reflog are as before, and so are the files. *)
Theorem C45_commit_command :
  forall (E : Env) cm w s w1 p m r w2, reachable w -> starts cm w (Some s) w1 -> fs_ok (w_fs w1) ->
  run_command cm (Some s) (CCommit p m r) w1 = (Done tt, w2) -> no_coll (w_hashed w2) -> attrs_fits (Attrs m []) ->
  exists name tree k w0, branch_of r (repo_of (cur_db w1)) name /\ w_fs w0 = w_fs w1 /\ w_cwd w0 = w_cwd w1 /\
    snapshot w0 (cm_exclude cm) (ds_folder s) (match p with Some q => q | None => ds_repo s end) tree w2 /\
    is_commit w2 k (Commit tree (firstn 1 (history name None (repo_of (cur_db w1)))) (Attrs m [])) /\
    one_push (repo_of (cur_db w1)) (repo_of (cur_db w2)) (Push name None k) /\ w_fs w2 = w_fs w1 /\ w_cwd w2 = w_cwd w1 /\ w_conn w2 = w_conn w1.
Proof. intros E cm w s w1 p m r w2. apply commit_works. Qed.
Print Assumptions C45_commit_command.
(** In terms of branches: this one is extended, no other one changes. *)
Theorem C45_branches :
  forall (E : Env) old new name k, one_push old new (Push name None k) ->
  history name None new = k :: history name None old /\
  forall n rm, n <> name \/ rm <> None -> history n rm new = history n rm old.
Proof. intros E old new name k. apply push_branches. Qed.
Print Assumptions C45_branches.
Example C45_example :
  reachable toy_inited /\ starts toy_cm toy_inited (Some pm_s) pm_w1 /\ fs_ok (w_fs pm_w1) /\
  run_command toy_cm (Some pm_s) (CCommit None (str "first") None) pm_w1 = (Done tt, pm_w2) /\ no_coll (w_hashed pm_w2) /\ attrs_fits (Attrs (str "first") []).
Proof.
  split; [exact toy_inited_reachable|]. split; [exact pm_starts|]. split; [apply fs_okb_ok; vm_compute; reflexivity|]. split; [exact pm_done|].
  split; [apply logb_ok; vm_compute; reflexivity|]. apply small_attrs; reflexivity.
Qed.

(** ** C46 *)
(** status in a later process, with the files and the database as the commit
    command left them, and with a cache whose answers are right, prints no difference.
    (If asking for the branch's newest commit fails it claims that there are no commits.) *)
Theorem C46_status_after_commit :
  forall (E : Env) cm w s w1 m w2 v v1 v2, reachable w -> starts cm w (Some s) w1 -> fs_ok (w_fs w1) ->
  run_command cm (Some s) (CCommit None m None) w1 = (Done tt, w2) -> attrs_fits (Attrs m []) ->
  reachable v -> starts cm v (Some s) v1 -> cur_db v1 = cur_db w2 -> incl (w_hashed w2) (w_hashed v1) -> w_fs v1 = w_fs w2 -> w_cwd v1 = w_cwd w2 -> in_order v1 -> steady_reads ->
  run_command cm (Some s) CStatus v1 = (Done tt, v2) -> no_coll (w_hashed v2) ->
  exists name k, rp_head (repo_of (cur_db w2)) = Some name /\
    (w_out v2 = Printed "HEAD:" [name; firstn 8 (as_user_key k)] :: w_out v1 \/
     ~ no_errors v1 /\ w_out v2 = Printed "HEAD (no commits):" [name; name] :: w_out v1).
Proof. intros E cm w s w1 m w2 v v1 v2. apply status_after_commit. Qed.
Print Assumptions C46_status_after_commit.
(** The next process does find the database as the commit command left it. *)
Theorem C46_next_process :
  forall (E : Env) cm c w code w' s w1 w2 st v1, run_process cm c w = (code, w') ->
  starts cm w (Some s) w1 -> run_command cm (Some s) c w1 = (Done tt, w2) -> commit_ok_next w2 ->
  there w' (w_conn w2) -> starts cm w' st v1 -> w_conn v1 = w_conn w2 ->
  cur_db v1 = cur_db w2 /\ incl (w_hashed w2) (w_hashed v1).
Proof. intros E cm c w code w' s w1 w2 st v1. apply next_process. Qed.
Print Assumptions C46_next_process.
Lemma pm_next : cur_db pm_v1 = cur_db pm_w2 /\ incl (w_hashed pm_w2) (w_hashed pm_v1).
Proof.
  refine (C46_next_process toy_env _ _ _ _ _ _ _ _ _ _ pm_commit pm_starts pm_done _ _ pm_starts2 _); [vm_compute; exact I| |vm_compute; reflexivity].
  eexists _, _. vm_compute. reflexivity.
Qed.
Lemma pm_order : in_order pm_v1.
Proof.
  split; [apply fs_okb_ok; vm_compute; reflexivity|]. split; [apply triples_okb_ok; vm_compute; reflexivity|]. apply right_empty; [vm_compute; reflexivity|right; vm_compute; reflexivity].
Qed.
Example C46_example :
  exists name k, rp_head (repo_of (cur_db pm_w2)) = Some name /\
    (w_out pm_v2 = Printed "HEAD:" [name; firstn 8 (as_user_key k)] :: w_out pm_v1 \/
     ~ no_errors pm_v1 /\ w_out pm_v2 = Printed "HEAD (no commits):" [name; name] :: w_out pm_v1).
Proof.
  refine (C46_status_after_commit toy_env toy_cm toy_inited pm_s pm_w1 (str "first") pm_w2 toy_committed pm_v1 pm_v2 toy_inited_reachable pm_starts _ pm_done _ toy_committed_reachable pm_starts2 (proj1 pm_next) (proj2 pm_next) _ _ pm_order steady_toy pm_done2 _).
  - apply fs_okb_ok; vm_compute; reflexivity.
  - apply small_attrs; reflexivity.
  - vm_compute; reflexivity.
  - vm_compute; reflexivity.
  - apply logb_ok; vm_compute; reflexivity.
Qed.

(** ** C48 *)
(** If BEGIN takes effect and SQLite does not roll back on its own, then after a
    process -- whatever failed and whenever it was killed -- the database is as before, or
    the command ran to its end and the database is as the command left it. *)
Theorem C48_all_or_nothing :
  forall (E : Env) cm c w l code w', c <> CInit -> there w l -> no_auto_rollback w -> begins cm w -> run_process cm c w = (code, w') ->
  db_at (w_dbs w') l = db_at (w_dbs w) l \/
  exists s w1 w2, starts cm w (Some s) w1 /\ w_conn w1 = l /\ run_command cm (Some s) c w1 = (Done tt, w2) /\
                  cur_db w1 = db_at (w_dbs w) l /\ db_at (w_dbs w') l = cur_db w2.
Proof. intros E cm c w l code w'. apply all_or_nothing. Qed.
Print Assumptions C48_all_or_nothing.
(** So a command that fails, panics or is killed changes nothing. *)
Theorem C48_failure_changes_nothing :
  forall (E : Env) cm c w l code w' st w1 o w2, c <> CInit -> there w l -> no_auto_rollback w -> begins cm w -> run_process cm c w = (code, w') ->
  starts cm w st w1 -> run_command cm st c w1 = (o, w2) -> o <> Done tt ->
  db_at (w_dbs w') l = db_at (w_dbs w) l.
Proof. intros E cm c w l code w' st w1 o w2. apply failure_changes_nothing. Qed.
Print Assumptions C48_failure_changes_nothing.
(** If nothing fails both conditions hold, wherever the process is killed. *)
Theorem C48_when_killed :
  forall (E : Env) cm w, no_errors w -> no_auto_rollback w /\ begins cm w.
Proof. intros E cm w N. split; [apply no_errors_rollback, N|apply no_errors_begins, N]. Qed.
Print Assumptions C48_when_killed.
(** Killed in the middle of a commit. *)
Definition pm_killed : world := set_faults toy_inited (repeat FOk 16 ++ [FCrash 0]).
Lemma pm_killed_ok : no_errors pm_killed.
Proof. intros f I. cbn in I. repeat (destruct I as [<-|I]; [eauto|]). destruct I. Qed.
Definition pm_killed_set : outcome (option ds_state) * world := setup toy_cm (close_all pm_killed).
Lemma pm_killed_starts : starts toy_cm pm_killed (Some pm_s) (snd pm_killed_set).
Proof. vm_compute. reflexivity. Qed.
Definition pm_killed_run : outcome unit * world := run_command toy_cm (Some pm_s) (CCommit None (str "first") None) (snd pm_killed_set).
Lemma pm_killed_crash : run_command toy_cm (Some pm_s) (CCommit None (str "first") None) (snd pm_killed_set) = (Crashed, snd pm_killed_run).
Proof. vm_compute. reflexivity. Qed.
(** Part of the objects had been written inside the transaction. *)
Lemma pm_killed_wrote : length (d_data (cur_db (snd pm_killed_run))) = 2.
Proof. vm_compute. reflexivity. Qed.
Definition pm_killed_end : world := snd (run_process toy_cm (CCommit None (str "first") None) pm_killed).
Lemma pm_killed_proc : run_process toy_cm (CCommit None (str "first") None) pm_killed = (None, pm_killed_end).
Proof. vm_compute. reflexivity. Qed.
Lemma pm_killed_there : there pm_killed toy_db.
Proof. eexists _, _. vm_compute. reflexivity. Qed.
Example C48_example : db_at (w_dbs pm_killed_end) toy_db = db_at (w_dbs pm_killed) toy_db.
Proof.
  destruct (C48_when_killed toy_env toy_cm pm_killed pm_killed_ok) as [A B].
  assert (X : CCommit None (str "first") None <> CInit) by discriminate. assert (Y : @Crashed unit <> Done tt) by discriminate.
  exact (C48_failure_changes_nothing _ _ _ _ _ _ _ _ _ _ _ X pm_killed_there A B pm_killed_proc pm_killed_starts pm_killed_crash Y).
Qed.
(** The result of BEGIN is ignored: should it fail, every statement is committed on its
    own, and a command that is killed (or fails) leaves a part of its work. *)
Definition pm_nobegin : world := set_faults toy_inited (repeat FOk 4 ++ [FErr 0] ++ repeat FOk 12 ++ [FCrash 0]).
Theorem C48_begin_fails_refuted :
  exists (E : Env) cm c w l s w1 w2 w', reachable w /\ there w l /\ no_auto_rollback w /\ c <> CInit /\
    starts cm w (Some s) w1 /\ run_command cm (Some s) c w1 = (Crashed, w2) /\ run_process cm c w = (None, w') /\
    sizes w l = (0, 0) /\ sizes w' l = (2, 0).
Proof.
  exists toy_env, toy_cm, (CCommit None (str "first") None), pm_nobegin, toy_db, pm_s, (snd (setup toy_cm (close_all pm_nobegin))),
    (snd (run_command toy_cm (Some pm_s) (CCommit None (str "first") None) (snd (setup toy_cm (close_all pm_nobegin))))),
    (snd (run_process toy_cm (CCommit None (str "first") None) pm_nobegin)).
  split; [exact (reach_faults _ _ toy_inited_reachable)|]. split; [eexists _, _; vm_compute; reflexivity|].
  split; [intro I; cbn in I; repeat (destruct I as [I|I]; [discriminate I|]); exact I|]. split; [discriminate|].
  split; [vm_compute; reflexivity|]. split; [vm_compute; reflexivity|]. split; [vm_compute; reflexivity|]. split; vm_compute; reflexivity.
Qed.
Print Assumptions C48_begin_fails_refuted.
(** checkout-head takes any failure of the question for HEAD's newest commit for "no
    commits".  If that failure made SQLite roll back, what follows is not in a
    transaction any more: killed before COMMIT, HEAD has moved all the same. *)
Definition pm_empty : fs := [([str "r"], EDir); (in_r (str ".snapcd"), EDir); (in_r (str ".snapcd") ++ [str "snapcd.db"], EFile [] (Stamp 5 100))].
Definition pm_lost : world := set_faults (set_fs toy_committed pm_empty) (repeat FOk 7 ++ [FErrRb] ++ repeat FOk 5 ++ [FCrash 0]).
Theorem C48_auto_rollback_refuted :
  exists (E : Env) cm n w l s w1 w2 w', reachable w /\ there w l /\ begins cm w /\
    starts cm w (Some s) w1 /\ run_command cm (Some s) (CCheckoutHead n) w1 = (Crashed, w2) /\ run_process cm (CCheckoutHead n) w = (None, w') /\
    head_at w l = Some (str "master") /\ head_at w' l = Some n /\ n <> str "master".
Proof.
  exists toy_env, toy_cm, (str "other"), pm_lost, toy_db, pm_s, (snd (setup toy_cm (close_all pm_lost))),
    (snd (run_command toy_cm (Some pm_s) (CCheckoutHead (str "other")) (snd (setup toy_cm (close_all pm_lost))))),
    (snd (run_process toy_cm (CCheckoutHead (str "other")) pm_lost)).
  split; [exact (reach_faults _ _ (reach_files _ _ toy_committed_reachable))|]. split; [eexists _, _; vm_compute; reflexivity|].
  split. { intros s w1 S. assert (Q : snd (setup toy_cm (close_all pm_lost)) = w1) by (unfold starts in S; rewrite S; reflexivity). rewrite <- Q. vm_compute. reflexivity. }
  split; [vm_compute; reflexivity|]. split; [vm_compute; reflexivity|]. split; [vm_compute; reflexivity|]. split; [vm_compute; reflexivity|]. split; [vm_compute; reflexivity|discriminate].
Qed.
Print Assumptions C48_auto_rollback_refuted.

(** ** C49 *)
(** Exit status 0 without "fatal:" as the last line: the command ran to its end, and
    its result is in the database if COMMIT was not refused. *)
Theorem C49_success_durable :
  forall (E : Env) cm c w w', run_process cm c w = (Some 0%N, w') -> (forall a o, w_out w' <> Printed "fatal:" a :: o) ->
  exists st w1 w2, starts cm w st w1 /\ run_command cm st c w1 = (Done tt, w2) /\ w_out w' = w_out w2 /\
    (forall s, st = Some s -> commit_ok_next w2 -> db_at (w_dbs w') (w_conn w2) = cur_db w2).
Proof. intros E cm c w w'. apply success_durable. Qed.
Print Assumptions C49_success_durable.
Example C49_example : run_process toy_cm (CCommit None (str "first") None) toy_inited = (Some 0%N, toy_committed) /\ w_out toy_committed = w_out toy_inited /\
  commit_ok_next pm_w2 /\ db_at (w_dbs toy_committed) (w_conn pm_w2) = cur_db pm_w2.
Proof. split; [exact pm_commit|]. split; [vm_compute; reflexivity|]. split; [vm_compute; exact I|]. vm_compute. reflexivity. Qed.
(** A refused COMMIT goes unnoticed: status 0, no "fatal:", and nothing was stored. *)
Definition pm_refused : world := set_faults toy_inited (repeat FOk 32 ++ [FErr 0]).
Theorem C49_commit_refused_refuted :
  exists (E : Env) cm c w l s w1 w2 w', reachable w /\ there w l /\ run_process cm c w = (Some 0%N, w') /\ w_out w = [] /\ w_out w' = [] /\
    starts cm w (Some s) w1 /\ w_conn w1 = l /\ run_command cm (Some s) c w1 = (Done tt, w2) /\
    length (d_data (cur_db w2)) = 7 /\ length (d_reflog (cur_db w2)) = 1 /\ sizes w' l = (0, 0).
Proof.
  exists toy_env, toy_cm, (CCommit None (str "first") None), pm_refused, toy_db, pm_s, (snd (setup toy_cm (close_all pm_refused))),
    (snd (run_command toy_cm (Some pm_s) (CCommit None (str "first") None) (snd (setup toy_cm (close_all pm_refused))))),
    (snd (run_process toy_cm (CCommit None (str "first") None) pm_refused)).
  split; [exact (reach_faults _ _ toy_inited_reachable)|]. split; [eexists _, _; vm_compute; reflexivity|].
  repeat (split; [vm_compute; reflexivity|]). vm_compute. reflexivity.
Qed.
Print Assumptions C49_commit_refused_refuted.

(** ** C50 *)
(** Whenever a command returns an error and nothing else goes wrong, the exit status is 0. *)
Theorem C50_failure_exits_zero :
  forall (E : Env) cm c w st w1 e w2, w_faults w = [] -> starts cm w st w1 -> run_command cm st c w1 = (Error e, w2) ->
  exists w', run_process cm c w = (Some 0%N, w') /\ w_out w' = Printed "fatal:" (error_message e) :: w_out w2.
Proof. intros E cm c w st w1 e w2. apply failure_exits_zero. Qed.
Print Assumptions C50_failure_exits_zero.
(** In particular failure is not visible: asking for a branch that is not there. *)
Theorem C50_visible_refuted :
  exists (E : Env) cm c w s w1 e w2 w', reachable w /\ w_faults w = [] /\ starts cm w (Some s) w1 /\ run_command cm (Some s) c w1 = (Error e, w2) /\
    run_process cm c w = (Some 0%N, w').
Proof.
  exists toy_env, toy_cm, (CReflogGet (str "none") None), toy_inited, pm_s, pm_w1, ERefNotFound,
    (snd (run_command toy_cm (Some pm_s) (CReflogGet (str "none") None) pm_w1)), (snd (run_process toy_cm (CReflogGet (str "none") None) toy_inited)).
  split; [exact toy_inited_reachable|]. split; [reflexivity|]. split; [exact pm_starts|]. split; vm_compute; reflexivity.
Qed.
Print Assumptions C50_visible_refuted.
(** A panic is visible: it exits with status 101. *)
Theorem C50_panic_visible :
  forall (E : Env) cm c w st w1 p w2, starts cm w st w1 -> run_command cm st c w1 = (Panicked p, w2) -> run_process cm c w = (Some 101%N, close_all w2).
Proof. intros E cm c w st w1 p w2. apply panic_visible. Qed.
Print Assumptions C50_panic_visible.
(** status after the files were deleted. *)
Example C50_example : fst (run_process toy_cm CStatus (set_fs toy_committed pm_empty)) = Some 101%N /\ fst (run_process toy_cm (CReflogGet (str "none") None) toy_committed) = Some 0%N.
Proof. split; vm_compute; reflexivity. Qed.

(** ** C51 *)
(** When no operation fails (the process may be killed): checkout-head leaves HEAD and
    the reflog alone, or comparing the files with the tree of HEAD's newest commit
    showed no difference; then HEAD has the name given, and the reflog is still the same. *)
Theorem C51_only_if_clean :
  forall (E : Env) cm n w l code w', reachable w -> there w l -> no_errors w -> run_process cm (CCheckoutHead n) w = (code, w') ->
  same_refs (db_at (w_dbs w) l) (db_at (w_dbs w') l) \/
  exists s w1 to v r v', starts cm w (Some s) w1 /\ w_conn w1 = l /\ cur_db w1 = db_at (w_dbs w) l /\
    head_tree w1 to /\ alike w1 v /\ compare sqlite_ds (TFileSystem (ds_repo s) (cm_exclude cm) (ds_folder s)) to v = (Done r, v') /\ nothing_differs r /\
    d_reflog (db_at (w_dbs w') l) = d_reflog (db_at (w_dbs w) l) /\ d_state (db_at (w_dbs w') l) = insert_or_replace (str "HEAD") n (d_state (db_at (w_dbs w) l)).
Proof. intros E cm n w l code w'. apply head_moves. Qed.
Print Assumptions C51_only_if_clean.
(** Whatever fails: the reflog stays, no object changes, and the files stay. *)
Theorem C51_nothing_else :
  forall (E : Env) cm n w l s w1 o w2, there w l ->
  keeps_log (db_at (w_dbs w) l) (db_at (w_dbs (snd (run_process cm (CCheckoutHead n) w))) l) /\
  (starts cm w (Some s) w1 -> run_command cm (Some s) (CCheckoutHead n) w1 = (o, w2) -> w_fs w2 = w_fs w1).
Proof.
  intros E cm n w l s w1 o w2 T. split; [apply head_only; [reflexivity|exact T]|]. intros _ H. apply (head_files cm s n w1 o w2 H).
Qed.
Print Assumptions C51_nothing_else.
Example C51_example :
  reachable toy_committed /\ there toy_committed toy_db /\ no_errors toy_committed /\
  head_at (snd (run_process toy_cm (CCheckoutHead (str "other")) toy_committed)) toy_db = Some (str "other") /\
  head_at (snd (run_process toy_cm (CCheckoutHead (str "other")) (set_fs toy_committed pm_empty))) toy_db = Some (str "master").
Proof.
  split; [exact toy_committed_reachable|]. split; [exact pm_there2|]. split; [apply no_errors_none; vm_compute; reflexivity|]. split; vm_compute; reflexivity.
Qed.
(** If asking for HEAD's newest commit fails, the tree is compared with nothing: HEAD
    leaves a branch whose files are not there (the comparison that should have been
    made panics). *)
Definition pm_busy : world := set_faults (set_fs toy_committed pm_empty) (repeat FOk 7 ++ [FErr 0]).
Definition pm_busy1 : world := snd (setup toy_cm (close_all pm_busy)).
Definition pm_busy_k : key := hd dx_k1 (history (str "master") None (repo_of (cur_db pm_busy1))).
Definition pm_busy_c : commit := match commit_from_key sqlite_ds pm_busy_k (set_faults pm_busy1 []) with (Done c, _) => c | _ => Commit dx_k1 [] (Attrs [] []) end.
Definition pm_busy_cmp : outcome diff_result * world := compare sqlite_ds (TFileSystem (ds_repo pm_s) (cm_exclude toy_cm) (ds_folder pm_s)) (Some (c_tree pm_busy_c)) (set_faults pm_busy1 []).
Lemma pm_busy_head : head_tree pm_busy1 (Some (c_tree pm_busy_c)).
Proof.
  eapply (head_tree_now pm_busy1 (str "master") pm_busy_k); [vm_compute; reflexivity|vm_compute; reflexivity|vm_compute; reflexivity].
Qed.
Theorem C51_error_refuted :
  exists (E : Env) cm n w l s w1 t v e v' w', reachable w /\ there w l /\ starts cm w (Some s) w1 /\ w_conn w1 = l /\ run_process cm (CCheckoutHead n) w = (Some 0%N, w') /\
    head_tree w1 (Some t) /\ v = set_faults w1 [] /\ compare sqlite_ds (TFileSystem (ds_repo s) (cm_exclude cm) (ds_folder s)) (Some t) v = (Panicked e, v') /\
    head_at w l <> Some n /\ head_at w' l = Some n.
Proof.
  exists toy_env, toy_cm, (str "other"), pm_busy, toy_db, pm_s, pm_busy1, (c_tree pm_busy_c), (set_faults pm_busy1 []), PIndex, (snd pm_busy_cmp),
    (snd (run_process toy_cm (CCheckoutHead (str "other")) pm_busy)).
  split; [exact (reach_faults _ _ (reach_files _ _ toy_committed_reachable))|]. split; [eexists _, _; vm_compute; reflexivity|].
  split; [vm_compute; reflexivity|]. split; [vm_compute; reflexivity|]. split; [vm_compute; reflexivity|]. split; [exact pm_busy_head|]. split; [reflexivity|].
  split; [vm_compute; reflexivity|]. split; [vm_compute; discriminate|vm_compute; reflexivity].
Qed.
Print Assumptions C51_error_refuted.

(** ** C55 *)
(** Running init where there is a repository keeps all objects and the reflog. *)
Theorem C55_init_keeps :
  forall (E : Env) cm w l, there w l -> only_head (db_at (w_dbs w) l) (db_at (w_dbs (snd (run_process cm CInit w))) l).
Proof. intros E cm w l. apply init_keeps. Qed.
Print Assumptions C55_init_keeps.
Definition pm_moved : world := snd (run_process toy_cm (CCheckoutHead (str "other")) toy_committed).
Lemma pm_moved_reachable : reachable pm_moved.
Proof. apply reach_process, toy_committed_reachable. Qed.
Example C55_example : there pm_moved toy_db /\ sizes pm_moved toy_db = (7, 1) /\ sizes (snd (run_process toy_cm CInit pm_moved)) toy_db = (7, 1).
Proof. split; [eexists _, _; vm_compute; reflexivity|]. split; vm_compute; reflexivity. Qed.
(** But HEAD is lost. *)
Theorem C55_head_kept_refuted :
  exists (E : Env) cm w l w', reachable w /\ w_faults w = [] /\ there w l /\ run_process cm CInit w = (Some 0%N, w') /\
    head_at w l = Some (str "other") /\ head_at w' l = Some (str "master").
Proof.
  exists toy_env, toy_cm, pm_moved, toy_db, (snd (run_process toy_cm CInit pm_moved)).
  split; [exact pm_moved_reachable|]. split; [vm_compute; reflexivity|]. split; [eexists _, _; vm_compute; reflexivity|].
  split; [vm_compute; reflexivity|]. split; vm_compute; reflexivity.
Qed.
Print Assumptions C55_head_kept_refuted.

(** ** C56 *)
(** The folder found is that of the working directory or the nearest directory above it that has
    one; none is found exactly when there is none. *)
Theorem C56_nearest :
  forall (E : Env) name w r w', w_faults w = [] -> find_db_folder name w = (Done r, w') ->
  match r with
  | Some p => exists d, above (w_cwd w) d /\ p = join (abs_path d) name /\ is_there w p /\
                forall e, above (w_cwd w) e -> length d < length e -> ~ is_there w (join (abs_path e) name)
  | None => forall d, above (w_cwd w) d -> ~ is_there w (join (abs_path d) name)
  end.
Proof. intros E name w r w'. apply nearest. Qed.
Print Assumptions C56_nearest.
(** A path that is absolute is the folder itself, if it is there, wherever the process
    runs. *)
Theorem C56_absolute :
  forall (E : Env) name w r w', w_faults w = [] -> p_abs name = true -> find_db_folder name w = (Done r, w') ->
  match r with Some p => p = name /\ is_there w name | None => ~ is_there w name end.
Proof. intros E name w r w'. apply nearest_absolute. Qed.
Print Assumptions C56_absolute.
Theorem C56_always_answers :
  forall (E : Env) name w, w_faults w = [] -> exists r w', find_db_folder name w = (Done r, w').
Proof. intros E name w. apply nearest_total. Qed.
Print Assumptions C56_always_answers.
(** In a directory below one of two nested repositories. *)
Definition pm_nested : world := World
  [([str "a"], EDir); ([str "a"; str ".snapcd"], EDir); ([str "a"; str "b"], EDir); ([str "a"; str "b"; str ".snapcd"], EDir); ([str "a"; str "b"; str "c"], EDir)]
  [str "a"; str "b"; str "c"] [] [] NoTxn [] None [] [] [] 0.
Example C56_example :
  fst (find_db_folder (parse_path (str ".snapcd")) pm_nested) = Done (Some (parse_path (str "/a/b/.snapcd"))) /\
  fst (find_db_folder (parse_path (str ".other")) pm_nested) = Done None /\
  fst (find_db_folder (parse_path (str "/a/.snapcd")) pm_nested) = Done (Some (parse_path (str "/a/.snapcd"))).
Proof. split; [|split]; vm_compute; reflexivity. Qed.

(** ** C57 *)
(** Queries leave the database as it was, whatever fails. *)
Theorem C57_queries :
  forall (E : Env) cm c w l, is_query c = true -> there w l -> db_at (w_dbs (snd (run_process cm c w))) l = db_at (w_dbs w) l.
Proof. intros E cm c w l. apply query_unchanged. Qed.
Print Assumptions C57_queries.
(** insert, status, compare and commit-tree add objects and do no more ... *)
Theorem C57_only_adds :
  forall (E : Env) cm c w l, only_adds c = true -> there w l -> adds_objects (db_at (w_dbs w) l) (db_at (w_dbs (snd (run_process cm c w))) l).
Proof. intros E cm c w l. apply adds_only. Qed.
Print Assumptions C57_only_adds.
(** ... and set-head and checkout-head may set HEAD besides. *)
Theorem C57_only_head :
  forall (E : Env) cm c w l, sets_head c = true -> there w l -> keeps_log (db_at (w_dbs w) l) (db_at (w_dbs (snd (run_process cm c w))) l).
Proof. intros E cm c w l. apply head_only. Qed.
Print Assumptions C57_only_head.
Example C57_example :
  there toy_committed toy_db /\ fst (run_process toy_cm (CLog None) toy_committed) = Some 0%N /\
  fst (run_process toy_cm (CInsert (parse_path (str "s"))) toy_inited) = Some 0%N /\
  sizes (snd (run_process toy_cm (CInsert (parse_path (str "s"))) toy_inited)) toy_db = (3, 0).
Proof. split; [exact pm_there2|]. split; [vm_compute; reflexivity|]. split; vm_compute; reflexivity. Qed.
