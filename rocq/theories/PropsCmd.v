(** Commands about references and what commands print: C59-C67. *)
From Verif Require Import Base BaseFacts Key Keyish Cbor Object Path World WorldFacts Store File Filter Dir Diff Commit Main SpecKey SpecStore SpecResolve StoreCalls SpecRun SpecProc
  SpecFile SpecDir SpecCache SpecDiff SpecPatch SpecShow SpecCmd SpecOut ObjectFacts SnapFacts FsFacts DirTrip DirLive ProcFacts QueryFacts InitFacts CmdFacts OutFacts PatternFacts Checks Toy ToyRepo PropsCache PropsDiff PropsShow PropsMain.

(** A key argument as typed. *)
Definition typed (s : bytes) : keyish := match parse_keyish s with Some (Ok k) => k | _ => KKey [] [] end.
Definition cx_head : keyish := typed (str "/master").
Definition cx_key : key := hd dx_k1 (history (str "master") None (repo_of (cur_db pm_v1))).
Lemma cx_denotes : denotes pm_v1 cx_head cx_key.
Proof. assert (X : exists o, cx_head = KReflog o None (str "master")) by (eexists; vm_compute; reflexivity). destruct X as [o ->]. exists []. vm_compute. reflexivity. Qed.

(** ** C59 *)
(** [ref update] adds one entry on top of the branch named, or of HEAD: the key the
    argument stands for.  Nothing else changes and nothing is printed. *)
Theorem C59_ref_update :
  forall (E : Env) cm w s w1 ki r w2, reachable w -> starts cm w (Some s) w1 -> run_command cm (Some s) (CRefUpdate ki r) w1 = (Done tt, w2) ->
  exists name k, branch_of r (repo_of (cur_db w1)) name /\ denotes w1 ki k /\ pushed (repo_of (cur_db w1)) (repo_of (cur_db w2)) (Push name None k) /\ quietly w1 w2.
Proof. intros E cm w s w1 ki r w2. apply ref_update_works. Qed.
Print Assumptions C59_ref_update.
Theorem C59_ref_update_succeeds :
  forall (E : Env) cm w s w1 ki r name k, reachable w -> starts cm w (Some s) w1 -> w_faults w = [] ->
  denotes w1 ki k -> branch_of r (repo_of (cur_db w1)) name -> (r = None -> utf8_valid name = true) ->
  exists w2, run_command cm (Some s) (CRefUpdate ki r) w1 = (Done tt, w2).
Proof. intros E cm w s w1 ki r name k. apply ref_update_live. Qed.
Print Assumptions C59_ref_update_succeeds.
(** [debug reflog-push] does so for any branch and remote. *)
Theorem C59_reflog_push :
  forall (E : Env) cm w s w1 ki n rm w2, reachable w -> starts cm w (Some s) w1 -> run_command cm (Some s) (CReflogPush ki n rm) w1 = (Done tt, w2) ->
  exists k, denotes w1 ki k /\ pushed (repo_of (cur_db w1)) (repo_of (cur_db w2)) (Push n rm k) /\ quietly w1 w2.
Proof. intros E cm w s w1 ki n rm w2. apply reflog_push_works. Qed.
Print Assumptions C59_reflog_push.
Theorem C59_reflog_push_succeeds :
  forall (E : Env) cm w s w1 ki n rm k, reachable w -> starts cm w (Some s) w1 -> w_faults w = [] -> denotes w1 ki k ->
  exists w2, run_command cm (Some s) (CReflogPush ki n rm) w1 = (Done tt, w2).
Proof. intros E cm w s w1 ki n rm k. apply reflog_push_live. Qed.
Print Assumptions C59_reflog_push_succeeds.
Definition cx_upd : world := snd (run_command toy_cm (Some pm_s) (CRefUpdate cx_head (Some (str "other"))) pm_v1).
Example C59_example :
  denotes pm_v1 cx_head cx_key /\ run_command toy_cm (Some pm_s) (CRefUpdate cx_head (Some (str "other"))) pm_v1 = (Done tt, cx_upd) /\
  history (str "other") None (repo_of (cur_db pm_v1)) = [] /\ history (str "other") None (repo_of (cur_db cx_upd)) = [cx_key] /\ history (str "master") None (repo_of (cur_db cx_upd)) = [cx_key].
Proof. split; [exact cx_denotes|]. split; [vm_compute; reflexivity|]. split; [vm_compute; reflexivity|]. split; vm_compute; reflexivity. Qed.

(** ** C60 *)
(** [ref log] prints all the entries of the branch, newest first and numbered
    downwards to one, and changes nothing. *)
Theorem C60_ref_log :
  forall (E : Env) cm w s w1 r rm w2, reachable w -> starts cm w (Some s) w1 -> run_command cm (Some s) (CRefLog r rm) w1 = (Done tt, w2) ->
  exists name, branch_of r (repo_of (cur_db w1)) name /\ untouched w1 w2 /\
    says w1 w2 (Printed "log entries are printed with most recent at top" [] :: numbered (history name rm (repo_of (cur_db w1)))).
Proof. intros E cm w s w1 r rm w2. apply ref_log_works. Qed.
Print Assumptions C60_ref_log.
Theorem C60_ref_log_succeeds :
  forall (E : Env) cm w s w1 r rm name, reachable w -> starts cm w (Some s) w1 -> w_faults w = [] ->
  branch_of r (repo_of (cur_db w1)) name -> (r = None -> utf8_valid name = true) ->
  exists w2, run_command cm (Some s) (CRefLog r rm) w1 = (Done tt, w2).
Proof. intros E cm w s w1 r rm name. apply ref_log_live. Qed.
Print Assumptions C60_ref_log_succeeds.
(** [debug reflog-get] prints the newest entry, and succeeds if there is one. *)
Theorem C60_reflog_get :
  forall (E : Env) cm w s w1 n rm w2, reachable w -> starts cm w (Some s) w1 -> run_command cm (Some s) (CReflogGet n rm) w1 = (Done tt, w2) ->
  exists k l, history n rm (repo_of (cur_db w1)) = k :: l /\ untouched w1 w2 /\ says w1 w2 [Printed "" [as_user_key k]].
Proof. intros E cm w s w1 n rm w2. apply reflog_get_works. Qed.
Print Assumptions C60_reflog_get.
Theorem C60_reflog_get_succeeds :
  forall (E : Env) cm w s w1 n rm k l, reachable w -> starts cm w (Some s) w1 -> w_faults w = [] -> history n rm (repo_of (cur_db w1)) = k :: l ->
  exists w2, run_command cm (Some s) (CReflogGet n rm) w1 = (Done tt, w2).
Proof. intros E cm w s w1 n rm k l. apply reflog_get_live. Qed.
Print Assumptions C60_reflog_get_succeeds.
Definition cx_log : world := snd (run_command toy_cm (Some pm_s) (CRefLog None None) pm_v1).
Example C60_example :
  run_command toy_cm (Some pm_s) (CRefLog None None) pm_v1 = (Done tt, cx_log) /\ utf8_valid (str "master") = true /\
  w_out cx_log = Printed "entry" [number 1; as_user_key cx_key] :: Printed "log entries are printed with most recent at top" [] :: w_out pm_v1.
Proof. split; [vm_compute; reflexivity|]. split; vm_compute; reflexivity. Qed.

(** ** C61 *)
(** [debug set-head] changes HEAD and nothing else, [debug get-head] prints it; the
    name set by one process is what the next one prints. *)
Theorem C61_set_head :
  forall (E : Env) cm s w1 n w2, run_command cm (Some s) (CSetHead n) w1 = (Done tt, w2) ->
  head_set (repo_of (cur_db w1)) (repo_of (cur_db w2)) n /\ quietly w1 w2.
Proof. intros E cm s w1 n w2. apply set_head_works. Qed.
Print Assumptions C61_set_head.
Theorem C61_get_head :
  forall (E : Env) cm s w1 w2, run_command cm (Some s) CGetHead w1 = (Done tt, w2) ->
  untouched w1 w2 /\ says w1 w2 [Printed "head:" (match rp_head (repo_of (cur_db w1)) with Some n => [n] | None => [] end)].
Proof. intros E cm s w1 w2. apply get_head_works. Qed.
Print Assumptions C61_get_head.
Theorem C61_succeed :
  forall (E : Env) cm w s w1 n, starts cm w (Some s) w1 -> w_faults w = [] ->
  (exists w2, run_command cm (Some s) (CSetHead n) w1 = (Done tt, w2)) /\
  ((forall n', rp_head (repo_of (cur_db w1)) = Some n' -> utf8_valid n' = true) -> exists w2, run_command cm (Some s) CGetHead w1 = (Done tt, w2)).
Proof. intros E cm w s w1 n S F. split; [eapply set_head_live; eassumption|]. intro U. eapply get_head_live; eassumption. Qed.
Print Assumptions C61_succeed.
Theorem C61_head_kept :
  forall (E : Env) cm n w code w' s w1 w2 s' v1 v2, reachable w -> run_process cm (CSetHead n) w = (code, w') ->
  starts cm w (Some s) w1 -> run_command cm (Some s) (CSetHead n) w1 = (Done tt, w2) -> commit_ok_next w2 ->
  there w' (w_conn w2) -> starts cm w' (Some s') v1 -> w_conn v1 = w_conn w2 ->
  run_command cm (Some s') CGetHead v1 = (Done tt, v2) -> says v1 v2 [Printed "head:" [n]].
Proof. intros E cm n w code w' s w1 w2 s' v1 v2. apply head_kept. Qed.
Print Assumptions C61_head_kept.
Definition cx_set : world := snd (run_process toy_cm (CSetHead (str "other")) toy_committed).
Definition cx_got : world := snd (run_process toy_cm CGetHead cx_set).
Example C61_example : w_out cx_set = w_out toy_committed /\ w_out cx_got = Printed "head:" [str "other"] :: w_out toy_committed.
Proof. split; vm_compute; reflexivity. Qed.
Definition cx_sh1 : world := snd (run_command toy_cm (Some pm_s) (CSetHead (str "other")) pm_v1).
Definition cx_sv1 : world := snd (setup toy_cm (close_all cx_set)).
Definition cx_sv2 : world := snd (run_command toy_cm (Some pm_s) CGetHead cx_sv1).
Example C61_kept_example :
  run_process toy_cm (CSetHead (str "other")) toy_committed = (Some 0%N, cx_set) /\ run_command toy_cm (Some pm_s) (CSetHead (str "other")) pm_v1 = (Done tt, cx_sh1) /\ commit_ok_next cx_sh1 /\
  there cx_set (w_conn cx_sh1) /\ starts toy_cm cx_set (Some pm_s) cx_sv1 /\ w_conn cx_sv1 = w_conn cx_sh1 /\ run_command toy_cm (Some pm_s) CGetHead cx_sv1 = (Done tt, cx_sv2).
Proof.
  split; [vm_compute; reflexivity|]. split; [vm_compute; reflexivity|]. split; [vm_compute; exact I|]. split; [eexists _, _; vm_compute; reflexivity|].
  split; [vm_compute; reflexivity|]. split; vm_compute; reflexivity.
Qed.

(** ** C62 *)
(** [insert] prints the key of the snapshot of the path it stored, only adds objects
    and leaves the files alone. *)
Theorem C62_insert :
  forall (E : Env) cm w s w1 p w2, reachable w -> starts cm w (Some s) w1 -> fs_ok (w_fs w1) -> run_command cm (Some s) (CInsert p) w1 = (Done tt, w2) ->
  exists k, snapshot w1 (cm_exclude cm) (ds_folder s) p k w2 /\ says w1 w2 [Printed "inserted hash" [as_user_key k]] /\
    w_fs w2 = w_fs w1 /\ w_cwd w2 = w_cwd w1 /\ adds_objects (cur_db w1) (cur_db w2).
Proof. intros E cm w s w1 p w2. apply insert_works. Qed.
Print Assumptions C62_insert.
Definition cx_ins : world := snd (run_command toy_cm (Some pm_s) (CInsert (parse_path (str "s"))) pm_w1).
Example C62_example :
  run_command toy_cm (Some pm_s) (CInsert (parse_path (str "s"))) pm_w1 = (Done tt, cx_ins) /\ fs_ok (w_fs pm_w1) /\ length (d_data (cur_db cx_ins)) = 3.
Proof. split; [vm_compute; reflexivity|]. split; [apply fs_okb_ok; vm_compute; reflexivity|vm_compute; reflexivity]. Qed.

(** ** C63 *)
(** [status] and [compare] print exactly the differences.  For a tidy tree (C36) and
    a cache with right answers (C34): [status] prints the newest commit of HEAD's branch and
    the topmost new files and directories and the modified files, in order. *)
Theorem C63_status :
  forall (E : Env) cm w s w1 w2, reachable w -> starts cm w (Some s) w1 -> steady_reads -> in_order w1 ->
  (forall t, head_tree w1 (Some t) -> tidy w1 t) -> run_command cm (Some s) CStatus w1 = (Done tt, w2) ->
  exists name, rp_head (repo_of (cur_db w1)) = Some name /\
    ((exists k l c A M, history name None (repo_of (cur_db w1)) = k :: l /\ reads_commit w1 k c /\
        differences (cm_exclude cm) (ds_folder s) (ds_repo s) w1 (Some (c_tree c)) (w_hashed w2) A M /\
        says w1 w2 (Printed "HEAD:" [name; firstn 8 (as_user_key k)] :: report_lists A M)) \/
     (history name None (repo_of (cur_db w1)) = [] \/ ~ no_errors w1) /\ says w1 w2 [Printed "HEAD (no commits):" [name; name]]).
Proof. intros E cm w s w1 w2. apply status_works. Qed.
Print Assumptions C63_status.
Theorem C63_compare :
  forall (E : Env) cm w s w1 p k w2, reachable w -> starts cm w (Some s) w1 -> steady_reads -> in_order w1 ->
  (forall t, compared_to w1 k t -> tidy w1 t) -> run_command cm (Some s) (CCompare p k false) w1 = (Done tt, w2) ->
  exists t A M, compared_to w1 k t /\
    differences (cm_exclude cm) (ds_folder s) (match p with Some q => q | None => ds_repo s end) w1 (Some t) (w_hashed w2) A M /\ says w1 w2 (report_lists A M).
Proof. intros E cm w s w1 p k w2. apply compare_works. Qed.
Print Assumptions C63_compare.
Theorem C63_compare_stat :
  forall (E : Env) cm w s w1 p k w2, reachable w -> starts cm w (Some s) w1 -> steady_reads -> in_order w1 ->
  (forall t, compared_to w1 k t -> tidy w1 t) -> run_command cm (Some s) (CCompare p k true) w1 = (Done tt, w2) ->
  exists t l, compared_to w1 k t /\
    stat_differences (cm_exclude cm) (ds_folder s) (match p with Some q => q | None => ds_repo s end) w1 t w2 l /\ says w1 w2 (map stat_event l).
Proof. intros E cm w s w1 p k w2. apply compare_stat_works. Qed.
Print Assumptions C63_compare_stat.
(** The tree of HEAD is tidy after a commit. *)
Theorem C63_head_tidy :
  forall (E : Env) cm w s w1 p m w2 v1, reachable w -> starts cm w (Some s) w1 -> fs_ok (w_fs w1) ->
  run_command cm (Some s) (CCommit p m None) w1 = (Done tt, w2) -> attrs_fits (Attrs m []) -> no_coll (w_hashed w2) -> cur_db v1 = cur_db w2 ->
  forall t, head_tree v1 (Some t) -> tidy v1 t.
Proof. intros E cm w s w1 p m w2 v1. apply head_tidy. Qed.
Print Assumptions C63_head_tidy.
(** The committed repository with "f" changed and "d/h" added. *)
Definition cx_edit (f : fs) : fs :=
  map (fun x => if names_eqb (fst x) (in_r (str "f")) then (fst x, EFile (str "HELLO") (Stamp 7 500)) else x) f ++
  [(in_r (str "d"), EDir); (in_r (str "d") ++ [str "h"], EFile (str "h") (Stamp 91 500))].
Definition cx_dirty : world := set_fs toy_committed (cx_edit (w_fs toy_committed)).
Definition cx_d1 : world := snd (setup toy_cm (close_all cx_dirty)).
Lemma cx_starts : starts toy_cm cx_dirty (Some pm_s) cx_d1.
Proof. vm_compute. reflexivity. Qed.
Definition cx_d2 : world := snd (run_command toy_cm (Some pm_s) CStatus cx_d1).
Lemma cx_order : in_order cx_d1.
Proof.
  split; [apply fs_okb_ok; vm_compute; reflexivity|]. split; [apply triples_okb_ok; vm_compute; reflexivity|]. apply right_empty; [vm_compute; reflexivity|right; vm_compute; reflexivity].
Qed.
Lemma cx_same : cur_db cx_d1 = cur_db pm_v1.
Proof. vm_compute. reflexivity. Qed.
Lemma cx_tidy : forall t, head_tree cx_d1 (Some t) -> tidy cx_d1 t.
Proof.
  refine (C63_head_tidy toy_env toy_cm toy_inited pm_s pm_w1 None (str "first") pm_w2 cx_d1 toy_inited_reachable pm_starts _ pm_done _ _ (eq_trans cx_same (proj1 pm_next))).
  - apply fs_okb_ok; vm_compute; reflexivity.
  - apply small_attrs; reflexivity.
  - apply logb_ok; vm_compute; reflexivity.
Qed.
Example C63_example :
  reachable cx_dirty /\ steady_reads (E := toy_env) /\ in_order cx_d1 /\ (forall t, head_tree cx_d1 (Some t) -> tidy cx_d1 t) /\
  run_command toy_cm (Some pm_s) CStatus cx_d1 = (Done tt, cx_d2) /\
  w_out cx_d2 = rev (Printed "HEAD:" [str "master"; firstn 8 (as_user_key cx_key)] :: report_lists [([str "d"], false)] [[str "f"]]) ++ w_out cx_d1.
Proof.
  split; [exact (reach_files _ _ toy_committed_reachable)|]. split; [exact steady_toy|]. split; [exact cx_order|]. split; [exact cx_tidy|]. split; vm_compute; reflexivity.
Qed.
(** It says "no commits" although there are some if reading the reflog fails. *)
Definition cx_deaf : world := set_faults toy_committed (repeat FOk 7 ++ [FErr 0]).
Theorem C63_no_commits_refuted :
  exists (E : Env) cm w w' name, reachable w /\ head_at w toy_db = Some name /\ history name None (repo_of (db_at (w_dbs w) toy_db)) <> [] /\
    run_process cm CStatus w = (Some 0%N, w') /\ w_out w' = Printed "HEAD (no commits):" [name; name] :: w_out w.
Proof.
  exists toy_env, toy_cm, cx_deaf, (snd (run_process toy_cm CStatus cx_deaf)), (str "master").
  split; [exact (reach_faults _ _ toy_committed_reachable)|]. split; [vm_compute; reflexivity|]. split; [vm_compute; discriminate|]. split; vm_compute; reflexivity.
Qed.
Print Assumptions C63_no_commits_refuted.

(** ** C64 *)
(** The hash cache belongs to the user, the objects to a repository: what one
    repository hashed makes [compare --stat] in another one panic.  (Two repositories, one in a
    subdirectory of the other.) *)
Definition cs_env : Env := {|
  blake3 := toy_hash; gear_table := @gear_table toy_env; other_object := fun _ => None; other_fsitem := fun _ => None; other_attrs := fun _ => None;
  read_sizes := fun _ _ => []; fresh_inode := N.of_nat; clock := Z.of_nat; glob_valid := fun _ => true; glob_match := fun _ _ => false; lossy := fun b => b;
  diff_lines := fun a b => [DLeft a; DRight b]; changeset := fun a b => [Rem a; World.Add b]; show_patch := fun _ => []; debug_cbor := fun _ => Err []; cache_dir := Some (parse_path (str "/c")); stack := 50; loop_bound := 50 |}.
Definition cs_run (c : command) (w : world) : option N * world := @run_process cs_env toy_cm c w.
Definition goto (l : loc) (w : world) : world := World (w_fs w) l (w_dbs w) (w_conn w) (w_txn w) (w_cache w) (w_ctxn w) (w_faults w) (w_out w) (w_hashed w) (w_tick w).
Definition cs_outer : world := snd (cs_run (CCommit None (str "first") None) (snd (cs_run CInit toy_start))).
Definition cs_inner : world := snd (cs_run (CCommit None (str "first") None) (snd (cs_run CInit (goto (in_r (str "s")) cs_outer)))).
Definition cs_edit (f : fs) : fs := map (fun x => if names_eqb (fst x) (in_r (str "s") ++ [str "g"]) then (fst x, EFile (str "ab") (Stamp 8 500)) else x) f.
Definition cs_both : world := set_fs cs_inner (cs_edit (w_fs cs_inner)).
Definition cs_used : world := goto (in_r (str "s")) (snd (cs_run (CCompare None None false) (goto [str "r"] cs_both))).
Lemma goto_reachable l w : @reachable cs_env w -> @reachable cs_env (goto l w).
Proof. intro R. apply (reach_outside w); [exact R|split; reflexivity]. Qed.
Lemma cs_both_reachable : @reachable cs_env cs_both.
Proof. apply reach_files, reach_process, reach_process, goto_reachable, reach_process, reach_process, reach_start. reflexivity. Qed.
Theorem C64_shared_cache_refuted :
  exists (E : Env) cm w w' here there, reachable w /\ w_faults w = [] /\ w_cwd w = here /\ fst (run_process cm (CCompare None None true) w) = Some 0%N /\
    w' = goto here (snd (run_process cm (CCompare None None false) (goto there w))) /\ fst (run_process cm (CCompare None None false) (goto there w)) = Some 0%N /\
    w_fs w' = w_fs w /\ w_faults w' = [] /\ fst (run_process cm (CCompare None None true) w') = Some 101%N.
Proof.
  exists cs_env, toy_cm, cs_both, cs_used, (in_r (str "s")), [str "r"]. split; [exact cs_both_reachable|]. split; [vm_compute; reflexivity|]. split; [vm_compute; reflexivity|].
  split; [vm_compute; reflexivity|]. split; [reflexivity|]. split; [vm_compute; reflexivity|]. split; [vm_compute; reflexivity|]. split; vm_compute; reflexivity.
Qed.
Print Assumptions C64_shared_cache_refuted.

(** ** C65 *)
(** What [insert] stored can be fetched later: after any number of other commands, a
    fetch by an argument that stands for the printed key (for instance a prefix of it
    that no other stored key has) recreates the files and touches nothing else. *)
Theorem C65_insert_then_fetch :
  forall (E : Env) cm w s w1 p w2 k cm' v s' v1 ki q v2, reachable w -> starts cm w (Some s) w1 -> fs_ok (w_fs w1) ->
  run_command cm (Some s) (CInsert p) w1 = (Done tt, w2) -> says w1 w2 [Printed "inserted hash" [as_user_key k]] -> no_coll (w_hashed w2) ->
  lossless_below (w_fs w1) (locate (w_cwd w1) p) ->
  reachable v -> starts cm' v (Some s') v1 -> still_stored w2 v1 -> denotes v1 ki k ->
  run_command cm' (Some s') (CFetch ki q) v1 = (Done tt, v2) -> free (w_fs v1) (locate (w_cwd v1) q) ->
  let src := locate (w_cwd w1) p in let out := locate (w_cwd v1) q in
  (forall r c, content (w_fs v2) (out ++ r) = Some c <->
     content (w_fs w1) (src ++ r) = Some c /\ included (cm_exclude cm) (locate (w_cwd w1) (ds_folder s)) p src r) /\
  (forall x e, lookup (w_fs v1) x = Some e -> lookup (w_fs v2) x = Some e) /\
  (forall x, lookup (w_fs v1) x = None -> lookup (w_fs v2) x <> None ->
     (exists r, x = out ++ r) \/ (lookup (w_fs v2) x = Some EDir /\ exists a b, p_comps q = a ++ b /\ x = locate (w_cwd v1) (Path (p_abs q) a false))).
Proof. intros E cm w s w1 p w2 k cm' v s' v1 ki q v2. apply insert_then_fetch. Qed.
Print Assumptions C65_insert_then_fetch.
(** The fetch succeeds if nothing fails, the trees are not too deep, and the
    destination is a new name in an existing directory. *)
Theorem C65_fetch_succeeds :
  forall (E : Env) cm w s w1 p w2 k cm' v s' v1 ki d n depth, reachable w -> starts cm w (Some s) w1 -> fs_ok (w_fs w1) ->
  run_command cm (Some s) (CInsert p) w1 = (Done tt, w2) -> says w1 w2 [Printed "inserted hash" [as_user_key k]] -> no_coll (w_hashed w2) ->
  lossless_below (w_fs w1) (locate (w_cwd w1) p) -> storable (w_fs w1) (locate (w_cwd w1) p) depth -> depth + 6 <= stack ->
  reachable v -> starts cm' v (Some s') v1 -> w_faults v = [] -> still_stored w2 v1 -> denotes v1 ki k ->
  walk_comps (w_fs v1) (if p_abs d then [] else w_cwd v1) (p_comps d) = Some (locate (w_cwd v1) d) ->
  lookup (w_fs v1) (locate (w_cwd v1) d) = Some EDir -> free (w_fs v1) (locate (w_cwd v1) (path_push d n)) ->
  exists v2, run_command cm' (Some s') (CFetch ki (path_push d n)) v1 = (Done tt, v2).
Proof. intros E cm w s w1 p w2 k cm' v s' v1 ki d n depth. apply fetch_live_cmd. Qed.
Print Assumptions C65_fetch_succeeds.
Definition cf_in : world := snd (run_process toy_cm (CInsert (parse_path (str "s"))) toy_inited).
Definition cf_key : key := match w_out cx_ins with Printed _ [b] :: _ => match find (fun e => bytes_eqb (match from_db_key (fst e) with Ok k => as_user_key k | _ => [] end) b) (d_data (cur_db cx_ins)) with
  | Some e => match from_db_key (fst e) with Ok k => k | _ => dx_k1 end | None => dx_k1 end | _ => dx_k1 end.
Definition cf_arg : keyish := typed (firstn 9 (as_user_key cf_key)).
Definition cf_v1 : world := snd (setup toy_cm (close_all cf_in)).
Definition cf_v2 : world := snd (run_command toy_cm (Some pm_s) (CFetch cf_arg (parse_path (str "out"))) cf_v1).
Lemma cf_small {E : Env} f l : forallb (fun x => match snd x with EFile c _ => length c <? 100 | _ => true end) f = true -> lossless_below f l.
Proof.
  intro H. apply lossless_small_below. intros r c Hc. unfold content in Hc. destruct (lookup f (l ++ r)) as [[|d st| |]|] eqn:L; try discriminate. injection Hc as ->.
  destruct (l ++ r) as [|n x]; [discriminate L|]. apply assoc_loc_in in L. rewrite forallb_forall in H. apply H in L. cbn [snd] in L. apply Nat.ltb_lt in L. apply Nat.lt_trans with 100; [exact L|].
  unfold chunk_max. rewrite <- (Nat2N.id 100) at 1. apply Nat.compare_lt_iff. rewrite <- N2Nat.inj_compare. reflexivity.
Qed.
Lemma cf_in_reachable : reachable cf_in.
Proof. apply reach_process, toy_inited_reachable. Qed.
Lemma cf_starts : starts toy_cm cf_in (Some pm_s) cf_v1.
Proof. vm_compute. reflexivity. Qed.
Lemma cf_denotes : denotes cf_v1 cf_arg cf_key.
Proof.
  apply (fun H => proj2 (canon_done cf_arg cf_v1 cf_key (snd (canonicalize sqlite_ds cf_arg cf_v1)) (started_ok _ _ _ _ cf_in_reachable cf_starts) H)). vm_compute. reflexivity.
Qed.
Lemma cf_kept : still_stored cx_ins cf_v1.
Proof. apply keptb_ok. vm_compute. reflexivity. Qed.
Example C65_example :
  fs_ok (w_fs pm_w1) /\ run_command toy_cm (Some pm_s) (CInsert (parse_path (str "s"))) pm_w1 = (Done tt, cx_ins) /\
  says pm_w1 cx_ins [Printed "inserted hash" [as_user_key cf_key]] /\ no_coll (w_hashed cx_ins) /\ lossless_below (w_fs pm_w1) (locate (w_cwd pm_w1) (parse_path (str "s"))) /\
  reachable cf_in /\ starts toy_cm cf_in (Some pm_s) cf_v1 /\ still_stored cx_ins cf_v1 /\ denotes cf_v1 cf_arg cf_key /\
  run_command toy_cm (Some pm_s) (CFetch cf_arg (parse_path (str "out"))) cf_v1 = (Done tt, cf_v2) /\ content (w_fs cf_v2) [str "r"; str "out"; str "g"] = Some (str "a").
Proof.
  split; [apply fs_okb_ok; vm_compute; reflexivity|]. split; [vm_compute; reflexivity|]. split; [vm_compute; reflexivity|]. split; [apply logb_ok; vm_compute; reflexivity|].
  split; [apply cf_small; vm_compute; reflexivity|]. split; [exact cf_in_reachable|]. split; [exact cf_starts|]. split; [exact cf_kept|]. split; [exact cf_denotes|]. split; vm_compute; reflexivity.
Qed.
(** But the printed key itself is not accepted (C08): the fetch fails. *)
Theorem C65_printed_key_refuted :
  exists (E : Env) cm w p w' k, reachable w /\ w_faults w = [] /\ run_process cm (CInsert p) w = (Some 0%N, w') /\ w_out w' = Printed "inserted hash" [as_user_key k] :: w_out w /\
    forall q, fst (run_process cm (CFetch (typed (as_user_key k)) q) w') = Some 0%N /\
      w_out (snd (run_process cm (CFetch (typed (as_user_key k)) q) w')) = Printed "fatal:" [] :: w_out w' /\ w_fs (snd (run_process cm (CFetch (typed (as_user_key k)) q) w')) = w_fs w'.
Proof.
  exists toy_env, toy_cm, toy_inited, (parse_path (str "s")), cf_in, cf_key. split; [exact toy_inited_reachable|]. split; [vm_compute; reflexivity|]. split; [vm_compute; reflexivity|].
  split; [vm_compute; reflexivity|]. intro q. vm_compute. auto.
Qed.
Print Assumptions C65_printed_key_refuted.

(** ** C66 *)
(** [debug commit-tree] takes any key for a parent; [log] then panics on the commit it made. *)
Definition ct_tree : key := match reflog_get sqlite_ds (str "master") None (connected toy_committed toy_db) with
  | (Done k, w) => match commit_from_key sqlite_ds k w with (Done c, _) => c_tree c | _ => dx_k1 end | _ => dx_k1 end.
Definition ct_arg : keyish := typed (firstn 9 (as_user_key ct_tree)).
Definition ct_made : world := snd (run_process toy_cm (CCommitTree ct_arg [ct_arg]) toy_committed).
Definition ct_key : bytes := match w_out ct_made with Printed _ [b] :: _ => b | _ => [] end.
Definition ct_new : keyish := typed (firstn 9 ct_key).
Theorem C66_parent_not_a_commit_refuted :
  exists (E : Env) cm w ki w' k ki', reachable w /\ w_faults w = [] /\ run_process cm (CCommitTree ki [ki]) w = (Some 0%N, w') /\
    w_out w' = Printed "" [k] :: w_out w /\ ki' = typed (firstn 9 k) /\
    fst (run_process cm (CPrettyPrint ki') w') = Some 0%N /\ fst (run_process cm (CLog (Some ki')) w') = Some 101%N /\ fst (run_process cm (CShow (Some ki')) w') = Some 101%N.
Proof.
  exists toy_env, toy_cm, toy_committed, ct_arg, ct_made, ct_key, ct_new. split; [exact toy_committed_reachable|]. split; [vm_compute; reflexivity|]. split; [vm_compute; reflexivity|].
  split; [vm_compute; reflexivity|]. split; [reflexivity|]. split; [vm_compute; reflexivity|]. split; vm_compute; reflexivity.
Qed.
Print Assumptions C66_parent_not_a_commit_refuted.

(** ** C67 *)
(** [debug walk-tree] prints every path of the tree once, with its key and kind. *)
Theorem C67_walk_tree :
  forall (E : Env) cm w s w1 ki w2, reachable w -> starts cm w (Some s) w1 -> (forall k, denotes w1 ki k -> tidy w1 k) ->
  run_command cm (Some s) (CWalkTree ki) w1 = (Done tt, w2) ->
  exists k m, denotes w1 ki k /\ NoDup (map fst m) /\ (forall q k' d, In (q, (k', d)) m <-> exists x, q = named x /\ in_tree w1 k x k' d) /\
    untouched w1 w2 /\ says w1 w2 (map item_event m).
Proof. intros E cm w s w1 ki w2. apply walk_tree_works. Qed.
Print Assumptions C67_walk_tree.
Definition cw_arg : keyish := ct_arg.
Definition cw_w2 : world := snd (run_command toy_cm (Some pm_s) (CWalkTree cw_arg) pm_v1).
Lemma cw_denotes : denotes pm_v1 cw_arg ct_tree.
Proof.
  apply (fun H => proj2 (canon_done cw_arg pm_v1 ct_tree (snd (canonicalize sqlite_ds cw_arg pm_v1)) (started_ok _ _ _ _ toy_committed_reachable pm_starts2) H)). vm_compute. reflexivity.
Qed.
Lemma cw_head : head_tree pm_v1 (Some ct_tree).
Proof.
  assert (X : exists c, fst (commit_from_key sqlite_ds cx_key (set_faults pm_v1 [])) = Done c /\ ct_tree = c_tree c) by (eexists; split; vm_compute; reflexivity). destruct X as (c & X & ->).
  destruct (commit_from_key sqlite_ds cx_key (set_faults pm_v1 [])) as [o w'] eqn:Ec. cbn [fst] in X. subst o.
  refine (head_tree_now pm_v1 (str "master") cx_key [] c w' _ _ Ec); vm_compute; reflexivity.
Qed.
Lemma cw_tidy : tidy pm_v1 ct_tree.
Proof.
  refine (C63_head_tidy toy_env toy_cm toy_inited pm_s pm_w1 None (str "first") pm_w2 pm_v1 toy_inited_reachable pm_starts _ pm_done _ _ (proj1 pm_next) ct_tree cw_head).
  - apply fs_okb_ok; vm_compute; reflexivity.
  - apply small_attrs; reflexivity.
  - apply logb_ok; vm_compute; reflexivity.
Qed.
Example C67_example :
  (forall k, denotes pm_v1 cw_arg k -> tidy pm_v1 k) /\
  run_command toy_cm (Some pm_s) (CWalkTree cw_arg) pm_v1 = (Done tt, cw_w2) /\ map (fun e => match e with Printed _ a => hd [] a end) (firstn 3 (w_out cw_w2)) = [str "s/g"; str "s"; str "f"].
Proof.
  split; [intros k D; rewrite (denotes_fun _ _ _ _ cw_denotes D); exact cw_tidy|]. split; vm_compute; reflexivity.
Qed.

(** ** C68 *)
(** A dangling symbolic link anywhere in the tree makes insert, commit, compare and
    status panic, ... *)
Definition dl_fs (f : fs) : fs := f ++ [(in_r (str "link"), EDangling)].
Definition dl_w : world := set_fs toy_committed (dl_fs (w_fs toy_committed)).
Theorem C68_dangling_link_refuted :
  exists (E : Env) cm w, reachable w /\ w_faults w = [] /\ fs_ok (w_fs w) /\
    fst (run_process cm (CCommit None (str "x") None) w) = Some 101%N /\ fst (run_process cm (CInsert (parse_path (str "."))) w) = Some 101%N /\
    fst (run_process cm CStatus w) = Some 101%N /\ fst (run_process cm (CCompare None None false) w) = Some 101%N.
Proof.
  exists toy_env, toy_cm, dl_w. split; [exact (reach_files _ _ toy_committed_reachable)|]. split; [vm_compute; reflexivity|]. split; [apply fs_okb_ok; vm_compute; reflexivity|].
  split; [vm_compute; reflexivity|]. split; [vm_compute; reflexivity|]. split; vm_compute; reflexivity.
Qed.
Print Assumptions C68_dangling_link_refuted.
(** ... and so does an exclude pattern that is not a glob: insert and commit panic,
    compare, checkout and checkout-head do not succeed, and status does only where
    HEAD has no commits. *)
Theorem C68_bad_pattern :
  forall (E : Env) cm s, forallb glob_valid (cm_exclude cm) = false ->
  (forall p w, fst (run_command cm (Some s) (CInsert p) w) = Panicked (PUnwrap None)) /\ (forall p m r w, fst (run_command cm (Some s) (CCommit p m r) w) = Panicked (PUnwrap None)) /\
  (forall c w w', run_command cm (Some s) c w = (Done tt, w') ->
     match c with
     | CInsert _ | CCommit _ _ _ | CCompare _ _ _ | CCheckout | CCheckoutHead _ => False
     | CStatus => exists n r, w_out w' = Printed "HEAD (no commits):" [n; n] :: r
     | _ => True
     end).
Proof. intros E cm s. apply bad_commands. Qed.
Print Assumptions C68_bad_pattern.
(** A pattern that ends inside of brackets, on the repository of the other examples;
    without it the commands succeed. *)
Definition bp_env : Env := {|
  blake3 := toy_hash; gear_table := @gear_table toy_env; other_object := fun _ => None; other_fsitem := fun _ => None; other_attrs := fun _ => None;
  read_sizes := fun _ _ => []; fresh_inode := N.of_nat; clock := Z.of_nat; glob_valid := fun g => negb (bytes_eqb g (str "[")); glob_match := fun _ _ => false; lossy := fun b => b;
  diff_lines := fun a b => [DLeft a; DRight b]; changeset := fun a b => [Rem a; World.Add b]; show_patch := fun _ => []; debug_cbor := fun _ => Err []; cache_dir := None; stack := 50; loop_bound := 50 |}.
Example C68_bad_pattern_example :
  forallb (@glob_valid bp_env) [str "["] = false /\
  map (fun c => fst (@run_process bp_env (Common (cm_db_path toy_cm) [str "["]) c toy_committed)) [CCommit None (str "x") None; CInsert (parse_path (str ".")); CStatus; CCompare None None false] =
    [Some 101%N; Some 101%N; Some 101%N; Some 101%N] /\
  map (fun c => fst (@run_process bp_env (Common (cm_db_path toy_cm) []) c toy_committed)) [CCommit None (str "x") None; CInsert (parse_path (str ".")); CStatus; CCompare None None false] =
    [Some 0%N; Some 0%N; Some 0%N; Some 0%N].
Proof. split; [reflexivity|]. split; vm_compute; reflexivity. Qed.
