(** Properties C76 (the text on the screen) and C77 ([debug commit-tree]). *)
From Coq Require Import Permutation Sorted.
From Verif Require Import Base BaseFacts Key KeyFacts Keyish Cbor Object Path World Store File Filter Dir Diff Commit Pretty Screen Main SpecStore SpecRun SpecProc SpecOut SpecCmd SpecClosure SpecDir SpecDiff SpecPatch SpecShow SpecText SpecShape
  SpecPretty SpecScreen SpecCache SpecCheckout Checks ShapeTop CmdFacts OutFacts ScreenFacts Toy ToyRepo PropsMain PropsShow PropsCache PropsCmd PropsShape PropsText.

(** ** C76 *)

(** [insert] prints one line, with the key of the snapshot. *)
Theorem C76_insert :
  forall (E : Env) (F : Fmt) cm w s w1 p w2, reachable w -> starts cm w (Some s) w1 -> fs_ok (w_fs w1) -> run_command cm (Some s) (CInsert p) w1 = (Done tt, w2) ->
  exists k, snapshot w1 (cm_exclude cm) (ds_folder s) p k w2 /\ writes_lines w1 w2 [str "inserted hash " ++ as_user_key k].
Proof. intros E F cm w s w1 p w2. apply insert_shows. Qed.
Print Assumptions C76_insert.

(** [debug reflog get] prints the newest key. *)
Theorem C76_reflog_get :
  forall (E : Env) (F : Fmt) cm w s w1 n rm w2, reachable w -> starts cm w (Some s) w1 -> run_command cm (Some s) (CReflogGet n rm) w1 = (Done tt, w2) ->
  exists k l, history n rm (repo_of (cur_db w1)) = k :: l /\ writes_lines w1 w2 [as_user_key k].
Proof. intros E F cm w s w1 n rm w2. apply reflog_get_shows. Qed.
Print Assumptions C76_reflog_get.

(** [ref log] prints a title and a numbered line for each entry, newest first; the oldest
    has number one. *)
Theorem C76_ref_log :
  forall (E : Env) (F : Fmt) cm w s w1 r rm w2, reachable w -> starts cm w (Some s) w1 -> run_command cm (Some s) (CRefLog r rm) w1 = (Done tt, w2) ->
  exists name ls, branch_of r (repo_of (cur_db w1)) name /\ log_lines (history name rm (repo_of (cur_db w1))) ls /\
  writes_lines w1 w2 (str "log entries are printed with most recent at top" :: ls).
Proof. intros E F cm w s w1 r rm w2. apply ref_log_shows. Qed.
Print Assumptions C76_ref_log.

(** The history can be read off the lines. *)
Theorem C76_ref_log_determines :
  forall ks ls ks' ls', log_lines ks ls -> log_lines ks' ls' -> text_of_lines ls = text_of_lines ls' -> ks = ks'.
Proof. intros ks ls ks' ls'. apply log_text_inj. Qed.
Print Assumptions C76_ref_log_determines.

(** [debug get-head]. *)
Theorem C76_get_head :
  forall (E : Env) (F : Fmt) cm s w1 w2, run_command cm (Some s) CGetHead w1 = (Done tt, w2) ->
  writes_lines w1 w2 [str "head: " ++ match rp_head (repo_of (cur_db w1)) with Some n => str "Some(" ++ debug_text n ++ str ")" | None => str "None" end].
Proof. intros E F cm s w1 w2. apply get_head_shows. Qed.
Print Assumptions C76_get_head.

(** [debug pretty-print] (see C74). *)
Theorem C76_pretty_print :
  forall (E : Env) (F : Fmt) cm w s w1 ki w2, reachable w -> starts cm w (Some s) w1 -> run_command cm (Some s) (CPrettyPrint ki) w1 = (Done tt, w2) ->
  exists k o ls, denotes w1 ki k /\ object_at (cur_db w1) (as_db_key k) = Some o /\ pictured ls o /\ writes_lines w1 w2 ls.
Proof. intros E F cm w s w1 ki w2. apply pretty_shows. Qed.
Print Assumptions C76_pretty_print.

(** [status]: a line about HEAD, then the new and the modified files under titles. *)
Theorem C76_status :
  forall (E : Env) (F : Fmt) cm w s w1 w2, reachable w -> starts cm w (Some s) w1 -> steady_reads -> in_order w1 ->
  (forall t, head_tree w1 (Some t) -> tidy w1 t) -> run_command cm (Some s) CStatus w1 = (Done tt, w2) ->
  exists name, rp_head (repo_of (cur_db w1)) = Some name /\
  ((exists k l c A M, history name None (repo_of (cur_db w1)) = k :: l /\ reads_commit w1 k c /\
  differences (cm_exclude cm) (ds_folder s) (ds_repo s) w1 (Some (c_tree c)) (w_hashed w2) A M /\
  writes_lines w1 w2 ((str "HEAD: " ++ name ++ str " [" ++ firstn 8 (as_user_key k) ++ str "]") :: report_lines (map entry_text A) (map (fun x => entry_text (x, true)) M))) \/
  (history name None (repo_of (cur_db w1)) = [] \/ ~ no_errors w1) /\ writes_lines w1 w2 [str "HEAD: " ++ name ++ str " (no commits on " ++ name ++ str ")"]).
Proof. intros E F cm w s w1 w2. apply status_shows. Qed.
Print Assumptions C76_status.

(** [compare]: the same lists. *)
Theorem C76_compare :
  forall (E : Env) (F : Fmt) cm w s w1 p k w2, reachable w -> starts cm w (Some s) w1 -> steady_reads -> in_order w1 ->
  (forall t, compared_to w1 k t -> tidy w1 t) -> run_command cm (Some s) (CCompare p k false) w1 = (Done tt, w2) ->
  exists t A M, compared_to w1 k t /\
  differences (cm_exclude cm) (ds_folder s) (match p with Some q => q | None => ds_repo s end) w1 (Some t) (w_hashed w2) A M /\
  writes_lines w1 w2 (report_lines (map entry_text A) (map (fun x => entry_text (x, true)) M)).
Proof. intros E F cm w s w1 p k w2. apply compare_shows. Qed.
Print Assumptions C76_compare.

(** [compare --stat]: a line per file with the numbers of lines added and removed. *)
Theorem C76_compare_stat :
  forall (E : Env) (F : Fmt) cm w s w1 p k w2, reachable w -> starts cm w (Some s) w1 -> steady_reads -> in_order w1 ->
  (forall t, compared_to w1 k t -> tidy w1 t) -> run_command cm (Some s) (CCompare p k true) w1 = (Done tt, w2) ->
  exists t l ls, compared_to w1 k t /\
  stat_differences (cm_exclude cm) (ds_folder s) (match p with Some q => q | None => ds_repo s end) w1 t w2 l /\
  Forall2 (fun f => stat_spelt (display (st_name f)) (N.of_nat (st_added f)) (N.of_nat (st_removed f))) l ls /\ writes_lines w1 w2 ls.
Proof. intros E F cm w s w1 p k w2. apply compare_stat_shows. Qed.
Print Assumptions C76_compare_stat.

(** Both lists can be read off the text if no name contains a line break and all are
    printed as they are. *)
Theorem C76_report_determines :
  forall (E : Env) A M A' M', Forall (fun e => plain_name (fst e)) (A ++ A') -> Forall plain_name (M ++ M') ->
  text_of_lines (report_lines (map entry_text A) (map (fun x => entry_text (x, true)) M)) = text_of_lines (report_lines (map entry_text A') (map (fun x => entry_text (x, true)) M')) ->
  A = A' /\ M = M'.
Proof. intros E A M A' M'. apply report_text_inj. Qed.
Print Assumptions C76_report_determines.

(** Otherwise they cannot: one file with such a name looks like two. *)
Definition sc_add (l : list bytes) : world :=
  set_fs toy_committed (w_fs toy_committed ++ map (fun n => (in_r n, EFile (str "x") (Stamp 90 500))) l).
Definition sc_odd : bytes := str "a" ++ [lf] ++ str "  b".
Theorem C76_report_refuted :
  exists (E : Env) cm w w', (forall F : Fmt, screen (snd (run_process cm CStatus w)) = screen (snd (run_process cm CStatus w'))) /\
    reachable w /\ reachable w' /\ w_faults w = [] /\ w_faults w' = [] /\ fst (run_process cm CStatus w) = Some 0%N /\ fst (run_process cm CStatus w') = Some 0%N /\
    content (w_fs w) (in_r (str "a")) = None /\ content (w_fs w') (in_r (str "a")) = Some (str "x").
Proof.
  exists toy_env, toy_cm, (sc_add [sc_odd]), (sc_add [str "a"; str "b"]). split; [intro F; vm_compute; reflexivity|]. split; [exact (reach_files _ _ toy_committed_reachable)|].
  split; [exact (reach_files _ _ toy_committed_reachable)|]. split; [vm_compute; reflexivity|]. split; [vm_compute; reflexivity|]. split; [vm_compute; reflexivity|]. split; [vm_compute; reflexivity|]. split; vm_compute; reflexivity.
Qed.
Print Assumptions C76_report_refuted.

(** [log]: the commits down the first parents, each with its key, its message and the
    numbers of lines of the new and changed files. *)
Theorem C76_log :
  forall (E : Env) (F : Fmt) cm w s w1 k w2, well_used w -> starts cm w (Some s) w1 -> no_coll (w_hashed w1) ->
  run_command cm (Some s) (CLog k) w1 = (Done tt, w2) ->
  exists key l blocks, asked_for w1 k key /\ lineage w1 key l /\ Forall2 (summary w1) l blocks /\ writes_lines w1 w2 (concat blocks).
Proof. intros E F cm w s w1 k w2. apply log_shows. Qed.
Print Assumptions C76_log.

(** [show] of a file gives the bytes of the file. *)
Theorem C76_show_file :
  forall (E : Env) (F : Fmt) cm w s w1 ki k w2 c, well_used w -> starts cm w (Some s) w1 -> no_coll (w_hashed w1) -> denotes w1 ki k ->
  points (cur_db w1) Item k -> file_at w1 k [] c -> run_command cm (Some s) (CShow (Some ki)) w1 = (Done tt, w2) -> writes w1 w2 c.
Proof. intros E F cm w s w1 ki k w2 c. apply show_file. Qed.
Print Assumptions C76_show_file.

(** So what was inserted is shown byte by byte. *)
Theorem C76_show_stored :
  forall (E : Env) (F : Fmt) cm w s w1 ki k w2 w0 ex fo p c, well_used w -> starts cm w (Some s) w1 -> no_coll (w_hashed w1) -> denotes w1 ki k ->
  snapshot w0 ex fo p k w1 -> content (w_fs w0) (locate (w_cwd w0) p) = Some c -> keeps_data c ->
  run_command cm (Some s) (CShow (Some ki)) w1 = (Done tt, w2) -> writes w1 w2 c.
Proof. intros E F cm w s w1 ki k w2 w0 ex fo p c. apply show_stored. Qed.
Print Assumptions C76_show_stored.

(** [debug walk-tree]: a line per path. *)
Theorem C76_walk_tree :
  forall (E : Env) (F : Fmt) cm w s w1 ki w2, reachable w -> starts cm w (Some s) w1 -> (forall k, denotes w1 ki k -> tidy w1 k) ->
  run_command cm (Some s) (CWalkTree ki) w1 = (Done tt, w2) ->
  exists k (m : list (loc * (key * bool))) ls, denotes w1 ki k /\ NoDup (map fst m) /\ (forall x k' d, In (x, (k', d)) m <-> in_tree w1 k x k' d) /\
  Forall2 (fun e => tree_line (fst e) (fst (snd e)) (snd (snd e))) m ls /\ writes_lines w1 w2 ls.
Proof. intros E F cm w s w1 ki w2. apply walk_tree_writes. Qed.
Print Assumptions C76_walk_tree.

(** What the text looks like: the names in quotes. *)
Definition sc_fmt : Fmt := {| debug_text := fun b => str """" ++ b ++ str """"; error_text := str "?" |}.
Lemma sc_one k : log_lines [k] [str "1: " ++ as_user_key k].
Proof.
  change (str "1: " ++ as_user_key k) with (str "1" ++ str ": " ++ as_user_key k). constructor; [|constructor]. split; [discriminate|]. split; [reflexivity|]. intros r Q. discriminate Q.
Qed.
Example C76_example :
  @writes_lines sc_fmt cx_d1 cx_d2 [str "HEAD: master [" ++ firstn 8 (as_user_key cx_key) ++ str "]"; str "added:"; str "  d/"; str "modified:"; str "  f"] /\
  @writes_lines sc_fmt pm_v1 cx_log [str "log entries are printed with most recent at top"; str "1: " ++ as_user_key cx_key] /\
  log_lines [cx_key] [str "1: " ++ as_user_key cx_key].
Proof.
  split; [vm_compute; reflexivity|]. split; [vm_compute; reflexivity|]. apply sc_one.
Qed.
(** [log] of two commits. *)
Definition sc_log : world := snd (@run_command pt_env toy_cm (Some pm_s) (CLog None) pt_w1).
Example C76_example_log :
  @run_command pt_env toy_cm (Some pm_s) (CLog None) pt_w1 = (Done tt, sc_log) /\
  @writes_lines sc_fmt pt_w1 sc_log
    [str "commit: " ++ nth 1 pt_keys []; []; str "second"; []; str "f  +1 -1"; str "n  +1 -0"; []; [];
     str "commit: " ++ nth 0 pt_keys []; []; str "first"; []; str "f  +0 -0"; []; []].
Proof. split; vm_compute; reflexivity. Qed.
(** A file inserted and shown. *)
Definition sc_ins : world := snd (run_command toy_cm (Some pm_s) (CInsert (parse_path (str "f"))) pm_w1).
Definition sc_in : world := snd (run_process toy_cm (CInsert (parse_path (str "f"))) toy_inited).
Definition sc_v1 : world := snd (setup toy_cm (close_all sc_in)).
Definition sc_arg : keyish := typed (firstn 9 (match w_out sc_in with Printed _ [b] :: _ => b | _ => [] end)).
Definition sc_v2 : world := snd (run_command toy_cm (Some pm_s) (CShow (Some sc_arg)) sc_v1).
Example C76_example_show :
  well_used sc_in /\ starts toy_cm sc_in (Some pm_s) sc_v1 /\ no_coll (w_hashed sc_v1) /\ run_command toy_cm (Some pm_s) (CInsert (parse_path (str "f"))) pm_w1 = (Done tt, sc_ins) /\
  still_stored sc_ins sc_v1 /\ content (w_fs pm_w1) (locate (w_cwd pm_w1) (parse_path (str "f"))) = Some (str "hello") /\ keeps_data (str "hello") /\
  run_command toy_cm (Some pm_s) (CShow (Some sc_arg)) sc_v1 = (Done tt, sc_v2) /\ @writes sc_fmt sc_v1 sc_v2 (str "hello").
Proof.
  split; [apply used_step; [exact used_inited|vm_compute; reflexivity|exact I]|]. split; [vm_compute; reflexivity|]. split; [apply logb_ok; vm_compute; reflexivity|]. split; [vm_compute; reflexivity|].
  split; [apply keptb_ok; vm_compute; reflexivity|]. split; [vm_compute; reflexivity|]. split; [apply keeps_small; reflexivity|]. split; vm_compute; reflexivity.
Qed.

(** ** C77 *)

(** [debug commit-tree] stores a commit of the tree with the parents in the order of
    their keys, prints its key, and changes nothing else. *)
Theorem C77_commit_tree :
  forall (E : Env) (F : Fmt) cm w s w1 t ps w2, reachable w -> starts cm w (Some s) w1 -> run_command cm (Some s) (CCommitTree t ps) w1 = (Done tt, w2) -> no_coll (w_hashed w2) ->
  exists kt ks ps' k, denotes w1 t kt /\ Forall2 (denotes w1) ps ks /\ Permutation.Permutation ks ps' /\ Sorted.StronglySorted (fun a b => key_cmp a b <> Gt) ps' /\
  is_commit w2 k (Commit kt ps' (Attrs [] [])) /\ writes_lines w1 w2 [as_user_key k] /\ adds_objects (cur_db w1) (cur_db w2) /\ w_fs w2 = w_fs w1.
Proof. intros E F cm w s w1 t ps w2. apply commit_tree_makes. Qed.
Print Assumptions C77_commit_tree.

(** So the first parent given need not be the first parent of the commit, which is the
    one that [log] follows. *)
Definition sc_tree : bytes := match reflog_get sqlite_ds (str "master") None pt_w1 with
  | (Done k, w) => match commit_from_key sqlite_ds k w with (Done c, _) => as_user_key (c_tree c) | _ => [] end | _ => [] end.
Definition sc_make (l : list bytes) : world :=
  snd (@run_process pt_env toy_cm (CCommitTree (typed (firstn 9 sc_tree)) (map (fun k => typed (firstn 9 k)) l)) pt_second).
Definition sc_made (l : list bytes) : bytes := match w_out (sc_make l) with Printed _ [b] :: _ => b | _ => [] end.
Definition sc_first : keyish := typed (firstn 9 (nth 0 pt_keys [])).
Definition sc_later : keyish := typed (firstn 9 (nth 1 pt_keys [])).
Theorem C77_first_parent_refuted :
  exists (E : Env) cm w t p q w' k c, reachable w /\ w_faults w = [] /\ run_process cm (CCommitTree t [p; q]) w = (Some 0%N, w') /\ w_out w' = Printed "" [k] :: w_out w /\
    (exists st w1, starts cm w (Some st) w1 /\ forall k1, denotes w1 p k1 -> as_user_key k1 <> c) /\
    filter is_header (w_out (snd (run_process cm (CLog (Some (typed (firstn 9 k)))) (set_out w' [])))) = [Printed "commit" [nth 0 pt_keys []]; Printed "commit" [c]; Printed "commit" [k]].
Proof.
  exists pt_env, toy_cm, pt_second, (typed (firstn 9 sc_tree)), sc_first, sc_later, (sc_make pt_keys), (sc_made pt_keys), (nth 1 pt_keys []).
  split; [exact (@used_reachable pt_env _ pt_second_used)|]. split; [vm_compute; reflexivity|]. split; [vm_compute; reflexivity|]. split; [vm_compute; reflexivity|]. split; [|vm_compute; reflexivity].
  exists pm_s, pt_w1. split; [exact pt_starts|]. intros k1 D.
  assert (X : exists k, fst (canonicalize sqlite_ds sc_first pt_w1) = Done k /\ as_user_key k <> nth 1 pt_keys []) by (eexists; split; [vm_compute; reflexivity|vm_compute; discriminate]).
  destruct X as (k & X & N). destruct (canonicalize sqlite_ds sc_first pt_w1) as [o w'] eqn:C. cbn [fst] in X. subst o.
  apply (canon_done (E := pt_env)) in C as [_ Dk]; [|exact (@started_ok pt_env _ _ _ _ (@used_reachable pt_env _ pt_second_used) pt_starts)]. rewrite (denotes_fun (E := pt_env) _ _ _ _ Dk D). exact N.
Qed.
Print Assumptions C77_first_parent_refuted.
(** The order of the arguments makes no difference. *)
Example C77_example :
  sc_made pt_keys = sc_made (rev pt_keys) /\ length (sc_made pt_keys) = 53 /\ (exists w2, @run_command pt_env toy_cm (Some pm_s) (CCommitTree (typed (firstn 9 sc_tree)) [sc_first; sc_later]) pt_w1 = (Done tt, w2)).
Proof. split; [vm_compute; reflexivity|]. split; [vm_compute; reflexivity|]. eexists. vm_compute. reflexivity. Qed.
