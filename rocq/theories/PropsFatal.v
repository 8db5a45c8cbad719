(** Property C80: why a command stops, and what it says. *)
From Verif Require Import Base BaseFacts Key Keyish Cbor Object Path World WorldFacts Store File Filter Dir Diff Commit Pretty Screen Main SpecKey SpecResolve SpecStore SpecRun SpecProc SpecFile SpecDir SpecClosure
  SpecCache SpecDiff SpecPatch SpecShow SpecOut SpecCmd SpecText SpecShape SpecLive SpecScreen SpecFatal FatalCmd LiveStart KeyFacts TableFacts DbRel Integrity ResolveFacts OutFacts CmdFacts Checks Toy ToyRepo PropsMain PropsShow PropsCmd PropsShape PropsLive.

(** ** C80 *)
(** The messages about keys quote what was typed. *)
Theorem C80_typed :
  forall s ki, parse_keyish s = Some (Ok ki) -> as_typed ki = s.
Proof. exact FatalCmd.typed. Qed.
Print Assumptions C80_typed.
Example C80_typed_example : exists ki ki', parse_keyish (str "bab") = Some (Ok ki) /\ parse_keyish (str "/side") = Some (Ok ki').
Proof. eexists _, _. split; vm_compute; reflexivity. Qed.

(** Whatever fails: a process that exits with 0 ran its command to the end, or said
    [fatal:]; and if it then gave one of the reasons below, that was the reason. *)
Theorem C80_why :
  forall (E : Env) cm c w w', reachable w -> run_process cm c w = (Some 0%N, w') ->
  exists st w1 w2, starts cm w st w1 /\
  (run_command cm st c w1 = (Done tt, w2) /\ w_out w' = w_out w2 \/
   exists e a, run_command cm st c w1 = (Error e, w2) /\ w_out w' = Printed "fatal:" a :: w_out w2 /\
     (a = [] \/ exists m, a = [m] /\ ((st = None /\ needs_repository c /\ m = no_repository_text) \/ exists s, st = Some s /\ trouble cm w1 c m))).
Proof. intros E cm c w w'. apply process_why. Qed.
Print Assumptions C80_why.

(** If nothing fails: a command that finds nothing where it was told to look says so,
    and changes nothing. *)
Theorem C80_says :
  forall (E : Env) (F : Fmt) cm c w s w1 m, reachable w -> w_faults w = [] -> starts cm w (Some s) w1 -> trouble cm w1 c m ->
  exists w', run_process cm c w = (Some 0%N, w') /\ writes_lines w w' [str "fatal: " ++ m] /\ w_fs w' = w_fs w1 /\ w_cwd w' = w_cwd w /\ w_dbs w' = w_dbs w1 /\ w_faults w' = [].
Proof. intros E F cm c w s w1 m. apply process_stops. Qed.
Print Assumptions C80_says.

(** If nothing fails, and no directory above has a repository: every command except
    [init] and [debug walk-fs-tree] says so; at most the directory of the cache is made. *)
Theorem C80_outside :
  forall (E : Env) (F : Fmt) cm c w, w_faults w = [] -> cache_place w -> (forall e, above (w_cwd w) e -> ~ is_there w (join (abs_path e) (cm_db_path cm))) -> needs_repository c ->
  exists w', run_process cm c w = (Some 0%N, w') /\ writes_lines w w' [str "fatal: " ++ no_repository_text] /\ w_dbs w' = w_dbs w /\ w_cwd w' = w_cwd w /\ w_faults w' = [] /\
  forall x, lookup (w_fs w') x <> lookup (w_fs w) x -> lookup (w_fs w) x = None /\ lookup (w_fs w') x = Some EDir /\ exists c a b, cache_dir = Some (abs_path c) /\ c ++ [str "snapcd"] = a ++ b /\ x = a.
Proof. intros E F cm c w. apply process_outside. Qed.
Print Assumptions C80_outside.
Example C80_outside_example : w_faults toy_start = [] /\ cache_place toy_start /\ (forall e, above (w_cwd toy_start) e -> ~ is_there toy_start (join (abs_path e) (cm_db_path toy_cm))) /\ needs_repository CStatus.
Proof.
  split; [reflexivity|]. split; [exact I|]. split; [|exact I]. exact (proj2 (proj2 (proj2 (proj2 (proj2 lv_none))))).
Qed.

(** The example repository: no commit yet, then one; and a database folder in which
    nobody ran [init]. *)
Definition fa_empty : world := set_fs toy_start (w_fs toy_start ++ [(in_r (str ".snapcd"), EDir)]).
Definition fa_started (w : world) : world := snd (setup toy_cm (close_all w)).
Definition fa_range : keyish := KRange (str "b") [byte_of 1] (Some [byte_of 2]).
Definition fa_none : keyish := KRange (str "b77") [byte_of 1; byte_of 254] None.
Definition fa_side : keyish := KReflog (str "/side") None (str "side").
Lemma fa_starts : starts toy_cm toy_committed (Some pm_s) (fa_started toy_committed) /\ starts toy_cm toy_inited (Some pm_s) (fa_started toy_inited) /\ starts toy_cm fa_empty (Some pm_s) (fa_started fa_empty).
Proof. split; [|split]; vm_compute; reflexivity. Qed.
Lemma fa_reachable : reachable toy_committed /\ reachable toy_inited /\ reachable fa_empty.
Proof. split; [exact toy_committed_reachable|]. split; [exact toy_inited_reachable|]. apply reach_start. reflexivity. Qed.
Lemma fa_ok : Integrity.world_ok (fa_started toy_committed).
Proof. exact (started_ok _ _ _ _ toy_committed_reachable (proj1 fa_starts)). Qed.
(** No key begins with 254. *)
Lemma fa_nothing : names_nothing (fa_started toy_committed) fa_none.
Proof. apply rows_nothing; [exact fa_ok|vm_compute; reflexivity]. Qed.
Lemma fa_several : names_several (fa_started toy_committed) fa_range.
Proof. eapply rows_several; [exact fa_ok|eexists; vm_compute; reflexivity|vm_compute; reflexivity]. Qed.
(** Each of the reasons, in this order: no such object, several, an empty branch, no such
    parent, no HEAD, no commit on the branch of HEAD. *)
Example C80_says_example : reachable toy_committed /\ w_faults toy_committed = [] /\ starts toy_cm toy_committed (Some pm_s) (fa_started toy_committed) /\
  trouble toy_cm (fa_started toy_committed) (CFetch fa_none (parse_path (str "x"))) (str "Object 'b77' not found") /\
  trouble toy_cm (fa_started toy_committed) (CShow (Some fa_range)) (str "Object 'b' is ambiguous") /\
  trouble toy_cm (fa_started toy_committed) (CRefUpdate fa_side None) (str "Object '/side' not found") /\
  trouble toy_cm (fa_started toy_committed) (CCommitTree (KReflog (str "/master") None (str "master")) [fa_range]) (str "Object 'b' is ambiguous") /\
  trouble toy_cm (fa_started fa_empty) CStatus no_head_text /\
  trouble toy_cm (fa_started toy_inited) CCheckout no_ref_text.
Proof.
  split; [exact toy_committed_reachable|]. split; [vm_compute; reflexivity|]. split; [apply fa_starts|]. split.
  { apply (trouble_key _ _ _ fa_none); [reflexivity|]. left. split; [exact fa_nothing|reflexivity]. }
  split; [apply (trouble_key _ _ _ fa_range); [reflexivity|]; right; split; [exact fa_several|reflexivity]|].
  split; [apply (trouble_key _ _ _ fa_side); [reflexivity|]; left; split; [vm_compute; reflexivity|reflexivity]|]. split.
  { apply (trouble_parent _ _ _ []); [|right; split; [exact fa_several|reflexivity]]. intros x [<-|[]]. cbn [denotes]. eexists _, _. vm_compute. reflexivity. }
  split; [apply trouble_head; [exact I|vm_compute; reflexivity]|]. eapply trouble_commit; [exact I|vm_compute; reflexivity|reflexivity|vm_compute; reflexivity].
Qed.
(** The same, by running it. *)
Example C80_why_example : run_process toy_cm CCheckout toy_inited = (Some 0%N, snd (run_process toy_cm CCheckout toy_inited)) /\
  w_out (snd (run_process toy_cm CCheckout toy_inited)) = Printed "fatal:" [no_ref_text] :: w_out toy_inited.
Proof. split; vm_compute; reflexivity. Qed.
