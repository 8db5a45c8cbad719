(** Property C69: the text that [show] and [log] print. *)
From Coq Require Import Sorted.
From Verif Require Import Base BaseFacts Key Keyish Cbor Object Path World WorldFacts Store File Filter Dir Diff Commit Main SpecStore SpecRun SpecProc SpecDir SpecClosure
  SpecDiff SpecPatch SpecShow SpecOut SpecText SpecShape TextFacts ShapeFacts ShapeTop Checks Toy ToyRepo PropsMain PropsShow PropsCmd PropsShape.

(** ** C69 *)
(** A new file is cut into lines in exactly one way, the one the program uses. *)
Theorem C69_lines : forall s ls, lines_of s ls <-> ls = str_lines s.
Proof. apply lines_exact. Qed.
Print Assumptions C69_lines.
(** When [show] succeeds, it printed what belongs to the key that was asked for: for a
    commit its key, its message and one patch for every new and every changed file, in
    the order of the paths; for a file its bytes; for a directory its key.  Nothing
    else was printed and nothing was changed. *)
Theorem C69_show :
  forall (E : Env) cm w s w1 k w2, well_used w -> starts cm w (Some s) w1 -> no_coll (w_hashed w1) ->
  run_command cm (Some s) (CShow k) w1 = (Done tt, w2) ->
  exists key l, asked_for w1 k key /\ object_text w1 KPatch key l /\ says w1 w2 l /\ untouched w1 w2.
Proof. intros E cm w s w1 k w2. apply show_text. Qed.
Print Assumptions C69_show.
(** When [log] succeeds, it printed this (with numbers of lines for patches) for the
    commit, its first parent, the first parent of that one and so on. *)
Theorem C69_log :
  forall (E : Env) cm w s w1 k w2, well_used w -> starts cm w (Some s) w1 -> no_coll (w_hashed w1) ->
  run_command cm (Some s) (CLog k) w1 = (Done tt, w2) ->
  exists key l t, asked_for w1 k key /\ lineage w1 key l /\ commits_text w1 KStat l t /\ says w1 w2 t /\ untouched w1 w2.
Proof. intros E cm w s w1 k w2. apply log_prints_all. Qed.
Print Assumptions C69_log.
(** In any state, whatever the use of the repository, as long as the trees concerned
    have proper names. *)
Theorem C69_show_commit :
  forall (E : Env) f k kd w w' c, is_commit w k c -> tidy_commit w c -> display_obj sqlite_ds (S f) k kd w = (Done tt, w') ->
  exists l, says w w' l /\ commit_text w kd k c l.
Proof. intros E f k kd w w' c Ic T H. exact (commit_shown f k kd w w w' c eq_refl Ic T H). Qed.
Print Assumptions C69_show_commit.

(** Patches as they are, without colours and file names. *)
Definition flat_line (l : pline) : bytes :=
  match l with LAdd b => ("+"%char :: b) | LRemove b => ("-"%char :: b) | LContext b => (" "%char :: b) end ++ ["010"%char].
Definition flat (p : patch) : bytes := pt_new p ++ ["010"%char] ++ concat (map (fun h => concat (map flat_line (h_lines h))) (pt_hunks p)).
Definition pt_env : Env := {|
  blake3 := toy_hash; gear_table := @gear_table toy_env; other_object := fun _ => None; other_fsitem := fun _ => None; other_attrs := fun _ => None;
  read_sizes := fun _ _ => []; fresh_inode := N.of_nat; clock := Z.of_nat; glob_valid := fun _ => true; glob_match := fun _ _ => false; lossy := fun b => b;
  diff_lines := fun a b => [DLeft a; DRight b]; changeset := fun a b => [Rem a; World.Add b]; show_patch := flat; debug_cbor := fun _ => Err []; cache_dir := None; stack := 50; loop_bound := 50 |}.
Definition pt_fs (c : bytes) (st : stamp) : fs := [([str "r"], EDir); (in_r (str "f"), EFile c st)].
Definition pt_start (c : bytes) : world := World (pt_fs c (Stamp 7 100)) [str "r"] [] [] NoTxn [] None [] [] [] 0.
Definition pt_inited (c : bytes) : world := snd (@run_process pt_env toy_cm CInit (pt_start c)).
Definition pt_committed (c : bytes) : world := snd (@run_process pt_env toy_cm (CCommit None (str "first") None) (pt_inited c)).
Lemma pt_used c : fs_okb (w_fs (snd (@setup pt_env toy_cm (close_all (pt_start c))))) = true ->
  fs_okb (w_fs (snd (@setup pt_env toy_cm (close_all (pt_inited c))))) = true -> @well_used pt_env (pt_committed c).
Proof.
  intros H1 H2. apply used_step; [|exact H2|reflexivity]. apply used_step; [apply wu_start; reflexivity|exact H1|exact I].
Qed.
(** Whether a new file ends with a line feed cannot be seen. *)
Theorem C69_final_newline_refuted :
  exists (E : Env) cm w w' a b, well_used w /\ well_used w' /\ w_faults w = [] /\ w_faults w' = [] /\
    lookup (w_fs w) [str "r"; str "f"] = Some a /\ lookup (w_fs w') [str "r"; str "f"] = Some b /\ a <> b /\
    exists p, hd_error (w_out (snd (run_process cm (CShow None) w))) = Some (Printed "patch" [p]) /\
      hd_error (w_out (snd (run_process cm (CShow None) w'))) = Some (Printed "patch" [p]) /\ p <> [].
Proof.
  exists pt_env, toy_cm, (pt_committed (str "a")), (pt_committed (str "a" ++ ["010"%char])), (EFile (str "a") (Stamp 7 100)), (EFile (str "a" ++ ["010"%char]) (Stamp 7 100)).
  split; [apply pt_used; [vm_compute; reflexivity|vm_compute; reflexivity]|]. split; [apply pt_used; [vm_compute; reflexivity|vm_compute; reflexivity]|].
  split; [vm_compute; reflexivity|]. split; [vm_compute; reflexivity|]. split; [vm_compute; reflexivity|]. split; [vm_compute; reflexivity|]. split; [vm_compute; discriminate|].
  eexists. split; [vm_compute; reflexivity|]. split; [vm_compute; reflexivity|]. discriminate.
Qed.
Print Assumptions C69_final_newline_refuted.

(** "f" changed and "n" is new: the second commit, and what [show] and [log] print. *)
Definition pt_more : fs := [([str "r"], EDir); (in_r (str ".snapcd"), EDir); (in_r (str ".snapcd") ++ [str "snapcd.db"], EFile [] (Stamp 5 100));
  (in_r (str "f"), EFile (str "bc") (Stamp 7 200)); (in_r (str "n"), EFile (str "x" ++ ["010"%char] ++ str "y") (Stamp 9 200))].
Definition pt_second : world := snd (@run_process pt_env toy_cm (CCommit None (str "second") None) (set_fs (pt_committed (str "a")) pt_more)).
Lemma pt_second_used : @well_used pt_env pt_second.
Proof.
  apply used_step; [|vm_compute; reflexivity|reflexivity]. apply (@wu_outside pt_env) with (w := pt_committed (str "a")); [|apply outside_fs].
  apply pt_used; vm_compute; reflexivity.
Qed.
Definition pt_w1 : world := snd (@setup pt_env toy_cm (close_all pt_second)).
Lemma pt_starts : @starts pt_env toy_cm pt_second (Some pm_s) pt_w1.
Proof. vm_compute. reflexivity. Qed.
Definition pt_line (s : bytes) : bytes := s ++ ["010"%char].
Definition pt_shown : world := snd (@run_command pt_env toy_cm (Some pm_s) (CShow None) pt_w1).
Definition pt_keys : list bytes := flat_map (fun e => match e with Printed "commit" l => l | _ => [] end) (w_out (snd (@run_command pt_env toy_cm (Some pm_s) (CLog None) pt_w1))).
Example C69_example :
  @well_used pt_env pt_second /\ @starts pt_env toy_cm pt_second (Some pm_s) pt_w1 /\ @no_coll pt_env (w_hashed pt_w1) /\
  @run_command pt_env toy_cm (Some pm_s) (CShow None) pt_w1 = (Done tt, pt_shown) /\
  says pt_w1 pt_shown [Printed "commit" [nth 1 pt_keys []]; Printed "" []; Printed "message" [str "second"]; Printed "" [];
    Printed "patch" [pt_line (pt_line (str "n") ++ pt_line (str "+x") ++ pt_line (str "+y")) ++ pt_line (pt_line (str "f") ++ pt_line (str "-a") ++ pt_line (str "+bc"))]] /\
  (exists w2, @run_command pt_env toy_cm (Some pm_s) (CLog None) pt_w1 = (Done tt, w2)) /\ length pt_keys = 2.
Proof.
  split; [exact pt_second_used|]. split; [exact pt_starts|]. split; [apply logb_ok; vm_compute; reflexivity|]. split; [vm_compute; reflexivity|]. split; [vm_compute; reflexivity|].
  split; [eexists; vm_compute; reflexivity|]. vm_compute. reflexivity.
Qed.
