(** Property C94: how comparing files with a tree ends. *)
From Coq Require String.
From Verif Require Import Base BaseFacts Key Keyish Cbor Object Path World WorldFacts Store File Filter Dir Diff Commit Main SpecStore StoreCalls SpecRun SpecProc SpecFile SpecDir SpecCache SpecDiff SpecOut SpecShow SpecCmd SpecClosure SpecShape SpecLive SpecStoring SpecLooking LookingFacts
  FsFacts ShowFacts ShapeTop CmdFacts Checks Toy ToyRepo PropsMain PropsShow PropsCmd PropsShape PropsLive PropsFatal PropsStoring.

(** ** C94 *)
(** If nothing fails, [status], [compare] and [checkout-head] panic if a pattern is not a
    glob; else they say [fatal:] if there is no directory at the path; else they do it,
    and the directory has all of the tree; or they say [fatal:], and something is neither
    file nor directory; or they panic, and a link leads nowhere, or something of the tree
    is missing, or a new file is not found from here. *)
Theorem C94_looking :
  forall (E : Env) cm w s w1 c q to, well_used w -> w_faults w = [] -> starts cm w (Some s) w1 -> no_coll (w_hashed w1) -> deep_enough w1 -> at_rest w1 -> looks_at s w1 c q to ->
  let ex := cm_exclude cm in let fo := ds_folder s in let dbl := locate (w_cwd w1) fo in let l := locate (w_cwd w1) q in
  (~ globs_ok cm -> exists w', run_process cm c w = (Some 101%N, w')) /\
  (globs_ok cm ->
    (0 < stack -> ~ directory w1 q -> says_fatal cm c (Some s) w w1) /\
    (directory w1 q -> shallow (w_fs w1) l ->
      does_it cm c (Some s) w w1 /\ comparable ex fo q w1 to \/
      says_fatal cm c (Some s) w w1 /\ strange ex dbl (w_fs w1) q l \/
      (exists w', run_process cm c w = (Some 101%N, w')) /\ (nowhere ex dbl (w_fs w1) q l \/ lost ex fo q w1 to \/ astray ex fo q w1 to))).
Proof. intros E cm w s w1 c q to U F S NC De Ar L. apply (looking_ends cm w s w1 U S NC De Ar c q to F L). Qed.
Print Assumptions C94_looking.

(** The example repository as it is, with a device, with a link that leads nowhere,
    without one of its files, and looked at from inside of a directory. *)
Definition lg_gone : world := set_fs toy_committed sh_gone.
Definition lg_inside : world := set_cwd cx_dirty [str "r"; str "s"].
Definition lg_ready (w : world) (c : command) : Prop :=
  well_used w /\ w_faults w = [] /\ starts toy_cm w (Some pm_s) (fa_started w) /\ no_coll (w_hashed (fa_started w)) /\ deep_enough (fa_started w) /\ at_rest (fa_started w) /\
  looks_at pm_s (fa_started w) c sg_path (Some lv_tree) /\ globs_ok toy_cm /\ directory (fa_started w) sg_path /\ shallow (w_fs (fa_started w)) (locate (w_cwd (fa_started w)) sg_path).
Lemma lg_head w : rp_head (repo_of (cur_db w)) = Some (str "master") -> history (str "master") None (repo_of (cur_db w)) = [ps_key] -> cur_db w = cur_db pm_v1 -> head_tree w (Some lv_tree).
Proof.
  intros H Hi C. exists (str "master"). split; [exact H|]. exists ps_key, [], ps_commit. split; [exact Hi|]. split; [|reflexivity].
  apply commit_reads. exists ps_object. split; [apply of_get; rewrite C; apply ps_at|]. split; [apply ps_at|]. intro v. destruct v. vm_compute. reflexivity.
Qed.
Lemma lg_rest w : w_faults w = [] -> fs_okb (w_fs w) && moderateb (w_fs w) = true -> cur_cache w = [] -> at_rest w.
Proof. intros F H C. split; [apply quietb; assumption|]. intros a b. rewrite C. intros []. Qed.
Ltac lg_go := split; [vm_compute; reflexivity|split; [vm_compute; reflexivity|split; [apply logb_ok; vm_compute; reflexivity|split; [apply Nat.leb_le; vm_compute; reflexivity|split; [apply lg_rest; vm_compute; reflexivity|
  split; [split; [reflexivity|split; [exists (str "master"); split; vm_compute; reflexivity|split; [discriminate|apply lg_head; vm_compute; reflexivity]]]|
  split; [vm_compute; reflexivity|split; [exists [str "r"]; vm_compute; reflexivity|
  replace (locate _ _) with [str "r"] by (vm_compute; reflexivity); apply sg_shallow_ok; vm_compute; reflexivity]]]]]]]].
Lemma lg_plain_ready : lg_ready (set_fs toy_committed (w_fs toy_committed)) CStatus.
Proof. split; [apply used_fs, used_committed|lg_go]. Qed.
Lemma lg_device_ready : lg_ready sg_device CStatus.
Proof. split; [apply used_fs, used_committed|lg_go]. Qed.
Lemma lg_link_ready : lg_ready sg_link CStatus.
Proof. split; [apply used_fs, used_committed|lg_go]. Qed.
Lemma lg_gone_ready : lg_ready lg_gone CStatus.
Proof. split; [apply used_fs, used_committed|lg_go]. Qed.
Lemma lg_inside_ready : lg_ready lg_inside CStatus.
Proof. split; [apply used_cwd, used_dirty|lg_go]. Qed.
(** All these ends occur. *)
Definition lg_missing : command := CCompare (Some (parse_path (str "nothing"))) None false.
Lemma lg_ends :
  map (fun w => fst (run_process toy_cm CStatus w)) [toy_committed; sg_device; sg_link; lg_gone; lg_inside] = [Some 0%N; Some 0%N; Some 101%N; Some 101%N; Some 101%N] /\
  sg_last (snd (run_process toy_cm CStatus toy_committed)) <> Some "fatal:"%string /\ sg_last (snd (run_process toy_cm CStatus sg_device)) = Some "fatal:"%string /\
  sg_end (run_process toy_cm lg_missing toy_committed) = (Some 0%N, Some "fatal:"%string).
Proof. split; [vm_compute; reflexivity|]. split; [vm_compute; discriminate|]. split; vm_compute; reflexivity. Qed.
Lemma lg_nothing : ~ directory (fa_started toy_committed) (parse_path (str "nothing")).
Proof. intros (l & H). vm_compute in H. discriminate H. Qed.
Lemma lg_bad_ready : @well_used bp_env sg_inited /\ no_coll (w_hashed sg_opened) /\ @deep_enough bp_env sg_opened /\ at_rest sg_opened /\ @looks_at bp_env pm_s sg_opened (CCheckoutHead (str "x")) (ds_repo pm_s) None.
Proof.
  split; [apply used_step; [constructor; reflexivity|vm_compute; reflexivity|reflexivity]|]. split; [apply logb_ok; vm_compute; reflexivity|]. split; [apply Nat.leb_le; vm_compute; reflexivity|]. split; [apply lg_rest; vm_compute; reflexivity|].
  split; [reflexivity|]. split; exists (str "master"); split; vm_compute; reflexivity.
Qed.
Example C94_example :
  (lg_ready (set_fs toy_committed (w_fs toy_committed)) CStatus /\ lg_ready sg_device CStatus /\ lg_ready sg_link CStatus /\ lg_ready lg_gone CStatus /\ lg_ready lg_inside CStatus) /\
  (looks_at pm_s (fa_started toy_committed) lg_missing (parse_path (str "nothing")) (Some lv_tree) /\ ~ directory (fa_started toy_committed) (parse_path (str "nothing"))) /\
  (@well_used bp_env sg_inited /\ @starts bp_env sg_bad sg_inited (Some pm_s) sg_opened /\ @looks_at bp_env pm_s sg_opened (CCheckoutHead (str "x")) (ds_repo pm_s) None /\ at_rest sg_opened /\ ~ @globs_ok bp_env sg_bad).
Proof.
  split; [exact (conj lg_plain_ready (conj lg_device_ready (conj lg_link_ready (conj lg_gone_ready lg_inside_ready))))|]. split.
  - split; [|exact lg_nothing]. split; [reflexivity|]. split; [intros _; exists (str "master"); split; vm_compute; reflexivity|]. split; [discriminate|]. exists lv_tree. split; [reflexivity|apply lg_head; vm_compute; reflexivity].
  - destruct lg_bad_ready as (A & _ & _ & B & C). destruct sg_bad_ready as (_ & _ & D & _ & G). split; [exact A|]. split; [exact D|]. split; [exact C|]. split; [exact B|exact G].
Qed.
