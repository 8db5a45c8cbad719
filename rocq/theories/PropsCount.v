(** Property C95: how [compare --stat] ends. *)
From Coq Require String.
From Verif Require Import Base BaseFacts Key Keyish Cbor Object Path World WorldFacts Store File Filter Dir Diff Commit Main SpecStore StoreCalls SpecRun SpecProc SpecFile SpecDir SpecCache SpecDiff SpecOut SpecShow SpecCmd SpecClosure SpecShape SpecLive SpecStoring SpecLooking LiveCache StatFacts
  FsFacts ShowFacts ShapeTop CmdFacts Checks Toy ToyRepo PropsMain PropsShow PropsCmd PropsShape PropsLive PropsStat PropsFatal PropsStoring PropsLooking.

(** ** C95 *)
(** If nothing fails, [compare --stat] ends like [compare] (C94), with one exception: it
    panics also if a file stands where the tree has a directory.  The cache has to know
    files of this database only. *)
Theorem C95_counting :
  forall (E : Env) cm w s w1 p k t, well_used w -> w_faults w = [] -> starts cm w (Some s) w1 -> at_rest w1 -> deep_enough w1 -> cache_kept (cur_cache w1) (cur_db w1) ->
  let q := match p with Some x => x | None => ds_repo s end in let c := CCompare p k true in
  looks_at s w1 (CCompare p k false) q (Some t) ->
  let w2 := snd (run_command cm (Some s) c w1) in no_coll (w_hashed w2) -> length (d_data (cur_db w2)) + 1 < stack ->
  let ex := cm_exclude cm in let fo := ds_folder s in let dbl := locate (w_cwd w1) fo in let l := locate (w_cwd w1) q in
  (~ globs_ok cm -> exists w', run_process cm c w = (Some 101%N, w')) /\
  (globs_ok cm ->
    (0 < stack -> ~ directory w1 q -> says_fatal cm c (Some s) w w1) /\
    (directory w1 q -> shallow (w_fs w1) l ->
      does_it cm c (Some s) w w1 /\ comparable ex fo q w1 (Some t) /\ no_file_for_dir ex fo q w1 t \/
      says_fatal cm c (Some s) w w1 /\ strange ex dbl (w_fs w1) q l \/
      (exists w', run_process cm c w = (Some 101%N, w')) /\
        (nowhere ex dbl (w_fs w1) q l \/ lost ex fo q w1 (Some t) \/ astray ex fo q w1 (Some t) \/ comparable ex fo q w1 (Some t) /\ ~ no_file_for_dir ex fo q w1 t))).
Proof. intros E cm w s w1 p k t. apply stat_ends. Qed.
Print Assumptions C95_counting.

(** The example repository as it is, with a device, with a link that leads nowhere,
    without one of its files, and looked at from inside of a directory; and one in which
    an empty directory became a file. *)
Definition ce_cmd : command := CCompare None None true.
Definition ce_opened (E : Env) (w : world) : world := snd (setup toy_cm (close_all w)).
Definition ce_ready (E : Env) (w : world) (t : key) : Prop :=
  well_used w /\ w_faults w = [] /\ starts toy_cm w (Some pm_s) (ce_opened E w) /\ deep_enough (ce_opened E w) /\ at_rest (ce_opened E w) /\ cache_kept (cur_cache (ce_opened E w)) (cur_db (ce_opened E w)) /\
  looks_at pm_s (ce_opened E w) (CCompare None None false) sg_path (Some t) /\
  no_coll (w_hashed (snd (run_command toy_cm (Some pm_s) ce_cmd (ce_opened E w)))) /\ length (d_data (cur_db (snd (run_command toy_cm (Some pm_s) ce_cmd (ce_opened E w))))) + 1 < stack /\
  globs_ok toy_cm /\ directory (ce_opened E w) sg_path /\ shallow (w_fs (ce_opened E w)) (locate (w_cwd (ce_opened E w)) sg_path).
Lemma ce_kept {E : Env} d c : c = [] -> cache_kept c d.
Proof. intros -> a b []. Qed.
Ltac ce_go H := split; [vm_compute; reflexivity|split; [vm_compute; reflexivity|split; [apply Nat.leb_le; vm_compute; reflexivity|split; [apply lg_rest; vm_compute; reflexivity|split; [apply ce_kept; vm_compute; reflexivity|
  split; [split; [reflexivity|split; [intros _; exists (str "master"); split; vm_compute; reflexivity|split; [discriminate|eexists; split; [reflexivity|apply H; vm_compute; reflexivity]]]]|
  split; [apply logb_ok; vm_compute; reflexivity|split; [apply Nat.ltb_lt; vm_compute; reflexivity|
  split; [vm_compute; reflexivity|split; [exists [str "r"]; vm_compute; reflexivity|
  replace (locate _ _) with [str "r"] by (vm_compute; reflexivity); apply sg_shallow_ok; vm_compute; reflexivity]]]]]]]]]].
Lemma ce_plain : ce_ready toy_env (set_fs toy_committed (w_fs toy_committed)) lv_tree.
Proof. split; [apply used_fs, used_committed|ce_go lg_head]. Qed.
Lemma ce_device : ce_ready toy_env sg_device lv_tree.
Proof. split; [apply used_fs, used_committed|ce_go lg_head]. Qed.
Lemma ce_link : ce_ready toy_env sg_link lv_tree.
Proof. split; [apply used_fs, used_committed|ce_go lg_head]. Qed.
Lemma ce_gone : ce_ready toy_env lg_gone lv_tree.
Proof. split; [apply used_fs, used_committed|ce_go lg_head]. Qed.
Lemma ce_inside : ce_ready toy_env lg_inside lv_tree.
Proof. split; [apply used_cwd, used_dirty|ce_go lg_head]. Qed.
Definition ce_swapped : world := ce_opened cs_env sw_world.
Definition ce_key : key := match fst (reflog_get sqlite_ds (str "master") None ce_swapped) with Done k => k | _ => ct_tree end.
Definition ce_object : object := match object_at (cur_db ce_swapped) (as_db_key ce_key) with Some o => o | None => ps_object end.
Definition ce_commit : commit := match fst (@commit_from_key cs_env sqlite_ds ce_key ce_swapped) with Done c => c | _ => ps_commit end.
Lemma ce_head : rp_head (repo_of (cur_db (ce_opened cs_env sw_world))) = Some (str "master") -> @compared_to cs_env (ce_opened cs_env sw_world) None (c_tree ce_commit).
Proof.
  intro H. exists (str "master"). split; [exact H|]. exists ce_key, [], ce_commit. split; [vm_compute; reflexivity|]. split; [|reflexivity].
  apply commit_reads. exists ce_object. split; [apply of_get; vm_compute; reflexivity|]. split; [vm_compute; reflexivity|]. intro v. destruct v. vm_compute. reflexivity.
Qed.
Lemma ce_swap : ce_ready cs_env sw_world (c_tree ce_commit).
Proof.
  split; [apply (LiveCache.store_used toy_db), sw_store|].
  split; [vm_compute; reflexivity|].
  split; [vm_compute; reflexivity|].
  split; [apply Nat.leb_le; vm_compute; reflexivity|].
  split; [apply lg_rest; vm_compute; reflexivity|].
  split; [apply ce_kept; vm_compute; reflexivity|].
  split. { split; [reflexivity|]. split; [intros _; exists (str "master"); split; vm_compute; reflexivity|]. split; [discriminate|]. exists (c_tree ce_commit). split; [reflexivity|]. apply ce_head. vm_compute. reflexivity. }
  split; [apply logb_ok; vm_compute; reflexivity|].
  split; [apply Nat.ltb_lt; vm_compute; reflexivity|].
  split; [vm_compute; reflexivity|].
  split; [exists [str "r"]; vm_compute; reflexivity|].
  replace (locate _ _) with [str "r"] by (vm_compute; reflexivity). apply sg_shallow_ok. vm_compute. reflexivity.
Qed.
(** All these ends occur. *)
Lemma ce_ends :
  map (fun w => fst (run_process toy_cm ce_cmd w)) [toy_committed; sg_device; sg_link; lg_gone; lg_inside] = [Some 0%N; Some 0%N; Some 101%N; Some 101%N; Some 101%N] /\
  fst (cs_run ce_cmd sw_world) = Some 101%N /\ fst (cs_run (CCompare None None false) sw_world) = Some 0%N /\
  sg_last (snd (run_process toy_cm ce_cmd toy_committed)) <> Some "fatal:"%string /\ sg_last (snd (run_process toy_cm ce_cmd sg_device)) = Some "fatal:"%string.
Proof. split; [vm_compute; reflexivity|]. split; [vm_compute; reflexivity|]. split; [vm_compute; reflexivity|]. split; [vm_compute; discriminate|vm_compute; reflexivity]. Qed.
Example C95_example :
  ce_ready toy_env (set_fs toy_committed (w_fs toy_committed)) lv_tree /\ ce_ready toy_env sg_device lv_tree /\ ce_ready toy_env sg_link lv_tree /\ ce_ready toy_env lg_gone lv_tree /\ ce_ready toy_env lg_inside lv_tree /\
  ce_ready cs_env sw_world (c_tree ce_commit).
Proof. exact (conj ce_plain (conj ce_device (conj ce_link (conj ce_gone (conj ce_inside ce_swap))))). Qed.
