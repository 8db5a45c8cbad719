(** Properties C52-C54: checking a stored tree out. *)
From Verif Require Import Base BaseFacts Key Keyish Cbor Object Path World WorldFacts Store File Filter Dir Diff Commit Main SpecStore StoreCalls SpecRun SpecProc
  SpecFile SpecDir SpecCache SpecDiff SpecShow SpecCmd SpecCheckout ObjectFacts FsFacts DirLive CheckoutFacts CheckoutCmd ProcFacts CmdFacts Checks Toy ToyRepo PropsShow PropsMain PropsDir.
From Verif Require LiveStory.

(** *** A repository in the place the assertions ask for, for the examples.  An
    exclusion is the name of the entries it excludes. *)
Definition ends_in (g : bytes) (p : path) : bool :=
  match rev (p_comps p) with Normal n :: _ => bytes_eqb n g | _ => false end.
Definition co_env : Env := {|
  blake3 := toy_hash; gear_table := @gear_table toy_env; other_object := fun _ => None; other_fsitem := fun _ => None; other_attrs := fun _ => None;
  read_sizes := fun _ _ => []; fresh_inode := N.of_nat; clock := Z.of_nat; glob_valid := fun _ => true; glob_match := ends_in; lossy := fun b => b;
  diff_lines := fun a b => [DLeft a; DRight b]; changeset := fun a b => [Rem a; World.Add b]; show_patch := fun _ => []; debug_cbor := fun _ => Err []; cache_dir := None; stack := 50; loop_bound := 50 |}.
#[local] Existing Instance co_env.
Definition co_home : loc := [str "home"; str "jess"; str "src"; str "snapcd"; str "repo"].
Definition co_at (r : loc) : loc := co_home ++ r.
Definition co_dirs : fs :=
  [([str "home"], EDir); ([str "home"; str "jess"], EDir); ([str "home"; str "jess"; str "src"], EDir);
   ([str "home"; str "jess"; str "src"; str "snapcd"], EDir); (co_home, EDir)].
Definition co_fs : fs :=
  co_dirs ++ [(co_at [str "a"], EFile (str "hello") (Stamp 7 100)); (co_at [str "s"], EDir); (co_at [str "s"; str "b"], EFile (str "world") (Stamp 8 100));
              (co_at [str "x"], EFile (str "private") (Stamp 9 100))].
Definition co_start : world := World co_fs co_home [] [] NoTxn [] None [] [] [] 0.
Definition co_cm : common := Common (parse_path (str ".snapcd")) [str "x"].
Definition co_inited : world := snd (run_process co_cm CInit co_start).
Definition co_committed : world := snd (run_process co_cm (CCommit None (str "first") None) co_inited).
(** Edits: "s/b" is removed, "new" is new, and the directory "d", which is new,
    has an entry "x", to be excluded. *)
Definition co_edit (f : fs) : fs :=
  filter (fun e => negb (names_eqb (fst e) (co_at [str "s"; str "b"]))) f ++
  [(co_at [str "new"], EFile (str "n") (Stamp 10 200)); (co_at [str "d"], EDir); (co_at [str "d"; str "x"], EFile (str "kept?") (Stamp 11 200))].
Definition co_edited : world := set_fs co_committed (co_edit (w_fs co_committed)).
Definition co_out : world := snd (run_process co_cm CCheckout co_edited).
Lemma co_out_done : run_process co_cm CCheckout co_edited = (Some 0%N, co_out).
Proof. vm_compute. reflexivity. Qed.
Lemma co_start_reachable : reachable co_start.
Proof. apply reach_start. reflexivity. Qed.
Lemma co_inited_reachable : reachable co_inited.
Proof. apply reach_process, co_start_reachable. Qed.
Lemma co_committed_reachable : reachable co_committed.
Proof. apply reach_process, co_inited_reachable. Qed.
Lemma co_edited_reachable : reachable co_edited.
Proof. apply reach_files, co_committed_reachable. Qed.
Definition co_of (o : outcome (option ds_state)) : ds_state := match o with Done (Some s) => s | _ => DsState (parse_path []) (parse_path []) end.
Definition co_set1 : outcome (option ds_state) * world := setup co_cm (close_all co_inited).
Definition co_s : ds_state := co_of (fst co_set1).
Definition co_w1 : world := snd co_set1.
Lemma co_starts1 : starts co_cm co_inited (Some co_s) co_w1.
Proof. vm_compute. reflexivity. Qed.
Definition co_w2 : world := snd (run_command co_cm (Some co_s) (CCommit None (str "first") None) co_w1).
Lemma co_commit : run_command co_cm (Some co_s) (CCommit None (str "first") None) co_w1 = (Done tt, co_w2).
Proof. vm_compute. reflexivity. Qed.
Definition co_v1 : world := snd (setup co_cm (close_all co_edited)).
Lemma co_starts2 : starts co_cm co_edited (Some co_s) co_v1.
Proof. vm_compute. reflexivity. Qed.
Definition co_v2 : world := snd (run_command co_cm (Some co_s) CCheckout co_v1).
Lemma co_checkout : run_command co_cm (Some co_s) CCheckout co_v1 = (Done tt, co_v2).
Proof. vm_compute. reflexivity. Qed.
Lemma co_small f l : fs_okb f = true -> forallb (fun x => match snd x with EFile c _ => length c <? 100 | _ => true end) f = true -> lossless_below f l.
Proof.
  intros _ H. apply lossless_small_below. intros r c Hc. unfold content in Hc. destruct (lookup f (l ++ r)) as [[|d st| |]|] eqn:L; try discriminate. injection Hc as ->.
  destruct (l ++ r) as [|n x]; [discriminate L|]. apply assoc_loc_in in L. rewrite forallb_forall in H. apply H in L. cbn [snd] in L. apply Nat.ltb_lt in L. apply Nat.lt_trans with 100; [exact L|].
  unfold chunk_max. rewrite <- (Nat2N.id 100) at 1. apply Nat.compare_lt_iff. rewrite <- N2Nat.inj_compare. reflexivity.
Qed.

(** ** C53 *)
(** When checking a tree out succeeds, every place below the path is as the tree has
    it: a directory of the tree is there, and was there before; a file of the tree
    is there with the bytes stored; and what the tree does not have is gone, except
    where it was excluded (or neither file nor directory): that is as it was. Nothing
    changes elsewhere, nor in the database. *)
Theorem C53_checkout :
  forall (E : Env) ex db g k p w w', regular w k -> fs_ok (w_fs w) -> ~ In ParentDir (p_comps p) ->
  checkout_fs_item sqlite_ds g k p (filter_fn ex db) w = (Done tt, w') ->
  let l := locate (w_cwd w) p in
  (forall r, outcome_at ex (locate (w_cwd w) db) (w_fs w) (w_fs w') w k p l r) /\
  (forall x, ~ under l x -> lookup (w_fs w') x = lookup (w_fs w) x) /\ cur_db w' = cur_db w.
Proof. exact @checkout_outcome. Qed.
Print Assumptions C53_checkout.
(** Trees that snapcd stored are [regular]. *)
Theorem C53_regular :
  forall (E : Env) w0 ex fo p k w, snapshot w0 ex fo p k w -> no_coll (w_hashed w) -> regular w k.
Proof. exact @snapshot_regular. Qed.
Print Assumptions C53_regular.
(** So the files below the path are exactly the files of the snapshot, as they were
    when it was taken, and the files that were to be spared. *)
Theorem C53_restores :
  forall (E : Env) w0 ex0 fo0 p0 k ex fo g p w w', snapshot w0 ex0 fo0 p0 k w -> no_coll (w_hashed w) -> lossless_below (w_fs w0) (locate (w_cwd w0) p0) ->
  fs_ok (w_fs w) -> ~ In ParentDir (p_comps p) ->
  checkout_fs_item sqlite_ds g k p (filter_fn ex fo) w = (Done tt, w') ->
  let src := locate (w_cwd w0) p0 in let out := locate (w_cwd w) p in
  (forall r c, content (w_fs w') (out ++ r) = Some c <->
     (content (w_fs w0) (src ++ r) = Some c /\ included ex0 (locate (w_cwd w0) fo0) p0 src r) \/
     (spared ex (locate (w_cwd w) fo) (w_fs w) w k p out r /\ absent w k r /\ content (w_fs w) (out ++ r) = Some c)) /\
  (forall x, ~ under out x -> lookup (w_fs w') x = lookup (w_fs w) x) /\ cur_db w' = cur_db w.
Proof. exact @restores. Qed.
Print Assumptions C53_restores.
(** The same for the commands: after a commit, and any changes to the files, checkout
    brings the files of the commit back. *)
Theorem C53_commit_checkout :
  forall (E : Env) cm w s w1 m w2 cm' v v1 v2, reachable w -> starts cm w (Some s) w1 -> fs_ok (w_fs w1) ->
  lossless_below (w_fs w1) (locate (w_cwd w1) (ds_repo s)) ->
  run_command cm (Some s) (CCommit None m None) w1 = (Done tt, w2) -> attrs_fits (Attrs m []) ->
  reachable v -> starts cm' v (Some s) v1 -> cur_db v1 = cur_db w2 -> incl (w_hashed w2) (w_hashed v1) -> no_coll (w_hashed v1) -> fs_ok (w_fs v1) -> ~ In ParentDir (p_comps (ds_repo s)) ->
  run_command cm' (Some s) CCheckout v1 = (Done tt, v2) ->
  exists k, head_tree v1 (Some k) /\
  let src := locate (w_cwd w1) (ds_repo s) in let out := locate (w_cwd v1) (ds_repo s) in
  (forall r c, content (w_fs v2) (out ++ r) = Some c <->
     (content (w_fs w1) (src ++ r) = Some c /\ included (cm_exclude cm) (locate (w_cwd w1) (ds_folder s)) (ds_repo s) src r) \/
     (spared (cm_exclude cm') (locate (w_cwd v1) (ds_folder s)) (w_fs v1) v1 k (ds_repo s) out r /\ absent v1 k r /\ content (w_fs v1) (out ++ r) = Some c)) /\
  (forall x, ~ under out x -> lookup (w_fs v2) x = lookup (w_fs v1) x) /\ cur_db v2 = cur_db v1.
Proof. exact @commit_checkout. Qed.
Print Assumptions C53_commit_checkout.
Lemma co_same : cur_db co_v1 = cur_db co_w2 /\ w_hashed co_v1 = w_hashed co_w2.
Proof. vm_compute. split; reflexivity. Qed.
Example C53_example :
  reachable co_inited /\ starts co_cm co_inited (Some co_s) co_w1 /\ fs_ok (w_fs co_w1) /\ lossless_below (w_fs co_w1) (locate (w_cwd co_w1) (ds_repo co_s)) /\
  run_command co_cm (Some co_s) (CCommit None (str "first") None) co_w1 = (Done tt, co_w2) /\ attrs_fits (Attrs (str "first") []) /\
  reachable co_edited /\ starts co_cm co_edited (Some co_s) co_v1 /\ cur_db co_v1 = cur_db co_w2 /\ incl (w_hashed co_w2) (w_hashed co_v1) /\ no_coll (w_hashed co_v1) /\ fs_ok (w_fs co_v1) /\
  forallb (fun c => match c with ParentDir => false | _ => true end) (p_comps (ds_repo co_s)) = true /\
  run_command co_cm (Some co_s) CCheckout co_v1 = (Done tt, co_v2) /\
  map (content (w_fs co_v1)) (map co_at [[str "a"]; [str "s"; str "b"]; [str "new"]; [str "x"]]) = [Some (str "hello"); None; Some (str "n"); Some (str "private")] /\
  map (content (w_fs co_v2)) (map co_at [[str "a"]; [str "s"; str "b"]; [str "new"]; [str "x"]]) = [Some (str "hello"); Some (str "world"); None; Some (str "private")].
Proof.
  split; [exact co_inited_reachable|]. split; [exact co_starts1|]. split; [apply fs_okb_ok; vm_compute; reflexivity|]. split; [apply co_small; vm_compute; reflexivity|].
  split; [exact co_commit|]. split; [apply small_attrs; reflexivity|]. split; [exact co_edited_reachable|]. split; [exact co_starts2|]. split; [exact (proj1 co_same)|].
  split; [rewrite (proj2 co_same); apply incl_refl|]. split; [apply logb_ok; vm_compute; reflexivity|]. split; [apply fs_okb_ok; vm_compute; reflexivity|].
  split; [vm_compute; reflexivity|]. split; [exact co_checkout|]. split; vm_compute; reflexivity.
Qed.
(** The property also says that excluded files are untouched. They are not: one in
    a directory that the snapshot does not have goes with it (the
    command succeeds: it prints nothing) ... *)
Theorem C53_excluded_refuted :
  exists (E : Env) cm w w' r, reachable w /\ run_process cm CCheckout w = (Some 0%N, w') /\ w_out w' = w_out w /\
    glob_match (str "x") (abs_path r) = true /\ In (str "x") (cm_exclude cm) /\
    content (w_fs w) r = Some (str "kept?") /\ content (w_fs w') r = None.
Proof.
  exists co_env, co_cm, co_edited, co_out, (co_at [str "d"; str "x"]). split; [exact co_edited_reachable|]. split; [exact co_out_done|]. split; [vm_compute; reflexivity|].
  split; [vm_compute; reflexivity|]. split; [left; reflexivity|]. split; vm_compute; reflexivity.
Qed.
Print Assumptions C53_excluded_refuted.
(** ... and one that is in the snapshot, because it was not excluded then, is overwritten. *)
Definition co_cm0 : common := Common (parse_path (str ".snapcd")) [].
Definition co_all : world := snd (run_process co_cm0 (CCommit None (str "first") None) co_inited).
Definition co_priv (f : fs) : fs :=
  filter (fun e => negb (names_eqb (fst e) (co_at [str "x"]))) f ++ [(co_at [str "x"], EFile (str "mine") (Stamp 9 300))].
Definition co_mine : world := set_fs co_all (co_priv (w_fs co_all)).
Definition co_mine_out : world := snd (run_process co_cm CCheckout co_mine).
Lemma co_mine_done : run_process co_cm CCheckout co_mine = (Some 0%N, co_mine_out).
Proof. vm_compute. reflexivity. Qed.
Lemma co_mine_reachable : reachable co_mine.
Proof. apply reach_files, reach_process, co_inited_reachable. Qed.
Theorem C53_excluded_overwritten_refuted :
  exists (E : Env) cm w w' r, reachable w /\ run_process cm CCheckout w = (Some 0%N, w') /\ w_out w' = w_out w /\
    glob_match (str "x") (abs_path r) = true /\ In (str "x") (cm_exclude cm) /\
    content (w_fs w) r = Some (str "mine") /\ content (w_fs w') r = Some (str "private").
Proof.
  exists co_env, co_cm, co_mine, co_mine_out, (co_at [str "x"]). split; [exact co_mine_reachable|]. split; [exact co_mine_done|]. split; [vm_compute; reflexivity|].
  split; [vm_compute; reflexivity|]. split; [left; reflexivity|]. split; vm_compute; reflexivity.
Qed.
Print Assumptions C53_excluded_overwritten_refuted.

(** ** C54 *)
(** Checking out does not make directories: when it succeeds, every directory of
    the tree was there before. *)
Theorem C54_directories_needed :
  forall (E : Env) ex db g k p w w', regular w k -> fs_ok (w_fs w) -> ~ In ParentDir (p_comps p) ->
  checkout_fs_item sqlite_ds g k p (filter_fn ex db) w = (Done tt, w') ->
  forall r, dir_at w k r -> lookup (w_fs w) (locate (w_cwd w) p ++ r) = Some EDir.
Proof. exact @directories_needed. Qed.
Print Assumptions C54_directories_needed.
(** The repository is stored and checked out where it is: its directory "s" is needed. *)
Definition co_put : outcome key * world := put_fs_item sqlite_ds 10 (ds_repo co_s) (filter_fn [str "x"] (ds_folder co_s)) co_w1.
Definition co_tree : key := match fst co_put with Done k => k | _ => Blake3B (toy_hash []) end.
Definition co_again : world := snd (checkout_fs_item sqlite_ds 10 co_tree (ds_repo co_s) (filter_fn [str "x"] (ds_folder co_s)) (snd co_put)).
Lemma co_put_done : put_fs_item sqlite_ds 10 (ds_repo co_s) (filter_fn [str "x"] (ds_folder co_s)) co_w1 = (Done co_tree, snd co_put).
Proof. vm_compute. reflexivity. Qed.
Lemma co_put_snapshot : snapshot co_w1 [str "x"] (ds_folder co_s) (ds_repo co_s) co_tree (snd co_put).
Proof.
  exists 10, (snd co_put). split; [exact (wk_start _ _ _ _ co_inited_reachable co_starts1)|].
  split; [apply fs_okb_ok; vm_compute; reflexivity|]. split; [exact co_put_done|]. split; [exact (fun k v H => H)|apply incl_refl].
Qed.
Example C54_directories_example :
  regular (snd co_put) co_tree /\ fs_ok (w_fs (snd co_put)) /\ ~ In ParentDir (p_comps (ds_repo co_s)) /\
  checkout_fs_item sqlite_ds 10 co_tree (ds_repo co_s) (filter_fn [str "x"] (ds_folder co_s)) (snd co_put) = (Done tt, co_again) /\
  dir_at (snd co_put) co_tree [str "s"].
Proof.
  assert (NC : no_coll (w_hashed (snd co_put))) by (apply logb_ok; vm_compute; reflexivity).
  split; [exact (C53_regular _ _ _ _ _ _ _ co_put_snapshot NC)|]. split; [apply fs_okb_ok; vm_compute; reflexivity|]. split; [vm_compute; intuition discriminate|].
  split; [vm_compute; reflexivity|].
  apply (proj1 (LiveStory.snapshot_places _ _ _ _ _ _ co_put_snapshot NC [str "s"])). split; [vm_compute; reflexivity|].
  intros r1 r2 Q N. destruct r1 as [|a [|b r1]]; [congruence| |discriminate Q]. injection Q as <- _. intros [(r' & X)|(g & [<-|[]] & X)]; vm_compute in X; discriminate.
Qed.
(** The property is that checkout succeeds when a directory is missing.  It prints
    "fatal:" (and exits with 0, see C50). *)
Definition co_gone (f : fs) : fs := filter (fun e => negb (names_prefix (co_at [str "s"]) (fst e))) f.
Definition co_lost : world := set_fs co_committed (co_gone (w_fs co_committed)).
Definition co_lost_out : world := snd (run_process co_cm CCheckout co_lost).
Lemma co_lost_done : run_process co_cm CCheckout co_lost = (Some 0%N, co_lost_out).
Proof. vm_compute. reflexivity. Qed.
Lemma co_lost_reachable : reachable co_lost.
Proof. apply reach_files, co_committed_reachable. Qed.
Theorem C54_missing_directory_refuted :
  exists (E : Env) cm w w', reachable w /\ w_faults w = [] /\ run_process cm (CCommit None (str "first") None) co_inited = (Some 0%N, co_committed) /\
    w = set_fs co_committed (co_gone (w_fs co_committed)) /\ run_process cm CCheckout w = (Some 0%N, w') /\ w_out w' = Printed "fatal:" [] :: w_out w.
Proof.
  exists co_env, co_cm, co_lost, co_lost_out. split; [exact co_lost_reachable|]. split; [vm_compute; reflexivity|]. split; [vm_compute; reflexivity|]. split; [reflexivity|].
  split; [exact co_lost_done|]. vm_compute. reflexivity.
Qed.
Print Assumptions C54_missing_directory_refuted.

(** ** C52 *)
(** Outside the place that the assertions ask for, whatever happens, at most one file
    is changed: created empty, or emptied; and nothing when checking out succeeds. *)
Theorem C52_outside :
  forall (E : Env) ex db g k p w o w', proper_names w k -> (forall r, starts_with (below p r) blessed = false) ->
  checkout_fs_item sqlite_ds g k p (filter_fn ex db) w = (o, w') ->
  one_emptied (w_fs w) (w_fs w') (locate (w_cwd w) p) /\ (o = Done tt -> w_fs w' = w_fs w).
Proof. exact @outside_harmless. Qed.
Print Assumptions C52_outside.
Definition co_src : outcome unit * world := @checkout_fs_item toy_env sqlite_ds 10 ex_key (parse_path (str "src")) (filter_fn [] (parse_path (str "db"))) (snd ex_put).
Example C52_outside_example :
  @proper_names toy_env (snd ex_put) ex_key /\ (forall r, starts_with (below (parse_path (str "src")) r) blessed = false) /\
  fst co_src = Panicked PAssert /\ content (w_fs (snd ex_put)) [str "src"; str "a"] = Some (str "hello") /\ content (w_fs (snd co_src)) [str "src"; str "a"] = Some [].
Proof.
  split; [|split; [intro r; reflexivity|split; [vm_compute; reflexivity|split; vm_compute; reflexivity]]].
  exact C27_example.
Qed.
(** The property is that nothing is changed. *)
Definition co_dirty : world := toy_committed.
Definition co_dirty_out : world := snd (@run_process toy_env toy_cm CCheckout toy_committed).
Lemma co_dirty_done : @run_process toy_env toy_cm CCheckout toy_committed = (Some 101%N, co_dirty_out).
Proof. vm_compute. reflexivity. Qed.
Theorem C52_truncated_refuted :
  exists (E : Env) cm w w' r, reachable w /\ w_faults w = [] /\ run_process cm CCheckout w = (Some 101%N, w') /\
    content (w_fs w) r = Some (str "hello") /\ content (w_fs w') r = Some [].
Proof.
  exists toy_env, toy_cm, toy_committed, co_dirty_out, (in_r (str "f")). split; [exact toy_committed_reachable|]. split; [vm_compute; reflexivity|].
  split; [exact co_dirty_done|]. split; vm_compute; reflexivity.
Qed.
Print Assumptions C52_truncated_refuted.
