(** Property C73: [compare --stat] and the cache. *)
From Verif Require Import Base BaseFacts Key Keyish Cbor Object Path World WorldFacts Store File Filter Dir Diff Commit Main SpecStore SpecRun SpecProc SpecFile SpecDir SpecClosure
  SpecCache SpecDiff SpecPatch SpecShow SpecOut SpecCmd SpecText SpecShape SpecLive LiveStat LiveCache FileRun FsFacts CmdFacts ShapeTop Checks Toy ToyRepo PropsMain PropsShow PropsCmd PropsShape PropsLive.

(** ** C73 *)
(** [compare --stat] succeeds exactly when [compare] does (C71) and no file stands
    where the tree has a directory, provided the cache knows files of this database
    only. *)
Theorem C73_compare_stat :
  forall (E : Env) cm w s w1 p k, well_used w -> starts cm w (Some s) w1 -> at_rest w1 -> deep_enough w1 -> cache_kept (cur_cache w1) (cur_db w1) ->
  (forall ki, k = Some ki -> names_only w1 Item ki) ->
  let w2 := snd (run_command cm (Some s) (CCompare p k true) w1) in let base := match p with Some q => q | None => ds_repo s end in
  no_coll (w_hashed w2) -> deep_enough w2 ->
  fst (run_command cm (Some s) (CCompare p k true) w1) = Done tt <->
  globs_ok cm /\ (k = None -> has_head w1) /\
  exists t, compared_to w1 k t /\ comparable (cm_exclude cm) (ds_folder s) base w1 (Some t) /\ no_file_for_dir (cm_exclude cm) (ds_folder s) base w1 t.
Proof. intros E cm w s w1 p k. apply compare_stat_exactly. Qed.
Print Assumptions C73_compare_stat.
(** Which it does when nothing fails, files are hashed for one database only, and it is
    not deleted while there is anything in the cache. *)
Theorem C73_cache_kept :
  forall (E : Env) l w, one_store l w -> no_coll (w_hashed w) -> cache_kept (w_cache w) (db_at (w_dbs w) l).
Proof. intros E l w. apply one_store_kept. Qed.
Print Assumptions C73_cache_kept.
(** So there nothing need be known about the cache. *)
Theorem C73_one_store :
  forall (E : Env) cm w s w1 p k, one_store (w_conn w1) w -> there w (w_conn w1) \/ w_cache w = [] -> starts cm w (Some s) w1 -> quiet_disk w1 -> deep_enough w1 ->
  (forall ki, k = Some ki -> names_only w1 Item ki) ->
  let w2 := snd (run_command cm (Some s) (CCompare p k true) w1) in let base := match p with Some q => q | None => ds_repo s end in
  no_coll (w_hashed w2) -> deep_enough w2 ->
  fst (run_command cm (Some s) (CCompare p k true) w1) = Done tt <->
  globs_ok cm /\ (k = None -> has_head w1) /\
  exists t, compared_to w1 k t /\ comparable (cm_exclude cm) (ds_folder s) base w1 (Some t) /\ no_file_for_dir (cm_exclude cm) (ds_folder s) base w1 t.
Proof. intros E cm w s w1 p k. apply compare_stat_store. Qed.
Print Assumptions C73_one_store.

(** Examples: after init, commit and a change to "s/g", [compare] fills the cache. *)
Lemma store_step {E : Env} l cm c w : one_store l w -> w_faults w = [] -> there w l \/ w_cache w = [] -> fs_okb (w_fs (snd (setup cm (close_all w)))) = true ->
  (uses_cache c = true -> names_eqb (w_conn (snd (setup cm (close_all w)))) l = true) ->
  match c with CCommit _ m _ => utf8_valid m = true | CCommitTree _ _ | CReflogPush _ _ _ | CRefUpdate _ _ => False | _ => True end ->
  one_store l (snd (run_process cm c w)).
Proof.
  intros O F T Fs C S. apply os_process; [exact O|exact F|exact T| |].
  - intros st w1 St. unfold starts in St. rewrite St in Fs. split; [apply fs_okb_ok, Fs|]. destruct c; try exact I; try contradiction. exact S.
  - intros s w1 St U. specialize (C U). unfold starts in St. rewrite St in C. apply names_eqb_eq, C.
Qed.
Lemma store_fs {E : Env} l w f : one_store l w -> one_store l (set_fs w f).
Proof. intro O. apply (os_outside l w); [exact O|split; reflexivity|left; reflexivity]. Qed.
Definition thereb (w : world) (l : loc) : bool := match lookup (w_fs w) l with Some (EFile _ _) => true | _ => false end.
Lemma thereb_ok w l : thereb w l = true -> there w l.
Proof. unfold thereb, there. destruct (lookup (w_fs w) l) as [[| | |]|]; try discriminate. eauto. Qed.
Definition sx_changed : world := set_fs cs_outer (cs_edit (w_fs cs_outer)).
Definition sx_cached : world := snd (cs_run (CCompare None None false) sx_changed).
Lemma sx_store : @one_store cs_env toy_db sx_changed.
Proof.
  apply store_fs. apply (@store_step cs_env).
  - apply (@store_step cs_env); [apply os_start; [reflexivity|apply wu_start; reflexivity]|reflexivity|right; reflexivity|vm_compute; reflexivity|discriminate|exact I].
  - vm_compute. reflexivity.
  - right. vm_compute. reflexivity.
  - vm_compute. reflexivity.
  - discriminate.
  - reflexivity.
Qed.
Lemma sx_cached_store : @one_store cs_env toy_db sx_cached.
Proof.
  apply (@store_step cs_env); [exact sx_store|vm_compute; reflexivity|right; vm_compute; reflexivity|vm_compute; reflexivity|vm_compute; reflexivity|exact I].
Qed.
Lemma sx_log : @no_coll cs_env (w_hashed sx_cached).
Proof. apply logb_ok. vm_compute. reflexivity. Qed.
Example C73_cache_example : @one_store cs_env toy_db sx_cached /\ length (w_cache sx_cached) = 2 /\ @cache_kept cs_env (w_cache sx_cached) (db_at (w_dbs sx_cached) toy_db).
Proof.
  split; [exact sx_cached_store|]. split; [vm_compute; reflexivity|]. exact (C73_cache_kept cs_env toy_db sx_cached sx_cached_store sx_log).
Qed.
Definition sx_w1 : world := snd (@setup cs_env toy_cm (close_all sx_cached)).
Lemma sx_starts : @starts cs_env toy_cm sx_cached (Some pm_s) sx_w1.
Proof. vm_compute. reflexivity. Qed.
Lemma sx_conn : w_conn sx_w1 = toy_db.
Proof. vm_compute. reflexivity. Qed.
Lemma sx_there : there sx_cached toy_db.
Proof. apply thereb_ok. vm_compute. reflexivity. Qed.
Lemma sx_quiet : quiet_disk sx_w1.
Proof. apply quietb; vm_compute; reflexivity. Qed.
Lemma sx_deep : @deep_enough cs_env sx_w1.
Proof. apply Nat.leb_le. vm_compute. reflexivity. Qed.
Lemma sx_log2 : @no_coll cs_env (w_hashed (snd (@run_command cs_env toy_cm (Some pm_s) (CCompare None None true) sx_w1))).
Proof. apply logb_ok. vm_compute. reflexivity. Qed.
Lemma sx_deep2 : @deep_enough cs_env (snd (@run_command cs_env toy_cm (Some pm_s) (CCompare None None true) sx_w1)).
Proof. apply Nat.leb_le. vm_compute. reflexivity. Qed.
Lemma sx_runs : fst (@run_command cs_env toy_cm (Some pm_s) (CCompare None None true) sx_w1) = Done tt.
Proof. vm_compute. reflexivity. Qed.
Example C73_one_store_example : @one_store cs_env (w_conn sx_w1) sx_cached /\ there sx_cached (w_conn sx_w1) /\
  exists t, @compared_to cs_env sx_w1 None t /\ @no_file_for_dir cs_env [] (ds_folder pm_s) (ds_repo pm_s) sx_w1 t.
Proof.
  rewrite sx_conn. split; [exact sx_cached_store|]. split; [exact sx_there|].
  destruct (proj1 (C73_one_store cs_env toy_cm sx_cached pm_s sx_w1 None None ltac:(rewrite sx_conn; exact sx_cached_store) ltac:(left; rewrite sx_conn; exact sx_there) sx_starts sx_quiet sx_deep ltac:(discriminate) sx_log2 sx_deep2) sx_runs)
    as (_ & _ & t & C & _ & N). exists t. auto.
Qed.
(** That [compare] succeeds is not enough: where an empty directory "e" was replaced by a
    file, [compare --stat] panics. *)
Definition sw_start : world := set_fs toy_start (toy_fs ++ [(in_r (str "e"), EDir)]).
Definition sw_inited : world := snd (cs_run CInit sw_start).
Definition sw_committed : world := snd (cs_run (CCommit None (str "first") None) sw_inited).
Definition sw_swap (f : fs) : fs := map (fun x => if names_eqb (fst x) (in_r (str "e")) then (fst x, EFile (str "x") (Stamp 20 900)) else x) f.
Definition sw_world : world := set_fs sw_committed (sw_swap (w_fs sw_committed)).
Lemma sw_store : @one_store cs_env toy_db sw_world.
Proof.
  apply store_fs. apply (@store_step cs_env).
  - apply (@store_step cs_env); [apply os_start; [reflexivity|apply wu_start; reflexivity]|reflexivity|right; reflexivity|vm_compute; reflexivity|discriminate|exact I].
  - vm_compute. reflexivity.
  - right. vm_compute. reflexivity.
  - vm_compute. reflexivity.
  - discriminate.
  - reflexivity.
Qed.
Theorem C73_file_for_directory_refuted :
  exists (E : Env) cm w l, one_store l w /\ w_faults w = [] /\ w_cache w = [] /\
    fst (run_process cm (CCompare None None false) w) = Some 0%N /\ fst (run_process cm (CCompare None None true) w) = Some 101%N.
Proof.
  exists cs_env, toy_cm, sw_world, toy_db. split; [exact sw_store|]. split; [vm_compute; reflexivity|]. split; [vm_compute; reflexivity|]. split; vm_compute; reflexivity.
Qed.
Print Assumptions C73_file_for_directory_refuted.
(** Nor is one database enough if operations fail: when SQLite refuses the COMMIT of
    the objects, the process still commits the cache and exits with 0; from then on
    [compare --stat], which worked before, panics. *)
Theorem C73_refused_commit_refuted :
  exists (E : Env) cm w l fl, one_store l w /\ w_faults w = [] /\ w_cache w = [] /\ fst (run_process cm (CCompare None None true) w) = Some 0%N /\
    fst (run_process cm (CCompare None None false) (set_faults w fl)) = Some 0%N /\
    let w' := snd (run_process cm (CCompare None None false) (set_faults w fl)) in
    w_fs w' = w_fs w /\ w_faults w' = [] /\ w_dbs w' = w_dbs w /\ w_cache w' <> [] /\ fst (run_process cm (CCompare None None true) w') = Some 101%N.
Proof.
  exists cs_env, toy_cm, sx_changed, toy_db, (repeat FOk 42 ++ [FErr 0]). split; [exact sx_store|]. split; [vm_compute; reflexivity|]. split; [vm_compute; reflexivity|].
  split; [vm_compute; reflexivity|]. split; [vm_compute; reflexivity|]. cbv zeta. split; [vm_compute; reflexivity|]. split; [vm_compute; reflexivity|]. split; [vm_compute; reflexivity|]. split; [vm_compute; discriminate|vm_compute; reflexivity].
Qed.
Print Assumptions C73_refused_commit_refuted.
