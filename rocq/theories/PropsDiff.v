(** Properties C36-C39: comparing trees. *)
From Verif Require Import Base BaseFacts Key Cbor Object Path World WorldFacts Store File Filter Dir Diff Main SpecStore StoreCalls SpecRun SpecFile SpecDir SpecCache SpecDiff
  ObjStoreFacts FileRun SessionFacts FsFacts CacheFacts HashFacts CompareFacts DiffFacts SnapFacts Checks Toy PropsCache.

(** C36: if comparing two stored trees (or a tree with nothing) succeeds, it added
    exactly what only the new one has, modified exactly what both have with
    different keys, each in order and once; nothing is changed. *)
Theorem C36_stored_trees_exact :
  forall (E : Env) k to w r w', tidy w k -> tidy_of w to ->
  compare sqlite_ds (TDatabase k) to w = (Done r, w') ->
  ticked w w' /\ df_deleted r = [] /\
  (forall a, In a (df_added r) <-> exists x k1 d, in_tree w k x k1 d /\ (forall k0 d0, ~ tree_of w to x k0 d0) /\ a = Added (named x) d (Some k1)) /\
  (forall b, In b (df_modified r) <-> exists x k1 d k0 d0, in_tree w k x k1 d /\ tree_of w to x k0 d0 /\ k1 <> k0 /\ b = Modified (named x) k0 k1) /\
  by_path ad_path (df_added r) /\ by_path md_path (df_modified r).
Proof. intros E k to w r w'. apply compare_db_done. Qed.
Print Assumptions C36_stored_trees_exact.
(** What is stored by an insertion is such a tree. *)
Theorem C36_inserted_trees_tidy :
  forall (E : Env) w0 ex fo p k w, snapshot w0 ex fo p k w -> no_coll (w_hashed w) -> tidy w k.
Proof.
  intros E w0 ex fo p k w (fuel & w1 & S & O & P & K & I) NC. eapply put_tidy; [apply working_ok, S|exact O|exact P|eapply no_coll_incl; [exact I|exact NC]|exact K].
Qed.
Print Assumptions C36_inserted_trees_tidy.

(** Two trees: "a" changed and "sub" with "c" added. *)
Definition dx_fs (c : bytes) (more : fs) : fs :=
  [([str "db"], EDir); ([str "n"], EFile (str "other") (Stamp 9 0)); ([str "src"], EDir); ([str "src"; str "a"], EFile c (Stamp 1 0))] ++ more.
Definition dx_sub : fs := [([str "src"; str "sub"], EDir); ([str "src"; str "sub"; str "c"], EFile (str "c") (Stamp 3 0))].
Definition dx_w : world := set_conn (close_all (set_fs toy_world (dx_fs (str "hello") []))) [str "db"].
Notation dx_src := (parse_path (str "src")).
Notation dx_folder := (parse_path (str "db")).
Definition key_of (o : outcome key) : key := match o with Done k => k | _ => Blake3B (toy_hash []) end.
Definition dx_put1 : outcome key * world := put_fs_item sqlite_ds 10 dx_src (filter_fn [] dx_folder) dx_w.
Definition dx_fs2 : fs := dx_fs (str "HELLO") dx_sub.
Definition dx_put2 : outcome key * world := put_fs_item sqlite_ds 10 dx_src (filter_fn [] dx_folder) (set_fs (snd dx_put1) dx_fs2).
Definition dx_k1 : key := key_of (fst dx_put1).
Definition dx_k2 : key := key_of (fst dx_put2).
Lemma dx_put1_done : put_fs_item sqlite_ds 10 dx_src (filter_fn [] dx_folder) dx_w = (Done dx_k1, snd dx_put1).
Proof. vm_compute. reflexivity. Qed.
Lemma dx_put2_done : put_fs_item sqlite_ds 10 dx_src (filter_fn [] dx_folder) (set_fs (snd dx_put1) dx_fs2) = (Done dx_k2, snd dx_put2).
Proof. vm_compute. reflexivity. Qed.
Lemma dx_session : session dx_w.
Proof. exists (set_fs toy_world (dx_fs (str "hello") [])), [str "db"], []. split; [constructor; reflexivity|reflexivity]. Qed.
Definition dx_cmp : outcome diff_result * world := compare sqlite_ds (TDatabase dx_k2) (Some dx_k1) (snd dx_put2).
Lemma dx_cmp_done : compare sqlite_ds (TDatabase dx_k2) (Some dx_k1) (snd dx_put2) = (Done (diff_of (fst dx_cmp)), snd dx_cmp).
Proof. vm_compute. reflexivity. Qed.
Lemma dx_work2 : working (set_fs (snd dx_put1) dx_fs2).
Proof. apply wk_files. apply (wk_put dx_w 10 dx_src [] dx_folder). apply wk_session, dx_session. Qed.
Lemma dx_log : no_coll (w_hashed (snd dx_put2)).
Proof. apply logb_ok. vm_compute. reflexivity. Qed.
Lemma dx_snap2 : snapshot (set_fs (snd dx_put1) dx_fs2) [] dx_folder dx_src dx_k2 (snd dx_put2).
Proof. exists 10, (snd dx_put2). split; [exact dx_work2|]. split; [apply fs_okb_ok; vm_compute; reflexivity|]. split; [exact dx_put2_done|]. split; [exact (fun k v H => H)|apply incl_refl]. Qed.
Lemma dx_kept : still_stored (snd dx_put1) (snd dx_put2) /\ incl (w_hashed (snd dx_put1)) (w_hashed (snd dx_put2)).
Proof. apply keptb_ok. vm_compute. reflexivity. Qed.
Lemma dx_snap1 : snapshot dx_w [] dx_folder dx_src dx_k1 (snd dx_put2).
Proof. exists 10, (snd dx_put1). split; [apply wk_session, dx_session|]. split; [apply fs_okb_ok; vm_compute; reflexivity|]. split; [exact dx_put1_done|exact dx_kept]. Qed.
Lemma snapshot_set_fs {E : Env} w0 ex fo p k w f : snapshot w0 ex fo p k w -> snapshot w0 ex fo p k (set_fs w f).
Proof. exact (fun H => H). Qed.
Lemma log_set_fs {E : Env} w f : no_coll (w_hashed w) -> no_coll (w_hashed (set_fs w f)).
Proof. exact (fun H => H). Qed.
Lemma dx_tidy1 f : tidy (set_fs (snd dx_put2) f) dx_k1.
Proof. exact (C36_inserted_trees_tidy _ _ _ _ _ _ _ (snapshot_set_fs _ _ _ _ _ _ f dx_snap1) (log_set_fs _ f dx_log)). Qed.
Example C36_example :
  tidy (snd dx_put2) dx_k2 /\ tidy_of (snd dx_put2) (Some dx_k1) /\
  compare sqlite_ds (TDatabase dx_k2) (Some dx_k1) (snd dx_put2) = (Done (diff_of (fst dx_cmp)), snd dx_cmp) /\
  map ad_path (df_added (diff_of (fst dx_cmp))) = [named [str "sub"]; named [str "sub"; str "c"]] /\
  map md_path (df_modified (diff_of (fst dx_cmp))) = [named [str "a"]].
Proof.
  split; [apply (C36_inserted_trees_tidy _ _ _ _ _ _ _ dx_snap2 dx_log)|]. split; [apply (C36_inserted_trees_tidy _ _ _ _ _ _ _ dx_snap1 dx_log)|].
  split; [exact dx_cmp_done|]. vm_compute. auto.
Qed.

(** C37: a comparison that succeeds never reports a deletion; if it succeeds,
    nothing of the older tree is missing in the newer one ... *)
Theorem C37_no_deletion_reported :
  forall (E : Env) from to w r w', compare sqlite_ds from to w = (Done r, w') -> df_deleted r = [].
Proof. intros E from to w r w'. apply compare_no_deleted. Qed.
Print Assumptions C37_no_deletion_reported.
Theorem C37_success_means_none_missing :
  forall (E : Env) p ex fo k w r w', steady_reads -> in_order w -> tidy w k ->
  compare sqlite_ds (TFileSystem p ex fo) (Some k) w = (Done r, w') ->
  forall x k' d, in_tree w k x k' d -> exists e, on_disk ex fo p w x e.
Proof.
  intros E p ex fo k w r w' St (O & T & R) Td H. apply compare_fs_done in H as (_ & _ & _ & H & _); auto.
Qed.
Print Assumptions C37_success_means_none_missing.
(** ... and for two stored trees that can be read, it panics exactly when something
    is missing. *)
Theorem C37_panics_iff_missing :
  forall (E : Env) k k0 w m w1 m0 w2, tidy w k -> tidy w k0 ->
  walk_fs_items sqlite_ds k w = (Done m, w1) -> walk_fs_items sqlite_ds k0 w1 = (Done m0, w2) ->
  ((exists x k' d, in_tree w k0 x k' d /\ forall k'' d', ~ in_tree w k x k'' d') -> compare sqlite_ds (TDatabase k) (Some k0) w = (Panicked PIndex, w2)) /\
  ((forall x k' d, in_tree w k0 x k' d -> exists k'' d', in_tree w k x k'' d') -> exists r, compare sqlite_ds (TDatabase k) (Some k0) w = (Done r, w2)).
Proof.
  intros E k k0 w m w1 m0 w2 T T0 H H0. destruct (compare_db_cases k (Some k0) w m w1 m0 w2 T T0 H H0) as [[X ->]|[X (r & -> & _)]].
  - split; [reflexivity|]. intro Y. destruct X as (x & k' & d & A & B). destruct (Y _ _ _ A) as (k'' & d' & Z). destruct (B _ _ Z).
  - split; [|eauto]. intros (x & k' & d & A & B). destruct (X _ _ _ A) as (k'' & d' & Z). destruct (B _ _ Z).
Qed.
Print Assumptions C37_panics_iff_missing.
(** So the property is false: the older tree as the newer one. *)
Theorem C37_deletion_refuted :
  exists (E : Env) k k0 w x, tidy w k /\ tidy w k0 /\ no_coll (w_hashed w) /\ w_faults w = [] /\ (exists k' d, in_tree w k0 x k' d) /\
    (exists m w1, walk_fs_items sqlite_ds k w = (Done m, w1)) /\
    fst (compare sqlite_ds (TDatabase k) (Some k0) w) = Panicked PIndex.
Proof.
  exists toy_env, dx_k1, dx_k2, (snd dx_put2), [str "sub"].
  split; [apply (C36_inserted_trees_tidy _ _ _ _ _ _ _ dx_snap1 dx_log)|]. split; [apply (C36_inserted_trees_tidy _ _ _ _ _ _ _ dx_snap2 dx_log)|].
  split; [exact dx_log|]. split; [vm_compute; reflexivity|].
  split; [apply (proj2 (proj2 (snapshot_tree _ _ _ _ _ _ steady_toy dx_log dx_snap2)) [str "sub"] EDir); [|discriminate]; split; [vm_compute; reflexivity|]|].
  { intros r1 r2 _ _ [(r' & Q)|(g & [] & _)]. vm_compute in Q. discriminate Q. }
  split; [|vm_compute; reflexivity]. eexists _, _. vm_compute. reflexivity.
Qed.
Print Assumptions C37_deletion_refuted.
(** Likewise for a directory on disk: a file was removed. *)
Theorem C37_deleted_file_refuted :
  exists (E : Env) w0 p fo k w x e, steady_reads /\ snapshot w0 [] fo p k w /\ in_order w /\ no_coll (w_hashed w) /\ w_faults w = [] /\
    snapped w0 [] fo p x e /\ (forall e', ~ on_disk [] fo p w x e') /\
    fst (compare sqlite_ds (TFileSystem p [] fo) (Some k) w) = Panicked PIndex.
Proof.
  exists toy_env, (set_fs (snd dx_put1) dx_fs2), dx_src, dx_folder, dx_k2, (set_fs (snd dx_put2) (dx_fs (str "HELLO") [])), [str "sub"], EDir.
  split; [exact steady_toy|]. split; [exact (snapshot_now 10 _ _ _ _ _ _ _ dx_work2 (fs_okb_ok dx_fs2 eq_refl) dx_put2_done)|].
  split; [apply in_order_now; vm_compute; reflexivity|]. split; [exact (log_set_fs _ _ dx_log)|]. split; [vm_compute; reflexivity|].
  split; [split; [vm_compute; reflexivity|]; intros r1 r2 _ _ [(r' & Q)|(g & [] & _)]; vm_compute in Q; discriminate Q|].
  split; [|vm_compute; reflexivity]. intros e' (_ & L & _). vm_compute in L. discriminate L.
Qed.
Print Assumptions C37_deleted_file_refuted.
Example C37_example :
  in_order (set_fs (snd dx_put2) dx_fs2) /\ tidy (set_fs (snd dx_put2) dx_fs2) dx_k1 /\
  fst (compare sqlite_ds (TFileSystem dx_src [] dx_folder) (Some dx_k1) (set_fs (snd dx_put2) (dx_fs (str "hello") []))) = Done (DiffResult [] [] []).
Proof.
  split; [apply in_order_now; vm_compute; reflexivity|].
  split; [apply dx_tidy1|vm_compute; reflexivity].
Qed.

(** C38: the key reported for an added file is that of the file with the same
    relative path below the current directory ... *)
Theorem C38_added_key_from_cwd :
  forall (E : Env) to p ex fo w r w', steady_reads -> in_order w -> tidy_of w to ->
  compare sqlite_ds (TFileSystem p ex fo) to w = (Done r, w') ->
  forall a, In a (df_added r) -> ad_isdir a = false ->
  exists x e c st k, ad_path a = named x /\ on_disk ex fo p w x e /\ lookup (w_fs w) (w_cwd w ++ x) = Some (EFile c st) /\
    ad_key a = Some k /\ hashed_as (w_hashed w') c k.
Proof. intros E to p ex fo w r w' St O T. exact (added_keys w to p ex fo r w' St O T). Qed.
Print Assumptions C38_added_key_from_cwd.
(** ... so it is right when the compared directory is the current one ... *)
Theorem C38_added_key_right_in_cwd :
  forall (E : Env) to p ex fo w r w', steady_reads -> in_order w -> tidy_of w to -> locate (w_cwd w) p = w_cwd w ->
  compare sqlite_ds (TFileSystem p ex fo) to w = (Done r, w') ->
  forall a, In a (df_added r) -> ad_isdir a = false ->
  exists x c st k, ad_path a = named x /\ on_disk ex fo p w x (EFile c st) /\ ad_key a = Some k /\ hashed_as (w_hashed w') c k.
Proof.
  intros E to p ex fo w r w' St O T Q H a I D. destruct (added_keys w to p ex fo r w' St O T H a I D) as (x & e & c & st & k & P & (X & L & J) & L' & A & B).
  exists x, c, st, k. rewrite <- Q in L' at 1. repeat split; auto.
Qed.
Print Assumptions C38_added_key_right_in_cwd.
(** ... and wrong otherwise: "n" added to "src" while another "n" is in the current
    directory; ... *)
Definition dx_new : fs := dx_fs (str "hello") [([str "src"; str "n"], EFile (str "fresh") (Stamp 4 0))].
Definition dx_added : outcome diff_result * world := compare sqlite_ds (TFileSystem dx_src [] dx_folder) (Some dx_k1) (set_fs (snd dx_put2) dx_new).
Lemma dx_added_done : compare sqlite_ds (TFileSystem dx_src [] dx_folder) (Some dx_k1) (set_fs (snd dx_put2) dx_new) = (Done (diff_of (fst dx_added)), snd dx_added).
Proof. vm_compute. reflexivity. Qed.
Theorem C38_added_key_refuted :
  exists (E : Env) k p fo w r w' a x c st k', steady_reads /\ in_order w /\ tidy w k /\ no_coll (w_hashed w') /\ w_faults w = [] /\
    compare sqlite_ds (TFileSystem p [] fo) (Some k) w = (Done r, w') /\ In a (df_added r) /\ ad_path a = named x /\ on_disk [] fo p w x (EFile c st) /\
    ad_key a = Some k' /\
    fst (put_fs_item sqlite_ds 10 (Path false (p_comps p ++ map Normal x) false) (filter_fn [] fo) w) <> Done k'.
Proof.
  exists toy_env, dx_k1, dx_src, dx_folder, (set_fs (snd dx_put2) dx_new), (diff_of (fst dx_added)), (snd dx_added),
    (hd (Added (named []) true None) (df_added (diff_of (fst dx_added)))), [str "n"], (str "fresh"), (Stamp 4 0).
  assert (X : exists k', ad_key (hd (Added (named []) true None) (df_added (diff_of (fst dx_added)))) = Some k' /\
    fst (put_fs_item sqlite_ds 10 (Path false (p_comps dx_src ++ map Normal [str "n"]) false) (filter_fn [] dx_folder) (set_fs (snd dx_put2) dx_new)) <> Done k').
  { eexists. split; [vm_compute; reflexivity|]. vm_compute. discriminate. }
  destruct X as (k' & X1 & X2). exists k'. split; [exact steady_toy|].
  split; [apply in_order_now; vm_compute; reflexivity|].
  split; [apply dx_tidy1|].
  split; [apply logb_ok; vm_compute; reflexivity|]. split; [vm_compute; reflexivity|]. split; [exact dx_added_done|].
  split; [vm_compute; left; reflexivity|]. split; [vm_compute; reflexivity|].
  split; [apply on_disk_now; [vm_compute; reflexivity|discriminate|vm_compute; reflexivity|intros r1 r2 _ _ [(r' & Q)|(g & [] & _)]; vm_compute in Q; discriminate Q]|].
  split; [exact X1|exact X2].
Qed.
Print Assumptions C38_added_key_refuted.
(** ... with no such file there, comparing panics. *)
Theorem C38_added_file_panic_refuted :
  exists (E : Env) k p fo w x c st, steady_reads /\ in_order w /\ tidy w k /\ w_faults w = [] /\ on_disk [] fo p w x (EFile c st) /\
    fst (compare sqlite_ds (TFileSystem p [] fo) (Some k) w) = Panicked PExplicit.
Proof.
  exists toy_env, dx_k1, dx_src, dx_folder, (set_fs (snd dx_put2) (dx_fs (str "hello") [([str "src"; str "m"], EFile (str "fresh") (Stamp 4 0))])), [str "m"], (str "fresh"), (Stamp 4 0).
  split; [exact steady_toy|]. split; [apply in_order_now; vm_compute; reflexivity|].
  split; [apply dx_tidy1|].
  split; [vm_compute; reflexivity|]. 
  split; [apply on_disk_now; [vm_compute; reflexivity|discriminate|vm_compute; reflexivity|intros r1 r2 _ _ [(r' & Q)|(g & [] & _)]; vm_compute in Q; discriminate Q]|].
  vm_compute. reflexivity.
Qed.
Print Assumptions C38_added_file_panic_refuted.
(** With "src" as the current directory. *)
Definition in_cwd (w : world) (l : loc) : world :=
  World (w_fs w) l (w_dbs w) (w_conn w) (w_txn w) (w_cache w) (w_ctxn w) (w_faults w) (w_out w) (w_hashed w) (w_tick w).
Definition dx_here : world := set_fs (in_cwd (snd dx_put2) [str "src"]) dx_new.
Definition dx_added2 : outcome diff_result * world := compare sqlite_ds (TFileSystem (parse_path (str ".")) [] (parse_path (str "../db"))) (Some dx_k1) dx_here.
Example C38_example :
  locate (w_cwd dx_here) (parse_path (str ".")) = w_cwd dx_here /\ in_order dx_here /\
  map ad_path (df_added (diff_of (fst dx_added2))) = [named [str "n"]] /\
  map ad_key (df_added (diff_of (fst dx_added2))) = [match fst (put_fs_item sqlite_ds 10 (parse_path (str "n")) (filter_fn [] (parse_path (str "../db"))) dx_here) with Done k => Some k | _ => None end].
Proof.
  split; [reflexivity|]. split; [apply in_order_now; vm_compute; reflexivity|]. vm_compute. auto.
Qed.

(** C39: with the cache right, a comparison that reports nothing means that what is
    on disk is what was in the snapshot, except that a directory may have replaced
    a file; ... *)
Theorem C39_clean_means_same :
  forall (E : Env) w0 ex0 fo0 p0 k w p ex fo r w', steady_reads -> snapshot w0 ex0 fo0 p0 k w -> in_order w ->
  compare sqlite_ds (TFileSystem p ex fo) (Some k) w = (Done r, w') -> no_coll (w_hashed w') ->
  (forall x c st, on_disk ex fo p w x (EFile c st) -> keeps_data c) -> (forall x c st, snapped w0 ex0 fo0 p0 x (EFile c st) -> keeps_data c) ->
  nothing_differs r ->
  (forall x e, on_disk ex fo p w x e -> exists e0, snapped w0 ex0 fo0 p0 x e0 /\
     (e = EDir \/ exists c st st0, e = EFile c st /\ e0 = EFile c st0)) /\
  (forall x e0, snapped w0 ex0 fo0 p0 x e0 -> (x = [] -> e0 <> EDir) -> exists e, on_disk ex fo p w x e).
Proof. intros E w0 ex0 fo0 p0 k w p ex fo r w'. apply clean_same. Qed.
Print Assumptions C39_clean_means_same.
(** ... and a comparison of the same tree that succeeds reports nothing. *)
Theorem C39_same_means_clean :
  forall (E : Env) w0 ex0 fo0 p0 k w p ex fo r w', steady_reads -> snapshot w0 ex0 fo0 p0 k w -> in_order w ->
  compare sqlite_ds (TFileSystem p ex fo) (Some k) w = (Done r, w') -> no_coll (w_hashed w') ->
  (forall x e, on_disk ex fo p w x e -> exists e0, snapped w0 ex0 fo0 p0 x e0 /\
     (e = EDir \/ exists c st st0, e = EFile c st /\ e0 = EFile c st0)) ->
  nothing_differs r.
Proof. intros E w0 ex0 fo0 p0 k w p ex fo r w'. apply same_clean. Qed.
Print Assumptions C39_same_means_clean.
(** The exception does happen: "a" replaced by an empty directory. *)
Definition dx_dir : fs := [([str "db"], EDir); ([str "src"], EDir); ([str "src"; str "a"], EDir)].
Definition dx_clean : outcome diff_result * world := compare sqlite_ds (TFileSystem dx_src [] dx_folder) (Some dx_k1) (set_fs (snd dx_put1) dx_dir).
Lemma dx_clean_done : compare sqlite_ds (TFileSystem dx_src [] dx_folder) (Some dx_k1) (set_fs (snd dx_put1) dx_dir) = (Done (diff_of (fst dx_clean)), snd dx_clean).
Proof. vm_compute. reflexivity. Qed.
Theorem C39_file_to_directory_refuted :
  exists (E : Env) w0 p fo k w r w' x c st, steady_reads /\ snapshot w0 [] fo p k w /\ in_order w /\ no_coll (w_hashed w') /\
    compare sqlite_ds (TFileSystem p [] fo) (Some k) w = (Done r, w') /\ nothing_differs r /\
    snapped w0 [] fo p x (EFile c st) /\ on_disk [] fo p w x EDir.
Proof.
  exists toy_env, dx_w, dx_src, dx_folder, dx_k1, (set_fs (snd dx_put1) dx_dir), (diff_of (fst dx_clean)), (snd dx_clean), [str "a"], (str "hello"), (Stamp 1 0).
  assert (J : included (E := toy_env) [] [str "db"] dx_src [str "src"] [str "a"]).
  { intros r1 r2 _ _ [(r' & Q)|(g & [] & _)]. discriminate Q. }
  split; [exact steady_toy|].
  split; [exact (snapshot_now 10 _ _ _ _ _ _ _ (wk_session _ dx_session) (fs_okb_ok (dx_fs (str "hello") []) eq_refl) dx_put1_done)|].
  split; [apply in_order_now; vm_compute; reflexivity|]. split; [apply logb_ok; vm_compute; reflexivity|]. split; [exact dx_clean_done|].
  split; [split; [|split]; vm_compute; reflexivity|]. split; [split; [reflexivity|exact J]|]. apply on_disk_now; [vm_compute; reflexivity|discriminate|vm_compute; reflexivity|exact J].
Qed.
Print Assumptions C39_file_to_directory_refuted.
(** A snapshot compared with itself. *)
Definition dx_same : outcome diff_result * world := compare sqlite_ds (TFileSystem dx_src [] dx_folder) (Some dx_k1) (set_fs (snd dx_put1) (dx_fs (str "hello") [])).
Example C39_example :
  snapshot dx_w [] dx_folder dx_src dx_k1 (set_fs (snd dx_put1) (dx_fs (str "hello") [])) /\ in_order (set_fs (snd dx_put1) (dx_fs (str "hello") [])) /\
  no_coll (w_hashed (snd dx_same)) /\ fst dx_same = Done (DiffResult [] [] []) /\ keeps_data (str "hello").
Proof.
  split; [exact (snapshot_now 10 _ _ _ _ _ _ _ (wk_session _ dx_session) (fs_okb_ok (dx_fs (str "hello") []) eq_refl) dx_put1_done)|].
  split; [apply in_order_now; vm_compute; reflexivity|]. split; [apply logb_ok; vm_compute; reflexivity|]. split; [vm_compute; reflexivity|apply keeps_small; reflexivity].
Qed.
