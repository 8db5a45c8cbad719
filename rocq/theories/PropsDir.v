(** Properties C24-C30: storing, fetching and listing directories. *)
From Verif Require Import Base BaseFacts Key Cbor Object Path World WorldFacts Store File Filter Dir Main SpecStore StoreCalls SpecTrace SpecRun SpecFile SpecDir
  ObjStoreFacts FileRun SessionFacts FsFacts DirPlan DirFacts GetFacts DirTrip DirTree DirWalk WalkFacts DirLive Toy.

(** The directory used in the examples: two files, one in a subdirectory, and an
    empty directory; next to it a database folder. *)
Definition ex_stamp : stamp := Stamp 1 0.
Definition ex_fs : fs :=
  [([str "db"], EDir); ([str "src"], EDir); ([str "src"; str "a"], EFile (str "hello") ex_stamp); ([str "src"; str "sub"], EDir);
   ([str "src"; str "sub"; str "b"], EFile (str "world") ex_stamp); ([str "src"; str "empty"], EDir)].
Definition ex_w : world := set_conn (close_all (set_fs toy_world ex_fs)) [str "db"].
Notation ex_filter := (filter_fn [] (parse_path (str "db"))).
Lemma ex_w_session : session ex_w.
Proof. exists (set_fs toy_world ex_fs), [str "db"], []. split; [constructor; reflexivity|reflexivity]. Qed.
Lemma ex_fs_ok : fs_ok ex_fs.
Proof.
  split.
  - cbn. repeat constructor; cbn; intros H; repeat (destruct H as [H|H]; [discriminate H|]); exact H.
  - intros l e H. cbn in H.
    assert (E1 : forall n : name, In n [str "db"; str "src"; str "a"; str "sub"; str "b"; str "empty"] -> entry_name n).
    { intros n I. cbn in I. repeat (destruct I as [<-|I]; [|]); [..|destruct I]; (repeat split; try discriminate; cbn; intuition discriminate). }
    repeat (destruct H as [H|H]; [injection H as <- <-; (split; [discriminate|]); (split; [|reflexivity]); repeat constructor; apply E1; cbn; tauto|]). destruct H.
Qed.
Lemma ex_lossless : lossless_below (E := toy_env) ex_fs [str "src"].
Proof.
  apply lossless_small_below. intros r c Hc. unfold content in Hc. match type of Hc with context [lookup ?f ?x] => destruct (lookup f x) as [[|d st| |]|] eqn:L end; try discriminate.
  injection Hc as ->. apply assoc_loc_in in L. apply Nat.lt_trans with 6.
  - cbn in L. repeat (destruct L as [L|L]; [try discriminate L; injection L as _ <- <-; cbn; auto with arith|]). destruct L.
  - unfold chunk_max. rewrite <- (Nat2N.id 6) at 1. apply Nat.compare_lt_iff. rewrite <- N2Nat.inj_compare. reflexivity.
Qed.
(** What the insertion of "src" gives. *)
Definition ex_put : outcome key * world := put_fs_item sqlite_ds 10 (parse_path (str "src")) ex_filter ex_w.
Definition ex_key : key := match fst ex_put with Done k => k | _ => Blake3B (toy_hash []) end.
Lemma ex_put_done : put_fs_item sqlite_ds 10 (parse_path (str "src")) ex_filter ex_w = (Done ex_key, snd ex_put).
Proof. vm_compute. reflexivity. Qed.
Lemma ex_no_coll : no_coll (w_hashed (snd ex_put)).
Proof.
  apply no_coll_nodup. cut (NoDup (map arr (map blake3 (w_hashed (snd ex_put))))); [apply NoDup_map_inv|].
  vm_compute. repeat constructor; cbn; intros H; repeat (destruct H as [H|H]; [discriminate H|]); exact H.
Qed.
Definition ex_get : outcome unit * world := get_fs_item sqlite_ds 10 ex_key (parse_path (str "out/x")) (snd ex_put).
Lemma ex_get_done : get_fs_item sqlite_ds 10 ex_key (parse_path (str "out/x")) (snd ex_put) = (Done tt, snd ex_get).
Proof. vm_compute. reflexivity. Qed.
Lemma ex_free : free (w_fs (snd ex_put)) [str "out"; str "x"].
Proof.
  intro r. destruct (lookup (w_fs (snd ex_put)) ([str "out"; str "x"] ++ r)) eqn:L; [exfalso|reflexivity]. apply assoc_loc_in in L.
  vm_compute in L. repeat (destruct L as [L|L]; [discriminate L|]). exact L.
Qed.
Lemma ex_included r : included (E := toy_env) [] [str "db"] (parse_path (str "src")) [str "src"] r.
Proof. intros r1 r2 _ _ [(r' & H)|(g & [] & _)]. discriminate. Qed.

(** C24: after an insertion returned a key, fetching the key into a place where
    nothing is gives there exactly the files that were inserted and not excluded,
    with their bytes; everything that existed stays; and what is new is below the
    destination or a directory leading to it. *)
Theorem C24_insert_fetch :
  forall (E : Env) fuel p ex db (w : world) k w1 w2 fuel' q w3,
  session w -> fs_ok (w_fs w) ->
  put_fs_item sqlite_ds fuel p (filter_fn ex db) w = (Done k, w1) ->
  no_coll (w_hashed w1) -> lossless_below (w_fs w) (locate (w_cwd w) p) ->
  still_stored w1 w2 ->
  get_fs_item sqlite_ds fuel' k q w2 = (Done tt, w3) ->
  free (w_fs w2) (locate (w_cwd w2) q) ->
  let src := locate (w_cwd w) p in
  let out := locate (w_cwd w2) q in
  (forall r c, content (w_fs w3) (out ++ r) = Some c <->
     content (w_fs w) (src ++ r) = Some c /\ included ex (locate (w_cwd w) db) p src r) /\
  (forall x e, lookup (w_fs w2) x = Some e -> lookup (w_fs w3) x = Some e) /\
  (forall x, lookup (w_fs w2) x = None -> lookup (w_fs w3) x <> None ->
     (exists r, x = out ++ r) \/
     (lookup (w_fs w3) x = Some EDir /\ exists a b, p_comps q = a ++ b /\ x = locate (w_cwd w2) (Path (p_abs q) a false))).
Proof.
  intros E fuel p ex db w k w1 w2 fuel' q w3 S O H NC L R G Fr.
  destruct (insert_fetch fuel p ex db w k w1 w2 fuel' q w3 (session_ok w S) O H NC L R G) as (fl & M & HF).
  exact (round_files _ _ _ _ _ _ _ _ HF M Fr).
Qed.
Print Assumptions C24_insert_fetch.
Example C24_example :
  session ex_w /\ fs_ok (w_fs ex_w) /\
  put_fs_item sqlite_ds 10 (parse_path (str "src")) ex_filter ex_w = (Done ex_key, snd ex_put) /\ no_coll (w_hashed (snd ex_put)) /\
  lossless_below (w_fs ex_w) (locate (w_cwd ex_w) (parse_path (str "src"))) /\ still_stored (snd ex_put) (snd ex_put) /\
  get_fs_item sqlite_ds 10 ex_key (parse_path (str "out/x")) (snd ex_put) = (Done tt, snd ex_get) /\ free (w_fs (snd ex_put)) (locate (w_cwd (snd ex_put)) (parse_path (str "out/x"))) /\
  content (w_fs (snd ex_get)) [str "out"; str "x"; str "sub"; str "b"] = Some (str "world").
Proof.
  split; [exact ex_w_session|]. split; [exact ex_fs_ok|]. split; [exact ex_put_done|]. split; [exact ex_no_coll|]. split; [exact ex_lossless|].
  split; [exact (fun k v H => H)|]. split; [exact ex_get_done|]. split; [exact ex_free|]. vm_compute. reflexivity.
Qed.

(** Both do succeed when nothing fails: the insertion if everything below the path
    is a file or a directory, names are valid, and neither depth nor sizes are
    excessive, ... *)
Theorem C24_insert_succeeds :
  forall (E : Env) fuel p ex db (w : world) e,
  w_faults w = [] ->
  stat (w_fs w) (w_cwd w) p = Some (locate (w_cwd w) p, e) ->
  (exists l e', stat (w_fs w) (w_cwd w) db = Some (l, e') /\ e' <> EDangling) ->
  storable (w_fs w) (locate (w_cwd w) p) fuel ->
  exists k w1, put_fs_item sqlite_ds fuel p (filter_fn ex db) w = (Done k, w1) /\ w_faults w1 = [].
Proof. exact @insert_live. Qed.
Print Assumptions C24_insert_succeeds.
(** ... and the fetch if the destination [d/n] does not exist in an existing
    directory [d]. *)
Theorem C24_fetch_succeeds :
  forall (E : Env) fuel p ex db (w : world) k w1 w2 fuel' d n depth,
  session w -> fs_ok (w_fs w) ->
  put_fs_item sqlite_ds fuel p (filter_fn ex db) w = (Done k, w1) ->
  no_coll (w_hashed w1) -> lossless_below (w_fs w) (locate (w_cwd w) p) ->
  storable (w_fs w) (locate (w_cwd w) p) depth ->
  still_stored w1 w2 -> w_faults w2 = [] -> depth + 6 <= fuel' ->
  walk_comps (w_fs w2) (if p_abs d then [] else w_cwd w2) (p_comps d) = Some (locate (w_cwd w2) d) ->
  lookup (w_fs w2) (locate (w_cwd w2) d) = Some EDir -> free (w_fs w2) (locate (w_cwd w2) (path_push d n)) ->
  exists w3, get_fs_item sqlite_ds fuel' k (path_push d n) w2 = (Done tt, w3) /\ w_faults w3 = [].
Proof.
  intros E fuel p ex db w k w1 w2 fuel' d n depth S.
  exact (fetch_live fuel p ex db w k w1 w2 fuel' d n depth (session_ok w S)).
Qed.
Print Assumptions C24_fetch_succeeds.
Lemma ex_storable : storable ex_fs [str "src"] 4.
Proof.
  intros r e L. apply assoc_loc_in in L. cbn in L.
  repeat (destruct L as [L|L]; [try discriminate L; injection L as <- <-; cbn; repeat split; auto with arith; repeat constructor|]). destruct L.
Qed.
Example C24_succeeds_example :
  w_faults ex_w = [] /\ storable (w_fs ex_w) [str "src"] 4 /\
  stat (w_fs ex_w) (w_cwd ex_w) (parse_path (str "src")) = Some ([str "src"], EDir) /\
  stat (w_fs ex_w) (w_cwd ex_w) (parse_path (str "db")) = Some ([str "db"], EDir) /\
  walk_comps (w_fs (snd ex_put)) (w_cwd (snd ex_put)) [] = Some [] /\ lookup (w_fs (snd ex_put)) [] = Some EDir /\
  lookup (w_fs (snd ex_put)) [str "out"] = None.
Proof.
  split; [reflexivity|]. split; [exact ex_storable|]. vm_compute. repeat split.
Qed.

(** C25: the property would be: a directory below the inserted path that is not
    excluded exists after fetching.  What holds: below the destination exactly
    those directories exist that contain (at any depth) a file that was stored. *)
Theorem C25_directories :
  forall (E : Env) fuel p ex db (w : world) k w1 w2 fuel' q w3,
  session w -> fs_ok (w_fs w) ->
  put_fs_item sqlite_ds fuel p (filter_fn ex db) w = (Done k, w1) ->
  no_coll (w_hashed w1) -> lossless_below (w_fs w) (locate (w_cwd w) p) ->
  still_stored w1 w2 ->
  get_fs_item sqlite_ds fuel' k q w2 = (Done tt, w3) ->
  free (w_fs w2) (locate (w_cwd w2) q) -> ~ In ParentDir (p_comps q) ->
  let src := locate (w_cwd w) p in
  forall r, lookup (w_fs w3) (locate (w_cwd w2) q ++ r) = Some EDir <->
    exists n r' c, content (w_fs w) (src ++ r ++ n :: r') = Some c /\ included ex (locate (w_cwd w) db) p src (r ++ n :: r').
Proof.
  intros E fuel p ex db w k w1 w2 fuel' q w3 S O H NC L R G Fr NP src r.
  destruct (insert_fetch fuel p ex db w k w1 w2 fuel' q w3 (session_ok w S) O H NC L R G) as (fl & M & HF).
  pose proof (round_dirs _ _ _ _ _ M Fr NP r) as D.
  split; [intro X; apply D in X as (n & r' & c & I); exists n, r', c; apply HF, I|].
  intros (n & r' & c & I). apply D. exists n, r', c. apply HF, I.
Qed.
Print Assumptions C25_directories.
(** The hypotheses are those of C24's example; "sub" has a file and is there, "empty"
    has none and is not. *)
Example C25_example :
  session ex_w /\ put_fs_item sqlite_ds 10 (parse_path (str "src")) ex_filter ex_w = (Done ex_key, snd ex_put) /\
  get_fs_item sqlite_ds 10 ex_key (parse_path (str "out/x")) (snd ex_put) = (Done tt, snd ex_get) /\ ~ In ParentDir (p_comps (parse_path (str "out/x"))) /\
  map (lookup (w_fs ex_w)) [[str "src"; str "sub"]; [str "src"; str "empty"]] = [Some EDir; Some EDir] /\
  map (lookup (w_fs (snd ex_get))) [[str "out"; str "x"; str "sub"]; [str "out"; str "x"; str "empty"]] = [Some EDir; None].
Proof.
  split; [exact ex_w_session|]. split; [exact ex_put_done|]. split; [exact ex_get_done|]. split; [cbn; intuition discriminate|]. split; vm_compute; reflexivity.
Qed.
Theorem C25_empty_directories_refuted :
  exists (E : Env) fuel p ex db (w : world) k w1 fuel' q w3 r,
    session w /\ fs_ok (w_fs w) /\ w_faults w = [] /\
    put_fs_item sqlite_ds fuel p (filter_fn ex db) w = (Done k, w1) /\
    no_coll (w_hashed w1) /\ lossless_below (w_fs w) (locate (w_cwd w) p) /\
    get_fs_item sqlite_ds fuel' k q w1 = (Done tt, w3) /\
    free (w_fs w1) (locate (w_cwd w1) q) /\ ~ In ParentDir (p_comps q) /\
    lookup (w_fs w) (locate (w_cwd w) p ++ r) = Some EDir /\ included ex (locate (w_cwd w) db) p (locate (w_cwd w) p) r /\
    lookup (w_fs w3) (locate (w_cwd w1) q ++ r) = None.
Proof.
  exists toy_env, 10, (parse_path (str "src")), [], (parse_path (str "db")), ex_w, ex_key, (snd ex_put), 10, (parse_path (str "out/x")), (snd ex_get), [str "empty"].
  split; [exact ex_w_session|]. split; [exact ex_fs_ok|]. split; [reflexivity|]. split; [exact ex_put_done|]. split; [exact ex_no_coll|].
  split; [exact ex_lossless|]. split; [exact ex_get_done|]. split; [exact ex_free|].
  split; [cbn; intuition discriminate|]. split; [reflexivity|]. split; [apply ex_included|]. vm_compute. reflexivity.
Qed.
Print Assumptions C25_empty_directories_refuted.

(** C26: whatever is stored under the key, and however the fetch ends, everything
    that existed still exists unchanged. *)
Theorem C26_never_overwrites :
  forall (E : Env) fuel k q (w : world) x e,
  lookup (w_fs w) x = Some e ->
  lookup (w_fs (snd (get_fs_item sqlite_ds fuel k q w))) x = Some e.
Proof. exact @fetch_keeps. Qed.
Print Assumptions C26_never_overwrites.
(** Fetching over existing files: they stay, the fetch fails. *)
Example C26_example :
  lookup (w_fs (snd ex_put)) [str "src"; str "a"] = Some (EFile (str "hello") ex_stamp) /\
  fst (get_fs_item sqlite_ds 10 ex_key (parse_path (str "src")) (snd ex_put)) = Error EIo.
Proof. vm_compute. split; reflexivity. Qed.

(** C27: the property would be: fetching any key creates files only below the
    destination (and directories leading there).  This holds if all names in the
    directories stored under the key are proper ... *)
Theorem C27_stays_inside :
  forall (E : Env) fuel k q (w : world) x,
  proper_names w k ->
  let f' := w_fs (snd (get_fs_item sqlite_ds fuel k q w)) in
  lookup f' x = lookup (w_fs w) x \/
  (lookup (w_fs w) x = None /\
   ((exists r, x = locate (w_cwd w) q ++ r) \/
    (lookup f' x = Some EDir /\ exists a b, p_comps q = a ++ b /\ x = locate (w_cwd w) (Path (p_abs q) a false)))).
Proof. exact @fetch_inside. Qed.
Print Assumptions C27_stays_inside.
(** ... which is so for every key an insertion returned, ... *)
Theorem C27_inserted_proper :
  forall (E : Env) fuel p ex db (w : world) k w1 w2,
  session w -> fs_ok (w_fs w) ->
  put_fs_item sqlite_ds fuel p (filter_fn ex db) w = (Done k, w1) -> no_coll (w_hashed w1) -> still_stored w1 w2 ->
  proper_names w2 k.
Proof. intros E fuel p ex db w k w1 w2 S. exact (put_proper fuel p ex db w k w1 w2 (session_ok w S)). Qed.
Print Assumptions C27_inserted_proper.
Example C27_example : proper_names (snd ex_put) ex_key.
Proof. exact (C27_inserted_proper toy_env _ _ _ _ _ _ _ _ ex_w_session ex_fs_ok ex_put_done ex_no_coll (fun k v H => H)). Qed.
(** ... but not for every store: a directory object with the name "../../evil". *)
Definition evil_file : outcome key * world := put_item sqlite_ds (file_item 1 (obj_key (Object (str "!") [] FileBlob))) (snd (put_obj sqlite_ds (Object (str "!") [] FileBlob) ex_w)).
Definition evil_dir : outcome key * world :=
  match fst evil_file with Done k => put_item sqlite_ds (dir_item [str "../../evil"] [k]) (snd evil_file) | o => (o, snd evil_file) end.
Theorem C27_stays_inside_refuted :
  exists (E : Env) fuel k q (w : world) x c st,
    fs_ok (w_fs w) /\
    fst (get_fs_item sqlite_ds fuel k q w) = Done tt /\
    lookup (w_fs w) x = None /\ lookup (w_fs (snd (get_fs_item sqlite_ds fuel k q w))) x = Some (EFile c st) /\
    forall r, x <> locate (w_cwd w) q ++ r.
Proof.
  destruct (fst evil_dir) as [k| | | |] eqn:Q; [|exfalso; vm_compute in Q; discriminate ..].
  exists toy_env, 10, k, (parse_path (str "src/sub")), (snd evil_dir), [str "evil"], (str "!").
  vm_compute in Q. inversion Q; subst k. eexists. split; [exact ex_fs_ok|].
  split; [vm_compute; reflexivity|]. split; [vm_compute; reflexivity|]. split; [vm_compute; reflexivity|].
  intros r H. discriminate.
Qed.
Print Assumptions C27_stays_inside_refuted.

(** C28: following names in a stored tree leads somewhere exactly for the entries
    of the file system that are not excluded; directories are stored as
    directories, files with their size and their bytes. *)
Theorem C28_stored_exactly :
  forall (E : Env) fuel p ex db (w : world) k w1 w2,
  session w -> fs_ok (w_fs w) ->
  put_fs_item sqlite_ds fuel p (filter_fn ex db) w = (Done k, w1) -> no_coll (w_hashed w1) -> still_stored w1 w2 ->
  let l := locate (w_cwd w) p in
  (forall r, (exists k', at_path w2 k r k') <->
     (exists e, lookup (w_fs w) (l ++ r) = Some e) /\ included ex (locate (w_cwd w) db) p l r) /\
  forall r k', at_path w2 k r k' ->
    (lookup (w_fs w) (l ++ r) = Some EDir /\ exists names kids, item_at w2 k' (dir_item names kids) /\ length kids = length names) \/
    (exists c st h, lookup (w_fs w) (l ++ r) = Some (EFile c st) /\ item_at w2 k' (file_item (wrap64 (lenN c)) h) /\
       ((forall t, lossless (segment (read_sizes t c) c)) -> reads_data w2 h c)).
Proof. intros E fuel p ex db w k w1 w2 S. exact (put_contents fuel p ex db w k w1 w2 (session_ok w S)). Qed.
Print Assumptions C28_stored_exactly.
(** With the database folder inside the inserted directory. *)
Definition ex_put_root : outcome key * world := put_fs_item sqlite_ds 10 (parse_path (str ".")) ex_filter ex_w.
Definition ex_root_key : key := match fst ex_put_root with Done k => k | _ => Blake3B (toy_hash []) end.
Lemma ex_put_root_done : put_fs_item sqlite_ds 10 (parse_path (str ".")) ex_filter ex_w = (Done ex_root_key, snd ex_put_root).
Proof. vm_compute. reflexivity. Qed.
Lemma ex_root_no_coll : no_coll (w_hashed (snd ex_put_root)).
Proof.
  apply no_coll_nodup. cut (NoDup (map arr (map blake3 (w_hashed (snd ex_put_root))))); [apply NoDup_map_inv|].
  vm_compute. repeat constructor; cbn; intros H; repeat (destruct H as [H|H]; [discriminate H|]); exact H.
Qed.
Example C28_example :
  excluded (E := toy_env) [] [str "db"] (parse_path (str ".")) [] [str "db"] /\
  (forall k', ~ at_path (snd ex_put_root) ex_root_key [str "db"] k') /\
  exists k', at_path (snd ex_put_root) ex_root_key [str "src"; str "a"] k'.
Proof.
  assert (X : excluded (E := toy_env) [] [str "db"] (parse_path (str ".")) [] [str "db"]) by (left; exists []; reflexivity).
  split; [exact X|].
  destruct (C28_stored_exactly toy_env _ _ _ _ _ _ _ (snd ex_put_root) ex_w_session ex_fs_ok ex_put_root_done ex_root_no_coll (fun k v H => H)) as [A _].
  split.
  - intros k' P. assert (Y : exists k', at_path (snd ex_put_root) ex_root_key [str "db"] k') by eauto. apply A in Y as [_ Y].
    exact (Y [str "db"] [] eq_refl ltac:(discriminate) X).
  - apply A. split; [eexists; reflexivity|]. intros r1 r2 H N [(r' & Z)|(g & [] & _)]. destruct r1 as [|n r1]; [congruence|]. inversion H; subst n. discriminate.
Qed.

(** C29: the property would be: directories with the same names and contents get
    the same key.  It holds if their entries are also enumerated in the same order
    (and the OS delivers the data of files in the same portions); which store is
    used, faults and times do not matter. *)
Theorem C29_key_of_content :
  forall (E : Env) s s' fuel fuel' p p' ex ex' db db' (w w' : world) k k' w1 w1',
  (s = sqlite_ds \/ s = null_ds) -> (s' = sqlite_ds \/ s' = null_ds) ->
  (forall i j c, read_sizes i c = read_sizes j c) ->
  put_fs_item s fuel p (filter_fn ex db) w = (Done k, w1) ->
  put_fs_item s' fuel' p' (filter_fn ex' db') w' = (Done k', w1') ->
  let l := locate (w_cwd w) p in
  let l' := locate (w_cwd w') p' in
  same_files (w_fs w) l (w_fs w') l' -> same_order (w_fs w) l (w_fs w') l' ->
  (forall r, r <> [] -> excluded ex (locate (w_cwd w) db) p l r <-> excluded ex' (locate (w_cwd w') db') p' l' r) ->
  k = k'.
Proof.
  intros E s s' fuel fuel' p p' ex ex' db db' w w' k k' w1 w1' Hs Hs'.
  apply put_key_fun; [destruct Hs as [->| ->]; [apply DirFacts.quiet_sqlite|apply quiet_null]|destruct Hs' as [->| ->]; [apply DirFacts.quiet_sqlite|apply quiet_null]].
Qed.
Print Assumptions C29_key_of_content.
Definition ord_fs (a b : bytes) : fs :=
  [([str "db"], EDir); ([str "d"], EDir); ([str "d"; a], EFile a ex_stamp); ([str "d"; b], EFile b ex_stamp)].
Definition ord_w (a b : bytes) : world := set_conn (close_all (set_fs toy_world (ord_fs a b))) [str "db"].
Definition ord_put (a b : bytes) : outcome key * world := put_fs_item sqlite_ds 10 (parse_path (str "d")) ex_filter (ord_w a b).
Definition ord_key (a b : bytes) : key := match fst (ord_put a b) with Done k => k | _ => Blake3B (toy_hash []) end.
Lemma ord_put_xy : put_fs_item sqlite_ds 10 (parse_path (str "d")) ex_filter (ord_w (str "x") (str "y")) = (Done (ord_key (str "x") (str "y")), snd (ord_put (str "x") (str "y"))).
Proof. vm_compute. reflexivity. Qed.
Lemma ord_put_yx : put_fs_item sqlite_ds 10 (parse_path (str "d")) ex_filter (ord_w (str "y") (str "x")) = (Done (ord_key (str "y") (str "x")), snd (ord_put (str "y") (str "x"))).
Proof. vm_compute. reflexivity. Qed.
Lemma ord_keys : ord_key (str "x") (str "y") <> ord_key (str "y") (str "x").
Proof. vm_compute. discriminate. Qed.
(** The same directory, inserted at a place where the database holds something
    else already, with the other store. *)
Example C29_example :
  exists k, fst ex_put = Done k /\ fst (put_fs_item null_ds 12 (parse_path (str "./src")) ex_filter (snd ex_put)) = Done k.
Proof. eexists. split; [reflexivity|]. vm_compute. reflexivity. Qed.
Lemma ord_put_ok a b : (a, b) = (str "x", str "y") \/ (a, b) = (str "y", str "x") -> fs_ok (ord_fs a b).
Proof.
  intro H. assert (Hn : forall n, In n [str "db"; str "d"; a; b] -> entry_name n).
  { assert (X : forall n, In n [str "db"; str "d"; str "x"; str "y"] -> entry_name n).
    { intros n I. cbn in I. repeat (destruct I as [<-|I]; [|]); [..|destruct I]; (repeat split; try discriminate; cbn; intuition discriminate). }
    intros n I. apply X. destruct H as [H|H]; inversion H; subst; cbn in *; tauto. }
  split.
  - destruct H as [H|H]; inversion H; subst; cbn; repeat constructor; cbn; intros I; repeat (destruct I as [I|I]; [discriminate I|]); exact I.
  - intros l e I. cbn in I.
    repeat (destruct I as [I|I]; [injection I as <- <-; (split; [discriminate|]); (split; [|reflexivity]); repeat constructor; apply Hn; cbn; tauto|]). destruct I.
Qed.
Theorem C29_key_of_content_refuted :
  exists (E : Env) fuel p ex db (w w' : world) k k' w1 w1',
    (forall i j c, read_sizes i c = read_sizes j c) /\ fs_ok (w_fs w) /\ fs_ok (w_fs w') /\ session w /\ session w' /\
    put_fs_item sqlite_ds fuel p (filter_fn ex db) w = (Done k, w1) /\
    put_fs_item sqlite_ds fuel p (filter_fn ex db) w' = (Done k', w1') /\
    w_cwd w = w_cwd w' /\ same_files (w_fs w) [] (w_fs w') [] /\ k <> k'.
Proof.
  exists toy_env, 10, (parse_path (str "d")), [], (parse_path (str "db")), (ord_w (str "x") (str "y")), (ord_w (str "y") (str "x")).
  exists (ord_key (str "x") (str "y")), (ord_key (str "y") (str "x")), (snd (ord_put (str "x") (str "y"))), (snd (ord_put (str "y") (str "x"))).
  split; [reflexivity|]. split; [|split; [|split; [|split; [|split; [exact ord_put_xy|split; [exact ord_put_yx|split; [reflexivity|split; [|exact ord_keys]]]]]]]].
  - apply (ord_put_ok (str "x") (str "y")). auto.
  - apply (ord_put_ok (str "y") (str "x")). auto.
  - exists (set_fs toy_world (ord_fs (str "x") (str "y"))), [str "db"], []. split; [constructor; reflexivity|reflexivity].
  - exists (set_fs toy_world (ord_fs (str "y") (str "x"))), [str "db"], []. split; [constructor; reflexivity|reflexivity].
  - intro r. cbn [app].
    destruct (loc_eq_dec r []) as [->|N0]; [exact I|]. destruct (loc_eq_dec r [str "db"]) as [->|N1]; [exact I|].
    destruct (loc_eq_dec r [str "d"]) as [->|N2]; [exact I|]. destruct (loc_eq_dec r [str "d"; str "x"]) as [->|N3]; [reflexivity|].
    destruct (loc_eq_dec r [str "d"; str "y"]) as [->|N4]; [reflexivity|].
    assert (X : forall a b, (a, b) = (str "x", str "y") \/ (a, b) = (str "y", str "x") -> lookup (ord_fs a b) r = None).
    { intros a b H. destruct (lookup (ord_fs a b) r) eqn:L; [exfalso|reflexivity]. rewrite lookup_cons in L by exact N0. apply assoc_loc_in in L.
      cbn in L. repeat (destruct L as [L|L]; [injection L as <- _; destruct H as [H|H]; inversion H; subst; contradiction|]). exact L. }
    change (match lookup (ord_fs (str "x") (str "y")) r with Some EDir => match lookup (ord_fs (str "y") (str "x")) r with Some EDir => True | _ => False end
      | Some (EFile c _) => match lookup (ord_fs (str "y") (str "x")) r with Some (EFile c' _) => c = c' | _ => False end
      | Some ESpecial => match lookup (ord_fs (str "y") (str "x")) r with Some ESpecial => True | _ => False end
      | Some EDangling => match lookup (ord_fs (str "y") (str "x")) r with Some EDangling => True | _ => False end
      | None => match lookup (ord_fs (str "y") (str "x")) r with None => True | _ => False end end).
    rewrite !X by auto. exact I.
Qed.
Print Assumptions C29_key_of_content_refuted.

(** C30: walking a stored tree and walking the directory it was made from give the
    same list of relative paths with the same directory flags ... *)
Theorem C30_walks_agree :
  forall (E : Env) fuel p ex db (w : world) k w1 w2 m w3 w4 m' w5,
  session w -> fs_ok (w_fs w) ->
  put_fs_item sqlite_ds fuel p (filter_fn ex db) w = (Done k, w1) -> no_coll (w_hashed w1) -> still_stored w1 w2 ->
  walk_fs_items sqlite_ds k w2 = (Done m, w3) ->
  w_fs w4 = w_fs w -> w_cwd w4 = w_cwd w -> walk_real_fs_items p (filter_fn ex db) w4 = (Done m', w5) ->
  m' = map (fun '(q, (_, d)) => (q, d)) m.
Proof. intros E fuel p ex db w k w1 w2 m w3 w4 m' w5 S. exact (walks_agree fuel p ex db w k w1 w2 m w3 w4 m' w5 (session_ok w S)). Qed.
Print Assumptions C30_walks_agree.
(** ... namely the entries that are not excluded, each once. *)
Theorem C30_walk_lists :
  forall (E : Env) ex db p (w : world) m w',
  fs_ok (w_fs w) -> walk_real_fs_items p (filter_fn ex db) w = (Done m, w') ->
  let l := locate (w_cwd w) p in
  NoDup (map fst m) /\
  forall q d, In (q, d) m <->
    exists r e, q = below path_empty r /\ r <> [] /\ lookup (w_fs w) (l ++ r) = Some e /\
      included ex (locate (w_cwd w) db) p l r /\ d = is_dir (w_fs w) (l ++ r).
Proof.
  intros E ex db p w m w' O H l. destruct (real_lists ex db p w m w' O H) as (_ & _ & N & I). exact (conj N I).
Qed.
Print Assumptions C30_walk_lists.
Example C30_example :
  let names m := map (fun x : path * (key * bool) => (path_text (fst x), snd (snd x))) m in
  (exists m w', walk_fs_items sqlite_ds ex_key (snd ex_put) = (Done m, w') /\
     names m = [(str "a", false); (str "sub", true); (str "sub/b", false); (str "empty", true)]) /\
  (exists m w', walk_real_fs_items (parse_path (str "src")) ex_filter ex_w = (Done m, w') /\ length m = 4).
Proof.
  split.
  - eexists _, _. split; [vm_compute; reflexivity|]. vm_compute. reflexivity.
  - eexists _, _. split; [vm_compute; reflexivity|]. reflexivity.
Qed.
