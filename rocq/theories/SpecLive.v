(** When the commands of src/main.rs are supposed to succeed. *)
From Verif Require Import Base Key Cbor Object Path World Store File Filter Dir Diff Main SpecStore StoreCalls SpecRun SpecProc SpecFile SpecDir SpecCache SpecDiff SpecClosure SpecShape.

Section SpecLive.
  Context {E : Env}.
  (** The entry at [r] of the directory at [l] (given as [p]) is come across: none
      of the directories it is in is excluded; it may be excluded itself. *)
  Definition reached (ex : list bytes) (dbl : loc) (p : path) (l : loc) (r : loc) : Prop :=
    forall r1 r2, r = r1 ++ r2 -> r1 <> [] -> r2 <> [] -> ~ excluded ex dbl p l r1.
  (** No link come across leads nowhere, and what is not excluded is a file or a
      directory, less than [depth] deep. *)
  Definition listable (ex : list bytes) (dbl : loc) (f : fs) (p : path) (l : loc) (depth : nat) : Prop :=
    forall r e, lookup f (l ++ r) = Some e -> reached ex dbl p l r ->
      e <> EDangling /\
      (included ex dbl p l r -> length r < depth /\ (e = EDir \/ exists c st, e = EFile c st)).
  (** The names of what is not excluded are valid text. *)
  Definition text_names (ex : list bytes) (dbl : loc) (f : fs) (p : path) (l : loc) : Prop :=
    forall r n e, lookup f (l ++ r ++ [n]) = Some e -> included ex dbl p l (r ++ [n]) -> utf8_valid n = true.
  (** Nothing is larger than a disk can be: files and lists of names stay below
      2^62 bytes. *)
  Definition moderate (f : fs) : Prop :=
    forall l e, lookup f l = Some e ->
      match e with
      | EDir => (names_size (children f l) + 200 < 2 ^ 62)%N
      | EFile c _ => (lenN c + 5 < 2 ^ 62)%N
      | _ => True
      end.
  (** The directory to look at exists. *)
  Definition directory (w : world) (p : path) : Prop := exists l, stat (w_fs w) (w_cwd w) p = Some (l, EDir).
  (** Every line of the cache has a key. *)
  Definition cache_readable (w : world) : Prop := forall a b, In (a, b) (cur_cache w) -> exists k, b = as_db_key k.
  (** From the current directory, a file is found under the relative path of [x].
      (It need not be the one that was listed; see C38.) *)
  Definition found_here (w : world) (x : loc) : Prop :=
    exists l c st, stat (w_fs w) (w_cwd w) (named x) = Some (l, EFile c st).
  (** What comparing the directory [p] with a tree takes: it can be listed, it has
      everything that is in the tree (see C37), and the files that are new are found
      from here (see C38). *)
  Definition comparable (ex : list bytes) (folder p : path) (w : world) (to : option key) : Prop :=
    directory w p /\ listable ex (locate (w_cwd w) folder) (w_fs w) p (locate (w_cwd w) p) stack /\
    (forall x k d, tree_of w to x k d -> exists e, on_disk ex folder p w x e) /\
    (forall x c st, on_disk ex folder p w x (EFile c st) -> (forall k d, ~ tree_of w to x k d) -> found_here w x).
  (** Nothing fails, and the files are as files are. *)
  Definition quiet_disk (w : world) : Prop := w_faults w = [] /\ fs_ok (w_fs w) /\ moderate (w_fs w).
  (** The cache is readable as well. *)
  Definition at_rest (w : world) : Prop := quiet_disk w /\ cache_readable w.
  (** What storing [p] takes: it exists, everything in it that is not excluded is a
      file or a directory with a name that is text, and no link come across leads
      nowhere. *)
  Definition can_store (ex : list bytes) (folder p : path) (w : world) : Prop :=
    exists l e, stat (w_fs w) (w_cwd w) p = Some (l, e) /\
      listable ex (locate (w_cwd w) folder) (w_fs w) p l stack /\ text_names ex (locate (w_cwd w) folder) (w_fs w) p l.
  (** The exclusion patterns are globs. *)
  Definition globs_ok (cm : common) : Prop := forallb glob_valid (cm_exclude cm) = true.
  (** There is a HEAD, and it is text. *)
  Definition has_head (w : world) : Prop := exists n, rp_head (repo_of (cur_db w)) = Some n /\ utf8_valid n = true.
  (** Directories can be made along the names [r] below [l]. *)
  Definition clear_way (f : fs) (l : loc) (r : list name) : Prop :=
    forall a b, r = a ++ b -> lookup f (l ++ a) = None \/ lookup f (l ++ a) = Some EDir.
  (** Every key in the cache is that of a file stored in the database. *)
  Definition stored_file (d : db) (k : key) : Prop := exists o, object_at d (as_db_key k) = Some o /\ o_type o = FSItemFile.
  Definition cache_kept (c : list (bytes * bytes)) (d : db) : Prop := forall a b, In (a, b) c -> exists k, b = as_db_key k /\ stored_file d k.
  (** Machines without failures on which files are hashed for the database at [l] only,
      which is not deleted while there is anything in the cache. *)
  Definition uses_cache (c : command) : bool := match c with CCompare _ _ _ | CStatus | CCheckoutHead _ => true | _ => false end.
  Inductive one_store (l : loc) : world -> Prop :=
  | os_start w : w_cache w = [] -> well_used w -> one_store l w
  | os_process w cm c : one_store l w -> w_faults w = [] -> (there w l \/ w_cache w = []) ->
      (forall st w1, starts cm w st w1 -> fs_ok (w_fs w1) /\ sensible w1 c) ->
      (forall s w1, starts cm w (Some s) w1 -> uses_cache c = true -> w_conn w1 = l) ->
      one_store l (snd (run_process cm c w))
  | os_outside w w' : one_store l w -> outside w w' -> w_cache w' = w_cache w \/ w_cache w' = [] -> one_store l w'.
  (** What is a file on disk is no directory in the tree. *)
  Definition no_file_for_dir (ex : list bytes) (folder p : path) (w : world) (t : key) : Prop :=
    forall x c st k d, on_disk ex folder p w x (EFile c st) -> tree_of w (Some t) x k d -> d = false.
  (** The directory for the cache is there or can be made. *)
  Definition cache_place (w : world) : Prop :=
    match cache_dir with
    | None => True
    | Some p => exists c, p = abs_path c /\ clear_way (w_fs w) [] (c ++ [str "snapcd"])
    end.
  (** It is there. *)
  Definition cache_there (w : world) : Prop :=
    match cache_dir with
    | None => True
    | Some p => exists c, p = abs_path c /\ forall a b, c ++ [str "snapcd"] = a ++ b -> lookup (w_fs w) a = Some EDir
    end.
  (** It is not the database folder (the names [d] below the current directory) or
      in it. *)
  Definition cache_elsewhere (w : world) (d : list name) : Prop :=
    forall c r, cache_dir = Some (abs_path c) -> c ++ [str "snapcd"] <> w_cwd w ++ d ++ r.
  (** No database folder is in sight, but there is room for one. *)
  Definition no_repository (cm : common) (w : world) (d : list name) : Prop :=
    cm_db_path cm = named d /\ d <> [] /\ fs_ok (w_fs w) /\ lookup (w_fs w) (w_cwd w) = Some EDir /\
    clear_way (w_fs w) (w_cwd w) d /\ forall e, above (w_cwd w) e -> ~ is_there w (join (abs_path e) (named d)).
  (** The nearest database folder, going up from the current directory, is in [e],
      and has a database in it. *)
  Definition repository_at (cm : common) (w : world) (e : loc) (d : list name) (db : db) : Prop :=
    cm_db_path cm = named d /\ d <> [] /\ (forall a b, e ++ d = a ++ b -> lookup (w_fs w) a = Some EDir) /\ above (w_cwd w) e /\
    (forall e', above (w_cwd w) e' -> length e < length e' -> ~ is_there w (join (abs_path e') (named d))) /\
    there w (e ++ d ++ [str "snapcd.db"]) /\ assoc_loc (e ++ d ++ [str "snapcd.db"]) (w_dbs w) = Some db.
  (** What was committed from [l] in the file system [f]: all that is not excluded. *)
  Definition committed (ex : list bytes) (dbl l : loc) (f : fs) (r : loc) (e : entry) : Prop :=
    lookup f (l ++ r) = Some e /\ included ex dbl (abs_path l) l r.
  (** In the file system [g] it can be checked out again: the directories are there,
      without links that lead nowhere, and at the places of the files there is
      nothing or a file. *)
  Definition room_for (ex : list bytes) (dbl l : loc) (f g : fs) : Prop :=
    (forall r, committed ex dbl l f r EDir -> lookup g (l ++ r) = Some EDir /\ forall n, lookup g (l ++ r ++ [n]) <> Some EDangling) /\
    (forall r c st, committed ex dbl l f r (EFile c st) -> lookup g (l ++ r) = None \/ exists c' st', lookup g (l ++ r) = Some (EFile c' st')).
  (** Excluded, in a directory that was committed. *)
  Definition left_alone (ex : list bytes) (dbl l : loc) (f : fs) (r : loc) : Prop :=
    exists r1 n r2, r = r1 ++ n :: r2 /\ committed ex dbl l f r1 EDir /\ excluded ex dbl (abs_path l) l (r1 ++ [n]).
End SpecLive.
