(** Model of src/main.rs. *)
From Verif Require Import Base Key Keyish Cbor Object Path World Store File Filter Dir Diff Commit Pretty.

(** src/main.rs:32-48 [Common] (without verbosity). *)
Record common := Common { cm_db_path : path; cm_exclude : list bytes }.
(** src/main.rs:56-60 [DsState]; the connection itself is [w_conn]. *)
Record ds_state := DsState { ds_folder : path; ds_repo : path }.

(** src/main.rs:62-231: the commands with their (already parsed) arguments. *)
Inductive command :=
| CInsert (p : path)
| CCommit (p : option path) (message : bytes) (refname : option bytes)
| CFetch (k : keyish) (dest : path)
| CPrettyPrint (k : keyish)
| CCommitTree (tree : keyish) (parents : list keyish)
| CReflogGet (refname : bytes) (remote : option bytes)
| CReflogPush (k : keyish) (refname : bytes) (remote : option bytes)
| CWalkTree (k : keyish)
| CWalkFsTree (p : path)
| CSetHead (refname : bytes)
| CGetHead
| CInit
| CShow (k : option keyish)
| CLog (k : option keyish)
| CCompare (p : option path) (k : option keyish) (stat : bool)
| CStatus
| CCheckout
| CCheckoutHead (refname : bytes)
| CRefLog (refname : option bytes) (remote : option bytes)
| CRefUpdate (k : keyish) (refname : option bytes).

Section Main.
  Context {E : Env}.
  Let ds := sqlite_ds.

  (** [.ok_or(NoHeadError)?] after [get_head()?] (src/main.rs:283, 307, ...) *)
  Definition head_or_fail : M bytes :=
    h <- get_head ds ;; of_option ENoHead h.
  Definition refname_or_head (r : option bytes) : M bytes :=
    match r with Some s => ret s | None => head_or_fail end.
  (** src/main.rs:456-461 [get_head_key] *)
  Definition get_head_key : M key :=
    h <- head_or_fail ;; reflog_get ds h None.

  (** src/main.rs:243-253 [insert] *)
  Definition cmd_insert (cm : common) (s : ds_state) (p : path) : M unit :=
    f <- make_filter_fn (cm_exclude cm) (ds_folder s) ;;
    h <- put_fs_item ds stack p f ;;
    print "inserted hash" [as_user_key h].

  (** src/main.rs:255-263 [fetch] *)
  Definition cmd_fetch (k : keyish) (dest : path) : M unit :=
    key <- canonicalize ds k ;; get_fs_item ds stack key dest.

  (** src/main.rs:278-298 [ref_log] *)
  Fixpoint print_entries (n : nat) (keys : list key) : M unit :=
    match keys with
    | [] => ret tt
    | k :: r => print "entry" [number n; as_user_key k] ;;; print_entries (n - 1) r
    end.
  Definition cmd_ref_log (refname remote : option bytes) : M unit :=
    name <- refname_or_head refname ;;
    keys <- reflog_walk ds name remote ;;
    print "log entries are printed with most recent at top" [] ;;;
    print_entries (length keys) keys.

  (** src/main.rs:300-319 [ref_update] *)
  Definition cmd_ref_update (k : keyish) (refname : option bytes) : M unit :=
    key <- canonicalize ds k ;;
    name <- refname_or_head refname ;;
    reflog_push ds (Reflog name key None).

  (** src/main.rs:345-357 [debug_walk_tree], 359-367 [debug_walk_fs_tree] *)
  Fixpoint print_tree (l : pmap (key * bool)) : M unit :=
    match l with
    | [] => ret tt
    | (p, (k, d)) :: r => print "item" [path_text p; as_db_key k; if d then str "true" else str "false"] ;;; print_tree r
    end.
  Fixpoint print_fs_tree (l : pmap bool) : M unit :=
    match l with
    | [] => ret tt
    | (p, d) :: r => print "item" [path_text p; if d then str "true" else str "false"] ;;; print_fs_tree r
    end.
  Definition cmd_walk_tree (k : keyish) : M unit :=
    key <- canonicalize ds k ;; m <- walk_fs_items ds key ;; print_tree m.
  Definition cmd_walk_fs_tree (p : path) : M unit :=
    m <- walk_real_fs_items p (fun _ => ret true) ;; print_fs_tree m.

  (** src/main.rs:369-379 [debug_pretty_print] *)
  Definition cmd_pretty_print (k : keyish) : M unit :=
    key <- canonicalize ds k ;; o <- get_obj ds key ;; pretty_print o.

  (** src/main.rs:381-405 [debug_commit_tree] *)
  Definition cmd_commit_tree (tree : keyish) (parents : list keyish) : M unit :=
    t <- canonicalize ds tree ;;
    ps <- mapM (canonicalize ds) parents ;;
    c <- commit_tree ds t ps attrs_default ;;
    print "" [as_user_key c].

  (** src/main.rs:407-433 *)
  Definition cmd_reflog_get (refname : bytes) (remote : option bytes) : M unit :=
    k <- reflog_get ds refname remote ;; print "" [as_user_key k].
  Definition cmd_reflog_push (k : keyish) (refname : bytes) (remote : option bytes) : M unit :=
    key <- canonicalize ds k ;; reflog_push ds (Reflog refname key remote).

  (** src/main.rs:328-343 *)
  Definition cmd_set_head (refname : bytes) : M unit := put_head ds refname.
  Definition cmd_get_head : M unit :=
    h <- get_head ds ;; print "head:" (match h with Some b => [b] | None => [] end).

  (** src/main.rs:435-454 [find_db_folder]: the ancestors of the current directory,
      nearest first. *)
  Fixpoint ancestors_rev (rev_cwd : list name) : list (list name) :=
    match rev_cwd with
    | [] => [[]]
    | _ :: r => rev rev_cwd :: ancestors_rev r
    end.
  Definition ancestors (cwd : loc) : list loc := ancestors_rev (rev cwd).
  Fixpoint find_in (name : path) (l : list loc) : M (option path) :=
    match l with
    | [] => ret None
    | d :: r =>
        let check := join (abs_path d) name in
        e <- fs_exists check ;;
        if (e : bool) then ret (Some check) else find_in name r
    end.
  Definition fs_current_dir : M loc := fs_query (fun _ cwd => Some cwd).
  Definition find_db_folder (name : path) : M (option path) :=
    cwd <- fs_current_dir ;; find_in name (ancestors cwd).

  (** src/main.rs:463-470 [init]: a second connection, committing by itself. *)
  Definition snapcd_db : name := str "snapcd.db".
  Definition cmd_init (cm : common) : M unit :=
    fs_create_dir_all (cm_db_path cm) ;;;
    l <- sqlite_open (join_name (cm_db_path cm) snapcd_db) ;;
    db_write_at l (upd_state (insert_or_replace (str "HEAD") (str "master"))).

  (** src/main.rs:472-512 [commit_cmd] *)
  Definition cmd_commit (cm : common) (s : ds_state) (p : option path) (message : bytes) (refname : option bytes) : M unit :=
    f <- make_filter_fn (cm_exclude cm) (ds_folder s) ;;
    let commit_path := match p with Some q => q | None => ds_repo s end in
    name <- refname_or_head refname ;;
    got <- try (reflog_get ds name None) ;;
    parents <- match got with
               | Ok k => ret [k]
               | Err ERefNotFound => ret []
               | Err e => fail e
               end ;;
    tree <- put_fs_item ds stack commit_path f ;;
    c <- commit_tree ds tree parents (Attrs message []) ;;
    reflog_push ds (Reflog name c None).

  (** src/main.rs:514-538 [show], [log] *)
  Definition key_or_head (k : option keyish) : M key :=
    match k with Some k => canonicalize ds k | None => get_head_key end.
  Definition cmd_show (k : option keyish) : M unit :=
    key <- key_or_head k ;; display_obj ds stack key KPatch.
  Definition cmd_log (k : option keyish) : M unit :=
    key <- key_or_head k ;; log_obj ds key KStat.

  (** src/main.rs:556-591 [compare] *)
  Definition cmd_compare (cm : common) (s : ds_state) (p : option path) (k : option keyish) (stat : bool) : M unit :=
    key <- match k with
           | Some k => canonicalize ds k
           | None => h <- get_head_key ;; c <- commit_from_key ds h ;; ret (c_tree c)
           end ;;
    let base := match p with Some q => q | None => ds_repo s end in
    r <- compare ds (TFileSystem base (cm_exclude cm) (ds_folder s)) (Some key) ;;
    if stat then print_stat_diff_result ds r else print_diff_result r.

  (** src/main.rs:593-633 [status] *)
  Definition cmd_status (cm : common) (s : ds_state) : M unit :=
    name <- head_or_fail ;;
    got <- try (reflog_get ds name None) ;;
    match got with
    | Ok k =>
        print "HEAD:" [name; firstn 8 (as_user_key k)] ;;;
        c <- commit_from_key ds k ;;
        r <- compare ds (TFileSystem (ds_repo s) (cm_exclude cm) (ds_folder s)) (Some (c_tree c)) ;;
        print_diff_result r
    | Err _ => print "HEAD (no commits):" [name; name]
    end.

  (** src/main.rs:635-646 [checkout] *)
  Definition cmd_checkout (cm : common) (s : ds_state) : M unit :=
    k <- get_head_key ;;
    f <- make_filter_fn (cm_exclude cm) (ds_folder s) ;;
    c <- commit_from_key ds k ;;
    checkout_fs_item ds stack (c_tree c) (ds_repo s) f.

  (** src/main.rs:648-682 [checkout_head] *)
  Definition cmd_checkout_head (cm : common) (s : ds_state) (refname : bytes) : M unit :=
    name <- head_or_fail ;;
    got <- try (reflog_get ds name None) ;;
    tree <- match got with
            | Ok k => c <- commit_from_key ds k ;; ret (Some (c_tree c))
            | Err _ => ret None
            end ;;
    r <- compare ds (TFileSystem (ds_repo s) (cm_exclude cm) (ds_folder s)) tree ;;
    if diff_result_empty r then
      put_head ds refname ;;; print "Ok, new head." []
    else
      print "Cannot checkout: working directory is not clean" [] ;;; print_diff_result r.

  (** src/main.rs:773-786 and the [ok_or(DatabaseNotFoundError)?] at the start of
      each command. *)
  Definition with_ds (st : option ds_state) (f : ds_state -> M unit) : M unit :=
    match st with Some s => f s | None => fail ENoDb end.
  Definition run_command (cm : common) (st : option ds_state) (c : command) : M unit :=
    match c with
    | CInit => cmd_init cm
    | CWalkFsTree p => cmd_walk_fs_tree p
    | CInsert p => with_ds st (fun s => cmd_insert cm s p)
    | CCommit p m r => with_ds st (fun s => cmd_commit cm s p m r)
    | CFetch k d => with_ds st (fun _ => cmd_fetch k d)
    | CPrettyPrint k => with_ds st (fun _ => cmd_pretty_print k)
    | CCommitTree t ps => with_ds st (fun _ => cmd_commit_tree t ps)
    | CReflogGet n r => with_ds st (fun _ => cmd_reflog_get n r)
    | CReflogPush k n r => with_ds st (fun _ => cmd_reflog_push k n r)
    | CWalkTree k => with_ds st (fun _ => cmd_walk_tree k)
    | CSetHead n => with_ds st (fun _ => cmd_set_head n)
    | CGetHead => with_ds st (fun _ => cmd_get_head)
    | CShow k => with_ds st (fun _ => cmd_show k)
    | CLog k => with_ds st (fun _ => cmd_log k)
    | CCompare p k b => with_ds st (fun s => cmd_compare cm s p k b)
    | CStatus => with_ds st (fun s => cmd_status cm s)
    | CCheckout => with_ds st (fun s => cmd_checkout cm s)
    | CCheckoutHead n => with_ds st (fun s => cmd_checkout_head cm s n)
    | CRefLog n r => with_ds st (fun _ => cmd_ref_log n r)
    | CRefUpdate k n => with_ds st (fun _ => cmd_ref_update k n)
    end.

  (** A fresh connection, without transaction. *)
  Definition connect (l : loc) : M unit := fun w => (Done tt, set_txn (set_conn w l) NoTxn).
  (** src/main.rs:721-739: discovery and opening of the repository. *)
  Definition open_repo (cm : common) : M (option ds_state) :=
    found <- find_db_folder (cm_db_path cm) ;;
    match found with
    | None => ret None
    | Some x =>
        match parent x with
        | None => panic_with (PUnwrap None)
        | Some repo =>
            l <- sqlite_open (join_name x snapcd_db) ;;
            connect l ;;;
            ret (Some (DsState x repo))
        end
    end.

  (** src/main.rs:750-762 with src/cache.rs:88-106: without a cache directory the
      cache is in memory and starts empty. *)
  Definition cache_new : M unit :=
    op (fun f w => match f with
                   | FOk => (Done tt, w)
                   | FErr _ | FErrRb => (Error ESql, w)
                   | FCrash _ => (Crashed, w)
                   end).
  Definition open_cache : M unit :=
    match cache_dir with
    | Some d => fs_create_dir_all (join_name d (str "snapcd")) ;;; cache_new
    | None => cache_new ;;; (fun w => (Done tt, set_cache w []))
    end.

  (** [state.ds_state.as_mut().map(|x| ...)]: the result is ignored. *)
  Definition ignore_on (st : option ds_state) (m : M unit) : M unit :=
    match st with Some _ => try m ;;; ret tt | None => ret tt end.

  (** What [{}] of an error that reached [main] writes: src/main.rs:234, 238-240,
      src/ds/mod.rs:23, 26, 45.  Nothing where the text comes from the operating system
      or a library or depends on where the error arose: that text is not modelled.  (The
      errors below reach [main] as they are: [?] to [anyhow::Error] adds no text.) *)
  Definition error_message (e : error) : list bytes :=
    match e with
    | ENoDb => [str "database could not be found (maybe run snapcd init)"]
    | ENoHead => [str "an operation that requires a HEAD was run, without being given one, and no head has been set"]
    | ERefNotFound => [str "Ref not found"]
    | ENotFoundKey s => [str "Object '" ++ s ++ str "' not found"]
    | EAmbiguous s _ => [str "Object '" ++ s ++ str "' is ambiguous"]
    | _ => []
    end.

  (** src/main.rs:741-801: [main] once the repository is open. *)
  Definition main_rest (cm : common) (st : option ds_state) (c : command) : M unit :=
    open_cache ;;;
    ignore_on st db_begin ;;;
    cache_begin ;;;
    r <- try (run_command cm st c) ;;
    match r with
    | Err e =>
        print "fatal:" (error_message e) ;;;
        ignore_on st db_rollback ;;;
        cache_rollback
    | Ok _ =>
        ignore_on st db_commit ;;;
        cache_commit
    end.
  (** src/main.rs:712-801 [main] after argument parsing. *)
  Definition main (cm : common) (c : command) : M unit :=
    st <- open_repo cm ;; main_rest cm st c.

  (** End of the process: open connections are closed, open transactions vanish;
      the exit status is 0, 1 (an error returned from [main]), 101 (panic), or
      none (killed). *)
  Definition exit_code (o : outcome unit) : option N :=
    match o with
    | Done _ => Some 0%N
    | Error _ => Some 1%N
    | Panicked _ => Some 101%N
    | Crashed | Diverged => None
    end.
  Definition close_all (w : world) : world := set_ctxn (set_txn w NoTxn) None.
  Definition run_process (cm : common) (c : command) (w : world) : option N * world :=
    let '(o, w') := main cm c (close_all w) in (exit_code o, close_all w').
End Main.
