(** The machine the program runs on: file system, databases, faults, output; and
    the state monad the Rust functions are written in. *)
From Verif Require Import Base Key Keyish Cbor Object Path.

(** ** Oracles *)

(** External algorithms and uncontrolled inputs.  Every theorem quantifies over
    all of them. *)
Inductive dline := DLeft (l : bytes) | DRight (l : bytes) | DBoth (l r : bytes).
Inductive difference := Same (s : bytes) | Add (s : bytes) | Rem (s : bytes).
(** The [patch] crate's data types. *)
Inductive pline := LContext (l : bytes) | LAdd (l : bytes) | LRemove (l : bytes).
Record prange := PRange { pr_start : N; pr_count : N }.
Record hunk := Hunk { h_old : prange; h_new : prange; h_lines : list pline }.
Record patch := Patch { pt_old : bytes; pt_new : bytes; pt_hunks : list hunk }.

Class Env := {
  (** blake3 (src/ds/mod.rs:206) *)
  blake3 : bytes -> arr32;
  (** [gearhash::DEFAULT_TABLE] (src/file.rs:23) *)
  gear_table : byte -> N;
  (** What serde_cbor makes of inputs laid out differently from what snapcd
      itself writes (indefinite lengths, other field orders, tags, ...). *)
  other_object : bytes -> option object;
  other_fsitem : bytes -> option (N * fsitemtype * list bytes);
  other_attrs : bytes -> option attrs;
  (** How many bytes each [read] on a file returns; indexed by the time of the
      call.  0 stands for an interrupted read.  When the list is exhausted, reads
      return as much as fits the buffer. *)
  read_sizes : nat -> bytes -> list N;
  (** Inode numbers and modification times (whole seconds) handed out by the
      operating system. *)
  fresh_inode : nat -> N;
  clock : nat -> Z;
  (** globset (src/filter.rs): is a pattern well-formed; does it match. *)
  glob_valid : bytes -> bool;
  glob_match : bytes -> path -> bool;
  (** [String::from_utf8_lossy] *)
  lossy : bytes -> bytes;
  (** [diff::lines] (src/diff.rs:302), [difference::Changeset::new(_, _, "\n")]
      (src/diff.rs:501), and [Display] of [patch::Patch] (src/diff.rs:350-352). *)
  diff_lines : bytes -> bytes -> list dline;
  changeset : bytes -> bytes -> list difference;
  show_patch : patch -> bytes;
  (** [serde_cbor::from_slice::<Value>] and [Debug] of the value or of the error
      (src/object.rs:98-106). *)
  debug_cbor : bytes -> result bytes bytes;
  (** [dirs::cache_dir()] (src/main.rs:750) *)
  cache_dir : option path;
  (** Recursion deeper than this overflows the stack ([Diverged]). *)
  stack : nat;
  (** Number of iterations after which the model gives up ([Diverged]) on a loop
      that follows stored references. *)
  loop_bound : nat
}.

(** ** File system *)

(** Inode and modification time of a file. *)
Record stamp := Stamp { s_inode : N; s_mtime : Z }.
(** [ESpecial]: sockets, fifos, devices.  [EDangling]: a symbolic link to
    nothing.  Other symbolic links are not modelled. *)
Inductive entry := EDir | EFile (content : bytes) (st : stamp) | ESpecial | EDangling.
(** Location = list of names from the root; the root itself is always a
    directory.  Directory enumeration follows the order of this list. *)
Definition loc := list name.
Definition fs := list (loc * entry).

Fixpoint assoc_loc {A} (l : loc) (f : list (loc * A)) : option A :=
  match f with
  | [] => None
  | (k, e) :: r => if names_eqb k l then Some e else assoc_loc l r
  end.
Definition lookup (f : fs) (l : loc) : option entry :=
  match l with [] => Some EDir | _ => assoc_loc l f end.
Definition is_dir (f : fs) (l : loc) : bool :=
  match lookup f l with Some EDir => true | _ => false end.

(** Replaces the entry at [l], or adds it at the end. *)
Fixpoint assoc_set {A} (l : loc) (e : A) (f : list (loc * A)) : list (loc * A) :=
  match f with
  | [] => [(l, e)]
  | (k, e') :: r => if names_eqb k l then (k, e) :: r else (k, e') :: assoc_set l e r
  end.
Definition fs_set (f : fs) (l : loc) (e : entry) : fs := assoc_set l e f.
Definition fs_remove_tree (f : fs) (l : loc) : fs :=
  filter (fun '(k, _) => negb (names_prefix l k)) f.
Definition fs_remove_below (f : fs) (l : loc) : fs :=
  filter (fun '(k, _) => negb (names_prefix l k) || names_eqb l k) f.

(** Names of the entries directly inside [l], in enumeration order. *)
Definition child_name (l k : loc) : option name :=
  if names_prefix l k then match skipn (length l) k with [n] => Some n | _ => None end else None.
Definition children (f : fs) (l : loc) : list name :=
  filter_some (map (fun '(k, _) => child_name l k) f).

(** Path resolution: every component but the last must be an existing directory. *)
Fixpoint walk_comps (f : fs) (cur : loc) (cs : list comp) : option loc :=
  match cs with
  | [] => Some cur
  | c :: r =>
      if is_dir f cur then
        walk_comps f (match c with
                      | CurDir => cur
                      | ParentDir => removelast cur
                      | Normal n => cur ++ [n]
                      end) r
      else None
  end.
(** The empty path resolves to nothing ([ENOENT]). *)
Definition resolve (f : fs) (cwd : loc) (p : path) : option loc :=
  if is_empty_path p then None
  else walk_comps f (if p_abs p then [] else cwd) (p_comps p).

(** Location and entry of an existing path; a trailing slash demands a directory. *)
Definition stat (f : fs) (cwd : loc) (p : path) : option (loc * entry) :=
  match resolve f cwd p with
  | None => None
  | Some l =>
      match lookup f l with
      | Some EDir => Some (l, EDir)
      | Some e => if p_slash p then None else Some (l, e)
      | None => None
      end
  end.

(** ** Databases *)

(** A row of table [reflog] (src/ds/sqlite.rs:50-55). *)
Record row := Row { r_id : N; r_name : bytes; r_remote : option bytes; r_key : bytes }.
(** The tables [data], [state], [reflog] of a repository database
    (src/ds/sqlite.rs:38-57). *)
Record db := Db { d_data : list (bytes * bytes); d_state : list (bytes * bytes); d_reflog : list row }.
Definition db_empty : db := Db [] [] [].

Fixpoint assoc (k : bytes) (l : list (bytes * bytes)) : option bytes :=
  match l with
  | [] => None
  | (k', v) :: r => if bytes_eqb k' k then Some v else assoc k r
  end.

(** State of a connection: no transaction (every statement is committed at once);
    [BEGIN] executed but nothing written yet; written to.  [BEGIN] is deferred in
    SQLite: it takes no snapshot by itself. *)
Inductive txn := NoTxn | TxnClean | TxnDirty (d : db).

(** ** Faults *)

(** What happens at an operation: it succeeds; it fails ([n]: how much of it was
    done before); it fails and SQLite rolls the whole transaction back; the
    process or machine dies ([n]: how much of it was done before). *)
Inductive fault := FOk | FErr (n : nat) | FErrRb | FCrash (n : nat).

(** ** Outcomes *)

Inductive error :=
| ESql                          (* any rusqlite error *)
| EIo                           (* any std::io error *)
| EInterruptedIo
| EDbKey (e : from_db_key_error)
| ENotFoundKey (s : bytes)      (* CanonicalizeError::NotFound *)
| EAmbiguous (s : bytes) (ks : list key)
| ERefNotFound                  (* GetReflogError::NotFound *)
| EDecode                       (* serde_cbor decoding *)
| EEncode                       (* serde_cbor encoding *)
| EUtf8
| ENoHead                       (* NoHeadError *)
| ENoDb                         (* DatabaseNotFoundError *)
| ENonFile                      (* HashFsItemError::NonFileError *)
| EUnimplType                   (* UnimplementedFileTypeFound *)
| EBinary.                      (* DiffPatchError::Binary *)

Inductive panic :=
| PUnwrap (e : option error)    (* unwrap/expect *)
| PAssert
| PIndex                        (* index or map lookup out of range *)
| PUnimplemented
| PCapacity                     (* allocation larger than isize::MAX *)
| PPrint                        (* println! to a closed stdout *)
| PExplicit.

Inductive outcome (A : Type) :=
| Done (a : A)
| Error (e : error)
| Panicked (p : panic)
| Crashed
| Diverged.                     (* recursion deeper than the model's fuel *)
Arguments Done {A} _.
Arguments Error {A} _.
Arguments Panicked {A} _.
Arguments Crashed {A}.
Arguments Diverged {A}.

(** Something printed: a tag and its arguments. *)
Inductive event := Printed (tag : string) (args : list bytes).

(** ** World *)

Record world := World {
  w_fs : fs;
  w_cwd : loc;                          (* current directory *)
  w_dbs : list (loc * db);              (* database files (committed content) *)
  w_conn : loc;                         (* database file of the open connection *)
  w_txn : txn;                          (* its transaction *)
  w_cache : list (bytes * bytes);       (* cache table (committed content) *)
  w_ctxn : option (list (bytes * bytes));
  w_faults : list fault;                (* what the coming operations will do *)
  w_out : list event;                   (* output, latest first *)
  w_hashed : list bytes;                (* ghost: every byte string hashed *)
  w_tick : nat                          (* counts operations *)
}.

Definition set_fs (w : world) (f : fs) : world :=
  World f (w_cwd w) (w_dbs w) (w_conn w) (w_txn w) (w_cache w) (w_ctxn w) (w_faults w) (w_out w) (w_hashed w) (w_tick w).
Definition set_dbs (w : world) (d : list (loc * db)) : world :=
  World (w_fs w) (w_cwd w) d (w_conn w) (w_txn w) (w_cache w) (w_ctxn w) (w_faults w) (w_out w) (w_hashed w) (w_tick w).
Definition set_conn (w : world) (l : loc) : world :=
  World (w_fs w) (w_cwd w) (w_dbs w) l (w_txn w) (w_cache w) (w_ctxn w) (w_faults w) (w_out w) (w_hashed w) (w_tick w).
Definition set_txn (w : world) (t : txn) : world :=
  World (w_fs w) (w_cwd w) (w_dbs w) (w_conn w) t (w_cache w) (w_ctxn w) (w_faults w) (w_out w) (w_hashed w) (w_tick w).
Definition set_cache (w : world) (c : list (bytes * bytes)) : world :=
  World (w_fs w) (w_cwd w) (w_dbs w) (w_conn w) (w_txn w) c (w_ctxn w) (w_faults w) (w_out w) (w_hashed w) (w_tick w).
Definition set_ctxn (w : world) (t : option (list (bytes * bytes))) : world :=
  World (w_fs w) (w_cwd w) (w_dbs w) (w_conn w) (w_txn w) (w_cache w) t (w_faults w) (w_out w) (w_hashed w) (w_tick w).
Definition set_faults (w : world) (f : list fault) : world :=
  World (w_fs w) (w_cwd w) (w_dbs w) (w_conn w) (w_txn w) (w_cache w) (w_ctxn w) f (w_out w) (w_hashed w) (w_tick w).
Definition set_out (w : world) (o : list event) : world :=
  World (w_fs w) (w_cwd w) (w_dbs w) (w_conn w) (w_txn w) (w_cache w) (w_ctxn w) (w_faults w) o (w_hashed w) (w_tick w).
Definition set_hashed (w : world) (h : list bytes) : world :=
  World (w_fs w) (w_cwd w) (w_dbs w) (w_conn w) (w_txn w) (w_cache w) (w_ctxn w) (w_faults w) (w_out w) h (w_tick w).
Definition set_tick (w : world) (t : nat) : world :=
  World (w_fs w) (w_cwd w) (w_dbs w) (w_conn w) (w_txn w) (w_cache w) (w_ctxn w) (w_faults w) (w_out w) (w_hashed w) t.

(** Committed content of a database file (empty when it does not exist). *)
Definition db_at (dbs : list (loc * db)) (l : loc) : db :=
  match assoc_loc l dbs with Some d => d | None => db_empty end.
Definition disk (w : world) : db := db_at (w_dbs w) (w_conn w).
(** What the connection sees. *)
Definition cur_db (w : world) : db := match w_txn w with TxnDirty d => d | _ => disk w end.
Definition cur_cache (w : world) : list (bytes * bytes) :=
  match w_ctxn w with Some c => c | None => w_cache w end.

(** ** The monad *)

Definition M (A : Type) := world -> outcome A * world.
Definition ret {A} (a : A) : M A := fun w => (Done a, w).
Definition bind {A B} (m : M A) (f : A -> M B) : M B :=
  fun w => match m w with
           | (Done a, w') => f a w'
           | (Error e, w') => (Error e, w')
           | (Panicked p, w') => (Panicked p, w')
           | (Crashed, w') => (Crashed, w')
           | (Diverged, w') => (Diverged, w')
           end.
Definition fail {A} (e : error) : M A := fun w => (Error e, w).
Definition panic_with {A} (p : panic) : M A := fun w => (Panicked p, w).
Definition diverge {A} : M A := fun w => (Diverged, w).
Definition of_option {A} (e : error) (o : option A) : M A :=
  match o with Some a => ret a | None => fail e end.
Definition lift_result {A E} (f : E -> error) (r : result A E) : M A :=
  match r with Ok a => ret a | Err e => fail (f e) end.
(** Inspecting a [Result] instead of propagating it. *)
Definition try {A} (m : M A) : M (result A error) :=
  fun w => match m w with
           | (Done a, w') => (Done (Ok a), w')
           | (Error e, w') => (Done (Err e), w')
           | (Panicked p, w') => (Panicked p, w')
           | (Crashed, w') => (Crashed, w')
           | (Diverged, w') => (Diverged, w')
           end.
(** [.unwrap()] / [.expect(..)] *)
Definition unwrap {A} (m : M A) : M A :=
  fun w => match m w with
           | (Error e, w') => (Panicked (PUnwrap (Some e)), w')
           | r => r
           end.
Definition get_world : M world := fun w => (Done w, w).

Declare Scope m_scope.
Delimit Scope m_scope with m.
Notation "x <- m ;; k" := (bind m (fun x => k)) (at level 100, m at next level, right associativity) : m_scope.
Notation "m ;;; k" := (bind m (fun _ => k)) (at level 100, right associativity) : m_scope.
Open Scope m_scope.

(** An operation that can fail: takes the next event of the schedule (success
    when the schedule is exhausted) and advances the clock. *)
Definition op {A} (eff : fault -> M A) : M A :=
  fun w =>
    let w1 := set_tick w (S (w_tick w)) in
    match w_faults w1 with
    | [] => eff FOk w1
    | f :: r => eff f (set_faults w1 r)
    end.

(** *** Database statements *)

Definition put_db (d : db) (w : world) : world :=
  match w_txn w with
  | NoTxn => set_dbs w (assoc_set (w_conn w) d (w_dbs w))
  | _ => set_txn w (TxnDirty d)
  end.
(** A query. *)
Definition db_read {A} (q : db -> A) : M A :=
  op (fun f w =>
    match f with
    | FOk => (Done (q (cur_db w)), w)
    | FErr _ => (Error ESql, w)
    | FErrRb => (Error ESql, set_txn w NoTxn)
    | FCrash _ => (Crashed, w)
    end).
(** A statement that changes the database.  Outside a transaction it is committed
    at once; a crash may hit before or after that. *)
Definition db_write (u : db -> db) : M unit :=
  op (fun f w =>
    match f with
    | FOk => (Done tt, put_db (u (cur_db w)) w)
    | FErr _ => (Error ESql, w)
    | FErrRb => (Error ESql, set_txn w NoTxn)
    | FCrash O => (Crashed, w)
    | FCrash (S _) => (Crashed, put_db (u (cur_db w)) w)
    end).
(** A statement executed (and committed) by a second connection, open on the
    database file [l]. *)
Definition db_write_at (l : loc) (u : db -> db) : M unit :=
  op (fun f w =>
    match f with
    | FOk => (Done tt, set_dbs w (assoc_set l (u (db_at (w_dbs w) l)) (w_dbs w)))
    | FErr _ | FErrRb => (Error ESql, w)
    | FCrash O => (Crashed, w)
    | FCrash (S _) => (Crashed, set_dbs w (assoc_set l (u (db_at (w_dbs w) l)) (w_dbs w)))
    end).
(** BEGIN / COMMIT / ROLLBACK (src/ds/sqlite.rs:63-82). *)
Definition db_begin : M unit :=
  op (fun f w =>
    match f with
    | FOk => match w_txn w with NoTxn => (Done tt, set_txn w TxnClean) | _ => (Error ESql, w) end
    | FErr _ | FErrRb => (Error ESql, w)
    | FCrash _ => (Crashed, w)
    end).
Definition commit_now (w : world) : world :=
  match w_txn w with
  | TxnDirty d => set_txn (set_dbs w (assoc_set (w_conn w) d (w_dbs w))) NoTxn
  | _ => set_txn w NoTxn
  end.
Definition db_commit : M unit :=
  op (fun f w =>
    match f with
    | FOk => match w_txn w with NoTxn => (Error ESql, w) | _ => (Done tt, commit_now w) end
    | FErr _ => (Error ESql, w)
    | FErrRb => (Error ESql, set_txn w NoTxn)
    | FCrash O => (Crashed, w)
    | FCrash (S _) => (Crashed, commit_now w)
    end).
Definition db_rollback : M unit :=
  op (fun f w =>
    match f with
    | FOk => match w_txn w with NoTxn => (Error ESql, w) | _ => (Done tt, set_txn w NoTxn) end
    | FErr _ => (Error ESql, w)
    | FErrRb => (Error ESql, set_txn w NoTxn)
    | FCrash _ => (Crashed, w)
    end).

(** The same for the cache database. *)
Definition cache_read {A} (q : list (bytes * bytes) -> A) : M A :=
  op (fun f w =>
    match f with
    | FOk => (Done (q (cur_cache w)), w)
    | FErr _ => (Error ESql, w)
    | FErrRb => (Error ESql, set_ctxn w None)
    | FCrash _ => (Crashed, w)
    end).
Definition put_cache (c : list (bytes * bytes)) (w : world) : world :=
  match w_ctxn w with Some _ => set_ctxn w (Some c) | None => set_cache w c end.
Definition cache_write (u : list (bytes * bytes) -> list (bytes * bytes)) : M unit :=
  op (fun f w =>
    match f with
    | FOk => (Done tt, put_cache (u (cur_cache w)) w)
    | FErr _ => (Error ESql, w)
    | FErrRb => (Error ESql, set_ctxn w None)
    | FCrash O => (Crashed, w)
    | FCrash (S _) => (Crashed, match w_ctxn w with Some _ => w | None => put_cache (u (cur_cache w)) w end)
    end).
Definition cache_begin : M unit :=
  op (fun f w =>
    match f with
    | FOk => match w_ctxn w with None => (Done tt, set_ctxn w (Some (w_cache w))) | Some _ => (Error ESql, w) end
    | FErr _ | FErrRb => (Error ESql, w)
    | FCrash _ => (Crashed, w)
    end).
Definition cache_commit_now (w : world) : world :=
  match w_ctxn w with
  | Some c => set_ctxn (set_cache w c) None
  | None => w
  end.
Definition cache_commit : M unit :=
  op (fun f w =>
    match f with
    | FOk => match w_ctxn w with Some _ => (Done tt, cache_commit_now w) | None => (Error ESql, w) end
    | FErr _ => (Error ESql, w)
    | FErrRb => (Error ESql, set_ctxn w None)
    | FCrash O => (Crashed, w)
    | FCrash (S _) => (Crashed, cache_commit_now w)
    end).
Definition cache_rollback : M unit :=
  op (fun f w =>
    match f with
    | FOk => match w_ctxn w with Some _ => (Done tt, set_ctxn w None) | None => (Error ESql, w) end
    | FErr _ => (Error ESql, w)
    | FErrRb => (Error ESql, set_ctxn w None)
    | FCrash _ => (Crashed, w)
    end).

(** *** Output *)
(** [println!]: panics when stdout is closed. *)
Definition print (tag : string) (args : list bytes) : M unit :=
  op (fun f w =>
    match f with
    | FOk => (Done tt, set_out w (Printed tag args :: w_out w))
    | FErr _ | FErrRb => (Panicked PPrint, w)
    | FCrash _ => (Crashed, w)
    end).
(** Writing bytes to stdout through [Write]: an error is reported. *)
Definition write_stdout (d : bytes) : M unit :=
  op (fun f w =>
    match f with
    | FOk => (Done tt, set_out w (Printed "raw" [d] :: w_out w))
    | FErr _ | FErrRb => (Error EIo, w)
    | FCrash _ => (Crashed, w)
    end).

(** *** File-system calls *)

Section FS.
  Context {E : Env}.

  (** [std::fs::Metadata]; the size is a [u64]. *)
  Inductive meta := MDir | MFile (size : N) (st : stamp) | MOther.
  Definition meta_of (e : entry) : option meta :=
    match e with
    | EDir => Some MDir
    | EFile c st => Some (MFile (wrap64 (lenN c)) st)
    | ESpecial => Some MOther
    | EDangling => None
    end.

  (** A call without side effects: fails or answers. *)
  Definition fs_query {A} (q : fs -> loc -> option A) : M A :=
    op (fun f w =>
      match f with
      | FOk => match q (w_fs w) (w_cwd w) with Some a => (Done a, w) | None => (Error EIo, w) end
      | FErr _ | FErrRb => (Error EIo, w)
      | FCrash _ => (Crashed, w)
      end).

  (** [std::fs::metadata] *)
  Definition fs_metadata (p : path) : M meta :=
    fs_query (fun f cwd => match stat f cwd p with Some (_, e) => meta_of e | None => None end).

  (** [std::fs::canonicalize]: the location. *)
  Definition fs_canonicalize (p : path) : M loc :=
    fs_query (fun f cwd => match stat f cwd p with
                           | Some (_, EDangling) => None
                           | Some (l, _) => Some l
                           | None => None
                           end).

  (** [Path::exists]: errors count as "no". *)
  Definition fs_exists (p : path) : M bool :=
    r <- try (fs_metadata p) ;; ret (match r with Ok _ => true | Err _ => false end).

  (** [std::fs::read_dir] and its iteration: the names, and whether the
      iteration ends in an error (a fault [FErr (S n)] cuts it after [n] names). *)
  Definition fs_read_dir (p : path) : M (list name * bool) :=
    op (fun f w =>
      match stat (w_fs w) (w_cwd w) p with
      | Some (l, EDir) =>
          match f with
          | FOk => (Done (children (w_fs w) l, false), w)
          | FErr (S n) => (Done (firstn n (children (w_fs w) l), true), w)
          | FErr O | FErrRb => (Error EIo, w)
          | FCrash _ => (Crashed, w)
          end
      | _ => match f with FCrash _ => (Crashed, w) | _ => (Error EIo, w) end
      end).

  (** One result of [Read::read]; the end of the list is end-of-file. *)
  Inductive readres := RData (d : bytes) | RInterrupted | RError.

  (** Cuts a content into the reads described by [read_sizes]; the buffer of the
      only reader has 65536 bytes (src/file.rs:19).  Structural on the sizes, then
      on the content. *)
  Definition read_max : N := 65536.
  Fixpoint full_reads (fuel : nat) (c : bytes) : list readres :=
    match fuel with
    | O => []
    | S f =>
        match c with
        | [] => []
        | _ => RData (firstn (N.to_nat read_max) c) :: full_reads f (skipn (N.to_nat read_max) c)
        end
    end.
  Fixpoint segment (sizes : list N) (c : bytes) : list readres :=
    match sizes with
    | [] => full_reads (length c) c
    | s :: r =>
        if (s =? 0)%N then RInterrupted :: segment r c
        else
          match c with
          | [] => []
          | _ => let n := N.to_nat (N.min s read_max) in
                 RData (firstn n c) :: segment r (skipn n c)
          end
    end.

  (** [File::open] and the reads until end-of-file.  A fault [FErr (S n)] makes
      the read after [n] results fail. *)
  Definition fs_open_read (p : path) : M (stamp * N * list readres) :=
    op (fun f w =>
      match stat (w_fs w) (w_cwd w) p with
      | Some (_, EFile c st) =>
          let reads := segment (read_sizes (w_tick w) c) c in
          match f with
          | FOk => (Done (st, wrap64 (lenN c), reads), w)
          | FErr (S n) => (Done (st, wrap64 (lenN c), firstn n reads ++ [RError]), w)
          | FErr O | FErrRb => (Error EIo, w)
          | FCrash _ => (Crashed, w)
          end
      | _ => match f with FCrash _ => (Crashed, w) | _ => (Error EIo, w) end
      end).

  (** A call that changes the file system; a failing or crashing call may have
      done part of its work, [partial n]. *)
  Definition fs_change {A} (full : fs -> loc -> nat -> option (A * fs))
      (partial : nat -> fs -> loc -> nat -> fs) : M A :=
    op (fun f w =>
      match full (w_fs w) (w_cwd w) (w_tick w) with
      | Some (a, f') =>
          match f with
          | FOk => (Done a, set_fs w f')
          | FErr n => (Error EIo, set_fs w (partial n (w_fs w) (w_cwd w) (w_tick w)))
          | FErrRb => (Error EIo, w)
          | FCrash n => (Crashed, set_fs w (partial n (w_fs w) (w_cwd w) (w_tick w)))
          end
      | None => match f with FCrash _ => (Crashed, w) | _ => (Error EIo, w) end
      end).

  (** [std::fs::create_dir_all]: creates the missing directories from the front,
      at most [budget] of them. *)
  Fixpoint mkdirs (budget : option nat) (f : fs) (cur : loc) (cs : list comp) : option fs :=
    match cs with
    | [] => if is_dir f cur then Some f else None
    | c :: r =>
        if is_dir f cur then
          match c with
          | CurDir => mkdirs budget f cur r
          | ParentDir => mkdirs budget f (removelast cur) r
          | Normal n =>
              let next := cur ++ [n] in
              match lookup f next with
              | Some EDir => mkdirs budget f next r
              | Some _ => None
              | None =>
                  match budget with
                  | Some O => Some f
                  | Some (S b) => mkdirs (Some b) (fs_set f next EDir) next r
                  | None => mkdirs None (fs_set f next EDir) next r
                  end
              end
          end
        else None
    end.
  Definition base_loc (cwd : loc) (p : path) : loc := if p_abs p then [] else cwd.
  Definition fs_create_dir_all (p : path) : M unit :=
    if is_empty_path p then ret tt
    else
      fs_change
        (fun f cwd _ => option_map (fun f' => (tt, f')) (mkdirs None f (base_loc cwd p) (p_comps p)))
        (fun n f cwd _ => match mkdirs (Some n) f (base_loc cwd p) (p_comps p) with Some f' => f' | None => f end).

  (** [OpenOptions::new().write(true).create_new(true).open]: the handle is the
      location.  A partial execution ([n] > 0) may have created the file. *)
  Definition create_new_eff (p : path) (f : fs) (cwd : loc) (t : nat) : option (loc * fs) :=
    match resolve f cwd p with
    | Some l =>
        if p_slash p then None
        else match lookup f l with
             | None => Some (l, fs_set f l (EFile [] (Stamp (fresh_inode t) (clock t))))
             | Some _ => None
             end
    | None => None
    end.
  Definition fs_create_new (p : path) : M loc :=
    fs_change (create_new_eff p)
      (fun n f cwd t => match n with
                        | O => f
                        | S _ => match create_new_eff p f cwd t with Some (_, f') => f' | None => f end
                        end).

  (** [File::create]: creates or truncates. *)
  Definition create_eff (p : path) (f : fs) (cwd : loc) (t : nat) : option (loc * fs) :=
    match resolve f cwd p with
    | Some l =>
        if p_slash p then None
        else match lookup f l with
             | None => Some (l, fs_set f l (EFile [] (Stamp (fresh_inode t) (clock t))))
             | Some (EFile _ st) => Some (l, fs_set f l (EFile [] (Stamp (s_inode st) (clock t))))
             | Some _ => None
             end
    | None => None
    end.
  Definition fs_create (p : path) : M loc :=
    fs_change (create_eff p)
      (fun n f cwd t => match n with
                        | O => f
                        | S _ => match create_eff p f cwd t with Some (_, f') => f' | None => f end
                        end).

  (** [write_all] on an open handle: appends. *)
  Definition append (l : loc) (d : bytes) (f : fs) (t : nat) : fs :=
    match lookup f l with
    | Some (EFile c st) => fs_set f l (EFile (c ++ d) (Stamp (s_inode st) (clock t)))
    | _ => f
    end.
  Definition fs_write (l : loc) (d : bytes) : M unit :=
    fs_change
      (fun f _ t => Some (tt, append l d f t))
      (fun n f _ t => append l (firstn n d) f t).

  (** [std::fs::remove_file] *)
  Definition fs_remove_file (p : path) : M unit :=
    fs_change
      (fun f cwd _ => match stat f cwd p with
                      | Some (l, EFile _ _) => Some (tt, fs_remove_tree f l)
                      | _ => None
                      end)
      (fun _ f _ _ => f).
  (** [std::fs::remove_dir_all]: a partial execution removes everything below the
      directory, or nothing. *)
  Definition fs_remove_dir_all (p : path) : M unit :=
    fs_change
      (fun f cwd _ => match stat f cwd p with
                      | Some ([], _) => None
                      | Some (l, EDir) => Some (tt, fs_remove_tree f l)
                      | _ => None
                      end)
      (fun n f cwd _ => match n, stat f cwd p with
                        | S _, Some (l, EDir) => fs_remove_below f l
                        | _, _ => f
                        end).

  (** ** Hashing *)
  (** src/ds/mod.rs:205-208 [hash]; records the input in the ghost log. *)
  Definition hash (data : bytes) : M key :=
    fun w => (Done (Blake3B (blake3 data)), set_hashed w (data :: w_hashed w)).
End FS.
