(** Several processes on one repository database.

    src/ds/sqlite.rs:32-36: the database is in rollback-journal mode
    ([journal_mode = truncate]); src/ds/sqlite.rs:63-82: [BEGIN TRANSACTION] is
    deferred.  SQLite's locks for that mode: the first query of a transaction takes
    a SHARED lock, the first change a RESERVED lock (one holder at a time), and
    COMMIT of a changed database needs an EXCLUSIVE lock, refused while any other
    process holds SHARED.  All are kept until the transaction ends.

    A process is cut into steps: the statements sent to the repository database,
    and, between them, whatever it does to its files, its output and its cache.
    Not modelled: processes sharing files or the hash cache (each has its own), the
    statements that open the database ([src/ds/sqlite.rs:30-58]; processes start
    with it open), [init] (which opens a second connection), and waiting (a process
    that waits for a lock simply is not scheduled). *)
From Verif Require Import Base World.

(** The database as another process may have left it. *)
Definition with_db (d : db) (w : world) : world := set_dbs w (assoc_set (w_conn w) d (w_dbs w)).

(** What neither looks at nor touches the repository database. *)
Definition local {A} (m : M A) : Prop :=
  (forall d w, m (with_db d w) = (fst (m w), with_db d (snd (m w)))) /\
  (forall w, w_dbs (snd (m w)) = w_dbs w /\ w_conn (snd (m w)) = w_conn w /\ w_txn (snd (m w)) = w_txn w).

(** The steps: src/ds/sqlite.rs:63-237. *)
Inductive stmt : Type -> Type :=
| SLocal {B} (m : M B) : local m -> stmt B
| SRead {B} (q : db -> B) : stmt B
| SWrite (u : db -> db) : stmt unit
| SBegin : stmt unit
| SCommit : stmt unit
| SRollback : stmt unit.
Definition exec {B} (s : stmt B) : M B :=
  match s with
  | SLocal m _ => m
  | SRead q => db_read q
  | SWrite u => db_write u
  | SBegin => db_begin
  | SCommit => db_commit
  | SRollback => db_rollback
  end.
(** Queries and changes: what commands may send ([ctl = false]); [main] also starts
    and ends transactions ([ctl = true]). *)
Definition is_ctl {B} (s : stmt B) : bool :=
  match s with SBegin | SCommit | SRollback => true | _ => false end.

(** A computation cut into steps; what comes next depends on the answer only. *)
Inductive script (ctl : bool) {A : Type} : M A -> Type :=
| ScEnd (m : M A) : local m -> script ctl m
| ScStep (m : M A) (B : Type) (s : stmt B) (k : result B error -> M A) :
    (is_ctl s = true -> ctl = true) ->
    (forall w, m w = bind (try (exec s)) k w) ->
    (forall r, script ctl (k r)) -> script ctl m.

(** The transaction of a process: not begun; open, and whether it holds SHARED;
    over. *)
Inductive phase := Idle | Opened (shared : bool) | Over.

(** A process: what is left of it (or how it ended), its own state, its phase. *)
Inductive left := Rest (m : M unit) (s : script true m) | Ended (o : outcome unit).
Record proc := Proc { pr_left : left; pr_world : world; pr_phase : phase }.
Record system := System { sy_db : db; sy_procs : nat -> proc }.

(** Locks held by a process; they go when it ends. *)
Definition alive (p : proc) : Prop := match pr_left p with Rest _ _ => True | Ended _ => False end.
Definition dirty (w : world) : bool := match w_txn w with TxnDirty _ => true | _ => false end.
Definition has_shared (p : proc) : Prop := alive p /\ pr_phase p = Opened true.
Definition has_reserved (p : proc) : Prop := alive p /\ dirty (pr_world p) = true.

Definition next_fault (w : world) : fault := match w_faults w with [] => FOk | f :: _ => f end.
(** A COMMIT that takes effect. *)
Definition commits (f : fault) : bool := match f with FOk | FCrash (S _) => true | _ => false end.

(** When the locks of the others let a statement have the answer it is going to
    have.  A statement may be refused at any time; it is carried out only with its
    lock.  Statements outside a transaction are not considered. *)
Definition permitted {B} (others_shared others_reserved : Prop) (s : stmt B) (ph : phase) (w : world) : Prop :=
  match s with
  | SLocal _ _ => True
  | SRead _ => exists b, ph = Opened b
  | SWrite _ => (exists b, ph = Opened b) /\ (next_fault w = FOk -> ~ others_reserved)
  | SBegin => ph = Idle
  | SCommit => commits (next_fault w) = true -> dirty w = true -> ~ others_shared
  | SRollback => True
  end.
Definition accesses {B} (s : stmt B) : bool :=
  match s with SRead _ | SWrite _ => true | _ => false end.
Definition phase_after {B} (s : stmt B) (ph : phase) (w w' : world) : phase :=
  match w_txn w', ph with
  | NoTxn, Idle => Idle
  | NoTxn, _ => Over
  | _, Opened true => Opened true
  | _, _ => Opened (accesses s && match next_fault w with FOk => true | _ => false end)
  end.

Definition go_on {B} (o : outcome (result B error)) (k : result B error -> M unit)
    (sk : forall r, script true (k r)) : left :=
  match o with
  | Done r => Rest (k r) (sk r)
  | Error e => Ended (Error e)
  | Panicked p => Ended (Panicked p)
  | Crashed => Ended Crashed
  | Diverged => Ended Diverged
  end.

(** One step of one process; [d] is the database. *)
Inductive advance (others_shared others_reserved : Prop) (d : db) : proc -> db -> proc -> Prop :=
| ad_step m B (s : stmt B) k HC HE HK w ph o w1 :
    permitted others_shared others_reserved s ph w ->
    try (exec s) (with_db d w) = (o, w1) ->
    advance others_shared others_reserved d
      (Proc (Rest m (ScStep true m B s k HC HE HK)) w ph)
      (disk w1) (Proc (go_on o k HK) w1 (phase_after s ph w w1))
| ad_end m L w ph o w1 :
    m (with_db d w) = (o, w1) ->
    advance others_shared others_reserved d
      (Proc (Rest m (ScEnd true m L)) w ph) d (Proc (Ended o) w1 ph).

(** One step of the system: some process advances, the others stay. *)
Definition step (s s' : system) : Prop :=
  exists i,
    advance (exists j, j <> i /\ has_shared (sy_procs s j)) (exists j, j <> i /\ has_reserved (sy_procs s j))
      (sy_db s) (sy_procs s i) (sy_db s') (sy_procs s' i) /\
    forall j, j <> i -> sy_procs s' j = sy_procs s j.
Inductive steps : system -> system -> Prop :=
| steps_refl s : steps s s
| steps_next s s1 s2 : steps s s1 -> step s1 s2 -> steps s s2.
