(** Runs of the command-line program: processes one after another, with
    arbitrary changes of everything but the databases in between. *)
From Verif Require Import Base Key World Store Main Object SpecStore StoreCalls.

Section Run.
  Context {E : Env}.

  (** Everything may change between two processes (files, current directory,
      clock, which operations are going to fail, the cache) except the contents of
      the databases. *)
  Definition outside (w w' : world) : Prop := w_dbs w' = w_dbs w /\ w_hashed w' = w_hashed w.

  (** States reachable from a machine without any database. *)
  Inductive reachable : world -> Prop :=
  | reach_start w : w_dbs w = [] -> reachable w
  | reach_process w cm c : reachable w -> reachable (snd (run_process cm c w))
  | reach_outside w w' : reachable w -> outside w w' -> reachable w'.

  (** Later states as far as one database file is concerned: the file must still
      be there whenever a process starts (nobody deleted it). *)
  Inductive later (l : loc) : world -> world -> Prop :=
  | later_refl w : later l w w
  | later_process w w1 cm c : later l w w1 ->
      (exists content st, lookup (w_fs w1) l = Some (EFile content st)) ->
      later l w (snd (run_process cm c w1))
  | later_outside w w1 w2 : later l w w1 -> outside w1 w2 -> later l w w2.

  (** The bytes stored under a key in the database file [l]. *)
  Definition stored_at (w : world) (l : loc) (k : bytes) : option bytes := assoc k (d_data (db_at (w_dbs w) l)).

  (** No two different strings that were hashed have the same hash. *)
  Definition no_coll (log : list bytes) : Prop :=
    forall a b, In a log -> In b log -> blake3 a = blake3 b -> a = b.

  (** States of a process that opened a database file of a reachable machine and
      made some store calls. *)
  Definition session (w : world) : Prop :=
    exists w0 l calls, reachable w0 /\ w = snd (run_calls calls (set_conn (close_all w0) l)).

  (** What a fetch of the key gives when nothing goes wrong. *)
  Definition reads_as (w : world) (k : key) (o : outcome object) : Prop :=
    fst (get_obj sqlite_ds k (set_faults w [])) = o.
  (** The state after the process died. *)
  Definition after_crash (w : world) : world := close_all w.

  (** Every value is stored under the hash of its own bytes, and keys are unique. *)
  Definition rows_intact (d : db) : Prop :=
    NoDup (map fst (d_data d)) /\ forall k v, In (k, v) (d_data d) -> k = as_db_key (Blake3B (blake3 v)).

  (** The repository a database describes. *)
  Definition push_of (r : row) : push :=
    Push (r_name r) (r_remote r) (match from_db_key (r_key r) with Ok k => k | Err _ => Blake3B (blake3 []) end).
  Definition repo_of (d : db) : repo :=
    Repo (fun k => assoc k (d_data d)) (assoc (str "HEAD") (d_state d)) (rev (map push_of (d_reflog d))).
End Run.
