(** Drives the SQLite store of Store.v through its interface and records what a
    caller sees. *)
From Verif Require Import Base Key Keyish Object Path World Store SpecStore.

Section Calls.
  Context {E : Env}.

  (** One call (src/ds/mod.rs:190-248, src/ds/sqlite.rs:63-82). *)
  Definition do_call (c : call) : M reply :=
    match c with
    | CallPut d => k <- put sqlite_ds d ;; ret (ReplyKey k)
    | CallGet k => v <- get sqlite_ds k ;; ret (ReplyBytes v)
    | CallExists k => b <- raw_exists sqlite_ds (as_db_key k) ;; ret (ReplyBool b)
    | CallBetween s e => l <- raw_between sqlite_ds s e ;; ret (ReplyList l)
    | CallPutHead h => put_head sqlite_ds h ;;; ret ReplyUnit
    | CallGetHead => h <- get_head sqlite_ds ;; ret (ReplyHead h)
    | CallPush p => reflog_push sqlite_ds (Reflog (ph_name p) (ph_key p) (ph_remote p)) ;;; ret ReplyUnit
    | CallLatest n r => k <- reflog_get sqlite_ds n r ;; ret (ReplyKey k)
    | CallHistory n r => l <- reflog_walk sqlite_ds n r ;; ret (ReplyKeys l)
    | CallBegin => db_begin ;;; ret ReplyUnit
    | CallCommit => db_commit ;;; ret ReplyUnit
    | CallRollback => db_rollback ;;; ret ReplyUnit
    end.

  Definition in_txn (w : world) : bool := match w_txn w with NoTxn => false | _ => true end.
  (** [None]: the process died. *)
  Definition observe (c : call) (w : world) : option seen * world :=
    match do_call c w with
    | (Done r, w') => (Some (Answered r), w')
    | (Crashed, w') => (None, w')
    | (_, w') => (Some (Failed (in_txn w && negb (in_txn w'))), w')
    end.
  (** Runs the calls until the process dies; the flag tells whether it did, and in
      which call. *)
  Fixpoint run_calls (l : list call) (w : world) : list (call * seen) * option call * world :=
    match l with
    | [] => ([], None, w)
    | c :: r =>
        match observe c w with
        | (Some a, w') => let '(t, d, w'') := run_calls r w' in ((c, a) :: t, d, w'')
        | (None, w') => ([], Some c, w')
        end
    end.
End Calls.
