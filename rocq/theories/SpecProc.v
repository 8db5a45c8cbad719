(** What a process does before and after its command. *)
From Verif Require Import Base Key Path World Store Main SpecRun.

Section SpecProc.
  Context {E : Env}.
  (** src/main.rs:712-769: discovery, opening, and both BEGINs. *)
  Definition setup (cm : common) : M (option ds_state) :=
    st <- open_repo cm ;;
    open_cache ;;;
    ignore_on st db_begin ;;;
    cache_begin ;;;
    ret st.
  (** A process started in [w] gets as far as running its command, in [w1], with the
      repository [st]. *)
  Definition starts (cm : common) (w : world) (st : option ds_state) (w1 : world) : Prop :=
    setup cm (close_all w) = (Done st, w1).
  (** The database file is there. *)
  Definition there (w : world) (l : loc) : Prop := exists c st, lookup (w_fs w) l = Some (EFile c st).
  (** BEGIN takes effect. *)
  Definition begins (cm : common) (w : world) : Prop := forall s w1, starts cm w (Some s) w1 -> w_txn w1 = TxnClean.
  (** No statement makes SQLite roll the transaction back on its own. *)
  Definition no_auto_rollback (w : world) : Prop := ~ In FErrRb (w_faults w).
  (** No operation fails; the process may still be killed. *)
  Definition no_errors (w : world) : Prop := forall f, In f (w_faults w) -> f = FOk \/ exists n, f = FCrash n.
  (** The next operation takes effect (even if the process dies during it). *)
  Definition commit_ok_next (w : world) : Prop :=
    match w_faults w with [] | FOk :: _ | FCrash (S _) :: _ => True | _ => False end.

  (** Commands that ask about the repository (checkout changes files, but is
      nothing but a query for the database). *)
  Definition is_query (c : command) : bool :=
    match c with
    | CFetch _ _ | CPrettyPrint _ | CReflogGet _ _ | CWalkTree _ | CWalkFsTree _ | CGetHead | CShow _ | CLog _
    | CCheckout | CRefLog _ _ => true
    | _ => false
    end.
  (** Commands that may store objects, and no more. *)
  Definition only_adds (c : command) : bool :=
    match c with CInsert _ | CStatus | CCompare _ _ _ | CCommitTree _ _ => true | _ => false end.
  (** Commands that may also move HEAD. *)
  Definition sets_head (c : command) : bool :=
    match c with CSetHead _ | CCheckoutHead _ => true | _ => false end.
  (** The reflog and the whole state table (HEAD) are the same, and no object is gone or
      different. *)
  Definition adds_objects (d d' : db) : Prop :=
    d_reflog d' = d_reflog d /\ d_state d' = d_state d /\ forall k v, assoc k (d_data d) = Some v -> assoc k (d_data d') = Some v.
  (** The same, but HEAD may be another one. *)
  Definition keeps_log (d d' : db) : Prop :=
    d_reflog d' = d_reflog d /\ (forall k, k <> str "HEAD" -> assoc k (d_state d') = assoc k (d_state d)) /\
    forall k v, assoc k (d_data d) = Some v -> assoc k (d_data d') = Some v.
  (** Nothing but HEAD may differ. *)
  Definition only_head (d d' : db) : Prop :=
    d_data d' = d_data d /\ d_reflog d' = d_reflog d /\ forall k, k <> str "HEAD" -> assoc k (d_state d') = assoc k (d_state d).
  (** HEAD and the reflog are the same. *)
  Definition same_refs (d d' : db) : Prop := d_state d' = d_state d /\ d_reflog d' = d_reflog d.
  (** A path whose metadata can be read (which is what [Path::exists] asks). *)
  Definition is_there (w : world) (p : path) : Prop :=
    exists l e m, stat (w_fs w) (w_cwd w) p = Some (l, e) /\ meta_of e = Some m.
  (** [d] is [cwd] or a directory above it. *)
  Definition above (cwd d : loc) : Prop := exists r, cwd = d ++ r.
End SpecProc.
