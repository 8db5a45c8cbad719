(** What the commands of the program are supposed to do. *)
From Verif Require Import Base Key Object World Store Dir Diff Commit Main SpecStore SpecRun SpecProc SpecFile SpecDir SpecCache SpecDiff SpecShow.

Section SpecCmd.
  Context {E : Env}.
  (** The same in everything but the clock, what is going to fail, and the output. *)
  Definition alike (w v : world) : Prop :=
    w_fs v = w_fs w /\ w_cwd v = w_cwd w /\ w_dbs v = w_dbs w /\ w_conn v = w_conn w /\ w_txn v = w_txn w /\ w_cache v = w_cache w /\ w_ctxn v = w_ctxn w /\ w_hashed v = w_hashed w.
  (** The tree of the newest commit of the branch that HEAD names; none if the
      branch has no commits. *)
  Definition head_tree (w : world) (to : option key) : Prop :=
    exists name, rp_head (repo_of (cur_db w)) = Some name /\
      match to with
      | None => history name None (repo_of (cur_db w)) = []
      | Some t => exists k l c, history name None (repo_of (cur_db w)) = k :: l /\ reads_commit w k c /\ t = c_tree c
      end.
  (** [name] is the branch a command with the optional argument [r] is about. *)
  Definition branch_of (r : option bytes) (old : repo) (name : bytes) : Prop :=
    match r with Some n => name = n | None => rp_head old = Some name end.
  (** The only difference between two repositories, besides more objects, is one push. *)
  Definition one_push (old new : repo) (p : push) : Prop :=
    rp_log new = p :: rp_log old /\ rp_head new = rp_head old /\ forall k v, rp_objects old k = Some v -> rp_objects new k = Some v.
End SpecCmd.
