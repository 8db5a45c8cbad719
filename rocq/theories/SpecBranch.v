(** What a branch is when it was only ever extended by [commit]. *)
From Verif Require Import Base Key Keyish Cbor Object World Store Commit Main SpecStore SpecRun SpecProc SpecClosure SpecCmd.

Section SpecBranch.
  Context {E : Env}.
  (** The commands that set the branch [n] by hand: [ref update], and [debug
      reflog-push] without a remote. *)
  Definition sets_by_hand (n : bytes) (w : world) (c : command) : Prop :=
    match c with
    | CReflogPush _ n' None => n' = n
    | CRefUpdate _ r => branch_of r (repo_of (cur_db w)) n
    | _ => False
    end.
  (** Messages are text, as every [String] is. *)
  Definition text_message (c : command) : Prop :=
    match c with CCommit _ m _ => utf8_valid m = true | _ => True end.
  (** Machines on which any commands were run, with whatever results, and anything
      happened in between, except that nobody set the branch [n] by hand. *)
  Inductive grown (n : bytes) : world -> Prop :=
  | gr_start w : w_dbs w = [] -> grown n w
  | gr_process w cm c : grown n w -> text_message c ->
      (forall st w1, starts cm w st w1 -> ~ sets_by_hand n w1 c) -> grown n (snd (run_process cm c w))
  | gr_outside w w' : grown n w -> outside w w' -> grown n w'.

  (** A commit is stored under the key. *)
  Definition commit_at (d : db) (k : key) (c : commit) : Prop :=
    exists o, object_at d (as_db_key k) = Some o /\ o_type o = TCommit /\ forall v, commit_of_object o v = (Done c, v).
  (** Each key is the one of a commit, and the next one is its only parent; the last
      one has no parent. *)
  Inductive linked (d : db) : list key -> Prop :=
  | linked_nil : linked d []
  | linked_root k c : commit_at d k c -> c_parents c = [] -> linked d [k]
  | linked_step k c p l : commit_at d k c -> c_parents c = [p] -> linked d (p :: l) -> linked d (k :: p :: l).

  (** Commands that do not set the branch [n] by hand, whatever HEAD is. *)
  Definition hands_off (n : bytes) (c : command) : Prop :=
    match c with
    | CReflogPush _ n' None => n' <> n
    | CRefUpdate _ (Some n') => n' <> n
    | CRefUpdate _ None => False
    | _ => True
    end.
  (** The commit under [k] is one that this command makes. *)
  Definition made_by (d : db) (c : command) (k : key) : Prop :=
    exists p m r t ps, c = CCommit p m r /\ commit_at d k (Commit t ps (Attrs m [])).
  (** The last line is a message of [main] about a failure. *)
  Definition complained (w : world) : Prop := exists a, hd_error (w_out w) = Some (Printed "fatal:" a).
End SpecBranch.
