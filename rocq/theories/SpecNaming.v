(** Different ways of asking for the same thing. *)
From Verif Require Import Base Key Keyish Cbor Object Path World Store Diff Main SpecKey SpecResolve SpecStore SpecRun SpecProc SpecCmd SpecShow SpecOut SpecText SpecShape SpecFatal.

(** The first letters of a printed key, not all of them, in any case (but a small [b]). *)
Definition copied (t : bytes) (k : key) : Prop :=
  exists r, t = "b"%char :: r /\ length t < 53 /\ prefix_of (map fold_case t) (as_user_key k).
(** No other stored key begins with these letters. *)
Definition unmistakable (w : world) (t : bytes) (k : key) : Prop :=
  forall k', stored w k' -> prefix_of (map fold_case t) (as_user_key k') -> k' = k.

(** The command, given another key. *)
Definition with_key (c : command) (k : keyish) : command :=
  match c with
  | CFetch _ d => CFetch k d
  | CPrettyPrint _ => CPrettyPrint k
  | CWalkTree _ => CWalkTree k
  | CRefUpdate _ n => CRefUpdate k n
  | CReflogPush _ n r => CReflogPush k n r
  | CCommitTree _ ps => CCommitTree k ps
  | CShow _ => CShow (Some k)
  | CLog _ => CLog (Some k)
  | CCompare p _ b => CCompare p (Some k) b
  | c => c
  end.

Section Naming.
  Context {E : Env}.
  (** The path a command is about: the one given, or the repository. *)
  Definition about (s : ds_state) (p : option path) : path := match p with Some q => q | None => ds_repo s end.
  (** HEAD is readable, if it is asked for. *)
  Definition legible {A} (w : world) (r : option A) : Prop :=
    r = None -> forall n, rp_head (repo_of (cur_db w)) = Some n -> utf8_valid n = true.
  (** Two commands that differ in what is left out: a key, a branch, a path. *)
  Inductive same_request (s : ds_state) (w : world) : command -> command -> Prop :=
  | same_show a b k : legible w a -> legible w b -> asked_for w a k -> asked_for w b k -> same_request s w (CShow a) (CShow b)
  | same_log a b k : legible w a -> legible w b -> asked_for w a k -> asked_for w b k -> same_request s w (CLog a) (CLog b)
  | same_compare p q a b t st : about s p = about s q -> legible w a -> legible w b -> compared_to w a t -> compared_to w b t ->
      same_request s w (CCompare p a st) (CCompare q b st)
  | same_commit p q m r r' n : about s p = about s q -> legible w r -> legible w r' -> branch_of r (repo_of (cur_db w)) n -> branch_of r' (repo_of (cur_db w)) n ->
      same_request s w (CCommit p m r) (CCommit q m r')
  | same_ref_log r r' n rm : legible w r -> legible w r' -> branch_of r (repo_of (cur_db w)) n -> branch_of r' (repo_of (cur_db w)) n ->
      same_request s w (CRefLog r rm) (CRefLog r' rm)
  | same_ref_update a b k r r' n : denotes w a k -> denotes w b k -> legible w r -> legible w r' -> branch_of r (repo_of (cur_db w)) n -> branch_of r' (repo_of (cur_db w)) n ->
      same_request s w (CRefUpdate a r) (CRefUpdate b r').
  (** Equal but for the number of operations done so far. *)
  Definition but_for_time (w v : world) : Prop := exists n, v = set_tick w n.
End Naming.
