(** What a repository contains: five kinds of objects, each referring only to objects
    of the right kind. *)
From Verif Require Import Base Key Keyish Cbor Object Path World Store File Dir Diff Commit Main SpecStore SpecRun SpecProc SpecDir SpecClosure SpecDiff SpecPatch SpecOut.

(** Pieces of file data; files and directories; commits. *)
Inductive role := Data | Item | Version.
Definition of_role (s : role) (o : object) : Prop :=
  match s with
  | Data => o_type o = FileBlob \/ o_type o = FileBlobTree
  | Item => o_type o = FSItemFile \/ o_type o = FSItemDir
  | Version => o_type o = TCommit
  end.

Section Shape.
  Context {E : Env}.
  (** The key refers to an object with this role. *)
  Definition points (d : db) (s : role) (k : key) : Prop :=
    exists o, object_at d (as_db_key k) = Some o /\ of_role s o.

  (** Well-formed objects: a blob refers to nothing; a tree of blobs carries no data
      and refers to data; a file refers to its data and to nothing else; a directory
      refers to files and directories, as many as it has names, and no name occurs
      twice or is one that a directory entry cannot have; a commit refers to a file or
      directory and then to commits. *)
  Definition well_formed (d : db) (o : object) : Prop :=
    match o_type o with
    | FileBlob => o_keys o = []
    | FileBlobTree => o_data o = [] /\ Forall (points d Data) (o_keys o)
    | FSItemFile => exists size k, o_keys o = [k] /\ points d Data k /\
        fsitem_of_object o = Some (FSItem size ItFile [] [k])
    | FSItemDir => exists names ks, o_keys o = ks /\ Forall (points d Item) ks /\
        fsitem_of_object o = Some (FSItem (lenN ks) ItDir names ks) /\ length names = length ks /\
        Forall entry_name names /\ NoDup names
    | TCommit => exists t ps a, o_keys o = t :: ps /\ points d Item t /\ Forall (points d Version) ps /\
        forall w, commit_of_object o w = (Done (Commit t ps a), w)
    | TUnknown => False
    end.
  (** Every stored value is a well-formed object and every reference names a commit. *)
  Definition well_shaped (d : db) : Prop :=
    (forall k v, In (k, v) (d_data d) -> exists o, object_at d k = Some o /\ well_formed d o) /\
    (forall r, In r (d_reflog d) -> exists o, object_at d (r_key r) = Some o /\ o_type o = TCommit).

  (** Sensible use: messages are text (as every [String] is), references are set to
      commits, and [debug commit-tree] is given a file or directory and commits. *)
  Definition names_only (w : world) (s : role) (ki : keyish) : Prop :=
    forall k, denotes w ki k -> points (cur_db w) s k.
  Definition sensible (w : world) (c : command) : Prop :=
    match c with
    | CCommit _ m _ => utf8_valid m = true
    | CCommitTree t ps => names_only w Item t /\ Forall (names_only w Version) ps
    | CReflogPush k _ _ | CRefUpdate k _ => names_only w Version k
    | _ => True
    end.
  (** Machines that were used like this, on file systems like those of operating
      systems. *)
  Inductive well_used : world -> Prop :=
  | wu_start w : w_dbs w = [] -> well_used w
  | wu_process w cm c : well_used w ->
      (forall st w1, starts cm w st w1 -> fs_ok (w_fs w1) /\ sensible w1 c) ->
      well_used (snd (run_process cm c w))
  | wu_outside w w' : well_used w -> outside w w' -> well_used w'.

  (** The stack is deep enough for all objects. *)
  Definition deep_enough (w : world) : Prop := length (d_data (cur_db w)) <= stack.
  (** Nothing fails, and HEAD is text if it is needed. *)
  Definition can_ask (w : world) (k : option keyish) : Prop :=
    w_faults w = [] /\ (k = None -> forall n, rp_head (repo_of (cur_db w)) = Some n -> utf8_valid n = true).
  (** Data, or a file. *)
  Definition holds_bytes (d : db) (k : key) : Prop :=
    exists o, object_at d (as_db_key k) = Some o /\ (of_role Data o \/ o_type o = FSItemFile).
  (** Nothing of the old tree is missing in the new one, whatever has another key is a
      file in both, and new files are text if a patch is to be shown. *)
  Definition presentable (w : world) (kd : kind) (new : key) (old : option key) : Prop :=
    (forall x k d, tree_of w old x k d -> exists k' d', in_tree w new x k' d') /\
    (forall x k d k' d', in_tree w new x k d -> tree_of w old x k' d' -> k <> k' -> d = false /\ d' = false) /\
    (kd = KPatch -> forall x k bs, in_tree w new x k false -> (forall k' d', ~ tree_of w old x k' d') ->
       stored_bytes w k bs -> utf8_valid bs = true).
End Shape.
