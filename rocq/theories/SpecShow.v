(** What showing commits (src/display.rs) is supposed to do. *)
From Verif Require Import Base Key Cbor Object Path World Store File Dir Diff Commit SpecRun SpecDir SpecDiff SpecPatch.

Section SpecShow.
  Context {E : Env}.
  (** The object under [k] can be read as the commit [c], and it is of that type. *)
  Definition reads_commit (w : world) (k : key) (c : commit) : Prop :=
    exists o, reads_as w k (Done o) /\ forall v, commit_of_object o v = (Done c, v).
  Definition is_commit (w : world) (k : key) (c : commit) : Prop :=
    exists o, reads_as w k (Done o) /\ o_type o = TCommit /\ forall v, commit_of_object o v = (Done c, v).
  (** The tree a commit is compared with. *)
  Definition base_tree (w : world) (c : commit) (to : option key) : Prop :=
    match c_parents c with
    | [] => to = None
    | p :: _ => exists pc, reads_commit w p pc /\ to = Some (c_tree pc)
    end.
  (** Nothing that was in the old tree is missing in the new one, the data of every
      added file can be read (for a patch it has to be UTF-8), and the data of every
      path with another key can be read on both sides. *)
  Definition showable (w : world) (kd : kind) (new : key) (old : option key) : Prop :=
    (forall x k d, tree_of w old x k d -> exists k' d', in_tree w new x k' d') /\
    (forall x k, in_tree w new x k false -> (forall k' d', ~ tree_of w old x k' d') ->
       exists bs, stored_bytes w k bs /\ (kd = KPatch -> utf8_valid bs = true)) /\
    (forall x k d k' d', in_tree w new x k d -> tree_of w old x k' d' -> k <> k' ->
       (exists bs, stored_bytes w k bs) /\ exists bs, stored_bytes w k' bs).
  (** First parents down to a commit without parents. *)
  Inductive lineage (w : world) : key -> list key -> Prop :=
  | lin_root k c : reads_commit w k c -> c_parents c = [] -> lineage w k [k]
  | lin_step k c p ps l : reads_commit w k c -> c_parents c = p :: ps -> lineage w p l -> lineage w k (k :: l).
  (** The line announcing a commit. *)
  Definition header (k : key) : event := Printed "commit" [as_user_key k].
  Definition is_header (e : event) : bool := match e with Printed t _ => String.eqb t "commit" end.
  (** Showing the commit succeeds when nothing goes wrong. *)
  Definition shows_well (w : world) (kd : kind) (k : key) : Prop :=
    fst (display_obj sqlite_ds stack k kd (set_faults w [])) = Done tt.
End SpecShow.
