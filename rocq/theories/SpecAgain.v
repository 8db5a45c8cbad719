(** Committing the same files again. *)
From Coq Require Import Permutation.
From Verif Require Import Base Key Cbor Object Path World Store SpecStore SpecDir SpecClosure SpecLive Commit.

Section SpecAgain.
  Context {E : Env}.
  (** What would be committed from [l] is the same in [f] and [g]: the same directories,
      the same files with the same contents ... *)
  Definition same_committed (ex : list bytes) (dbl l : loc) (f g : fs) : Prop :=
    (forall r, committed ex dbl l f r EDir <-> committed ex dbl l g r EDir) /\
    (forall r c, (exists st, committed ex dbl l f r (EFile c st)) <-> exists st, committed ex dbl l g r (EFile c st)).
  (** ... and it is enumerated in the same order. *)
  Definition same_listing (ex : list bytes) (dbl l : loc) (f g : fs) : Prop :=
    forall r (keep : name -> bool), committed ex dbl l f r EDir ->
      (forall n, keep n = true <-> included ex dbl (abs_path l) l (r ++ [n])) ->
      filter keep (children f (l ++ r)) = filter keep (children g (l ++ r)).
  (** The objects of [b] are those of [a], and at most one more, stored under [k]. *)
  Definition one_more (k : key) (a b : db) : Prop :=
    d_data b = d_data a \/ exists v, Permutation (d_data b) ((as_db_key k, v) :: d_data a).
  (** The commit [k] of the database is of the tree [t]. *)
  Definition commit_tree_at (d : db) (k t : key) : Prop :=
    exists o c, object_at d (as_db_key k) = Some o /\ o_type o = TCommit /\ (forall v, commit_of_object o v = (Done c, v)) /\ c_tree c = t.
End SpecAgain.
