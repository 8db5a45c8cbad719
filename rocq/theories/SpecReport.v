(** What [show] reports instead of showing. *)
From Verif Require Import Base Key Cbor Object Path World Store File Dir Diff Commit Main SpecStore SpecRun SpecDir SpecDiff SpecPatch SpecOut SpecCmd SpecShow SpecShape.

Section Report.
  Context {E : Env}.
  (** A commit that lacks nothing of its parent, and that brings a file which is not text. *)
  Definition brings_binary (w : world) (k : key) : Prop :=
    exists c to, is_commit w k c /\ base_tree w c to /\
    (forall x k d, tree_of w to x k d -> exists k' d', in_tree w (c_tree c) x k' d') /\
    exists x k bs, in_tree w (c_tree c) x k false /\ (forall k' d', ~ tree_of w to x k' d') /\ stored_bytes w k bs /\ utf8_valid bs = false.
End Report.
