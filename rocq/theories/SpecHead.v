(** What [checkout-head] does to the repository. *)
From Verif Require Import Base Key World Store SpecStore SpecRun SpecProc.

Section SpecHead.
  Context {E : Env}.
  (** HEAD names [n], and nothing else is different in the reflog and the state table; no
      object is gone or different (the files that were compared may have been added). *)
  Definition moves_head (d d' : db) (n : bytes) : Prop := keeps_log d d' /\ rp_head (repo_of d') = Some n.
End SpecHead.
