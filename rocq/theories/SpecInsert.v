(** What [fetch] makes of the files that were inserted. *)
From Verif Require Import Base Key Cbor Object Path World Store File Dir Diff Commit Main SpecRun SpecFile SpecDir SpecDiff SpecLive.

Section SpecInsert.
  Context {E : Env}.
  (** There is nothing at [out], in a directory that exists. *)
  Definition new_place (g : fs) (out : loc) : Prop :=
    free g out /\ forall a b, out = a ++ b -> b <> [] -> lookup g a = Some EDir.
  (** In [h] the files at [out] are those that were inserted from [l] when the files were
      [f], in their directories; directories without files are not made; everything else
      is as in [g]. *)
  Definition recreated (ex : list bytes) (dbl l : loc) (f g h : fs) (out : loc) : Prop :=
    (forall r c, content h (out ++ r) = Some c <-> exists st, committed ex dbl l f r (EFile c st)) /\
    (forall r, lookup h (out ++ r) = Some EDir <-> exists x c st, x <> [] /\ committed ex dbl l f (r ++ x) (EFile c st)) /\
    (forall z, (forall r, z <> out ++ r) -> lookup h z = lookup g z).
End SpecInsert.
