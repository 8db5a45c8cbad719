(** What stands in the way of comparing files with a tree. *)
From Verif Require Import Base Key Keyish Cbor Object Path World Store File Filter Dir Diff Main SpecStore StoreCalls SpecRun SpecProc SpecFile SpecDir SpecCache SpecDiff SpecOut SpecCmd SpecClosure SpecShape SpecLive SpecStoring.

Section Looking.
  Context {E : Env}.
  (** The command compares the files at [q] with the tree [to]. *)
  Definition looks_at (s : ds_state) (w : world) (c : command) (q : path) (to : option key) : Prop :=
    match c with
    | CStatus => q = ds_repo s /\ has_head w /\ to <> None /\ head_tree w to
    | CCheckoutHead _ => q = ds_repo s /\ has_head w /\ head_tree w to
    | CCompare p k false => q = match p with Some x => x | None => ds_repo s end /\ (k = None -> has_head w) /\ (forall ki, k = Some ki -> names_only w Item ki) /\
        exists t, to = Some t /\ compared_to w k t
    | _ => False
    end.
  (** A link come across leads nowhere. *)
  Definition nowhere (ex : list bytes) (dbl : loc) (f : fs) (p : path) (l : loc) : Prop :=
    exists r, lookup f (l ++ r) = Some EDangling /\ reached ex dbl p l r.
  (** Something not excluded is neither file nor directory. *)
  Definition strange (ex : list bytes) (dbl : loc) (f : fs) (p : path) (l : loc) : Prop :=
    exists r, lookup f (l ++ r) = Some ESpecial /\ included ex dbl p l r.
  (** Something in the tree is not on disk. *)
  Definition lost (ex : list bytes) (fo p : path) (w : world) (to : option key) : Prop :=
    exists x k d, tree_of w to x k d /\ forall e, ~ on_disk ex fo p w x e.
  (** A file that is not in the tree is not found from the current directory. *)
  Definition astray (ex : list bytes) (fo p : path) (w : world) (to : option key) : Prop :=
    exists x c st, on_disk ex fo p w x (EFile c st) /\ (forall k d, ~ tree_of w to x k d) /\ ~ found_here w x.
End Looking.
