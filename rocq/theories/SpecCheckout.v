(** What checking a stored tree out is supposed to do, in terms of the file system
    before and after. *)
From Verif Require Import Base Key Cbor Object Path World Store File Dir SpecRun SpecFile SpecDir.

(** Locations at or below another. *)
Definition under (l x : loc) : Prop := exists r, x = l ++ r.

Section SpecCheckout.
  Context {E : Env}.
  (** Reading the key gives the bytes, when nothing goes wrong and the stack is
      deep enough. *)
  Definition yields (w : world) (k : key) (bs : bytes) : Prop :=
    exists n, forall fuel, n <= fuel -> fst (read_data sqlite_ds vec_write fuel k [] (set_faults w [])) = Done bs.
  (** The stored tree [k] has at [r]: a directory; a file with the bytes [c]; nothing. *)
  Definition dir_at (w : world) (k : key) (r : loc) : Prop :=
    exists k' i, at_path w k r k' /\ item_at w k' i /\ fi_type i = ItDir.
  Definition file_at (w : world) (k : key) (r : loc) (c : bytes) : Prop :=
    exists k' i h rest, at_path w k r k' /\ item_at w k' i /\ fi_type i = ItFile /\ fi_children i = h :: rest /\ yields w h c.
  Definition absent (w : world) (k : key) (r : loc) : Prop := forall k', ~ at_path w k r k'.
  (** Directories as snapcd writes them: proper names, none twice, one key each. *)
  Definition regular (w : world) (k : key) : Prop :=
    forall k' i, entries_of w k k' -> item_at w k' i -> fi_type i = ItDir ->
      Forall entry_name (fi_names i) /\ NoDup (fi_names i) /\ length (fi_names i) = length (fi_children i).
  (** At or below an entry that a directory of the tree does not have and that is
      excluded, or neither a file nor a directory. *)
  Definition spared (ex : list bytes) (dbl : loc) (f : fs) (w : world) (k : key) (p : path) (l : loc) (r : loc) : Prop :=
    exists r1 n r2, r = r1 ++ n :: r2 /\ dir_at w k r1 /\ absent w k (r1 ++ [n]) /\
      (excluded ex dbl p l (r1 ++ [n]) \/ lookup f (l ++ r1 ++ [n]) = Some ESpecial).
  (** What there is at [l ++ r] afterwards ([f'], before [f]): a directory of the
      tree, which must have been there before; a file of the tree, with its bytes; and of
      what is not in the tree only what was to be spared. *)
  Definition outcome_at (ex : list bytes) (dbl : loc) (f f' : fs) (w : world) (k : key) (p : path) (l r : loc) : Prop :=
    (dir_at w k r /\ lookup f (l ++ r) = Some EDir /\ lookup f' (l ++ r) = Some EDir) \/
    (exists c, file_at w k r c /\ content f' (l ++ r) = Some c) \/
    (absent w k r /\ spared ex dbl f w k p l r /\ lookup f' (l ++ r) = lookup f (l ++ r)) \/
    (absent w k r /\ ~ spared ex dbl f w k p l r /\ lookup f' (l ++ r) = None).
  (** The tree has a file there. *)
  Definition leaf_at (w : world) (k : key) (r : loc) : Prop := exists k' i, at_path w k r k' /\ item_at w k' i /\ fi_type i = ItFile.
  (** In the only directory that checkout may work in. *)
  Definition in_home (x : loc) : Prop := exists y, x = map str ["home"; "jess"; "src"; "snapcd"; "repo"]%string ++ y.
  (** What checking the tree [k] out at [l] takes: its directories are there, without
      links that lead nowhere in them; where its files go there is nothing or a file, in
      the directory allowed; and so is what is to be removed. *)
  Definition can_checkout (ex : list bytes) (dbl : loc) (w : world) (k : key) (l : loc) : Prop :=
    (forall r, dir_at w k r -> lookup (w_fs w) (l ++ r) = Some EDir) /\
    (forall r n, dir_at w k r -> lookup (w_fs w) (l ++ r ++ [n]) <> Some EDangling) /\
    (forall r, leaf_at w k r -> (lookup (w_fs w) (l ++ r) = None \/ exists c st, lookup (w_fs w) (l ++ r) = Some (EFile c st)) /\ in_home (l ++ r)) /\
    (forall r n e, dir_at w k r -> absent w k (r ++ [n]) -> lookup (w_fs w) (l ++ r ++ [n]) = Some e ->
       ~ excluded ex dbl (abs_path l) l (r ++ [n]) -> in_home (l ++ r)).
  (** Nothing changed, except perhaps that one file was created empty or emptied. *)
  Definition one_emptied (f f' : fs) (l : loc) : Prop :=
    f' = f \/ exists x st, under l x /\ (lookup f x = None \/ exists c st0, lookup f x = Some (EFile c st0)) /\ lookup f' x = Some (EFile [] st) /\ forall y, y <> x -> lookup f' y = lookup f y.
End SpecCheckout.
