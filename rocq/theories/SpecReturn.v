(** Commands that walk through directories. *)
From Verif Require Import Base Path World Main.
Definition walks_files (c : command) : bool :=
  match c with
  | CInsert _ | CCommit _ _ _ | CCompare _ _ _ | CStatus | CCheckoutHead _ | CWalkFsTree _ => true
  | _ => false
  end.
