(** What fetching a stored file or directory takes, and what it makes. *)
From Verif Require Import Base Key Cbor Object Path World Store File Dir Diff Commit Main SpecRun SpecFile SpecDir SpecDiff SpecPatch SpecShow SpecOut SpecShape SpecCheckout.

Section SpecFetch.
  Context {E : Env}.
  (** The path made of these names, from the root or from the current directory, and
      where it starts. *)
  Definition plain_path (a : bool) (d : list name) : path := Path a (map Normal d) false.
  Definition start_of (w : world) (a : bool) : loc := if a then [] else w_cwd w.
  (** There is room for a new file at the names [r] below [b]: nothing is there, and
      on the way there are only directories, or nothing. *)
  Definition room (f : fs) (b : loc) (r : list name) : Prop :=
    (forall x y, r = x ++ y -> y <> [] -> lookup f (b ++ x) = None \/ lookup f (b ++ x) = Some EDir) /\
    lookup f (b ++ r) = None.
  (** There is room for all files of the tree [k] at the names [d] below [b]. *)
  Definition can_fetch (w : world) (k : key) (b : loc) (d : list name) : Prop :=
    forall r, leaf_at w k r -> room (w_fs w) b (d ++ r).
  (** The files [f'] are those of [w] and the files of the tree, with their bytes, and
      the directories that are needed for them. *)
  Definition fetched (w : world) (f' : fs) (k : key) (b : loc) (d : list name) : Prop :=
    (forall r, leaf_at w k r -> exists c, file_at w k r c /\ content f' (b ++ d ++ r) = Some c) /\
    (forall r x y, leaf_at w k r -> d ++ r = x ++ y -> y <> [] -> lookup f' (b ++ x) = Some EDir) /\
    (forall z, (forall r x y, leaf_at w k r -> d ++ r = x ++ y -> z <> b ++ x) -> lookup f' z = lookup (w_fs w) z).
  (** What [show] can show: data, files and directories, and commits whose changes can
      be presented. *)
  Definition viewable (w : world) (k : key) : Prop :=
    points (cur_db w) Data k \/ points (cur_db w) Item k \/
    exists c to, is_commit w k c /\ base_tree w c to /\ presentable w KPatch (c_tree c) to.
  (** Below [l] there are only files and directories, nested less than [depth] deep. *)
  Definition walkable_at (f : fs) (l : loc) (depth : nat) : Prop :=
    forall r e, lookup f (l ++ r) = Some e -> length r < depth /\ (e = EDir \/ exists c st, e = EFile c st).
  (** A line of [debug walk-fs-tree] (src/main.rs:359-367). *)
  Definition fs_event (e : path * bool) : event :=
    let '(p, d) := e in Printed "item" [path_text p; if d : bool then str "true" else str "false"].
End SpecFetch.
