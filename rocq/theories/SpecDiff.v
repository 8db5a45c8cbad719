(** What comparing trees (src/diff.rs) is supposed to do. *)
From Coq Require Import Sorted.
From Verif Require Import Base Key Cbor Object Path World Store File Filter Dir Diff Main SpecStore StoreCalls SpecRun SpecProc SpecFile SpecDir SpecCache.

(** The relative path with these names. *)
Definition named (r : loc) : path := Path false (map Normal r) false.

(** Order of paths: name by name, names byte by byte. *)
Inductive lex_lt {A} (lt : A -> A -> Prop) : list A -> list A -> Prop :=
| lex_end x r : lex_lt lt [] (x :: r)
| lex_head x y r s : lt x y -> lex_lt lt (x :: r) (y :: s)
| lex_tail x r s : lex_lt lt r s -> lex_lt lt (x :: r) (x :: s).
Definition byte_lt (a b : byte) : Prop := (N_of_ascii a < N_of_ascii b)%N.
Definition loc_lt : loc -> loc -> Prop := lex_lt (lex_lt byte_lt).
(** A list of results is in the order of its paths, none twice. *)
Definition by_path {A} (get : A -> path) (l : list A) : Prop :=
  exists rs, map get l = map named rs /\ StronglySorted loc_lt rs.

(** No difference was found. *)
Definition nothing_differs (r : diff_result) : Prop := df_deleted r = [] /\ df_added r = [] /\ df_modified r = [].

Section SpecDiff.
  Context {E : Env}.
  (** All directories in a stored tree have proper names, none twice. *)
  Definition tidy (w : world) (k : key) : Prop :=
    forall k' o i, entries_of w k k' -> reads_as w k' (Done o) -> fsitem_of_object o = Some i ->
      fi_type i = ItDir -> Forall entry_name (fi_names i) /\ NoDup (fi_names i).
  (** The tree stored under [k] has, at the names [r], the item stored under [k'],
      a directory or a file. *)
  Definition in_tree (w : world) (k : key) (r : loc) (k' : key) (isdir : bool) : Prop :=
    at_path w k r k' /\ exists i, item_at w k' i /\ isdir = (match fi_type i with ItDir => true | ItFile => false end) /\
      (r = [] -> isdir = false).
  (** The same for nothing or a tree. *)
  Definition tree_of (w : world) (to : option key) (x : loc) (k : key) (d : bool) : Prop :=
    match to with Some k0 => in_tree w k0 x k d | None => False end.
  Definition tidy_of (w : world) (to : option key) : Prop := match to with Some k => tidy w k | None => True end.
  (** Reading the tree succeeds when nothing goes wrong. *)
  Definition walkable (w : world) (k : key) : Prop := exists m, fst (walk_fs_items sqlite_ds k (set_faults w [])) = Done m.
  (** Below the directory at [l], the entry at [r] is looked at. *)
  Definition on_disk (ex : list bytes) (folder p : path) (w : world) (r : loc) (e : entry) : Prop :=
    r <> [] /\ lookup (w_fs w) (locate (w_cwd w) p ++ r) = Some e /\
    included ex (locate (w_cwd w) folder) p (locate (w_cwd w) p) r.
  (** The entry at [r] of a snapshot that is taken of [p] in state [w0]. *)
  Definition snapped (w0 : world) (ex : list bytes) (folder p : path) (r : loc) (e : entry) : Prop :=
    lookup (w_fs w0) (locate (w_cwd w0) p ++ r) = Some e /\
    included ex (locate (w_cwd w0) folder) p (locate (w_cwd w0) p) r.
  (** States of a process that made store calls, inserted and compared (with or
      without success); meanwhile the files may change. *)
  Inductive working : world -> Prop :=
  | wk_session w : session w -> working w
  | wk_put w fuel p ex folder : working w -> working (snd (put_fs_item sqlite_ds fuel p (filter_fn ex folder) w))
  | wk_compare w from to : working w -> working (snd (compare sqlite_ds from to w))
  | wk_start cm w st w1 : reachable w -> starts cm w st w1 -> working w1
  | wk_calls w calls : working w -> working (snd (run_calls calls w))
  | wk_other w w' : working w -> w_dbs w' = w_dbs w -> w_hashed w' = w_hashed w -> w_conn w' = w_conn w -> w_txn w' = w_txn w -> working w'.
  (** [k] is the key of the snapshot of [p] taken in [w0], and it is still stored. *)
  Definition snapshot (w0 : world) (ex : list bytes) (folder p : path) (k : key) (w : world) : Prop :=
    exists fuel w1, working w0 /\ fs_ok (w_fs w0) /\ put_fs_item sqlite_ds fuel p (filter_fn ex folder) w0 = (Done k, w1) /\
      still_stored w1 w /\ incl (w_hashed w1) (w_hashed w).
  (** The state of the disk and the cache when comparing. *)
  Definition in_order (w : world) : Prop := fs_ok (w_fs w) /\ triples_ok (w_fs w) /\ cache_right w.
  (** Files whose data survives chunking. *)
  Definition keeps_data (c : bytes) : Prop := forall t, lossless (segment (read_sizes t c) c).
End SpecDiff.
