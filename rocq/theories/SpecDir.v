(** What storing and fetching directories is supposed to do, in terms of the file
    system before and after. *)
From Verif Require Import Base Key Cbor Object Path World Store File Dir SpecRun SpecFile.

(** Names that an operating system can give to a directory entry. *)
Definition entry_name (n : name) : Prop :=
  n <> [] /\ ~ In "/"%char n /\ n <> str "." /\ n <> str "..".
(** A file system as operating systems keep them: no location twice, every entry
    in an existing directory, proper names. *)
Definition fs_ok (f : fs) : Prop :=
  NoDup (map fst f) /\
  forall l e, In (l, e) f -> l <> [] /\ Forall entry_name l /\ is_dir f (removelast l) = true.

(** The content of the file at a location. *)
Definition content (f : fs) (l : loc) : option bytes :=
  match lookup f l with Some (EFile c _) => Some c | _ => None end.
(** Nothing at or below a location. *)
Definition free (f : fs) (l : loc) : Prop := forall r, lookup f (l ++ r) = None.

(** Without symbolic links, a path names this location (["a/.."] too). *)
Definition step_comp (l : loc) (c : comp) : loc :=
  match c with CurDir => l | ParentDir => removelast l | Normal n => l ++ [n] end.
Definition locate (cwd : loc) (p : path) : loc := fold_left step_comp (p_comps p) (if p_abs p then [] else cwd).

(** What users exclude: a path (as given on the command line, extended by the
    names of the entries, without a leading ["./"]) that matches a pattern, and the
    database folder at [dbl] with everything in it. *)
Definition below (p : path) (r : loc) : path := Path (p_abs p) (p_comps p ++ map Normal r) false.
Definition undotted (p : path) : path :=
  match p with Path false (CurDir :: r) s => Path false r s | _ => p end.
Section Excluded.
  Context {E : Env}.
  Definition excluded (ex : list bytes) (dbl : loc) (p : path) (l : loc) (r : loc) : Prop :=
    (exists r', l ++ r = dbl ++ r') \/ exists g, In g ex /\ glob_match g (undotted (below p r)) = true.
  (** A relative location in the tree at [l] (given as [p]) is stored unless it or a
      directory it is in is excluded. *)
  Definition included (ex : list bytes) (dbl : loc) (p : path) (l : loc) (r : loc) : Prop :=
    forall r1 r2, r = r1 ++ r2 -> r1 <> [] -> ~ excluded ex dbl p l r1.

  (** Files whose data survives chunking (see C18): at end of input the top-level
      buffer is empty or the one below is not. *)
  Definition lossless (reads : list readres) : Prop :=
    forall w st w', pd_loop sqlite_ds (reads_weight reads) pd_init reads w = (Done st, w') ->
      kb_get (pd_kb st) 4 = [] \/ kb_get (pd_kb st) 3 <> [].
  Definition lossless_below (f : fs) (l : loc) : Prop :=
    forall r c t, content f (l ++ r) = Some c -> lossless (segment (read_sizes t c) c).

  (** The keys met when fetching a key: the children of directories. *)
  Inductive entries_of (w : world) : key -> key -> Prop :=
  | eo_refl k : entries_of w k k
  | eo_child k o i k' k'' : reads_as w k (Done o) -> fsitem_of_object o = Some i -> fi_type i = ItDir ->
      In k' (fi_children i) -> entries_of w k' k'' -> entries_of w k k''.
  (** All names in it are proper. *)
  Definition proper_names (w : world) (k : key) : Prop :=
    forall k' o i, entries_of w k k' -> reads_as w k' (Done o) -> fsitem_of_object o = Some i ->
      fi_type i = ItDir -> Forall entry_name (fi_names i).
  (** What was stored is still stored. *)
  Definition still_stored (w w' : world) : Prop :=
    forall k v, assoc k (d_data (cur_db w)) = Some v -> assoc k (d_data (cur_db w')) = Some v.
  (** Following names from directory to directory in the store. *)
  Inductive at_path (w : world) : key -> loc -> key -> Prop :=
  | ap_here k : at_path w k [] k
  | ap_in k o i n k' r k'' : reads_as w k (Done o) -> fsitem_of_object o = Some i -> fi_type i = ItDir ->
      In (k', n) (combine (fi_children i) (fi_names i)) -> at_path w k' r k'' -> at_path w k (n :: r) k''.
  (** The item stored under a key. *)
  Definition item_at (w : world) (k : key) (i : fsitem) : Prop :=
    exists o, reads_as w k (Done o) /\ fsitem_of_object o = Some i.
End Excluded.

(** Two places hold the same files and directories: the same kinds and contents at
    the same relative locations. *)
Definition same_files (f : fs) (l : loc) (f' : fs) (l' : loc) : Prop :=
  forall r, match lookup f (l ++ r), lookup f' (l' ++ r) with
            | Some EDir, Some EDir | Some ESpecial, Some ESpecial | Some EDangling, Some EDangling | None, None => True
            | Some (EFile c _), Some (EFile c' _) => c = c'
            | _, _ => False
            end.
(** ... and their directories are enumerated in the same order. *)
Definition same_order (f : fs) (l : loc) (f' : fs) (l' : loc) : Prop :=
  forall r, children f (l ++ r) = children f' (l' ++ r).

(** What can be stored for sure: files and directories less than [depth] deep,
    file sizes and name lists below 2^62 bytes, valid names. *)
Definition names_size (l : list name) : N := fold_right (fun n s => lenN n + 9 + s)%N 0%N l.
Definition storable (f : fs) (l : loc) (depth : nat) : Prop :=
  forall r e, lookup f (l ++ r) = Some e ->
    length r < depth /\
    match e with
    | EDir => (names_size (children f (l ++ r)) + 200 < 2 ^ 62)%N /\ Forall (fun n => utf8_valid n = true) (children f (l ++ r))
    | EFile c _ => (lenN c + 5 < 2 ^ 62)%N
    | _ => False
    end.
