(** What commands take as a key and what they print. *)
From Coq Require Import Sorted.
From Verif Require Import Base Key Keyish Cbor Path World Store Diff Main SpecKey SpecResolve SpecStore SpecRun SpecCmd SpecDir SpecCache SpecDiff SpecPatch SpecShow.

Section SpecOut.
  Context {E : Env}.
  (** The key a key argument stands for: the newest entry of a branch, or the only
      stored key in the range of a prefix.  (For a full key the pinned code takes the
      bytes stored under it, see C08.) *)
  Definition denotes (w : world) (ki : keyish) (k : key) : Prop :=
    match ki with
    | KReflog _ rm n => exists l, history n rm (repo_of (cur_db w)) = k :: l
    | KRange _ a e => (stored w k /\ in_range a e (as_db_key k)) /\ forall k', stored w k' -> in_range a e (as_db_key k') -> k' = k
    | KKey _ b => rp_objects (repo_of (cur_db w)) b = Some (as_db_key k)
    end.
  (** Between two states exactly these lines were printed, in this order. *)
  Definition says (w w' : world) (l : list event) : Prop := w_out w' = rev l ++ w_out w.
  (** The same database, files and working directory. *)
  Definition untouched (w w' : world) : Prop :=
    cur_db w' = cur_db w /\ w_fs w' = w_fs w /\ w_cwd w' = w_cwd w /\ w_conn w' = w_conn w.
  (** The repository has got one more push, and nothing else. *)
  Definition pushed (old new : repo) (p : push) : Prop :=
    (forall k, rp_objects new k = rp_objects old k) /\ rp_head new = rp_head old /\ rp_log new = p :: rp_log old.
  (** HEAD has a new name, and nothing else changed. *)
  Definition head_set (old new : repo) (n : bytes) : Prop :=
    (forall k, rp_objects new k = rp_objects old k) /\ rp_head new = Some n /\ rp_log new = rp_log old.

  (** src/main.rs:290-296: the entries of a branch, the newest first and with the
      highest number, the oldest with number one. *)
  Definition numbered (ks : list key) : list event :=
    map (fun '(i, k) => Printed "entry" [number i; as_user_key k]) (combine (rev (seq 1 (length ks))) ks).

  (** src/diff.rs:211-241: a title, then one line for each path; nothing for an empty list. *)
  Definition listing (title : string) (l : list (path * bool)) : list event :=
    match l with
    | [] => []
    | _ => Printed title [] :: map (fun '(p, plain) => Printed (if plain : bool then "  "%string else "  /"%string) [display p]) l
    end.
  Definition has_key (k : option key) : bool := match k with Some _ => true | None => false end.
  Definition report (added deleted modified : list (path * bool)) : list event :=
    listing "added:" added ++ listing "deleted:" deleted ++ listing "modified:" modified.

  (** At [x] there is something on disk that is not in the tree. *)
  Definition fresh (ex : list bytes) (fo p : path) (w : world) (to : option key) (x : loc) : Prop :=
    (exists e, on_disk ex fo p w x e) /\ forall k d, ~ tree_of w to x k d.
  Definition topmost (P : loc -> Prop) (x : loc) : Prop := P x /\ forall y, inside y x -> ~ P y.
  (** What there is to say about the files at [p] against a tree: everything in the tree
      is on disk, [A] lists (files and directories apart) the topmost new entries,
      [M] the files whose content does not have the key in the tree. *)
  Definition differences (ex : list bytes) (fo p : path) (w : world) (to : option key) (log : list bytes) (A : list (loc * bool)) (M : list loc) : Prop :=
    StronglySorted loc_lt (map fst A) /\ StronglySorted loc_lt M /\
    (forall x k d, tree_of w to x k d -> exists e, on_disk ex fo p w x e) /\
    (forall x file, In (x, file) A <-> topmost (fresh ex fo p w to) x /\ (file = false <-> on_disk ex fo p w x EDir)) /\
    (forall x, In x M -> exists c st k d k', on_disk ex fo p w x (EFile c st) /\ tree_of w to x k d /\ hashed_as log c k' /\ k' <> k) /\
    (forall x c st k d, on_disk ex fo p w x (EFile c st) -> tree_of w to x k d -> In x M \/ hashed_as log c k).
  Definition report_lists (A : list (loc * bool)) (M : list loc) : list event :=
    report (map (fun '(x, file) => (named x, file)) A) [] (map (fun x => (named x, true)) M).
  (** The tree [compare] is about: the key given, or the tree of HEAD. *)
  Definition compared_to (w : world) (k : option keyish) (t : key) : Prop :=
    match k with Some ki => denotes w ki t | None => head_tree w (Some t) end.
  (** The lines of [compare --stat]: one for each new file, with the lines of its
      content, and one for each file whose content does not have the key in the tree. *)
  Definition stat_differences (ex : list bytes) (fo p : path) (w : world) (t : key) (w2 : world) (l : list filestat) : Prop :=
    Sorted (fun a b => path_cmp (st_name a) (st_name b) <> Gt) l /\
    (forall s, In s l -> exists x e, on_disk ex fo p w x e /\ e <> EDir /\
       ((forall k d, ~ tree_of w (Some t) x k d) /\
        (exists q c st k b, stat (w_fs w) (w_cwd w) (named x) = Some (q, EFile c st) /\ hashed_as (w_hashed w2) c k /\ stored_bytes w2 k b /\ s = FileStat (named x) (newlines b) 0) \/
        (exists c st k d k' b a, e = EFile c st /\ tree_of w (Some t) x k d /\ hashed_as (w_hashed w2) c k' /\ k' <> k /\ stored_bytes w2 k b /\ stored_bytes w2 k' a /\
           s = FileStat (named x) (only_new (diff_lines (lossy b) (lossy a))) (only_old (diff_lines (lossy b) (lossy a)))))) /\
    (forall x e, on_disk ex fo p w x e -> e <> EDir -> (forall k d, ~ tree_of w (Some t) x k d) -> In (named x) (map st_name l)) /\
    (forall x c st k d, on_disk ex fo p w x (EFile c st) -> tree_of w (Some t) x k d -> In (named x) (map st_name l) \/ hashed_as (w_hashed w2) c k).
  (** Files, working directory, connection and output are the same. *)
  Definition quietly (w w' : world) : Prop := w_fs w' = w_fs w /\ w_cwd w' = w_cwd w /\ w_conn w' = w_conn w /\ w_out w' = w_out w.
  (** A line of [debug walk-tree] (src/main.rs:345-357). *)
  Definition item_event (e : path * (key * bool)) : event :=
    let '(p, (k, d)) := e in Printed "item" [path_text p; as_db_key k; if d : bool then str "true" else str "false"].
End SpecOut.
