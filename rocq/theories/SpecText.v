(** What [show] and [log] are supposed to print (src/display.rs, src/diff.rs). *)
From Coq Require Import Sorted.
From Verif Require Import Base Key Keyish Cbor Object Path World Store File Dir Diff Commit SpecStore SpecRun SpecDir SpecDiff SpecPatch SpecShow SpecOut.

(** The lines of a text ([str::lines]): each ends at a line feed, or at the end of the
    text if something is left there; a carriage return at the end of a line does not
    belong to it. *)
Definition ends_cr (l : bytes) : Prop := exists l', l = l' ++ ["013"%char].
Inductive lines_of : bytes -> list bytes -> Prop :=
| lo_end : lines_of [] []
| lo_line l cr s ls : ~ In "010"%char l -> cr = ["013"%char] \/ cr = [] /\ ~ ends_cr l -> lines_of s ls ->
    lines_of (l ++ cr ++ "010"%char :: s) (l :: ls)
| lo_last l cr : ~ In "010"%char l -> cr = ["013"%char] \/ cr = [] /\ ~ ends_cr l -> l ++ cr <> [] -> lines_of (l ++ cr) [l].

(** The hunks of a line diff: one for each stretch of lines near a change. *)
Definition hunks_from (ds : list difference) (hs : list hunk) : Prop :=
  exists ivl, separated 0 (length (diff_plines ds)) ivl /\
    (forall i, i < length (diff_plines ds) -> (near (diff_plines ds) i <-> exists a b, In (a, b) ivl /\ a <= i < b)) /\
    Forall2 (hunk_at (diff_plines ds)) ivl hs.

(** A list has one entry for each path of [D], in the order of the paths. *)
Definition listed {A} (D : loc -> Prop) (P : loc -> A -> Prop) (l : list (loc * A)) : Prop :=
  StronglySorted loc_lt (map fst l) /\ (forall x, In x (map fst l) <-> D x) /\ forall x a, In (x, a) l -> P x a.

Section SpecText.
  Context {E : Env}.
  (** The patch of a file that was not there, and of one that was. *)
  Definition new_text (x : loc) (bs : bytes) (p : patch) : Prop :=
    exists ls, lines_of bs ls /\ p = Patch (display (named x)) (display (named x)) [Hunk (PRange 0 0) (PRange 0 (lenN ls)) (map LAdd ls)].
  Definition changed_text (x : loc) (before after : bytes) (p : patch) : Prop :=
    exists hs, hunks_from (changeset (lossy before) (lossy after)) hs /\ p = Patch (display (named x)) (display (named x)) hs.

  (** A file of the new tree that the old one does not have, with its key. *)
  Definition new_file (w : world) (new : key) (old : option key) (x : loc) (k : key) : Prop :=
    in_tree w new x k false /\ forall k' d', ~ tree_of w old x k' d'.
  (** A path with another key in the old tree. *)
  Definition changed_file (w : world) (new : key) (old : option key) (x : loc) (k k' : key) : Prop :=
    exists d d', in_tree w new x k d /\ tree_of w old x k' d' /\ k <> k'.

  Definition new_patch (w : world) (new : key) (old : option key) (x : loc) (p : patch) : Prop :=
    exists k bs, new_file w new old x k /\ stored_bytes w k bs /\ utf8_valid bs = true /\ new_text x bs p.
  Definition changed_patch (w : world) (new : key) (old : option key) (x : loc) (p : patch) : Prop :=
    exists k k' before after, changed_file w new old x k k' /\ stored_bytes w k' before /\ stored_bytes w k after /\ changed_text x before after p.
  (** Added and removed lines. *)
  Definition file_stat (w : world) (new : key) (old : option key) (x : loc) (s : nat * nat) : Prop :=
    (exists k bs, new_file w new old x k /\ stored_bytes w k bs /\ s = (newlines bs, 0)) \/
    (exists k k' b a, changed_file w new old x k k' /\ stored_bytes w k' b /\ stored_bytes w k a /\
       s = (only_new (diff_lines (lossy b) (lossy a)), only_old (diff_lines (lossy b) (lossy a)))).

  (** What is printed about the tree [new] compared with [old]. *)
  Definition tree_text (w : world) (kd : kind) (new : key) (old : option key) (l : list event) : Prop :=
    match kd with
    | KPatch => exists A M,
        listed (fun x => exists k, new_file w new old x k) (new_patch w new old) A /\
        listed (fun x => exists k k', changed_file w new old x k k') (changed_patch w new old) M /\
        l = [Printed "patch" [concat (map (fun p => show_patch p ++ ["010"%char]) (map snd (A ++ M)))]]
    | KStat => exists S,
        listed (fun x => (exists k, new_file w new old x k) \/ (exists k k', changed_file w new old x k k')) (file_stat w new old) S /\
        l = map (fun '(x, (a, r)) => Printed "stat" [display (named x); number a; number r]) S
    end.
  (** What is printed about a commit. *)
  Definition commit_text (w : world) (kd : kind) (k : key) (c : commit) (l : list event) : Prop :=
    exists old body, base_tree w c old /\ tree_text w kd (c_tree c) old body /\
      l = Printed "commit" [as_user_key k] :: Printed "" [] :: Printed "message" [at_message (c_attrs c)] :: Printed "" [] :: body.
  (** What is printed about some commits, one after another. *)
  Definition commits_text (w : world) (kd : kind) (ks : list key) (l : list event) : Prop :=
    exists ls, Forall2 (fun k t => exists c, is_commit w k c /\ commit_text w kd k c t) ks ls /\
      l = concat (map (fun t => t ++ [Printed "" []; Printed "" []]) ls).
  (** What is printed about an object: a commit as above, a directory is named, the
      data of a file is written piece by piece. *)
  Inductive object_text (w : world) (kd : kind) : key -> list event -> Prop :=
  | ot_commit k c l : is_commit w k c -> commit_text w kd k c l -> object_text w kd k l
  | ot_dir k o : reads_as w k (Done o) -> o_type o = FSItemDir -> object_text w kd k [Printed "tree" [as_user_key k]]
  | ot_file k o k' l : reads_as w k (Done o) -> o_type o = FSItemFile -> o_keys o = [k'] -> object_text w kd k' l -> object_text w kd k l
  | ot_data k o pieces : reads_as w k (Done o) -> o_type o = FileBlob \/ o_type o = FileBlobTree -> stored_bytes w k (concat pieces) ->
      object_text w kd k (map (fun d => Printed "raw" [d]) pieces).
  (** The key [show] and [log] are about: the one given, or the newest entry of HEAD. *)
  Definition asked_for (w : world) (k : option keyish) (key : key) : Prop :=
    match k with
    | Some ki => denotes w ki key
    | None => exists n l, rp_head (repo_of (cur_db w)) = Some n /\ history n None (repo_of (cur_db w)) = key :: l
    end.
  (** All trees involved in showing [c] are tidy. *)
  Definition tidy_commit (w : world) (c : commit) : Prop :=
    tidy w (c_tree c) /\ forall old, base_tree w c old -> tidy_of w old.
End SpecText.
