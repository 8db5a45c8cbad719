(** Machines on which inode, modification time and size tell contents apart. *)
From Coq Require Import Sorted.
From Verif Require Import Base Key Cbor Object Path World Store File Dir Diff Main SpecStore SpecRun SpecProc SpecDir SpecCache SpecDiff SpecPatch SpecOut SpecShape SpecLive.

Section SpecHonest.
  Context {E : Env}.
  (** [T] says which content goes with which inode, time and size; the file system
      conforms to it. *)
  Definition agrees (T : cachekey -> bytes) (f : fs) : Prop :=
    forall l c st, lookup f l = Some (EFile c st) -> triple_ok (triple c st) /\ T (triple c st) = c.
  (** Machines that were used sensibly (C70), where this was so whenever a process
      started; anything may have happened in between, and anything may have failed.
      Nobody but the program adds to the cache. *)
  Inductive honest (T : cachekey -> bytes) : world -> Prop :=
  | ho_start w : w_dbs w = [] -> w_cache w = [] -> honest T w
  | ho_process w cm c : honest T w ->
      (forall st w1, starts cm w st w1 -> fs_ok (w_fs w1) /\ sensible w1 c /\ agrees T (w_fs w1)) ->
      honest T (snd (run_process cm c w))
  | ho_outside w w' : honest T w -> outside w w' -> w_cache w' = w_cache w \/ w_cache w' = [] -> honest T w'.
  (** What is to be said of the file system [g] when [f] was committed from [l], with
      the database at [dbl]: what is there now; what is new; which files have a content
      they did not have, or were directories. *)
  Definition now (ex : list bytes) (dbl l : loc) (g : fs) (x : loc) (e : entry) : Prop := x <> [] /\ committed ex dbl l g x e.
  Definition appeared (ex : list bytes) (dbl l : loc) (f g : fs) (x : loc) : Prop :=
    (exists e, now ex dbl l g x e) /\ forall e, ~ committed ex dbl l f x e.
  Definition rewritten (ex : list bytes) (dbl l : loc) (f g : fs) (x : loc) : Prop :=
    exists c st e, now ex dbl l g x (EFile c st) /\ committed ex dbl l f x e /\ forall st', e <> EFile c st'.
  (** [A] lists the topmost new entries, files and directories apart, [M] the others,
      both in order. *)
  Definition edits (ex : list bytes) (dbl l : loc) (f g : fs) (A : list (loc * bool)) (M : list loc) : Prop :=
    StronglySorted loc_lt (map fst A) /\ StronglySorted loc_lt M /\
    (forall x file, In (x, file) A <-> topmost (appeared ex dbl l f g) x /\ (file = false <-> lookup g (l ++ x) = Some EDir)) /\
    (forall x, In x M <-> rewritten ex dbl l f g x).
  (** Nothing is new and every file has the content it had.  (A directory may have
      taken the place of a file, see C39.) *)
  Definition unedited (ex : list bytes) (dbl l : loc) (f g : fs) : Prop :=
    (forall x e, now ex dbl l g x e -> exists e0, committed ex dbl l f x e0) /\
    (forall x c st, now ex dbl l g x (EFile c st) -> exists st0, committed ex dbl l f x (EFile c st0)).
End SpecHonest.
