(** What the commits of a branch say about the files they were made of. *)
From Coq Require Import Sorted.
From Verif Require Import Base Key Cbor Object Path World Store Diff SpecDir SpecDiff SpecPatch SpecText SpecLive SpecHonest SpecAgain.

Section SpecHistory.
  Context {E : Env}.
  (** What was committed before, if anything was. *)
  Definition committed_before (ex : list bytes) (dbl l : loc) (old : option fs) (x : loc) (e : entry) : Prop :=
    match old with Some f => committed ex dbl l f x e | None => False end.
  (** At and below [x], what is to be committed is the same in [f] and [g]. *)
  Definition same_below (ex : list bytes) (dbl l : loc) (f g : fs) (x : loc) : Prop :=
    (forall r, committed ex dbl l f (x ++ r) EDir <-> committed ex dbl l g (x ++ r) EDir) /\
    (forall r c, (exists st, committed ex dbl l f (x ++ r) (EFile c st)) <-> exists st, committed ex dbl l g (x ++ r) (EFile c st)) /\
    (forall r (keep : name -> bool), committed ex dbl l f (x ++ r) EDir ->
       (forall n, keep n = true <-> included ex dbl (abs_path l) l ((x ++ r) ++ [n])) ->
       filter keep (children f (l ++ x ++ r)) = filter keep (children g (l ++ x ++ r))).
  (** A new file, and one with another content. *)
  Definition new_at (ex : list bytes) (dbl l : loc) (old : option fs) (g : fs) (x : loc) (c : bytes) : Prop :=
    (exists st, now ex dbl l g x (EFile c st)) /\ forall e, ~ committed_before ex dbl l old x e.
  Definition changed_at (ex : list bytes) (dbl l : loc) (old : option fs) (g : fs) (x : loc) (before after : bytes) : Prop :=
    (exists st, now ex dbl l g x (EFile after st)) /\ (exists st, committed_before ex dbl l old x (EFile before st)) /\ before <> after.
  (** Changes that [show] and [log] can present (C40): files stay files, and directories
      below [l] stay as they are; there may be new files and directories in [l], and the
      files in [l] may have any contents.  For [show], new files are text. *)
  Definition keeps_shape (ex : list bytes) (dbl l : loc) (old : option fs) (g : fs) : Prop :=
    match old with
    | None => True
    | Some f => (forall x c st, committed ex dbl l f x (EFile c st) -> exists c' st', committed ex dbl l g x (EFile c' st')) /\
                (forall x, x <> [] -> committed ex dbl l f x EDir -> same_below ex dbl l f g x)
    end.
  Definition presents (ex : list bytes) (dbl l : loc) (old : option fs) (g : fs) : Prop :=
    (forall x c, new_at ex dbl l old g x c -> utf8_valid c = true) /\ keeps_shape ex dbl l old g.
  (** The patch that tells them, in order. *)
  Definition edits_text (ex : list bytes) (dbl l : loc) (old : option fs) (g : fs) (text : list event) : Prop :=
    exists A M,
      listed (fun x => exists c, new_at ex dbl l old g x c) (fun x p => exists c, new_at ex dbl l old g x c /\ new_text x c p) A /\
      listed (fun x => exists b a, changed_at ex dbl l old g x b a) (fun x p => exists b a, changed_at ex dbl l old g x b a /\ changed_text x b a p) M /\
      text = [Printed "patch" [concat (map (fun p => show_patch p ++ ["010"%char]) (map snd (A ++ M)))]].
  (** The added and removed lines of a file, and the lines that tell them, in order. *)
  Definition counted_at (ex : list bytes) (dbl l : loc) (old : option fs) (g : fs) (x : loc) (s : nat * nat) : Prop :=
    (exists c, new_at ex dbl l old g x c /\ s = (newlines c, 0)) \/
    (exists b a, changed_at ex dbl l old g x b a /\ s = (only_new (diff_lines (lossy b) (lossy a)), only_old (diff_lines (lossy b) (lossy a)))).
  Definition counts_text (ex : list bytes) (dbl l : loc) (old : option fs) (g : fs) (text : list event) : Prop :=
    exists S,
      listed (fun x => (exists c, new_at ex dbl l old g x c) \/ (exists b a, changed_at ex dbl l old g x b a)) (counted_at ex dbl l old g) S /\
      text = map (fun '(x, (a, r)) => Printed "stat" [display (named x); number a; number r]) S.
End SpecHistory.
