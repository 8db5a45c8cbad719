(** What stands in the way of storing files. *)
From Verif Require Import Base Key Keyish Cbor Object Path World Store File Filter Dir Diff Main SpecStore StoreCalls SpecRun SpecProc SpecFile SpecDir SpecCache SpecDiff SpecCmd SpecClosure SpecShape SpecLive.

Section Storing.
  Context {E : Env}.
  (** The command stores the files at [q]; on a branch it can name, with a message of
      any size that fits on a disk. *)
  Definition stores_path (s : ds_state) (w : world) (c : command) (q : path) : Prop :=
    match c with
    | CInsert p => q = p
    | CCommit p m r => q = match p with Some x => x | None => ds_repo s end /\ (lenN m < 2 ^ 62)%N /\ (r = None -> has_head w)
    | _ => False
    end.
  (** There is something at [q], also behind links. *)
  Definition something_at (w : world) (q : path) (l : loc) : Prop := exists e, stat (w_fs w) (w_cwd w) q = Some (l, e) /\ e <> EDangling.
  (** A link come across leads nowhere, or something not excluded is neither file nor
      directory. *)
  Definition oddity (ex : list bytes) (dbl : loc) (f : fs) (p : path) (l : loc) : Prop :=
    exists r, (lookup f (l ++ r) = Some EDangling /\ reached ex dbl p l r) \/ (lookup f (l ++ r) = Some ESpecial /\ included ex dbl p l r).
  (** Something not excluded has a name that is not text. *)
  Definition odd_name (ex : list bytes) (dbl : loc) (f : fs) (p : path) (l : loc) : Prop :=
    exists r n e, lookup f (l ++ r ++ [n]) = Some e /\ included ex dbl p l (r ++ [n]) /\ utf8_valid n = false.
  (** Nothing is nested deeper than the stack allows. *)
  Definition shallow (f : fs) (l : loc) : Prop := forall r e, lookup f (l ++ r) = Some e -> length r < stack.

  (** The process says [fatal:] and exits with 0. *)
  Definition says_fatal (cm : common) (c : command) (st : option ds_state) (w w1 : world) : Prop :=
    exists w2 w' e, run_command cm st c w1 = (Error e, w2) /\ run_process cm c w = (Some 0%N, w') /\ w_out w' = Printed "fatal:" (error_message e) :: w_out w2.
  (** The process runs its command to the end and exits with 0. *)
  Definition does_it (cm : common) (c : command) (st : option ds_state) (w w1 : world) : Prop :=
    exists w2 w', run_command cm st c w1 = (Done tt, w2) /\ run_process cm c w = (Some 0%N, w') /\ w_out w' = w_out w2.
End Storing.
