(** What storing a file is supposed to do, in terms of the bytes delivered by the
    reader and the objects in the store. *)
From Verif Require Import Base Key Object World Store File.

(** The bytes a reader delivers until end of input (an empty read or the end of
    the script), and whether it fails before that. *)
Fixpoint stream (reads : list readres) : bytes * bool :=
  match reads with
  | [] => ([], false)
  | RData [] :: _ => ([], false)
  | RData d :: r => let '(s, e) := stream r in (d ++ s, e)
  | RInterrupted :: r => stream r
  | RError :: _ => ([], true)
  end.
(** The same script without interrupted reads. *)
Definition strip (reads : list readres) : list readres :=
  filter (fun r => match r with RInterrupted => false | _ => true end) reads.

(** The contents of the blobs among some objects. *)
Definition blobs (l : list object) : list bytes :=
  flat_map (fun o => match o_type o with FileBlob => [o_data o] | _ => [] end) l.

(** Reads of at most 65536 bytes, all but the last of exactly that size. *)
Definition full_read (d : bytes) : Prop := lenN d = 65536%N.
Fixpoint full_reads (reads : list readres) : Prop :=
  match reads with
  | [] => True
  | RData d :: r => (lenN d <= 65536)%N /\ (full_read d \/ fst (stream r) = []) /\ full_reads r
  | _ :: r => full_reads r
  end.

Section SpecFile.
  Context {E : Env}.
  (** Reading the key gives the bytes, when nothing goes wrong; the nesting of
      stored trees is at most 6. *)
  Definition reads_data (w : world) (k : key) (bs : bytes) : Prop :=
    forall fuel, 6 <= fuel -> fst (read_data sqlite_ds vec_write fuel k [] (set_faults w [])) = Done bs.
  (** The objects put between two states, in order. *)
  Definition puts_between (w w' : world) (objs : list object) : Prop :=
    w_hashed w' = rev (map encode_object objs) ++ w_hashed w.
End SpecFile.
