(** C31, C32: nothing referred to is missing, and reading comes to an end. *)
From Verif Require Import Base Key Object Path World Store File Dir Commit Main
  SpecRun SpecClosure Closure Ends Toy ToyRepo.

(** ** C31: referential integrity, in every state reachable by any sequence of
    commands, with any faults, panics and crashes. *)
Theorem C31_no_dangling (E : Env) w l : reachable w -> no_dangling (db_at (w_dbs w) l).
Proof. exact (reachable_no_dangling w l). Qed.

(** Reading back from there never fails for want of an object. *)
Theorem C31_reads_find (E : Env) w l k o w' : reachable w -> cur_db w' = db_at (w_dbs w) l ->
  object_at (db_at (w_dbs w) l) (as_db_key k) = Some o -> w_faults w' = [] -> forall fuel s p,
  fst (read_data sqlite_ds vec_write fuel k s w') <> Error ESql /\
  fst (internal_walk_fs_items sqlite_ds fuel k p w') <> Error ESql.
Proof. exact (reads_found w l k o w'). Qed.

(** ** C32: no cycles. *)
Theorem C32_acyclic (E : Env) w l : reachable w ->
  grounded (db_at (w_dbs w) l) /\ forall k, ~ reaches (db_at (w_dbs w) l) k k.
Proof. exact (reachable_acyclic w l). Qed.

(** A recursion depth of one more than the number of stored objects is enough for
    every file, every walk and every fetch ... *)
Theorem C32_reads_end (E : Env) w l w' : reachable w -> cur_db w' = db_at (w_dbs w) l ->
  forall fuel k, length (d_data (db_at (w_dbs w) l)) < fuel ->
  (forall s, fst (read_data sqlite_ds vec_write fuel k s w') <> Diverged) /\
  (forall p, fst (internal_walk_fs_items sqlite_ds fuel k p w') <> Diverged) /\
  (forall p, fst (get_fs_item sqlite_ds fuel k p w') <> Diverged).
Proof. exact (reads_end w l w'). Qed.
(** ... and the log loop makes at most as many rounds. *)
Theorem C32_show_and_log_end (E : Env) w l w' : reachable w -> cur_db w' = db_at (w_dbs w) l ->
  length (d_data (db_at (w_dbs w) l)) + 1 < stack ->
  (forall k kd, fst (display_obj sqlite_ds stack k kd w') <> Diverged) /\
  (length (d_data (db_at (w_dbs w) l)) < loop_bound -> forall k kd, fst (log_obj sqlite_ds k kd w') <> Diverged).
Proof. exact (shows_end w l w'). Qed.

(** A repository with one commit of a tree of two files: seven objects, one entry
    in the reflog. *)
Definition has_commit (d : db) : bool :=
  match d_reflog d with
  | r :: _ => match object_at d (r_key r) with Some o => Nat.eqb (length (o_keys o)) 1 | None => false end
  | [] => false
  end.
Lemma has_commit_true d : has_commit d = true ->
  exists r o, In r (d_reflog d) /\ object_at d (r_key r) = Some o /\ length (o_keys o) = 1.
Proof.
  unfold has_commit. destruct (d_reflog d) as [|r l]; [discriminate|].
  destruct (object_at d (r_key r)) as [o|] eqn:O; [|discriminate]. intro H. exists r, o.
  split; [left; reflexivity|]. split; [exact O|]. apply PeanoNat.Nat.eqb_eq, H.
Qed.
Example C31_C32_example :
  reachable toy_committed /\ length (d_data (db_at (w_dbs toy_committed) toy_db)) = 7 /\
  cur_db (connected toy_committed toy_db) = db_at (w_dbs toy_committed) toy_db /\
  w_faults (connected toy_committed toy_db) = [] /\
  length (d_data (db_at (w_dbs toy_committed) toy_db)) + 1 < stack /\
  length (d_data (db_at (w_dbs toy_committed) toy_db)) < loop_bound /\
  exists r o, In r (d_reflog (db_at (w_dbs toy_committed) toy_db)) /\
    object_at (db_at (w_dbs toy_committed) toy_db) (r_key r) = Some o /\ length (o_keys o) = 1.
Proof.
  split; [exact toy_committed_reachable|]. destruct toy_committed_size as [S1 S2].
  rewrite S1. split; [reflexivity|]. split; [apply connected_db|]. split; [vm_compute; reflexivity|].
  split; [apply PeanoNat.Nat.ltb_lt; reflexivity|]. split; [apply PeanoNat.Nat.ltb_lt; reflexivity|].
  apply has_commit_true. vm_compute. reflexivity.
Qed.

Print Assumptions C31_no_dangling.
Print Assumptions C31_reads_find.
Print Assumptions C32_acyclic.
Print Assumptions C32_reads_end.
Print Assumptions C32_show_and_log_end.
