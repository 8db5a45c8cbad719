(** A small repository made by running the program, used by the examples only. *)
From Verif Require Import Base Key Cbor Object Path World Store Main SpecRun Toy.

Definition in_r (n : bytes) : loc := [str "r"; n].
Definition toy_fs : fs :=
  [([str "r"], EDir); (in_r (str "f"), EFile (str "hello") (Stamp 7 100)); (in_r (str "s"), EDir);
   (in_r (str "s") ++ [str "g"], EFile (str "a") (Stamp 8 100))].
Definition toy_start : world := World toy_fs [str "r"] [] [] NoTxn [] None [] [] [] 0.
Definition toy_cm : common := Common (parse_path (str ".snapcd")) [].
Definition toy_db : loc := [str "r"; str ".snapcd"; str "snapcd.db"].

(** [snapcd init], then [snapcd commit -m first]. *)
Definition toy_inited : world := snd (run_process toy_cm CInit toy_start).
Definition toy_committed : world := snd (run_process toy_cm (CCommit None (str "first") None) toy_inited).

Lemma toy_inited_reachable : reachable toy_inited.
Proof. apply reach_process, reach_start. reflexivity. Qed.
Lemma toy_committed_reachable : reachable toy_committed.
Proof. apply reach_process, toy_inited_reachable. Qed.
Lemma toy_committed_size : length (d_data (db_at (w_dbs toy_committed) toy_db)) = 7 /\
  length (d_reflog (db_at (w_dbs toy_committed) toy_db)) = 1.
Proof. vm_compute. split; reflexivity. Qed.

(** A connection to the repository. *)
Definition connected (w : world) (l : loc) : world := set_conn (close_all w) l.
Lemma connected_db w l : cur_db (connected w l) = db_at (w_dbs w) l.
Proof. reflexivity. Qed.
