(** Running one process at a time. *)
From Verif Require Import Base World Lock.

(** A process about to start: its program and its own state. *)
Record job := Job { j_run : M unit; j_script : script true j_run; j_world : world }.
Definition start (j : job) : proc := Proc (Rest (j_run j) (j_script j)) (j_world j) Idle.
(** The process running alone on the database [d], from its start to its end. *)
Definition alone (j : job) (d : db) : outcome unit * world := j_run j (with_db d (j_world j)).

(** Processes running one after another, with the database each leaves behind. *)
Definition last_db (d0 : db) (h : list (nat * db)) : db := last (map snd h) d0.

(** A process ended like this: outcome, and everything of it but the databases. *)
Definition ended_like (p : proc) (r : outcome unit * world) : Prop :=
  pr_left p = Ended (fst r) /\ set_dbs (pr_world p) [] = set_dbs (snd r) [].
Definition ended (p : proc) : Prop := exists o, pr_left p = Ended o.

(** [one_after_another run d l d']: starting with the database [d], the processes
    [l] run alone in this order and leave [d']. *)
Inductive one_after_another (run : nat -> db -> outcome unit * world) : db -> list nat -> db -> Prop :=
| oaa_none d : one_after_another run d [] d
| oaa_next d i l d' : one_after_another run (disk (snd (run i d))) l d' -> one_after_another run d (i :: l) d'.
