(** What happens to a write made at the start of a trace of store calls. *)
From Verif Require Import Base Key SpecStore.

Inductive fate := Lost | Pending | Saved.
(** [inside]: was the write made inside a transaction?  Outside it is saved at
    once; inside, the first COMMIT saves it and the first ROLLBACK, or failure that
    makes SQLite roll back, loses it. *)
Fixpoint fate_of (inside : bool) (t : list (call * seen)) : fate :=
  if inside then
    match t with
    | [] => Pending
    | (CallCommit, Answered _) :: _ => Saved
    | (CallRollback, Answered _) :: _ => Lost
    | (_, Failed true) :: _ => Lost
    | _ :: r => fate_of true r
    end
  else Saved.

(** Traces without rollback: the last name given to HEAD, and the keys pushed
    under a name and remote, newest first. *)
Fixpoint last_head (t : list (call * seen)) (h : option bytes) : option bytes :=
  match t with
  | [] => h
  | (CallPutHead x, Answered _) :: r => last_head r (Some x)
  | _ :: r => last_head r h
  end.
Fixpoint pushed_in (n : bytes) (remote : option bytes) (t : list (call * seen)) (l : list key) : list key :=
  match t with
  | [] => l
  | (CallPush p, Answered _) :: r =>
      pushed_in n remote r (if pushed_under n remote p then ph_key p :: l else l)
  | _ :: r => pushed_in n remote r l
  end.
Definition rolls_back (x : call * seen) : bool :=
  match x with (CallRollback, Answered _) | (_, Failed true) => true | _ => false end.
