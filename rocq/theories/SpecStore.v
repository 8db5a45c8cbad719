(** Specification of the object store, independent of the SQL model: a
    repository is a partial function from keys to objects, a partial function
    from names to settings, and a list of pushed references. *)
From Verif Require Import Base Key Cbor SpecKey.
From Coq Require Import Sorted.

(** A pushed reference: branch name, remote, key. *)
Record push := Push { ph_name : bytes; ph_remote : option bytes; ph_key : key }.

Record repo := Repo {
  rp_objects : bytes -> option bytes;
  rp_head : option bytes;
  rp_log : list push                     (* newest first *)
}.
Definition repo_empty : repo := Repo (fun _ => None) None [].

(** Committed repository and, inside a transaction, the uncommitted one. *)
Record spec := Spec { sp_committed : repo; sp_pending : option repo }.
Definition sp_current (s : spec) : repo :=
  match sp_pending s with Some p => p | None => sp_committed s end.
Definition sp_update (f : repo -> repo) (s : spec) : spec :=
  match sp_pending s with
  | Some p => Spec (sp_committed s) (Some (f p))
  | None => Spec (f (sp_committed s)) None
  end.

(** The store's interface. *)
Inductive call :=
| CallPut (data : bytes)
| CallGet (k : key)
| CallExists (k : key)
| CallBetween (start : bytes) (end_ : option bytes)
| CallPutHead (h : bytes)
| CallGetHead
| CallPush (p : push)
| CallLatest (n : bytes) (remote : option bytes)
| CallHistory (n : bytes) (remote : option bytes)
| CallBegin
| CallCommit
| CallRollback.
Inductive reply :=
| ReplyUnit
| ReplyBytes (b : bytes)
| ReplyKey (k : key)
| ReplyBool (b : bool)
| ReplyHead (h : option bytes)
| ReplyKeys (l : list key)
| ReplyList (l : list bytes).
(** What a caller sees: an answer; or a failure, after which SQLite may have
    rolled the transaction back. *)
Inductive seen := Answered (r : reply) | Failed (rolled_back : bool).

Section Spec.
  Context (hash : bytes -> arr32).

  (** First write wins for objects, last write wins for HEAD, pushes accumulate. *)
  Definition spec_put (data : bytes) (r : repo) : repo :=
    let k := as_db_key (Blake3B (hash data)) in
    Repo (fun x => match rp_objects r x with
                   | Some v => Some v
                   | None => if bytes_eqb k x then Some data else None
                   end) (rp_head r) (rp_log r).
  Definition spec_step (c : call) (a : seen) (s : spec) : spec :=
    match a with
    | Failed true => Spec (sp_committed s) None
    | Failed false => s
    | Answered _ =>
        match c with
        | CallPut d => sp_update (spec_put d) s
        | CallPutHead h => sp_update (fun r => Repo (rp_objects r) (Some h) (rp_log r)) s
        | CallPush p => sp_update (fun r => Repo (rp_objects r) (rp_head r) (p :: rp_log r)) s
        | CallBegin => Spec (sp_committed s) (Some (sp_committed s))
        | CallCommit => Spec (sp_current s) None
        | CallRollback => Spec (sp_committed s) None
        | _ => s
        end
    end.

  Definition pushed_under (n : bytes) (remote : option bytes) (p : push) : bool :=
    bytes_eqb (ph_name p) n &&
    match ph_remote p, remote with
    | None, None => true
    | Some a, Some b => bytes_eqb a b
    | _, _ => false
    end.
  (** Keys pushed under a name and remote, newest first. *)
  Definition history (n : bytes) (remote : option bytes) (r : repo) : list key :=
    map ph_key (filter (pushed_under n remote) (rp_log r)).

  (** The answers a call may give. *)
  Definition spec_answer (c : call) (s : spec) (a : reply) : Prop :=
    let r := sp_current s in
    match c with
    | CallPut d => a = ReplyKey (Blake3B (hash d))
    | CallGet k => exists v, rp_objects r (as_db_key k) = Some v /\ a = ReplyBytes v
    | CallExists k =>
        a = ReplyBool (match rp_objects r (as_db_key k) with Some _ => true | None => false end)
    | CallBetween start end_ =>
        exists l, a = ReplyList l /\ StronglySorted spec_lt l /\
          forall k, In k l <-> (rp_objects r k <> None /\ in_range start end_ k)
    | CallGetHead => a = ReplyHead (rp_head r)
    | CallLatest n remote => exists k, hd_error (history n remote r) = Some k /\ a = ReplyKey k
    | CallHistory n remote => a = ReplyKeys (history n remote r)
    | CallPutHead _ | CallPush _ => a = ReplyUnit
    | CallBegin => sp_pending s = None /\ a = ReplyUnit
    | CallCommit | CallRollback => sp_pending s <> None /\ a = ReplyUnit
    end.

  Fixpoint spec_run (t : list (call * seen)) (s : spec) : spec :=
    match t with
    | [] => s
    | (c, a) :: r => spec_run r (spec_step c a s)
    end.
  (** Every answer in a run is one the specification allows at that point. *)
  Fixpoint spec_allows (t : list (call * seen)) (s : spec) : Prop :=
    match t with
    | [] => True
    | (c, a) :: r =>
        match a with Answered x => spec_answer c s x | Failed _ => True end
        /\ spec_allows r (spec_step c a s)
    end.

  (** The calls that have an answer; without faults these must be answered, and
      the others must fail without losing the transaction. *)
  Definition has_answer (c : call) (s : spec) : Prop :=
    let r := sp_current s in
    match c with
    | CallGet k => rp_objects r (as_db_key k) <> None
    | CallGetHead => match rp_head r with Some h => utf8_valid h = true | None => True end
    | CallLatest n remote => history n remote r <> []
    | CallBegin => sp_pending s = None
    | CallCommit | CallRollback => sp_pending s <> None
    | _ => True
    end.
  Fixpoint spec_answers (t : list (call * seen)) (s : spec) : Prop :=
    match t with
    | [] => True
    | (c, a) :: r =>
        (has_answer c s -> exists x, a = Answered x) /\ (~ has_answer c s -> a = Failed false)
        /\ spec_answers r (spec_step c a s)
    end.
End Spec.
