(** Going back to an old commit. *)
From Verif Require Import Base Key Keyish Cbor Object Path World Store Main SpecStore SpecRun SpecProc SpecFile SpecDir SpecShow SpecOut SpecShape SpecLive SpecCheckout.

Section SpecRestore.
  Context {E : Env}.
  (** The database file of the repository in [e]. *)
  Definition db_file (e : loc) (d : list name) : loc := e ++ d ++ [str "snapcd.db"].
  (** A machine without failures, standing somewhere in the repository in [e], whose
      database is [db]. *)
  Definition stands_in (cm : common) (w : world) (e : loc) (d : list name) (db : db) : Prop :=
    w_faults w = [] /\ cache_there w /\ fs_ok (w_fs w) /\ repository_at cm w e d db.
  (** HEAD is text. *)
  Definition head_named (d : db) (n : bytes) : Prop := rp_head (repo_of d) = Some n /\ utf8_valid n = true.
  (** The files and directories at [l] are those of [f] that were committed, and those of
      [g] that were left alone; outside of [l] they are those of [g]. *)
  Definition restored (ex : list bytes) (dbl l : loc) (f g h : fs) : Prop :=
    (forall r c, content h (l ++ r) = Some c <->
       (content f (l ++ r) = Some c /\ included ex dbl (abs_path l) l r) \/
       (content g (l ++ r) = Some c /\ left_alone ex dbl l f r)) /\
    (forall r, lookup h (l ++ r) = Some EDir <->
       committed ex dbl l f r EDir \/ (lookup g (l ++ r) = Some EDir /\ left_alone ex dbl l f r)) /\
    (forall x, ~ under l x -> lookup h x = lookup g x).
  (** A process started here takes [ki] for [k]. *)
  Definition taken_for (cm : common) (w : world) (ki : keyish) (k : key) : Prop :=
    forall st w1, starts cm w st w1 -> denotes w1 ki k.
End SpecRestore.
