(** The story of a branch: which commits were made of which files. *)
From Coq Require Import Sorted.
From Verif Require Import Base Key Keyish Cbor Object Path World Store Dir Diff Main SpecStore SpecRun SpecFile SpecDir SpecText SpecShape SpecLive SpecHonest SpecRestore SpecHistory.

(** A commit, its message and the files there were when it was made. *)
Record told := Told { t_key : key; t_message : bytes; t_files : fs }.
(** The files of the newest of some commits. *)
Definition newest_files (L : list told) : option fs := match L with [] => None | t :: _ => Some (t_files t) end.

Section SpecChronicle.
  Context {E : Env}.
  (** The commits made by [snapcd commit] in the repository at [e], [d], newest first.
      Each was made on a branch whose newest entry was the one before, and changed the
      files in a way that [log] can present.  Between two commits anything may happen, as
      long as the database file is there when a process starts. *)
  Definition commits_here (cm : common) (e d : loc) (w : world) (n m : bytes) (before : list key) (k : key) (w' : world) : Prop :=
    exists db, well_used w /\ quiet_disk w /\ stands_in cm w e d db /\ head_named db n /\ history n None (repo_of db) = before /\
      can_store (cm_exclude cm) (abs_path (e ++ d)) (abs_path (e ++ removelast d)) w /\ lossless_below (w_fs w) (e ++ removelast d) /\ (lenN m < 2 ^ 62)%N /\ utf8_valid m = true /\
      run_process cm (CCommit None m None) w = (Some 0%N, w') /\ no_coll (w_hashed w') /\
      hd_error (history n None (repo_of (db_at (w_dbs w') (db_file e d)))) = Some k.
  Inductive chronicle (cm : common) (e d : loc) : world -> list told -> Prop :=
  | ch_first w n m k w' : commits_here cm e d w n m [] k w' -> chronicle cm e d w' [Told k m (w_fs w)]
  | ch_next w v n m k v' t L r : chronicle cm e d w (t :: L) -> later (db_file e d) w v -> commits_here cm e d v n m (t_key t :: r) k v' ->
      keeps_shape (cm_exclude cm) (e ++ d) (e ++ removelast d) (Some (t_files t)) (w_fs v) ->
      chronicle cm e d v' (Told k m (w_fs v) :: t :: L).
  (** What is printed about them. *)
  Inductive chronicle_text (ex : list bytes) (dbl l : loc) : list told -> list event -> Prop :=
  | cht_end : chronicle_text ex dbl l [] []
  | cht_commit t L body rest : counts_text ex dbl l (newest_files L) (t_files t) body -> chronicle_text ex dbl l L rest ->
      chronicle_text ex dbl l (t :: L)
        (Printed "commit" [as_user_key (t_key t)] :: Printed "" [] :: Printed "message" [t_message t] :: Printed "" [] :: body ++ Printed "" [] :: Printed "" [] :: rest).
  (** The argument of [log] stands for [k], or there is none and [k] is the newest entry of
      HEAD's branch. *)
  Definition means (cm : common) (w : world) (db : db) (arg : option keyish) (k : key) : Prop :=
    match arg with Some ki => taken_for cm w ki k | None => exists n r, head_named db n /\ history n None (repo_of db) = k :: r end.
End SpecChronicle.
