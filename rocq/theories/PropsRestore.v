(** Property C79: an old commit can be restored. *)
From Verif Require Import Base BaseFacts Key Keyish Cbor Object Path World WorldFacts Store File Filter Dir Diff Commit Main SpecStore SpecRun SpecProc SpecFile SpecDir SpecClosure
  SpecCache SpecDiff SpecPatch SpecShow SpecOut SpecCmd SpecText SpecShape SpecCheckout SpecLive LiveCmd LiveStart LiveStory FsFacts CmdFacts OutFacts ShapeTop Checks Toy ToyRepo
  SpecRestore RestoreFacts PropsMain PropsShow PropsCmd PropsShape PropsLive PropsCheckout PropsStory.

(** ** C79 *)
(** What can be stored is committed, as [k] on HEAD's branch.  Then anything may happen,
    as long as the database file is there when a process starts: processes with any
    failures, other commits, edits of the files.  Whenever [k] is the newest commit of
    HEAD's branch, whichever that is, and there is room, [checkout] exits with 0, prints
    nothing, and the files and directories are then exactly those that were committed,
    with their contents, and those that are excluded and in a directory that was
    committed.
    Outside of the repository nothing changes.
    And whenever some prefix or branch stands for [k], [ref update] with it exits with 0,
    prints nothing and changes no file, and [checkout] restores the files likewise. *)
Theorem C79_restore :
  forall (E : Env) cm w e d db n m, well_used w -> quiet_disk w -> stands_in cm w e d db -> head_named db n -> globs_ok cm ->
  let l := e ++ removelast d in let dbl := e ++ d in let ex := cm_exclude cm in
  can_store ex (abs_path dbl) (abs_path l) w -> lossless_below (w_fs w) l -> in_home l -> (lenN m < 2 ^ 62)%N -> utf8_valid m = true ->
  exists w', run_process cm (CCommit None m None) w = (Some 0%N, w') /\ w_out w' = w_out w /\ w_fs w' = w_fs w /\ well_used w' /\
    (no_coll (w_hashed w') -> exists k, history n None (repo_of (db_at (w_dbs w') (db_file e d))) = k :: history n None (repo_of db) /\
       (forall v db1 n1 r, later (db_file e d) w' v -> well_used v -> stands_in cm v e d db1 -> no_coll (w_hashed v) -> length (d_data db1) <= stack ->
          head_named db1 n1 -> history n1 None (repo_of db1) = k :: r -> room_for ex dbl l (w_fs w) (w_fs v) ->
          exists v', run_process cm CCheckout v = (Some 0%N, v') /\ w_out v' = w_out v /\ restored ex dbl l (w_fs w) (w_fs v) (w_fs v')) /\
       (forall v db1 n1 ki, later (db_file e d) w' v -> well_used v -> stands_in cm v e d db1 -> no_coll (w_hashed v) -> head_named db1 n1 -> taken_for cm v ki k ->
          exists u, run_process cm (CRefUpdate ki None) v = (Some 0%N, u) /\ w_fs u = w_fs v /\ w_out u = w_out v /\
            forall u1 db2, outside u u1 -> stands_in cm u1 e d db2 -> length (d_data db2) <= stack -> no_coll (w_hashed u1) -> room_for ex dbl l (w_fs w) (w_fs u1) ->
            exists u2, run_process cm CCheckout u1 = (Some 0%N, u2) /\ w_out u2 = w_out u1 /\ restored ex dbl l (w_fs w) (w_fs u1) (w_fs u2))).
Proof. intros E cm w e d db n m. apply back_again. Qed.
Print Assumptions C79_restore.

(** Examples. *)
#[local] Existing Instance co_env.
(** The repository of C72 is committed, edited, and committed again ... *)
Lemma rs_stands : stands_in co_cm co_inited co_home [str ".snapcd"] st_db.
Proof. split; [exact (proj1 st_quiet)|]. split; [exact I|]. split; [apply fs_okb_ok; vm_compute; reflexivity|exact st_at]. Qed.
Definition rs_two : world := snd (run_process co_cm (CCommit None (str "second") None) co_edited).
Definition rs_db : db := db_at (w_dbs rs_two) (db_file co_home [str ".snapcd"]).
Definition rs_old : key := hd ct_tree (history (str "master") None (repo_of st_edited)).
Lemma rs_used : well_used rs_two.
Proof. apply used_step; [exact (used_fs _ _ st_used2)|vm_compute; reflexivity|reflexivity]. Qed.
Lemma rs_later : later (db_file co_home [str ".snapcd"]) co_committed rs_two.
Proof. apply later_process; [eapply later_outside; [apply later_refl|exact (outside_fs _ _)]|apply there_ok; vm_compute; reflexivity]. Qed.
Lemma rs_stands2 : stands_in co_cm rs_two co_home [str ".snapcd"] rs_db.
Proof.
  split; [vm_compute; reflexivity|]. split; [exact I|]. split; [apply fs_okb_ok; vm_compute; reflexivity|].
  replace co_home with (w_cwd rs_two) by (vm_compute; reflexivity). apply repository_here; [vm_compute; reflexivity|discriminate|vm_compute; reflexivity|apply there_ok; vm_compute; reflexivity|vm_compute; reflexivity].
Qed.
(** ... so that the first commit is the second of the branch, ... *)
Lemma rs_history : head_named rs_db (str "master") /\ nth_error (history (str "master") None (repo_of rs_db)) 1 = Some rs_old /\ length (history (str "master") None (repo_of rs_db)) = 2.
Proof. split; [split; vm_compute; reflexivity|]. split; vm_compute; reflexivity. Qed.
(** ... and the prefix "bgkn" stands for it. *)
Definition rs_prefix : keyish := match parse_keyish (str "bgkn") with Some (Ok ki) => ki | _ => KReflog [] None [] end.
Lemma rs_taken : taken_for co_cm rs_two rs_prefix rs_old.
Proof.
  intros st w1 S. pose proof (proj1 (used_started _ _ _ _ rs_used S)) as W. unfold starts in S.
  assert (X : exists k w2, canonicalize sqlite_ds rs_prefix (snd (setup co_cm (close_all rs_two))) = (Done k, w2) /\ k = rs_old).
  { destruct (canonicalize sqlite_ds rs_prefix (snd (setup co_cm (close_all rs_two)))) as [o w2] eqn:Q. exists rs_old, w2. split; [|reflexivity]. f_equal.
    transitivity (fst (canonicalize sqlite_ds rs_prefix (snd (setup co_cm (close_all rs_two))))); [rewrite Q; reflexivity|vm_compute; reflexivity]. }
  destruct X as (k & w2 & X & ->). rewrite S in X. cbn [snd] in X. exact (proj2 (OutFacts.canon_done _ _ _ _ W X)).
Qed.
Example C79_restore_example :
  well_used co_inited /\ quiet_disk co_inited /\ stands_in co_cm co_inited co_home [str ".snapcd"] st_db /\ head_named st_db (str "master") /\
  can_store [str "x"] (abs_path (co_home ++ [str ".snapcd"])) (abs_path co_home) co_inited /\ lossless_below (w_fs co_inited) co_home /\
  co_committed = snd (run_process co_cm (CCommit None (str "first") None) co_inited) /\ no_coll (w_hashed co_committed) /\
  history (str "master") None (repo_of (db_at (w_dbs co_committed) (db_file co_home [str ".snapcd"]))) = [rs_old] /\
  later (db_file co_home [str ".snapcd"]) co_committed rs_two /\ well_used rs_two /\ stands_in co_cm rs_two co_home [str ".snapcd"] rs_db /\ head_named rs_db (str "master") /\
  taken_for co_cm rs_two rs_prefix rs_old /\ no_coll (w_hashed rs_two).
Proof.
  split; [exact st_used|]. split; [exact st_quiet|]. split; [exact rs_stands|]. split; [split; vm_compute; reflexivity|]. split; [exact st_store|]. split; [exact st_lossless|].
  split; [reflexivity|]. split; [apply logb_ok; vm_compute; reflexivity|]. split; [vm_compute; reflexivity|]. split; [exact rs_later|]. split; [exact rs_used|]. split; [exact rs_stands2|].
  split; [exact (proj1 rs_history)|]. split; [exact rs_taken|apply logb_ok; vm_compute; reflexivity].
Qed.
(** After the update there is room, and checkout brings "s/b" back and removes "new"
    and "d/x", which are in the second commit. *)
Definition rs_moved : world := snd (run_process co_cm (CRefUpdate rs_prefix None) rs_two).
Definition rs_db2 : db := db_at (w_dbs rs_moved) (db_file co_home [str ".snapcd"]).
Definition rs_back : world := snd (run_process co_cm CCheckout rs_moved).
Lemma rs_stands3 : stands_in co_cm rs_moved co_home [str ".snapcd"] rs_db2.
Proof.
  split; [vm_compute; reflexivity|]. split; [exact I|]. split; [apply fs_okb_ok; vm_compute; reflexivity|].
  replace co_home with (w_cwd rs_moved) by (vm_compute; reflexivity). apply repository_here; [vm_compute; reflexivity|discriminate|vm_compute; reflexivity|apply there_ok; vm_compute; reflexivity|vm_compute; reflexivity].
Qed.
Example C79_restore_example2 :
  fst (run_process co_cm (CRefUpdate rs_prefix None) rs_two) = Some 0%N /\ outside rs_moved rs_moved /\ stands_in co_cm rs_moved co_home [str ".snapcd"] rs_db2 /\
  length (d_data rs_db2) <= stack /\ no_coll (w_hashed rs_moved) /\ room_for [str "x"] (co_home ++ [str ".snapcd"]) co_home (w_fs co_inited) (w_fs rs_moved) /\
  fst (run_process co_cm CCheckout rs_moved) = Some 0%N /\
  map (content (w_fs rs_moved)) [co_at [str "a"]; co_at [str "s"; str "b"]; co_at [str "x"]; co_at [str "new"]] <> map (content (w_fs rs_back)) [co_at [str "a"]; co_at [str "s"; str "b"]; co_at [str "x"]; co_at [str "new"]] /\
  map (content (w_fs rs_back)) [co_at [str "a"]; co_at [str "s"; str "b"]; co_at [str "x"]; co_at [str "new"]; co_at [str "d"; str "x"]] =
  [Some (str "hello"); Some (str "world"); Some (str "private"); None; None].
Proof.
  split; [vm_compute; reflexivity|]. split; [split; reflexivity|]. split; [exact rs_stands3|]. split; [apply Nat.leb_le; vm_compute; reflexivity|]. split; [apply logb_ok; vm_compute; reflexivity|].
  split; [apply roomb_ok; [discriminate|vm_compute; reflexivity]|]. split; [vm_compute; reflexivity|]. split; [|vm_compute; reflexivity]. vm_compute. discriminate.
Qed.
