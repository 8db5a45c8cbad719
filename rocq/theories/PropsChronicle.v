(** Property C87: [log] tells the story of a branch. *)
From Coq Require Import Sorted.
From Verif Require Import Base BaseFacts Key Keyish Cbor Object Path World WorldFacts Store File Filter Dir Diff Commit Main SpecStore SpecRun SpecProc SpecFile SpecDir SpecClosure
  SpecCache SpecDiff SpecPatch SpecShow SpecOut SpecText SpecShape SpecLive SpecHonest SpecRestore SpecHistory SpecChronicle FsFacts CmdFacts OutFacts ShapeTop LiveStart LiveStory RestoreFacts HistoryFacts ChronicleFacts Checks Toy ToyRepo
  PropsMain PropsShow PropsCmd PropsShape PropsLive PropsCheckout PropsStory PropsHonest PropsText PropsHistory.

(** ** C87 *)
(** Commits are made, each on a branch whose newest entry is the one before, with anything
    in between as long as the database file is there when a process starts.  At any time
    after that, and from anywhere in the repository, [log] of the newest of them exits with
    0, changes no file and prints all of them, newest first and down to the first commit:
    the key, the message, and for each file that was new or had another content, in the
    order of the paths, the number of lines added and removed since the commit before.
    The changes have to be ones that [log] can present (see C40). *)
Theorem C87_log_history :
  forall (E : Env) cm e d w t L u db arg, globs_ok cm -> steady_reads -> 6 < stack -> chronicle cm e d w (t :: L) ->
  later (db_file e d) w u -> well_used u -> stands_in cm u e d db -> no_coll (w_hashed u) -> length (d_data db) < stack -> length (d_data db) <= loop_bound -> means cm u db arg (t_key t) ->
  exists u' text, run_process cm (CLog arg) u = (Some 0%N, u') /\ w_fs u' = w_fs u /\ chronicle_text (cm_exclude cm) (e ++ d) (e ++ removelast d) (t :: L) text /\ w_out u' = rev text ++ w_out u.
Proof. intros E cm e d w t L u db arg. apply logged_history. Qed.
Print Assumptions C87_log_history.

(** Example: the first two commits of C86's example, when the third has been made. *)
#[local] Existing Instance pt_env.
Lemma cr_one : commits_here toy_cm hs_home [str ".snapcd"] hs_inited (str "master") (str "first") [] (hs_key 2) hs_one.
Proof.
  exists (hs_db hs_inited). split; [exact hs_inited_used|]. split; [apply quietb; vm_compute; reflexivity|]. split; [apply hs_stands; vm_compute; reflexivity|]. split; [split; vm_compute; reflexivity|].
  split; [vm_compute; reflexivity|]. split; [apply hs_store; vm_compute; reflexivity|]. split; [apply co_small; vm_compute; reflexivity|]. split; [vm_compute; reflexivity|]. split; [vm_compute; reflexivity|].
  split; [vm_compute; reflexivity|]. split; [apply logb_ok; vm_compute; reflexivity|vm_compute; reflexivity].
Qed.
Lemma cr_two : commits_here toy_cm hs_home [str ".snapcd"] hs_edited (str "master") (str "second") [hs_key 2] (hs_key 1) hs_two.
Proof.
  exists (hs_db hs_edited). split; [exact hs_edited_used|]. split; [apply quietb; vm_compute; reflexivity|]. split; [apply hs_stands; vm_compute; reflexivity|]. split; [split; vm_compute; reflexivity|].
  split; [vm_compute; reflexivity|]. split; [apply hs_store; vm_compute; reflexivity|]. split; [apply co_small; vm_compute; reflexivity|]. split; [vm_compute; reflexivity|]. split; [vm_compute; reflexivity|].
  split; [vm_compute; reflexivity|]. split; [apply logb_ok; vm_compute; reflexivity|vm_compute; reflexivity].
Qed.
Definition cr_told : list told := [Told (hs_key 1) (str "second") (w_fs hs_edited); Told (hs_key 2) (str "first") (w_fs hs_inited)].
Lemma cr_chronicle : chronicle toy_cm hs_home [str ".snapcd"] hs_two cr_told.
Proof.
  apply (ch_next _ _ _ hs_one hs_edited (str "master") (str "second") (hs_key 1) hs_two (Told (hs_key 2) (str "first") (w_fs hs_inited)) [] []); [exact (ch_first _ _ _ _ _ _ _ _ cr_one)|exact hs_later1|exact cr_two|].
  apply presents_ok; [discriminate|vm_compute; reflexivity..].
Qed.
Definition cr_logged : world := snd (run_process toy_cm (CLog (Some (hs_prefix (str "bu7")))) hs_three).
Definition cr_text : list event :=
  [Printed "commit" [as_user_key (hs_key 1)]; Printed "" []; Printed "message" [str "second"]; Printed "" [];
   Printed "stat" [str "f"; number 1; number 1]; Printed "stat" [str "n"; number 1; number 0]; Printed "" []; Printed "" [];
   Printed "commit" [as_user_key (hs_key 2)]; Printed "" []; Printed "message" [str "first"]; Printed "" [];
   Printed "stat" [str "f"; number 0; number 0]; Printed "stat" [str "s/b"; number 0; number 0]; Printed "" []; Printed "" []].
Example C87_example :
  globs_ok toy_cm /\ steady_reads /\ 6 < stack /\ chronicle toy_cm hs_home [str ".snapcd"] hs_two cr_told /\
  (means toy_cm hs_two (hs_db hs_two) None (hs_key 1) /\ stands_in toy_cm hs_two hs_home [str ".snapcd"] (hs_db hs_two)) /\
  later (db_file hs_home [str ".snapcd"]) hs_two hs_three /\ well_used hs_three /\ stands_in toy_cm hs_three hs_home [str ".snapcd"] (hs_db hs_three) /\ no_coll (w_hashed hs_three) /\
  length (d_data (hs_db hs_three)) < stack /\ length (d_data (hs_db hs_three)) <= loop_bound /\ means toy_cm hs_three (hs_db hs_three) (Some (hs_prefix (str "bu7"))) (hs_key 1) /\
  run_process toy_cm (CLog (Some (hs_prefix (str "bu7")))) hs_three = (Some 0%N, cr_logged) /\ w_out cr_logged = rev cr_text ++ w_out hs_three.
Proof.
  split; [reflexivity|]. split; [intros i j c; reflexivity|]. split; [cbn; lia|]. split; [exact cr_chronicle|].
  split; [split; [exists (str "master"), [hs_key 2]; split; [split; vm_compute; reflexivity|vm_compute; reflexivity]|apply hs_stands; vm_compute; reflexivity]|].
  split; [exact hs_later2|]. split; [exact hs_three_used|]. split; [apply hs_stands; vm_compute; reflexivity|]. split; [apply logb_ok; vm_compute; reflexivity|].
  split; [apply Nat.ltb_lt; vm_compute; reflexivity|]. split; [apply Nat.leb_le; vm_compute; reflexivity|]. split; [apply hs_taken; vm_compute; reflexivity|]. split; [vm_compute; reflexivity|]. vm_compute. reflexivity.
Qed.
