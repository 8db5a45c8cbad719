(** Property C83: after a commit, [checkout-head] moves HEAD exactly when nothing was
    edited since, and says which. *)
From Coq Require Import Sorted.
From Verif Require Import Base BaseFacts Key Keyish Cbor Object Path World WorldFacts Store File Filter Dir Diff Commit Screen Main SpecStore SpecRun SpecProc SpecFile SpecDir SpecClosure
  SpecCache SpecDiff SpecPatch SpecShow SpecOut SpecCmd SpecText SpecShape SpecCheckout SpecLive SpecScreen SpecHonest SpecHead FsFacts CmdFacts ShapeTop LiveCmd LiveStart LiveStory CheckoutFacts HonestFacts HeadFacts Checks Toy ToyRepo
  PropsMain PropsShow PropsCmd PropsShape PropsLive PropsCheckout PropsStory PropsHonest.

(** ** C83 *)
(** Without input/output errors, a [checkout-head] that succeeds has compared the files
    with the newest commit of HEAD (or with nothing, if there is none).  Either there is
    no difference, HEAD names the new branch, nothing else is different in the reflog or
    the state table, and the text is "Ok, new head."; or there is one, no reference is
    different, and the text is the refusal and the differences. *)
Theorem C83_command :
  forall (E : Env) (F : Fmt) T cm w s w1 n w2, honest T w -> starts cm w (Some s) w1 -> steady_reads -> fs_ok (w_fs w1) -> agrees T (w_fs w1) -> no_coll (w_hashed w1) -> no_errors w1 ->
  run_command cm (Some s) (CCheckoutHead n) w1 = (Done tt, w2) ->
  exists to A M, head_tree w1 to /\ differences (cm_exclude cm) (ds_folder s) (ds_repo s) w1 to (w_hashed w2) A M /\
    (A = [] /\ M = [] /\ moves_head (cur_db w1) (cur_db w2) n /\ writes_lines w1 w2 [str "Ok, new head."] \/
     ~ (A = [] /\ M = []) /\ adds_objects (cur_db w1) (cur_db w2) /\
     writes_lines w1 w2 (str "Cannot checkout: working directory is not clean" :: report_lines (map entry_text A) (map (fun x => entry_text (x, true)) M))).
Proof. intros E F T cm w s w1 n w2. apply honest_head. Qed.
Print Assumptions C83_command.
(** The whole story.  [commit] exits with 0 and changes no file.  Then the files are
    edited, or not.  If what was committed is still there (else the program panics,
    see C37), what is there can be listed, and the new files are found from here (see
    C38), [checkout-head] exits with 0 and changes no file.  If nothing is new and every
    file has the content it had, HEAD is moved; else no reference changes and the
    edits are printed. *)
Theorem C83_story :
  forall (E : Env) (F : Fmt) T cm w e d db m n, honest T w -> steady_reads -> quiet_disk w -> cache_there w -> agrees T (w_fs w) -> repository_at cm w e d db ->
  let l := e ++ removelast d in let dbl := e ++ d in let ex := cm_exclude cm in
  globs_ok cm -> (exists n, rp_head (repo_of db) = Some n /\ utf8_valid n = true) -> can_store ex (abs_path dbl) (abs_path l) w -> lossless_below (w_fs w) l ->
  (lenN m < 2 ^ 62)%N -> utf8_valid m = true ->
  exists w', run_process cm (CCommit None m None) w = (Some 0%N, w') /\ w_fs w' = w_fs w /\ honest T w' /\
    forall v db', outside w' v -> w_cache v = w_cache w' \/ w_cache v = [] -> quiet_disk v -> cache_there v -> agrees T (w_fs v) -> repository_at cm v e d db' ->
      no_coll (w_hashed v) -> length (d_data db') <= stack -> listable ex dbl (w_fs v) (abs_path l) l stack -> lossless_below (w_fs v) l ->
      (forall r e0, committed ex dbl l (w_fs w) r e0 -> lookup (w_fs v) (l ++ r) <> None) ->
      (forall x c st, now ex dbl l (w_fs v) x (EFile c st) -> (forall e0, ~ committed ex dbl l (w_fs w) x e0) -> found_here v x) ->
      exists v' db2, run_process cm (CCheckoutHead n) v = (Some 0%N, v') /\ w_fs v' = w_fs v /\ db_at (w_dbs v') (dbl ++ [str "snapcd.db"]) = db2 /\
        (no_coll (w_hashed v') ->
           (unedited ex dbl l (w_fs w) (w_fs v) -> moves_head db' db2 n /\ writes_lines v v' [str "Ok, new head."]) /\
           (~ unedited ex dbl l (w_fs w) (w_fs v) -> adds_objects db' db2 /\ exists A M, edits ex dbl l (w_fs w) (w_fs v) A M /\
              writes_lines v v' (str "Cannot checkout: working directory is not clean" :: report_lines (map entry_text A) (map (fun x => entry_text (x, true)) M)))).
Proof. intros E F T cm w e d db m n. apply head_story. Qed.
Print Assumptions C83_story.

(** Examples. *)
#[local] Existing Instance co_env.
(** The edited files of C78: refused; HEAD still names "master". *)
Definition hd_refused : world := snd (run_process co_cm (CCheckoutHead (str "other")) ho_edited).
Lemma hd_refuses : run_process co_cm (CCheckoutHead (str "other")) ho_edited = (Some 0%N, hd_refused).
Proof. vm_compute. reflexivity. Qed.
Lemma hd_included : included [str "x"] (co_home ++ [str ".snapcd"]) (abs_path co_home) co_home [str "d"].
Proof.
  intros r1 r2 Q N. destruct r1 as [|a [|b r1]]; [congruence| |discriminate Q]. injection Q as <- _. intros [(r' & X)|(g & [<-|[]] & X)]; [|vm_compute in X; discriminate].
  rewrite <- app_assoc in X. apply app_inv_head in X. discriminate X.
Qed.
Example C83_refused_example :
  honest ho_T co_inited /\ steady_reads /\ outside co_committed ho_edited /\ quiet_disk ho_edited /\ agrees ho_T (w_fs ho_edited) /\ repository_at co_cm ho_edited co_home [str ".snapcd"] ho_db /\ no_coll (w_hashed ho_edited) /\
  ~ unedited [str "x"] (co_home ++ [str ".snapcd"]) co_home (w_fs co_inited) (w_fs ho_edited) /\
  run_process co_cm (CCheckoutHead (str "other")) ho_edited = (Some 0%N, hd_refused) /\ no_coll (w_hashed hd_refused) /\
  rp_head (repo_of (db_at (w_dbs hd_refused) (co_home ++ [str ".snapcd"; str "snapcd.db"]))) = Some (str "master") /\
  w_out hd_refused = rev (Printed "Cannot checkout: working directory is not clean" [] :: report_lists [([str "d"], false)] [[str "a"]]) ++ w_out ho_edited.
Proof.
  split; [exact ho_inited|]. split; [intros i j c; reflexivity|]. split; [exact (outside_fs _ _)|]. split; [apply quietb; vm_compute; reflexivity|]. split; [apply agreesb_ok; vm_compute; reflexivity|]. split; [exact ho_at|].
  split; [apply logb_ok; vm_compute; reflexivity|]. split.
  { intros [U _]. destruct (U [str "d"] EDir) as [e0 [L _]]; [|vm_compute in L; discriminate]. split; [discriminate|]. split; [vm_compute; reflexivity|]. exact hd_included. }
  split; [exact hd_refuses|]. split; [apply logb_ok; vm_compute; reflexivity|]. split; vm_compute; reflexivity.
Qed.
(** Without edits: HEAD names "other". *)
Definition hd_moved : world := snd (run_process co_cm (CCheckoutHead (str "other")) co_committed).
Lemma hd_moves : run_process co_cm (CCheckoutHead (str "other")) co_committed = (Some 0%N, hd_moved).
Proof. vm_compute. reflexivity. Qed.
Example C83_moved_example :
  honest ho_T co_committed /\ quiet_disk co_committed /\ agrees ho_T (w_fs co_committed) /\ unedited [str "x"] (co_home ++ [str ".snapcd"]) co_home (w_fs co_committed) (w_fs co_committed) /\
  run_process co_cm (CCheckoutHead (str "other")) co_committed = (Some 0%N, hd_moved) /\ no_coll (w_hashed hd_moved) /\
  rp_head (repo_of (db_at (w_dbs hd_moved) (co_home ++ [str ".snapcd"; str "snapcd.db"]))) = Some (str "other") /\
  w_out hd_moved = Printed "Ok, new head." [] :: w_out co_committed.
Proof.
  split; [exact ho_committed|]. split; [apply quietb; vm_compute; reflexivity|]. split; [apply agreesb_ok; vm_compute; reflexivity|].
  split; [split; [intros x e [_ C]; eauto|intros x c st [_ C]; eauto]|]. split; [exact hd_moves|]. split; [apply logb_ok; vm_compute; reflexivity|]. split; vm_compute; reflexivity.
Qed.
