(** Property C89: switching to another branch and its files. *)
From Coq Require Import Sorted.
From Verif Require Import Base BaseFacts Key Keyish Cbor Object Path World WorldFacts Store File Filter Dir Diff Commit Screen Main SpecStore SpecRun SpecProc SpecFile SpecDir SpecClosure
  SpecCache SpecDiff SpecPatch SpecShow SpecOut SpecCmd SpecText SpecShape SpecCheckout SpecLive SpecScreen SpecHonest SpecRestore SpecHead SpecHistory SpecChronicle FsFacts CmdFacts ShapeTop LiveCmd LiveStart LiveStory CheckoutFacts HonestFacts RestoreFacts SwitchFacts Checks Toy ToyRepo
  PropsMain PropsShow PropsCmd PropsShape PropsLive PropsCheckout PropsStory PropsHonest PropsRestore PropsHistory.

(** ** C89 *)
(** Two commits were made in the repository, [ka] of the files of [wa] and [kb] of those
    of [wb], and then anything happened, as long as the database file was there and the
    files conformed to [T] when a process started.  Now [ka] is the newest commit of
    HEAD's branch [na], and [kb] of another branch [nb].  If what [ka] was made of is
    still there (else the program panics, see C37), what is there can be listed, and the
    new files are found from here (see C38), [checkout-head nb] exits with 0 and changes
    no file.
    If something was edited since [ka], it says so and what, and no reference changes.
    Else it says "Ok, new head.", and HEAD names [nb].  Then [checkout], if there is room,
    exits with 0 and prints nothing, and the files are those [kb] was made of; [status]
    then prints that HEAD is [nb] at [kb], and no differences. *)
Theorem C89_switch :
  forall (E : Env) (F : Fmt) T cm e d wa na0 ma ba ka wa' wb nb0 mb bb kb wb' v db na ra nb rb, globs_ok cm -> steady_reads ->
  commits_here cm e d wa na0 ma ba ka wa' -> commits_here cm e d wb nb0 mb bb kb wb' -> later (db_file e d) wa' v -> later (db_file e d) wb' v ->
  honest T v -> quiet_disk v -> agrees T (w_fs v) -> stands_in cm v e d db -> no_coll (w_hashed v) -> length (d_data db) <= stack ->
  head_named db na -> history na None (repo_of db) = ka :: ra -> history nb None (repo_of db) = kb :: rb -> utf8_valid nb = true ->
  let l := e ++ removelast d in let dbl := e ++ d in let ex := cm_exclude cm in
  lossless_below (w_fs v) l -> listable ex dbl (w_fs v) (abs_path l) l stack ->
  (forall x e0, committed ex dbl l (w_fs wa) x e0 -> lookup (w_fs v) (l ++ x) <> None) ->
  (forall x c st, now ex dbl l (w_fs v) x (EFile c st) -> (forall e0, ~ committed ex dbl l (w_fs wa) x e0) -> found_here v x) ->
  exists v', run_process cm (CCheckoutHead nb) v = (Some 0%N, v') /\ w_fs v' = w_fs v /\
    (no_coll (w_hashed v') ->
      (~ unedited ex dbl l (w_fs wa) (w_fs v) -> adds_objects db (db_at (w_dbs v') (db_file e d)) /\ exists A M, edits ex dbl l (w_fs wa) (w_fs v) A M /\
         writes_lines v v' (str "Cannot checkout: working directory is not clean" :: report_lines (map entry_text A) (map (fun x => entry_text (x, true)) M))) /\
      (unedited ex dbl l (w_fs wa) (w_fs v) -> writes_lines v v' [str "Ok, new head."] /\ moves_head db (db_at (w_dbs v') (db_file e d)) nb /\
         forall u db1, outside v' u -> w_cache u = w_cache v' \/ w_cache u = [] -> agrees T (w_fs u) -> stands_in cm u e d db1 -> length (d_data db1) <= stack -> in_home l -> room_for ex dbl l (w_fs wb) (w_fs u) ->
         exists u', run_process cm CCheckout u = (Some 0%N, u') /\ w_out u' = w_out u /\ restored ex dbl l (w_fs wb) (w_fs u) (w_fs u') /\
           forall x db2, outside u' x -> w_fs x = w_fs u' -> w_cache x = w_cache u' \/ w_cache x = [] -> quiet_disk x -> agrees T (w_fs x) -> stands_in cm x e d db2 ->
             lossless_below (w_fs x) l -> listable ex dbl (w_fs x) (abs_path l) l stack ->
             exists x', run_process cm CStatus x = (Some 0%N, x') /\ w_fs x' = w_fs x /\
               (no_coll (w_hashed x') -> writes_lines x x' [str "HEAD: " ++ nb ++ str " [" ++ firstn 8 (as_user_key kb) ++ str "]"]))).
Proof. intros E F T cm e d wa na0 ma ba ka wa' wb nb0 mb bb kb wb' v db na ra nb rb. apply switched. Qed.
Print Assumptions C89_switch.

(** Example. *)
#[local] Existing Instance co_env.
(** The first commit is on "master".  HEAD is moved to the new branch "other", the files
    are edited and committed there.  Then HEAD is moved back. *)
Definition wt_other : world := snd (run_process co_cm (CCheckoutHead (str "other")) co_committed).
Definition wt_edited : world := set_fs wt_other (ho_edit (w_fs wt_other)).
Definition wt_two : world := snd (run_process co_cm (CCommit None (str "second") None) wt_edited).
Definition wt_moved : world := snd (run_process co_cm (CCheckoutHead (str "master")) wt_two).
Definition wt_back : world := snd (run_process co_cm CCheckout wt_moved).
Definition wt_clean : world := snd (run_process co_cm CStatus wt_back).
Definition wt_db (w : world) : db := db_at (w_dbs w) (db_file co_home [str ".snapcd"]).
Definition wt_key (n : bytes) : key := hd ct_tree (history n None (repo_of (wt_db wt_two))).
Definition wt_T (k : cachekey) : bytes :=
  match find (fun x => match snd x with EFile c st => same_triple k (triple c st) | _ => false end) (w_fs co_inited ++ w_fs wt_edited ++ w_fs wt_back) with
  | Some (_, EFile c _) => c
  | _ => []
  end.
Lemma wt_committed : honest wt_T co_committed.
Proof. apply honest_step; [|vm_compute; reflexivity|reflexivity]. apply honest_step; [apply ho_start; reflexivity|vm_compute; reflexivity|exact I]. Qed.
Lemma wt_edited_honest : honest wt_T wt_edited.
Proof. apply honest_fs. apply honest_step; [exact wt_committed|vm_compute; reflexivity|exact I]. Qed.
Lemma wt_two_honest : honest wt_T wt_two.
Proof. apply honest_step; [exact wt_edited_honest|vm_compute; reflexivity|reflexivity]. Qed.
Lemma wt_stands w : w_faults w = [] -> fs_okb (w_fs w) = true -> w_cwd w = co_home -> prefixesb (w_fs w) (co_home ++ [str ".snapcd"]) = true ->
  match lookup (w_fs w) (db_file co_home [str ".snapcd"]) with Some (EFile _ _) => true | _ => false end = true ->
  assoc_loc (db_file co_home [str ".snapcd"]) (w_dbs w) = Some (wt_db w) -> stands_in co_cm w co_home [str ".snapcd"] (wt_db w).
Proof.
  intros F O C P T A. split; [exact F|]. split; [exact I|]. split; [apply fs_okb_ok, O|]. rewrite <- C in *. apply repository_here; [vm_compute; reflexivity|discriminate|exact P|apply there_ok, T|exact A].
Qed.
Lemma wt_store w : stat (w_fs w) (w_cwd w) (abs_path co_home) = Some (co_home, EDir) -> listableb (w_fs w) stack = true -> textb (w_fs w) = true -> can_store [str "x"] (abs_path (co_home ++ [str ".snapcd"])) (abs_path co_home) w.
Proof.
  intros Q Li T. exists co_home, EDir. split; [exact Q|]. split; [apply listableb_ok; [cbn; lia|exact Li]|apply names_text; [discriminate|exact T]].
Qed.
Lemma wt_first : commits_here co_cm co_home [str ".snapcd"] co_inited (str "master") (str "first") [] (wt_key (str "master")) co_committed.
Proof.
  exists st_db. split; [exact st_used|]. split; [exact st_quiet|]. split; [exact rs_stands|]. split; [split; reflexivity|]. split; [reflexivity|]. split; [exact st_store|]. split; [exact st_lossless|]. split; [reflexivity|]. split; [reflexivity|].
  split; [vm_compute; reflexivity|]. split; [apply logb_ok; vm_compute; reflexivity|]. vm_compute. reflexivity.
Qed.
Lemma wt_second : commits_here co_cm co_home [str ".snapcd"] wt_edited (str "other") (str "second") [] (wt_key (str "other")) wt_two.
Proof.
  exists (wt_db wt_edited). split; [exact (honest_used _ _ wt_edited_honest)|]. split; [apply quietb; vm_compute; reflexivity|]. split; [apply wt_stands; vm_compute; reflexivity|]. split; [split; vm_compute; reflexivity|]. split; [vm_compute; reflexivity|].
  split; [apply wt_store; vm_compute; reflexivity|]. split; [apply co_small; vm_compute; reflexivity|]. split; [reflexivity|]. split; [reflexivity|].
  split; [vm_compute; reflexivity|]. split; [apply logb_ok; vm_compute; reflexivity|]. vm_compute. reflexivity.
Qed.
Lemma wt_later : later (db_file co_home [str ".snapcd"]) co_committed wt_two.
Proof.
  apply later_process; [|apply there_ok; vm_compute; reflexivity]. eapply later_outside; [|exact (outside_fs _ _)]. apply later_process; [apply later_refl|apply there_ok; vm_compute; reflexivity].
Qed.
Lemma unedited_same {E : Env} ex dbl l f : unedited ex dbl l f f.
Proof. split; [intros x e [_ C]; eauto|intros x c st [_ C]; eauto]. Qed.
Lemma wt_files : w_fs wt_two = w_fs wt_edited.
Proof. vm_compute. reflexivity. Qed.
Example C89_example :
  globs_ok co_cm /\ steady_reads /\ commits_here co_cm co_home [str ".snapcd"] wt_edited (str "other") (str "second") [] (wt_key (str "other")) wt_two /\
  commits_here co_cm co_home [str ".snapcd"] co_inited (str "master") (str "first") [] (wt_key (str "master")) co_committed /\
  later (db_file co_home [str ".snapcd"]) wt_two wt_two /\ later (db_file co_home [str ".snapcd"]) co_committed wt_two /\
  honest wt_T wt_two /\ quiet_disk wt_two /\ agrees wt_T (w_fs wt_two) /\ stands_in co_cm wt_two co_home [str ".snapcd"] (wt_db wt_two) /\ no_coll (w_hashed wt_two) /\ length (d_data (wt_db wt_two)) <= stack /\
  head_named (wt_db wt_two) (str "other") /\ history (str "other") None (repo_of (wt_db wt_two)) = [wt_key (str "other")] /\ history (str "master") None (repo_of (wt_db wt_two)) = [wt_key (str "master")] /\
  lossless_below (w_fs wt_two) co_home /\ listable [str "x"] (co_home ++ [str ".snapcd"]) (w_fs wt_two) (abs_path co_home) co_home stack /\
  unedited [str "x"] (co_home ++ [str ".snapcd"]) co_home (w_fs wt_edited) (w_fs wt_two) /\
  run_process co_cm (CCheckoutHead (str "master")) wt_two = (Some 0%N, wt_moved) /\ no_coll (w_hashed wt_moved) /\ w_out wt_moved = Printed "Ok, new head." [] :: w_out wt_two /\
  agrees wt_T (w_fs wt_moved) /\ stands_in co_cm wt_moved co_home [str ".snapcd"] (wt_db wt_moved) /\ length (d_data (wt_db wt_moved)) <= stack /\ in_home co_home /\
  room_for [str "x"] (co_home ++ [str ".snapcd"]) co_home (w_fs co_inited) (w_fs wt_moved) /\
  run_process co_cm CCheckout wt_moved = (Some 0%N, wt_back) /\ lookup (w_fs wt_moved) (co_at [str "d"]) = Some EDir /\ lookup (w_fs wt_back) (co_at [str "d"]) = None /\
  quiet_disk wt_back /\ agrees wt_T (w_fs wt_back) /\ stands_in co_cm wt_back co_home [str ".snapcd"] (wt_db wt_back) /\ lossless_below (w_fs wt_back) co_home /\
  listable [str "x"] (co_home ++ [str ".snapcd"]) (w_fs wt_back) (abs_path co_home) co_home stack /\
  run_process co_cm CStatus wt_back = (Some 0%N, wt_clean) /\ no_coll (w_hashed wt_clean) /\ w_out wt_clean = Printed "HEAD:" [str "master"; firstn 8 (as_user_key (wt_key (str "master")))] :: w_out wt_back.
Proof.
  split; [reflexivity|]. split; [intros i j c; reflexivity|]. split; [exact wt_second|]. split; [exact wt_first|]. split; [apply later_refl|]. split; [exact wt_later|]. split; [exact wt_two_honest|].
  split; [apply quietb; vm_compute; reflexivity|]. split; [apply agreesb_ok; vm_compute; reflexivity|]. split; [apply wt_stands; vm_compute; reflexivity|]. split; [apply logb_ok; vm_compute; reflexivity|]. split; [apply Nat.leb_le; vm_compute; reflexivity|].
  split; [split; vm_compute; reflexivity|]. split; [vm_compute; reflexivity|]. split; [vm_compute; reflexivity|]. split; [apply co_small; vm_compute; reflexivity|]. split; [apply listableb_ok; [apply Nat.ltb_lt; reflexivity|vm_compute; reflexivity]|].
  split; [rewrite wt_files; apply unedited_same|]. split; [vm_compute; reflexivity|]. split; [apply logb_ok; vm_compute; reflexivity|]. split; [vm_compute; reflexivity|].
  split; [apply agreesb_ok; vm_compute; reflexivity|]. split; [apply wt_stands; vm_compute; reflexivity|]. split; [apply Nat.leb_le; vm_compute; reflexivity|]. split; [exists []; reflexivity|].
  split; [apply roomb_ok; [discriminate|vm_compute; reflexivity]|]. split; [vm_compute; reflexivity|]. split; [vm_compute; reflexivity|]. split; [vm_compute; reflexivity|].
  split; [apply quietb; vm_compute; reflexivity|]. split; [apply agreesb_ok; vm_compute; reflexivity|]. split; [apply wt_stands; vm_compute; reflexivity|]. split; [apply co_small; vm_compute; reflexivity|].
  split; [apply listableb_ok; [apply Nat.ltb_lt; reflexivity|vm_compute; reflexivity]|]. split; [vm_compute; reflexivity|]. split; [apply logb_ok; vm_compute; reflexivity|]. vm_compute. reflexivity.
Qed.
