(** Property C84: whatever happened since a commit, [status] tells the edits since, and
    after a checkout of it there are none. *)
From Coq Require Import Sorted.
From Verif Require Import Base BaseFacts Key Keyish Cbor Object Path World WorldFacts Store File Filter Dir Diff Commit Screen Main SpecStore SpecRun SpecProc SpecFile SpecDir SpecClosure
  SpecCache SpecDiff SpecPatch SpecShow SpecOut SpecCmd SpecText SpecShape SpecCheckout SpecLive SpecScreen SpecHonest SpecRestore FsFacts CmdFacts ShapeTop LiveCmd LiveStart LiveStory CheckoutFacts HonestFacts RestoreFacts CleanFacts Checks Toy ToyRepo
  PropsMain PropsShow PropsCmd PropsShape PropsLive PropsCheckout PropsStory PropsHonest PropsRestore.

(** ** C84 *)
(** What can be stored is committed, as [k] on HEAD's branch.  Then anything may happen,
    as long as the database file is there and the files conform to [T] when a process
    starts: processes with any failures, other commits, edits of the files.
    Whenever [k] is the newest commit of HEAD's branch, whichever that is: if what was
    committed is still there (else the program panics, see C37), what is there can be
    listed, and the new files are found from here (see C38), [status] exits with 0,
    changes no file and prints HEAD and exactly the edits since [k] was made.
    And if there is room, [checkout] exits with 0 and prints nothing, and [status] then
    prints HEAD and nothing else. *)
Theorem C84_status_since :
  forall (E : Env) (F : Fmt) T cm w e d db n m, honest T w -> steady_reads -> quiet_disk w -> stands_in cm w e d db -> head_named db n -> globs_ok cm ->
  let l := e ++ removelast d in let dbl := e ++ d in let ex := cm_exclude cm in
  can_store ex (abs_path dbl) (abs_path l) w -> lossless_below (w_fs w) l -> (lenN m < 2 ^ 62)%N -> utf8_valid m = true ->
  exists w', run_process cm (CCommit None m None) w = (Some 0%N, w') /\ w_fs w' = w_fs w /\
    (no_coll (w_hashed w') -> exists k, history n None (repo_of (db_at (w_dbs w') (db_file e d))) = k :: history n None (repo_of db) /\
       forall v db1 n1 r, later (db_file e d) w' v -> honest T v -> quiet_disk v -> agrees T (w_fs v) -> stands_in cm v e d db1 -> no_coll (w_hashed v) -> length (d_data db1) <= stack ->
         head_named db1 n1 -> history n1 None (repo_of db1) = k :: r ->
         let head := str "HEAD: " ++ n1 ++ str " [" ++ firstn 8 (as_user_key k) ++ str "]" in
         (lossless_below (w_fs v) l -> listable ex dbl (w_fs v) (abs_path l) l stack ->
          (forall x e0, committed ex dbl l (w_fs w) x e0 -> lookup (w_fs v) (l ++ x) <> None) ->
          (forall x c st, now ex dbl l (w_fs v) x (EFile c st) -> (forall e0, ~ committed ex dbl l (w_fs w) x e0) -> found_here v x) ->
          exists v', run_process cm CStatus v = (Some 0%N, v') /\ w_fs v' = w_fs v /\
            (no_coll (w_hashed v') -> exists A M, edits ex dbl l (w_fs w) (w_fs v) A M /\ writes_lines v v' (head :: report_lines (map entry_text A) (map (fun x => entry_text (x, true)) M)))) /\
         (in_home l -> room_for ex dbl l (w_fs w) (w_fs v) ->
          exists v', run_process cm CCheckout v = (Some 0%N, v') /\ w_out v' = w_out v /\
            forall u db2, outside v' u -> w_fs u = w_fs v' -> w_cache u = w_cache v' \/ w_cache u = [] -> quiet_disk u -> agrees T (w_fs u) -> stands_in cm u e d db2 ->
              lossless_below (w_fs u) l -> listable ex dbl (w_fs u) (abs_path l) l stack ->
              exists u', run_process cm CStatus u = (Some 0%N, u') /\ w_fs u' = w_fs u /\ (no_coll (w_hashed u') -> writes_lines u u' [head]))).
Proof. intros E F T cm w e d db n m. apply status_since. Qed.
Print Assumptions C84_status_since.

(** Examples. *)
#[local] Existing Instance co_env.
(** The edited files of C78 are committed to another branch; then the first commit is
    checked out. *)
Definition cl_two : world := snd (run_process co_cm (CCommit None (str "second") (Some (str "other"))) ho_edited).
Definition cl_db : db := db_at (w_dbs cl_two) (db_file co_home [str ".snapcd"]).
Definition cl_back : world := snd (run_process co_cm CCheckout cl_two).
Definition cl_T (k : cachekey) : bytes :=
  match find (fun x => match snd x with EFile c st => same_triple k (triple c st) | _ => false end) (w_fs co_inited ++ w_fs ho_edited ++ w_fs cl_back) with
  | Some (_, EFile c _) => c
  | _ => []
  end.
Lemma cl_inited : honest cl_T co_inited.
Proof. apply honest_step; [apply ho_start; reflexivity|vm_compute; reflexivity|exact I]. Qed.
Lemma cl_committed : honest cl_T co_committed.
Proof. apply honest_step; [exact cl_inited|vm_compute; reflexivity|reflexivity]. Qed.
Lemma cl_honest : honest cl_T cl_two.
Proof. apply honest_step; [exact (honest_fs _ _ _ cl_committed)|vm_compute; reflexivity|reflexivity]. Qed.
Lemma cl_later : later (db_file co_home [str ".snapcd"]) co_committed cl_two.
Proof. apply later_process; [eapply later_outside; [apply later_refl|exact (outside_fs _ _)]|apply there_ok; vm_compute; reflexivity]. Qed.
Lemma cl_stands : stands_in co_cm cl_two co_home [str ".snapcd"] cl_db.
Proof.
  split; [vm_compute; reflexivity|]. split; [exact I|]. split; [apply fs_okb_ok; vm_compute; reflexivity|].
  replace co_home with (w_cwd cl_two) by (vm_compute; reflexivity). apply repository_here; [vm_compute; reflexivity|discriminate|vm_compute; reflexivity|apply there_ok; vm_compute; reflexivity|vm_compute; reflexivity].
Qed.
Lemma cl_newest : head_named cl_db (str "master") /\ history (str "master") None (repo_of cl_db) = [rs_old] /\ length (history (str "other") None (repo_of cl_db)) = 1.
Proof. split; [split; vm_compute; reflexivity|]. split; vm_compute; reflexivity. Qed.
(** [status] still tells the edits since the first commit. *)
Definition cl_told : world := snd (run_process co_cm CStatus cl_two).
Lemma cl_tells : run_process co_cm CStatus cl_two = (Some 0%N, cl_told).
Proof. vm_compute. reflexivity. Qed.
Example C84_edits_example :
  honest cl_T co_inited /\ steady_reads /\ quiet_disk co_inited /\ stands_in co_cm co_inited co_home [str ".snapcd"] st_db /\ no_coll (w_hashed co_committed) /\
  later (db_file co_home [str ".snapcd"]) co_committed cl_two /\ honest cl_T cl_two /\ quiet_disk cl_two /\ agrees cl_T (w_fs cl_two) /\ stands_in co_cm cl_two co_home [str ".snapcd"] cl_db /\
  no_coll (w_hashed cl_two) /\ length (d_data cl_db) <= stack /\ head_named cl_db (str "master") /\ history (str "master") None (repo_of cl_db) = [rs_old] /\
  lossless_below (w_fs cl_two) co_home /\ listable [str "x"] (co_home ++ [str ".snapcd"]) (w_fs cl_two) (abs_path co_home) co_home stack /\
  (forall r e0, committed [str "x"] (co_home ++ [str ".snapcd"]) co_home (w_fs co_inited) r e0 -> lookup (w_fs cl_two) (co_home ++ r) <> None) /\ w_cwd cl_two = co_home /\
  run_process co_cm CStatus cl_two = (Some 0%N, cl_told) /\ no_coll (w_hashed cl_told) /\
  exists k, w_out cl_told = rev (Printed "HEAD:" [str "master"; k] :: report_lists [([str "d"], false)] [[str "a"]]) ++ w_out cl_two.
Proof.
  split; [exact cl_inited|]. split; [intros i j c; reflexivity|]. split; [exact st_quiet|]. split; [exact rs_stands|]. split; [apply logb_ok; vm_compute; reflexivity|]. split; [exact cl_later|]. split; [exact cl_honest|].
  split; [apply quietb; vm_compute; reflexivity|]. split; [apply agreesb_ok; vm_compute; reflexivity|]. split; [exact cl_stands|]. split; [apply logb_ok; vm_compute; reflexivity|]. split; [apply Nat.leb_le; vm_compute; reflexivity|].
  split; [exact (proj1 cl_newest)|]. split; [exact (proj1 (proj2 cl_newest))|]. split; [apply co_small; vm_compute; reflexivity|]. split; [apply listableb_ok; [apply Nat.ltb_lt; reflexivity|vm_compute; reflexivity]|].
  split; [apply keptallb_ok; [discriminate|vm_compute; reflexivity]|]. split; [vm_compute; reflexivity|]. split; [exact cl_tells|]. split; [apply logb_ok; vm_compute; reflexivity|]. eexists. vm_compute. reflexivity.
Qed.
(** After the checkout it tells none. *)
Definition cl_db2 : db := db_at (w_dbs cl_back) (db_file co_home [str ".snapcd"]).
Lemma cl_stands2 : stands_in co_cm cl_back co_home [str ".snapcd"] cl_db2.
Proof.
  split; [vm_compute; reflexivity|]. split; [exact I|]. split; [apply fs_okb_ok; vm_compute; reflexivity|].
  replace co_home with (w_cwd cl_back) by (vm_compute; reflexivity). apply repository_here; [vm_compute; reflexivity|discriminate|vm_compute; reflexivity|apply there_ok; vm_compute; reflexivity|vm_compute; reflexivity].
Qed.
Definition cl_clean : world := snd (run_process co_cm CStatus cl_back).
Lemma cl_none : run_process co_cm CStatus cl_back = (Some 0%N, cl_clean).
Proof. vm_compute. reflexivity. Qed.
Example C84_clean_example :
  room_for [str "x"] (co_home ++ [str ".snapcd"]) co_home (w_fs co_inited) (w_fs cl_two) /\ fst (run_process co_cm CCheckout cl_two) = Some 0%N /\ outside cl_back cl_back /\
  quiet_disk cl_back /\ agrees cl_T (w_fs cl_back) /\ stands_in co_cm cl_back co_home [str ".snapcd"] cl_db2 /\ lossless_below (w_fs cl_back) co_home /\
  listable [str "x"] (co_home ++ [str ".snapcd"]) (w_fs cl_back) (abs_path co_home) co_home stack /\
  lookup (w_fs cl_two) (co_at [str "d"]) = Some EDir /\ lookup (w_fs cl_back) (co_at [str "d"]) = None /\
  run_process co_cm CStatus cl_back = (Some 0%N, cl_clean) /\ no_coll (w_hashed cl_clean) /\ exists k, w_out cl_clean = Printed "HEAD:" [str "master"; k] :: w_out cl_back.
Proof.
  split; [apply roomb_ok; [discriminate|vm_compute; reflexivity]|]. split; [vm_compute; reflexivity|]. split; [split; reflexivity|]. split; [apply quietb; vm_compute; reflexivity|]. split; [apply agreesb_ok; vm_compute; reflexivity|].
  split; [exact cl_stands2|]. split; [apply co_small; vm_compute; reflexivity|]. split; [apply listableb_ok; [apply Nat.ltb_lt; reflexivity|vm_compute; reflexivity]|]. split; [vm_compute; reflexivity|]. split; [vm_compute; reflexivity|].
  split; [exact cl_none|]. split; [apply logb_ok; vm_compute; reflexivity|]. eexists. vm_compute. reflexivity.
Qed.
