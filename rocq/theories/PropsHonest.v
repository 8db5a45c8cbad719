(** Property C78: on machines where inode, modification time and size tell contents
    apart, the cache is always right, and [status] says exactly what was edited. *)
From Coq Require Import Sorted.
From Verif Require Import Base BaseFacts Key Keyish Cbor Object Path World WorldFacts Store File Filter Dir Diff Commit Screen Main SpecStore SpecRun SpecProc SpecFile SpecDir SpecClosure
  SpecCache SpecDiff SpecPatch SpecShow SpecOut SpecCmd SpecText SpecShape SpecCheckout SpecLive SpecScreen SpecHonest FsFacts CmdFacts ShapeTop LiveCmd LiveStart LiveStory CheckoutFacts HonestFacts Checks Toy ToyRepo
  PropsMain PropsShow PropsCmd PropsShape PropsLive PropsCheckout PropsStory.

(** ** C78 *)
(** The machine: whenever a process starts, inode, time and size of a file determine
    its content (the same for all times), and nobody but the program adds to the cache.
    Then, whatever the processes did and whatever failed, the cache answers rightly
    about all files (see C34, which assumes so). *)
Theorem C78_cache_right :
  forall (E : Env) T cm w st w1, honest T w -> steady_reads -> starts cm w st w1 -> fs_ok (w_fs w1) -> agrees T (w_fs w1) ->
  in_order w1 /\ cache_readable w1.
Proof. intros E T cm w st w1 H St S O A. split; [exact (honest_order T cm w st w1 H St S O A)|exact (honest_readable T cm w st w1 H St S A)]. Qed.
Print Assumptions C78_cache_right.
(** So C63 and C76 need no assumption about the cache or the stored trees. *)
Theorem C78_status :
  forall (E : Env) (F : Fmt) T cm w s w1 w2, honest T w -> starts cm w (Some s) w1 -> steady_reads -> fs_ok (w_fs w1) -> agrees T (w_fs w1) -> no_coll (w_hashed w1) ->
  run_command cm (Some s) CStatus w1 = (Done tt, w2) ->
  exists name, rp_head (repo_of (cur_db w1)) = Some name /\
    ((exists k l c A M, history name None (repo_of (cur_db w1)) = k :: l /\ reads_commit w1 k c /\
        differences (cm_exclude cm) (ds_folder s) (ds_repo s) w1 (Some (c_tree c)) (w_hashed w2) A M /\
        writes_lines w1 w2 ((str "HEAD: " ++ name ++ str " [" ++ firstn 8 (as_user_key k) ++ str "]") :: report_lines (map entry_text A) (map (fun x => entry_text (x, true)) M))) \/
     (history name None (repo_of (cur_db w1)) = [] \/ ~ no_errors w1) /\ writes_lines w1 w2 [str "HEAD: " ++ name ++ str " (no commits on " ++ name ++ str ")"]).
Proof. intros E F T cm w s w1 w2. apply honest_status. Qed.
Print Assumptions C78_status.
Theorem C78_compare :
  forall (E : Env) (F : Fmt) T cm w s w1 p k w2, honest T w -> starts cm w (Some s) w1 -> steady_reads -> fs_ok (w_fs w1) -> agrees T (w_fs w1) -> no_coll (w_hashed w1) ->
  (forall ki, k = Some ki -> names_only w1 Item ki) -> run_command cm (Some s) (CCompare p k false) w1 = (Done tt, w2) ->
  exists t A M, compared_to w1 k t /\
    differences (cm_exclude cm) (ds_folder s) (match p with Some q => q | None => ds_repo s end) w1 (Some t) (w_hashed w2) A M /\
    writes_lines w1 w2 (report_lines (map entry_text A) (map (fun x => entry_text (x, true)) M)).
Proof. intros E F T cm w s w1 p k w2. apply honest_compare. Qed.
Print Assumptions C78_compare.
Theorem C78_compare_stat :
  forall (E : Env) (F : Fmt) T cm w s w1 p k w2, honest T w -> starts cm w (Some s) w1 -> steady_reads -> fs_ok (w_fs w1) -> agrees T (w_fs w1) -> no_coll (w_hashed w1) ->
  (forall ki, k = Some ki -> names_only w1 Item ki) -> run_command cm (Some s) (CCompare p k true) w1 = (Done tt, w2) ->
  exists t l ls, compared_to w1 k t /\
    stat_differences (cm_exclude cm) (ds_folder s) (match p with Some q => q | None => ds_repo s end) w1 t w2 l /\
    Forall2 (fun f => stat_spelt (display (st_name f)) (N.of_nat (st_added f)) (N.of_nat (st_removed f))) l ls /\ writes_lines w1 w2 ls.
Proof. intros E F T cm w s w1 p k w2. apply honest_compare_stat. Qed.
Print Assumptions C78_compare_stat.
(** The whole story.  [commit] exits with 0 and changes no file.  Then the files are
    edited.  If what was committed is still there (else [status] panics, see C37), what is
    there can be listed, and the new files are found from here (see C38), [status]
    exits with 0, changes no file, and prints the newest commit and exactly the edits: the
    topmost new files and directories, and the files with another content. *)
Theorem C78_story :
  forall (E : Env) (F : Fmt) T cm w e d db m, honest T w -> steady_reads -> quiet_disk w -> cache_there w -> agrees T (w_fs w) -> repository_at cm w e d db ->
  let l := e ++ removelast d in let dbl := e ++ d in let ex := cm_exclude cm in
  globs_ok cm -> (exists n, rp_head (repo_of db) = Some n /\ utf8_valid n = true) -> can_store ex (abs_path dbl) (abs_path l) w -> lossless_below (w_fs w) l ->
  (lenN m < 2 ^ 62)%N -> utf8_valid m = true ->
  exists w', run_process cm (CCommit None m None) w = (Some 0%N, w') /\ w_fs w' = w_fs w /\ honest T w' /\
    forall v db', outside w' v -> w_cache v = w_cache w' \/ w_cache v = [] -> quiet_disk v -> cache_there v -> agrees T (w_fs v) -> repository_at cm v e d db' ->
      no_coll (w_hashed v) -> length (d_data db') <= stack -> listable ex dbl (w_fs v) (abs_path l) l stack -> lossless_below (w_fs v) l ->
      (forall r e0, committed ex dbl l (w_fs w) r e0 -> lookup (w_fs v) (l ++ r) <> None) ->
      (forall x c st, now ex dbl l (w_fs v) x (EFile c st) -> (forall e0, ~ committed ex dbl l (w_fs w) x e0) -> found_here v x) ->
      exists v' name k r, run_process cm CStatus v = (Some 0%N, v') /\ w_fs v' = w_fs v /\ rp_head (repo_of db') = Some name /\ history name None (repo_of db') = k :: r /\
        (no_coll (w_hashed v') -> exists A M, edits ex dbl l (w_fs w) (w_fs v) A M /\
           writes_lines v v' ((str "HEAD: " ++ name ++ str " [" ++ firstn 8 (as_user_key k) ++ str "]") :: report_lines (map entry_text A) (map (fun x => entry_text (x, true)) M))).
Proof. intros E F T cm w e d db m. apply edit_story. Qed.
Print Assumptions C78_story.
(** Nothing but the line about HEAD is printed exactly when nothing is new and every
    file has the content it had. *)
Theorem C78_clean :
  forall ex dbl l f g A M (E : Env), edits ex dbl l f g A M -> (A = [] /\ M = [] <-> unedited ex dbl l f g).
Proof. intros ex dbl l f g A M E. apply edits_none. Qed.
Print Assumptions C78_clean.
(** In the directory of the repository all new files are found. *)
Theorem C78_found :
  forall (E : Env) ex dbl v x c st, fs_ok (w_fs v) -> now ex dbl (w_cwd v) (w_fs v) x (EFile c st) -> found_here v x.
Proof. intros E ex dbl v x c st O (N & L & _). eapply here_found; [apply fs_ok_closed, O|exact L|exact N]. Qed.
Print Assumptions C78_found.

(** Examples. *)
Definition agreesb (T : cachekey -> bytes) (f : fs) : bool :=
  forallb (fun x => match snd x with
    | EFile c st => (s_inode st <? 2 ^ 64)%N && (wrap64 (lenN c) <? 2 ^ 64)%N && (- 2 ^ 63 <=? s_mtime st)%Z && (s_mtime st <? 2 ^ 63)%Z && bytes_eqb (T (triple c st)) c
    | _ => true
    end) f.
Lemma agreesb_ok T f : agreesb T f = true -> agrees T f.
Proof.
  unfold agreesb. rewrite forallb_forall. intros H l c st L. destruct l as [|n l]; [discriminate L|]. apply assoc_loc_in in L. apply H in L. cbn [snd] in L.
  repeat (apply andb_prop in L as [L ?]). split; [split; [apply N.ltb_lt; assumption|split; [apply N.ltb_lt; assumption|split; [apply Z.leb_le; assumption|apply Z.ltb_lt; assumption]]]|apply bytes_eqb_eq; assumption].
Qed.
Lemma honest_step {E : Env} T cm c w : honest T w -> fs_okb (w_fs (snd (setup cm (close_all w)))) && agreesb T (w_fs (snd (setup cm (close_all w)))) = true ->
  match c with CCommit _ m _ => utf8_valid m = true | CCommitTree _ _ | CReflogPush _ _ _ | CRefUpdate _ _ => False | _ => True end ->
  honest T (snd (run_process cm c w)).
Proof.
  intros U F S. apply andb_prop in F as [F A]. apply ho_process; [exact U|]. intros st w1 St. unfold starts in St. rewrite St in F, A. split; [apply fs_okb_ok, F|]. split; [|apply agreesb_ok, A].
  destruct c; try exact I; try contradiction. exact S.
Qed.
Lemma cache_fs (w : world) f : w_cache (set_fs w f) = w_cache w.
Proof. reflexivity. Qed.
Lemma honest_fs {E : Env} T w f : honest T w -> honest T (set_fs w f).
Proof. intro H. eapply ho_outside; [exact H|split; reflexivity|left; reflexivity]. Qed.
Definition listableb (f : fs) (depth : nat) : bool := forallb (fun x => match snd x with EDir | EFile _ _ => length (fst x) <? depth | _ => false end) f.
Lemma listableb_ok {E : Env} ex dbl f p l depth : 0 < depth -> listableb f depth = true -> listable ex dbl f p l depth.
Proof.
  intros D H r e L _. unfold listableb in H. rewrite forallb_forall in H. destruct (l ++ r) as [|n x] eqn:Q.
  - apply app_eq_nil in Q as [_ ->]. injection L as <-. split; [discriminate|]. intros _. split; [exact D|left; reflexivity].
  - apply assoc_loc_in in L. apply H in L. cbn [fst snd] in L. assert (X : e = EDir \/ exists c st, e = EFile c st) by (destruct e; eauto; discriminate L).
    split; [destruct X as [->|(c & st & ->)]; discriminate|]. intros _. split; [|exact X].
    assert (Y : length (n :: x) < depth) by (apply Nat.ltb_lt; destruct X as [->|(c & st & ->)]; exact L). rewrite <- Q, app_length in Y. lia.
Qed.
Definition keptallb (l : loc) (f g : fs) : bool := forallb (fun x => if names_prefix l (fst x) then match lookup g (fst x) with Some _ => true | None => false end else true) f.
Lemma keptallb_ok {E : Env} ex dbl l f g : l <> [] -> keptallb l f g = true -> forall r e0, committed ex dbl l f r e0 -> lookup g (l ++ r) <> None.
Proof.
  intros Nl H r e0 [L _]. unfold keptallb in H. rewrite forallb_forall in H. assert (I : In (l ++ r, e0) f) by (destruct l; [congruence|]; apply assoc_loc_in, L).
  apply H in I. cbn [fst] in I. rewrite (proj2 (names_prefix_iff _ _)) in I by (exists r; reflexivity). destruct (lookup g (l ++ r)); [discriminate|discriminate I].
Qed.
#[local] Existing Instance co_env.
(** The repository of C72, after the commit: "a" is changed, the directory "d" is new,
    and an excluded file in it as well. *)
Definition ho_edit (f : fs) : fs :=
  map (fun x => if names_eqb (fst x) (co_at [str "a"]) then (fst x, EFile (str "HELLO") (Stamp 7 500)) else x) f ++
  [(co_at [str "d"], EDir); (co_at [str "d"; str "h"], EFile (str "h") (Stamp 91 500)); (co_at [str "d"; str "x"], EFile (str "i") (Stamp 92 500))].
Definition ho_edited : world := set_fs co_committed (ho_edit (w_fs co_committed)).
(** Which content goes with which triple: as in these two file systems. *)
Definition ho_T (k : cachekey) : bytes :=
  match find (fun x => match snd x with EFile c st => same_triple k (triple c st) | _ => false end) (w_fs co_inited ++ w_fs ho_edited) with
  | Some (_, EFile c _) => c
  | _ => []
  end.
Lemma ho_inited : honest ho_T co_inited.
Proof. apply honest_step; [apply ho_start; reflexivity|vm_compute; reflexivity|exact I]. Qed.
Lemma ho_committed : honest ho_T co_committed.
Proof. apply honest_step; [exact ho_inited|vm_compute; reflexivity|reflexivity]. Qed.
Lemma ho_edited_honest : honest ho_T ho_edited.
Proof. exact (honest_fs _ _ _ ho_committed). Qed.
Definition ho_db : db := db_at (w_dbs ho_edited) (co_home ++ [str ".snapcd"; str "snapcd.db"]).
Lemma ho_at : repository_at co_cm ho_edited co_home [str ".snapcd"] ho_db.
Proof.
  replace co_home with (w_cwd ho_edited) by (vm_compute; reflexivity). apply repository_here; [vm_compute; reflexivity|discriminate|vm_compute; reflexivity|apply there_ok; vm_compute; reflexivity|vm_compute; reflexivity].
Qed.
Definition ho_out : world := snd (run_process co_cm CStatus ho_edited).
Lemma ho_status : run_process co_cm CStatus ho_edited = (Some 0%N, ho_out).
Proof. vm_compute. reflexivity. Qed.
Example C78_example :
  honest ho_T co_inited /\ steady_reads /\ agrees ho_T (w_fs co_inited) /\ outside co_committed ho_edited /\ w_cache ho_edited = w_cache co_committed /\ quiet_disk ho_edited /\ cache_there ho_edited /\
  agrees ho_T (w_fs ho_edited) /\ repository_at co_cm ho_edited co_home [str ".snapcd"] ho_db /\ no_coll (w_hashed ho_edited) /\ length (d_data ho_db) <= stack /\
  listable [str "x"] (co_home ++ [str ".snapcd"]) (w_fs ho_edited) (abs_path co_home) co_home stack /\ lossless_below (w_fs ho_edited) co_home /\
  (forall r e0, committed [str "x"] (co_home ++ [str ".snapcd"]) co_home (w_fs co_inited) r e0 -> lookup (w_fs ho_edited) (co_home ++ r) <> None) /\ w_cwd ho_edited = co_home /\
  run_process co_cm CStatus ho_edited = (Some 0%N, ho_out) /\ no_coll (w_hashed ho_out) /\
  exists k, w_out ho_out = rev (Printed "HEAD:" [str "master"; k] :: report_lists [([str "d"], false)] [[str "a"]]) ++ w_out ho_edited.
Proof.
  split; [exact ho_inited|]. split; [intros i j c; reflexivity|]. split; [apply agreesb_ok; vm_compute; reflexivity|]. split; [exact (outside_fs _ _)|]. split; [exact (cache_fs _ _)|].
  split; [apply quietb; vm_compute; reflexivity|]. split; [exact I|]. split; [apply agreesb_ok; vm_compute; reflexivity|]. split; [exact ho_at|]. split; [apply logb_ok; vm_compute; reflexivity|].
  split; [apply Nat.leb_le; vm_compute; reflexivity|]. split; [apply listableb_ok; [apply Nat.ltb_lt; reflexivity|vm_compute; reflexivity]|]. split; [apply co_small; vm_compute; reflexivity|].
  split; [apply keptallb_ok; [discriminate|vm_compute; reflexivity]|]. split; [vm_compute; reflexivity|]. split; [exact ho_status|]. split; [apply logb_ok; vm_compute; reflexivity|].
  eexists. vm_compute. reflexivity.
Qed.
(** After that the cache is not empty. *)
Example C78_cache_example : honest ho_T ho_out /\ length (w_cache ho_out) = 3.
Proof. split; [apply honest_step; [exact ho_edited_honest|vm_compute; reflexivity|exact I]|vm_compute; reflexivity]. Qed.
