(** Property C85: committing the same files again stores nothing but the commit. *)
From Coq Require Import Sorted Permutation.
From Verif Require Import Base BaseFacts Key Keyish Cbor Object Path World WorldFacts Store File Filter Dir Diff Commit Screen Main SpecStore SpecRun SpecProc SpecFile SpecDir SpecClosure
  SpecCache SpecDiff SpecPatch SpecShow SpecOut SpecCmd SpecText SpecShape SpecCheckout SpecLive SpecScreen SpecHonest SpecRestore SpecAgain FsFacts DirPlan DirTrip LineFacts CmdFacts ShapeTop LiveCmd LiveStart LiveStory CheckoutFacts HonestFacts RestoreFacts CleanFacts AgainFacts Checks Toy ToyRepo
  PropsMain PropsShow PropsCmd PropsShape PropsLive PropsCheckout PropsStory PropsHonest PropsRestore PropsClean.

(** ** C85 *)
(** What can be stored is committed, as [k0].  Then anything may happen, as long as the
    database file is there when a process starts.  Whenever what there is to commit is
    the same again - whatever was changed in between and changed back, and whatever the
    inodes, times and excluded files are - another commit exits with 0 and adds at most
    one object to the database, stored under the key of the commit; and if no two
    different values were hashed to the same key, both commits are of the same tree. *)
Theorem C85_commit_again :
  forall (E : Env) cm w e d db n m, reachable w -> steady_reads -> quiet_disk w -> stands_in cm w e d db -> head_named db n -> globs_ok cm ->
  let l := e ++ removelast d in let dbl := e ++ d in let ex := cm_exclude cm in
  can_store ex (abs_path dbl) (abs_path l) w -> (lenN m < 2 ^ 62)%N -> utf8_valid m = true ->
  exists w' k0, run_process cm (CCommit None m None) w = (Some 0%N, w') /\ history n None (repo_of (db_at (w_dbs w') (db_file e d))) = k0 :: history n None (repo_of db) /\
    forall v db1 n1 m1, later (db_file e d) w' v -> reachable v -> quiet_disk v -> stands_in cm v e d db1 -> head_named db1 n1 ->
      can_store ex (abs_path dbl) (abs_path l) v -> (lenN m1 < 2 ^ 62)%N -> utf8_valid m1 = true ->
      same_committed ex dbl l (w_fs w) (w_fs v) -> same_listing ex dbl l (w_fs w) (w_fs v) ->
      exists v' k, run_process cm (CCommit None m1 None) v = (Some 0%N, v') /\
        let db2 := db_at (w_dbs v') (db_file e d) in
        one_more k db1 db2 /\ history n1 None (repo_of db2) = k :: history n1 None (repo_of db1) /\
        (no_coll (w_hashed v') -> exists t, commit_tree_at db2 k0 t /\ commit_tree_at db2 k t).
Proof. intros E cm w e d db n m. apply commit_again. Qed.
Print Assumptions C85_commit_again.

(** Examples. *)
Definition skip (l x : loc) : loc := skipn (length l) x.
Definition sameb {E : Env} (ex : list bytes) (dbl l : loc) (f g : fs) : bool :=
  forallb (fun x => if names_prefix l (fst x) then
    match snd x, lookup g (fst x) with
    | EDir, Some EDir => true
    | EFile c _, Some (EFile c' _) => bytes_eqb c c'
    | _, _ => false
    end || negb (DirPlan.kept ex dbl (below (abs_path l) (skip l (fst x))) (fst x)) else true) f.
Lemma skip_app l r : skip l (l ++ r) = r.
Proof. unfold skip. rewrite skipn_app, skipn_all, Nat.sub_diag. reflexivity. Qed.
Lemma sameb_half {E : Env} ex dbl l f g : l <> [] -> sameb ex dbl l f g = true ->
  (forall r, committed ex dbl l f r EDir -> r <> [] -> committed ex dbl l g r EDir) /\
  (forall r c st, committed ex dbl l f r (EFile c st) -> r <> [] -> exists st, committed ex dbl l g r (EFile c st)).
Proof.
  intros Nl H. unfold sameb in H. rewrite forallb_forall in H.
  assert (X : forall r e, committed ex dbl l f r e -> r <> [] -> match e, lookup g (l ++ r) with EDir, Some EDir => true | EFile c _, Some (EFile c' _) => bytes_eqb c c' | _, _ => false end = true).
  { intros r e [L In] Nr. assert (I : List.In (l ++ r, e) f) by (destruct l; [congruence|]; apply assoc_loc_in, L). apply H in I. cbn [fst snd] in I.
    rewrite (proj2 (names_prefix_iff _ _)) in I by (exists r; reflexivity). rewrite skip_app in I.
    assert (K : DirPlan.kept ex dbl (below (abs_path l) r) (l ++ r) = true) by (apply kept_excluded; apply (In r []); [rewrite app_nil_r; reflexivity|exact Nr]).
    rewrite K, orb_false_r in I. exact I. }
  split.
  - intros r C Nr. specialize (X r _ C Nr). cbn in X. split; [|apply C]. destruct (lookup g (l ++ r)) as [[| | |]|]; try discriminate X. reflexivity.
  - intros r c st C Nr. specialize (X r _ C Nr). cbn in X. destruct (lookup g (l ++ r)) as [[| | |]|] eqn:L; try discriminate X. apply bytes_eqb_eq in X. subst. eexists. split; [exact L|apply C].
Qed.
Lemma sameb_ok {E : Env} ex dbl l f g : l <> [] -> lookup f l = Some EDir -> lookup g l = Some EDir -> sameb ex dbl l f g && sameb ex dbl l g f = true -> same_committed ex dbl l f g.
Proof.
  intros Nl Lf Lg H. apply andb_prop in H as [A B]. destruct (sameb_half _ _ _ _ _ Nl A) as [A1 A2], (sameb_half _ _ _ _ _ Nl B) as [B1 B2].
  split.
  - intros [|a r]; [split; (intros [_ X]; split; [rewrite app_nil_r; assumption|exact X])|]. split; intro X; [apply A1|apply B1]; auto; discriminate.
  - intros [|a r] c; [split; (intros (st & X & _); rewrite app_nil_r in X; congruence)|]. split; intros (st & X); [eapply A2|eapply B2]; eauto; discriminate.
Qed.
Definition listedb {E : Env} (ex : list bytes) (dbl l : loc) (f g : fs) : bool :=
  forallb (fun x => if names_prefix l (fst x) then
    let keep n := DirPlan.kept ex dbl (below (abs_path l) (skip l (fst x) ++ [n])) (fst x ++ [n]) in
    names_eqb (filter keep (children f (fst x))) (filter keep (children g (fst x))) else true) f.
Lemma listedb_ok {E : Env} ex dbl l f g : l <> [] -> listedb ex dbl l f g = true -> same_listing ex dbl l f g.
Proof.
  intros Nl H r keep [L In] K. unfold listedb in H. rewrite forallb_forall in H. assert (I : List.In (l ++ r, EDir) f) by (destruct l; [congruence|]; apply assoc_loc_in, L). apply H in I. cbn [fst snd] in I.
  rewrite (proj2 (names_prefix_iff _ _)) in I by (exists r; reflexivity). rewrite skip_app in I. apply names_eqb_eq in I.
  assert (Q : forall a, filter keep a = filter keep (filter (fun n => DirPlan.kept ex dbl (below (abs_path l) (r ++ [n])) ((l ++ r) ++ [n])) a)).
  { intro a. rewrite filter_filter. apply filter_ext. intro n. destruct (keep n) eqn:Kn; [|rewrite andb_false_r; reflexivity]. rewrite andb_true_r. symmetry. rewrite <- app_assoc. apply kept_excluded. apply (proj1 (K n) Kn (r ++ [n]) []); [rewrite app_nil_r; reflexivity|].
    intro X. destruct r; discriminate X. }
  rewrite Q, I, <- Q. reflexivity.
Qed.
#[local] Existing Instance co_env.
(** The story of C84: the edited files were committed too, then the first commit was
    checked out.  Now the excluded file "x" is written anew. *)
Definition ag_back : world := set_fs cl_back (co_priv (w_fs cl_back)).
Definition ag_out : world := snd (run_process co_cm (CCommit None (str "third") None) ag_back).
Definition ag_db : db := db_at (w_dbs ag_back) (db_file co_home [str ".snapcd"]).
Definition ag_db2 : db := db_at (w_dbs ag_out) (db_file co_home [str ".snapcd"]).
Lemma ag_runs : run_process co_cm (CCommit None (str "third") None) ag_back = (Some 0%N, ag_out).
Proof. vm_compute. reflexivity. Qed.
Lemma ag_stands : stands_in co_cm ag_back co_home [str ".snapcd"] ag_db.
Proof.
  split; [vm_compute; reflexivity|]. split; [exact I|]. split; [apply fs_okb_ok; vm_compute; reflexivity|].
  replace co_home with (w_cwd ag_back) by (vm_compute; reflexivity). apply repository_here; [vm_compute; reflexivity|discriminate|vm_compute; reflexivity|apply there_ok; vm_compute; reflexivity|vm_compute; reflexivity].
Qed.
Lemma ag_later : later (db_file co_home [str ".snapcd"]) co_committed ag_back.
Proof. eapply later_outside; [|exact (outside_fs _ _)]. apply later_process; [exact cl_later|apply there_ok; vm_compute; reflexivity]. Qed.
Example C85_example :
  reachable co_inited /\ steady_reads /\ quiet_disk co_inited /\ stands_in co_cm co_inited co_home [str ".snapcd"] st_db /\ head_named st_db (str "master") /\
  later (db_file co_home [str ".snapcd"]) co_committed ag_back /\ quiet_disk ag_back /\ stands_in co_cm ag_back co_home [str ".snapcd"] ag_db /\ head_named ag_db (str "master") /\
  same_committed [str "x"] (co_home ++ [str ".snapcd"]) co_home (w_fs co_inited) (w_fs ag_back) /\ same_listing [str "x"] (co_home ++ [str ".snapcd"]) co_home (w_fs co_inited) (w_fs ag_back) /\
  w_fs co_inited <> w_fs ag_back /\ run_process co_cm (CCommit None (str "third") None) ag_back = (Some 0%N, ag_out) /\ no_coll (w_hashed ag_out) /\ length (d_data ag_db2) = S (length (d_data ag_db)).
Proof.
  split; [exact co_inited_reachable|]. split; [intros i j c; reflexivity|]. split; [exact st_quiet|]. split; [exact rs_stands|]. split; [split; vm_compute; reflexivity|]. split; [exact ag_later|].
  split; [apply quietb; vm_compute; reflexivity|]. split; [exact ag_stands|]. split; [split; vm_compute; reflexivity|].
  split; [apply sameb_ok; [discriminate|vm_compute; reflexivity..]|]. split; [apply listedb_ok; [discriminate|vm_compute; reflexivity]|]. split; [vm_compute; discriminate|]. split; [exact ag_runs|]. split; [apply logb_ok; vm_compute; reflexivity|vm_compute; reflexivity].
Qed.
