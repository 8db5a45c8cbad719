(** Property C86: [show] tells what a commit changed, however long ago it was made. *)
From Coq Require Import Sorted.
From Verif Require Import Base BaseFacts Key Keyish Cbor Object Path World WorldFacts Store File Filter Dir Diff Commit Main SpecStore SpecRun SpecProc SpecFile SpecDir SpecClosure
  SpecCache SpecDiff SpecPatch SpecShow SpecOut SpecText SpecShape SpecLive SpecHonest SpecRestore SpecHistory FsFacts CmdFacts OutFacts ShapeTop LiveStart LiveStory RestoreFacts HistoryFacts Checks Toy ToyRepo
  PropsMain PropsShow PropsCmd PropsShape PropsLive PropsCheckout PropsStory PropsHonest PropsText.

(** ** C86 *)
(** What can be stored is committed, as [k].  Then anything may happen, as long as the
    database file is there when a process starts.  If [k] is the newest commit of HEAD's
    branch, another commit [k1] may be made of the files as they are then.  At any time
    after that, and from anywhere in the repository, [show] of [k1] exits with 0, changes
    no file and prints the key and the message of [k1] and one patch, with the files that
    are new since [k] and those whose content changed since, each with the lines of the
    contents it had when the commits were made.  The changes have to be ones that [show]
    can present (see C40).  If [k] is the first commit, [show] of [k] prints all its
    files as new. *)
Theorem C86_show_history :
  forall (E : Env) cm w e d db n m, well_used w -> steady_reads -> 6 < stack -> quiet_disk w -> stands_in cm w e d db -> head_named db n -> globs_ok cm ->
  let l := e ++ removelast d in let dbl := e ++ d in let ex := cm_exclude cm in
  let shows_later w' k m old g := forall u db2 ki, later (db_file e d) w' u -> well_used u -> stands_in cm u e d db2 -> no_coll (w_hashed u) -> length (d_data db2) < stack -> taken_for cm u ki k ->
    exists u' t, run_process cm (CShow (Some ki)) u = (Some 0%N, u') /\ w_fs u' = w_fs u /\ edits_text ex dbl l old g t /\
      w_out u' = rev (Printed "commit" [as_user_key k] :: Printed "" [] :: Printed "message" [m] :: Printed "" [] :: t) ++ w_out u in
  can_store ex (abs_path dbl) (abs_path l) w -> lossless_below (w_fs w) l -> (lenN m < 2 ^ 62)%N -> utf8_valid m = true ->
  exists w', run_process cm (CCommit None m None) w = (Some 0%N, w') /\
    (no_coll (w_hashed w') -> exists k, history n None (repo_of (db_at (w_dbs w') (db_file e d))) = k :: history n None (repo_of db) /\
       (history n None (repo_of db) = [] -> presents ex dbl l None (w_fs w) -> shows_later w' k m None (w_fs w)) /\
       forall v db1 n1 m1 r, later (db_file e d) w' v -> well_used v -> quiet_disk v -> stands_in cm v e d db1 -> head_named db1 n1 -> history n1 None (repo_of db1) = k :: r ->
         can_store ex (abs_path dbl) (abs_path l) v -> lossless_below (w_fs v) l -> (lenN m1 < 2 ^ 62)%N -> utf8_valid m1 = true ->
         exists v', run_process cm (CCommit None m1 None) v = (Some 0%N, v') /\
           (no_coll (w_hashed v') -> exists k1, history n1 None (repo_of (db_at (w_dbs v') (db_file e d))) = k1 :: k :: r /\
              (presents ex dbl l (Some (w_fs w)) (w_fs v) -> shows_later v' k1 m1 (Some (w_fs w)) (w_fs v)))).
Proof. intros E cm w e d db n m. apply shown_history. Qed.
Print Assumptions C86_show_history.

(** Examples. *)
Definition inb (l y : loc) : bool := names_prefix l y && (length l <? length y).
Definition deepb (l : loc) (f g : fs) : bool :=
  forallb (fun x => if inb l (fst x) then
    match snd x, lookup g (fst x) with
    | EDir, Some EDir => true
    | EFile c _, Some (EFile c' _) => bytes_eqb c c' || (length (fst x) =? S (length l))
    | _, _ => false
    end else true) f.
Definition kidsb (l : loc) (f g : fs) : bool :=
  forallb (fun x => if inb l (fst x) then names_eqb (children f (fst x)) (children g (fst x)) else true) f.
Definition backb (l : loc) (f g : fs) : bool :=
  forallb (fun x => if inb l (fst x) && (S (length l) <? length (fst x)) then
    match snd x, lookup f (fst x) with
    | EDir, Some EDir => true
    | EFile c _, Some (EFile c' _) => bytes_eqb c c'
    | _, _ => false
    end else true) g.
Definition textb (f : fs) : bool := forallb (fun x => forallb utf8_valid (fst x) && match snd x with EFile c _ => utf8_valid c | _ => true end) f.
Lemma inb_app l r : r <> [] -> inb l (l ++ r) = true.
Proof.
  intro N. unfold inb. rewrite (proj2 (names_prefix_iff _ _)) by (exists r; reflexivity). apply Nat.ltb_lt. rewrite app_length. destruct r; [congruence|cbn; lia].
Qed.
Lemma entry_in l f r e : l <> [] -> lookup f (l ++ r) = Some e -> In (l ++ r, e) f.
Proof. intros N L. destruct l; [congruence|]. apply assoc_loc_in, L. Qed.
Lemma text_new {E : Env} ex dbl l old g x c : l <> [] -> textb g = true -> new_at ex dbl l old g x c -> utf8_valid c = true.
Proof.
  intros N H [(st & _ & L & _) _]. apply entry_in in L; [|exact N]. unfold textb in H. rewrite forallb_forall in H. apply H in L. apply andb_prop in L as [_ L]. exact L.
Qed.
Lemma names_text {E : Env} ex dbl l p g : l <> [] -> textb g = true -> text_names ex dbl g p l.
Proof.
  intros N H r n e L _. apply entry_in in L; [|exact N]. unfold textb in H. rewrite forallb_forall in H. apply H in L. apply andb_prop in L as [L _]. cbn [fst] in L. rewrite forallb_forall in L. apply L.
  apply in_or_app. right. apply in_or_app. right. left. reflexivity.
Qed.
Lemma presents_ok {E : Env} ex dbl l f g : l <> [] -> lookup f l = Some EDir -> lookup g l = Some EDir -> deepb l f g && kidsb l f g && backb l f g && textb g = true -> presents ex dbl l (Some f) g.
Proof.
  intros N Lf Lg H. apply andb_prop in H as [H Ht]. apply andb_prop in H as [H Hb]. apply andb_prop in H as [Hd Hk]. unfold deepb, kidsb, backb in *. rewrite forallb_forall in Hd, Hk, Hb.
  assert (Fw : forall x e, x <> [] -> lookup f (l ++ x) = Some e -> match e, lookup g (l ++ x) with EDir, Some EDir => True | EFile c _, Some (EFile c' _) => c = c' \/ length x = 1 | _, _ => False end).
  { intros x e Nx L. apply entry_in in L; [|exact N]. apply Hd in L. cbn [fst snd] in L. rewrite inb_app in L by exact Nx. destruct e as [|c st| |], (lookup g (l ++ x)) as [[|c' st'| |]|]; try discriminate L; try exact I.
    apply orb_prop in L as [L|L]; [left; apply bytes_eqb_eq, L|right]. apply Nat.eqb_eq in L. rewrite app_length in L. lia. }
  assert (Bw : forall x e, 1 < length x -> lookup g (l ++ x) = Some e -> match e, lookup f (l ++ x) with EDir, Some EDir => True | EFile c _, Some (EFile c' _) => c = c' | _, _ => False end).
  { intros x e Nx L. apply entry_in in L; [|exact N]. apply Hb in L. cbn [fst snd] in L. rewrite inb_app in L by (destruct x; [cbn in Nx; lia|discriminate]). cbn [andb] in L. rewrite (proj2 (Nat.ltb_lt _ _)) in L by (rewrite app_length; lia).
    destruct e as [|c st| |], (lookup f (l ++ x)) as [[|c' st'| |]|]; try discriminate L; try exact I. apply bytes_eqb_eq, L. }
  split; [intros x c; apply text_new; assumption|]. split.
  - intros x c st [L In]. destruct x as [|a x]; [rewrite app_nil_r in L; congruence|]. assert (Na : a :: x <> []) by discriminate. specialize (Fw (a :: x) _ Na L). cbn in Fw.
    destruct (lookup g (l ++ a :: x)) as [[|c' st'| |]|] eqn:Q; try destruct Fw; exists c', st'; split; assumption.
  - intros x Nx [Lx _]. assert (Long : forall r, r <> [] -> 1 < length (x ++ r)) by (intros r Nr; rewrite app_length; destruct x, r; try congruence; cbn; lia).
    assert (Nxr : forall r, x ++ r <> []) by (intros r Q; apply app_eq_nil in Q as [Q _]; congruence).
    pose proof (Fw x EDir Nx Lx) as Gx. cbn in Gx. destruct (lookup g (l ++ x)) as [[| | |]|] eqn:Qx; try destruct Gx.
    split; [|split].
    + intros [|a r]; [rewrite app_nil_r; split; intros [_ X]; (split; [assumption|exact X])|]. split; intros [L X]; (split; [|exact X]).
      * pose proof (Fw _ _ (Nxr (a :: r)) L) as Y. cbn in Y. destruct (lookup g (l ++ x ++ a :: r)) as [[| | |]|]; try destruct Y. reflexivity.
      * assert (Na : a :: r <> []) by discriminate. pose proof (Bw _ _ (Long _ Na) L) as Y. cbn in Y. destruct (lookup f (l ++ x ++ a :: r)) as [[| | |]|]; try destruct Y. reflexivity.
    + intros [|a r] c; [rewrite app_nil_r; split; intros (st & L & _); congruence|]. assert (Na : a :: r <> []) by discriminate. split; intros (st & L & X).
      * pose proof (Fw _ _ (Nxr (a :: r)) L) as Y. cbn in Y. destruct (lookup g (l ++ x ++ a :: r)) as [[|c' st'| |]|] eqn:Q; try destruct Y as [Y|Y]; try destruct Y; [exists st'; split; assumption|]. pose proof (Long _ Na). lia.
      * pose proof (Bw _ _ (Long _ Na) L) as Y. cbn in Y. destruct (lookup f (l ++ x ++ a :: r)) as [[|c' st'| |]|] eqn:Q; try destruct Y. exists st'. split; assumption.
    + intros r keep [L _] _. f_equal. apply entry_in in L; [|exact N]. apply Hk in L. cbn [fst] in L. rewrite inb_app in L by apply Nxr. apply names_eqb_eq, L.
Qed.
#[local] Existing Instance pt_env.
(** A directory with a file "b" in "s" and a file "f"; commit; "f" is rewritten and "n"
    is new; commit; "f" is rewritten again and "n" is deleted; commit. *)
Definition hs_home : loc := [str "r"].
Definition hs_at (x : loc) : loc := hs_home ++ x.
Definition hs_fs : fs := [(hs_home, EDir); (hs_at [str "s"], EDir); (hs_at [str "s"; str "b"], EFile (str "bb") (Stamp 8 100)); (hs_at [str "f"], EFile (str "a") (Stamp 7 100))].
Definition hs_start : world := World hs_fs hs_home [] [] NoTxn [] None [] [] [] 0.
Definition hs_inited : world := snd (run_process toy_cm CInit hs_start).
Definition hs_one : world := snd (run_process toy_cm (CCommit None (str "first") None) hs_inited).
Definition hs_set (c : bytes) (f : fs) : fs := map (fun x => if names_eqb (fst x) (hs_at [str "f"]) then (fst x, EFile c (Stamp 7 200)) else x) f.
Definition hs_edited : world := set_fs hs_one (hs_set (str "bc") (w_fs hs_one) ++ [(hs_at [str "n"], EFile (str "x" ++ ["010"%char] ++ str "y") (Stamp 9 200))]).
Definition hs_two : world := snd (run_process toy_cm (CCommit None (str "second") None) hs_edited).
Definition hs_edited2 : world := set_fs hs_two (hs_set (str "z") (w_fs hs_one)).
Definition hs_three : world := snd (run_process toy_cm (CCommit None (str "third") None) hs_edited2).
Definition hs_db (w : world) : db := db_at (w_dbs w) (db_file hs_home [str ".snapcd"]).
Definition hs_hist : list key := history (str "master") None (repo_of (hs_db hs_three)).
Definition hs_key (i : nat) : key := nth i hs_hist ct_tree.
Definition hs_prefix (s : bytes) : keyish := match parse_keyish s with Some (Ok ki) => ki | _ => KReflog [] None [] end.
Lemma hs_inited_used : well_used hs_inited.
Proof. apply used_step; [apply wu_start; reflexivity|vm_compute; reflexivity|exact I]. Qed.
Lemma hs_one_used : well_used hs_one.
Proof. apply used_step; [exact hs_inited_used|vm_compute; reflexivity|reflexivity]. Qed.
Lemma hs_edited_used : well_used hs_edited.
Proof. exact (used_fs _ _ hs_one_used). Qed.
Lemma hs_two_used : well_used hs_two.
Proof. apply used_step; [exact hs_edited_used|vm_compute; reflexivity|reflexivity]. Qed.
Lemma hs_three_used : well_used hs_three.
Proof. apply used_step; [exact (used_fs _ _ hs_two_used)|vm_compute; reflexivity|reflexivity]. Qed.
Lemma hs_stands w : w_faults w = [] -> fs_okb (w_fs w) = true -> w_cwd w = hs_home -> prefixesb (w_fs w) (hs_home ++ [str ".snapcd"]) = true ->
  match lookup (w_fs w) (db_file hs_home [str ".snapcd"]) with Some (EFile _ _) => true | _ => false end = true ->
  assoc_loc (db_file hs_home [str ".snapcd"]) (w_dbs w) = Some (hs_db w) -> stands_in toy_cm w hs_home [str ".snapcd"] (hs_db w).
Proof.
  intros F O C P T A. split; [exact F|]. split; [exact I|]. split; [apply fs_okb_ok, O|]. rewrite <- C in *. apply repository_here; [reflexivity|discriminate|exact P|apply there_ok, T|exact A].
Qed.
Lemma hs_store w : stat (w_fs w) (w_cwd w) (abs_path hs_home) = Some (hs_home, EDir) -> listableb (w_fs w) stack = true -> textb (w_fs w) = true -> can_store [] (abs_path (hs_home ++ [str ".snapcd"])) (abs_path hs_home) w.
Proof.
  intros Q Li T. exists hs_home, EDir. split; [exact Q|]. split; [apply listableb_ok; [cbn; lia|exact Li]|apply names_text; [discriminate|exact T]].
Qed.
Lemma hs_taken i s : fst (canonicalize sqlite_ds (hs_prefix s) (snd (setup toy_cm (close_all hs_three)))) = Done (hs_key i) -> taken_for toy_cm hs_three (hs_prefix s) (hs_key i).
Proof.
  intros X st w1 S. pose proof (proj1 (used_started _ _ _ _ hs_three_used S)) as W. unfold starts in S. rewrite S in X. cbn [snd] in X.
  destruct (canonicalize sqlite_ds (hs_prefix s) w1) as [o w2] eqn:Q. cbn [fst] in X. subst o. exact (proj2 (OutFacts.canon_done _ _ _ _ W Q)).
Qed.
Lemma hs_later1 : later (db_file hs_home [str ".snapcd"]) hs_one hs_edited.
Proof. eapply later_outside; [apply later_refl|exact (outside_fs _ _)]. Qed.
Lemma hs_later2 : later (db_file hs_home [str ".snapcd"]) hs_two hs_three.
Proof. apply later_process; [eapply later_outside; [apply later_refl|exact (outside_fs _ _)]|apply there_ok; vm_compute; reflexivity]. Qed.
Definition hs_line (s : bytes) : bytes := s ++ ["010"%char].
(** "bu7" stands for the second commit.  What is shown of it when the third has been made
    are the changes of the second. *)
Definition hs_shown : world := snd (run_process toy_cm (CShow (Some (hs_prefix (str "bu7")))) hs_three).
Example C86_example :
  well_used hs_inited /\ steady_reads /\ 6 < stack /\ quiet_disk hs_inited /\ stands_in toy_cm hs_inited hs_home [str ".snapcd"] (hs_db hs_inited) /\ head_named (hs_db hs_inited) (str "master") /\ globs_ok toy_cm /\
  history (str "master") None (repo_of (hs_db hs_inited)) = [] /\ presents [] (hs_home ++ [str ".snapcd"]) hs_home None (w_fs hs_inited) /\
  can_store [] (abs_path (hs_home ++ [str ".snapcd"])) (abs_path hs_home) hs_inited /\ lossless_below (w_fs hs_inited) hs_home /\
  later (db_file hs_home [str ".snapcd"]) hs_one hs_edited /\ well_used hs_edited /\ quiet_disk hs_edited /\ stands_in toy_cm hs_edited hs_home [str ".snapcd"] (hs_db hs_edited) /\ head_named (hs_db hs_edited) (str "master") /\
  history (str "master") None (repo_of (hs_db hs_edited)) = [hs_key 2] /\ can_store [] (abs_path (hs_home ++ [str ".snapcd"])) (abs_path hs_home) hs_edited /\ lossless_below (w_fs hs_edited) hs_home /\
  presents [] (hs_home ++ [str ".snapcd"]) hs_home (Some (w_fs hs_inited)) (w_fs hs_edited) /\
  later (db_file hs_home [str ".snapcd"]) hs_two hs_three /\ well_used hs_three /\ stands_in toy_cm hs_three hs_home [str ".snapcd"] (hs_db hs_three) /\ no_coll (w_hashed hs_three) /\ length (d_data (hs_db hs_three)) < stack /\
  taken_for toy_cm hs_three (hs_prefix (str "bu7")) (hs_key 1) /\ taken_for toy_cm hs_three (hs_prefix (str "b57")) (hs_key 2) /\
  run_process toy_cm (CShow (Some (hs_prefix (str "bu7")))) hs_three = (Some 0%N, hs_shown) /\
  w_out hs_shown = rev [Printed "commit" [as_user_key (hs_key 1)]; Printed "" []; Printed "message" [str "second"]; Printed "" [];
    Printed "patch" [hs_line (hs_line (str "n") ++ hs_line (str "+x") ++ hs_line (str "+y")) ++ hs_line (hs_line (str "f") ++ hs_line (str "-a") ++ hs_line (str "+bc"))]] ++ w_out hs_three.
Proof.
  split; [exact hs_inited_used|]. split; [intros i j c; reflexivity|]. split; [cbn; lia|]. split; [apply quietb; vm_compute; reflexivity|]. split; [apply hs_stands; vm_compute; reflexivity|].
  split; [split; vm_compute; reflexivity|]. split; [reflexivity|]. split; [vm_compute; reflexivity|]. split; [split; [intros x c; apply text_new; [discriminate|vm_compute; reflexivity]|exact I]|].
  split; [apply hs_store; vm_compute; reflexivity|]. split; [apply co_small; vm_compute; reflexivity|]. split; [exact hs_later1|]. split; [exact hs_edited_used|]. split; [apply quietb; vm_compute; reflexivity|].
  split; [apply hs_stands; vm_compute; reflexivity|]. split; [split; vm_compute; reflexivity|]. split; [vm_compute; reflexivity|]. split; [apply hs_store; vm_compute; reflexivity|]. split; [apply co_small; vm_compute; reflexivity|].
  split; [apply presents_ok; [discriminate|vm_compute; reflexivity..]|]. split; [exact hs_later2|]. split; [exact hs_three_used|]. split; [apply hs_stands; vm_compute; reflexivity|]. split; [apply logb_ok; vm_compute; reflexivity|].
  split; [apply Nat.ltb_lt; vm_compute; reflexivity|]. split; [apply hs_taken; vm_compute; reflexivity|]. split; [apply hs_taken; vm_compute; reflexivity|]. split; [vm_compute; reflexivity|]. vm_compute. reflexivity.
Qed.
