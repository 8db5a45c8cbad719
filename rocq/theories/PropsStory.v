(** Property C72: checkout succeeds exactly when it should, and brings back what was
    committed. *)
From Verif Require Import Base BaseFacts Key Keyish Cbor Object Path World WorldFacts Store File Filter Dir Diff Commit Main SpecStore SpecRun SpecProc SpecFile SpecDir SpecClosure
  SpecCache SpecDiff SpecPatch SpecShow SpecOut SpecCmd SpecText SpecShape SpecCheckout SpecLive LiveCmd LiveStart LiveStory FsFacts CmdFacts ShapeTop Checks Toy ToyRepo
  PropsMain PropsShow PropsCmd PropsShape PropsLive PropsCheckout.

(** ** C72 *)
(** [checkout]: exactly when the patterns are globs, HEAD names a commit, and its tree
    can be checked out: the directories are there, without links that lead nowhere;
    where the files go there is nothing or a file; and all that is written or removed
    is below "/home/jess/src/snapcd/repo". *)
Theorem C72_checkout :
  forall (E : Env) cm w s w1 d, well_used w -> w_faults w = [] -> starts cm w (Some s) w1 -> cm_db_path cm = named d -> d <> [] ->
  no_coll (w_hashed w1) -> deep_enough w1 -> fs_ok (w_fs w1) ->
  exists e, above (w_cwd w) e /\ ds_folder s = abs_path (e ++ d) /\ ds_repo s = abs_path (e ++ removelast d) /\
  ((exists w2, run_command cm (Some s) CCheckout w1 = (Done tt, w2)) <->
   globs_ok cm /\ has_head w1 /\ exists t, head_tree w1 (Some t) /\ can_checkout (cm_exclude cm) (e ++ d) w1 t (e ++ removelast d)).
Proof.
  intros E cm w s w1 d U F S Cp Nd NC De O. destruct (starts_place cm w s w1 d F S Cp Nd) as (e & Ab & -> & Dirs). exists e. split; [exact Ab|]. split; [reflexivity|]. split; [reflexivity|].
  apply (checkout_exactly cm w w1 e d); assumption.
Qed.
Print Assumptions C72_checkout.

(** Where a process works: the database folder is the path given, below the current
    directory or one above it, and the repository is the directory that it is in. *)
Theorem C56_place :
  forall (E : Env) cm w s w1 d, w_faults w = [] -> starts cm w (Some s) w1 -> cm_db_path cm = named d -> d <> [] ->
  exists e, above (w_cwd w) e /\ ds_folder s = abs_path (e ++ d) /\ ds_repo s = abs_path (e ++ removelast d) /\ lookup (w_fs w1) (e ++ d) = Some EDir.
Proof.
  intros E cm w s w1 d F S Cp Nd. destruct (starts_place cm w s w1 d F S Cp Nd) as (e & Ab & -> & D). exists e. split; [exact Ab|]. split; [reflexivity|]. split; [reflexivity|].
  apply (D (e ++ d) []). rewrite app_nil_r. reflexivity.
Qed.
Print Assumptions C56_place.
(** The whole story.  When everything in the repository can be stored (see C71),
    [commit] exits with 0, prints nothing and changes no file.  Whatever happens to the
    files after that, if there is room for what was committed, [checkout] exits with 0,
    prints nothing, and the files in the repository are then exactly those that were
    committed, with their contents, and those that are excluded and in a directory
    that was committed.  Outside of the repository nothing changes. *)
Theorem C72_story :
  forall (E : Env) cm w e d db m, well_used w -> quiet_disk w -> cache_there w -> repository_at cm w e d db ->
  let l := e ++ removelast d in let dbl := e ++ d in let ex := cm_exclude cm in
  globs_ok cm -> (exists n, rp_head (repo_of db) = Some n /\ utf8_valid n = true) -> can_store ex (abs_path dbl) (abs_path l) w -> lossless_below (w_fs w) l ->
  (lenN m < 2 ^ 62)%N -> utf8_valid m = true ->
  exists w', run_process cm (CCommit None m None) w = (Some 0%N, w') /\ w_out w' = w_out w /\ w_fs w' = w_fs w /\
    forall v db', outside w' v -> w_faults v = [] -> cache_there v -> repository_at cm v e d db' ->
      no_coll (w_hashed v) -> length (d_data db') <= stack -> fs_ok (w_fs v) -> in_home l -> room_for ex dbl l (w_fs w) (w_fs v) ->
      exists v', run_process cm CCheckout v = (Some 0%N, v') /\ w_out v' = w_out v /\
        (forall r c, content (w_fs v') (l ++ r) = Some c <->
           (content (w_fs w) (l ++ r) = Some c /\ included ex dbl (abs_path l) l r) \/
           (content (w_fs v) (l ++ r) = Some c /\ left_alone ex dbl l (w_fs w) r)) /\
        (forall x, ~ under l x -> lookup (w_fs v') x = lookup (w_fs v) x).
Proof. intros E cm w e d db m. apply story. Qed.
Print Assumptions C72_story.

(** Examples. *)
#[local] Existing Instance co_env.
Definition prefixesb (f : fs) (x : loc) : bool :=
  forallb (fun n => match lookup f (firstn n x) with Some EDir => true | _ => false end) (seq 0 (S (length x))).
Lemma prefixesb_ok f x : prefixesb f x = true -> forall a b, x = a ++ b -> lookup f a = Some EDir.
Proof.
  unfold prefixesb. rewrite forallb_forall. intros H a b ->. specialize (H (length a)). rewrite firstn_app, Nat.sub_diag, firstn_all, firstn_O, app_nil_r in H.
  destruct (lookup f a) as [[| | |]|]; try reflexivity; discriminate H; apply in_seq; rewrite app_length; lia.
Qed.
Lemma repository_here cm w d db : cm_db_path cm = named d -> d <> [] -> prefixesb (w_fs w) (w_cwd w ++ d) = true ->
  there w (w_cwd w ++ d ++ [str "snapcd.db"]) -> assoc_loc (w_cwd w ++ d ++ [str "snapcd.db"]) (w_dbs w) = Some db ->
  repository_at cm w (w_cwd w) d db.
Proof.
  intros C N P T A. split; [exact C|]. split; [exact N|]. split; [apply prefixesb_ok, P|]. split; [exists []; rewrite app_nil_r; reflexivity|]. split; [|split; [exact T|exact A]].
  intros e' [r Q] Lt. apply (f_equal (@length _)) in Q. rewrite app_length in Q. lia.
Qed.
Definition roomb (l : loc) (f g : fs) : bool :=
  forallb (fun x => if names_prefix l (fst x) then
    match snd x with
    | EDir => match lookup g (fst x) with Some EDir => forallb (fun y => match snd y with EDangling => false | _ => true end) g | _ => false end
    | EFile _ _ => match lookup g (fst x) with None | Some (EFile _ _) => true | _ => false end
    | _ => true
    end else true) f.
Lemma roomb_ok {E : Env} ex dbl l f g : l <> [] -> roomb l f g = true -> room_for ex dbl l f g.
Proof.
  intros Nl H. unfold roomb in H. rewrite forallb_forall in H.
  assert (X : forall r e, lookup f (l ++ r) = Some e -> In (l ++ r, e) f /\ names_prefix l (l ++ r) = true).
  { intros r e L. destruct l as [|n l]; [destruct (Nl eq_refl)|]. split; [apply assoc_loc_in, L|apply names_prefix_iff; exists r; reflexivity]. }
  split.
  - intros r [L _]. destruct (X _ _ L) as [I P]. apply H in I. cbn [fst snd] in I. rewrite P in I. destruct (lookup g (l ++ r)) as [[| | |]|]; try discriminate I. split; [reflexivity|].
    intros n D. rewrite forallb_forall in I. destruct (l ++ r ++ [n]) as [|a x] eqn:Q; [discriminate D|]. apply assoc_loc_in in D. apply I in D. discriminate D.
  - intros r c st [L _]. destruct (X _ _ L) as [I P]. apply H in I. cbn [fst snd] in I. rewrite P in I. destruct (lookup g (l ++ r)) as [[|c' st'| |]|]; try discriminate I; eauto.
Qed.
Lemma st_used : well_used co_inited.
Proof. apply used_step; [apply wu_start; reflexivity|vm_compute; reflexivity|exact I]. Qed.
Lemma st_quiet : quiet_disk co_inited.
Proof. apply quietb; vm_compute; reflexivity. Qed.
Lemma there_ok (w : world) l : match lookup (w_fs w) l with Some (EFile _ _) => true | _ => false end = true -> there w l.
Proof. unfold there. destruct (lookup (w_fs w) l) as [[|c st| |]|]; try discriminate. eauto. Qed.
Definition st_db : db := Db [] [(str "HEAD", str "master")] [].
Lemma st_at : repository_at co_cm co_inited co_home [str ".snapcd"] st_db.
Proof.
  replace co_home with (w_cwd co_inited) by (vm_compute; reflexivity). apply repository_here; [vm_compute; reflexivity|discriminate|vm_compute; reflexivity|apply there_ok; vm_compute; reflexivity|vm_compute; reflexivity].
Qed.
Lemma st_quiet1 : quiet_disk co_w1.
Proof. apply quietb; vm_compute; reflexivity. Qed.
Lemma st_same : ds_folder co_s = abs_path (co_home ++ [str ".snapcd"]) /\ ds_repo co_s = abs_path co_home /\ w_fs co_w1 = w_fs co_inited /\ w_cwd co_w1 = w_cwd co_inited.
Proof. split; [|split; [|split]]; vm_compute; reflexivity. Qed.
Lemma store_same {E : Env} ex a b a' b' w w' : can_store ex a b w -> a = a' -> b = b' -> w_fs w = w_fs w' -> w_cwd w = w_cwd w' -> can_store ex a' b' w'.
Proof. intros C <- <- F W. unfold can_store in *. rewrite <- F, <- W. exact C. Qed.
Lemma st_store : can_store [str "x"] (abs_path (co_home ++ [str ".snapcd"])) (abs_path co_home) co_inited.
Proof.
  destruct (proj1 (C71_commit co_env co_cm co_inited co_s co_w1 None (str "first") None co_inited_reachable co_starts1 st_quiet1 eq_refl)) as (_ & _ & C); [exists co_w2; exact co_commit|].
  destruct st_same as (A & B & F & W). exact (store_same _ _ _ _ _ _ _ C A B F W).
Qed.
Lemma st_lossless : lossless_below (w_fs co_inited) co_home.
Proof. apply co_small; vm_compute; reflexivity. Qed.
Example C56_place_example : w_faults co_inited = [] /\ starts co_cm co_inited (Some co_s) co_w1 /\ cm_db_path co_cm = named [str ".snapcd"].
Proof. split; [exact (proj1 st_quiet)|]. split; [exact co_starts1|reflexivity]. Qed.
(** The repository can be committed ... *)
Example C72_story_example :
  well_used co_inited /\ quiet_disk co_inited /\ cache_there co_inited /\ repository_at co_cm co_inited co_home [str ".snapcd"] st_db /\ globs_ok co_cm /\
  can_store [str "x"] (abs_path (co_home ++ [str ".snapcd"])) (abs_path co_home) co_inited /\ lossless_below (w_fs co_inited) co_home.
Proof. split; [exact st_used|]. split; [exact st_quiet|]. split; [exact I|]. split; [exact st_at|]. split; [reflexivity|]. split; [exact st_store|exact st_lossless]. Qed.
(** ... and edited: "s/b" removed, "new" made, and a directory "d" with "d/x" in it
    (see PropsCheckout.v).  Then there is room, and checkout brings "s/b" back, leaves
    "x", which is excluded, and removes "new" and "d/x". *)
Definition st_edited : db := db_at (w_dbs co_edited) (co_home ++ [str ".snapcd"; str "snapcd.db"]).
Lemma st_room : room_for [str "x"] (co_home ++ [str ".snapcd"]) co_home (w_fs co_inited) (w_fs co_edited).
Proof. apply roomb_ok; [discriminate|vm_compute; reflexivity]. Qed.
Lemma st_at2 : repository_at co_cm co_edited co_home [str ".snapcd"] st_edited.
Proof.
  replace co_home with (w_cwd co_edited) by (vm_compute; reflexivity). apply repository_here; [vm_compute; reflexivity|discriminate|vm_compute; reflexivity|apply there_ok; vm_compute; reflexivity|vm_compute; reflexivity].
Qed.
Lemma st_log : no_coll (w_hashed co_edited) /\ length (d_data st_edited) <= stack /\ fs_ok (w_fs co_edited).
Proof. split; [apply logb_ok; vm_compute; reflexivity|]. split; [apply Nat.leb_le; vm_compute; reflexivity|apply fs_okb_ok; vm_compute; reflexivity]. Qed.
Lemma outside_fs (w : world) f : outside w (set_fs w f).
Proof. split; reflexivity. Qed.
Example C72_story_example2 :
  outside co_committed co_edited /\ repository_at co_cm co_edited co_home [str ".snapcd"] st_edited /\ no_coll (w_hashed co_edited) /\ length (d_data st_edited) <= stack /\
  fs_ok (w_fs co_edited) /\ in_home co_home /\ room_for [str "x"] (co_home ++ [str ".snapcd"]) co_home (w_fs co_inited) (w_fs co_edited).
Proof.
  split; [exact (outside_fs _ _)|]. split; [exact st_at2|]. split; [apply st_log|]. split; [apply st_log|]. split; [apply st_log|]. split; [exists []; reflexivity|exact st_room].
Qed.
Lemma st_out : fst (run_process co_cm CCheckout co_edited) = Some 0%N /\
  map (content (w_fs co_out)) [co_at [str "a"]; co_at [str "s"; str "b"]; co_at [str "x"]; co_at [str "new"]; co_at [str "d"; str "x"]] =
  [Some (str "hello"); Some (str "world"); Some (str "private"); None; None].
Proof. split; vm_compute; reflexivity. Qed.
(** Without the directory "s" checkout fails, so its tree cannot be checked out. *)
Definition st_lost1 : world := snd (setup co_cm (close_all co_lost)).
Lemma st_starts : starts co_cm co_lost (Some co_s) st_lost1.
Proof. vm_compute. reflexivity. Qed.
Lemma st_fails : ~ exists u w2, run_command co_cm (Some co_s) CCheckout st_lost1 = (Done u, w2).
Proof. apply not_done. vm_compute. reflexivity. Qed.
Lemma st_used2 : well_used co_committed.
Proof. apply used_step; [exact st_used|vm_compute; reflexivity|reflexivity]. Qed.
Lemma st_lost_log : no_coll (w_hashed st_lost1) /\ deep_enough st_lost1 /\ fs_ok (w_fs st_lost1) /\ has_head st_lost1.
Proof.
  split; [apply logb_ok; vm_compute; reflexivity|]. split; [apply Nat.leb_le; vm_compute; reflexivity|]. split; [apply fs_okb_ok; vm_compute; reflexivity|].
  exists (str "master"). split; vm_compute; reflexivity.
Qed.
Lemma st_faults : w_faults co_lost = [] /\ w_faults co_edited = [].
Proof. split; vm_compute; reflexivity. Qed.
Example C72_checkout_fails : exists e, above (w_cwd co_lost) e /\ forall t, head_tree st_lost1 (Some t) -> ~ can_checkout [str "x"] (e ++ [str ".snapcd"]) st_lost1 t (e ++ removelast [str ".snapcd"]).
Proof.
  destruct st_lost_log as (L & De & O & Hh).
  destruct (C72_checkout co_env co_cm co_lost co_s st_lost1 [str ".snapcd"] (used_fs _ _ st_used2) (proj1 st_faults) st_starts eq_refl ltac:(discriminate) L De O) as (e & Ab & _ & _ & H).
  exists e. split; [exact Ab|]. intros t Ht C. apply st_fails. destruct (proj2 H) as [w2 R]; [|exists tt, w2; exact R]. split; [reflexivity|]. split; [exact Hh|]. exists t. split; [exact Ht|exact C].
Qed.
Lemma st_log2 : no_coll (w_hashed co_v1) /\ deep_enough co_v1 /\ fs_ok (w_fs co_v1).
Proof. split; [apply logb_ok; vm_compute; reflexivity|]. split; [apply Nat.leb_le; vm_compute; reflexivity|apply fs_okb_ok; vm_compute; reflexivity]. Qed.
Example C72_checkout_example : exists e t, above (w_cwd co_edited) e /\ head_tree co_v1 (Some t) /\ can_checkout [str "x"] (e ++ [str ".snapcd"]) co_v1 t (e ++ removelast [str ".snapcd"]).
Proof.
  destruct st_log2 as (L & De & O).
  destruct (C72_checkout co_env co_cm co_edited co_s co_v1 [str ".snapcd"] (used_fs _ _ st_used2) (proj2 st_faults) co_starts2 eq_refl ltac:(discriminate) L De O) as (e & Ab & _ & _ & H).
  destruct (proj1 H (ex_intro _ co_v2 co_checkout)) as (_ & _ & t & Ht & C). exists e, t. auto.
Qed.
