(** Different ways of asking for the same thing have the same effect. *)
From Coq Require Import Sorted RelationClasses.
From Verif Require Import Base BaseFacts TableFacts Key KeyFacts Keyish Cbor Object Path World WorldFacts Store File Filter Dir Diff Commit Pretty Main SpecKey SpecResolve SpecStore StoreCalls SpecRun SpecProc SpecCmd SpecFile SpecDir SpecCache SpecDiff SpecPatch SpecShow SpecOut SpecText SpecClosure SpecShape SpecLive SpecFatal SpecPanic SpecNaming Screen
  Frame DbRel Closure Integrity StoreFacts ProcFacts InitFacts ObjStoreFacts ResolveFacts SessionFacts FilePlan FileFacts FsFacts DirPlan DirFacts CmdFacts OutFacts LiveCmd LiveStart DirLive FatalCmd FileRun ShapeTop PaceFacts.

Lemma fold_b r : map fold_case ("b"%char :: r) = "b"%char :: map fold_case r.
Proof. reflexivity. Qed.
Lemma user_letters k : Forall (fun c => In c spec_alphabet) (tl (as_user_key k)).
Proof.
  destruct k as [h]. apply (to_base32_table_Forall (fun c => In c spec_alphabet) (hash_bytes (Blake3B h))). apply Forall_forall. intros x H. exact H.
Qed.

Section Names.
  Context {E : Env}.
  Notation ds := sqlite_ds.

  (** *** The letters of a key *)
  Lemma copied_works t k : copied t k ->
    exists ki, parse_keyish t = Some (Ok ki) /\ partly ki /\ as_typed ki = t /\
    forall w, (denotes w ki k <-> stored w k /\ unmistakable w t k) /\ (forall k', k' <> k -> denotes w ki k' -> ~ stored w k) /\
      (names_several w ki <-> exists k1 k2, k1 <> k2 /\ (stored w k1 /\ prefix_of (map fold_case t) (as_user_key k1)) /\ (stored w k2 /\ prefix_of (map fold_case t) (as_user_key k2))).
  Proof.
    intros (r & -> & L & P). assert (A : Forall in_alphabet r).
    { destruct P as [q P]. cbn [map] in P. pose proof (user_letters k) as U. rewrite P in U. cbn [tl app] in U. apply Forall_app in U as [U _]. rewrite Forall_map in U. exact U. }
    destruct (prefix_parse r A ltac:(cbn in L; lia)) as (a & e & H & R). exists (KRange ("b"%char :: r) a e). split; [exact H|]. split; [exact I|]. split; [reflexivity|]. intro w.
    change (map fold_case ("b"%char :: r)) with ("b"%char :: map fold_case r) in *. split; [|split].
    - cbn [denotes]. split.
      + intros [[D1 D2] D3]. split; [exact D1|]. intros k' S Q. apply D3; [exact S|]. apply R. exact Q.
      + intros [S U]. split; [split; [exact S|apply R, P]|]. intros k' S' Q. apply U; [exact S'|]. apply R, Q.
    - intros k' N D S. cbn [denotes] in D. destruct D as [_ D]. apply N. symmetry. apply D; [exact S|]. apply R, P.
    - cbn [names_several]. split; intros (k1 & k2 & N & [S1 R1] & [S2 R2]); exists k1, k2; (split; [exact N|]); (split; (split; [assumption|])); apply R; assumption.
  Qed.

  (** *** Keys *)
  Lemma still w w' : w_faults w = [] -> ticked w w' -> w_faults w' = [] -> exists n, w' = set_tick w n.
  Proof. intros F (t & r & ->) F'. cbn in F'. subst r. exists t. destruct w. cbn in *. subst. reflexivity. Qed.
  Lemma canon_time ki w : w_faults w = [] -> w_tick (snd (canonicalize ds ki w)) = S (w_tick w).
  Proof.
    intro F. destruct ki as [s a e|s b|o rm n]; cbn [canonicalize raw_between raw_get reflog_get sqlite_ds]; unfold sqlite_raw_between, sqlite_raw_get, sqlite_reflog_get, unwrap, try, bind, db_read; unfold op; cbn zeta; cbn [w_faults set_tick]; rewrite F; cbn [cur_db].
    - rewrite resolve_same. reflexivity.
    - match goal with |- context [assoc b ?d] => destruct (assoc b d) end; [cbn [of_option ret]; rewrite resolve_same|]; reflexivity.
    - match goal with |- context [hd_error ?d] => destruct (hd_error d) as [v|] end; [cbn [of_option lift_result]; destruct (from_db_key v)|]; reflexivity.
  Qed.
  Lemma canon_same w a b k : world_ok w -> w_faults w = [] -> denotes w a k -> denotes w b k -> canonicalize ds a w = canonicalize ds b w.
  Proof.
    intros W F A B. destruct (canon_live a w k W F A) as (u & Hu & Tu & Fu), (canon_live b w k W F B) as (v & Hv & Tv & Fv).
    pose proof (canon_time a w F) as X. pose proof (canon_time b w F) as Y. rewrite Hu in X. rewrite Hv in Y. cbn [snd] in X, Y.
    destruct (still _ _ F Tu Fu) as [n ->], (still _ _ F Tv Fv) as [m ->]. cbn in X, Y. subst. congruence.
  Qed.
  Lemma bind_same {A B} (m m' : M A) (k : A -> M B) w : m w = m' w -> bind m k w = bind m' k w.
  Proof. intro H. unfold bind. rewrite H. reflexivity. Qed.
  Lemma command_same cm s w1 c a b k : world_ok w1 -> w_faults w1 = [] -> given_key c = Some a -> denotes w1 a k -> denotes w1 b k ->
    run_command cm (Some s) c w1 = run_command cm (Some s) (with_key c b) w1.
  Proof.
    intros W F G A B. pose proof (canon_same w1 a b k W F A B) as C.
    destruct c; cbn [given_key] in G; try discriminate G; try (destruct k0; [|discriminate G]); try (destruct k1; [|discriminate G]); inversion G; subst; cbn [run_command with_ds with_key]; apply bind_same; exact C.
  Qed.
  Lemma process_same cm w st w1 c c' : starts cm w st w1 -> run_command cm st c w1 = run_command cm st c' w1 -> run_process cm c w = run_process cm c' w.
  Proof. intros S H. unfold run_process. rewrite !main_split. unfold bind. unfold starts in S. rewrite S. unfold try. rewrite H. reflexivity. Qed.
  Theorem named_same cm w s w1 c a b k : reachable w -> w_faults w = [] -> starts cm w (Some s) w1 -> given_key c = Some a -> denotes w1 a k -> denotes w1 b k ->
    run_process cm c w = run_process cm (with_key c b) w.
  Proof.
    intros R F S G A B. apply (process_same cm w _ _ _ _ S). eapply command_same; try eassumption; [exact (started_ok _ _ _ _ R S)|]. exact (proj1 (calm_setup _ _ _ _ S F)).
  Qed.
  Lemma parents_same w ps ps' : world_ok w -> w_faults w = [] -> Forall2 (fun a b => exists k, denotes w a k /\ denotes w b k) ps ps' -> mapM (canonicalize ds) ps w = mapM (canonicalize ds) ps' w.
  Proof.
    intros W F H. revert ps' w W F H. induction ps as [|a ps IH]; intros ps' w W F H; inversion H as [|? b ? ps2 (k & A & B) H']; subst; [reflexivity|]. cbn [mapM]. unfold bind. rewrite (canon_same w a b k W F A B).
    destruct (canon_live b w k W F B) as (v & Hv & Tv & Fv). rewrite Hv. rewrite (IH ps2 v (ok_ticked _ _ Tv W) Fv); [reflexivity|].
    eapply Forall2_impl'; [|exact H']. intros x y (k1 & X & Y). exists k1. split; (eapply denotes_cur; [exact (cur_ticked _ _ Tv)|assumption]).
  Qed.
  Theorem parents_named cm w s w1 t ps ps' : reachable w -> w_faults w = [] -> starts cm w (Some s) w1 -> Forall2 (fun a b => exists k, denotes w1 a k /\ denotes w1 b k) ps ps' ->
    run_process cm (CCommitTree t ps) w = run_process cm (CCommitTree t ps') w.
  Proof.
    intros R F S H. apply (process_same cm w _ _ _ _ S). pose proof (started_ok _ _ _ _ R S) as W. pose proof (proj1 (calm_setup _ _ _ _ S F)) as F1. cbn [run_command with_ds]. unfold cmd_commit_tree, bind.
    destruct (canonicalize ds t w1) as [o v] eqn:C. destruct o as [k| | | |]; try reflexivity.
    assert (X : ticked w1 v /\ w_faults v = []). { destruct (OutFacts.canon_done _ _ _ _ W C) as [T D]. destruct (canon_live t w1 k W F1 D) as (v' & C' & T' & F'). rewrite C in C'. inversion C'; subst. auto. }
    destruct X as [T Fv]. rewrite (parents_same v ps ps' (ok_ticked _ _ T W) Fv); [reflexivity|].
    eapply Forall2_impl'; [|exact H]. intros x y (k1 & X & Y). exists k1. split; (eapply denotes_cur; [exact (cur_ticked _ _ T)|assumption]).
  Qed.

  (** *** What is left out *)
  Lemma same_twice {A B} (m m' : M A) (k : A -> M B) w a n n' : m w = (Done a, set_tick w n) -> m' w = (Done a, set_tick w n') -> paced (k a) ->
    exists o v j, bind m k w = (o, v) /\ bind m' k w = (o, set_tick v j).
  Proof.
    intros H H' P. unfold bind. rewrite H, H'. destruct (paced_both (k a) w n' n P) as [j J]. rewrite J. destruct (k a (set_tick w n)) as [o v]. exists o, v, j. auto.
  Qed.
  Lemma key_ask w x k : world_ok w -> w_faults w = [] -> legible w x -> asked_for w x k -> exists n, key_or_head x w = (Done k, set_tick w n).
  Proof.
    intros W F L A. destruct x as [ki|]; cbn [asked_for key_or_head] in *.
    - destruct (canon_live ki w k W F A) as (v & H & T & Fv). destruct (still _ _ F T Fv) as [n ->]. eauto.
    - destruct A as (b & l & Hb & Hi). unfold get_head_key. destruct (branch_live None w b F Hb (fun _ => L eq_refl b Hb)) as (v & H & T & Fv). cbn [refname_or_head] in H. rewrite (run_bind _ _ _ _ _ H).
      destruct (newest_live b None v k l (ok_ticked _ _ T W) Fv) as (v' & H' & T' & F'); [rewrite (cur_ticked _ _ T); exact Hi|]. destruct (still _ _ F (ticked_trans _ _ _ T T') F') as [n ->]. eauto.
  Qed.
  Lemma branch_ask w r b : w_faults w = [] -> legible w r -> branch_of r (repo_of (cur_db w)) b -> exists n, refname_or_head r w = (Done b, set_tick w n).
  Proof.
    intros F L B. destruct (branch_live r w b F B) as (v & H & T & Fv); [intros ->; exact (L eq_refl b B)|]. destruct (still _ _ F T Fv) as [n ->]. eauto.
  Qed.
  Lemma tree_ask w x t : world_ok w -> w_faults w = [] -> legible w x -> compared_to w x t -> exists n, tree_arg x w = (Done t, set_tick w n).
  Proof.
    intros W F L C. destruct x as [ki|]; cbn [compared_to tree_arg] in *; [exact (key_ask w (Some ki) t W F L C)|].
    destruct C as (b & Hb & k & l & c & Hi & (o & R & Co) & ->). destruct (key_ask w None k W F L) as [n H]; [exists b, l; auto|]. cbn [key_or_head] in H. rewrite (run_bind _ _ _ _ _ H).
    assert (G : exists v, commit_from_key ds k (set_tick w n) = (Done c, v) /\ ticked (set_tick w n) v /\ w_faults v = []).
    { assert (R' : reads_as (set_tick w n) k (Done o)) by (apply reads_object; apply reads_object in R; exact R). apply reads_object in R'. destruct (object_get (set_tick w n) k o F R') as (v & G & Fv & _). exists v. pose proof (get_obj_done _ _ _ _ G) as (T & _).
      unfold commit_from_key, unwrap, bind. rewrite G, Co. auto. }
    destruct G as (v & G & T & Fv). rewrite (run_bind _ _ _ _ _ G). destruct (still (set_tick w n) v F T Fv) as [m ->]. exists m. reflexivity.
  Qed.
  Lemma process_alike (SR : steady_reads) cm w st w1 c c' : starts cm w st w1 ->
    (exists o v j, run_command cm st c w1 = (o, v) /\ run_command cm st c' w1 = (o, set_tick v j)) ->
    exists code w' w'', run_process cm c w = (code, w') /\ run_process cm c' w = (code, w'') /\ but_for_time w' w''.
  Proof.
    intros S (o & v & j & H & H'). unfold run_process. rewrite !main_split. unfold bind. unfold starts in S. rewrite S. unfold try. rewrite H, H'.
    assert (X : forall r, exists code w' w'', (let '(o0, w'0) := finish st r v in (exit_code o0, close_all w'0)) = (code, w') /\ (let '(o0, w'0) := finish st r (set_tick v j) in (exit_code o0, close_all w'0)) = (code, w'') /\ but_for_time w' w'').
    { intro r. destruct (paced_finish st r v j) as [m P]. rewrite P. destruct (finish st r v) as [o0 u]. cbn [fst snd]. eexists _, _, _. split; [reflexivity|]. split; [reflexivity|]. exists m. reflexivity. }
    destruct o as [[]|e|p| |]; try apply X; (eexists _, _, _; split; [reflexivity|]; split; [reflexivity|]; exists j; reflexivity).
  Qed.
  Theorem left_out cm w s w1 c c' : steady_reads -> reachable w -> w_faults w = [] -> starts cm w (Some s) w1 -> same_request s w1 c c' ->
    exists code w' w'', run_process cm c w = (code, w') /\ run_process cm c' w = (code, w'') /\ but_for_time w' w''.
  Proof.
    intros SR R F S Q. apply (process_alike SR cm w (Some s) w1 c c' S). pose proof (started_ok _ _ _ _ R S) as W. pose proof (proj1 (calm_setup _ _ _ _ S F)) as F1.
    destruct Q as [a b k La Lb A B|a b k La Lb A B|p q a b t st P La Lb A B|p q m r r' n P La Lb A B|r r' n rm La Lb A B|a b k r r' n Da Db La Lb A B]; cbn [run_command with_ds].
    - destruct (key_ask _ _ _ W F1 La A) as [i I], (key_ask _ _ _ W F1 Lb B) as [i' I']. unfold cmd_show. eapply same_twice; try eassumption. apply paced_display; exact SR.
    - destruct (key_ask _ _ _ W F1 La A) as [i I], (key_ask _ _ _ W F1 Lb B) as [i' I']. unfold cmd_log. eapply same_twice; try eassumption. apply paced_log; exact SR.
    - destruct (tree_ask _ _ _ W F1 La A) as [i I], (tree_ask _ _ _ W F1 Lb B) as [i' I']. unfold cmd_compare. cbv zeta. fold (about s p). fold (about s q). rewrite P. fold (tree_arg a). fold (tree_arg b). eapply same_twice; try eassumption. cbv beta.
      apply paced_bind; [apply paced_compare; exact SR|intro d]. destruct st; [apply paced_stat|apply paced_diff].
    - destruct (branch_ask _ _ _ F1 La A) as [i I], (branch_ask _ _ _ F1 Lb B) as [i' I']. unfold cmd_commit. cbv zeta. fold (about s p). fold (about s q). rewrite P.
      unfold make_filter_fn. destruct (forallb glob_valid (cm_exclude cm)); [|eexists _, w1, (w_tick w1); split; [reflexivity|destruct w1; reflexivity]].
      match goal with |- exists o v j, bind (ret ?f) ?k w1 = _ /\ bind (ret ?f) ?k' w1 = _ => change (exists o v j, k f w1 = (o, v) /\ k' f w1 = (o, set_tick v j)) end. cbv beta.
      eapply same_twice; try eassumption. cbv beta. apply paced_bind; [apply paced_try, paced_newest|intro got]. apply paced_bind; [destruct got as [x|[]]; first [apply paced_ret|apply paced_fail]|intro ps].
      apply paced_bind; [apply paced_put; [exact SR|apply paced_filter]|intro t]. apply paced_bind; [apply paced_commit_tree|intro c]. apply paced_push.
    - destruct (branch_ask _ _ _ F1 La A) as [i I], (branch_ask _ _ _ F1 Lb B) as [i' I']. unfold cmd_ref_log. eapply same_twice; try eassumption. cbv beta.
      apply paced_bind; [apply paced_rwalk|intro ks]. apply paced_bind; [apply paced_print|intro]. apply paced_entries.
    - unfold cmd_ref_update. rewrite (bind_same _ _ _ _ (canon_same w1 a b k W F1 Da Db)). destruct (canon_live b w1 k W F1 Db) as (v & Hv & Tv & Fv). rewrite !(run_bind _ _ _ _ _ Hv).
      destruct (still _ _ F1 Tv Fv) as [j ->]. destruct (branch_ask (set_tick w1 j) r n F1 La A) as [i I], (branch_ask (set_tick w1 j) r' n F1 Lb B) as [i' I']. eapply same_twice; try eassumption. apply paced_push.
  Qed.
End Names.
