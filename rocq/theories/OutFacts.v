(** Commands about references, and what commands print. *)
From Coq Require Import RelationClasses Sorted Permutation.
From Verif Require Import Base BaseFacts Key KeyFacts Keyish Cbor Object Path World WorldFacts Store File Filter Dir Diff Commit Main SpecKey SpecStore SpecResolve StoreCalls SpecRun SpecProc
  SpecFile SpecDir SpecCache SpecDiff SpecPatch SpecShow SpecCmd SpecOut StoreFacts TableFacts Frame DbRel Integrity ObjStoreFacts ResolveFacts SessionFacts FsFacts FilePlan ObjectFacts FileFacts FileRun DirFacts DirPlan DirTree DirTrip DirLive SpecCheckout CheckoutFacts HashFacts CacheFacts
  CompareFacts DiffFacts SnapFacts LineFacts SimplifyFacts ShowFacts ProcFacts QueryFacts InitFacts CmdFacts CheckoutCmd.
Notation stored := SpecResolve.stored.

Section OutFacts.
  Context {E : Env}.
  Notation ds := sqlite_ds.
  #[local] Existing Instances silent_pre silent_Quiet silent_Put silent_Cache.

  (** *** Key arguments *)
  Lemma newest_done n rm w k w' : world_ok w -> reflog_get ds n rm w = (Done k, w') -> ticked w w' /\ exists l, history n rm (repo_of (cur_db w)) = k :: l.
  Proof.
    intros W H. cbn [reflog_get ds] in H. unfold sqlite_reflog_get in H. apply bind_done in H as (r & w1 & H1 & H). apply db_read_done in H1 as [T Q].
    rewrite (select_history _ _ _ _ (repo_of_abs _ _ (world_ok_cur _ W))) in Q. destruct (history n rm (repo_of (cur_db w))) as [|k0 l]; cbn in Q; subst r; [discriminate H|].
    rewrite from_as_db_key in H. cbn in H. apply ret_done in H as [-> ->]. split; [exact T|]. eauto.
  Qed.
  Lemma newest_live n rm w k l : world_ok w -> w_faults w = [] -> history n rm (repo_of (cur_db w)) = k :: l ->
    exists w', reflog_get ds n rm w = (Done k, w') /\ ticked w w' /\ w_faults w' = [].
  Proof.
    intros W F H. cbn [reflog_get ds]. unfold sqlite_reflog_get, bind.
    destruct (db_read_nofault (fun d => hd_error (select_reflog n rm (d_reflog d))) w F) as (w1 & T & F1 & ->).
    rewrite (select_history _ _ _ _ (repo_of_abs _ _ (world_ok_cur _ W))), H. cbn [map hd_error]. rewrite from_as_db_key. exists w1. auto.
  Qed.
  Lemma range_found w a e s o w1 : world_ok w -> resolve_results s (select_between a e (d_data (cur_db w))) w1 = (o, w1) ->
    search_result s (fun k => stored w k /\ in_range a e (as_db_key k)) o.
  Proof.
    intros W H. edestruct (resolve_results_spec s (select_between a e (d_data (cur_db w))) (fun k => stored w k /\ in_range a e (as_db_key k)) w1) as (o' & H1 & H2).
    - intro x. rewrite in_select_between, (stored_rows w x W). split.
      + intros ((k & -> & Hk) & Hr). eauto.
      + intros (k & -> & Hk & Hp). eauto.
    - pose proof (sorted_select_between a e _ (dk_data _ _ (world_ok_cur _ W))) as S. clear -S.
      induction S as [|x l HS IH HF]; constructor; [exact IH|]. eapply Forall_impl; [|exact HF]. intros b Hb. apply bytes_cmp_lt, Hb.
    - rewrite H in H1. inversion H1; subst. exact H2.
  Qed.
  Lemma resolve_same s l w : snd (resolve_results s l w) = w.
  Proof.
    destruct l as [|x [|y l]]; cbn [resolve_results]; [reflexivity|destruct (from_db_key x); reflexivity|].
    unfold bind, lift_result. destruct (map_result from_db_key (x :: y :: l)); reflexivity.
  Qed.
  Lemma from_db_key_inv v k : from_db_key v = Ok k -> v = as_db_key k.
  Proof. intro H. apply from_db_key_ok, H. Qed.
  Lemma canon_done ki w k w' : world_ok w -> canonicalize ds ki w = (Done k, w') -> ticked w w' /\ denotes w ki k.
  Proof.
    intros W H. destruct ki as [s a e|s b|orig rm n]; cbn [denotes].
    - cbn [canonicalize raw_between sqlite_ds] in H. unfold sqlite_raw_between in H. apply bind_done in H as (l & w1 & H1 & H).
      apply unwrap_done, db_read_done in H1 as [T ->]. pose proof (resolve_same s (select_between a e (d_data (cur_db w))) w1) as Q. rewrite H in Q. cbn in Q. subst w1.
      apply range_found in H; [|exact W]. inversion H; subst. split; [exact T|]. split; [assumption|]. intros k' A B. auto.
    - rewrite full_key_eq in H. destruct (db_read _ w) as [[[v|]| | | |] w1] eqn:Ed; try discriminate H. apply db_read_done in Ed as [T Q].
      destruct (from_db_key v) eqn:Ev; [|discriminate H]. inversion H; subst. split; [exact T|]. cbn. rewrite <- Q. f_equal. apply from_db_key_inv, Ev.
    - cbn [canonicalize] in H. apply bind_done in H as (r & w1 & H1 & H). apply try_done in H1 as [(k0 & -> & H1)|(x & -> & H1)]; [|destruct x; discriminate H].
      apply ret_done in H as [-> ->]. apply newest_done in H1; auto.
  Qed.
  Lemma canon_live ki w k : world_ok w -> w_faults w = [] -> denotes w ki k -> exists w', canonicalize ds ki w = (Done k, w') /\ ticked w w' /\ w_faults w' = [].
  Proof.
    intros W F D. destruct ki as [s a e|s b|orig rm n]; cbn [denotes] in D.
    - cbn [canonicalize raw_between sqlite_ds]. unfold sqlite_raw_between, unwrap, bind.
      destruct (db_read_nofault (fun d => select_between a e (d_data d)) w F) as (w1 & T & F1 & ->).
      destruct (resolve_results s (select_between a e (d_data (cur_db w))) w1) as [o w2] eqn:Er.
      pose proof (resolve_same s (select_between a e (d_data (cur_db w))) w1) as Q. rewrite Er in Q. cbn in Q. subst w2.
      exists w1. split; [|auto]. apply range_found in Er; [|exact W]. destruct D as [[D1 D2] D3]. inversion Er as [k0 P U|N|ks I S L]; subst.
      + rewrite (D3 k0 (proj1 P) (proj2 P)). reflexivity.
      + destruct (N k). auto.
      + destruct ks as [|k1 [|k2 ks]]; cbn in L; try lia. exfalso.
        assert (A1 : k1 = k) by (apply D3; apply I; left; reflexivity). assert (A2 : k2 = k) by (apply D3; apply I; right; left; reflexivity). subst.
        apply StronglySorted_inv in S as [_ S]. inversion S as [|? ? X]. unfold key_lt in X. apply bytes_cmp_lt in X. rewrite bytes_cmp_refl in X. discriminate X.
    - rewrite full_key_eq. destruct (db_read_nofault (fun d => assoc b (d_data d)) w F) as (w1 & T & F1 & ->). cbn in D. rewrite D, from_as_db_key. exists w1. auto.
    - destruct D as [l D]. destruct (newest_live n rm w k l W F D) as (w1 & H & T & F1). cbn [canonicalize]. unfold bind, try. rewrite H. exists w1. auto.
  Qed.

  (** *** Printing *)
  Lemma print_live t a w : w_faults w = [] -> exists w', print t a w = (Done tt, w') /\ w_faults w' = [].
  Proof. intro F. unfold print. rewrite op_nofault by exact F. eexists. split; [reflexivity|exact F]. Qed.
  Lemma says_trans a b c l m : says a b l -> says b c m -> says a c (l ++ m).
  Proof. unfold says. intros -> ->. rewrite rev_app_distr, app_assoc. reflexivity. Qed.
  Lemma says_silent a b : w_out b = w_out a -> says a b [].
  Proof. intro H. exact H. Qed.
  Lemma ticked_out w w' : ticked w w' -> w_out w' = w_out w.
  Proof. intros (? & ? & ->). reflexivity. Qed.
  Lemma alike_untouched w w' : alike w w' -> untouched w w'.
  Proof. intro A. pose proof (alike_cur _ _ A) as C. destruct A as (F & W & _ & N & _). repeat split; assumption. Qed.
  Lemma untouched_refl w : untouched w w.
  Proof. repeat split. Qed.
  Lemma untouched_trans a b c : untouched a b -> untouched b c -> untouched a c.
  Proof. intros (A & B & C & D) (A' & B' & C' & D'). repeat split; congruence. Qed.

  Lemma entries_done n : forall ks w w', n = length ks -> print_entries n ks w = (Done tt, w') -> alike w w' /\ says w w' (numbered ks).
  Proof.
    intros ks. revert n. induction ks as [|k ks IH]; intros n w w' L H; subst n.
    - cbn in H. apply ret_done in H as [_ ->]. split; [repeat (split; [reflexivity|]); reflexivity|reflexivity].
    - cbn [length print_entries] in H. apply bind_done in H as ([] & w1 & H1 & H). apply printed in H1 as [A1 O1].
      apply IH in H as [A2 O2]; [|cbn; lia]. split; [eapply alike_trans; eassumption|].
      replace (numbered (k :: ks)) with ([Printed "entry" [number (S (length ks)); as_user_key k]] ++ numbered ks).
      + eapply says_trans; [|exact O2]. exact O1.
      + unfold numbered. cbn [length]. rewrite seq_S, rev_app_distr. reflexivity.
  Qed.
  Lemma entries_live : forall ks n w, w_faults w = [] -> exists w', print_entries n ks w = (Done tt, w') /\ w_faults w' = [].
  Proof.
    induction ks as [|k ks IH]; intros n w F; cbn [print_entries]; [exists w; auto|].
    destruct (print_live "entry" [number n; as_user_key k] w F) as (w1 & H & F1). unfold bind. rewrite H. apply IH, F1.
  Qed.

  (** *** HEAD and the argument that names a branch *)
  Lemma branch_done r w n w' : refname_or_head r w = (Done n, w') -> ticked w w' /\ branch_of r (repo_of (cur_db w)) n.
  Proof.
    destruct r as [b|]; cbn [refname_or_head branch_of]; intro H; [apply ret_done in H as [-> ->]; split; [apply ticked_refl|reflexivity]|].
    apply head_done in H. exact H.
  Qed.
  Lemma branch_live r w n : w_faults w = [] -> branch_of r (repo_of (cur_db w)) n -> (r = None -> utf8_valid n = true) ->
    exists w', refname_or_head r w = (Done n, w') /\ ticked w w' /\ w_faults w' = [].
  Proof.
    intros F B U. destruct r as [b|]; cbn [refname_or_head branch_of] in *; [subst; exists w; split; [reflexivity|split; [apply ticked_refl|exact F]]|].
    unfold head_or_fail, get_head, bind. cbn [raw_get_state ds]. unfold sqlite_raw_get_state.
    destruct (db_read_nofault (fun d => assoc (str "HEAD") (d_state d)) w F) as (w1 & T & F1 & ->). cbn [repo_of rp_head] in B. rewrite B. cbn. rewrite (U eq_refl). cbn. exists w1. auto.
  Qed.

  (** *** Pushing *)
  Lemma push_row n rm (k : key) d :
    pushed (repo_of d) (repo_of (upd_reflog (fun rows => rows ++ [Row (next_id rows) n rm (as_db_key k)]) d)) (Push n rm k).
  Proof.
    unfold pushed, repo_of. cbn [upd_reflog d_data d_state d_reflog rp_objects rp_head rp_log]. split; [reflexivity|]. split; [reflexivity|].
    rewrite map_app, rev_app_distr. cbn [map rev app]. unfold push_of at 1. cbn [r_name r_remote r_key]. rewrite from_as_db_key. reflexivity.
  Qed.
  Lemma put_db_rest d w : w_fs (put_db d w) = w_fs w /\ w_cwd (put_db d w) = w_cwd w /\ w_conn (put_db d w) = w_conn w /\ w_out (put_db d w) = w_out w /\ w_faults (put_db d w) = w_faults w.
  Proof. unfold put_db. destruct (w_txn w); repeat split. Qed.
  (** Same files, working directory, connection and output. *)
  Lemma quietly_ticked w w' : ticked w w' -> quietly w w'.
  Proof. intros (? & ? & ->). repeat split. Qed.
  Lemma quietly_trans a b c : quietly a b -> quietly b c -> quietly a c.
  Proof. intros (A & B & C & D) (A' & B' & C' & D'). repeat split; congruence. Qed.
  Lemma push_done n rm k w w' : reflog_push ds (Reflog n k rm) w = (Done tt, w') -> pushed (repo_of (cur_db w)) (repo_of (cur_db w')) (Push n rm k) /\ quietly w w'.
  Proof.
    cbn [reflog_push ds]. unfold sqlite_reflog_push. intro H. apply db_write_done in H as (w1 & T & -> & C). cbn [rl_name rl_remote rl_key] in *. rewrite cur_put. split; [apply push_row|].
    eapply quietly_trans; [apply quietly_ticked, T|]. destruct (put_db_rest (upd_reflog (fun rows => rows ++ [Row (next_id rows) n rm (as_db_key k)]) (cur_db w)) w1) as (A & B & D & F & _). repeat split; assumption.
  Qed.
  Lemma write_live u w : w_faults w = [] -> exists w', db_write u w = (Done tt, w') /\ w_faults w' = [].
  Proof. intro F. unfold db_write. rewrite op_nofault by exact F. eexists. split; [reflexivity|]. rewrite put_db_faults. exact F. Qed.
  Lemma pushed_ticked a b r p : ticked a b -> pushed (repo_of (cur_db b)) r p -> pushed (repo_of (cur_db a)) r p.
  Proof. intros T. rewrite (cur_ticked _ _ T). auto. Qed.
  Lemma denotes_cur w v ki k : cur_db v = cur_db w -> denotes w ki k -> denotes v ki k.
  Proof. intro C. destruct ki; cbn [denotes]; unfold stored; rewrite C; auto. Qed.
  Lemma ok_ticked w v : ticked w v -> world_ok w -> world_ok v.
  Proof. intros T. exact (dr_ticked ok_rel w v T). Qed.
  Lemma started_ok cm w st w1 : reachable w -> starts cm w st w1 -> world_ok w1.
  Proof. intros R S. exact (working_ok _ (wk_start _ _ _ _ R S)). Qed.

  (** C59 *)
  Theorem ref_update_works cm w s w1 ki r w2 : reachable w -> starts cm w (Some s) w1 -> run_command cm (Some s) (CRefUpdate ki r) w1 = (Done tt, w2) ->
    exists name k, branch_of r (repo_of (cur_db w1)) name /\ denotes w1 ki k /\ pushed (repo_of (cur_db w1)) (repo_of (cur_db w2)) (Push name None k) /\ quietly w1 w2.
  Proof.
    intros R S H. pose proof (started_ok _ _ _ _ R S) as W. cbn [run_command with_ds] in H. unfold cmd_ref_update in H.
    apply bind_done in H as (k & v1 & H1 & H). apply canon_done in H1 as [T1 D]; [|exact W]. apply bind_done in H as (n & v2 & H2 & H). apply branch_done in H2 as [T2 B].
    rewrite (cur_ticked _ _ T1) in B. pose proof (ticked_trans _ _ _ T1 T2) as T. apply push_done in H as [P Q].
    exists n, k. split; [exact B|]. split; [exact D|]. split; [eapply pushed_ticked; eassumption|]. eapply quietly_trans; [apply quietly_ticked, T|exact Q].
  Qed.
  Theorem ref_update_live cm w s w1 ki r name k : reachable w -> starts cm w (Some s) w1 -> w_faults w = [] ->
    denotes w1 ki k -> branch_of r (repo_of (cur_db w1)) name -> (r = None -> utf8_valid name = true) ->
    exists w2, run_command cm (Some s) (CRefUpdate ki r) w1 = (Done tt, w2).
  Proof.
    intros R S F D B U. pose proof (started_ok _ _ _ _ R S) as W. destruct (calm_setup _ _ _ _ S F) as [F1 _]. cbn [run_command with_ds]. unfold cmd_ref_update.
    destruct (canon_live ki w1 k W F1 D) as (v1 & H1 & T1 & F2). unfold bind at 1. rewrite H1.
    destruct (branch_live r v1 name F2) as (v2 & H2 & T2 & F3); [rewrite (cur_ticked _ _ T1); exact B|exact U|]. unfold bind. rewrite H2.
    cbn [reflog_push ds]. unfold sqlite_reflog_push. edestruct write_live as (v3 & H3 & _); [exact F3|]. rewrite H3. eauto.
  Qed.
  Theorem reflog_push_works cm w s w1 ki n rm w2 : reachable w -> starts cm w (Some s) w1 -> run_command cm (Some s) (CReflogPush ki n rm) w1 = (Done tt, w2) ->
    exists k, denotes w1 ki k /\ pushed (repo_of (cur_db w1)) (repo_of (cur_db w2)) (Push n rm k) /\ quietly w1 w2.
  Proof.
    intros R S H. pose proof (started_ok _ _ _ _ R S) as W. cbn [run_command with_ds] in H. unfold cmd_reflog_push in H.
    apply bind_done in H as (k & v1 & H1 & H). apply canon_done in H1 as [T D]; [|exact W]. apply push_done in H as [P Q].
    exists k. split; [exact D|]. split; [eapply pushed_ticked; eassumption|]. eapply quietly_trans; [apply quietly_ticked, T|exact Q].
  Qed.
  Theorem reflog_push_live cm w s w1 ki n rm k : reachable w -> starts cm w (Some s) w1 -> w_faults w = [] -> denotes w1 ki k ->
    exists w2, run_command cm (Some s) (CReflogPush ki n rm) w1 = (Done tt, w2).
  Proof.
    intros R S F D. pose proof (started_ok _ _ _ _ R S) as W. destruct (calm_setup _ _ _ _ S F) as [F1 _]. cbn [run_command with_ds]. unfold cmd_reflog_push.
    destruct (canon_live ki w1 k W F1 D) as (v1 & H1 & T1 & F2). unfold bind at 1. rewrite H1.
    cbn [reflog_push ds]. unfold sqlite_reflog_push. edestruct write_live as (v3 & H3 & _); [exact F2|]. rewrite H3. eauto.
  Qed.

  (** C60 *)
  Lemma map_result_db l : map_result from_db_key (map as_db_key l) = Ok l.
  Proof. induction l as [|x l IH]; cbn [map map_result]; [reflexivity|rewrite from_as_db_key, IH; reflexivity]. Qed.
  Lemma walk_done n rm w ks w' : world_ok w -> reflog_walk ds n rm w = (Done ks, w') -> ticked w w' /\ ks = history n rm (repo_of (cur_db w)).
  Proof.
    intros W H. cbn [reflog_walk ds] in H. unfold sqlite_reflog_walk in H. apply bind_done in H as ([] & w0 & H0 & H). apply db_read_done in H0 as [T0 _].
    apply bind_done in H as (l & w1 & H1 & H). apply unwrap_done, db_read_done in H1 as [T1 ->]. pose proof (ticked_trans _ _ _ T0 T1) as T. rewrite (cur_ticked _ _ T0) in H.
    rewrite (select_history _ _ _ _ (repo_of_abs _ _ (world_ok_cur _ W))) in H. 
    rewrite map_result_db in H. cbn in H. apply ret_done in H as [-> ->]. split; [exact T|reflexivity].
  Qed.
  Lemma walk_live n rm w : world_ok w -> w_faults w = [] -> exists w', reflog_walk ds n rm w = (Done (history n rm (repo_of (cur_db w))), w') /\ ticked w w' /\ w_faults w' = [].
  Proof.
    intros W F. cbn [reflog_walk ds]. unfold sqlite_reflog_walk. destruct (db_read_nofault (fun _ => tt) w F) as (w0 & T0 & F0 & H0). unfold bind at 1. rewrite H0.
    destruct (db_read_nofault (fun d => select_reflog n rm (d_reflog d)) w0 F0) as (w1 & T1 & F1 & H1). unfold bind, unwrap. rewrite H1, (cur_ticked _ _ T0).
    rewrite (select_history _ _ _ _ (repo_of_abs _ _ (world_ok_cur _ W))).
    rewrite map_result_db. exists w1. split; [reflexivity|]. split; [exact (ticked_trans _ _ _ T0 T1)|exact F1].
  Qed.
  Theorem ref_log_works cm w s w1 r rm w2 : reachable w -> starts cm w (Some s) w1 -> run_command cm (Some s) (CRefLog r rm) w1 = (Done tt, w2) ->
    exists name, branch_of r (repo_of (cur_db w1)) name /\ untouched w1 w2 /\
      says w1 w2 (Printed "log entries are printed with most recent at top" [] :: numbered (history name rm (repo_of (cur_db w1)))).
  Proof.
    intros R S H. pose proof (started_ok _ _ _ _ R S) as W. cbn [run_command with_ds] in H. unfold cmd_ref_log in H.
    apply bind_done in H as (n & v1 & H1 & H). apply branch_done in H1 as [T1 B]. apply bind_done in H as (ks & v2 & H2 & H).
    apply walk_done in H2 as [T2 ->]; [|eapply ok_ticked; eassumption]. rewrite (cur_ticked _ _ T1) in H. pose proof (ticked_trans _ _ _ T1 T2) as T.
    apply bind_done in H as ([] & v3 & H3 & H). apply printed in H3 as [A3 O3]. apply entries_done in H as [A4 O4]; [|reflexivity].
    exists n. split; [exact B|]. split; [apply alike_untouched; eapply alike_trans; [apply alike_ticked, T|]; eapply alike_trans; eassumption|].
    change (Printed "log entries are printed with most recent at top" [] :: numbered (history n rm (repo_of (cur_db w1)))) with
      ([Printed "log entries are printed with most recent at top" []] ++ numbered (history n rm (repo_of (cur_db w1)))).
    eapply says_trans; [|exact O4]. unfold says. rewrite O3, (ticked_out _ _ T). reflexivity.
  Qed.
  Theorem ref_log_live cm w s w1 r rm name : reachable w -> starts cm w (Some s) w1 -> w_faults w = [] ->
    branch_of r (repo_of (cur_db w1)) name -> (r = None -> utf8_valid name = true) ->
    exists w2, run_command cm (Some s) (CRefLog r rm) w1 = (Done tt, w2).
  Proof.
    intros R S F B U. pose proof (started_ok _ _ _ _ R S) as W. destruct (calm_setup _ _ _ _ S F) as [F1 _]. cbn [run_command with_ds]. unfold cmd_ref_log.
    destruct (branch_live r w1 name F1 B U) as (v1 & H1 & T1 & F2). unfold bind at 1. rewrite H1.
    destruct (walk_live name rm v1 (ok_ticked _ _ T1 W) F2) as (v2 & H2 & T2 & F3). unfold bind at 1. rewrite H2.
    destruct (print_live "log entries are printed with most recent at top" [] v2 F3) as (v3 & H3 & F4). unfold bind at 1. rewrite H3.
    edestruct entries_live as (v4 & H4 & _); [exact F4|]. rewrite H4. eauto.
  Qed.
  Theorem reflog_get_works cm w s w1 n rm w2 : reachable w -> starts cm w (Some s) w1 -> run_command cm (Some s) (CReflogGet n rm) w1 = (Done tt, w2) ->
    exists k l, history n rm (repo_of (cur_db w1)) = k :: l /\ untouched w1 w2 /\ says w1 w2 [Printed "" [as_user_key k]].
  Proof.
    intros R S H. pose proof (started_ok _ _ _ _ R S) as W. cbn [run_command with_ds] in H. unfold cmd_reflog_get in H.
    apply bind_done in H as (k & v1 & H1 & H). apply newest_done in H1 as [T (l & Hi)]; [|exact W]. apply printed in H as [A O].
    exists k, l. split; [exact Hi|]. split; [apply alike_untouched; eapply alike_trans; [apply alike_ticked, T|exact A]|]. unfold says. rewrite O, (ticked_out _ _ T). reflexivity.
  Qed.
  Theorem reflog_get_live cm w s w1 n rm k l : reachable w -> starts cm w (Some s) w1 -> w_faults w = [] -> history n rm (repo_of (cur_db w1)) = k :: l ->
    exists w2, run_command cm (Some s) (CReflogGet n rm) w1 = (Done tt, w2).
  Proof.
    intros R S F Hi. pose proof (started_ok _ _ _ _ R S) as W. destruct (calm_setup _ _ _ _ S F) as [F1 _]. cbn [run_command with_ds]. unfold cmd_reflog_get.
    destruct (newest_live n rm w1 k l W F1 Hi) as (v1 & H1 & T1 & F2). unfold bind. rewrite H1. destruct (print_live "" [as_user_key k] v1 F2) as (v2 & H2 & _). eauto.
  Qed.

  (** C61: HEAD *)
  Theorem set_head_works cm s w1 n w2 : run_command cm (Some s) (CSetHead n) w1 = (Done tt, w2) ->
    head_set (repo_of (cur_db w1)) (repo_of (cur_db w2)) n /\ quietly w1 w2.
  Proof.
    intro H. cbn [run_command with_ds] in H. unfold cmd_set_head, put_head in H. cbn [raw_put_state ds] in H. unfold sqlite_raw_put_state in H.
    apply db_write_done in H as (v & T & -> & C). rewrite cur_put. split.
    - unfold head_set, repo_of. cbn [upd_state d_data d_state d_reflog rp_objects rp_head rp_log]. split; [reflexivity|]. split; [|reflexivity]. rewrite assoc_replace, bytes_eqb_refl. reflexivity.
    - eapply quietly_trans; [apply quietly_ticked, T|]. match goal with |- quietly _ (put_db ?d _) => destruct (put_db_rest d v) as (A & B & D & F & _) end. repeat split; assumption.
  Qed.
  Theorem set_head_live cm w s w1 n : starts cm w (Some s) w1 -> w_faults w = [] -> exists w2, run_command cm (Some s) (CSetHead n) w1 = (Done tt, w2).
  Proof.
    intros S F. destruct (calm_setup _ _ _ _ S F) as [F1 _]. cbn [run_command with_ds]. unfold cmd_set_head, put_head. cbn [raw_put_state ds]. unfold sqlite_raw_put_state.
    edestruct write_live as (v & H & _); [exact F1|]. eauto.
  Qed.
  Theorem get_head_works cm s w1 w2 : run_command cm (Some s) CGetHead w1 = (Done tt, w2) ->
    untouched w1 w2 /\ says w1 w2 [Printed "head:" (match rp_head (repo_of (cur_db w1)) with Some n => [n] | None => [] end)].
  Proof.
    intro H. cbn [run_command with_ds] in H. unfold cmd_get_head in H. apply bind_done in H as (h & v1 & H1 & H). unfold get_head in H1. apply bind_done in H1 as (b & v2 & H2 & H1).
    apply db_read_done in H2 as [T ->]. apply printed in H as [A O]. cbn [repo_of rp_head].
    assert (Q : v1 = v2 /\ h = assoc (str "HEAD") (d_state (cur_db w1))).
    { destruct (assoc (str "HEAD") (d_state (cur_db w1))) as [b|]; [destruct (utf8_valid b); [|discriminate H1]|]; apply ret_done in H1 as [-> ->]; auto. }
    destruct Q as [-> ->]. split; [apply alike_untouched; eapply alike_trans; [apply alike_ticked, T|exact A]|]. unfold says. rewrite O, (ticked_out _ _ T). reflexivity.
  Qed.
  Theorem get_head_live cm w s w1 : starts cm w (Some s) w1 -> w_faults w = [] -> (forall n, rp_head (repo_of (cur_db w1)) = Some n -> utf8_valid n = true) ->
    exists w2, run_command cm (Some s) CGetHead w1 = (Done tt, w2).
  Proof.
    intros S F U. destruct (calm_setup _ _ _ _ S F) as [F1 _]. cbn [run_command with_ds]. unfold cmd_get_head, get_head. cbn [raw_get_state ds]. unfold sqlite_raw_get_state, bind.
    destruct (db_read_nofault (fun d => assoc (str "HEAD") (d_state d)) w1 F1) as (v1 & T & F2 & ->). cbn [repo_of rp_head] in U.
    destruct (assoc (str "HEAD") (d_state (cur_db w1))) as [b|]; [rewrite (U b eq_refl)|]; cbn; edestruct print_live as (v2 & H & _); try exact F2; rewrite H; eauto.
  Qed.
  (** From one process to the next. *)
  Theorem head_kept cm n w code w' s w1 w2 s' v1 v2 : reachable w -> run_process cm (CSetHead n) w = (code, w') ->
    starts cm w (Some s) w1 -> run_command cm (Some s) (CSetHead n) w1 = (Done tt, w2) -> commit_ok_next w2 ->
    there w' (w_conn w2) -> starts cm w' (Some s') v1 -> w_conn v1 = w_conn w2 ->
    run_command cm (Some s') CGetHead v1 = (Done tt, v2) -> says v1 v2 [Printed "head:" [n]].
  Proof.
    intros R RP S Rc NX TH S' Cn G. destruct (next_process _ _ _ _ _ _ _ _ _ _ RP S Rc NX TH S' Cn) as [C _].
    apply set_head_works in Rc as [(_ & Hd & _) _]. apply get_head_works in G as [_ G]. rewrite C, Hd in G. exact G.
  Qed.

  (** C62: insert *)
  Theorem insert_works cm w s w1 p w2 : reachable w -> starts cm w (Some s) w1 -> fs_ok (w_fs w1) -> run_command cm (Some s) (CInsert p) w1 = (Done tt, w2) ->
    exists k, snapshot w1 (cm_exclude cm) (ds_folder s) p k w2 /\ says w1 w2 [Printed "inserted hash" [as_user_key k]] /\
      w_fs w2 = w_fs w1 /\ w_cwd w2 = w_cwd w1 /\ adds_objects (cur_db w1) (cur_db w2).
  Proof.
    intros R S O H. cbn [run_command with_ds] in H. unfold cmd_insert in H. apply bind_done in H as (f & v0 & H0 & H). apply filter_done in H0 as [-> ->].
    apply bind_done in H as (k & v1 & H1 & H). pose proof (stores_item _ _ _ _ _ _ _ H1) as (A & I & F & C & N).
    assert (Si : w_out v1 = w_out w1) by (pose proof (rel_put_fs_item silent stack (filter_fn (cm_exclude cm) (ds_folder s)) (fun x => rel_filter_fn silent _ _ x) p w1) as Y; rewrite H1 in Y; apply Y).
    apply printed in H as [Al Op]. exists k. pose proof (alike_cur _ _ Al) as Cu. destruct Al as (Af & Ac & _ & _ & _ & _ & _ & Ah).
    split. { exists stack, v1. split; [exact (wk_start _ _ _ _ R S)|]. split; [exact O|]. split; [exact H1|]. split; [intros h x X; rewrite Cu; exact X|rewrite Ah; apply incl_refl]. }
    split; [unfold says; rewrite Op, Si; reflexivity|]. split; [congruence|]. split; [congruence|]. rewrite Cu. exact A.
  Qed.

  (** C63: the report of a comparison *)
  Lemma keyed_done l : forall w w', print_keyed "  " l w = (Done tt, w') ->
    alike w w' /\ says w w' (map (fun '(p, plain) => Printed (if plain : bool then "  "%string else "  /"%string) [display p]) (map (fun '(p, k) => (p, has_key k)) l)).
  Proof.
    induction l as [|[p k] l IH]; intros w w' H; cbn [print_keyed] in H.
    - apply ret_done in H as [_ ->]. split; [repeat (split; [reflexivity|]); reflexivity|reflexivity].
    - apply bind_done in H as ([] & w1 & H1 & H). apply printed in H1 as [A1 O1]. apply IH in H as [A2 O2]. split; [eapply alike_trans; eassumption|].
      cbn [map]. match goal with |- says _ _ (?x :: ?l) => change (x :: l) with ([x] ++ l) end. eapply says_trans; [|exact O2]. unfold says. rewrite O1. destruct k; reflexivity.
  Qed.
  Lemma section_done t l w w' : print_section t l w = (Done tt, w') -> alike w w' /\ says w w' (listing t (map (fun '(p, k) => (p, has_key k)) l)).
  Proof.
    destruct l as [|x l]; cbn [print_section]; intro H.
    - apply ret_done in H as [_ ->]. split; [repeat (split; [reflexivity|]); reflexivity|reflexivity].
    - apply bind_done in H as ([] & w1 & H1 & H). apply printed in H1 as [A1 O1]. apply keyed_done in H as [A2 O2]. split; [eapply alike_trans; eassumption|].
      unfold listing. cbn [map]. destruct x as [p k]. match goal with |- says _ _ (?x :: ?l) => change (x :: l) with ([x] ++ l) end. eapply says_trans; [exact O1|exact O2].
  Qed.
  Definition report_of (r : diff_result) : list event :=
    report (map (fun a => (ad_path a, has_key (ad_key a))) (df_added (simplify r))) (map (fun a => (dl_path a, has_key (dl_key a))) (df_deleted (simplify r)))
      (map (fun a => (md_path a, true)) (df_modified r)).
  Lemma report_done r w w' : print_diff_result r w = (Done tt, w') -> alike w w' /\ says w w' (report_of r).
  Proof.
    unfold print_diff_result. cbn zeta. intro H. apply bind_done in H as ([] & w1 & H1 & H). apply bind_done in H as ([] & w2 & H2 & H).
    apply section_done in H1 as [A1 O1]. apply section_done in H2 as [A2 O2]. apply section_done in H as [A3 O3].
    split; [eapply alike_trans; [exact A1|]; eapply alike_trans; [exact A2|exact A3]|].
    unfold report_of, report. rewrite map_map in O1, O2, O3. eapply says_trans; [exact O1|]. eapply says_trans; [exact O2|exact O3].
  Qed.
  Lemma live_bind {A B} (m : M A) (f : A -> M B) w : (exists a w1, m w = (Done a, w1) /\ w_faults w1 = [] /\ exists w2 b, f a w1 = (Done b, w2) /\ w_faults w2 = []) ->
    exists w2 b, bind m f w = (Done b, w2) /\ w_faults w2 = [].
  Proof. intros (a & w1 & H & _ & w2 & b & H2 & F). unfold bind. rewrite H. eauto. Qed.
  Lemma section_live t l w : w_faults w = [] -> exists w', print_section t l w = (Done tt, w') /\ w_faults w' = [].
  Proof.
    assert (K : forall l w, w_faults w = [] -> exists w', print_keyed "  " l w = (Done tt, w') /\ w_faults w' = []).
    { clear. induction l as [|[p k] l IH]; intros w F; cbn [print_keyed]; [exists w; auto|]. destruct (print_live (key_tag "  " k) [display p] w F) as (w1 & H & F1). unfold bind. rewrite H. apply IH, F1. }
    intro F. destruct l as [|x l]; cbn [print_section]; [exists w; auto|]. destruct (print_live t [] w F) as (w1 & H & F1). unfold bind. rewrite H. apply K, F1.
  Qed.
  Lemma report_live r w : w_faults w = [] -> exists w', print_diff_result r w = (Done tt, w') /\ w_faults w' = [].
  Proof.
    intro F. unfold print_diff_result. cbn zeta. edestruct section_live as (w1 & H1 & F1); [exact F|]. unfold bind at 1. rewrite H1. 
    edestruct section_live as (w2 & H2 & F2); [exact F1|]. unfold bind. rewrite H2. apply section_live, F2.
  Qed.

  (** *** Differences between files and a tree *)
  Lemma tree_cur w v to x k d : cur_db v = cur_db w -> tree_of w to x k d -> tree_of v to x k d.
  Proof.
    intros C. destruct to as [k0|]; [|intros []]. intros [A (i & I & R)]. split; [eapply at_path_cur; eassumption|]. exists i. split; [eapply item_cur; eassumption|exact R].
  Qed.
  Lemma tidy_cur w v to : cur_db v = cur_db w -> tidy_of w to -> tidy_of v to.
  Proof.
    intros C. destruct to as [k0|]; [|auto]. intros T k' o i En R F Ty. symmetry in C. apply (T k' o i); [eapply entries_cur; eassumption|eapply reads_cur; eassumption|exact F|exact Ty].
  Qed.
  Lemma files_fun ex fo p w x e e' : on_disk ex fo p w x e -> on_disk ex fo p w x e' -> e = e'.
  Proof. intros (_ & A & _) (_ & B & _). congruence. Qed.
  Lemma named_all {A} (get : A -> path) l : by_path get l -> exists rs, map get l = map named rs /\ StronglySorted loc_lt rs.
  Proof. auto. Qed.
  Lemma fs_differences ex fo p w to log r : fs_result ex fo p w to log r ->
    exists A M, differences ex fo p w to log A M /\ report_of r = report_lists A M.
  Proof.
    intros (D & Tr & Ad & Ad' & Mo & Mo' & SA & SM). destruct (keep_spec ad_path (df_added r) SA) as (Sub & (rs & Mr & Sr) & Top & _). destruct SM as (ms & Mm & Sm).
    set (K := keep_topmost ad_path (df_added r)) in *.
    (* one flag for each kept path *)
    exists (combine rs (map (fun a => has_key (ad_key a)) K)), ms.
    assert (Ln : length rs = length (map (fun a => has_key (ad_key a)) K)) by (rewrite map_length, <- (map_length ad_path), Mr, map_length; reflexivity).
    assert (In1 : forall x b, In (x, b) (combine rs (map (fun a => has_key (ad_key a)) K)) -> exists a, In a K /\ ad_path a = named x /\ b = has_key (ad_key a)).
    { clear -Mr. revert rs Mr. induction K as [|a K IH]; intros [|r0 rs] Mr x b I; cbn in *; try discriminate; try contradiction. injection Mr as Q Mr.
      destruct I as [I|I]; [inversion I; subst; exists a; auto|]. destruct (IH rs Mr x b I) as (a' & H1 & H2). exists a'. auto. }
    assert (In2 : forall a x, In a K -> ad_path a = named x -> In (x, has_key (ad_key a)) (combine rs (map (fun a => has_key (ad_key a)) K))).
    { clear -Mr. revert rs Mr. induction K as [|a K IH]; intros [|r0 rs] Mr a' x I Q; cbn in *; try discriminate; try contradiction. injection Mr as Q' Mr.
      destruct I as [->|I]; [left; rewrite Q in Q'; apply named_inj in Q'; congruence|right; eauto]. }
    assert (Fr : forall x, fresh ex fo p w to x <-> exists a, In a (df_added r) /\ ad_path a = named x).
    { intro x. split.
      - intros [[e O] N]. destruct (Ad' x e O) as [(k & d & T)|I]; [destruct (N _ _ T)|]. apply in_map_iff in I as (a & Q & I). eauto.
      - intros (a & I & Q). destruct (Ad a I) as (y & e & O & N & Q' & _). rewrite Q in Q'. apply named_inj in Q'. subst y. split; eauto. }
    assert (Flag : forall a x, In a (df_added r) -> ad_path a = named x -> (has_key (ad_key a) = false <-> on_disk ex fo p w x EDir)).
    { intros a x I Q. destruct (Ad a I) as (y & e & O & N & Q' & [(-> & _ & Kn)|(Ne & _ & l & c & st & k & _ & Ks & _)]); rewrite Q in Q'; apply named_inj in Q'; subst y.
      - rewrite Kn. split; auto.
      - rewrite Ks. split; [discriminate|]. intro O'. destruct Ne. eapply files_fun; eassumption. }
    split; [|].
    - split; [|split; [exact Sm|split; [exact Tr|split; [|split]]]].
      + replace (map fst (combine rs (map (fun a => has_key (ad_key a)) K))) with rs; [exact Sr|]. clear -Ln. revert Ln. generalize (map (fun a => has_key (ad_key a)) K) as bs.
        induction rs as [|x rs IH]; intros [|b bs] L; cbn in *; try discriminate; [reflexivity|]. f_equal. apply IH. lia.
      + intros x b. split.
        * intro I. apply In1 in I as (a & Ia & Q & ->). assert (Il : In a (df_added r)) by (apply (sublist_in _ _ Sub), Ia). split; [|apply Flag; assumption].
          split; [apply Fr; eauto|]. intros y Y F. apply Fr in F as (b & Ib & Qb). exact (proj1 (Top a x Il Q) Ia b y Ib Qb Y).
        * intros [[F T] B]. apply Fr in F as (a & Il & Q). assert (Ia : In a K) by (apply (Top a x Il Q); intros b0 y Ib Qb Y; apply (T y Y), Fr; eauto).
          replace b with (has_key (ad_key a)); [apply In2; assumption|]. pose proof (Flag a x Il Q) as Fl. destruct (has_key (ad_key a)) eqn:Eh, b; try reflexivity.
          -- destruct B as [B _]. specialize (B eq_refl). apply Fl in B. discriminate B.
          -- destruct Fl as [Fl _]. specialize (Fl eq_refl). apply B in Fl. discriminate Fl.
      + intros x I. apply (in_map named) in I. rewrite <- Mm in I. apply in_map_iff in I as (b & Q & I). destruct (Mo b I) as (y & c & st & k & d & k' & O & T & H & N & ->). cbn in Q. apply named_inj in Q. subst y. exists c, st, k, d, k'. auto.
      + intros x c st k d O T. destruct (Mo' x _ k d O T) as [Q|(c' & st' & k' & Q & H & Im)]; [discriminate Q|]. inversion Q; subst c' st'.
        destruct (key_eqb k' k) eqn:Ek; [apply key_eqb_eq in Ek; subst; right; exact H|]. left. assert (N : k' <> k) by (intros ->; rewrite (proj2 (key_eqb_eq _ _) eq_refl) in Ek; discriminate Ek).
        specialize (Im N). apply (in_map md_path) in Im. cbn in Im. rewrite Mm in Im. apply in_map_iff in Im as (y & Q' & I). apply named_inj in Q'. subst. exact I.
    - unfold report_of, report_lists, simplify. cbn [df_added df_deleted df_modified]. rewrite D. cbn [keep_topmost fold_left map]. fold K. f_equal.
      + clear -Mr. revert rs Mr. induction K as [|a K IH]; intros [|r0 rs] Mr; cbn in *; try discriminate; [reflexivity|]. injection Mr as Q Mr. rewrite Q. f_equal. apply IH, Mr.
      + clear -Mm. revert ms Mm. induction (df_modified r) as [|a l IH]; intros [|r0 ms] Mm; cbn in *; try discriminate; [reflexivity|]. injection Mm as Q Mm. rewrite Q. f_equal. apply IH, Mm.
  Qed.
  Lemma differences_cur ex fo p w v to log A M : cur_db v = cur_db w -> w_fs v = w_fs w -> w_cwd v = w_cwd w -> differences ex fo p v to log A M -> differences ex fo p w to log A M.
  Proof.
    intros C F W (S1 & S2 & T & Ad & M1 & M2).
    assert (O : forall x e, on_disk ex fo p v x e <-> on_disk ex fo p w x e) by (intros x e; unfold on_disk; rewrite F, W; reflexivity).
    assert (R : forall x k d, tree_of v to x k d <-> tree_of w to x k d) by (intros; split; apply tree_cur; congruence).
    assert (Fr : forall x, fresh ex fo p v to x <-> fresh ex fo p w to x).
    { intro x. unfold fresh. split; intros [(e & X) N]; (split; [exists e; apply O, X|]); intros k d Y; apply (N k d), R, Y. }
    split; [exact S1|]. split; [exact S2|]. split; [intros x k d X; apply R in X; destruct (T x k d X) as (e & Y); exists e; apply O, Y|].
    split; [|split].
    - intros x b. rewrite (Ad x b), (O x EDir). unfold topmost. rewrite (Fr x). split; intros [[X Y] Z]; (split; [split; [exact X|]|exact Z]); intros y I Q; apply (Y y I), Fr, Q.
    - intros x I. destruct (M1 x I) as (c & st & k & d & k' & X & Y & Z). exists c, st, k, d, k'. split; [apply O, X|]. split; [apply R, Y|exact Z].
    - intros x c st k d X Y. apply O in X. apply R in Y. eapply M2; eassumption.
  Qed.
  Lemma differences_log ex fo p w to log log' A M : incl log log' -> differences ex fo p w to log A M -> differences ex fo p w to log' A M.
  Proof.
    intros I (S1 & S2 & T & Ad & M1 & M2). assert (H : forall c k, hashed_as log c k -> hashed_as log' c k).
    { intros c k (s & fuel & q & e & db & u & l & st & u' & X & Y & Z & J). exists s, fuel, q, e, db, u, l, st, u'. split; [exact X|]. split; [exact Y|]. split; [exact Z|]. eapply incl_tran; eassumption. }
    split; [exact S1|]. split; [exact S2|]. split; [exact T|]. split; [exact Ad|]. split.
    - intros x X. destruct (M1 x X) as (c & st & k & d & k' & Y1 & Y2 & Y3 & Y4). exists c, st, k, d, k'. auto.
    - intros x c st k d X Y. destruct (M2 x c st k d X Y) as [Z|Z]; auto.
  Qed.
  Lemma compared ex fo p to w v r v' w' : steady_reads -> in_order w -> tidy_of w to -> alike w v -> compare ds (TFileSystem p ex fo) to v = (Done r, v') ->
    print_diff_result r v' = (Done tt, w') -> exists A M, differences ex fo p w to (w_hashed w') A M /\ says v w' (report_lists A M) /\ w_fs w' = w_fs w /\ w_cwd w' = w_cwd w.
  Proof.
    intros St O T Al H P. pose proof (alike_order _ _ Al O) as (O1 & O2 & O3). pose proof (alike_cur _ _ Al) as C.
    pose proof (compare_silent _ _ _ _ _ H) as (So & Sf & Sc & _). apply compare_fs_done in H as ((_ & _ & I) & _ & R); auto; [|eapply tidy_cur; eassumption].
    apply fs_differences in R as (A & M & D & Q). apply report_done in P as [Ap Sp]. exists A, M. destruct Al as (Af & Ac & _). destruct Ap as (Bf & Bc & _ & _ & _ & _ & _ & Bh).
    split. { apply (differences_cur _ _ _ w v); auto. eapply differences_log; [|exact D]. rewrite Bh. apply incl_refl. }
    rewrite Q in Sp. split; [unfold says in *; rewrite Sp, So; reflexivity|]. split; congruence.
  Qed.
  Lemma hashed_log log log' c k : incl log log' -> hashed_as log c k -> hashed_as log' c k.
  Proof. intros I (s & fuel & q & e & db & u & l & st & u' & X & Y & Z & J). exists s, fuel, q, e, db, u, l, st, u'. split; [exact X|]. split; [exact Y|]. split; [exact Z|]. eapply incl_tran; eassumption. Qed.
  Lemma print_stats_alike l : forall w w', print_stats l w = (Done tt, w') -> alike w w'.
  Proof.
    induction l as [|s l IH]; intros w w' H; cbn [print_stats] in H; [apply ret_done in H as [_ ->]; apply alike_ticked, ticked_refl|].
    apply bind_done in H as ([] & w1 & H1 & H). apply IH in H. apply printed in H1 as [A _]. exact (alike_trans _ _ _ A H).
  Qed.
  Lemma print_stat_alike r w w' : print_stat_diff_result ds r w = (Done tt, w') -> cur_db w' = cur_db w /\ incl (w_hashed w) (w_hashed w').
  Proof.
    unfold print_stat_diff_result. intro H. apply bind_done in H as (l & w1 & H1 & H). apply line_stat_done in H1 as [T _]. apply print_stats_alike in H.
    pose proof (alike_trans _ _ _ (alike_ticked _ _ T) H) as A. split; [apply alike_cur, A|]. destruct A as (_ & _ & _ & _ & _ & _ & _ & ->). apply incl_refl.
  Qed.
  Lemma stored_bytes_cur w v k b : cur_db v = cur_db w -> stored_bytes w k b -> stored_bytes v k b.
  Proof. intros C S. intros u F Q. apply S; [exact F|congruence]. Qed.
  Lemma F2_in {A B} (P : A -> B -> Prop) l m b : Forall2 P l m -> In b m -> exists a, In a l /\ P a b.
  Proof. induction 1; intros []; [subst; eexists; split; [left; reflexivity|assumption]|]. destruct (IHForall2 H1) as (a & I & Q). exists a. split; [right; exact I|exact Q]. Qed.
  Lemma F2_in' {A B} (P : A -> B -> Prop) l m a : Forall2 P l m -> In a l -> exists b, In b m /\ P a b.
  Proof. induction 1; intros []; [subst; eexists; split; [left; reflexivity|assumption]|]. destruct (IHForall2 H1) as (b & I & Q). exists b. split; [right; exact I|exact Q]. Qed.
  Lemma compared_stat ex fo p t w v r v' w' : steady_reads -> in_order w -> tidy w t -> alike w v -> compare ds (TFileSystem p ex fo) (Some t) v = (Done r, v') ->
    print_stat_diff_result ds r v' = (Done tt, w') -> exists l, stat_differences ex fo p w t w' l /\ says v w' (map stat_event l).
  Proof.
    intros St O T Al H P. pose proof (alike_order _ _ Al O) as (O1 & O2 & O3). pose proof (alike_cur _ _ Al) as C.
    pose proof (compare_silent _ _ _ _ _ H) as (So & _). apply compare_fs_done in H as (_ & _ & R); auto; [|eapply (tidy_cur w v (Some t)); eassumption].
    destruct R as (D & _ & Ad & Ad' & Mo & Mo' & _ & _). pose proof (print_stat_alike _ _ _ P) as [Cp Ip]. apply print_stat_done in P as (A & Dl & M & l & FA & FD & FM & Pm & Srt & Ou).
    destruct Al as (Af & Ac & _).
    assert (Od : forall x e, on_disk ex fo p v x e <-> on_disk ex fo p w x e) by (intros x e; unfold on_disk; rewrite Af, Ac; reflexivity).
    assert (Tr : forall x k d, tree_of v (Some t) x k d <-> tree_of w (Some t) x k d) by (intros; split; apply (tree_cur _ _ (Some t)); congruence).
    assert (Dl = []) as -> by (unfold deleted_files in FD; rewrite D in FD; inversion FD; reflexivity). cbn [app] in Pm.
    exists l. split; [|unfold says; rewrite Ou, So; reflexivity]. split; [exact Srt|]. split; [|split].
    - intros s I. apply (Permutation_in _ (Permutation_sym Pm)) in I. apply in_app_or in I as [I|I].
      + destruct (F2_in _ _ _ _ FA I) as (a & Ia & k & b & Ka & Sb & ->). apply filter_In in Ia as [Ia Fa]. destruct (Ad a Ia) as (x & e & Ox & N & Pa & [(_ & Is & _)|(Ne & _ & q & c & st & k0 & Sx & K0 & Hk)]); [rewrite Is in Fa; discriminate Fa|].
        exists x, e. split; [apply Od, Ox|]. split; [exact Ne|]. left. split; [intros k' d' X; apply Tr in X; exact (N _ _ X)|]. rewrite K0 in Ka. inversion Ka; subst k0. rewrite Af, Ac in Sx.
        exists q, c, st, k, b. split; [exact Sx|]. split; [eapply hashed_log; eassumption|]. split; [eapply stored_bytes_cur; eassumption|]. rewrite Pa. reflexivity.
      + destruct (F2_in _ _ _ _ FM I) as (m & Im & b & a & Sb & Sa & ->). destruct (Mo m Im) as (x & c & st & k & d & k' & Ox & Tx & Hk & N & ->). cbn [md_old md_new md_path] in *.
        exists x, (EFile c st). split; [apply Od, Ox|]. split; [discriminate|]. right. exists c, st, k, d, k', b, a. split; [reflexivity|]. split; [apply Tr, Tx|]. split; [eapply hashed_log; eassumption|]. split; [exact N|].
        split; [eapply stored_bytes_cur; eassumption|]. split; [eapply stored_bytes_cur; eassumption|]. reflexivity.
    - intros x e Ox Ne N. apply Od in Ox. destruct (Ad' x e Ox) as [(k & d & X)|I]; [apply Tr in X; destruct (N _ _ X)|]. apply in_map_iff in I as (a & Qa & Ia).
      destruct (Ad a Ia) as (y & e' & Oy & _ & Pa & B). rewrite Qa in Pa. apply named_inj in Pa. subst y. pose proof (files_fun _ _ _ _ _ _ _ Ox Oy) as <-. destruct B as [(Q & _)|(_ & Is & _ & _ & _ & k & _ & Ks & _)]; [contradiction|].
      destruct (F2_in' _ _ _ a FA) as (s & Is' & k0 & b & _ & _ & ->); [apply filter_In; split; [exact Ia|rewrite Is, Ks; reflexivity]|].
      rewrite <- Qa. change (ad_path a) with (st_name (FileStat (ad_path a) (newlines b) 0)). apply in_map, (Permutation_in _ Pm), in_or_app. left. exact Is'.
    - intros x c st k d Ox Tx. apply Od in Ox. apply Tr in Tx. destruct (Mo' x _ k d Ox Tx) as [Q|(c' & st' & k' & Q & Hk & Im)]; [discriminate Q|]. inversion Q; subst c' st'.
      destruct (key_eqb k' k) eqn:Ek; [apply key_eqb_eq in Ek; subst; right; eapply hashed_log; eassumption|]. left. assert (N : k' <> k) by (intros ->; rewrite (proj2 (key_eqb_eq _ _) eq_refl) in Ek; discriminate Ek).
      destruct (F2_in' _ _ _ _ FM (Im N)) as (s & Is' & b & a & _ & _ & ->). cbn [md_path] in *.
      match type of Is' with In (FileStat ?n ?x ?y) _ => change (named _) with (st_name (FileStat n x y)) end. apply in_map, (Permutation_in _ Pm), in_or_app. right. exact Is'.
  Qed.
  (** C63 *)
  Theorem status_works cm w s w1 w2 : reachable w -> starts cm w (Some s) w1 -> steady_reads -> in_order w1 ->
    (forall t, head_tree w1 (Some t) -> tidy w1 t) -> run_command cm (Some s) CStatus w1 = (Done tt, w2) ->
    exists name, rp_head (repo_of (cur_db w1)) = Some name /\
      ((exists k l c A M, history name None (repo_of (cur_db w1)) = k :: l /\ reads_commit w1 k c /\
          differences (cm_exclude cm) (ds_folder s) (ds_repo s) w1 (Some (c_tree c)) (w_hashed w2) A M /\
          says w1 w2 (Printed "HEAD:" [name; firstn 8 (as_user_key k)] :: report_lists A M)) \/
       (history name None (repo_of (cur_db w1)) = [] \/ ~ no_errors w1) /\ says w1 w2 [Printed "HEAD (no commits):" [name; name]]).
  Proof.
    intros R S St O Td H. pose proof (started_ok _ _ _ _ R S) as W. cbn [run_command with_ds] in H. unfold cmd_status in H.
    apply bind_done in H as (n & v1 & H1 & H). pose proof (rel_head_or_fail fewer w1) as Fw. rewrite H1 in Fw. apply head_done in H1 as [T1 Hd]. exists n. split; [exact Hd|].
    pose proof (cur_ticked _ _ T1) as C1. pose proof (ok_ticked _ _ T1 W) as W1. pose proof (ticked_out _ _ T1) as U1.
    apply bind_done in H as (got & v2 & H2 & H). apply try_done in H2 as [(k & -> & H2)|(e & -> & H2)].
    - left. apply latest_done in H2 as [T2 (l & Hi)]; [|exact W1]. rewrite C1 in Hi. pose proof (ticked_trans _ _ _ T1 T2) as T12. pose proof (ticked_out _ _ T12) as U2.
      apply bind_done in H as ([] & v3 & H3 & H). apply printed in H3 as [A3 O3]. pose proof (alike_trans _ _ _ (alike_ticked _ _ T12) A3) as A13.
      apply bind_done in H as (c & v4 & H4 & H). apply commit_key_done in H4 as [T4 R4]. pose proof (ticked_out _ _ T4) as U4. pose proof (alike_trans _ _ _ A13 (alike_ticked _ _ T4)) as A14.
      assert (Rc : reads_commit w1 k c) by (eapply reads_commit_cur; [|exact R4]; symmetry; apply alike_cur, A13).
      apply bind_done in H as (r & v5 & H5 & H).
      destruct (compared _ _ _ (Some (c_tree c)) w1 v4 r v5 w2 St O (Td _ (ex_intro _ n (conj Hd (ex_intro _ k (ex_intro _ l (ex_intro _ c (conj Hi (conj Rc eq_refl)))))))) A14 H5 H) as (A & M & D & Sy & _).
      exists k, l, c, A, M. split; [exact Hi|]. split; [exact Rc|]. split; [exact D|].
      change (Printed "HEAD:" [n; firstn 8 (as_user_key k)] :: report_lists A M) with ([Printed "HEAD:" [n; firstn 8 (as_user_key k)]] ++ report_lists A M).
      eapply says_trans; [|exact Sy]. unfold says. rewrite U4, O3, U2. reflexivity.
    - right. apply printed in H as [_ O3]. apply latest_error in H2 as ((T2 & _) & Y1 & Y2); [|exact W1]. split; [|unfold says; rewrite O3, T2, U1; reflexivity].
      assert (Q : e = ERefNotFound \/ e <> ERefNotFound) by (destruct e; try (left; reflexivity); right; discriminate). destruct Q as [Q|Q].
      + left. rewrite <- C1. apply Y1, Q.
      + right. intro NE. apply (Y2 Q). intros f If. apply NE, Fw, If.
  Qed.
  Lemma compare_starts cm s k w w1 p (fin : diff_result -> M unit) w2 : world_ok w1 -> w = w1 ->
    (key <- match k with Some k => canonicalize ds k | None => h <- get_head_key ;; c <- commit_from_key ds h ;; ret (c_tree c) end ;;
     r <- compare ds (TFileSystem p (cm_exclude cm) (ds_folder s)) (Some key) ;; fin r) w1 = (Done tt, w2) ->
    exists t v r v', compared_to w1 k t /\ ticked w1 v /\ compare ds (TFileSystem p (cm_exclude cm) (ds_folder s)) (Some t) v = (Done r, v') /\ fin r v' = (Done tt, w2).
  Proof.
    intros W _ H. apply bind_done in H as (t & v & H1 & H). apply bind_done in H as (r & v' & H2 & H). exists t, v, r, v'.
    enough (X : compared_to w1 k t /\ ticked w1 v) by (destruct X; auto). destruct k as [ki|]; [apply canon_done in H1 as [T D]; [split; assumption|exact W]|].
    apply bind_done in H1 as (h & u & H1 & H3). unfold get_head_key in H1. apply bind_done in H1 as (name & u1 & H1 & H4). apply head_done in H1 as [T1 Hd].
    pose proof (cur_ticked _ _ T1) as C1. apply latest_done in H4 as [T2 (l & Hi)]; [|exact (ok_ticked _ _ T1 W)]. pose proof (cur_ticked _ _ T2) as C2.
    apply bind_done in H3 as (c & u3 & H3 & H5). apply commit_key_done in H3 as [T3 R]. apply ret_done in H5 as [-> ->].
    split; [|exact (ticked_trans _ _ _ (ticked_trans _ _ _ T1 T2) T3)]. exists name. split; [exact Hd|]. exists h, l, c. rewrite <- C1. split; [exact Hi|]. split; [|reflexivity]. eapply reads_commit_cur; [|exact R]. congruence.
  Qed.
  Theorem compare_works cm w s w1 p k w2 : reachable w -> starts cm w (Some s) w1 -> steady_reads -> in_order w1 ->
    (forall t, compared_to w1 k t -> tidy w1 t) -> run_command cm (Some s) (CCompare p k false) w1 = (Done tt, w2) ->
    exists t A M, compared_to w1 k t /\
      differences (cm_exclude cm) (ds_folder s) (match p with Some q => q | None => ds_repo s end) w1 (Some t) (w_hashed w2) A M /\ says w1 w2 (report_lists A M).
  Proof.
    intros R S St O Td H. cbn [run_command with_ds] in H. unfold cmd_compare in H. apply (compare_starts cm s k w1) in H as (t & v & r & v' & D & T & H & P); [|exact (started_ok _ _ _ _ R S)|reflexivity].
    pose proof (alike_ticked _ _ T) as A. destruct (compared _ _ _ (Some t) w1 v r v' w2 St O (Td t D) A H P) as (A' & M & X & Y & _). exists t, A', M. split; [exact D|]. split; [exact X|].
    unfold says in *. rewrite Y, (ticked_out _ _ T). reflexivity.
  Qed.
  Theorem compare_stat_works cm w s w1 p k w2 : reachable w -> starts cm w (Some s) w1 -> steady_reads -> in_order w1 ->
    (forall t, compared_to w1 k t -> tidy w1 t) -> run_command cm (Some s) (CCompare p k true) w1 = (Done tt, w2) ->
    exists t l, compared_to w1 k t /\
      stat_differences (cm_exclude cm) (ds_folder s) (match p with Some q => q | None => ds_repo s end) w1 t w2 l /\ says w1 w2 (map stat_event l).
  Proof.
    intros R S St O Td H. cbn [run_command with_ds] in H. unfold cmd_compare in H. apply (compare_starts cm s k w1) in H as (t & v & r & v' & D & T & H & P); [|exact (started_ok _ _ _ _ R S)|reflexivity].
    pose proof (alike_ticked _ _ T) as A. destruct (compared_stat _ _ _ t w1 v r v' w2 St O (Td t D) A H P) as (l & X & Y). exists t, l. split; [exact D|]. split; [exact X|].
    unfold says in *. rewrite Y, (ticked_out _ _ T). reflexivity.
  Qed.
  (** After a commit the tree of HEAD is one of an insertion. *)
  Theorem head_tidy cm w s w1 p m w2 v1 : reachable w -> starts cm w (Some s) w1 -> fs_ok (w_fs w1) ->
    run_command cm (Some s) (CCommit p m None) w1 = (Done tt, w2) -> attrs_fits (Attrs m []) -> no_coll (w_hashed w2) -> cur_db v1 = cur_db w2 ->
    forall t, head_tree v1 (Some t) -> tidy v1 t.
  Proof.
    intros Rw S O H AF NC D t Ht.
    destruct (commit_works _ _ _ _ _ _ _ _ Rw S O H NC AF) as (name & tree & k & w0 & N & F0 & C0 & Sn & Ic & One & _). cbn [branch_of] in N.
    pose proof (push_branches _ _ _ _ One) as [Hi _]. destruct One as (_ & Hd & _).
    assert (Ht' : head_tree v1 (Some tree)).
    { exists name. rewrite D. split; [congruence|]. eexists k, _, _. split; [exact Hi|]. split; [eapply reads_commit_cur; [exact D|apply commit_reads, Ic]|reflexivity]. }
    pose proof (head_tree_fun _ _ _ Ht Ht') as ->. apply (tidy_cur w2 v1 (Some tree) D). cbn [tidy_of].
    destruct Sn as (fuel & u & Wk & Ou & Pu & Ks & I). eapply put_tidy; [apply working_ok, Wk|exact Ou|exact Pu|eapply no_coll_incl; [exact I|exact NC]|exact Ks].
  Qed.
  (** C65: insert, later fetch by a prefix of what was printed *)
  Lemma denotes_fun w ki k k' : denotes w ki k -> denotes w ki k' -> k' = k.
  Proof.
    destruct ki as [s a e|s b|o rm n]; cbn [denotes].
    - intros (A & B) (A' & B'). destruct A'. apply B; assumption.
    - intros A B. rewrite A in B. inversion B. symmetry. apply as_db_key_inj. congruence.
    - intros (l & A) (l' & B). congruence.
  Qed.
  Theorem insert_then_fetch cm w s w1 p w2 k cm' v s' v1 ki q v2 : reachable w -> starts cm w (Some s) w1 -> fs_ok (w_fs w1) ->
    run_command cm (Some s) (CInsert p) w1 = (Done tt, w2) -> says w1 w2 [Printed "inserted hash" [as_user_key k]] -> no_coll (w_hashed w2) ->
    lossless_below (w_fs w1) (locate (w_cwd w1) p) ->
    reachable v -> starts cm' v (Some s') v1 -> still_stored w2 v1 -> denotes v1 ki k ->
    run_command cm' (Some s') (CFetch ki q) v1 = (Done tt, v2) -> free (w_fs v1) (locate (w_cwd v1) q) ->
    let src := locate (w_cwd w1) p in let out := locate (w_cwd v1) q in
    (forall r c, content (w_fs v2) (out ++ r) = Some c <->
       content (w_fs w1) (src ++ r) = Some c /\ included (cm_exclude cm) (locate (w_cwd w1) (ds_folder s)) p src r) /\
    (forall x e, lookup (w_fs v1) x = Some e -> lookup (w_fs v2) x = Some e) /\
    (forall x, lookup (w_fs v1) x = None -> lookup (w_fs v2) x <> None ->
       (exists r, x = out ++ r) \/ (lookup (w_fs v2) x = Some EDir /\ exists a b, p_comps q = a ++ b /\ x = locate (w_cwd v1) (Path (p_abs q) a false))).
  Proof.
    intros R S O H Sy NC L Rv Sv St D G Fr. apply (insert_works cm w s w1 p w2 R S O) in H as (k0 & Sn & Sy' & _).
    assert (k0 = k) as ->. { unfold says in *. rewrite Sy in Sy'. cbn in Sy'. inversion Sy' as [Q]. symmetry. apply as_user_key_inj. exact Q. }
    cbn [run_command with_ds] in G. unfold cmd_fetch in G. apply bind_done in G as (k1 & u & H1 & G). apply canon_done in H1 as [T D1]; [|exact (started_ok _ _ _ _ Rv Sv)].
    pose proof (denotes_fun _ _ _ _ D D1) as ->. destruct (ticked_fs _ _ T) as [Fu Cu]. destruct Sn as (fuel & u1 & Wk & Ou & Pu & Ks & I).
    assert (St' : still_stored u1 u) by (intros h x X; rewrite (cur_ticked _ _ T); apply St, Ks, X). cbv zeta. rewrite <- Fu, <- Cu in *.
    destruct (insert_fetch fuel p (cm_exclude cm) (ds_folder s) w1 k u1 u stack q v2 (working_ok _ Wk) Ou Pu (no_coll_incl _ _ I NC) L St' G) as (fl & M & HF).
    exact (round_files _ _ _ _ _ _ _ _ HF M Fr).
  Qed.
  Theorem fetch_live_cmd cm w s w1 p w2 k cm' v s' v1 ki d n depth : reachable w -> starts cm w (Some s) w1 -> fs_ok (w_fs w1) ->
    run_command cm (Some s) (CInsert p) w1 = (Done tt, w2) -> says w1 w2 [Printed "inserted hash" [as_user_key k]] -> no_coll (w_hashed w2) ->
    lossless_below (w_fs w1) (locate (w_cwd w1) p) -> storable (w_fs w1) (locate (w_cwd w1) p) depth -> depth + 6 <= stack ->
    reachable v -> starts cm' v (Some s') v1 -> w_faults v = [] -> still_stored w2 v1 -> denotes v1 ki k ->
    walk_comps (w_fs v1) (if p_abs d then [] else w_cwd v1) (p_comps d) = Some (locate (w_cwd v1) d) ->
    lookup (w_fs v1) (locate (w_cwd v1) d) = Some EDir -> free (w_fs v1) (locate (w_cwd v1) (path_push d n)) ->
    exists v2, run_command cm' (Some s') (CFetch ki (path_push d n)) v1 = (Done tt, v2).
  Proof.
    intros R S O H Sy NC L Sto Hs Rv Sv Fv St D Wk Dd Fr. apply (insert_works cm w s w1 p w2 R S O) in H as (k0 & Sn & Sy' & _).
    assert (k0 = k) as ->. { unfold says in *. rewrite Sy in Sy'. cbn in Sy'. inversion Sy' as [Q]. symmetry. apply as_user_key_inj. exact Q. }
    destruct (calm_setup _ _ _ _ Sv Fv) as [F1 _]. destruct (canon_live ki v1 k (started_ok _ _ _ _ Rv Sv) F1 D) as (u & H1 & T & F2).
    cbn [run_command with_ds]. unfold cmd_fetch, bind. rewrite H1. destruct (ticked_fs _ _ T) as [Fu Cu]. destruct Sn as (fuel & u1 & Wo & Ou & Pu & Ks & I).
    assert (St' : still_stored u1 u) by (intros h x X; rewrite (cur_ticked _ _ T); apply St, Ks, X). rewrite <- Fu, <- Cu in *.
    destruct (fetch_live fuel p (cm_exclude cm) (ds_folder s) w1 k u1 u stack d n depth (working_ok _ Wo) Ou Pu (no_coll_incl _ _ I NC) L Sto St' F2 Hs Wk Dd Fr) as (v2 & G & _). eauto.
  Qed.
  (** C67 *)
  Lemma print_tree_done m : forall w w', print_tree m w = (Done tt, w') -> alike w w' /\ says w w' (map item_event m).
  Proof.
    induction m as [|[p [k d]] m IH]; intros w w' H; cbn [print_tree] in H; [apply ret_done in H as [_ ->]; split; [apply alike_ticked, ticked_refl|reflexivity]|].
    apply bind_done in H as ([] & w1 & H1 & H). apply printed in H1 as [A1 O1]. apply IH in H as [A2 O2]. split; [eapply alike_trans; eassumption|].
    cbn [map]. match goal with |- says _ _ (?x :: ?l) => change (x :: l) with ([x] ++ l) end. eapply says_trans; [|exact O2]. unfold says. rewrite O1. reflexivity.
  Qed.
  Theorem walk_tree_works cm w s w1 ki w2 : reachable w -> starts cm w (Some s) w1 -> (forall k, denotes w1 ki k -> tidy w1 k) ->
    run_command cm (Some s) (CWalkTree ki) w1 = (Done tt, w2) ->
    exists k m, denotes w1 ki k /\ NoDup (map fst m) /\ (forall q k' d, In (q, (k', d)) m <-> exists x, q = named x /\ in_tree w1 k x k' d) /\
      untouched w1 w2 /\ says w1 w2 (map item_event m).
  Proof.
    intros R S Td H. cbn [run_command with_ds] in H. unfold cmd_walk_tree in H. apply bind_done in H as (k & v1 & H1 & H). apply canon_done in H1 as [T1 D]; [|exact (started_ok _ _ _ _ R S)].
    apply bind_done in H as (m & v2 & H2 & H). apply (walk_tree w1) in H2 as (T2 & _ & N & L); [|apply cur_ticked, T1|apply Td, D]. apply print_tree_done in H as [A Sy].
    pose proof (ticked_trans _ _ _ T1 T2) as T. exists k, m. split; [exact D|]. split; [exact N|]. split; [exact L|]. split; [apply alike_untouched; eapply alike_trans; [apply alike_ticked, T|exact A]|].
    unfold says in *. rewrite Sy, (ticked_out _ _ T). reflexivity.
  Qed.
End OutFacts.
