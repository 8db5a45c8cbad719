(** A branch that was only extended by [commit] is the ancestry of its newest commit. *)
From Coq Require Import RelationClasses.
From Verif Require Import Base Key Keyish Cbor Object Path World Store File Filter Dir Diff Commit Main
  BaseFacts KeyFacts CborFacts ObjectFacts WorldFacts TableFacts SpecStore SpecResolve ResolveFacts StoreFacts ObjStoreFacts
  Frame DbRel SpecRun SpecProc SpecDir Integrity SpecClosure Closure SortFacts FsFacts DirPlan DirFacts ProcFacts SpecDiff SpecShow SpecText SpecCmd SpecOut FileRun ShowFacts
  OutFacts SpecShape ShapeFacts ShapeTop CmdFacts Screen SpecScreen ScreenFacts SpecBranch.

Section Branch.
  Context {E : Env}.
  Local Notation ds := sqlite_ds.

  Lemma commit_at_le d d' k c : le d d' -> commit_at d k c -> commit_at d' k c.
  Proof. intros L (o & O & H). exists o. split; [eapply object_le; eauto|exact H]. Qed.
  Lemma linked_le d d' l : le d d' -> linked d l -> linked d' l.
  Proof. intros L. induction 1; [constructor|eapply linked_root|eapply linked_step]; eauto using commit_at_le. Qed.
  Lemma linked_cons d k c l : commit_at d k c -> c_parents c = firstn 1 l -> linked d l -> linked d (k :: l).
  Proof. intros C P L. destruct l as [|p l]; [eapply linked_root|eapply linked_step]; eauto. Qed.

  Context (n : bytes).
  Definition lk (d : db) : Prop := linked d (history n None (repo_of d)).
  Lemma lk_empty : lk db_empty. Proof. constructor. Qed.
  Lemma lk_state f d : lk d -> lk (upd_state f d).
  Proof. intro L. exact (linked_le d (upd_state f d) _ (fun _ _ H => H) L). Qed.
  Lemma lk_put k v d : lk d -> lk (upd_data (insert_or_ignore k v) d).
  Proof. intro L. exact (linked_le d (upd_data (insert_or_ignore k v) d) _ (le_put k v d) L). Qed.
  Definition pushed (d : db) (m : bytes) (r : option bytes) (k : key) : db :=
    upd_reflog (fun rows => rows ++ [Row (next_id rows) m r (as_db_key k)]) d.
  Lemma pushed_log d m r k : rp_log (repo_of (pushed d m r k)) = Push m r k :: rp_log (repo_of d).
  Proof.
    unfold repo_of, pushed. cbn [upd_reflog d_data d_state d_reflog rp_objects rp_head rp_log]. rewrite map_app, rev_app_distr. cbn [map rev app].
    unfold push_of at 1. cbn [r_name r_remote r_key]. rewrite from_as_db_key. reflexivity.
  Qed.
  Lemma lk_other d m r k : m <> n \/ r <> None -> lk d -> lk (pushed d m r k).
  Proof.
    intros N L. unfold lk. rewrite (pushed_history n None _ _ _ (pushed_log d m r k)).
    replace (pushed_under n None (Push m r k)) with false.
    - exact (linked_le d (pushed d m r k) _ (fun _ _ H => H) L).
    - unfold pushed_under. cbn [ph_name ph_remote]. destruct N as [N|N].
      + destruct (bytes_eqb m n) eqn:Q; [apply bytes_eqb_eq in Q; congruence|reflexivity].
      + destruct r; [destruct (bytes_eqb m n); reflexivity|congruence].
  Qed.
  Lemma lk_extend d k c : commit_at d k c -> c_parents c = firstn 1 (history n None (repo_of d)) -> lk d -> lk (pushed d n None k).
  Proof.
    intros C P L. unfold lk. rewrite (pushed_history n None _ _ _ (pushed_log d n None k)).
    replace (pushed_under n None (Push n None k)) with true by (unfold pushed_under; cbn [ph_name ph_remote]; rewrite bytes_eqb_refl; reflexivity).
    apply (linked_le d (pushed d n None k) _ (fun _ _ H => H)). eapply linked_cons; eauto.
  Qed.

  (** ** In every database, and in the transaction *)
  Definition chained (w : world) : Prop := no_coll (w_hashed w) ->
    (forall l, lk (db_at (w_dbs w) l)) /\ match w_txn w with TxnDirty d => lk d | _ => True end.
  Definition ch_rel (w w' : world) : Prop := chained w -> chained w'.
  Lemma chained_cur w : chained w -> no_coll (w_hashed w) -> lk (cur_db w).
  Proof. intros T NC. destruct (T NC) as [H1 H2]. unfold cur_db. destruct (w_txn w); [apply H1|apply H1|exact H2]. Qed.
  Lemma dbs_set_lk dbs l d : (forall x, lk (db_at dbs x)) -> lk d -> forall x, lk (db_at (assoc_set l d dbs) x).
  Proof. intros H1 H2 x. rewrite db_at_set. destruct (names_eqb l x); auto. Qed.
  Lemma chained_put w d : chained w -> (no_coll (w_hashed w) -> lk d) -> chained (put_db d w).
  Proof.
    intros T H NC. assert (NC' : no_coll (w_hashed w)) by (unfold put_db in NC; destruct (w_txn w); exact NC). specialize (H NC').
    destruct (T NC') as [H1 H2]. unfold put_db. destruct (w_txn w) eqn:Et; (split; [|cbn; try rewrite Et; auto]); cbn; auto.
    apply dbs_set_lk; auto.
  Qed.
  Lemma ch_same w w' : same_db w w' -> ch_rel w w'.
  Proof. intros (H1 & H2 & H3 & H4) T NC. rewrite H4 in NC. destruct (T NC) as [W1 W2]. split; [rewrite H1; exact W1|rewrite H3; exact W2]. Qed.
  #[local] Instance ch_DbRel : DbRel ch_rel.
  Proof.
    constructor.
    - intros a b c H K W. auto.
    - intros w w' H _. apply ch_same, H.
    - intros w T NC. destruct (T NC) as [H1 H2]. split; [exact H1|exact I].
  Qed.
  #[local] Instance ch_DbOnly : DbOnly ch_rel.
  Proof. constructor. intros w w'. apply ch_same. Qed.
  #[local] Instance ch_DbProc : DbProc ch_rel.
  Proof.
    constructor.
    - intros w _ T NC. destruct (T NC) as [W1 W2]. split; [exact W1|exact I].
    - intros w T NC. assert (NC' : no_coll (w_hashed w)) by (unfold commit_now in NC; destruct (w_txn w); exact NC).
      pose proof (chained_cur w T NC') as C. destruct (T NC') as [W1 W2]. unfold commit_now, cur_db in *.
      destruct (w_txn w); (split; [|exact I]); auto. cbn. apply dbs_set_lk; auto.
  Qed.
  #[local] Instance ch_DbOpen : DbOpen ch_rel.
  Proof.
    constructor.
    - intros w p l w' H. unfold open_db_eff in H. destruct (resolve _ _ p) as [l0|]; [|discriminate].
      destruct (p_slash p); [discriminate|]. destruct (lookup (w_fs w) l0) as [[|c st| |]|]; try discriminate.
      + destruct (assoc_loc l0 (w_dbs w)); [inv H; intro; assumption|]. destruct c; inv H.
        intros T NC. destruct (T NC) as [W1 W2]. split; [|exact W2]. cbn. apply dbs_set_lk; [exact W1|apply lk_empty].
      + inv H. intros T NC. destruct (T NC) as [W1 W2]. split; [|exact W2]. cbn. apply dbs_set_lk; [exact W1|apply lk_empty].
    - intros w l T NC. destruct (T NC) as [W1 W2]. split; [exact W1|exact I].
    - intros w l h T NC. destruct (T NC) as [W1 W2]. split; [|exact W2]. cbn [set_dbs w_dbs]. apply dbs_set_lk; [exact W1|].
      apply lk_state, W1.
  Qed.
  Lemma ch_hash w d : ch_rel w (set_hashed w (d :: w_hashed w)).
  Proof. intros T NC. apply T. eapply coll_incl; [|exact NC]. cbn. apply incl_tl, incl_refl. Qed.
  #[local] Instance ch_DbPut : DbPut ch_rel.
  Proof.
    constructor; [intros; apply ch_hash|]. intros w d T. apply chained_put; [apply ch_hash, T|].
    intro NC. apply lk_put. apply chained_cur; [exact T|]. eapply coll_incl; [|exact NC]. cbn. apply incl_tl, incl_refl.
  Qed.
  Lemma ch_write (u : db -> db) P : (forall d, P d -> lk d -> lk (u d)) ->
    forall w, chained w -> (no_coll (w_hashed w) -> P (cur_db w)) -> chained (snd (db_write u w)).
  Proof.
    intros H2 w I p. unfold db_write.
    match goal with |- context [op ?e ?x] => destruct (op_case e x) as (f & w1 & H & T) end. rewrite H. clear H.
    assert (I1 : chained w1) by (eapply ch_same; [apply ticked_same, T|exact I]).
    assert (I2 : chained (put_db (u (cur_db w1)) w1)).
    { apply chained_put; [exact I1|]. intro NC. destruct T as (t & r & ->). apply H2; [apply p, NC|exact (chained_cur _ I1 NC)]. }
    destruct f as [|m| |[|m]]; try exact I1; try exact I2. apply (dr_lost (R := ch_rel)), I1.
  Qed.
  Lemma ch_head h : rel ch_rel (put_head ds h).
  Proof. intros w I. apply (ch_write _ (fun _ => True)); [intros; apply lk_state; assumption|exact I|trivial]. Qed.
  Lemma ch_push m k r w : m <> n \/ r <> None -> chained w -> chained (snd (reflog_push ds (Reflog m k r) w)).
  Proof. intros N I. apply (ch_write _ (fun _ => True)); [intros d _; apply lk_other, N|exact I|trivial]. Qed.

  (** ** The commands *)
  Lemma commit_at_is w k c : is_commit w k c -> commit_at (cur_db w) k c.
  Proof. intros (o & R & H). exists o. split; [apply reads_object, R|exact H]. Qed.
  Lemma ch_commit cm s p m r w : utf8_valid m = true -> world_ok w -> chained w -> chained (snd (cmd_commit cm s p m r w)).
  Proof.
    intros U W T. unfold cmd_commit, make_filter_fn. destruct (forallb glob_valid (cm_exclude cm)); [|exact T].
    unfold bind at 1, ret at 1. cbv beta iota zeta. set (path0 := match p with Some q => q | None => ds_repo s end). set (f := filter_fn (cm_exclude cm) (ds_folder s)).
    unfold bind at 1. pose proof (rel_refname_or_head ch_rel r w T) as T1. destruct (refname_or_head r w) as [[name| | | |] w1] eqn:H1; try exact T1. cbn [snd] in T1.
    assert (Tk1 : ticked w w1) by (apply branch_done in H1 as [X _]; exact X).
    assert (W1 : world_ok w1) by (exact (dr_ticked ok_rel w w1 Tk1 W)).
    unfold bind at 1. pose proof (rel_try ch_rel _ (rel_reflog_get ch_rel name None) w1 T1) as T2. destruct (try (reflog_get ds name None) w1) as [[got| | | |] w2] eqn:H2; try exact T2. cbn [snd] in T2.
    unfold bind at 1. destruct (match got with Ok k => ret [k] | Err ERefNotFound => ret [] | Err e => fail e end w2) as [[parents| | | |] w3] eqn:H3;
      try (destruct got as [|[]]; inv H3; exact T2).
    assert (P : ticked w1 w3 /\ parents = firstn 1 (history name None (repo_of (cur_db w1)))).
    { apply try_done in H2 as [(k0 & -> & H2)|(e & -> & H2)].
      - apply ret_done in H3 as [-> ->]. apply latest_done in H2 as [X (l & ->)]; [|exact W1]. auto.
      - destruct e; try discriminate H3. apply ret_done in H3 as [-> ->]. apply latest_none in H2 as [X ->]; [|exact W1]. auto. }
    destruct P as [Tk3 ->]. assert (W3 : world_ok w3) by (exact (dr_ticked ok_rel w1 w3 Tk3 W1)). assert (T3 : chained w3) by (exact (dr_ticked ch_rel w1 w3 Tk3 T1)).
    rewrite <- (cur_ticked _ _ Tk3). clear H1 H2 H3 Tk1 Tk3 W1 T1 T2 W T.
    unfold bind at 1. pose proof (rel_put_fs_item ch_rel stack f (fun x => rel_filter_fn ch_rel _ _ x) path0 w3 T3) as T4.
    pose proof (rel_put_fs_item ok_rel stack f (fun x => rel_filter_fn ok_rel _ _ x) path0 w3 W3) as W4.
    destruct (put_fs_item ds stack path0 f w3) as [[tree| | | |] w4] eqn:H4; try exact T4. cbn [snd] in T4, W4.
    unfold bind. pose proof (rel_commit_tree ch_rel tree (firstn 1 (history name None (repo_of (cur_db w3)))) (Attrs m []) w4 T4) as T5.
    destruct (commit_tree ds tree (firstn 1 (history name None (repo_of (cur_db w3)))) (Attrs m []) w4) as [[k| | | |] w5] eqn:H5; try exact T5. cbn [snd] in T5.
    destruct (bytes_eqb name n) eqn:Q; [apply bytes_eqb_eq in Q; subst name|apply ch_push; [left; intros ->; rewrite bytes_eqb_refl in Q; discriminate|exact T5]].
    apply (ch_write _ (fun d => exists c, commit_at d k c /\ c_parents c = firstn 1 (history n None (repo_of d)))); [intros d (c & C & Pc); apply (lk_extend d k c C Pc)|exact T5|].
    intro NC. pose proof (stores_item _ _ _ _ _ _ _ H4) as ((S4 & _) & _). pose proof H5 as H5'. rewrite commit_tree_eq in H5'. pose proof (stores_put _ _ _ _ H5') as ((S5 & _) & _).
    assert (AF : attrs_fits (Attrs m [])).
    { apply put_obj_key in H5' as [_ F]. apply fits_data in F. split; [|split; [exact U|]].
      - eapply N.le_lt_trans; [apply attrs_len|exact F].
      - apply wf_map. split; [reflexivity|constructor]. }
    exists (Commit tree (firstn 1 (history n None (repo_of (cur_db w3)))) (Attrs m [])). split.
    - pose proof (commit_tree_done _ _ _ _ _ _ W4 NC AF H5) as C. rewrite sort_short in C by (rewrite firstn_length; lia). apply commit_at_is, C.
    - cbn [c_parents]. f_equal. unfold history, repo_of. cbn [rp_log]. rewrite S5, S4. reflexivity.
  Qed.
  Lemma ch_checkout_head cm s m : rel ch_rel (cmd_checkout_head cm s m).
  Proof.
    unfold cmd_checkout_head. apply rel_bind; [exact _|apply rel_head_or_fail; exact _|]. intro name.
    apply rel_bind; [exact _|apply rel_try, rel_reflog_get; exact _|]. intro got.
    apply rel_bind; [exact _| |].
    { destruct got; [|apply rel_ret; exact _]. apply rel_bind; [exact _|apply rel_commit_from_key; exact _|]. intro. apply rel_ret; exact _. }
    intro t. apply rel_bind; [exact _|apply rel_compare; exact _|]. intro r. destruct (diff_result_empty r).
    - apply rel_bind; [exact _|apply ch_head|]. intro. apply rp_print.
    - apply rel_bind; [exact _|apply rp_print|]. intro. apply rel_print_diff_result; exact _.
  Qed.
  Lemma ch_ref_update k r w : world_ok w -> ~ branch_of r (repo_of (cur_db w)) n -> chained w -> chained (snd (cmd_ref_update k r w)).
  Proof.
    intros W N T. unfold cmd_ref_update. unfold bind at 1. pose proof (rel_canonicalize ch_rel k w T) as T1. destruct (canonicalize ds k w) as [[key| | | |] w1] eqn:H1; try exact T1. cbn [snd] in T1.
    apply canon_done in H1 as [Tk _]; [|exact W]. unfold bind. pose proof (rel_refname_or_head ch_rel r w1 T1) as T2. destruct (refname_or_head r w1) as [[name| | | |] w2] eqn:H2; try exact T2. cbn [snd] in T2.
    apply branch_done in H2 as [_ B]. apply ch_push; [|exact T2]. left. intros ->. apply N. rewrite (cur_ticked _ _ Tk) in B. exact B.
  Qed.
  Lemma ch_reflog_push k m r w : m <> n \/ r <> None -> chained w -> chained (snd (cmd_reflog_push k m r w)).
  Proof.
    intros N T. unfold cmd_reflog_push, bind. pose proof (rel_canonicalize ch_rel k w T) as T1. destruct (canonicalize ds k w) as [[key| | | |] w1]; try exact T1.
    apply ch_push; [exact N|exact T1].
  Qed.
  Lemma ch_run_command cm st c w : world_ok w -> text_message c -> ~ sets_by_hand n w c -> chained w -> chained (snd (run_command cm st c w)).
  Proof.
    intros W X N T. destruct c; cbn [run_command]; unfold with_ds; try (destruct st as [s|]; [|exact T]).
    - apply (rel_cmd_insert ch_rel), T.
    - apply ch_commit; assumption.
    - apply (rel_cmd_fetch ch_rel), T.
    - apply (rel_cmd_pretty_print ch_rel), T.
    - apply (rel_cmd_commit_tree ch_rel), T.
    - apply (rel_cmd_reflog_get ch_rel), T.
    - apply ch_reflog_push; [|exact T]. cbn [sets_by_hand] in N. destruct remote; [right; discriminate|left; exact N].
    - apply (rel_cmd_walk_tree ch_rel), T.
    - apply (rel_cmd_walk_fs_tree ch_rel), T.
    - apply ch_head, T.
    - apply (rel_cmd_get_head ch_rel), T.
    - assert (R : rel ch_rel (cmd_init cm)) by (unfold cmd_init; apply rel_bind; [exact _|apply fp_mkdir|intro; apply pc_open_init]). apply R, T.
    - apply (rel_cmd_show ch_rel), T.
    - apply (rel_cmd_log ch_rel), T.
    - apply (rel_cmd_compare ch_rel), T.
    - apply (rel_cmd_status ch_rel), T.
    - apply (rel_cmd_checkout ch_rel), T.
    - apply ch_checkout_head, T.
    - apply (rel_cmd_ref_log ch_rel), T.
    - apply ch_ref_update; assumption.
  Qed.
  Lemma ch_finish st r : rel ch_rel (finish st r).
  Proof.
    unfold finish. destruct r; repeat (apply rel_bind; [exact _| |intros _]).
    - apply rel_ignore_on; [exact _|apply pc_commit].
    - apply pc_cache_commit.
    - apply rp_print.
    - apply rel_ignore_on; [exact _|apply pc_rollback].
    - apply pc_cache_rollback.
  Qed.
  Lemma ch_setup cm : rel ch_rel (setup cm).
  Proof.
    unfold setup. apply rel_bind; [exact _|apply rel_open_repo; exact _|intro st]. apply rel_bind; [exact _|apply rel_open_cache; exact _|intros _].
    apply rel_bind; [exact _|apply rel_ignore_on; [exact _|apply pc_begin]|intros _]. apply rel_bind; [exact _|apply pc_cache_begin|intros _]. apply rel_ret; exact _.
  Qed.
  Lemma ok_setup cm : rel ok_rel (setup cm).
  Proof.
    unfold setup. apply rel_bind; [exact _|apply rel_open_repo; exact _|intro st]. apply rel_bind; [exact _|apply rel_open_cache; exact _|intros _].
    apply rel_bind; [exact _|apply rel_ignore_on; [exact _|apply pc_begin]|intros _]. apply rel_bind; [exact _|apply pc_cache_begin|intros _]. apply rel_ret; exact _.
  Qed.
  Lemma ch_process cm c w : world_ok (close_all w) -> chained (close_all w) -> text_message c ->
    (forall st w1, starts cm w st w1 -> ~ sets_by_hand n w1 c) -> chained (close_all (snd (run_process cm c w))).
  Proof.
    intros W I X H. unfold run_process. rewrite main_split. unfold bind at 1.
    pose proof (ch_setup cm (close_all w) I) as I1. pose proof (ok_setup cm (close_all w) W) as W1. destruct (setup cm (close_all w)) as [os w1] eqn:S.
    assert (G : chained (snd (match os with Done st => bind (try (run_command cm st c)) (finish st) w1 | Error e => (Error e, w1) | Panicked e => (Panicked e, w1)
      | Crashed => (Crashed, w1) | Diverged => (Diverged, w1) end))).
    { destruct os as [st| | | |]; try exact I1. unfold bind.
      assert (I2 : chained (snd (try (run_command cm st c) w1))).
      { unfold try. pose proof (ch_run_command cm st c w1 W1 X (H _ _ S) I1) as Y. destruct (run_command cm st c w1) as [[| | | |] w2]; exact Y. }
      destruct (try (run_command cm st c) w1) as [[r| | | |] w2]; try exact I2. apply ch_finish, I2. }
    destruct os; cbn [snd] in *;
      match goal with |- context [let '(o, w') := ?m in _] => destruct m as [o w'] end || idtac;
      (intro NC; destruct (G NC) as [G4 G5]; split; [exact G4|exact Logic.I]).
  Qed.
End Branch.

Section Top.
  Context {E : Env}.
  Lemma grown_reachable n w : grown n w -> reachable w.
  Proof. induction 1; [apply reach_start|apply reach_process|eapply reach_outside]; eassumption. Qed.
  Lemma grown_chained n w : grown n w -> chained n (close_all w).
  Proof.
    intro G. induction G as [w H|w cm c G IH X H|w w' G IH [H1 H2]].
    - intros _. split; [|exact I]. intro l. cbn. rewrite H. apply lk_empty.
    - apply ch_process; [|exact IH|exact X|exact H]. split; [exact (reachable_ok w (grown_reachable n w G))|exact I].
    - intro NC. cbn in NC. rewrite H2 in NC. destruct (IH NC) as [Y _]. split; [|exact I]. intro l. cbn. rewrite H1. apply Y.
  Qed.
  Theorem grown_linked n w l : grown n w -> no_coll (w_hashed w) -> linked (db_at (w_dbs w) l) (history n None (repo_of (db_at (w_dbs w) l))).
  Proof. intros G NC. destruct (grown_chained n w G NC) as [H _]. apply H. Qed.
  Theorem started_linked n cm w st w1 : grown n w -> starts cm w st w1 -> no_coll (w_hashed w1) -> linked (cur_db w1) (history n None (repo_of (cur_db w1))).
  Proof.
    intros G S NC. pose proof (ch_setup n cm _ (grown_chained n w G)) as X. unfold starts in S. rewrite S in X. exact (chained_cur n w1 X NC).
  Qed.
  Lemma commit_at_reads w k c : commit_at (cur_db w) k c -> is_commit w k c.
  Proof. intros (o & O & H). exists o. split; [apply reads_object, O|exact H]. Qed.
  Lemma is_reads w k c : is_commit w k c -> reads_commit w k c.
  Proof. intros (o & R & _ & C). exists o. auto. Qed.
  Lemma linked_lineage w ks : linked (cur_db w) ks -> forall k l, ks = k :: l -> lineage w k (k :: l).
  Proof.
    induction 1 as [|k c C P|k c p l C P L IH]; intros k0 l0 Q; inv Q.
    - eapply lin_root; [apply is_reads, commit_at_reads, C|exact P].
    - eapply lin_step; [apply is_reads, commit_at_reads, C|exact P|apply IH; reflexivity].
  Qed.
  Lemma linked_suffix d a b : linked d (a ++ b) -> linked d b.
  Proof.
    induction a as [|x a IH]; [auto|]. cbn. intro H. apply IH. inversion H as [|? ? ? ? Q|? ? ? ? ? ? L Q]; [constructor|exact L].
  Qed.
  Lemma linked_once w ks : linked (cur_db w) ks -> NoDup ks.
  Proof.
    induction ks as [|k ks IH]; intro L; [constructor|]. constructor; [|apply IH, (linked_suffix _ [k]), L]. intro I.
    apply in_split in I as (a & b & Q). pose proof (linked_lineage w _ L k ks eq_refl) as L1.
    assert (L2 : linked (cur_db w) (k :: b)) by (rewrite Q in L; exact (linked_suffix _ (k :: a) (k :: b) L)).
    pose proof (linked_lineage w _ L2 k b eq_refl) as L3. pose proof (lineage_fun _ _ _ L1 _ L3) as F. inversion F as [F']. rewrite Q in F'. apply (f_equal (@length key)) in F'. rewrite app_length in F'. cbn in F'. lia.
  Qed.
  Lemma linked_nodup (w : world) d ks : linked d ks -> NoDup ks.
  Proof. exact (linked_once (set_txn w (TxnDirty d)) ks). Qed.
  Theorem newest_lineage n cm w st w1 k l : grown n w -> starts cm w st w1 -> no_coll (w_hashed w1) -> history n None (repo_of (cur_db w1)) = k :: l ->
    lineage w1 k (k :: l) /\ (forall k', In k' (k :: l) -> exists c, is_commit w1 k' c) /\ NoDup (k :: l).
  Proof.
    intros G S NC H. pose proof (started_linked n cm w st w1 G S NC) as L. rewrite H in L. split; [apply (linked_lineage w1 _ L k l eq_refl)|]. split; [|apply (linked_once w1), L].
    clear - L. revert L. generalize (k :: l) as ks. induction 1 as [|k0 c C P|k0 c p l0 C P L IH]; intros k' I.
    - destruct I.
    - destruct I as [<-|[]]. exists c. apply commit_at_reads, C.
    - destruct I as [<-|I]; [exists c; apply commit_at_reads, C|apply IH, I].
  Qed.
  Lemma later_history n rm l w w' : later l w w' -> exists more,
    history n rm (repo_of (db_at (w_dbs w') l)) = more ++ history n rm (repo_of (db_at (w_dbs w) l)).
  Proof.
    intro L. destruct (later_grows l w w' L) as [_ (rows & Q)]. unfold history, repo_of. cbn [rp_log]. rewrite Q, map_app, rev_app_distr, filter_app, map_app. eauto.
  Qed.
  Theorem ancestor n cm l w w' st w1 k : grown n w' -> later l w w' -> In k (history n None (repo_of (db_at (w_dbs w) l))) ->
    starts cm w' st w1 -> cur_db w1 = db_at (w_dbs w') l -> no_coll (w_hashed w1) ->
    exists newest ancestry, hd_error (history n None (repo_of (cur_db w1))) = Some newest /\ lineage w1 newest ancestry /\ In k ancestry.
  Proof.
    intros G L I S C NC. destruct (later_history n None l w w' L) as (more & Q). destruct (history n None (repo_of (cur_db w1))) as [|x r] eqn:H.
    - rewrite C in H. rewrite H in Q. destruct more; [change ([] = history n None (repo_of (db_at (w_dbs w) l))) in Q; rewrite <- Q in I; destruct I|discriminate].
    - destruct (newest_lineage n cm w' st w1 x r G S NC H) as (Li & _). exists x, (x :: r). split; [reflexivity|]. split; [exact Li|]. rewrite <- H, C, Q. apply in_app_iff. right. exact I.
  Qed.
  Theorem log_is_history {F : Fmt} n cm w s w1 w2 : grown n w -> well_used w -> starts cm w (Some s) w1 -> no_coll (w_hashed w1) -> rp_head (repo_of (cur_db w1)) = Some n ->
    run_command cm (Some s) (CLog None) w1 = (Done tt, w2) ->
    exists blocks, Forall2 (summary w1) (history n None (repo_of (cur_db w1))) blocks /\ writes_lines w1 w2 (concat blocks).
  Proof.
    intros G U S NC H R. destruct (ScreenFacts.log_shows cm w s w1 None w2 U S NC R) as (key & l & bl & (m & r & Hm & Hr) & Li & Fb & Wr).
    rewrite H in Hm. injection Hm as <-. destruct (newest_lineage n cm w _ w1 key r G S NC Hr) as (Li' & _). rewrite (lineage_fun _ _ _ Li' _ Li) in Fb. exists bl. rewrite Hr. auto.
  Qed.
End Top.
