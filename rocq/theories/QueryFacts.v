(** What commands may do to the database of the repository. *)
From Coq Require Import RelationClasses.
From Verif Require Import Base BaseFacts Key Keyish Object Path World WorldFacts Store File Filter Dir Diff Commit Main SpecStore StoreCalls SpecRun SpecProc
  Frame DbRel Integrity ObjStoreFacts SessionFacts FsFacts SnapFacts ProcFacts TableFacts.

Section QueryFacts.
  Context {E : Env}.

  Section By.
    Context (Q : db -> db -> Prop) {PQ : PreOrder Q}.
    Definition txn_by (w : world) : Prop := match w_txn w with TxnDirty d => Q (disk w) d | _ => True end.
    (** Every database evolves according to [Q]. *)
    Definition by_rel (w w' : world) : Prop := txn_by w -> txn_by w' /\ forall l, Q (db_at (w_dbs w) l) (db_at (w_dbs w') l).
    #[export] Instance by_DbRel : DbRel by_rel.
    Proof.
      constructor.
      - intros a b c H K T. destruct (H T) as [T1 L1]. destruct (K T1) as [T2 L2]. split; [exact T2|]. intro l. etransitivity; eauto.
      - intros w w' (A & B & C & D) _ T. unfold txn_by, disk in *. rewrite A, B, C. split; [exact T|]. intro l. reflexivity.
      - intros w T. split; [exact I|]. intro l. reflexivity.
    Qed.
    #[export] Instance by_DbOnly : DbOnly by_rel.
    Proof. constructor. intros w w' (A & B & C & D) T. unfold txn_by, disk in *. rewrite A, B, C. split; [exact T|]. intro l. reflexivity. Qed.
    Lemma by_put w d : Q (cur_db w) d -> by_rel w (put_db d w).
    Proof.
      intros H T. unfold put_db, cur_db, txn_by in *. destruct (w_txn w) eqn:Et; cbn.
      - rewrite Et. split; [exact I|]. intro l. rewrite db_at_set. destruct (names_eqb (w_conn w) l) eqn:El; [|reflexivity]. apply names_eqb_eq in El. subst. exact H.
      - split; [exact H|]. intro. reflexivity.
      - split; [|intro; reflexivity]. rewrite disk_set_txn. etransitivity; eauto.
    Qed.
    Lemma by_commit w : by_rel w (commit_now w).
    Proof.
      intros T. unfold commit_now, txn_by in *. destruct (w_txn w) eqn:Et; cbn; (split; [exact I|]); try reflexivity.
      intro l. rewrite db_at_set. destruct (names_eqb (w_conn w) l) eqn:El; [|reflexivity]. apply names_eqb_eq in El. subst. exact T.
    Qed.
    #[export] Instance by_DbProc : DbProc by_rel.
    Proof. constructor; [|intro; apply by_commit]. intros w _ T. split; [exact I|]. intro. reflexivity. Qed.
    Lemma by_finish st r : rel by_rel (finish st r).
    Proof.
      destruct r as [[]|e]; cbn [finish]; (apply rel_bind; [exact _| |intros _]).
      - apply rel_ignore_on; [exact _|apply pc_commit].
      - apply pc_cache_commit.
      - apply rp_print.
      - apply rel_bind; [exact _|apply rel_ignore_on; [exact _|apply pc_rollback]|intros _; apply pc_cache_rollback].
    Qed.
    (** A process whose command respects [Q] does. *)
    Lemma process_by cm c w l : (forall st, rel by_rel (run_command cm st c)) -> there w l ->
      Q (db_at (w_dbs w) l) (db_at (w_dbs (snd (run_process cm c w))) l).
    Proof.
      intros H TH. unfold run_process. rewrite main_split. unfold bind at 1. destruct (setup cm (close_all w)) as [os w1] eqn:Es.
      assert (B1 : db_at (w_dbs w1) l = db_at (w_dbs w) l).
      { pose proof (before_setup cm (close_all w)) as X. rewrite Es in X. apply X. exact TH. }
      rewrite <- B1. destruct os as [st| | | |]; try (cbn; reflexivity).
      assert (T1 : txn_by w1).
      { unfold txn_by. destruct (w_txn w1) eqn:Tx; auto. destruct (setup_txn _ _ _ _ Es) as [_ N]. destruct (N _ Tx). }
      assert (R : rel by_rel (bind (try (run_command cm st c)) (finish st))).
      { apply rel_bind; [exact _|apply rel_try, H|intro r; apply by_finish]. }
      destruct (R w1 T1) as [_ L]. destruct (bind _ _ w1) as [o w']. apply L.
    Qed.
  End By.

  (** *** Queries *)
  Lemma by_query cm st c : is_query c = true -> rel (by_rel eq) (run_command cm st c).
  Proof.
    destruct c; cbn [is_query]; intro H; try discriminate H; cbn [run_command]; try (apply rel_cmd_walk_fs_tree; exact _);
      unfold with_ds; (destruct st as [s|]; [|apply rel_fail; exact _]).
    - apply rel_cmd_fetch; exact _.
    - apply rel_cmd_pretty_print; exact _.
    - apply rel_cmd_reflog_get; exact _.
    - apply rel_cmd_walk_tree; exact _.
    - apply rel_cmd_get_head; exact _.
    - apply rel_cmd_show; exact _.
    - apply rel_cmd_log; exact _.
    - apply rel_cmd_checkout; exact _.
    - apply rel_cmd_ref_log; exact _.
  Qed.
  Theorem query_unchanged cm c w l : is_query c = true -> there w l ->
    db_at (w_dbs (snd (run_process cm c w))) l = db_at (w_dbs w) l.
  Proof. intros Q T. symmetry. apply process_by; [exact _| |exact T]. intro st. apply by_query, Q. Qed.

  (** *** Commands that only store objects *)
  #[export] Instance adds_pre : PreOrder adds_objects.
  Proof. split; [intro d; repeat split; auto|]. intros a b c (A & B & C) (A' & B' & C'). split; [congruence|]. split; [congruence|]. auto. Qed.
  Lemma adds_put k v d : adds_objects d (upd_data (insert_or_ignore k v) d).
  Proof. split; [reflexivity|]. split; [reflexivity|]. intros k' v' H. cbn. rewrite assoc_ignore, H. reflexivity. Qed.
  #[export] Instance adds_DbPut : DbPut (by_rel adds_objects).
  Proof.
    constructor.
    - intros w d T. split; [exact T|]. intro. reflexivity.
    - intros w d. apply (by_put adds_objects (set_hashed w (d :: w_hashed w))). apply adds_put.
  Qed.
  Lemma by_adds cm st c : only_adds c = true -> rel (by_rel adds_objects) (run_command cm st c).
  Proof.
    destruct c; cbn [only_adds]; intro H; try discriminate H; cbn [run_command]; unfold with_ds; (destruct st as [s|]; [|apply rel_fail; exact _]).
    - apply rel_cmd_insert; exact _.
    - apply rel_cmd_commit_tree; exact _.
    - apply rel_cmd_compare; exact _.
    - apply rel_cmd_status; exact _.
  Qed.
  Theorem adds_only cm c w l : only_adds c = true -> there w l ->
    adds_objects (db_at (w_dbs w) l) (db_at (w_dbs (snd (run_process cm c w))) l).
  Proof. intros Q T. apply process_by; [exact _| |exact T]. intro st. apply by_adds, Q. Qed.

  (** *** HEAD and log *)
  #[export] Instance sets_pre : PreOrder keeps_log.
  Proof. split; [intro d; repeat split; auto|]. intros a b c (A & B & C) (A' & B' & C'). split; [congruence|]. split; auto. intros k N. rewrite B', B; auto. Qed.
  Lemma assoc_replace_other k k' v l : k' <> k -> assoc k' (insert_or_replace k v l) = assoc k' l.
  Proof.
    intro N. unfold insert_or_replace.
    assert (X : forall m, assoc k' (ins_row k v m) = assoc k' m).
    { induction m as [|[a b] m IH]; cbn; [destruct (bytes_eqb k k') eqn:Eb; [apply bytes_eqb_eq in Eb; congruence|reflexivity]|].
      destruct (bytes_ltb k a); cbn; [destruct (bytes_eqb k k') eqn:Eb; [apply bytes_eqb_eq in Eb; congruence|reflexivity]|]. rewrite IH. reflexivity. }
    rewrite X. induction l as [|[a b] l IH]; [reflexivity|]. cbn. destruct (bytes_eqb a k) eqn:Ea; cbn.
    - apply bytes_eqb_eq in Ea. subst. rewrite IH. destruct (bytes_eqb k k') eqn:Eb; [apply bytes_eqb_eq in Eb; congruence|reflexivity].
    - rewrite IH. reflexivity.
  Qed.
  Lemma keeps_head h d : keeps_log d (upd_state (insert_or_replace (str "HEAD") h) d).
  Proof. split; [reflexivity|]. split; [|auto]. intros k N. cbn [upd_state d_state]. apply assoc_replace_other, N. Qed.
  Lemma keeps_put k v d : keeps_log d (upd_data (insert_or_ignore k v) d).
  Proof. split; [reflexivity|]. split; [reflexivity|]. intros k' v' H. cbn. rewrite assoc_ignore, H. reflexivity. Qed.
  #[export] Instance sets_DbPut : DbPut (by_rel keeps_log).
  Proof.
    constructor.
    - intros w d T. split; [exact T|]. intro. reflexivity.
    - intros w d. apply (by_put keeps_log (set_hashed w (d :: w_hashed w))). apply keeps_put.
  Qed.
  Lemma by_put_head h : rel (by_rel keeps_log) (put_head sqlite_ds h).
  Proof. apply DbRel_write; [exact _|]. intro w. apply by_put; [exact _|]. apply keeps_head. Qed.
  Lemma by_head cm st c : sets_head c = true -> rel (by_rel keeps_log) (run_command cm st c).
  Proof.
    destruct c; cbn [sets_head]; intro H; try discriminate H; cbn [run_command]; unfold with_ds; (destruct st as [s|]; [|apply rel_fail; exact _]).
    - apply by_put_head.
    - unfold cmd_checkout_head. apply rel_bind; [exact _|apply rel_head_or_fail; exact _|intro name]. apply rel_bind; [exact _|apply rel_try, rel_reflog_get; exact _|intro got].
      apply rel_bind; [exact _| |intro tree].
      + destruct got as [k|e]; [|apply rel_ret; exact _]. apply rel_bind; [exact _|apply rel_commit_from_key; exact _|intro; apply rel_ret; exact _].
      + apply rel_bind; [exact _|apply rel_compare; exact _|intro r]. destruct (diff_result_empty r).
        * apply rel_bind; [exact _|apply by_put_head|intros _; apply rp_print].
        * apply rel_bind; [exact _|apply rp_print|intros _; apply rel_print_diff_result; exact _].
  Qed.
  Theorem head_only cm c w l : sets_head c = true -> there w l ->
    keeps_log (db_at (w_dbs w) l) (db_at (w_dbs (snd (run_process cm c w))) l).
  Proof. intros Q T. apply process_by; [exact _| |exact T]. intro st. apply by_head, Q. Qed.
End QueryFacts.
