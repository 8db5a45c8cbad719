(** Invariants of the databases that hold in every reachable state, and
    immutability of stored objects. *)
From Verif Require Import Base BaseFacts Key Keyish Object Path World Store File Filter Dir Diff Commit Main
  WorldFacts Frame DbRel TableFacts KeyFacts StoreFacts SpecRun.
From Coq Require Import RelationClasses.

Section Integrity.
  Context {E : Env}.

  (** ** Integrity *)
  Record db_ok (log : list bytes) (d : db) : Prop := DbOk {
    dk_data : sorted_table (d_data d);
    dk_state : sorted_table (d_state d);
    dk_rows : rows_ok (d_reflog d);
    dk_hash : forall k v, In (k, v) (d_data d) -> k = as_db_key (Blake3B (blake3 v)) /\ In v log;
    dk_keys : forall r, In r (d_reflog d) -> exists k, r_key r = as_db_key k
  }.
  Definition world_ok (w : world) : Prop :=
    (forall l, db_ok (w_hashed w) (db_at (w_dbs w) l)) /\
    match w_txn w with TxnDirty d => db_ok (w_hashed w) d | _ => True end.

  Lemma db_ok_empty log : db_ok log db_empty.
  Proof. constructor; cbn; try (constructor; fail); intros; contradiction. Qed.
  Lemma db_ok_log log log' d : (forall x, In x log -> In x log') -> db_ok log d -> db_ok log' d.
  Proof.
    intros H []. constructor; auto. intros k v K. destruct (dk_hash0 k v K). auto.
  Qed.
  Lemma db_ok_put log d data : db_ok log d -> In data log ->
    db_ok log (upd_data (insert_or_ignore (as_db_key (Blake3B (blake3 data))) data) d).
  Proof.
    intros [] H. constructor; cbn; auto; [apply sorted_ignore; assumption|].
    intros k v K. apply In_ignore in K as [K|K]; [|auto]. inv K. auto.
  Qed.
  Lemma db_ok_state log d k v : db_ok log d -> db_ok log (upd_state (insert_or_replace k v) d).
  Proof. intros []. constructor; cbn; auto. apply sorted_replace; assumption. Qed.
  Lemma db_ok_push log d n r k : db_ok log d ->
    db_ok log (upd_reflog (fun rows => rows ++ [Row (next_id rows) n r (as_db_key k)]) d).
  Proof.
    intros []. constructor; cbn; auto; [apply rows_ok_push; assumption|].
    intros x H. apply in_app_iff in H as [H|[<-|[]]]; [auto|]. exists k. reflexivity.
  Qed.
  Lemma world_ok_disk w : world_ok w -> db_ok (w_hashed w) (disk w).
  Proof. intros [H _]. apply H. Qed.
  Lemma world_ok_cur w : world_ok w -> db_ok (w_hashed w) (cur_db w).
  Proof.
    intros [H1 H2]. unfold cur_db. destruct (w_txn w); [apply H1|apply H1|exact H2].
  Qed.
  Lemma dbs_set_ok log dbs l d : (forall x, db_ok log (db_at dbs x)) -> db_ok log d ->
    forall x, db_ok log (db_at (assoc_set l d dbs) x).
  Proof. intros H1 H2 x. rewrite db_at_set. destruct (names_eqb l x); auto. Qed.
  Lemma world_ok_put w d : world_ok w -> db_ok (w_hashed w) d -> world_ok (put_db d w).
  Proof.
    intros [H1 H2] H. unfold put_db. destruct (w_txn w) eqn:Et; (split; [|cbn; try rewrite Et; auto]); cbn; auto.
    apply dbs_set_ok; auto.
  Qed.

  Definition ok_rel (w w' : world) : Prop := world_ok w -> world_ok w'.
  #[export] Instance ok_DbRel : DbRel ok_rel.
  Proof.
    constructor.
    - intros a b c H K W. auto.
    - intros w w' (H1 & H2 & H3 & H4) _ [W1 W2]. split; [rewrite H1, H4; exact W1|rewrite H3, H4; exact W2].
    - intros w [W1 W2]. split; [exact W1|exact I].
  Qed.
  #[export] Instance ok_DbOnly : DbOnly ok_rel.
  Proof.
    constructor. intros w w' (H1 & H2 & H3 & H4) [W1 W2].
    split; [rewrite H1, H4; exact W1|rewrite H3, H4; exact W2].
  Qed.
  Lemma world_ok_hash w d : world_ok w -> world_ok (set_hashed w (d :: w_hashed w)).
  Proof.
    intros [W1 W2]. split; cbn.
    - intro l. eapply db_ok_log; [|apply W1]. intros; right; assumption.
    - destruct (w_txn w); auto. eapply db_ok_log; [|apply W2]. intros; right; assumption.
  Qed.
  #[export] Instance ok_DbPut : DbPut ok_rel.
  Proof.
    constructor.
    - intros w d W. apply world_ok_hash, W.
    - intros w d W. apply (world_ok_hash w d) in W.
      apply world_ok_put; [exact W|]. apply db_ok_put; [|left; reflexivity]. apply world_ok_cur in W. exact W.
  Qed.
  #[export] Instance ok_DbRefs : DbRefs ok_rel.
  Proof.
    constructor; intros w; intros; intro W.
    - apply world_ok_put; [exact W|]. apply db_ok_state, world_ok_cur, W.
    - apply world_ok_put; [exact W|]. apply db_ok_push, world_ok_cur, W.
  Qed.
  #[export] Instance ok_DbProc : DbProc ok_rel.
  Proof.
    constructor.
    - intros w _ [W1 W2]. split; [exact W1|exact I].
    - intros w W. pose proof (world_ok_cur w W) as C. destruct W as [W1 W2]. unfold commit_now, cur_db in *.
      destruct (w_txn w); (split; [|exact I]); auto. cbn. apply dbs_set_ok; auto.
  Qed.
  #[export] Instance ok_DbOpen : DbOpen ok_rel.
  Proof.
    constructor.
    - intros w p l w' H. unfold open_db_eff in H. destruct (resolve _ _ p) as [l0|]; [|discriminate].
      destruct (p_slash p); [discriminate|]. destruct (lookup (w_fs w) l0) as [[|c st| |]|]; try discriminate.
      + destruct (assoc_loc l0 (w_dbs w)); [inv H; intro; assumption|]. destruct c; inv H.
        intros [W1 W2]. split; [|exact W2]. cbn. apply dbs_set_ok; [exact W1|apply db_ok_empty].
      + inv H. intros [W1 W2]. split; [|exact W2]. cbn. apply dbs_set_ok; [exact W1|apply db_ok_empty].
    - intros w l [W1 W2]. split; [exact W1|exact I].
    - intros w l h [W1 W2]. split; [|exact W2]. cbn [set_dbs w_dbs w_hashed]. apply dbs_set_ok; [exact W1|].
      apply db_ok_state, W1.
  Qed.

  Lemma main_world_ok cm c w : world_ok w -> world_ok (snd (main cm c w)).
  Proof. intro W. exact (rel_main ok_rel cm c w W). Qed.
  Lemma close_all_ok w : world_ok w -> world_ok (close_all w).
  Proof. intros [W1 W2]. split; [exact W1|exact I]. Qed.
  Lemma process_ok cm c w : world_ok w -> world_ok (snd (run_process cm c w)).
  Proof.
    intro W. unfold run_process. pose proof (main_world_ok cm c _ (close_all_ok w W)) as H.
    destruct (main cm c (close_all w)) as [o w']. apply close_all_ok, H.
  Qed.
  (** The state of the connection does not survive a process, so the invariant of
      reachable states is the one on the files. *)
  Definition dbs_ok (w : world) : Prop := forall l, db_ok (w_hashed w) (db_at (w_dbs w) l).
  Lemma close_all_world_ok w : dbs_ok w -> world_ok (close_all w).
  Proof. intro H. split; [exact H|exact I]. Qed.
  Lemma process_dbs_ok cm c w : dbs_ok w -> dbs_ok (snd (run_process cm c w)).
  Proof.
    intro W. unfold run_process. pose proof (main_world_ok cm c _ (close_all_world_ok w W)) as [H _].
    destruct (main cm c (close_all w)) as [o w']. exact H.
  Qed.
  Lemma reachable_ok w : reachable w -> dbs_ok w.
  Proof.
    induction 1.
    - intro l. rewrite H. apply db_ok_empty.
    - apply process_dbs_ok. assumption.
    - destruct H0 as [H0 H1]. intro l. rewrite H0, H1. apply IHreachable.
  Qed.

  (** ** Growth *)
  Definition data_le (d d' : db) : Prop := forall k v, assoc k (d_data d) = Some v -> assoc k (d_data d') = Some v.
  Definition log_le (d d' : db) : Prop := exists rows, d_reflog d' = d_reflog d ++ rows.
  Definition db_le (d d' : db) : Prop := data_le d d' /\ log_le d d'.
  #[export] Instance db_le_pre : PreOrder db_le.
  Proof.
    split.
    - intro d. split; [intros k v H; exact H|]. exists []. symmetry. apply app_nil_r.
    - intros a b c [H1 [r H2]] [K1 [s K2]]. split; [intros k v H; auto|]. exists (r ++ s).
      rewrite K2, H2, app_assoc. reflexivity.
  Qed.
  Lemma db_le_empty d : db_le db_empty d.
  Proof. split; [intros k v H; discriminate|]. exists (d_reflog d). reflexivity. Qed.
  Lemma db_le_put k v d : db_le d (upd_data (insert_or_ignore k v) d).
  Proof.
    split; [|exists []; symmetry; apply app_nil_r]. intros k' v' H. cbn. rewrite assoc_ignore, H. reflexivity.
  Qed.
  Lemma db_le_state f d : db_le d (upd_state f d).
  Proof. split; [intros k v H; exact H|]. exists []. symmetry. apply app_nil_r. Qed.
  Lemma db_le_push f d : db_le d (upd_reflog (fun rows => rows ++ f rows) d).
  Proof. split; [intros k v H; exact H|]. exists (f (d_reflog d)). reflexivity. Qed.

  Definition txn_le (w : world) : Prop := match w_txn w with TxnDirty d => db_le (disk w) d | _ => True end.
  (** Growth of all databases. *)
  Definition grow_all (w w' : world) : Prop :=
    txn_le w -> txn_le w' /\ forall l, db_le (db_at (w_dbs w) l) (db_at (w_dbs w') l).
  (** Growth of the databases whose file is there. *)
  Definition grow (w w' : world) : Prop :=
    txn_le w -> txn_le w' /\ keeps_files w w' /\
      forall l, present w l -> db_le (db_at (w_dbs w) l) (db_at (w_dbs w') l).

  Lemma grow_of w w' : keeps_files w w' -> grow_all w w' -> grow w w'.
  Proof. intros K G T. destruct (G T) as [A B]. auto. Qed.
  #[export] Instance grow_all_DbRel : DbRel grow_all.
  Proof.
    constructor.
    - intros a b c H K T. destruct (H T) as [T1 L1]. destruct (K T1) as [T2 L2]. split; [exact T2|].
      intro l. etransitivity; eauto.
    - intros w w' (H1 & H2 & H3 & H4) _ T. unfold txn_le, disk in *. rewrite H1, H2, H3. split; [exact T|].
      intro l. reflexivity.
    - intros w T. split; [exact I|]. intro l. reflexivity.
  Qed.
  #[export] Instance grow_all_DbOnly : DbOnly grow_all.
  Proof.
    constructor. intros w w' (H1 & H2 & H3 & H4) T. unfold txn_le, disk in *. rewrite H1, H2, H3.
    split; [exact T|]. intro l. reflexivity.
  Qed.
  Lemma grow_all_put w d : db_le (cur_db w) d -> grow_all w (put_db d w).
  Proof.
    intros H T. unfold put_db, cur_db, txn_le in *. destruct (w_txn w) eqn:Et; cbn.
    - rewrite Et. split; [exact I|]. intro l. rewrite db_at_set. destruct (names_eqb (w_conn w) l) eqn:El; [|reflexivity].
      apply names_eqb_eq in El. subst. exact H.
    - split; [|reflexivity]. exact H.
    - split; [|reflexivity]. rewrite disk_set_txn. etransitivity; eauto.
  Qed.
  #[export] Instance grow_all_DbPut : DbPut grow_all.
  Proof.
    constructor.
    - intros w d T. split; [exact T|reflexivity].
    - intros w d. apply (grow_all_put (set_hashed w (d :: w_hashed w))). apply db_le_put.
  Qed.
  #[export] Instance grow_all_DbRefs : DbRefs grow_all.
  Proof.
    constructor; intros; apply grow_all_put; [apply db_le_state|].
    apply (db_le_push (fun rows => [Row (next_id rows) n r (as_db_key k)])).
  Qed.
  #[export] Instance grow_all_DbProc : DbProc grow_all.
  Proof.
    constructor.
    - intros w _ T. split; [exact I|reflexivity].
    - intros w T. unfold commit_now, txn_le in *. destruct (w_txn w) eqn:Et; cbn; (split; [exact I|]); try reflexivity.
      intro l. rewrite db_at_set. destruct (names_eqb (w_conn w) l) eqn:El; [|reflexivity].
      apply names_eqb_eq in El. subst. exact T.
  Qed.
  #[export] Instance grow_DbRel : DbRel grow.
  Proof.
    constructor.
    - intros a b c H K T. destruct (H T) as (T1 & K1 & L1). destruct (K T1) as (T2 & K2 & L2).
      split; [exact T2|split].
      + intros l P. auto.
      + intros l P. etransitivity; eauto.
    - intros w w' H K. apply grow_of; [exact K|]. apply do_same, H.
    - intros w. apply grow_of; [apply keeps_eq; reflexivity|]. apply dr_lost.
  Qed.
  Lemma put_db_fs d w : w_fs (put_db d w) = w_fs w.
  Proof. unfold put_db. destruct (w_txn w); reflexivity. Qed.
  #[export] Instance grow_DbPut : DbPut grow.
  Proof.
    constructor; intros; (apply grow_of; [apply keeps_eq; try rewrite put_db_fs; reflexivity|]);
      [apply dr_hash|apply dr_put].
  Qed.
  #[export] Instance grow_DbRefs : DbRefs grow.
  Proof.
    constructor; intros; (apply grow_of; [apply keeps_eq; try rewrite put_db_fs; reflexivity|]);
      [apply dr_head|apply dr_push].
  Qed.
  #[export] Instance grow_DbProc : DbProc grow.
  Proof.
    constructor; intros; (apply grow_of; [apply keeps_eq|]);
      [reflexivity|apply dr_begin; assumption|unfold commit_now; destruct (w_txn w); reflexivity|apply dr_commit].
  Qed.
  #[export] Instance grow_DbOpen : DbOpen grow.
  Proof.
    constructor.
    - intros w p l w' H. unfold open_db_eff in H. destruct (resolve _ _ p) as [l0|]; [|discriminate].
      destruct (p_slash p); [discriminate|]. destruct (lookup (w_fs w) l0) as [[|c st| |]|] eqn:El; try discriminate.
      + destruct (assoc_loc l0 (w_dbs w)) eqn:Ea; [inv H; apply dr_refl; exact _|]. destruct c; inv H.
        intro T. assert (X : forall l', db_at (assoc_set l db_empty (w_dbs w)) l' = db_at (w_dbs w) l').
        { intro l'. rewrite db_at_set. destruct (names_eqb l l') eqn:En; [|reflexivity].
          apply names_eqb_eq in En. subst. unfold db_at. rewrite Ea. reflexivity. }
        split; [|split].
        * unfold txn_le, disk in *. cbn. destruct (w_txn w); auto. rewrite X. exact T.
        * apply keeps_eq. reflexivity.
        * intros l' P. cbn. rewrite X. reflexivity.
      + inv H. intro T. split; [|split].
        * unfold txn_le, disk in *. cbn. destruct (w_txn w); auto. rewrite db_at_set.
          destruct (names_eqb l (w_conn w)); [apply db_le_empty|exact T].
        * intros l' P. cbn. apply (fs_keeps_set (w_fs w)); [|exact P]. left. eexists _, _. reflexivity.
        * intros l' (c & st & P). cbn. rewrite db_at_set. destruct (names_eqb l l') eqn:En; [|reflexivity].
          apply names_eqb_eq in En. subst. congruence.
    - intros w l T. split; [exact I|]. split; [apply keeps_eq; reflexivity|]. reflexivity.
    - intros w l h T. split; [|split; [apply keeps_eq; reflexivity|]].
      + unfold txn_le, disk in *. cbn -[str]. destruct (w_txn w); auto. rewrite db_at_set.
        destruct (names_eqb l (w_conn w)) eqn:En; [|exact T]. apply names_eqb_eq in En. subst. exact T.
      + intros l' P. cbn -[str]. rewrite db_at_set. destruct (names_eqb l l') eqn:En; [|reflexivity].
        apply names_eqb_eq in En. subst. apply db_le_state.
  Qed.

  Definition is_checkout (c : command) : bool := match c with CCheckout => true | _ => false end.
  (** Whatever a process does, a database whose file was there only grows. *)
  Lemma main_grows cm c w l : txn_le w -> present w l ->
    db_le (db_at (w_dbs w) l) (db_at (w_dbs (snd (main cm c w))) l).
  Proof.
    intros T P. destruct (is_checkout c) eqn:Ec.
    - unfold main, bind. pose proof (rel_open_repo grow cm w T) as (T1 & K1 & L1).
      destruct (open_repo cm w) as [[st|e|p| |] w1]; cbn [fst snd] in *; auto.
      assert (H : rel grow_all (run_command cm st c)).
      { destruct c; try discriminate. cbn [run_command]. unfold with_ds. destruct st as [s|]; [apply rel_cmd_checkout; exact _|].
        apply rel_fail. exact _. }
      pose proof (rel_main_rest grow_all cm st c H w1 T1) as [_ L2].
      etransitivity; [apply L1, P|apply L2].
    - assert (H : rel grow (main cm c)).
      { apply rel_main_of; try exact _. intro st. apply rel_run_command_nc; try exact _. intros ->. discriminate. }
      destruct (H w T) as (_ & _ & L). apply L, P.
  Qed.
  Lemma process_grows cm c w l : present w l ->
    db_le (db_at (w_dbs w) l) (db_at (w_dbs (snd (run_process cm c w))) l).
  Proof.
    intro P. unfold run_process. pose proof (main_grows cm c (close_all w) l I P) as H.
    destruct (main cm c (close_all w)) as [o w']. exact H.
  Qed.
  Lemma later_grows l w w' : later l w w' -> db_le (db_at (w_dbs w) l) (db_at (w_dbs w') l).
  Proof.
    induction 1.
    - reflexivity.
    - etransitivity; [eassumption|]. apply process_grows. assumption.
    - destruct H0 as [H0 _]. rewrite H0. assumption.
  Qed.
End Integrity.
