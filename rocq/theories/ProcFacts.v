(** Facts about whole processes. *)
From Coq Require Import RelationClasses.
From Verif Require Import Base BaseFacts Key Keyish Object Path World WorldFacts Store File Filter Dir Diff Commit Main SpecStore StoreCalls SpecRun SpecProc
  Frame DbRel Integrity ObjStoreFacts SessionFacts FsFacts SnapFacts.

Section ProcFacts.
  Context {E : Env}.
  Notation ds := sqlite_ds.

  (** *** Structure *)
  (** src/main.rs:788-801 *)
  Definition finish (st : option ds_state) (r : result unit error) : M unit :=
    match r with
    | Err e => print "fatal:" (error_message e) ;;; ignore_on st db_rollback ;;; cache_rollback
    | Ok _ => ignore_on st db_commit ;;; cache_commit
    end.
  Lemma main_split cm c w : main cm c w =
    bind (setup cm) (fun st => bind (try (run_command cm st c)) (finish st)) w.
  Proof.
    unfold main, setup, main_rest. rewrite bind_assoc. apply bind_ext. intros st w1.
    rewrite bind_assoc. apply bind_ext. intros _ w2. rewrite bind_assoc. apply bind_ext. intros _ w3. rewrite bind_assoc. apply bind_ext. intros _ w4.
    transitivity (bind (try (run_command cm st c)) (finish st) w4); [|reflexivity]. apply bind_ext. intros [x|e] w5; reflexivity.
  Qed.

  (** *** Before the command *)
  Definition before (w w' : world) : Prop :=
    w_hashed w' = w_hashed w /\ w_cwd w' = w_cwd w /\ grows (w_fs w) (w_fs w') /\ forall l, present w l -> db_at (w_dbs w') l = db_at (w_dbs w) l.
  Lemma grows_files w w' : grows (w_fs w) (w_fs w') -> keeps_files w w'.
  Proof. intros G l (c & st & P). exists c, st. apply G, P. Qed.
  #[local] Instance before_pre : PreOrder before.
  Proof.
    split; [intro w; repeat split; apply grows_refl|]. intros a b c (A & B & C & D) (A' & B' & C' & D').
    split; [congruence|]. split; [congruence|]. split; [eapply grows_trans; eauto|]. intros l P. rewrite D', D; auto. eapply grows_files; eauto.
  Qed.
  Lemma before_same w w' : w_hashed w' = w_hashed w -> w_cwd w' = w_cwd w -> w_fs w' = w_fs w -> w_dbs w' = w_dbs w -> before w w'.
  Proof. intros A B C D. split; [exact A|]. split; [exact B|]. split; [rewrite C; apply grows_refl|]. intros l _. rewrite D. reflexivity. Qed.
  Lemma before_ticked w w1 w' : ticked w w1 -> w_hashed w' = w_hashed w1 -> w_cwd w' = w_cwd w1 -> w_fs w' = w_fs w1 -> w_dbs w' = w_dbs w1 -> before w w'.
  Proof. intros (t & r & ->) A B C D. apply before_same; assumption. Qed.
  Hint Resolve before_ticked : core.
  #[local] Instance before_Rd : RdPrims before.
  Proof.
    constructor; [exact _|..].
    - intros A q. apply rel_op. intros [] w w1 T; cbn; eauto.
    - intros t a. apply rel_op. intros [] w w1 T; cbn; eauto.
    - intros d. apply rel_op. intros [] w w1 T; cbn; eauto.
    - intros A q. apply rel_op. intros [] w w1 T; cbn; eauto. destruct (q (w_fs w1) (w_cwd w1)); cbn; eauto.
    - intros p. apply rel_op. intros f w w1 T. destruct (stat _ _ p) as [[l [| | |]]|], f as [|[|]| |]; cbn; eauto.
    - intros p. apply rel_op. intros f w w1 T. destruct (stat _ _ p) as [[l [| | |]]|], f as [|[|]| |]; cbn; eauto.
  Qed.
  Lemma before_open p : rel before (sqlite_open p).
  Proof.
    apply rel_op. intros f w w1 T. assert (R1 : before w w1) by eauto.
    destruct (open_db_eff p w1) as [[l w']|] eqn:Eo; [|destruct f; cbn; auto].
    assert (R2 : before w1 w').
    { unfold open_db_eff in Eo. destruct (resolve _ _ p) as [l0|]; [|discriminate]. destruct (p_slash p); [discriminate|].
      destruct (lookup (w_fs w1) l0) as [[|c st| |]|] eqn:El; try discriminate.
      - destruct (assoc_loc l0 (w_dbs w1)) eqn:Ea; [inv Eo; reflexivity|]. destruct c; inv Eo.
        split; [reflexivity|]. split; [reflexivity|]. split; [apply grows_refl|]. intros l' _. cbn. rewrite db_at_set. destruct (names_eqb l l') eqn:En; [|reflexivity].
        apply names_eqb_eq in En. subst. unfold db_at. rewrite Ea. reflexivity.
      - inv Eo. split; [reflexivity|]. split; [reflexivity|]. split.
        + intros x e L. cbn. rewrite lookup_fs_set. destruct x as [|n x]; [exact L|]. destruct (names_eqb l (n :: x)) eqn:En; [|exact L]. apply names_eqb_eq in En. subst. congruence.
        + intros l' (c & st & P). cbn. rewrite db_at_set. destruct (names_eqb l l') eqn:En; [|reflexivity]. apply names_eqb_eq in En. subst. congruence. }
    assert (before w w') by (etransitivity; eauto). destruct f as [|[|]| |[|]]; cbn; auto.
  Qed.
  Lemma before_mkdir p : rel before (fs_create_dir_all p).
  Proof.
    unfold fs_create_dir_all. destruct (is_empty_path p); [apply rel_ret; exact _|].
    assert (X : forall w w1 b f', ticked w w1 -> mkdirs b (w_fs w) (base_loc (w_cwd w) p) (p_comps p) = Some f' -> before w (set_fs w1 f')).
    { intros w w1 b f' (t & r & ->) M. split; [reflexivity|]. split; [reflexivity|]. split; [|reflexivity]. eapply adds_grows, mkdirs_adds, M. }
    apply rel_fs_change; [eauto| |].
    - intros w w1 [] f' T H. destruct (mkdirs _ _ _ _) eqn:Em; inv H. exact (X _ _ _ _ T Em).
    - intros w w1 n x T H. destruct (mkdirs (Some n) _ _ _) eqn:Em; [exact (X _ _ _ _ T Em)|]. destruct T as (t & r & ->). apply before_same; reflexivity.
  Qed.
  Lemma before_open_repo cm : rel before (open_repo cm).
  Proof.
    unfold open_repo. apply rel_bind; [exact _|apply rel_find_db_folder; exact _|intros [p|]; [|apply rel_ret; exact _]].
    destruct (parent p) as [p0|]; [|apply rel_panic; exact _]. apply rel_bind; [exact _|apply before_open|intro l].
    apply rel_bind; [exact _| |intros _; apply rel_ret; exact _]. intro w. apply before_same; reflexivity.
  Qed.
  Lemma before_open_cache : rel before open_cache.
  Proof.
    assert (X : rel before cache_new) by (apply rel_op; intros [] w w1 T; cbn; eauto).
    unfold open_cache. destruct cache_dir; (apply rel_bind; [exact _| |intros _]).
    - apply before_mkdir.
    - exact X.
    - exact X.
    - intro w. apply before_same; reflexivity.
  Qed.
  Lemma before_begin : rel before db_begin.
  Proof. apply rel_op. intros [] w w1 T; cbn; eauto. destruct (w_txn w1); cbn; eauto. Qed.
  Lemma before_cache_begin : rel before cache_begin.
  Proof. apply rel_op. intros [] w w1 T; cbn; eauto. destruct (w_ctxn w1); cbn; eauto. Qed.
  Lemma before_setup cm : rel before (setup cm).
  Proof.
    unfold setup. apply rel_bind; [exact _|apply before_open_repo|intro st]. apply rel_bind; [exact _|apply before_open_cache|intros _].
    apply rel_bind; [exact _|apply rel_ignore_on; [exact _|apply before_begin]|intros _]. apply rel_bind; [exact _|apply before_cache_begin|intros _]. apply rel_ret; exact _.
  Qed.
  Lemma setup_before cm w st w1 : starts cm w st w1 -> before w w1.
  Proof. intro S. pose proof (before_setup cm (close_all w)) as X. rewrite S in X. etransitivity; [|exact X]. apply before_same; reflexivity. Qed.
  (** Without a repository there is no transaction; with one there is no pending change. *)
  Definition clean_txn (w w' : world) : Prop := (w_txn w = NoTxn -> w_txn w' = NoTxn) /\ forall d, w_txn w <> TxnDirty d -> w_txn w' <> TxnDirty d.
  Lemma setup_steps cm w st w1 : starts cm w st w1 -> exists v1 v2 v3, open_repo cm (close_all w) = (Done st, v1) /\ open_cache v1 = (Done tt, v2) /\
    w_txn v2 = NoTxn /\ ignore_on st db_begin v2 = (Done tt, v3) /\ w_txn w1 = w_txn v3.
  Proof.
    unfold starts, setup. intro S.
    assert (Q : forall A (m : M A), rel (fun v v' => w_txn v' = w_txn v) m -> forall v a v', m v = (Done a, v') -> w_txn v' = w_txn v) by (intros A m R v a v' H; pose proof (R v) as Y; rewrite H in Y; exact Y).
    apply bind_done in S as (st' & v1 & H1 & S). apply bind_done in S as ([] & v2 & H2 & S). apply bind_done in S as ([] & v3 & H3 & S). apply bind_done in S as ([] & v4 & H4 & S). apply ret_done in S as [-> ->].
    assert (T1 : w_txn v1 = NoTxn).
    { unfold open_repo in H1. apply bind_done in H1 as (found & u & F & H1).
      assert (Tu : w_txn u = NoTxn).
      { set (R := fun v v' : world => w_txn v = NoTxn -> w_txn v' = NoTxn). assert (P : PreOrder R) by (split; [intros v Y; exact Y|intros a b c X Y Z; apply Y, X, Z]).
        assert (RR : RdPrims R).
        { assert (Tk : forall v v1, ticked v v1 -> R v v1) by (intros v v1' (t & r & ->) Y; exact Y).
          constructor; [exact _|..].
          - intros A q. apply rel_op. intros [] v v1' T; cbn; auto. intros _. reflexivity.
          - intros t a. apply rel_op. intros [] v v1' T; cbn; auto. intro Y. apply (Tk _ _ T Y).
          - intros d. apply rel_op. intros [] v v1' T; cbn; auto. intro Y. apply (Tk _ _ T Y).
          - intros A q. apply rel_op. intros [] v v1' T; cbn; auto. destruct (q (w_fs v1') (w_cwd v1')); cbn; auto.
          - intros p. apply rel_op. intros f v v1' T. destruct (stat _ _ p) as [[l [| | |]]|], f as [|[|]| |]; cbn; auto.
          - intros p. apply rel_op. intros f v v1' T. destruct (stat _ _ p) as [[l [| | |]]|], f as [|[|]| |]; cbn; auto. }
        pose proof (rel_find_db_folder R (cm_db_path cm) (close_all w)) as Y. rewrite F in Y. apply Y. reflexivity. }
      destruct found as [x|]; [|apply ret_done in H1 as [_ ->]; exact Tu]. destruct (parent x) as [repo|]; [|discriminate H1].
      apply bind_done in H1 as (l & u1 & O & H1). apply bind_done in H1 as ([] & u2 & C & H1). apply ret_done in H1 as [_ ->]. injection C as <-. reflexivity. }
    assert (T2 : w_txn v2 = NoTxn).
    { rewrite <- T1. refine (Q _ open_cache _ _ _ _ H2).
      assert (PQ : PreOrder (fun v v' : world => w_txn v' = w_txn v)) by (split; [intro; reflexivity|intros a b c X Y; congruence]).
      assert (X : rel (fun v v' => w_txn v' = w_txn v) cache_new) by (apply rel_op; intros [] v v1' (t & r & ->); reflexivity).
      unfold open_cache. destruct cache_dir; (apply rel_bind; [exact _| |intros _]); try exact X; [|intro; reflexivity].
      unfold fs_create_dir_all. destruct (is_empty_path _); [intro; reflexivity|]. apply rel_fs_change; intros v v1'; intros; match goal with H : ticked _ _ |- _ => destruct H as (t & r & ->) end; reflexivity. }
    assert (T4 : w_txn v4 = w_txn v3).
    { refine (Q _ cache_begin _ _ _ _ H4). apply rel_op. intros [] v v1' (t & r & ->); try reflexivity. cbn. destruct (w_ctxn v); reflexivity. }
    exists v1, v2, v3. split; [exact H1|]. split; [exact H2|]. split; [exact T2|]. split; [exact H3|exact T4].
  Qed.
  Lemma setup_txn cm w st w1 : starts cm w st w1 -> (st = None -> w_txn w1 = NoTxn) /\ forall d, w_txn w1 <> TxnDirty d.
  Proof.
    intro S. apply setup_steps in S as (v1 & v2 & v3 & _ & _ & T2 & H3 & T4).
    rewrite T4. destruct st as [s|]; cbn [ignore_on] in H3.
    - split; [discriminate|]. apply bind_done in H3 as (r & u & B & H3). apply ret_done in H3 as [_ ->].
      unfold try, db_begin in B. match type of B with context [op ?e ?x] => destruct (op_case e x) as (f & v' & Eo & T) end. rewrite Eo in B. clear Eo.
      assert (Tv : w_txn v' = NoTxn) by (destruct T as (? & ? & ->); exact T2).
      destruct f; cbn in B; try rewrite Tv in B; try discriminate B; injection B as _ <-; cbn; try rewrite Tv; intros; discriminate.
    - apply ret_done in H3 as [_ ->]. rewrite T2. split; [reflexivity|discriminate].
  Qed.

  (** *** Inside the transaction *)
  Definition inside_txn (w w' : world) : Prop :=
    no_auto_rollback w -> no_auto_rollback w' /\ (w_txn w <> NoTxn -> w_txn w' <> NoTxn /\ w_dbs w' = w_dbs w /\ w_conn w' = w_conn w).
  #[local] Instance inside_pre : PreOrder inside_txn.
  Proof.
    split; [intros w N; auto|]. intros a b c H K N. destruct (H N) as [N1 H1]. destruct (K N1) as [N2 H2]. split; [exact N2|].
    intro T. destruct (H1 T) as (T1 & D1 & C1). destruct (H2 T1) as (T2 & D2 & C2). repeat split; congruence.
  Qed.
  (** An operation: what has to be shown for each event of the schedule. *)
  Lemma inside_op {A} (eff : fault -> M A) :
    (forall f w, f <> FErrRb -> w_faults (snd (eff f w)) = w_faults w /\ (w_txn w <> NoTxn -> w_txn (snd (eff f w)) <> NoTxn /\ w_dbs (snd (eff f w)) = w_dbs w /\ w_conn (snd (eff f w)) = w_conn w)) ->
    rel inside_txn (op eff).
  Proof.
    intros H w N. unfold op. cbn zeta. unfold no_auto_rollback in *. cbn [w_faults set_tick]. destruct (w_faults w) as [|f r] eqn:Ef.
    - destruct (H FOk (set_tick w (S (w_tick w)))) as [F X]; [discriminate|]. split; [rewrite F; cbn; rewrite Ef; exact N|exact X].
    - destruct (H f (set_faults (set_tick w (S (w_tick w))) r)) as [F X]; [intros ->; apply N; left; reflexivity|].
      split; [rewrite F; cbn; intro I; apply N; right; exact I|exact X].
  Qed.
  Ltac io := apply inside_op; let N := fresh in intros [|[|?]| |[|?]] ? N; try (exfalso; apply N; reflexivity); cbn; try (split; [reflexivity|intro; repeat split; assumption]).
  #[local] Instance inside_Rd : RdPrims inside_txn.
  Proof.
    constructor; [exact _|..].
    - intros A q. io.
    - intros t a. io.
    - intros d. io.
    - intros A q. io. destruct (q _ _); cbn; auto.
    - intros p. apply inside_op. intros f w N. destruct (stat _ _ p) as [[l [| | |]]|], f as [|[|]| |]; try (exfalso; apply N; reflexivity); cbn; auto.
    - intros p. apply inside_op. intros f w N. destruct (stat _ _ p) as [[l [| | |]]|], f as [|[|]| |]; try (exfalso; apply N; reflexivity); cbn; auto.
  Qed.
  Lemma put_db_in d w : w_faults (put_db d w) = w_faults w /\ (w_txn w <> NoTxn -> w_txn (put_db d w) <> NoTxn /\ w_dbs (put_db d w) = w_dbs w /\ w_conn (put_db d w) = w_conn w).
  Proof. unfold put_db. destruct (w_txn w) eqn:T; cbn; (split; [reflexivity|]); intro N; try (exfalso; apply N; reflexivity); repeat split; discriminate. Qed.
  Lemma inside_write u : rel inside_txn (db_write u).
  Proof. apply inside_op. intros [| | |[|]] w N; cbn; first [exfalso; apply N; reflexivity|apply put_db_in|split; [reflexivity|auto]]. Qed.
  #[local] Instance inside_Put : PutPrims inside_txn.
  Proof.
    constructor. intro d. unfold put. apply rel_bind; [exact _| |intro k].
    - intros w N. split; [exact N|]. intro T. repeat split. exact T.
    - apply rel_bind; [exact _|apply inside_write|intros _; apply rel_ret; exact _].
  Qed.
  #[local] Instance inside_Ref : RefPrims inside_txn.
  Proof. constructor; intros; apply inside_write. Qed.
  Lemma inside_change {A} (full : fs -> loc -> nat -> option (A * fs)) partial : rel inside_txn (fs_change full partial).
  Proof. apply inside_op. intros f w N. destruct (full _ _ _) as [[a f']|], f; cbn; auto. Qed.
  #[local] Instance inside_Fs : FsPrims inside_txn.
  Proof.
    constructor; intros; try apply inside_change. unfold fs_create_dir_all. destruct (is_empty_path p); [apply rel_ret; exact _|apply inside_change].
  Qed.
  #[local] Instance inside_Del : DelPrims inside_txn.
  Proof. constructor; intros; apply inside_change. Qed.
  #[local] Instance inside_Cache : CachePrims inside_txn.
  Proof.
    constructor.
    - intros A q. io.
    - intros c k. apply inside_op. unfold put_cache. intros [| | |[|]] w N; cbn; try (split; [reflexivity|auto]); destruct (w_ctxn w); cbn; auto.
  Qed.
  Lemma rel_repo_command (R : world -> world -> Prop) {PR : RdPrims R} {PP : PutPrims R} {PF : RefPrims R} {PS : FsPrims R} {PD : DelPrims R} {PC : CachePrims R} cm s c :
    c <> CInit -> rel R (run_command cm (Some s) c).
  Proof.
    intro NI. destruct c; cbn [run_command with_ds].
    - apply rel_cmd_insert; exact _.
    - apply rel_cmd_commit; exact _.
    - apply rel_cmd_fetch; exact _.
    - apply rel_cmd_pretty_print; exact _.
    - apply rel_cmd_commit_tree; exact _.
    - apply rel_cmd_reflog_get; exact _.
    - apply rel_cmd_reflog_push; exact _.
    - apply rel_cmd_walk_tree; exact _.
    - apply rel_cmd_walk_fs_tree; exact _.
    - apply rel_cmd_set_head; exact _.
    - apply rel_cmd_get_head; exact _.
    - destruct NI; reflexivity.
    - apply rel_cmd_show; exact _.
    - apply rel_cmd_log; exact _.
    - apply rel_cmd_compare; exact _.
    - apply rel_cmd_status; exact _.
    - apply rel_cmd_checkout; exact _.
    - apply rel_cmd_checkout_head; exact _.
    - apply rel_cmd_ref_log; exact _.
    - apply rel_cmd_ref_update; exact _.
  Qed.
  Lemma inside_command cm s c : c <> CInit -> rel inside_txn (run_command cm (Some s) c).
  Proof. intro N. apply rel_repo_command; try exact _. exact N. Qed.

  (** *** The schedule only shrinks *)
  Definition fewer (w w' : world) : Prop := incl (w_faults w') (w_faults w).
  #[export] Instance fewer_pre : PreOrder fewer.
  Proof. split; [intros w f I; exact I|]. intros a b c X Y f I. apply X, Y, I. Qed.
  Lemma fewer_op {A} (eff : fault -> M A) : (forall f w, w_faults (snd (eff f w)) = w_faults w) -> rel fewer (op eff).
  Proof.
    intros H w f I. unfold op in I. cbn zeta in I. cbn [w_faults set_tick] in I. destruct (w_faults w) as [|g r] eqn:Ef; rewrite H in I; cbn in I; [rewrite Ef in I; exact I|right; exact I].
  Qed.
  Lemma fewer_eq {A} (m : M A) : (forall w, w_faults (snd (m w)) = w_faults w) -> rel fewer m.
  Proof. intros H w f I. rewrite H in I. exact I. Qed.
  #[export] Instance fewer_Rd : RdPrims fewer.
  Proof.
    constructor; [exact _|..].
    - intros A q. apply fewer_op. intros [] w; reflexivity.
    - intros t a. apply fewer_op. intros [] w; reflexivity.
    - intros d. apply fewer_op. intros [] w; reflexivity.
    - intros A q. apply fewer_op. intros [] w; cbn; try reflexivity. destruct (q _ _); reflexivity.
    - intros p. apply fewer_op. intros f w. destruct (stat _ _ p) as [[l [| | |]]|], f as [|[|]| |]; reflexivity.
    - intros p. apply fewer_op. intros f w. destruct (stat _ _ p) as [[l [| | |]]|], f as [|[|]| |]; reflexivity.
  Qed.
  Lemma fewer_open p : rel fewer (sqlite_open p).
  Proof.
    apply fewer_op. intros f w. assert (X : forall l w', open_db_eff p w = Some (l, w') -> w_faults w' = w_faults w).
    { unfold open_db_eff. intros l w' Eo. destruct (resolve _ _ p) as [l0|]; [|discriminate]. destruct (p_slash p); [discriminate|].
      destruct (lookup (w_fs w) l0) as [[|c st| |]|] eqn:El; try discriminate; [|inv Eo; reflexivity]. destruct (assoc_loc l0 (w_dbs w)); [inv Eo; reflexivity|]. destruct c; inv Eo. reflexivity. }
    destruct (open_db_eff p w) as [[l w']|] eqn:Eo; [specialize (X _ _ eq_refl)|]; destruct f as [|[|]| |[|]]; cbn; auto.
  Qed.
  Lemma fewer_mkdir p : rel fewer (fs_create_dir_all p).
  Proof. unfold fs_create_dir_all. destruct (is_empty_path p); [apply rel_ret; exact _|]. apply fewer_op. intros f w. destruct (option_map _ _) as [[[] f']|], f; reflexivity. Qed.
  Lemma fewer_begin : rel fewer db_begin.
  Proof. apply fewer_op. intros [] w; cbn; try reflexivity. destruct (w_txn w); reflexivity. Qed.
  Lemma fewer_cache_begin : rel fewer cache_begin.
  Proof. apply fewer_op. intros [] w; cbn; try reflexivity. destruct (w_ctxn w); reflexivity. Qed.
  Lemma fewer_cache_new : rel fewer cache_new.
  Proof. apply fewer_op. intros [] w; reflexivity. Qed.
  Lemma fewer_setup cm : rel fewer (setup cm).
  Proof.
    unfold setup, open_repo, open_cache. apply rel_bind; [exact _| |intro st; apply rel_bind; [exact _| |intros _; apply rel_bind; [exact _| |intros _; apply rel_bind; [exact _|apply fewer_cache_begin|intros _; apply rel_ret; exact _]]]].
    - apply rel_bind; [exact _|apply rel_find_db_folder; exact _|intros [p|]; [|apply rel_ret; exact _]].
      destruct (parent p) as [p0|]; [|apply rel_panic; exact _]. apply rel_bind; [exact _|apply fewer_open|intro l].
      apply rel_bind; [exact _|apply fewer_eq; reflexivity|intros _; apply rel_ret; exact _].
    - destruct cache_dir; (apply rel_bind; [exact _| |intros _]); auto using fewer_mkdir, fewer_cache_new. apply fewer_eq; reflexivity.
    - apply rel_ignore_on; [exact _|apply fewer_begin].
  Qed.
  Lemma setup_fewer cm w st w1 : starts cm w st w1 -> no_auto_rollback w -> no_auto_rollback w1.
  Proof. intros S N I. pose proof (fewer_setup cm (close_all w)) as X. rewrite S in X. apply N, X, I. Qed.

  Lemma fewer_open_repo cm : rel fewer (open_repo cm).
  Proof.
    unfold open_repo. apply rel_bind; [exact _|apply rel_find_db_folder; exact _|intros [p|]; [|apply rel_ret; exact _]].
    destruct (parent p) as [p0|]; [|apply rel_panic; exact _]. apply rel_bind; [exact _|apply fewer_open|intro l].
    apply rel_bind; [exact _|apply fewer_eq; reflexivity|intros _; apply rel_ret; exact _].
  Qed.
  Lemma fewer_open_cache : rel fewer open_cache.
  Proof. unfold open_cache. destruct cache_dir; (apply rel_bind; [exact _| |intros _]); auto using fewer_mkdir, fewer_cache_new. apply fewer_eq; reflexivity. Qed.
  Lemma fewer_no_errors w w' : fewer w w' -> no_errors w -> no_errors w'.
  Proof. intros F N f I. apply N, F, I. Qed.
  Lemma no_errors_rollback w : no_errors w -> no_auto_rollback w.
  Proof. intros N I. destruct (N _ I) as [X|[n X]]; discriminate X. Qed.
  (** When nothing fails, BEGIN does not. *)
  Lemma no_errors_begins cm w : no_errors w -> begins cm w.
  Proof.
    intros N s w1 S. apply setup_steps in S as (v1 & v2 & v3 & H1 & H2 & T2 & H3 & T4). rewrite T4.
    assert (N2 : no_errors v2).
    { pose proof (fewer_open_repo cm (close_all w)) as X. rewrite H1 in X. pose proof (fewer_open_cache v1) as Y. rewrite H2 in Y. intros f I. apply (N f), X, Y, I. }
    cbn [ignore_on] in H3. apply bind_done in H3 as (r & u & B & H3). apply ret_done in H3 as [_ ->].
    unfold try, db_begin, op in B. cbn zeta in B. cbn [w_faults set_tick] in B. destruct (w_faults v2) as [|f l] eqn:Ef.
    - cbn in B. rewrite T2 in B. injection B as _ <-. reflexivity.
    - destruct (N2 f) as [->|[n ->]]; [rewrite Ef; left; reflexivity| |cbn in B; discriminate B]. cbn in B. rewrite T2 in B. injection B as _ <-. reflexivity.
  Qed.

  (** *** Without a repository *)
  Definition same_dbs (w w' : world) : Prop := w_dbs w' = w_dbs w.
  #[local] Instance same_dbs_pre : PreOrder same_dbs.
  Proof. split; [intro w; reflexivity|]. intros a b c X Y. unfold same_dbs in *. congruence. Qed.
  Lemma same_dbs_op {A} (eff : fault -> M A) : (forall f w, w_dbs (snd (eff f w)) = w_dbs w) -> rel same_dbs (op eff).
  Proof. intros H. apply rel_op. intros f w w1 (t & r & ->). unfold same_dbs. rewrite H. reflexivity. Qed.
  #[local] Instance same_dbs_Rd : RdPrims same_dbs.
  Proof.
    constructor; [exact _|..].
    - intros A q. apply same_dbs_op. intros [] w; reflexivity.
    - intros t a. apply same_dbs_op. intros [] w; reflexivity.
    - intros d. apply same_dbs_op. intros [] w; reflexivity.
    - intros A q. apply same_dbs_op. intros [] w; cbn; try reflexivity. destruct (q _ _); reflexivity.
    - intros p. apply same_dbs_op. intros f w. destruct (stat _ _ p) as [[l [| | |]]|], f as [|[|]| |]; reflexivity.
    - intros p. apply same_dbs_op. intros f w. destruct (stat _ _ p) as [[l [| | |]]|], f as [|[|]| |]; reflexivity.
  Qed.
  Lemma none_same cm c : c <> CInit -> rel same_dbs (run_command cm None c).
  Proof. intro N. destruct c; cbn [run_command with_ds]; try (apply rel_fail; exact _); [apply rel_cmd_walk_fs_tree; exact _|destruct N; reflexivity]. Qed.

  (** *** After the command *)
  Lemma same_dbs_rollback : rel same_dbs db_rollback.
  Proof. apply same_dbs_op. intros [] w; cbn; try reflexivity. destruct (w_txn w); reflexivity. Qed.
  Lemma same_dbs_cache_rollback : rel same_dbs cache_rollback.
  Proof. apply same_dbs_op. intros [] w; cbn; try reflexivity. destruct (w_ctxn w); reflexivity. Qed.
  Lemma cache_commit_dbs w : w_dbs (cache_commit_now w) = w_dbs w.
  Proof. unfold cache_commit_now. destruct (w_ctxn w); reflexivity. Qed.
  Lemma same_dbs_cache_commit : rel same_dbs cache_commit.
  Proof. apply same_dbs_op. intros [| | |[|]] w; cbn; try reflexivity; [destruct (w_ctxn w) eqn:C; cbn|]; auto using cache_commit_dbs. Qed.
  Lemma same_dbs_fatal st e : rel same_dbs (finish st (Err e)).
  Proof.
    cbn [finish]. apply rel_bind; [exact _|apply rp_print|intros _]. apply rel_bind; [exact _|apply rel_ignore_on; [exact _|apply same_dbs_rollback]|intros _; apply same_dbs_cache_rollback].
  Qed.
  Lemma commit_now_dbs w : w_dbs (commit_now w) = w_dbs w \/ db_at (w_dbs (commit_now w)) (w_conn w) = cur_db w /\ forall l, l <> w_conn w -> db_at (w_dbs (commit_now w)) l = db_at (w_dbs w) l.
  Proof.
    unfold commit_now, cur_db. destruct (w_txn w) eqn:T; auto. right. cbn. split; [rewrite db_at_set, names_eqb_refl; reflexivity|]. intros l N. rewrite db_at_set.
    destruct (names_eqb (w_conn w) l) eqn:En; [|reflexivity]. apply names_eqb_eq in En. subst. destruct N. reflexivity.
  Qed.
  (** COMMIT: nothing happens to the file, or all of it does. *)
  Lemma db_commit_cases w o w' : db_commit w = (o, w') ->
    w_conn w' = w_conn w /\ (w_dbs w' = w_dbs w \/ exists w1, ticked w w1 /\ w_dbs w' = w_dbs (commit_now w1)).
  Proof.
    intro H. unfold db_commit in H. match type of H with op ?e ?x = _ => destruct (op_case e x) as (f & v & Eo & T) end. rewrite Eo in H. clear Eo.
    assert (C : w_conn v = w_conn w) by (destruct T as (t & r & ->); reflexivity). assert (D : w_dbs v = w_dbs w) by (destruct T as (t & r & ->); reflexivity).
    assert (K : forall x, w_conn (commit_now x) = w_conn x) by (intro x; unfold commit_now; destruct (w_txn x); reflexivity).
    destruct f as [|n| |[|n]].
    - destruct (w_txn v) eqn:Tv; inversion H; subst; clear H; rewrite ?K; (split; [assumption|]); [left; assumption|right; exists v; auto|right; exists v; auto].
    - inversion H; subst; clear H. split; [assumption|left; assumption].
    - inversion H; subst; clear H. split; [assumption|left; assumption].
    - inversion H; subst; clear H. split; [assumption|left; assumption].
    - inversion H; subst; clear H. rewrite K. split; [assumption|]. right. exists v. auto.
  Qed.
  Lemma finish_ok_cases s w o w' : finish (Some s) (Ok tt) w = (o, w') ->
    w_dbs w' = w_dbs w \/ exists w1, ticked w w1 /\ w_dbs w' = w_dbs (commit_now w1).
  Proof.
    intro H. cbn [finish ignore_on] in H. unfold bind at 1 in H. unfold bind at 1 in H. unfold try in H.
    destruct (db_commit w) as [oc wc] eqn:Ec. apply db_commit_cases in Ec as [_ D].
    pose proof (same_dbs_cache_commit wc) as S. unfold same_dbs in S.
    destruct oc; cbn in H; try (inversion H; subst; exact D); destruct (cache_commit wc) as [o1 w1] eqn:Ek; inversion H; subst; cbn in S; rewrite S; exact D.
  Qed.

  Theorem all_or_nothing cm c w l code w' :
    c <> CInit -> there w l -> no_auto_rollback w -> begins cm w -> run_process cm c w = (code, w') ->
    db_at (w_dbs w') l = db_at (w_dbs w) l \/
    exists s w1 w2, starts cm w (Some s) w1 /\ w_conn w1 = l /\ run_command cm (Some s) c w1 = (Done tt, w2) /\
                    cur_db w1 = db_at (w_dbs w) l /\ db_at (w_dbs w') l = cur_db w2.
  Proof.
    intros NI TH NR BG RP. unfold run_process in RP. rewrite main_split in RP. unfold bind at 1 in RP.
    destruct (setup cm (close_all w)) as [os w1] eqn:Es.
    assert (B1 : db_at (w_dbs w1) l = db_at (w_dbs w) l).
    { pose proof (before_setup cm (close_all w)) as X. rewrite Es in X. apply X. exact TH. }
    destruct os as [st| | | |]; try (inversion RP; subst; left; exact B1).
    unfold bind at 1 in RP. unfold try in RP. destruct st as [s|].
    - pose proof (BG _ _ Es) as T1. pose proof (setup_fewer _ _ _ _ Es NR) as N1.
      pose proof (inside_command cm s c NI w1 N1) as IC. destruct (run_command cm (Some s) c w1) as [oc w2] eqn:Er. cbn [snd] in IC.
      destruct IC as [N2 IC]. destruct (IC ltac:(congruence)) as (T2 & D2 & C2).
      assert (L : forall v, w_dbs v = w_dbs w2 -> db_at (w_dbs (close_all v)) l = db_at (w_dbs w) l) by (intros v Y; cbn; rewrite Y, D2; exact B1).
      destruct oc as [[]|e| | |]; try (inversion RP; subst; left; apply L; reflexivity).
      + destruct (finish (Some s) (Ok tt) w2) as [o3 w3] eqn:Ef. inversion RP; subst; clear RP. apply finish_ok_cases in Ef as [D3|(v & T & D3)]; [left; apply L, D3|].
        assert (Cv : w_conn v = w_conn w2 /\ cur_db v = cur_db w2 /\ w_dbs v = w_dbs w2) by (destruct T as (t & r & ->); split; [reflexivity|split; reflexivity]). destruct Cv as (Cv & Ccv & Dv).
        destruct (commit_now_dbs v) as [Dc|[Dc Do]]; [left; apply L; congruence|].
        destruct (names_eqb (w_conn w1) l) eqn:En.
        * right. apply names_eqb_eq in En. exists s, w1, w2. split; [exact Es|]. split; [exact En|]. split; [exact Er|]. split.
          -- unfold cur_db, disk. rewrite T1, En. exact B1.
          -- cbn. rewrite D3, <- Ccv, <- Dc. f_equal. congruence.
        * left. cbn. rewrite D3, Do, Dv, D2; [exact B1|]. intros ->. rewrite Cv, C2, names_eqb_refl in En. discriminate.
      + destruct (finish (Some s) (Err e) w2) as [o3 w3] eqn:Ef. inversion RP; subst; clear RP. left. apply L. pose proof (same_dbs_fatal (Some s) e w2) as Y. rewrite Ef in Y. exact Y.
    - left. pose proof (none_same cm c NI w1) as NS. destruct (run_command cm None c w1) as [oc w2] eqn:Er. unfold same_dbs in NS. cbn [snd] in NS.
      assert (L : forall v, w_dbs v = w_dbs w2 -> db_at (w_dbs (close_all v)) l = db_at (w_dbs w) l) by (intros v Y; cbn; rewrite Y, NS; exact B1).
      destruct oc as [[]|e| | |]; try (inversion RP; subst; apply L; reflexivity).
      + destruct (finish None (Ok tt) w2) as [o3 w3] eqn:Ef. inversion RP; subst; clear RP. apply L. cbn [finish ignore_on] in Ef. unfold bind, ret in Ef.
        pose proof (same_dbs_cache_commit w2) as Y. rewrite Ef in Y. exact Y.
      + destruct (finish None (Err e) w2) as [o3 w3] eqn:Ef. inversion RP; subst; clear RP. apply L. pose proof (same_dbs_fatal None e w2) as Y. rewrite Ef in Y. exact Y.
  Qed.

  (** *** Exit status 0 *)
  Theorem exit_zero cm c w w' : run_process cm c w = (Some 0%N, w') ->
    exists st w1 w2, starts cm w st w1 /\
      (run_command cm st c w1 = (Done tt, w2) /\ w_out w' = w_out w2
       \/ exists e, run_command cm st c w1 = (Error e, w2) /\ w_out w' = Printed "fatal:" (error_message e) :: w_out w2).
  Proof.
    intro RP. unfold run_process in RP. rewrite main_split in RP. unfold bind at 1 in RP.
    destruct (setup cm (close_all w)) as [[st| | | |] w1] eqn:Es; try (inversion RP; fail).
    unfold bind at 1 in RP. unfold try in RP. destruct (run_command cm st c w1) as [oc w2] eqn:Er. exists st, w1, w2. split; [exact Es|].
    assert (O : forall A (m : M A), rel (fun v v' => w_out v' = w_out v) m -> forall v o v', m v = (o, v') -> w_out v' = w_out v) by (intros A m R v o v' H; pose proof (R v) as Y; rewrite H in Y; exact Y).
    assert (OP : PreOrder (fun v v' : world => w_out v' = w_out v)) by (split; [intro; reflexivity|intros x y z X Y; congruence]).
    assert (O1 : rel (fun v v' => w_out v' = w_out v) db_commit).
    { apply rel_op. intros [| | |[|]] v v1 (t & r & ->); cbn; try reflexivity; [destruct (w_txn v)|]; cbn; try reflexivity; unfold commit_now; cbn; destruct (w_txn v); reflexivity. }
    assert (O2 : rel (fun v v' => w_out v' = w_out v) db_rollback).
    { apply rel_op. intros [| | |[|]] v v1 (t & r & ->); cbn; try reflexivity; destruct (w_txn v); reflexivity. }
    assert (O3 : rel (fun v v' => w_out v' = w_out v) cache_commit).
    { apply rel_op. intros [| | |[|]] v v1 (t & r & ->); cbn; try reflexivity; [destruct (w_ctxn v)|]; cbn; try reflexivity; unfold cache_commit_now; cbn; destruct (w_ctxn v); reflexivity. }
    assert (O4 : rel (fun v v' => w_out v' = w_out v) cache_rollback).
    { apply rel_op. intros [| | |[|]] v v1 (t & r & ->); cbn; try reflexivity; destruct (w_ctxn v); reflexivity. }
    assert (I : forall m, rel (fun v v' => w_out v' = w_out v) m -> rel (fun v v' => w_out v' = w_out v) (ignore_on st m)).
    { intros m H v. destruct st as [s|]; [|reflexivity]. cbn [ignore_on]. unfold bind, try. specialize (H v). destruct (m v) as [[] ?]; exact H. }
    destruct oc as [[]|e| | |]; try (inversion RP; fail).
    - left. split; [exact Er|]. destruct (finish st (Ok tt) w2) as [o3 w3] eqn:Ef. inversion RP; subst; clear RP. cbn [finish] in Ef.
      cbn. refine (O _ (ignore_on st db_commit ;;; cache_commit) _ _ _ _ Ef). apply rel_bind; [exact OP|apply I, O1|intros _; apply O3].
    - right. exists e. split; [exact Er|]. destruct (finish st (Err e) w2) as [o3 w3] eqn:Ef. inversion RP as [[Hc Hw]]; clear RP. cbn [finish] in Ef.
      unfold bind at 1 in Ef. unfold print in Ef. match type of Ef with context [op ?x ?y] => destruct (op_case x y) as (f & v & Eo & (t & r & ->)) end. rewrite Eo in Ef. clear Eo.
      destruct f; cbn [fst snd] in Ef; try (inversion Ef; subst; discriminate Hc).
      cbn. change (Printed "fatal:" (error_message e) :: w_out w2) with (w_out (set_out (set_faults (set_tick w2 t) r) (Printed "fatal:" (error_message e) :: w_out w2))).
      refine (O _ (ignore_on st db_rollback ;;; cache_rollback) _ _ _ _ Ef). apply rel_bind; [exact OP|apply I, O2|intros _; apply O4].
  Qed.

  (** After the command succeeded, COMMIT without an error makes it durable. *)
  Theorem commit_durable cm c w code w' s w1 w2 : run_process cm c w = (code, w') ->
    starts cm w (Some s) w1 -> run_command cm (Some s) c w1 = (Done tt, w2) -> commit_ok_next w2 ->
    db_at (w_dbs w') (w_conn w2) = cur_db w2.
  Proof.
    intros RP Es Er NX. unfold run_process in RP. rewrite main_split in RP. unfold starts in Es. unfold bind at 1 in RP. rewrite Es in RP. unfold bind at 1 in RP. unfold try in RP. rewrite Er in RP.
    destruct (finish (Some s) (Ok tt) w2) as [o3 w3] eqn:Ef. inversion RP; subst; clear RP. cbn [close_all w_dbs set_ctxn set_txn].
    cbn [finish ignore_on] in Ef. unfold bind at 1 in Ef. unfold bind at 1 in Ef. unfold try in Ef.
    assert (D : forall wc o v, cache_commit wc = (o, v) -> w_dbs v = w_dbs wc) by (intros wc o v H; pose proof (same_dbs_cache_commit wc) as Y; rewrite H in Y; exact Y).
    assert (K : forall x, cur_db x = db_at (w_dbs (commit_now x)) (w_conn x)).
    { intro x. unfold cur_db, commit_now, disk. destruct (w_txn x); cbn; try reflexivity. rewrite db_at_set, names_eqb_refl. reflexivity. }
    assert (T : exists v, ticked w2 v /\ (db_commit w2 = (Done tt, commit_now v) \/ db_commit w2 = (Crashed, commit_now v) \/ exists e, db_commit w2 = (Error e, v) /\ w_txn v = NoTxn)).
    { unfold db_commit, op. cbn zeta. cbn [w_faults set_tick]. unfold commit_ok_next in NX. destruct (w_faults w2) as [|[| | |[|]] r] eqn:Ff; try contradiction;
        
        [exists (set_faults (set_tick w2 (S (w_tick w2))) [])|exists (set_faults (set_tick w2 (S (w_tick w2))) r)|exists (set_faults (set_tick w2 (S (w_tick w2))) r)];
        (split; [eexists _, _; reflexivity|]);
        try replace (set_tick w2 (S (w_tick w2))) with (set_faults (set_tick w2 (S (w_tick w2))) []) by (destruct w2; cbn in Ff |- *; subst; reflexivity);
        cbn; destruct (w_txn w2) eqn:Tx; cbn; eauto. }
    destruct T as (v & T & Cc). assert (Cv : w_conn v = w_conn w2 /\ cur_db v = cur_db w2 /\ w_dbs v = w_dbs w2) by (destruct T as (t & r & ->); split; [reflexivity|split; reflexivity]). destruct Cv as (Cv & Ccv & Dv).
    rewrite <- Cv, <- Ccv. destruct Cc as [Ec|[Ec|(e & Ec & Tv)]]; rewrite Ec in Ef; cbn in Ef.
    - rewrite K. destruct (cache_commit (commit_now v)) as [o4 w4] eqn:Ek. apply D in Ek. inversion Ef; subst. rewrite Ek. reflexivity.
    - rewrite K. inversion Ef; subst. reflexivity.
    - destruct (cache_commit v) as [o4 w4] eqn:Ek. apply D in Ek. inversion Ef; subst. rewrite Ek. unfold cur_db, disk. rewrite Tv. reflexivity.
  Qed.
End ProcFacts.
