(** Relations between worlds that only look at databases: how to obtain the
    classes of Frame.v from what the database primitives do. *)
From Verif Require Import Base BaseFacts Key Keyish Object Path World Store File Filter Dir Diff Commit Main
  WorldFacts Frame.
From Coq Require Import RelationClasses.

(** Same databases, connection, transaction and hash log. *)
Definition same_db (w w' : world) : Prop :=
  w_dbs w' = w_dbs w /\ w_conn w' = w_conn w /\ w_txn w' = w_txn w /\ w_hashed w' = w_hashed w.
(** Is there a regular file? *)
Definition present (w : world) (l : loc) : Prop := exists c st, lookup (w_fs w) l = Some (EFile c st).
Definition keeps_files (w w' : world) : Prop := forall l, present w l -> present w' l.

#[export] Instance same_db_pre : PreOrder same_db.
Proof.
  split; [repeat split|]. intros a b c (H1 & H2 & H3 & H4) (K1 & K2 & K3 & K4). repeat split; congruence.
Qed.
#[export] Instance keeps_files_pre : PreOrder keeps_files.
Proof. split; [intros w l; auto|]. intros a b c H K l P. auto. Qed.

Lemma ticked_same w w1 : ticked w w1 -> same_db w w1 /\ w_fs w1 = w_fs w.
Proof. intros (t & r & ->). repeat split. Qed.
Lemma keeps_eq w w' : w_fs w' = w_fs w -> keeps_files w w'.
Proof. intros H l (c & st & P). exists c, st. rewrite H. exact P. Qed.

(** ** What file-system changes keep *)
Lemma lookup_fs_set f l e l' : lookup (fs_set f l e) l' =
  match l' with [] => Some EDir | _ => if names_eqb l l' then Some e else lookup f l' end.
Proof. destruct l'; [reflexivity|]. unfold lookup, fs_set. rewrite assoc_set_get. reflexivity. Qed.
Definition is_file (o : option entry) : Prop := exists c st, o = Some (EFile c st).
Lemma is_file_set f l e l' : is_file (Some e) \/ ~ is_file (lookup f l) ->
  is_file (lookup f l') -> is_file (lookup (fs_set f l e) l').
Proof.
  intros H K. rewrite lookup_fs_set. destruct l' as [|n l']; [exact K|].
  destruct (names_eqb l (n :: l')) eqn:Eq; [|exact K]. apply names_eqb_eq in Eq. subst.
  destruct H as [H|H]; [exact H|contradiction].
Qed.

Section FsFacts.
  Context {E : Env}.
  (** Every run of [fs_change] leaves the databases alone and gives one of three
      file systems. *)
  Lemma fs_change_cases {A} (full : fs -> loc -> nat -> option (A * fs)) partial w o w' :
    fs_change full partial w = (o, w') ->
    exists w1, ticked w w1 /\
    (w' = w1
     \/ (exists a f', full (w_fs w) (w_cwd w) (w_tick w1) = Some (a, f') /\ w' = set_fs w1 f' /\ o = Done a)
     \/ (exists n x, full (w_fs w) (w_cwd w) (w_tick w1) = Some x /\
           w' = set_fs w1 (partial n (w_fs w) (w_cwd w) (w_tick w1)) /\ (forall a, o <> Done a))).
  Proof.
    unfold fs_change.
    match goal with |- op ?e ?x = _ -> _ => destruct (op_case e x) as (fl & w1 & E1 & T) end.
    rewrite E1. clear E1. exists w1. split; [exact T|].
    assert (w_fs w1 = w_fs w /\ w_cwd w1 = w_cwd w) as [F1 F2] by (destruct T as (? & ? & ->); split; reflexivity).
    rewrite F1, F2 in *. destruct (full (w_fs w) (w_cwd w) (w_tick w1)) as [[a f']|] eqn:Ef.
    - destruct fl; inv H; eauto 8.
      + right. right. exists n. eexists. repeat split. congruence.
      + right. right. exists n. eexists. repeat split. congruence.
    - destruct fl; inv H; auto.
  Qed.
  Lemma rel_fs_change (R : world -> world -> Prop) {A} (full : fs -> loc -> nat -> option (A * fs)) partial :
    (forall w w1, ticked w w1 -> R w w1) ->
    (forall w w1 a f', ticked w w1 -> full (w_fs w) (w_cwd w) (w_tick w1) = Some (a, f') -> R w (set_fs w1 f')) ->
    (forall w w1 n x, ticked w w1 -> full (w_fs w) (w_cwd w) (w_tick w1) = Some x ->
       R w (set_fs w1 (partial n (w_fs w) (w_cwd w) (w_tick w1)))) ->
    rel R (fs_change full partial).
  Proof.
    intros H1 H2 H3 w. destruct (fs_change full partial w) as [o w'] eqn:Ef.
    apply fs_change_cases in Ef as (w1 & T & [->|[(a & f' & X & -> & _)|(n & x & X & -> & _)]]); cbn; eauto.
  Qed.

  Definition fs_keeps (f f' : fs) : Prop := forall l, is_file (lookup f l) -> is_file (lookup f' l).
  Lemma fs_keeps_set f l e : is_file (Some e) \/ ~ is_file (lookup f l) -> fs_keeps f (fs_set f l e).
  Proof. intros H l'. apply is_file_set, H. Qed.
  Lemma mkdirs_keeps cs : forall b f cur f', mkdirs b f cur cs = Some f' -> fs_keeps f f'.
  Proof.
    induction cs as [|c cs IH]; intros b f cur f'; cbn [mkdirs].
    - destruct (is_dir f cur); [|discriminate]. intro H. inv H. intro; auto.
    - destruct (is_dir f cur); [|discriminate]. destruct c as [| |n]; [apply IH|apply IH|].
      destruct (lookup f (cur ++ [n])) as [[| | |]|] eqn:El; try discriminate; [apply IH|].
      assert (K : fs_keeps f (fs_set f (cur ++ [n]) EDir)).
      { apply fs_keeps_set. right. intros (c & st & X). rewrite El in X. discriminate. }
      destruct b as [[|b]|].
      + intro H. inv H. intro; auto.
      + intros H l Hl. eapply IH; [exact H|]. apply K, Hl.
      + intros H l Hl. eapply IH; [exact H|]. apply K, Hl.
  Qed.
  Lemma create_new_keeps p f cwd t l f' : create_new_eff p f cwd t = Some (l, f') -> fs_keeps f f'.
  Proof.
    unfold create_new_eff. destruct (resolve f cwd p) as [l0|]; [|discriminate]. destruct (p_slash p); [discriminate|].
    destruct (lookup f l0) eqn:El; [discriminate|]. intro H. inv H. apply fs_keeps_set. left. eexists _, _. reflexivity.
  Qed.
  Lemma create_keeps p f cwd t l f' : create_eff p f cwd t = Some (l, f') -> fs_keeps f f'.
  Proof.
    unfold create_eff. destruct (resolve f cwd p) as [l0|]; [|discriminate]. destruct (p_slash p); [discriminate|].
    destruct (lookup f l0) as [[| | |]|] eqn:El; try discriminate; intro H; inv H; apply fs_keeps_set;
      left; eexists _, _; reflexivity.
  Qed.
  Lemma append_keeps l d f t : fs_keeps f (append l d f t).
  Proof.
    unfold append. destruct (lookup f l) as [[| | |]|] eqn:El; try (intro; auto; fail).
    apply fs_keeps_set. left. eexists _, _. reflexivity.
  Qed.
  Lemma keeps_set_fs w w1 f : ticked w w1 -> fs_keeps (w_fs w) f -> keeps_files w (set_fs w1 f).
  Proof. intros _ K l P. apply K, P. Qed.
  Lemma same_set_fs w w1 f : ticked w w1 -> same_db w (set_fs w1 f).
  Proof. intros (t & r & ->). repeat split. Qed.
End FsFacts.

(** ** Database relations *)
Section DbRel.
  Context {E : Env}.
  Class DbRel (R : world -> world -> Prop) := {
    dr_trans :> Transitive R;
    dr_same : forall w w', same_db w w' -> keeps_files w w' -> R w w';
    dr_lost : forall w, R w (set_txn w NoTxn)
  }.
  (** ... that do not care about files either. *)
  Class DbOnly (R : world -> world -> Prop) := { do_same : forall w w', same_db w w' -> R w w' }.
  Class DbPut (R : world -> world -> Prop) := {
    dr_hash : forall w d, R w (set_hashed w (d :: w_hashed w));
    dr_put : forall w d, R w
      (put_db (upd_data (insert_or_ignore (as_db_key (Blake3B (blake3 d))) d) (cur_db w))
              (set_hashed w (d :: w_hashed w)))
  }.
  Class DbRefs (R : world -> world -> Prop) := {
    dr_head : forall w h, R w (put_db (upd_state (insert_or_replace (str "HEAD") h) (cur_db w)) w);
    dr_push : forall w n r k, R w
      (put_db (upd_reflog (fun rows => rows ++ [Row (next_id rows) n r (as_db_key k)]) (cur_db w)) w)
  }.
  Class DbProc (R : world -> world -> Prop) := {
    dr_begin : forall w, w_txn w = NoTxn -> R w (set_txn w TxnClean);
    dr_commit : forall w, R w (commit_now w)
  }.
  Class DbOpen (R : world -> world -> Prop) := {
    dr_open : forall w p l w', open_db_eff p w = Some (l, w') -> R w w';
    dr_connect : forall w l, R w (set_txn (set_conn w l) NoTxn);
    dr_init : forall w l h, R w (set_dbs w
      (assoc_set l (upd_state (insert_or_replace (str "HEAD") h) (db_at (w_dbs w) l)) (w_dbs w)))
  }.
  Context (R : world -> world -> Prop) {D : DbRel R}.

  Lemma dr_refl w : R w w.
  Proof. apply dr_same; reflexivity. Qed.
  Instance dr_pre : PreOrder R.
  Proof. split; [intro; apply dr_refl|exact _]. Qed.
  Lemma dr_ticked w w1 : ticked w w1 -> R w w1.
  Proof. intro T. apply ticked_same in T as [T1 T2]. apply dr_same; [exact T1|apply keeps_eq, T2]. Qed.
  Lemma dr_ticked_lost w w1 : ticked w w1 -> R w (set_txn w1 NoTxn).
  Proof. intro T. etransitivity; [apply dr_ticked, T|apply dr_lost]. Qed.
  Hint Resolve dr_ticked dr_ticked_lost : core.

  #[export] Instance DbRel_Rd : RdPrims R.
  Proof.
    constructor.
    - exact _.
    - intros A q. apply rel_op. intros [] w w1 T; cbn; auto.
    - intros t a. apply rel_op. intros [] w w1 T; cbn; auto.
      etransitivity; [apply dr_ticked, T|]. apply dr_same; [repeat split|apply keeps_eq; reflexivity].
    - intros d. apply rel_op. intros [] w w1 T; cbn; auto.
      etransitivity; [apply dr_ticked, T|]. apply dr_same; [repeat split|apply keeps_eq; reflexivity].
    - intros A q. apply rel_op. intros [] w w1 T; cbn; auto. destruct (q (w_fs w1) (w_cwd w1)); cbn; auto.
    - intros p. apply rel_op. intros f w w1 T. destruct (stat _ _ p) as [[l [| | |]]|], f as [|[|]| |]; cbn; auto.
    - intros p. apply rel_op. intros f w w1 T. destruct (stat _ _ p) as [[l [| | |]]|], f as [|[|]| |]; cbn; auto.
  Qed.
  Lemma dr_set_fs w w1 f : ticked w w1 -> fs_keeps (w_fs w) f -> R w (set_fs w1 f).
  Proof. intros T K. apply dr_same; [eapply same_set_fs, T|eapply keeps_set_fs; eauto]. Qed.
  Lemma fs_keeps_refl f : fs_keeps f f. Proof. intro; auto. Qed.
  Lemma DbRel_mkdir p : rel R (fs_create_dir_all p).
  Proof.
    unfold fs_create_dir_all. destruct (is_empty_path p); [apply rel_ret; exact _|].
    apply rel_fs_change; [auto| |].
    - intros w w1 [] f' T H. apply dr_set_fs; [exact T|].
      destruct (mkdirs _ _ _ _) eqn:Em; inv H. eapply mkdirs_keeps; eauto.
    - intros w w1 n x T H. apply dr_set_fs; [exact T|].
      destruct (mkdirs (Some n) _ _ _) eqn:Em; [|apply fs_keeps_refl]. eapply mkdirs_keeps; eauto.
  Qed.
  #[export] Instance DbRel_Fs : FsPrims R.
  Proof.
    constructor.
    - apply DbRel_mkdir.
    - intro p. apply rel_fs_change; [auto| |].
      + intros w w1 a f' T H. apply dr_set_fs; [exact T|]. eapply create_new_keeps; eauto.
      + intros w w1 n x T H. apply dr_set_fs; [exact T|]. destruct n; [apply fs_keeps_refl|].
        rewrite H. destruct x. eapply create_new_keeps; eauto.
    - intros l d. apply rel_fs_change; [auto| |].
      + intros w w1 a f' T H. inv H. apply dr_set_fs; [exact T|]. apply append_keeps.
      + intros w w1 n x T H. apply dr_set_fs; [exact T|]. apply append_keeps.
  Qed.
  #[export] Instance DbOnly_Del {DO : DbOnly R} : DelPrims R.
  Proof.
    assert (S : forall A full partial, rel R (@fs_change A full partial)).
    { intros. apply rel_fs_change; [auto| |]; intros; apply do_same; eapply same_set_fs; eauto. }
    constructor; intro p; apply S.
  Qed.
  Lemma dr_quiet w w' : same_db w w' -> w_fs w' = w_fs w -> R w w'.
  Proof. intros H K. apply dr_same; [exact H|apply keeps_eq, K]. Qed.
  Lemma dr_ticked_quiet w w1 w' : ticked w w1 -> same_db w1 w' -> w_fs w' = w_fs w1 -> R w w'.
  Proof. intros T H K. etransitivity; [apply dr_ticked, T|apply dr_quiet; assumption]. Qed.
  #[export] Instance DbRel_Cache : CachePrims R.
  Proof.
    constructor.
    - intros A q. apply rel_op. intros [] w w1 T; cbn; auto; eapply dr_ticked_quiet; eauto; repeat split.
    - intros c k. apply rel_op. intros f w w1 T. unfold put_cache.
      destruct f as [| | |[|]]; cbn; auto; destruct (w_ctxn w1); cbn; auto; eapply dr_ticked_quiet; eauto; repeat split.
  Qed.
  #[export] Instance DbPut_Put {DP : DbPut R} : PutPrims R.
  Proof.
    constructor. intros d w. unfold put, bind at 1, hash. cbn [raw_put sqlite_ds].
    unfold sqlite_raw_put, bind, db_write.
    match goal with |- context [op ?e ?x] => destruct (op_case e x) as (fl & w1 & E1 & T) end.
    rewrite E1. clear E1.
    assert (H1 : R w w1) by (etransitivity; [apply (dr_hash w d)|apply dr_ticked, T]).
    assert (H2 : R w (put_db (upd_data (insert_or_ignore (as_db_key (Blake3B (blake3 d))) d) (cur_db w1)) w1)).
    { etransitivity; [apply (dr_put w d)|]. destruct T as (t & r & ->).
      apply dr_quiet; [repeat split|]; unfold put_db; cbn; destruct (w_txn w); reflexivity. }
    destruct fl as [| | |[|]]; cbn; auto. etransitivity; [exact H1|apply dr_lost].
  Qed.
  Lemma dr_put_ticked w w1 u : ticked w w1 -> R w (put_db (u (cur_db w)) w) -> R w (put_db (u (cur_db w1)) w1).
  Proof.
    intros T H. etransitivity; [exact H|]. destruct T as (t & r & ->).
    apply dr_quiet; [repeat split|]; unfold put_db; cbn; destruct (w_txn w); reflexivity.
  Qed.
  Lemma DbRel_write u : (forall w, R w (put_db (u (cur_db w)) w)) -> rel R (db_write u).
  Proof.
    intro H. apply rel_op. intros f w w1 T. assert (K := dr_put_ticked w w1 u T (H w)).
    destruct f as [| | |[|]]; cbn; auto.
  Qed.
  #[export] Instance DbRefs_Ref {DF : DbRefs R} : RefPrims R.
  Proof.
    constructor.
    - intro h. apply DbRel_write. intro w. apply dr_head.
    - intros [n k r]. apply DbRel_write. intro w. apply dr_push.
  Qed.
  Lemma DbRel_open {DX : DbOpen R} p : rel R (sqlite_open p).
  Proof.
    apply rel_op. intros f w w1 T. destruct (open_db_eff p w1) as [[l w']|] eqn:Eo.
    - assert (R w w') by (etransitivity; [apply dr_ticked, T|eapply dr_open, Eo]).
      destruct f as [|[|]| |[|]]; cbn; auto.
    - destruct f; cbn; auto.
  Qed.
  #[export] Instance DbOpen_Open {DX : DbOpen R} : OpenPrims R.
  Proof.
    constructor.
    - intro p. apply rel_bind; [exact _|apply DbRel_open|]. intros l w. apply dr_connect.
    - intros p h. apply rel_bind; [exact _|apply DbRel_open|]. intros l. apply rel_op. intros f w w1 T.
      destruct f as [| | |[|]]; cbn; auto; (etransitivity; [apply dr_ticked, T|apply dr_init]).
  Qed.
  #[export] Instance DbProc_Proc {DX : DbProc R} : ProcPrims R.
  Proof.
    constructor.
    - apply DbRel_mkdir.
    - apply rel_op. intros f w w1 T. destruct f; cbn; auto. destruct (w_txn w1) eqn:Et; cbn; auto.
      etransitivity; [apply dr_ticked, T|apply dr_begin, Et].
    - apply rel_op. intros f w w1 T. assert (K : R w (commit_now w1)) by (etransitivity; [apply dr_ticked, T|apply dr_commit]).
      destruct f as [| | |[|]]; cbn; auto. destruct (w_txn w1) eqn:Et; cbn; auto.
    - apply rel_op. intros f w w1 T. destruct f as [| | |[|]]; cbn; auto. destruct (w_txn w1) eqn:Et; cbn; auto.
    - apply rel_op. intros f w w1 T. destruct f; cbn; auto.
    - intro w. cbn. apply dr_quiet; repeat split.
    - apply rel_op. intros f w w1 T. destruct f; cbn; auto. destruct (w_ctxn w1); cbn; auto; eapply dr_ticked_quiet; eauto; repeat split.
    - apply rel_op. intros f w w1 T. unfold cache_commit_now.
      destruct f as [| | |[|]]; cbn; auto; try destruct (w_ctxn w1); cbn; auto; eapply dr_ticked_quiet; eauto; repeat split.
    - apply rel_op. intros f w w1 T. destruct f; cbn; auto; try destruct (w_ctxn w1); cbn; auto; eapply dr_ticked_quiet; eauto; repeat split.
  Qed.
End DbRel.
