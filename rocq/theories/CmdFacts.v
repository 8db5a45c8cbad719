(** The commit, status and checkout-head commands. *)
From Coq Require Import RelationClasses.
From Verif Require Import Base BaseFacts Key KeyFacts Keyish Cbor Object Path World WorldFacts Store File Filter Dir Diff Commit Main SpecStore StoreCalls SpecRun SpecProc
  SpecFile SpecDir SpecCache SpecDiff SpecShow SpecCmd StoreFacts TableFacts Frame DbRel Integrity ObjStoreFacts SessionFacts FsFacts FilePlan ObjectFacts FileFacts FileRun DirFacts DirPlan DirTree DirTrip HashFacts CacheFacts
  CompareFacts DiffFacts SnapFacts LineFacts ShowFacts ProcFacts QueryFacts InitFacts.

Section CmdFacts.
  Context {E : Env}.
  Notation ds := sqlite_ds.

  (** *** Reading references *)
  Lemma try_done {A} (m : M A) w r w' : try m w = (Done r, w') -> (exists a, r = Ok a /\ m w = (Done a, w')) \/ exists e, r = Err e /\ m w = (Error e, w').
  Proof. unfold try. destruct (m w) as [[] ?]; intro H; inversion H; subst; eauto. Qed.
  Lemma latest_done n w k w' : world_ok w -> reflog_get ds n None w = (Done k, w') -> ticked w w' /\ exists l, history n None (repo_of (cur_db w)) = k :: l.
  Proof.
    intros W H. cbn [reflog_get ds] in H. unfold sqlite_reflog_get in H. apply bind_done in H as (r & w1 & H1 & H). apply db_read_done in H1 as [T Q].
    rewrite (select_history _ _ _ _ (repo_of_abs _ _ (world_ok_cur _ W))) in Q. destruct (history n None (repo_of (cur_db w))) as [|k0 l]; cbn in Q; subst r; [discriminate H|].
    rewrite from_as_db_key in H. cbn in H. apply ret_done in H as [-> ->]. split; [exact T|]. eauto.
  Qed.
  Lemma latest_none n w w' : world_ok w -> reflog_get ds n None w = (Error ERefNotFound, w') -> ticked w w' /\ history n None (repo_of (cur_db w)) = [].
  Proof.
    intros W H. cbn [reflog_get ds] in H. unfold sqlite_reflog_get, bind in H. destruct (db_read _ w) as [o w1] eqn:Ed.
    destruct (db_read_cases (fun d => hd_error (select_reflog n None (d_reflog d))) w) as (w2 & T & Q). rewrite Ed in Q.
    destruct o as [r|e| | |]; try discriminate H.
    - apply db_read_done in Ed as [T1 ->]. rewrite (select_history _ _ _ _ (repo_of_abs _ _ (world_ok_cur _ W))) in H. destruct (history n None (repo_of (cur_db w))) as [|k0 l]; cbn [map hd_error] in H; [inversion H; subst; auto|].
      rewrite from_as_db_key in H. discriminate H.
    - destruct Q as [Q|[_ [Q|[Q|Q]]]]; inversion Q; subst; discriminate H.
  Qed.
  Lemma head_done w n w' : head_or_fail w = (Done n, w') -> ticked w w' /\ rp_head (repo_of (cur_db w)) = Some n.
  Proof.
    unfold head_or_fail, get_head. intro H. apply bind_done in H as (h & w1 & H1 & H). apply bind_done in H1 as (r & w2 & H2 & H1). apply db_read_done in H2 as [T ->].
    apply of_option_done in H as [-> ->]. cbn [repo_of rp_head]. destruct (assoc (str "HEAD") (d_state (cur_db w))) as [b|]; [|apply ret_done in H1 as [Q _]; discriminate Q].
    destruct (utf8_valid b); [|discriminate H1]. apply ret_done in H1 as [Q ->]. inversion Q; subst. auto.
  Qed.
  Lemma filter_done ex d w f w' : make_filter_fn ex d w = (Done f, w') -> f = filter_fn ex d /\ w' = w.
  Proof. unfold make_filter_fn. destruct (forallb glob_valid ex); intro H; [apply ret_done in H as [-> ->]; auto|discriminate H]. Qed.

  (** *** Storing objects *)
  Definition stores (w w' : world) : Prop :=
    adds_objects (cur_db w) (cur_db w') /\ incl (w_hashed w) (w_hashed w') /\ w_fs w' = w_fs w /\ w_cwd w' = w_cwd w /\ w_conn w' = w_conn w.
  #[local] Instance stores_pre : PreOrder stores.
  Proof.
    split; [intro w; split; [reflexivity|split; [apply incl_refl|auto]]|]. intros a b c (A & B & C & D & F) (A' & B' & C' & D' & F').
    split; [etransitivity; eauto|]. split; [eapply incl_tran; eauto|]. split; [congruence|]. split; congruence.
  Qed.
  Lemma stores_ticked w w1 : ticked w w1 -> stores w w1.
  Proof. intros (t & r & ->). split; [reflexivity|]. split; [apply incl_refl|auto]. Qed.
  Lemma stores_put o w k w1 : put_obj ds o w = (Done k, w1) -> stores w w1.
  Proof.
    intro H. pose proof (proj1 (puts_fs ds w [o] w1 quiet_sqlite (puts_put _ _ _ _ _ _ (eq_trans H (f_equal (fun x => (Done x, w1)) (proj1 (put_obj_key _ _ _ _ _ H)))) (puts_nil _ _)))) as F.
    pose proof (proj2 (puts_fs ds w [o] w1 quiet_sqlite (puts_put _ _ _ _ _ _ (eq_trans H (f_equal (fun x => (Done x, w1)) (proj1 (put_obj_key _ _ _ _ _ H)))) (puts_nil _ _)))) as F'.
    apply put_obj_put, put_done in H as (_ & C & Hh & _ & _ & Cn). split; [rewrite C; apply adds_put|]. rewrite Hh. split; [apply incl_tl, incl_refl|]. auto.
  Qed.
  Lemma stores_puts w l w' : puts ds w l w' -> stores w w'.
  Proof. induction 1 as [|w w1 l w' T _ IH|w o w1 l w' P _ IH]; [reflexivity|etransitivity; [apply stores_ticked, T|exact IH]|etransitivity; [eapply stores_put, P|exact IH]]. Qed.
  Lemma stores_item fuel p ex db w k w1 : put_fs_item ds fuel p (filter_fn ex db) w = (Done k, w1) -> stores w w1.
  Proof.
    intro H. destruct (put_fs_item_done ds quiet_sqlite (filter_fn ex db) (w_fs w) (w_cwd w) _ (filter_answers ex db (w_fs w) (w_cwd w)) fuel p w k w1) as (l & e & t & S & Sh & objs & P & U); [split; reflexivity|exact H|].
    eapply stores_puts, U.
  Qed.
  Lemma stores_still w w' : stores w w' -> still_stored w w'.
  Proof. intros ((_ & _ & D) & _). exact D. Qed.
  Lemma sort_short (l : list key) : length l <= 1 -> sort key_cmp l = l.
  Proof. destruct l as [|k [|k' l]]; cbn; intro H; try reflexivity. lia. Qed.

  (** *** commit *)
  Lemma push_log_cur (n : bytes) (k : key) d :
    repo_of (upd_reflog (fun rows => rows ++ [Row (next_id rows) n None (as_db_key k)]) d) =
    Repo (rp_objects (repo_of d)) (rp_head (repo_of d)) (Push n None k :: rp_log (repo_of d)).
  Proof. unfold repo_of. cbn [upd_reflog d_data d_state d_reflog rp_objects rp_head rp_log]. rewrite map_app, rev_app_distr. cbn [map rev app]. unfold push_of at 1. cbn [r_name r_remote r_key]. rewrite from_as_db_key. reflexivity. Qed.
  Lemma cur_put d w : cur_db (put_db d w) = d.
  Proof. unfold put_db, cur_db. destruct (w_txn w) eqn:T; cbn; rewrite ?T; try reflexivity. unfold disk. cbn. rewrite db_at_set, names_eqb_refl. reflexivity. Qed.
  Lemma commit_command cm s p m r w w' : world_ok w -> cmd_commit cm s p m r w = (Done tt, w') -> no_coll (w_hashed w') -> attrs_fits (Attrs m []) ->
    let old := repo_of (cur_db w) in
    exists name tree k w0 w1, (match r with Some n => name = n | None => rp_head old = Some name end) /\
      ticked w w0 /\ put_fs_item ds stack (match p with Some q => q | None => ds_repo s end) (filter_fn (cm_exclude cm) (ds_folder s)) w0 = (Done tree, w1) /\
      still_stored w1 w' /\ incl (w_hashed w1) (w_hashed w') /\
      is_commit w' k (Commit tree (firstn 1 (history name None old)) (Attrs m [])) /\
      rp_log (repo_of (cur_db w')) = Push name None k :: rp_log old /\ rp_head (repo_of (cur_db w')) = rp_head old /\ still_stored w w' /\
      w_fs w' = w_fs w /\ w_cwd w' = w_cwd w /\ w_conn w' = w_conn w.
  Proof.
    intros W H NC AF old. unfold cmd_commit in H. apply bind_done in H as (f & v1 & H1 & H). apply filter_done in H1 as [-> ->].
    apply bind_done in H as (name & v2 & H2 & H).
    assert (N : ticked w v2 /\ match r with Some n => name = n | None => rp_head old = Some name end).
    { destruct r as [n|]; cbn [refname_or_head] in H2; [apply ret_done in H2 as [-> ->]; split; [apply ticked_refl|reflexivity]|]. apply head_done in H2 as [T Q]. auto. }
    destruct N as [T2 N]. apply bind_done in H as (got & v3 & H3 & H). apply bind_done in H as (parents & v4 & H4 & H).
    assert (W2 : world_ok v2) by (exact (dr_ticked ok_rel w v2 T2 W)).
    assert (P : ticked v2 v4 /\ parents = firstn 1 (history name None old)).
    { unfold old. rewrite <- (cur_ticked _ _ T2). apply try_done in H3 as [(k0 & -> & H3)|(e & -> & H3)].
      - apply ret_done in H4 as [-> ->]. apply latest_done in H3 as [T (l & ->)]; [|exact W2]. auto.
      - destruct e; try discriminate H4. apply ret_done in H4 as [-> ->]. apply latest_none in H3 as [T ->]; [|exact W2]. auto. }
    destruct P as [T4 ->]. pose proof (ticked_trans _ _ _ T2 T4) as T24. apply bind_done in H as (tree & v5 & H5 & H). apply bind_done in H as (k & v6 & H6 & H).
    pose proof (stores_item _ _ _ _ _ _ _ H5) as S5. pose proof H6 as H6'. rewrite commit_tree_eq in H6. pose proof (stores_put _ _ _ _ H6) as S6.
    cbn [reflog_push ds] in H. unfold sqlite_reflog_push in H. apply db_write_done in H as (v7 & T7 & -> & C7). cbn [rl_name rl_remote rl_key] in *.
    assert (W4 : world_ok v4) by (exact (dr_ticked ok_rel w v4 T24 W)).
    assert (W5 : world_ok v5) by (pose proof (rel_put_fs_item ok_rel stack (filter_fn (cm_exclude cm) (ds_folder s)) (fun x => rel_filter_fn ok_rel _ _ x) (match p with Some q => q | None => ds_repo s end) v4) as Y; rewrite H5 in Y; exact (Y W4)).
    set (d7 := upd_reflog _ (cur_db v6)) in *. assert (C : cur_db (put_db d7 v7) = d7) by apply cur_put.
    assert (Hh : w_hashed (put_db d7 v7) = w_hashed v6) by (unfold put_db; destruct T7 as (t & q & ->); cbn; destruct (w_txn v6); reflexivity).
    assert (St7 : forall x v, assoc x (d_data (cur_db v6)) = Some v -> assoc x (d_data (cur_db (put_db d7 v7))) = Some v) by (intros x v X; rewrite C; exact X).
    exists name, tree, k, v4, v5. split; [exact N|]. split; [exact T24|]. split; [exact H5|].
    split; [intros x v X; apply St7, (stores_still _ _ S6), X|]. split; [rewrite Hh; apply S6|].
    destruct S5 as ((S5l & S5s & S5d) & S5i & S5f & S5c & S5n). destruct S6 as ((S6l & S6s & S6d) & S6i & S6f & S6c & S6n).
    split.
    - pose proof (commit_tree_done tree (firstn 1 (history name None old)) (Attrs m []) v5 k v6 W5 ltac:(rewrite <- Hh; exact NC) AF H6') as (o & R & Ty & Cm).
      rewrite sort_short in Cm by (rewrite firstn_length; lia). exists o. split; [eapply reads_still; [exact St7|exact R]|]. split; [exact Ty|exact Cm].
    - rewrite C. replace (repo_of d7) with (Repo (rp_objects (repo_of (cur_db v6))) (rp_head (repo_of (cur_db v6))) (Push name None k :: rp_log (repo_of (cur_db v6)))) by (symmetry; apply push_log_cur). cbn [rp_log rp_head].
      assert (L : rp_log (repo_of (cur_db v6)) = rp_log old /\ rp_head (repo_of (cur_db v6)) = rp_head old).
      { unfold old. rewrite <- (cur_ticked _ _ T24). unfold repo_of. cbn [rp_log rp_head]. rewrite S6l, S5l, S6s, S5s. auto. }
      destruct L as [L1 L2]. rewrite L1, L2. split; [reflexivity|]. split; [reflexivity|].
      split. { intros x v X. apply St7, S6d, S5d. rewrite (cur_ticked _ _ T24). exact X. }
      assert (G : w_fs (put_db d7 v7) = w_fs v6 /\ w_cwd (put_db d7 v7) = w_cwd v6 /\ w_conn (put_db d7 v7) = w_conn v6) by (unfold put_db; destruct T7 as (t & q & ->); cbn; destruct (w_txn v6); auto).
      destruct G as (G1 & G2 & G3). rewrite G1, G2, G3. destruct T24 as (t & q & ->). cbn in *. repeat split; congruence.
  Qed.

  (** *** Computing without output *)
  Definition silent (w w' : world) : Prop := w_out w' = w_out w /\ w_fs w' = w_fs w /\ w_cwd w' = w_cwd w /\ w_conn w' = w_conn w.
  #[local] Instance silent_pre : PreOrder silent.
  Proof. split; [intro w; repeat split|]. intros a b c (A & B & C & D) (A' & B' & C' & D'). repeat split; congruence. Qed.
  Lemma silent_op {A} (eff : fault -> M A) : (forall f w, silent w (snd (eff f w))) -> rel silent (op eff).
  Proof. intros H. apply rel_op. intros f w w1 (t & r & ->). exact (H f (set_faults (set_tick w t) r)). Qed.
  Ltac sil := split; [reflexivity|split; [reflexivity|split; reflexivity]].
  #[local] Instance silent_Quiet : QuietPrims silent.
  Proof.
    constructor; [exact _|..].
    - intros A q. apply silent_op. intros [] w; sil.
    - intros A q. apply silent_op. intros [] w; cbn; try sil. destruct (q _ _); sil.
    - intros p. apply silent_op. intros f w. destruct (stat _ _ p) as [[l [| | |]]|], f as [|[|]| |]; sil.
    - intros p. apply silent_op. intros f w. destruct (stat _ _ p) as [[l [| | |]]|], f as [|[|]| |]; sil.
  Qed.
  Lemma silent_put_db d w : silent w (put_db d w).
  Proof. unfold put_db. destruct (w_txn w); sil. Qed.
  Lemma silent_write u : rel silent (db_write u).
  Proof. apply silent_op. intros [| | |[|]] w; cbn; first [apply silent_put_db|sil|idtac]. Qed.
  #[local] Instance silent_Put : PutPrims silent.
  Proof.
    constructor. intro d. unfold put. apply rel_bind; [exact _| |intro k].
    - intro w. sil.
    - apply rel_bind; [exact _|apply silent_write|intros _; apply rel_ret; exact _].
  Qed.
  #[local] Instance silent_Cache : CachePrims silent.
  Proof.
    constructor.
    - intros A q. apply silent_op. intros [] w; sil.
    - intros c k. apply silent_op. unfold put_cache. intros [| | |[|]] w; cbn; try sil; destruct (w_ctxn w); sil.
  Qed.
  Lemma compare_silent from to w o w' : compare ds from to w = (o, w') -> silent w w'.
  Proof. intro H. pose proof (rel_compare silent from to w) as X. rewrite H in X. exact X. Qed.
  Lemma latest_error n w e w' : world_ok w -> reflog_get ds n None w = (Error e, w') ->
    silent w w' /\ (e = ERefNotFound -> ticked w w' /\ history n None (repo_of (cur_db w)) = []) /\ (e <> ERefNotFound -> ~ no_errors w).
  Proof.
    intros W H. split; [pose proof (rel_reflog_get silent n None w) as Y; rewrite H in Y; exact Y|].
    cbn [reflog_get ds] in H. unfold sqlite_reflog_get, bind in H. destruct (db_read _ w) as [o w1] eqn:Ed.
    destruct o as [r|e1| | |]; try discriminate H.
    - apply db_read_done in Ed as [T1 ->]. rewrite (select_history _ _ _ _ (repo_of_abs _ _ (world_ok_cur _ W))) in H. destruct (history n None (repo_of (cur_db w))) as [|k0 l] eqn:Eh; cbn [map hd_error] in H; [inversion H; subst|].
      + split; [auto|intro X; destruct X; reflexivity].
      + rewrite from_as_db_key in H. discriminate H.
    - inversion H; subst e1 w1; clear H. unfold db_read, op in Ed. cbn zeta in Ed. cbn [w_faults set_tick] in Ed. destruct (w_faults w) as [|f r] eqn:Ef; [discriminate Ed|].
      destruct f; inversion Ed; subst; (split; [discriminate|]); intros _ NE; destruct (NE _ ltac:(rewrite Ef; left; reflexivity)) as [X|[n' X]]; discriminate X.
  Qed.
  Lemma nothing_printed r : nothing_differs r -> forall w, print_diff_result r w = (Done tt, w).
  Proof. destruct r as [a b c]. intros (X & Y & Z) w. cbn in X, Y, Z. subst. reflexivity. Qed.

  (** *** Reading a branch's tree *)
  Lemma alike_ticked w v : ticked w v -> alike w v.
  Proof. intros (t & r & ->). repeat (split; [reflexivity|]). reflexivity. Qed.
  Lemma alike_out w o : alike w (set_out w o).
  Proof. repeat (split; [reflexivity|]). reflexivity. Qed.
  Lemma alike_trans a b c : alike a b -> alike b c -> alike a c.
  Proof. intros (A & B & C & D & F & G & H & I) (A' & B' & C' & D' & F' & G' & H' & I'). repeat (split; [congruence|]). congruence. Qed.
  Lemma alike_cur w v : alike w v -> cur_db v = cur_db w.
  Proof. intros (_ & _ & A & B & C & _). unfold cur_db, disk. rewrite A, B, C. reflexivity. Qed.
  Lemma alike_ok w v : alike w v -> world_ok w -> world_ok v.
  Proof. intros (A & B & C & D & F & G & H & I) W. apply (dr_same (R := ok_rel) w v); [repeat split; assumption|apply keeps_eq, A|exact W]. Qed.
  Lemma alike_order w v : alike w v -> in_order w -> in_order v.
  Proof.
    intros (A & B & C & D & F & G & H & I) (O & T & R1 & R2). unfold in_order. rewrite A. split; [exact O|]. split; [exact T|].
    split; [intros l c st k L K|intros l c st k L K]; rewrite looked_up_eq in K; cbn [w_fs set_ctxn w_hashed] in *; rewrite A in L; rewrite I.
    - apply (R1 l c st k L). rewrite looked_up_eq. unfold cur_cache in *. rewrite G, H in K. exact K.
    - apply (R2 l c st k L). rewrite looked_up_eq. unfold cur_cache in *. cbn in *. rewrite G in K. exact K.
  Qed.
  Lemma commit_key_done k w c w' : commit_from_key ds k w = (Done c, w') -> ticked w w' /\ reads_commit w k c.
  Proof.
    unfold commit_from_key. intro H. apply bind_done in H as (o & w1 & H1 & H). pose proof (get_reads _ _ _ _ H1) as R. apply unwrap_done in H1. apply get_obj_done in H1 as (T & _).
    apply unwrap_done in H. apply commit_done in H as [-> C]. split; [exact T|]. exists o. auto.
  Qed.
  Lemma reads_commit_fun w k c c' : reads_commit w k c -> reads_commit w k c' -> c = c'.
  Proof. intros (o & R & C) (o' & R' & C'). pose proof (reads_fun _ _ _ _ R R'); subst. specialize (C w). rewrite C' in C. congruence. Qed.
  Lemma commit_reads w k c : is_commit w k c -> reads_commit w k c.
  Proof. intros (o & R & _ & C). exists o. auto. Qed.
  Lemma reads_commit_cur w v k c : cur_db v = cur_db w -> reads_commit w k c -> reads_commit v k c.
  Proof. intros C (o & R & Q). exists o. split; [|exact Q]. apply (reads_still w v); [|exact R]. intros h x X. rewrite C. exact X. Qed.
  Lemma printed t a w w' : print t a w = (Done tt, w') -> alike w w' /\ w_out w' = Printed t a :: w_out w.
  Proof.
    intro H. split; [|apply print_done, H]. unfold print in H. match type of H with op ?e ?x = _ => destruct (op_case e x) as (f & v & Eo & T) end. rewrite Eo in H.
    destruct f; inversion H; subst. eapply alike_trans; [apply alike_ticked, T|apply alike_out].
  Qed.

  (** *** status *)
  Lemma status_clean cm s w w' name k l c w0 : world_ok w -> cmd_status cm s w = (Done tt, w') ->
    rp_head (repo_of (cur_db w)) = Some name -> history name None (repo_of (cur_db w)) = k :: l -> reads_commit w k c ->
    snapshot w0 (cm_exclude cm) (ds_folder s) (ds_repo s) (c_tree c) w -> w_fs w0 = w_fs w -> w_cwd w0 = w_cwd w ->
    in_order w -> steady_reads -> no_coll (w_hashed w') ->
    w_out w' = Printed "HEAD:" [name; firstn 8 (as_user_key k)] :: w_out w \/
    ~ no_errors w /\ w_out w' = Printed "HEAD (no commits):" [name; name] :: w_out w.
  Proof.
    intros W H Hd Hi Rc Sn Fs Cw O St NC. unfold cmd_status in H.
    apply bind_done in H as (n & v1 & H1 & H). pose proof (rel_head_or_fail fewer w) as Fw. rewrite H1 in Fw. apply head_done in H1 as [T1 Q]. rewrite Hd in Q. inversion Q; subst n; clear Q.
    assert (U1 : w_out v1 = w_out w) by (destruct T1 as (? & ? & ->); reflexivity). apply alike_ticked in T1. pose proof (alike_cur _ _ T1) as C1.
    apply bind_done in H as (got & v2 & H2 & H). apply try_done in H2 as [(k2 & -> & H2)|(e & -> & H2)].
    - left. apply latest_done in H2 as [T2 (l2 & H2)]; [|eapply alike_ok; eassumption]. rewrite C1, Hi in H2. inversion H2; subst k2 l2; clear H2.
      assert (U2 : w_out v2 = w_out v1) by (destruct T2 as (? & ? & ->); reflexivity). apply alike_ticked in T2. pose proof (alike_trans _ _ _ T1 T2) as T12. apply bind_done in H as ([] & v3 & H3 & H). apply printed in H3 as [T3 O3].
      pose proof (alike_trans _ _ _ T12 T3) as T13. apply bind_done in H as (c' & v4 & H4 & H). apply commit_key_done in H4 as [T4 R4].
      assert (Q : c' = c) by (refine (reads_commit_fun v3 k _ _ R4 (reads_commit_cur w v3 _ _ (alike_cur _ _ T13) Rc))). subst c'.
      pose proof (alike_trans _ _ _ T13 (alike_ticked _ _ T4)) as T14.
      assert (O4 : w_out v4 = Printed "HEAD:" [name; firstn 8 (as_user_key k)] :: w_out w).
      { assert (X : w_out v4 = w_out v3) by (destruct T4 as (? & ? & ->); reflexivity). rewrite X, O3, U2, U1. reflexivity. }
      apply bind_done in H as (r & v5 & H5 & H). pose proof (compare_silent _ _ _ _ _ H5) as (S5 & _).
      assert (NC5 : no_coll (w_hashed v5)) by (pose proof (rel_print_diff_result fr r v5) as Y; rewrite H in Y; destruct Y as (_ & _ & Y); eapply no_coll_incl; [exact Y|exact NC]).
      assert (Sb : tidy w (c_tree c) /\ (forall x k' d, in_tree w (c_tree c) x k' d -> exists e, snapped w0 (cm_exclude cm) (ds_folder s) (ds_repo s) x e /\ leaf (w_hashed w) e k' d) /\
        (forall x e, snapped w0 (cm_exclude cm) (ds_folder s) (ds_repo s) x e -> (x = [] -> e <> EDir) -> exists k' d, in_tree w (c_tree c) x k' d)).
      { apply snapshot_tree; [exact St| |exact Sn]. eapply no_coll_incl; [|exact NC5]. pose proof (rel_compare fr (TFileSystem (ds_repo s) (cm_exclude cm) (ds_folder s)) (Some (c_tree c)) v4) as Y. rewrite H5 in Y. destruct Y as (_ & _ & Y).
        destruct T14 as (_ & _ & _ & _ & _ & _ & _ & Y'). rewrite Y' in Y. exact Y. }
      assert (Em : nothing_differs r).
      { eapply same_clean; [exact St| |eapply alike_order; eassumption|exact H5| |].
        - eapply snapshot_kept; [exact Sn|]. split; [intros h x X; rewrite (alike_cur _ _ T14); exact X|]. destruct T14 as (_ & _ & _ & _ & _ & _ & _ & ->). apply incl_refl.
        - exact NC5.
        - intros x e (N & L & J). destruct T14 as (A & B & _). rewrite A, B in *. exists e. split.
          + split; [rewrite Fs, Cw; exact L|rewrite Cw; exact J].
          + destruct Sb as (_ & A' & B'). assert (Sx : snapped w0 (cm_exclude cm) (ds_folder s) (ds_repo s) x e) by (split; [rewrite Fs, Cw; exact L|rewrite Cw; exact J]).
            destruct (B' x e Sx) as (k' & d & It); [intros ->; destruct N; reflexivity|]. destruct (A' _ _ _ It) as (e' & [Se _] & Lf). destruct Sx as [Sx _]. rewrite Sx in Se. inversion Se; subst e'.
            destruct Lf as [(-> & _)|(cc & st & -> & _)]; eauto 6. }
      rewrite (nothing_printed _ Em) in H. inversion H; subst. congruence.
    - right. apply printed in H as [_ O3].
      apply latest_error in H2 as ((T2 & _) & Y1 & Y2); [|eapply alike_ok; eassumption]. split; [|rewrite O3, <- U1, T2; reflexivity].
      intro NE. apply Y2; [intros ->; rewrite C1, Hi in Y1; discriminate (proj2 (Y1 eq_refl))|]. intros f If. apply NE, Fw, If.
  Qed.

  (** *** Without errors *)
  Definition sound (w w' : world) : Prop := no_errors w -> no_errors w' /\ adds_objects (cur_db w) (cur_db w').
  #[local] Instance sound_pre : PreOrder sound.
  Proof. split; [intros w N; split; [exact N|reflexivity]|]. intros a b c H K N. destruct (H N) as [N1 A1]. destruct (K N1) as [N2 A2]. split; [exact N2|etransitivity; eauto]. Qed.
  Lemma sound_op {A} (eff : fault -> M A) :
    (forall f w, f = FOk \/ (exists n, f = FCrash n) -> w_faults (snd (eff f w)) = w_faults w /\ adds_objects (cur_db w) (cur_db (snd (eff f w)))) -> rel sound (op eff).
  Proof.
    intros H w N. unfold op. cbn zeta. cbn [w_faults set_tick]. unfold no_errors in *. destruct (w_faults w) as [|f r] eqn:Ef.
    - destruct (H FOk (set_tick w (S (w_tick w)))) as [F X]; [auto|]. split; [rewrite F; cbn; rewrite Ef; exact N|exact X].
    - destruct (H f (set_faults (set_tick w (S (w_tick w))) r)) as [F X]; [apply N; left; reflexivity|].
      split; [rewrite F; cbn; intros g I; apply N; right; exact I|exact X].
  Qed.
  Ltac so := apply sound_op; intros ? ? [->|[[|?] ->]]; cbn; try (split; reflexivity).
  #[local] Instance sound_Rd : RdPrims sound.
  Proof.
    constructor; [exact _|..].
    - intros A q. so.
    - intros t a. so.
    - intros d. so.
    - intros A q. so. destruct (q _ _); split; reflexivity.
    - intros p. apply sound_op. intros f w N. destruct (stat _ _ p) as [[l [| | |]]|]; destruct N as [->|[[|?] ->]]; cbn; split; reflexivity.
    - intros p. apply sound_op. intros f w N. destruct (stat _ _ p) as [[l [| | |]]|]; destruct N as [->|[[|?] ->]]; cbn; split; reflexivity.
  Qed.
  Lemma put_db_faults d w : w_faults (put_db d w) = w_faults w.
  Proof. unfold put_db. destruct (w_txn w); reflexivity. Qed.
  #[local] Instance sound_Put : PutPrims sound.
  Proof.
    constructor. intro d. unfold put. apply rel_bind; [exact _| |intro k].
    - intros w N. split; [exact N|reflexivity].
    - apply rel_bind; [exact _| |intros _; apply rel_ret; exact _]. unfold db_write. so; rewrite put_db_faults, cur_put; (split; [reflexivity|apply adds_put]).
  Qed.
  #[local] Instance sound_Cache : CachePrims sound.
  Proof.
    constructor.
    - intros A q. so.
    - intros c k. unfold cache_put, cache_write, put_cache. so; destruct (w_ctxn _); split; reflexivity.
  Qed.
  (** *** checkout-head *)
  Lemma head_command cm s n w w' : world_ok w -> no_errors w -> cmd_checkout_head cm s n w = (Done tt, w') ->
    exists to v r v', head_tree w to /\
      alike w v /\ compare ds (TFileSystem (ds_repo s) (cm_exclude cm) (ds_folder s)) to v = (Done r, v') /\
      if diff_result_empty r
      then d_reflog (cur_db w') = d_reflog (cur_db w) /\ d_state (cur_db w') = insert_or_replace (str "HEAD") n (d_state (cur_db w))
      else same_refs (cur_db w) (cur_db w').
  Proof.
    intros W NE H. unfold cmd_checkout_head in H.
    apply bind_done in H as (name & v1 & H1 & H). pose proof (rel_head_or_fail fewer w) as Fw. rewrite H1 in Fw. apply (fewer_no_errors w v1) in NE; [|exact Fw].
    apply head_done in H1 as [T1 Hd]. apply alike_ticked in T1. pose proof (alike_cur _ _ T1) as C1. pose proof (alike_ok _ _ T1 W) as W1.
    apply bind_done in H as (got & v2 & H2 & H). apply bind_done in H as (to & v3 & H3 & H).
    assert (X : alike w v3 /\ match to with
       | None => history name None (repo_of (cur_db w)) = []
       | Some t => exists k l c, history name None (repo_of (cur_db w)) = k :: l /\ reads_commit w k c /\ t = c_tree c
       end).
    { apply try_done in H2 as [(k & -> & H2)|(e & -> & H2)].
      - apply latest_done in H2 as [T2 (l & Hi)]; [|exact W1]. pose proof (alike_trans _ _ _ T1 (alike_ticked _ _ T2)) as T12. apply bind_done in H3 as (c & v & H4 & H3). apply ret_done in H3 as [-> ->].
        apply commit_key_done in H4 as [T4 R]. split; [exact (alike_trans _ _ _ T12 (alike_ticked _ _ T4))|]. exists k, l, c. rewrite <- C1. split; [exact Hi|]. split; [|reflexivity].
        eapply reads_commit_cur; [|exact R]. symmetry. apply alike_cur, T12.
      - apply ret_done in H3 as [-> ->]. apply latest_error in H2 as (_ & Y1 & Y2); [|exact W1]. assert (Q : e = ERefNotFound \/ e <> ERefNotFound) by (destruct e; try (left; reflexivity); right; discriminate).
        destruct Q as [Q|Q]; [|destruct (Y2 Q NE)]. destruct (Y1 Q) as [T2 Hi]. rewrite <- C1. split; [exact (alike_trans _ _ _ T1 (alike_ticked _ _ T2))|exact Hi]. }
    destruct X as [T3 Tr]. apply bind_done in H as (r & v4 & H4 & H).
    exists to, v3, r, v4. split; [exists name; auto|]. split; [exact T3|]. split; [exact H4|].
    rewrite <- (alike_cur _ _ T3).
    assert (N3 : no_errors v3).
    { apply (fewer_no_errors v1 v3); [|exact NE]. pose proof (rel_try fewer (reflog_get ds name None) (rel_reflog_get fewer name None) v1) as Y. rewrite H2 in Y.
      etransitivity; [exact Y|]. cbn [snd]. assert (G : rel fewer (match got with Ok k => c <- commit_from_key ds k ;; ret (Some (c_tree c)) | Err _ => ret None end)).
      { destruct got; [|apply rel_ret; exact _]. apply rel_bind; [exact _|apply rel_commit_from_key; exact _|intro; apply rel_ret; exact _]. }
      specialize (G v2). rewrite H3 in G. exact G. }
    pose proof (rel_compare sound (TFileSystem (ds_repo s) (cm_exclude cm) (ds_folder s)) to v3) as Y. rewrite H4 in Y. destruct (Y N3) as [N4 (L4 & S4 & _)]. cbn [snd] in *.
    destruct (diff_result_empty r).
    - apply bind_done in H as ([] & v5 & H5 & H). apply printed in H as [T6 _]. rewrite (alike_cur _ _ T6). cbn [put_head ds] in H5. unfold put_head in H5. cbn [raw_put_state ds] in H5. unfold sqlite_raw_put_state in H5.
      apply db_write_done in H5 as (v & T & -> & C5). rewrite cur_put. cbn [upd_state d_reflog d_state]. rewrite L4, S4. auto.
    - assert (Z : rel sound (print "Cannot checkout: working directory is not clean" [] ;;; print_diff_result r)) by (apply rel_bind; [exact _|apply rp_print|intros _; apply rel_print_diff_result; exact _]).
      specialize (Z v4 N4). rewrite H in Z. destruct Z as [_ (L5 & S5 & _)]. cbn [snd] in *. split; congruence.
  Qed.
  (** C51 *)
  Theorem head_moves cm n w l code w' : reachable w -> there w l -> no_errors w -> run_process cm (CCheckoutHead n) w = (code, w') ->
    same_refs (db_at (w_dbs w) l) (db_at (w_dbs w') l) \/
    exists s w1 to v r v', starts cm w (Some s) w1 /\ w_conn w1 = l /\ cur_db w1 = db_at (w_dbs w) l /\
      head_tree w1 to /\ alike w1 v /\ compare ds (TFileSystem (ds_repo s) (cm_exclude cm) (ds_folder s)) to v = (Done r, v') /\ nothing_differs r /\
      d_reflog (db_at (w_dbs w') l) = d_reflog (db_at (w_dbs w) l) /\ d_state (db_at (w_dbs w') l) = insert_or_replace (str "HEAD") n (d_state (db_at (w_dbs w) l)).
  Proof.
    intros Rw TH NE RP. pose proof (close_all_world_ok _ (reachable_ok _ Rw)) as W. destruct (all_or_nothing cm (CCheckoutHead n) w l code w') as [Q|(s & w1 & w2 & S & Cn & Rc & D1 & D2)]; auto using no_errors_rollback, no_errors_begins; [discriminate| |].
    - left. rewrite Q. split; reflexivity.
    - cbn [run_command with_ds] in Rc. assert (W1 : world_ok w1) by (pose proof (rel_setup ok_rel cm (close_all w)) as Y; unfold starts in S; rewrite S in Y; exact (Y W)).
      assert (N1 : no_errors w1) by (pose proof (fewer_setup cm (close_all w)) as Y; unfold starts in S; rewrite S in Y; intros f I; apply NE, Y, I).
      apply head_command in Rc as (to & v & r & v' & Tr & A & Cp & St); auto. destruct (diff_result_empty r) eqn:Er.
      + right. exists s, w1, to, v, r, v'. rewrite D2, <- D1. destruct St as [St1 St2]. assert (Nd : nothing_differs r) by (unfold diff_result_empty in Er; destruct r as [[|] [|] [|]]; try discriminate Er; repeat split). auto 12.
      + left. rewrite D2, <- D1. exact St.
  Qed.
  (** Nothing but fetch, checkout and init changes files. *)
  #[local] Instance fr_Ref : RefPrims fr.
  Proof. split; intros; apply rel_fr; [apply rf_head|apply rf_push]. Qed.
  Lemma files_kept cm s c : (match c with CFetch _ _ | CCheckout | CInit => false | _ => true end) = true -> rel fr (run_command cm (Some s) c).
  Proof.
    destruct c; intro H; try discriminate H; cbn [run_command with_ds].
    - apply rel_cmd_insert; exact _.
    - apply rel_cmd_commit; exact _.
    - apply rel_cmd_pretty_print; exact _.
    - apply rel_cmd_commit_tree; exact _.
    - apply rel_cmd_reflog_get; exact _.
    - apply rel_cmd_reflog_push; exact _.
    - apply rel_cmd_walk_tree; exact _.
    - apply rel_cmd_walk_fs_tree; exact _.
    - apply rel_cmd_set_head; exact _.
    - apply rel_cmd_get_head; exact _.
    - apply rel_cmd_show; exact _.
    - apply rel_cmd_log; exact _.
    - apply rel_cmd_compare; exact _.
    - apply rel_cmd_status; exact _.
    - apply rel_cmd_checkout_head; exact _.
    - apply rel_cmd_ref_log; exact _.
    - apply rel_cmd_ref_update; exact _.
  Qed.

  (** *** The commit and status commands *)
  Lemma pushed_history n rm p r r' : rp_log r' = p :: rp_log r -> history n rm r' = (if pushed_under n rm p then [ph_key p] else []) ++ history n rm r.
  Proof. unfold history. intros ->. cbn [filter]. destruct (pushed_under n rm p); reflexivity. Qed.
  Theorem commit_works cm w s w1 p m r w2 : reachable w -> starts cm w (Some s) w1 -> fs_ok (w_fs w1) ->
    run_command cm (Some s) (CCommit p m r) w1 = (Done tt, w2) -> no_coll (w_hashed w2) -> attrs_fits (Attrs m []) ->
    exists name tree k w0, branch_of r (repo_of (cur_db w1)) name /\ w_fs w0 = w_fs w1 /\ w_cwd w0 = w_cwd w1 /\
      snapshot w0 (cm_exclude cm) (ds_folder s) (match p with Some q => q | None => ds_repo s end) tree w2 /\
      is_commit w2 k (Commit tree (firstn 1 (history name None (repo_of (cur_db w1)))) (Attrs m [])) /\
      one_push (repo_of (cur_db w1)) (repo_of (cur_db w2)) (Push name None k) /\ w_fs w2 = w_fs w1 /\ w_cwd w2 = w_cwd w1 /\ w_conn w2 = w_conn w1.
  Proof.
    intros Rw S O H NC AF. pose proof (wk_start _ _ _ _ Rw S) as Wk. cbn [run_command with_ds] in H.
    apply commit_command in H as (name & tree & k & w0 & v1 & N & T0 & P & SS & I & C & L & Hd & S2 & F2 & C2 & N2); auto using working_ok.
    exists name, tree, k, w0. split; [exact N|]. assert (F0 : w_fs w0 = w_fs w1 /\ w_cwd w0 = w_cwd w1) by (destruct T0 as (? & ? & ->); auto). destruct F0 as [F0 C0]. split; [exact F0|]. split; [exact C0|].
    split.
    - exists stack, v1. split; [apply (wk_other w1); [exact Wk|destruct T0 as (? & ? & ->); reflexivity..]|]. split; [rewrite F0; exact O|]. split; [exact P|]. split; [exact SS|exact I].
    - split; [exact C|]. split; [|auto]. split; [exact L|]. split; [exact Hd|]. exact S2.
  Qed.
  Theorem status_after_commit cm w s w1 m w2 v v1 v2 : reachable w -> starts cm w (Some s) w1 -> fs_ok (w_fs w1) ->
    run_command cm (Some s) (CCommit None m None) w1 = (Done tt, w2) -> attrs_fits (Attrs m []) ->
    reachable v -> starts cm v (Some s) v1 -> cur_db v1 = cur_db w2 -> incl (w_hashed w2) (w_hashed v1) -> w_fs v1 = w_fs w2 -> w_cwd v1 = w_cwd w2 -> in_order v1 -> steady_reads ->
    run_command cm (Some s) CStatus v1 = (Done tt, v2) -> no_coll (w_hashed v2) ->
    exists name k, rp_head (repo_of (cur_db w2)) = Some name /\
      (w_out v2 = Printed "HEAD:" [name; firstn 8 (as_user_key k)] :: w_out v1 \/
       ~ no_errors v1 /\ w_out v2 = Printed "HEAD (no commits):" [name; name] :: w_out v1).
  Proof.
    intros Rw S O H AF Rv Sv D I F C Or St Hs NC.
    assert (NC1 : no_coll (w_hashed v1)). { pose proof (files_kept cm s CStatus eq_refl v1) as Y. rewrite Hs in Y. destruct Y as (_ & _ & Y). eapply no_coll_incl; [exact Y|exact NC]. }
    assert (NC2 : no_coll (w_hashed w2)) by (eapply no_coll_incl; eauto).
    destruct (commit_works _ _ _ _ _ _ _ _ Rw S O H NC2 AF) as (name & tree & k & w0 & N & F0 & C0 & Sn & Ic & (L & Hd & _) & F2 & C2 & _).
    cbn [branch_of] in N. exists name, k. split; [congruence|]. cbn [run_command with_ds] in Hs.
    assert (SS : still_stored w2 v1) by (intros h x X; rewrite D; exact X).
    eapply (status_clean cm s v1 v2 name k _ _ w0); [exact (working_ok _ (wk_start _ _ _ _ Rv Sv))|exact Hs|rewrite D; congruence| | | |congruence|congruence|exact Or|exact St|exact NC].
    - rewrite D. rewrite (pushed_history _ _ _ _ _ L). replace (pushed_under name None (Push name None k)) with true; [reflexivity|]. unfold pushed_under. cbn. rewrite bytes_eqb_refl. reflexivity.
    - apply commit_reads. destruct Ic as (o & R & Ty & Cm). exists o. split; [eapply reads_still; [exact SS|exact R]|]. split; [exact Ty|exact Cm].
    - eapply snapshot_kept; [exact Sn|]. split; [exact SS|exact I].
  Qed.
  (** *** From one process to the next *)
  Lemma next_process cm c w code w' s w1 w2 st v1 : run_process cm c w = (code, w') ->
    starts cm w (Some s) w1 -> run_command cm (Some s) c w1 = (Done tt, w2) -> commit_ok_next w2 ->
    there w' (w_conn w2) -> starts cm w' st v1 -> w_conn v1 = w_conn w2 ->
    cur_db v1 = cur_db w2 /\ incl (w_hashed w2) (w_hashed v1).
  Proof.
    intros RP S Rc NX TH S' Cn. pose proof (commit_durable _ _ _ _ _ _ _ _ RP S Rc NX) as D.
    pose proof (before_setup cm (close_all w')) as X. unfold starts in S'. rewrite S' in X. destruct X as (Hh & _ & _ & X). cbn in *.
    split.
    - rewrite <- D, <- (X _ TH). destruct (setup_txn _ _ _ _ S') as [_ N]. unfold cur_db, disk. rewrite Cn. destruct (w_txn v1) eqn:T; try reflexivity. destruct (N _ eq_refl).
    - rewrite Hh. unfold run_process in RP. rewrite main_split in RP. unfold starts in S. unfold bind at 1 in RP. rewrite S in RP. unfold bind at 1, try in RP. rewrite Rc in RP.
      destruct (finish (Some s) (Ok tt) w2) as [o3 w3] eqn:Ef. inversion RP; subst; clear RP. cbn.
      assert (G : rel (fun x y => w_hashed y = w_hashed x) (finish (Some s) (Ok tt))).
      { assert (PO : PreOrder (fun x y : world => w_hashed y = w_hashed x)) by (split; [intro; reflexivity|intros x y z A B; congruence]).
        cbn [finish]. apply rel_bind; [exact PO| |intros _].
        - cbn [ignore_on]. apply rel_bind; [exact PO| |intros _; apply rel_ret; exact PO]. apply rel_try. unfold db_commit. apply rel_op. intros [| | |[|]] x x1 (t & r & ->); cbn; try reflexivity; unfold commit_now; cbn; destruct (w_txn x); reflexivity.
        - unfold cache_commit. apply rel_op. intros [| | |[|]] x x1 (t & r & ->); cbn; try reflexivity; unfold cache_commit_now; cbn; destruct (w_ctxn x); reflexivity. }
      specialize (G w2). rewrite Ef in G. cbn in G. rewrite G. apply incl_refl.
  Qed.

  Lemma push_branches old new name k : one_push old new (Push name None k) ->
    history name None new = k :: history name None old /\ forall n rm, n <> name \/ rm <> None -> history n rm new = history n rm old.
  Proof.
    intros (L & _). split; [rewrite (pushed_history _ _ _ _ _ L)|intros n rm N; rewrite (pushed_history _ _ _ _ _ L)].
    - replace (pushed_under name None (Push name None k)) with true; [reflexivity|]. unfold pushed_under. cbn. rewrite bytes_eqb_refl. reflexivity.
    - replace (pushed_under n rm (Push name None k)) with false; [reflexivity|]. unfold pushed_under. cbn. destruct N as [N|N].
      + destruct (bytes_eqb name n) eqn:Q; [apply bytes_eqb_eq in Q; congruence|reflexivity].
      + destruct rm; [destruct (bytes_eqb name n); reflexivity|congruence].
  Qed.
  Lemma failure_changes_nothing cm c w l code w' st w1 o w2 : c <> CInit -> there w l -> no_auto_rollback w -> begins cm w -> run_process cm c w = (code, w') ->
    starts cm w st w1 -> run_command cm st c w1 = (o, w2) -> o <> Done tt -> db_at (w_dbs w') l = db_at (w_dbs w) l.
  Proof.
    intros NI TH NR BG RP S Rc N. destruct (all_or_nothing cm c w l code w' NI TH NR BG RP) as [Q|(s & v1 & v2 & S' & _ & R' & _)]; [exact Q|].
    exfalso. unfold starts in S, S'. rewrite S in S'. inversion S'; subst. rewrite Rc in R'. inversion R'; subst. apply N. reflexivity.
  Qed.
  Lemma success_durable cm c w w' : run_process cm c w = (Some 0%N, w') -> (forall a o, w_out w' <> Printed "fatal:" a :: o) ->
    exists st w1 w2, starts cm w st w1 /\ run_command cm st c w1 = (Done tt, w2) /\ w_out w' = w_out w2 /\
      (forall s, st = Some s -> commit_ok_next w2 -> db_at (w_dbs w') (w_conn w2) = cur_db w2).
  Proof.
    intros RP N. destruct (exit_zero _ _ _ _ RP) as (st & w1 & w2 & S & [[R O]|(e & R & O)]); [|destruct (N _ _ O)].
    exists st, w1, w2. split; [exact S|]. split; [exact R|]. split; [exact O|]. intros s -> NX. eapply commit_durable; eauto.
  Qed.
  Lemma head_files cm s n w o w' : run_command cm (Some s) (CCheckoutHead n) w = (o, w') -> w_fs w' = w_fs w.
  Proof. intro H. pose proof (files_kept cm s (CCheckoutHead n) eq_refl w) as Y. rewrite H in Y. apply Y. Qed.
  Lemma head_tree_now w name k l c w' : rp_head (repo_of (cur_db w)) = Some name -> history name None (repo_of (cur_db w)) = k :: l ->
    commit_from_key ds k (set_faults w []) = (Done c, w') -> head_tree w (Some (c_tree c)).
  Proof.
    intros H Hi C. exists name. split; [exact H|]. exists k, l, c. split; [exact Hi|]. split; [|reflexivity]. apply commit_key_done in C as [_ R]. eapply reads_commit_cur; [|exact R]. reflexivity.
  Qed.
  Lemma panic_visible cm c w st w1 p w2 : starts cm w st w1 -> run_command cm st c w1 = (Panicked p, w2) -> run_process cm c w = (Some 101%N, close_all w2).
  Proof. intros S R. unfold run_process. rewrite main_split. unfold starts in S. unfold bind at 1. rewrite S. unfold bind at 1, try. rewrite R. reflexivity. Qed.
End CmdFacts.
