(** What the cache holds after a sequence of processes. *)
From Coq Require Import RelationClasses.
From Verif Require Import Base BaseFacts TableFacts Key KeyFacts Keyish Cbor CborFacts Object ObjectFacts Path World WorldFacts Store File Filter Dir Diff Commit Main SpecStore StoreCalls SpecRun SpecProc SpecFile SpecDir SpecClosure
  SpecCache SpecDiff SpecPatch SpecShow SpecOut SpecCmd SpecText SpecShape SpecLive Frame DbRel Integrity ObjStoreFacts SessionFacts FilePlan FileFacts ChunkFacts FileRun FsFacts DirPlan DirFacts GetFacts DirTrip DirTree DirWalk
  WalkFacts DirLive CacheFacts HashFacts SortFacts CompareFacts DiffFacts LineFacts CheckoutFacts ProcFacts CmdFacts InitFacts Reader OutFacts SnapFacts ShowFacts Closure ShapeFacts ShapeTop LiveFacts LiveDiff LiveCmd LiveStart LiveStat.

Section LiveCache.
  Context {E : Env}.
  Notation ds := sqlite_ds.
  #[local] Existing Instance calm_pre.
  #[local] Existing Instance calm_Rd.
  #[local] Existing Instance calm_Put.
  #[local] Existing Instance calm_Cache.
  #[local] Existing Instance calm_Fs.

  (** *** Commands that leave the cache alone *)
  Lemma kc_op {A} (eff : fault -> M A) : (forall f w, kc w (snd (eff f w))) -> rel kc (op eff).
  Proof. intros H w. destruct (op_case eff w) as (fl & w1 & E1 & T). rewrite E1. transitivity w1; [destruct T as (? & ? & ->); split; reflexivity|]. apply H. Qed.
  Lemma kc_put d w : kc w (put_db d w).
  Proof. unfold put_db. destruct (w_txn w); split; reflexivity. Qed.
  Lemma kc_write u : rel kc (db_write u).
  Proof. apply kc_op. intros [| | |[|]] w; cbn; try (split; reflexivity); try apply kc_put; destruct (w_txn w); try (split; reflexivity); apply kc_put. Qed.
  #[local] Instance kc_Ref : RefPrims kc.
  Proof. constructor; intros; apply kc_write. Qed.
  Lemma kc_change {A} (full : fs -> loc -> nat -> option (A * fs)) partial : rel kc (fs_change full partial).
  Proof. apply kc_op. intros f w. destruct (full _ _ _) as [[a f']|]; destruct f; split; reflexivity. Qed.
  #[local] Instance kc_Fs : FsPrims kc.
  Proof. constructor; intros; try apply kc_change. unfold fs_create_dir_all. destruct (is_empty_path p); [apply rel_ret; exact _|apply kc_change]. Qed.
  #[local] Instance kc_Del : DelPrims kc.
  Proof. constructor; intros; apply kc_change. Qed.
  Lemma kc_open_eff p w l w' : open_db_eff p w = Some (l, w') -> kc w w'.
  Proof.
    unfold open_db_eff. destruct (resolve _ _ p) as [l0|]; [|discriminate]. destruct (p_slash p); [discriminate|].
    destruct (lookup (w_fs w) l0) as [[|c st| |]|]; try discriminate; [|intro H; inv H; split; reflexivity]. destruct (assoc_loc l0 (w_dbs w)); [intro H; inv H; split; reflexivity|]. destruct c; intro H; inv H; split; reflexivity.
  Qed.
  Lemma kc_open p : rel kc (sqlite_open p).
  Proof. apply kc_op. intros f w. destruct (open_db_eff p w) as [[l w']|] eqn:Q; [apply kc_open_eff in Q|]; destruct f as [|[|]| |[|]]; cbn; try (split; reflexivity); exact Q. Qed.
  #[local] Instance kc_Open : OpenPrims kc.
  Proof.
    constructor; intros; (apply rel_bind; [exact _|apply kc_open|intro l]).
    - intro w. split; reflexivity.
    - apply kc_op. intros [| | |[|]] w; cbn; split; reflexivity.
  Qed.
  Lemma kc_command cm st c : uses_cache c = false -> rel kc (run_command cm st c).
  Proof.
    intro N. destruct c; try discriminate N; cbn [run_command]; try match goal with |- rel _ (with_ds _ _) => unfold with_ds; destruct st as [s|]; [|apply rel_fail; exact _] end.
    - apply rel_cmd_insert; exact _.
    - apply rel_cmd_commit; exact _.
    - apply rel_cmd_fetch; exact _.
    - apply rel_cmd_pretty_print; exact _.
    - apply rel_cmd_commit_tree; exact _.
    - apply rel_cmd_reflog_get; exact _.
    - apply rel_cmd_reflog_push; exact _.
    - apply rel_cmd_walk_tree; exact _.
    - apply rel_cmd_walk_fs_tree; exact _.
    - apply rel_cmd_set_head; exact _.
    - apply rel_cmd_get_head; exact _.
    - unfold cmd_init. apply rel_bind; [exact _|apply fp_mkdir|intros _; apply pc_open_init].
    - apply rel_cmd_show; exact _.
    - apply rel_cmd_log; exact _.
    - apply rel_cmd_checkout; exact _.
    - apply rel_cmd_ref_log; exact _.
    - apply rel_cmd_ref_update; exact _.
  Qed.

  (** *** Inside its transaction a command does not change what others see of the cache *)
  Definition kl (w w' : world) : Prop := w_faults w = [] -> w_faults w' = [] /\ w_conn w' = w_conn w /\ (w_ctxn w <> None -> w_ctxn w' <> None /\ w_cache w' = w_cache w).
  #[local] Instance kl_pre : PreOrder kl.
  Proof.
    split; [intros w F; auto|]. intros a b c H K F. destruct (H F) as (F1 & C1 & H1). destruct (K F1) as (F2 & C2 & H2). split; [exact F2|]. split; [congruence|].
    intro N. destruct (H1 N) as [N1 Q1]. destruct (H2 N1) as [N2 Q2]. split; [exact N2|congruence].
  Qed.
  Lemma kl_op {A} (eff : fault -> M A) : (forall w, w_faults (snd (eff FOk w)) = w_faults w /\ w_conn (snd (eff FOk w)) = w_conn w /\ (w_ctxn w <> None -> w_ctxn (snd (eff FOk w)) <> None /\ w_cache (snd (eff FOk w)) = w_cache w)) -> rel kl (op eff).
  Proof.
    intros H w F. unfold op. cbn zeta. cbn [w_faults set_tick]. rewrite F. destruct (H (set_tick w (S (w_tick w)))) as (A1 & B1 & C1). split; [rewrite A1; exact F|]. split; [exact B1|exact C1].
  Qed.
  Ltac ko := apply kl_op; intro; split; [reflexivity|]; split; [reflexivity|]; intro; cbn; split; [assumption|reflexivity].
  #[local] Instance kl_Rd : RdPrims kl.
  Proof.
    constructor; [exact _|..].
    - intros A q. ko.
    - intros t a. ko.
    - intros d. ko.
    - intros A q. apply kl_op; intro w. destruct (q _ _); cbn; auto.
    - intros p. apply kl_op. intros w. destruct (stat _ _ p) as [[l [| | |]]|]; cbn; auto.
    - intros p. apply kl_op. intros w. destruct (stat _ _ p) as [[l [| | |]]|]; cbn; auto.
  Qed.
  Lemma kl_write u : rel kl (db_write u).
  Proof. apply kl_op. intro w. cbn. unfold put_db. destruct (w_txn w); cbn; auto. Qed.
  #[local] Instance kl_Put : PutPrims kl.
  Proof.
    constructor. intro d. unfold put. apply rel_bind; [exact _| |intro k].
    - intros w F. split; [exact F|]. split; [reflexivity|auto].
    - apply rel_bind; [exact _|apply kl_write|intros _; apply rel_ret; exact _].
  Qed.
  #[local] Instance kl_Ref : RefPrims kl.
  Proof. constructor; intros; apply kl_write. Qed.
  Lemma kl_change {A} (full : fs -> loc -> nat -> option (A * fs)) partial : rel kl (fs_change full partial).
  Proof. apply kl_op. intros w. destruct (full _ _ _) as [[a f']|]; cbn; auto. Qed.
  #[local] Instance kl_Fs : FsPrims kl.
  Proof. constructor; intros; try apply kl_change. unfold fs_create_dir_all. destruct (is_empty_path p); [apply rel_ret; exact _|apply kl_change]. Qed.
  #[local] Instance kl_Del : DelPrims kl.
  Proof. constructor; intros; apply kl_change. Qed.
  #[local] Instance kl_Cache : CachePrims kl.
  Proof.
    constructor.
    - intros A q. ko.
    - intros c k. apply kl_op. intro w. unfold put_cache. cbn. destruct (w_ctxn w) eqn:C; cbn; rewrite ?C; (split; [reflexivity|]); (split; [reflexivity|]); [intros _; split; [discriminate|reflexivity]|intro N; destruct (N eq_refl)].
  Qed.
  Lemma kl_command cm s c : c <> CInit -> rel kl (run_command cm (Some s) c).
  Proof. intro N. apply rel_repo_command; try exact _. exact N. Qed.

  (** *** Commands that hash files *)
  Definition keeps {A} (m : M A) : Prop := forall w a w', hi w -> m w = (Done a, w') -> hi w'.
  Lemma keeps_bind {A B} (m : M A) (f : A -> M B) : keeps m -> (forall a, keeps (f a)) -> keeps (bind m f).
  Proof. intros H K w b w' I X. apply bind_done in X as (a & w1 & X1 & X). eapply K; [|exact X]. eapply H; eassumption. Qed.
  Lemma keeps_mapM {A B} (f : A -> M B) l : (forall x, keeps (f x)) -> keeps (mapM f l).
  Proof.
    intro H. induction l as [|x l IH]; cbn [mapM]; [intros w a w' I X; apply ret_done in X as [_ ->]; exact I|].
    apply keeps_bind; [apply H|intro]. apply keeps_bind; [apply IH|intros ? w b w' I X; apply ret_done in X as [_ ->]; exact I].
  Qed.
  Lemma keeps_ret {A} (a : A) : keeps (ret a).
  Proof. intros w b w' I X. apply ret_done in X as [_ ->]. exact I. Qed.
  (** What neither stores nor hashes. *)
  Definition samest (w w' : world) : Prop := w_faults w = [] -> w_faults w' = [] /\ w_dbs w' = w_dbs w /\ w_conn w' = w_conn w /\ w_txn w' = w_txn w /\ w_hashed w' = w_hashed w /\ w_cache w' = w_cache w /\ w_ctxn w' = w_ctxn w.
  #[local] Instance samest_pre : PreOrder samest.
  Proof. split; [intros w F; repeat split; exact F|]. intros a b c H K F. destruct (H F) as (F1 & ? & ? & ? & ? & ? & ?). destruct (K F1) as (? & ? & ? & ? & ? & ? & ?). repeat split; congruence. Qed.
  Lemma samest_op {A} (eff : fault -> M A) : (forall w, w_faults w = [] -> samest w (snd (eff FOk w))) -> rel samest (op eff).
  Proof. intros H w F. unfold op. cbn zeta. cbn [w_faults set_tick]. rewrite F. apply (H (set_tick w (S (w_tick w))) F F). Qed.
  Ltac so := apply samest_op; let w := fresh "w" in let F := fresh "F" in intros w F; cbn.
  Ltac sm := let F := fresh "F" in intro F; cbn; repeat split; exact F.
  #[local] Instance samest_Rd : RdPrims samest.
  Proof.
    constructor; [exact _|..].
    - intros A q. so. sm.
    - intros t a. so. sm.
    - intros d. so. sm.
    - intros A q. so. destruct (q _ _); sm.
    - intro p. so. destruct (stat _ _ p) as [[l [| | |]]|]; sm.
    - intro p. so. destruct (stat _ _ p) as [[l [| | |]]|]; sm.
  Qed.
  Lemma keeps_read {A} (m : M A) : rel samest m -> keeps m.
  Proof.
    intros H w a w' (F & I & He) X. specialize (H w F). rewrite X in H. destruct H as (F' & H1 & H2 & H3 & H4 & H5 & H6). cbn [snd] in *.
    split; [exact F'|]. split; [eapply inv_same; [|exact I]; repeat split; assumption|].
    intro NC. rewrite H4 in NC. specialize (He NC). unfold cur_cache, cur_db, disk in *. rewrite H1, H2, H3, H5, H6. exact He.
  Qed.
  Lemma keeps_hash p : keeps (hash_fs_item ds p).
  Proof. intros w k w' I X. eapply hash_held; eassumption. Qed.
  Lemma keeps_compare from to : keeps (compare ds from to).
  Proof.
    intros w r w' I X. rewrite compare_eq in X. revert w r w' I X. apply keeps_bind.
    { apply keeps_read. destruct from as [p ex fo|k]; cbn [compare_src]; [|apply rel_bind; [exact _|apply rel_walk_fs_items; exact _|intro; apply rel_ret; exact _]].
      (apply rel_make_filter_fn; [exact _|intros f Hf]). apply rel_bind; [exact _|apply rel_walk_real_fs_items; [exact _|exact Hf]|intro; apply rel_ret; exact _]. }
    intro src. apply keeps_bind; [apply keeps_read; (destruct to; cbn [compare_to]; [apply rel_walk_fs_items|apply rel_ret]; exact _)|]. intro to_map. unfold compare_tail.
    assert (Pm : forall A (m : pmap A) x, keeps (pm_index m x)) by (intros A m x; apply keeps_read; apply rel_pm_index; exact _).
    apply keeps_bind; [|intro; apply keeps_bind; [|intro; apply keeps_bind; [|intro; apply keeps_ret]]]; apply keeps_mapM; intro x.
    - unfold f_added. destruct src as [[b m]|m]; [|apply keeps_bind; [apply Pm|intro; apply keeps_ret]]. apply keeps_bind; [apply Pm|]. intros [|]; [apply keeps_ret|].
      intros w a w' I X. apply bind_done in X as (r & w1 & X1 & X). apply try_done in X1 as [(h & -> & X1)|(e & -> & X1)]; [|discriminate]. apply ret_done in X as [_ ->]. eapply keeps_hash; eassumption.
    - unfold f_deleted. apply keeps_bind; [apply Pm|intro]. apply keeps_bind; [|intro; apply keeps_ret]. destruct src as [[b m]|m]; [apply Pm|apply keeps_bind; [apply Pm|intro; apply keeps_ret]].
    - unfold f_modified. apply keeps_bind.
      + destruct src as [[b m]|m]; [|apply keeps_bind; [apply Pm|intro; apply keeps_ret]]. apply keeps_bind; [apply Pm|]. intros [|]; [apply keeps_ret|]. apply keeps_bind; [apply keeps_hash|intro; apply keeps_ret].
      + intros [k|]; [|apply keeps_ret]. apply keeps_bind; [apply Pm|intro]. destruct (key_eqb _ _); apply keeps_ret.
  Qed.
  (** After the comparison. *)
  Definition lh (w w' : world) : Prop := w_faults w = [] -> w_faults w' = [] /\ w_hashed w' = w_hashed w /\ cur_cache w' = cur_cache w /\ d_data (cur_db w') = d_data (cur_db w).
  #[local] Instance lh_pre : PreOrder lh.
  Proof. split; [intros w F; repeat split; exact F|]. intros a b c H K F. destruct (H F) as (F1 & ? & ? & ?). destruct (K F1) as (? & ? & ? & ?). repeat split; congruence. Qed.
  Lemma lh_same w w' : samest w w' -> lh w w'.
  Proof. intros H F. destruct (H F) as (F' & H1 & H2 & H3 & H4 & H5 & H6). unfold cur_cache, cur_db, disk. rewrite H1, H2, H3, H5, H6. auto. Qed.
  Lemma lh_read {A} (m : M A) : rel samest m -> rel lh m.
  Proof. intros H w. apply lh_same, H. Qed.
  Lemma lh_head h : rel lh (put_head ds h).
  Proof.
    intros w F. unfold put_head. cbn [raw_put_state sqlite_ds]. unfold sqlite_raw_put_state, db_write.
    match goal with |- context [op ?e w] => destruct (op_live e w F) as (v & T0 & Fv & ->) end. destruct T0 as (t & r & ->). cbn in Fv |- *. unfold put_db. cbn.
    unfold cur_cache, cur_db, disk, upd_state. cbn. destruct (w_txn w) eqn:T; cbn; rewrite ?T; cbn; try (repeat split; exact Fv).
    split; [exact Fv|]. split; [reflexivity|]. split; [reflexivity|]. rewrite db_at_set, names_eqb_refl. reflexivity.
  Qed.
  Lemma lh_held {A} (m : M A) w a w' : rel lh m -> hi w -> m w = (Done a, w') -> held w'.
  Proof.
    intros H (F & _ & He) X. specialize (H w F). rewrite X in H. destruct H as (_ & H1 & H2 & H3). cbn [snd] in *. intro NC. rewrite H1 in NC. specialize (He NC). rewrite H2.
    eapply kept_le; [|exact He]. intros k v. rewrite H3. auto.
  Qed.
  Lemma user_held cm s c w1 w2 : uses_cache c = true -> hi w1 -> run_command cm (Some s) c w1 = (Done tt, w2) -> held w2.
  Proof.
    intros U I R. assert (Rd : forall A (m : M A) v a v', rel samest m -> hi v -> m v = (Done a, v') -> hi v') by (intros A m v a v' K; apply (keeps_read m K)).
    destruct c as [| | | | | | | | | | | | | |cp ck cs| | | | |]; try discriminate U; cbn [run_command with_ds] in R.
    - unfold cmd_compare in R. apply bind_done in R as (key & v1 & R1 & R). apply Rd in R1; [|destruct ck; [apply rel_canonicalize; exact _|apply rel_bind; [exact _|apply rel_get_head_key; exact _|intro; apply rel_bind; [exact _|apply rel_commit_from_key; exact _|intro; apply rel_ret; exact _]]]|exact I].
      cbv zeta in R. apply bind_done in R as (r & v2 & R2 & R). apply keeps_compare in R2; [|exact R1]. eapply lh_held; [|exact R2|exact R]. apply lh_read. destruct cs; [apply rel_print_stat_diff_result|apply rel_print_diff_result]; exact _.
    - unfold cmd_status in R. apply bind_done in R as (n & v1 & R1 & R). apply Rd in R1; [|apply rel_head_or_fail; exact _|exact I]. apply bind_done in R as (g & v2 & R2 & R). apply Rd in R2; [|apply rel_try, rel_reflog_get; exact _|exact R1].
      destruct g as [k|e]; [|eapply lh_held; [apply lh_read, rp_print|exact R2|exact R]].
      apply bind_done in R as ([] & v3 & R3 & R). apply Rd in R3; [|apply rp_print|exact R2]. apply bind_done in R as (cc & v4 & R4 & R). apply Rd in R4; [|apply rel_commit_from_key; exact _|exact R3].
      apply bind_done in R as (r & v5 & R5 & R). apply keeps_compare in R5; [|exact R4]. eapply lh_held; [apply lh_read, rel_print_diff_result; exact _|exact R5|exact R].
    - unfold cmd_checkout_head in R. apply bind_done in R as (n & v1 & R1 & R). apply Rd in R1; [|apply rel_head_or_fail; exact _|exact I]. apply bind_done in R as (g & v2 & R2 & R). apply Rd in R2; [|apply rel_try, rel_reflog_get; exact _|exact R1].
      apply bind_done in R as (t & v3 & R3 & R). apply Rd in R3; [|destruct g; [apply rel_bind; [exact _|apply rel_commit_from_key; exact _|intro]|]; apply rel_ret; exact _|exact R2].
      apply bind_done in R as (r & v5 & R5 & R). apply keeps_compare in R5; [|exact R3]. eapply lh_held; [|exact R5|exact R].
      destruct (diff_result_empty r); (apply rel_bind; [exact _| |intros _]); try apply lh_head; apply lh_read; try apply rp_print; apply rel_print_diff_result; exact _.
  Qed.

  (** *** What is hashed stays hashed *)
  Definition hx (w w' : world) : Prop := incl (w_hashed w) (w_hashed w').
  #[local] Instance hx_pre : PreOrder hx.
  Proof. split; [intro; apply incl_refl|]. intros a b c H K. eapply incl_tran; eassumption. Qed.
  Lemma hx_op {A} (eff : fault -> M A) : (forall f w, w_hashed (snd (eff f w)) = w_hashed w) -> rel hx (op eff).
  Proof. intros H w. destruct (op_case eff w) as (f & w1 & -> & T). unfold hx. rewrite H. destruct T as (? & ? & ->). apply incl_refl. Qed.
  Ltac ho := apply hx_op; let f := fresh "f" in let w := fresh "w" in intros f w; destruct f as [|[|]| |[|]]; cbn; try reflexivity.
  Lemma hx_put d w : w_hashed (put_db d w) = w_hashed w.
  Proof. unfold put_db. destruct (w_txn w); reflexivity. Qed.
  Lemma hx_write u : rel hx (db_write u).
  Proof. ho; apply hx_put. Qed.
  #[local] Instance hx_Rd : RdPrims hx.
  Proof.
    constructor; [exact _|..].
    - intros A q. ho.
    - intros t a. ho.
    - intros d. ho.
    - intros A q. ho; destruct (q _ _); reflexivity.
    - intros p. ho; destruct (stat _ _ p) as [[l [| | |]]|]; reflexivity.
    - intros p. ho; destruct (stat _ _ p) as [[l [| | |]]|]; reflexivity.
  Qed.
  #[local] Instance hx_Put : PutPrims hx.
  Proof.
    constructor. intro d. unfold put. apply rel_bind; [exact _| |intro k].
    - intros w x I. right. exact I.
    - apply rel_bind; [exact _|apply hx_write|intros _; apply rel_ret; exact _].
  Qed.
  #[local] Instance hx_Ref : RefPrims hx.
  Proof. constructor; intros; apply hx_write. Qed.
  Lemma hx_change {A} (full : fs -> loc -> nat -> option (A * fs)) partial : rel hx (fs_change full partial).
  Proof. apply hx_op. intros f w. destruct (full _ _ _) as [[a f']|]; destruct f; reflexivity. Qed.
  #[local] Instance hx_Fs : FsPrims hx.
  Proof. constructor; intros; try apply hx_change. unfold fs_create_dir_all. destruct (is_empty_path p); [apply rel_ret; exact _|apply hx_change]. Qed.
  #[local] Instance hx_Del : DelPrims hx.
  Proof. constructor; intros; apply hx_change. Qed.
  #[local] Instance hx_Cache : CachePrims hx.
  Proof. constructor; intros; ho; unfold put_cache; destruct (w_ctxn w); reflexivity. Qed.
  Lemma hx_open_eff p w l w' : open_db_eff p w = Some (l, w') -> w_hashed w' = w_hashed w.
  Proof.
    unfold open_db_eff. destruct (resolve _ _ p) as [l0|]; [|discriminate]. destruct (p_slash p); [discriminate|].
    destruct (lookup (w_fs w) l0) as [[|c st| |]|]; try discriminate; [|intro H; inv H; reflexivity]. destruct (assoc_loc l0 (w_dbs w)); [intro H; inv H; reflexivity|]. destruct c; intro H; inv H; reflexivity.
  Qed.
  Lemma hx_open p : rel hx (sqlite_open p).
  Proof. apply hx_op. intros f w. destruct (open_db_eff p w) as [[l w']|] eqn:Q; [apply hx_open_eff in Q|]; destruct f as [|[|]| |[|]]; cbn; try reflexivity; exact Q. Qed.
  #[local] Instance hx_Open : OpenPrims hx.
  Proof.
    constructor; intros; (apply rel_bind; [exact _|apply hx_open|intro l]).
    - intro w. apply incl_refl.
    - ho.
  Qed.
  #[local] Instance hx_Proc : ProcPrims hx.
  Proof.
    constructor; try (intros; apply fp_mkdir); try (intro w; apply incl_refl); ho; unfold commit_now, cache_commit_now; destruct (w_txn w); destruct (w_ctxn w); reflexivity.
  Qed.
  Lemma hx_process cm c w : incl (w_hashed w) (w_hashed (snd (run_process cm c w))).
  Proof.
    assert (R : rel hx (main cm c)) by (apply rel_main; exact _). specialize (R (close_all w)). unfold run_process. destruct (main cm c (close_all w)) as [o w']. exact R.
  Qed.

  (** *** Start and end *)
  Definition sc (w w' : world) : Prop := w_cache w' = w_cache w \/ w_cache w' = [].
  #[local] Instance sc_pre : PreOrder sc.
  Proof. split; [intro; left; reflexivity|]. intros a b c [H|H] [K|K]; unfold sc; rewrite ?K, ?H; auto. Qed.
  Lemma sc_kc {A} (m : M A) : rel kc m -> rel sc m.
  Proof. intros H w. left. apply H. Qed.
  Lemma kc_begin : rel kc db_begin.
  Proof. apply kc_op. intros f w. destruct f; cbn; try (split; reflexivity); destruct (w_txn w); split; reflexivity. Qed.
  Lemma sc_setup cm : rel sc (setup cm).
  Proof.
    unfold setup. apply rel_bind; [exact _|apply sc_kc, rel_open_repo; exact _|intro st]. apply rel_bind; [exact _| |intros _].
    - unfold open_cache. destruct cache_dir; (apply rel_bind; [exact _| |intros _]).
      + apply sc_kc, fp_mkdir.
      + apply sc_kc, kc_op. intros [| | |] w; split; reflexivity.
      + apply sc_kc, kc_op. intros [| | |] w; split; reflexivity.
      + intro w. right. reflexivity.
    - apply rel_bind; [exact _|apply sc_kc, rel_ignore_on; [exact _|apply kc_begin]|intros _]. apply rel_bind; [exact _| |intros _; apply rel_ret; exact _].
      intro w. left. unfold cache_begin. match goal with |- context [op ?e w] => destruct (op_case e w) as (f & v & -> & T) end. destruct T as (? & ? & ->). destruct f; cbn; try reflexivity. destruct (w_ctxn w); reflexivity.
  Qed.
  Lemma start_cache cm w st w1 : starts cm w st w1 -> cur_cache w1 = w_cache w1.
  Proof.
    unfold starts, setup. intro S. apply bind_done in S as (st' & v1 & _ & S). apply bind_done in S as ([] & v2 & _ & S). apply bind_done in S as ([] & v3 & _ & S). apply bind_done in S as ([] & v4 & H4 & S). apply ret_done in S as [_ ->].
    unfold cache_begin in H4. match type of H4 with context [op ?e ?x] => destruct (op_case e x) as (f & v & Eo & T) end. rewrite Eo in H4. destruct f; try discriminate H4. destruct (w_ctxn v); inv H4. reflexivity.
  Qed.
  (** What the process leaves is the shared table or the one of its transaction. *)
  Definition ec (w w' : world) : Prop := (w_cache w' = w_cache w \/ w_cache w' = cur_cache w) /\ (cur_cache w' = w_cache w \/ cur_cache w' = cur_cache w).
  Lemma ec_finish st r w : ec w (snd (finish st r w)).
  Proof.
    assert (P : PreOrder ec).
    { split; [intro; split; auto|]. intros a b c [[H1|H1] [H2|H2]] [[K1|K1] [K2|K2]]; unfold ec; rewrite ?K1, ?K2, ?H1, ?H2; auto. }
    assert (K : forall A (m : M A), rel kc m -> rel ec m).
    { intros A m H v. destruct (H v) as [H1 H2]. unfold ec, cur_cache. rewrite H1, H2. auto. }
    assert (O : forall A (eff : fault -> M A), (forall f v, ec v (snd (eff f v))) -> rel ec (op eff)).
    { intros A eff H v. destruct (op_case eff v) as (f & v1 & -> & T). assert (Q : ec v v1) by (destruct T as (? & ? & ->); split; auto). destruct Q, (H f v1). transitivity v1; split; auto. }
    assert (R : rel ec (finish st r)); [|apply R]. destruct r; cbn [finish].
    - apply rel_bind; [exact _| |intros _].
      + apply K, rel_ignore_on; [exact _|]. apply kc_op. intros f v. destruct f as [|[|]| |[|]]; cbn; unfold commit_now; destruct (w_txn v); split; reflexivity.
      + apply O. intros f v. unfold ec, cur_cache, cache_commit_now. destruct f as [|[|]| |[|]]; cbn; destruct (w_ctxn v) eqn:C; cbn; rewrite ?C; auto.
    - apply rel_bind; [exact _|apply K, rp_print|intros _]. apply rel_bind; [exact _| |intros _].
      + apply K, rel_ignore_on; [exact _|]. apply kc_op. intros f v. destruct f as [|[|]| |[|]]; cbn; destruct (w_txn v); split; reflexivity.
      + apply O. intros f v. unfold ec, cur_cache. destruct f as [|[|]| |[|]]; cbn; destruct (w_ctxn v) eqn:C; cbn; rewrite ?C; auto.
  Qed.
  Lemma error_cache st e w : w_cache (snd (finish st (Err e) w)) = w_cache w.
  Proof.
    set (R := fun v v' : world => w_cache v' = w_cache v). assert (P : PreOrder R) by (split; [intro; reflexivity|intros a b c X Y; unfold R in *; congruence]).
    assert (K : forall A (m : M A), rel kc m -> rel R m) by (intros A m H v; apply H).
    assert (Q : rel R (finish st (Err e))); [|apply Q]. cbn [finish]. apply rel_bind; [exact _|apply K, rp_print|intros _]. apply rel_bind; [exact _| |intros _].
    - apply K, rel_ignore_on; [exact _|]. apply kc_op. intros f v. destruct f as [|[|]| |[|]]; cbn; destruct (w_txn v); split; reflexivity.
    - intro v. unfold R, cache_rollback. match goal with |- context [op ?ef v] => destruct (op_case ef v) as (f & v1 & -> & T) end. destruct T as (? & ? & ->). destruct f as [|[|]| |[|]]; cbn; try reflexivity; destruct (w_ctxn v); reflexivity.
  Qed.

  (** *** Processes *)
  Definition kept (l : loc) (w : world) : Prop := no_coll (w_hashed w) -> cache_kept (w_cache w) (db_at (w_dbs w) l).
  Lemma plain_kept cm c w l : there w l \/ w_cache w = [] -> kept l w -> sc w (snd (run_process cm c w)) -> kept l (snd (run_process cm c w)).
  Proof.
    intros T K S NC. pose proof (coll_incl _ _ (hx_process cm c w) NC) as NC0. specialize (K NC0). destruct S as [S|S]; rewrite S; [|intros a b []].
    destruct T as [T|T]; [|rewrite T; intros a b []]. eapply kept_le; [|exact K]. apply process_grows. exact T.
  Qed.
  Lemma no_repo_kc cm c : rel kc (run_command cm None c).
  Proof. destruct (uses_cache c) eqn:U; [|apply kc_command, U]. destruct c; try discriminate U; intro w; split; reflexivity. Qed.
  Lemma process_shape cm c w st w1 oc w2 : starts cm w st w1 -> run_command cm st c w1 = (oc, w2) ->
    snd (run_process cm c w) = close_all (match oc with Done a => snd (finish st (Ok a) w2) | Error e => snd (finish st (Err e) w2) | _ => w2 end).
  Proof.
    intros S R. unfold run_process. rewrite main_split. unfold starts in S. rewrite (run_bind _ _ _ _ _ S). unfold bind, try. rewrite R.
    destruct oc as [a|e| | |]; try reflexivity; match goal with |- context [finish ?a ?b w2] => destruct (finish a b w2) end; reflexivity.
  Qed.
  Lemma process_kept cm c w l : well_used w -> w_faults w = [] -> there w l \/ w_cache w = [] -> (forall s w1, starts cm w (Some s) w1 -> uses_cache c = true -> w_conn w1 = l) -> kept l w -> kept l (snd (run_process cm c w)).
  Proof.
    intros U F T C K. pose proof (plain_kept cm c w l T K) as Pl. pose proof (sc_setup cm (close_all w)) as Sc.
    destruct (setup cm (close_all w)) as [os w1] eqn:Es. cbn [snd] in Sc. change (sc w w1) in Sc.
    destruct os as [st| | | |]; try (apply Pl; unfold run_process; rewrite main_split; unfold bind at 1; rewrite Es; exact Sc).
    pose proof (start_cache _ _ _ _ Es) as Q1. destruct (calm_setup _ _ _ _ Es F) as [F1 X1]. destruct (run_command cm st c w1) as [oc w2] eqn:R. pose proof (process_shape _ _ _ _ _ _ _ Es R) as Sh.
    assert (Plain : kc w1 w2 -> sc w (snd (run_process cm c w))).
    { intros [H1 H2]. assert (Q2 : cur_cache w2 = w_cache w1) by (unfold cur_cache in *; rewrite H1, H2; exact Q1). assert (S2 : sc w w2) by (unfold sc; rewrite H1; exact Sc).
      assert (E2 : forall r, sc w (snd (finish st r w2))) by (intro r; pose proof (ec_finish st r w2) as [Ec _]; unfold sc in *; destruct Ec as [-> | ->]; [exact S2|rewrite Q2; exact Sc]).
      rewrite Sh. destruct oc; try exact S2; apply E2. }
    destruct st as [s|]; [destruct (uses_cache c) eqn:Uc|]; [|apply Pl, Plain; pose proof (kc_command cm (Some s) c Uc w1) as H; rewrite R in H; exact H|apply Pl, Plain; pose proof (no_repo_kc cm c w1) as H; rewrite R in H; exact H].
    specialize (C s w1 Es eq_refl). assert (NI : c <> CInit) by (intros ->; discriminate Uc).
    pose proof (kl_command cm s c NI w1 F1) as Kl. rewrite R in Kl. destruct Kl as (F2 & C2 & Kl). destruct (Kl X1) as [X2 Q2]. cbn [snd] in F2, C2, X2, Q2.
    assert (S2 : sc w w2) by (unfold sc; rewrite Q2; exact Sc).
    destruct oc as [[]|e| | |]; try (apply Pl; rewrite Sh; exact S2).
    2: { apply Pl. rewrite Sh. unfold sc. cbn [close_all w_cache set_ctxn set_txn]. rewrite error_cache. exact S2. }
    destruct (process_live cm c w (Some s) w1 w2 F Es R) as (w' & Pr & _ & _ & _ & _ & H' & _ & D'). specialize (D' s eq_refl). rewrite C2, C in D'. rewrite Pr in *. cbn [snd] in *.
    pose proof (ec_finish (Some s) (Ok tt) w2) as [Ec _]. destruct Ec as [Ec|Ec]; [apply Pl; rewrite Sh; unfold sc; cbn [close_all w_cache set_ctxn set_txn]; rewrite Ec; exact S2|].
    intro NC. rewrite D'. assert (Cw : w_cache w' = cur_cache w2) by (rewrite Sh; exact Ec). rewrite Cw.
    assert (H1 : hi w1).
    { split; [exact F1|]. split; [eapply used_started; eassumption|]. intro NC1. rewrite Q1. pose proof (before_setup cm (close_all w)) as B. rewrite Es in B. cbn [snd] in B. destruct B as (Hh & _ & _ & Db).
      change (w_hashed (close_all w)) with (w_hashed w) in Hh. rewrite Hh in NC1. specialize (K NC1). destruct Sc as [Sc|Sc]; rewrite Sc; [|intros a b []]. destruct T as [T|T]; [|rewrite T; intros a b []].
      assert (Cd : cur_db w1 = db_at (w_dbs w1) l). { unfold cur_db, disk. rewrite C. destruct (w_txn w1) eqn:Tx; try reflexivity. destruct (setup_txn _ _ _ _ Es) as [_ N]. destruct (N _ Tx). }
      rewrite Cd, (Db l T). exact K. }
    apply (user_held cm s c w1 w2 Uc H1 R). rewrite H' in NC. exact NC.
  Qed.
  Lemma store_used l w : one_store l w -> well_used w.
  Proof. induction 1; [assumption|apply wu_process; assumption|eapply wu_outside; eassumption]. Qed.
  Theorem one_store_kept l w : one_store l w -> no_coll (w_hashed w) -> cache_kept (w_cache w) (db_at (w_dbs w) l).
  Proof.
    intro H. change (kept l w). induction H as [w C U|w cm c H IH F T S C|w w' H IH [D L] C].
    - intros _. rewrite C. intros a b [].
    - apply process_kept; try assumption. eapply store_used, H.
    - intro NC. rewrite L in NC. specialize (IH NC). rewrite D. destruct C as [-> | ->]; [exact IH|intros a b []].
  Qed.
  (** So [compare --stat] needs no condition on the cache there. *)
  Lemma start_kept cm w s w1 : one_store (w_conn w1) w -> there w (w_conn w1) \/ w_cache w = [] -> starts cm w (Some s) w1 -> no_coll (w_hashed w1) -> cache_kept (cur_cache w1) (cur_db w1).
  Proof.
    intros H T S NC. pose proof (before_setup cm (close_all w)) as B. pose proof (sc_setup cm (close_all w)) as Sc. unfold starts in S. rewrite S in B, Sc. cbn [snd] in B, Sc. destruct B as (Hh & _ & _ & Db).
    rewrite (start_cache _ _ _ _ S). destruct Sc as [Sc|Sc]; rewrite Sc; [|intros a b []]. destruct T as [T|T]; [|change (w_cache (close_all w)) with (w_cache w); rewrite T; intros a b []].
    assert (Cd : cur_db w1 = db_at (w_dbs w1) (w_conn w1)). { unfold cur_db, disk. destruct (w_txn w1) eqn:Tx; try reflexivity. destruct (setup_txn _ _ _ _ S) as [_ N]. destruct (N _ Tx). }
    rewrite Cd, (Db _ T). rewrite Hh in NC. exact (one_store_kept _ _ H NC).
  Qed.
  Theorem compare_stat_store cm w s w1 p k : one_store (w_conn w1) w -> there w (w_conn w1) \/ w_cache w = [] -> starts cm w (Some s) w1 -> quiet_disk w1 -> deep_enough w1 -> (forall ki, k = Some ki -> names_only w1 Item ki) ->
    let w2 := snd (run_command cm (Some s) (CCompare p k true) w1) in let base := match p with Some q => q | None => ds_repo s end in no_coll (w_hashed w2) -> deep_enough w2 ->
    fst (run_command cm (Some s) (CCompare p k true) w1) = Done tt <-> globs_ok cm /\ (k = None -> has_head w1) /\
    exists t, compared_to w1 k t /\ comparable (cm_exclude cm) (ds_folder s) base w1 (Some t) /\ no_file_for_dir (cm_exclude cm) (ds_folder s) base w1 t.
  Proof.
    intros O T S Q De Nm w2 base NC D2. assert (NC1 : no_coll (w_hashed w1)).
    { eapply coll_incl; [|exact NC]. assert (R : rel hx (run_command cm (Some s) (CCompare p k true))) by (apply rel_repo_command; try exact _; discriminate). apply R. }
    pose proof (start_kept cm w s w1 O T S NC1) as Ck. apply (compare_stat_exactly cm w s w1 p k (store_used _ _ O) S); try assumption.
    split; [exact Q|]. intros a b I. destruct (Ck a b I) as (kk & -> & _). exists kk. reflexivity.
  Qed.
End LiveCache.
