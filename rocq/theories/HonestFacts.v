(** On honest machines the cache is always right. *)
From Coq Require Import RelationClasses.
From Verif Require Import Base BaseFacts TableFacts Key KeyFacts Keyish Cbor CborFacts Object ObjectFacts Path World WorldFacts Store File Filter Dir Diff Commit Main SpecStore StoreCalls SpecRun SpecProc SpecFile SpecDir SpecClosure
  SpecCache SpecDiff SpecPatch SpecShow SpecOut SpecCmd SpecText SpecShape SpecLive SpecHonest Screen SpecScreen Frame DbRel Integrity ObjStoreFacts SessionFacts FilePlan FileFacts ChunkFacts FileRun FsFacts DirPlan DirFacts GetFacts DirTrip DirTree DirWalk
  WalkFacts DirLive CacheFacts HashFacts SortFacts CompareFacts DiffFacts LineFacts CheckoutFacts ProcFacts CmdFacts InitFacts Reader OutFacts SnapFacts ShowFacts Closure ShapeFacts ShapeTop LiveFacts LiveDiff LiveCmd LiveStart LiveStat LiveCache LiveStory ScreenFacts.

Section Honest.
  Context {E : Env}.
  Notation ds := sqlite_ds.
  Variable T : cachekey -> bytes.

  Definition true_table (log : list bytes) (c : list (bytes * bytes)) : Prop :=
    forall a b, In (a, b) c -> exists t k, a = cache_bytes t /\ triple_ok t /\ b = as_db_key k /\ hashed_as log (T t) k.
  Definition truthful (w : world) : Prop := true_table (w_hashed w) (w_cache w) /\ true_table (w_hashed w) (cur_cache w).
  Lemma table_mono log log' c : incl log log' -> true_table log c -> true_table log' c.
  Proof. intros I H a b X. destruct (H a b X) as (t & k & A & O & B & Q). exists t, k. repeat (split; [assumption|]). eapply hashed_mono; eassumption. Qed.
  Lemma table_nil log : true_table log [].
  Proof. intros a b []. Qed.
  Definition sincere (w : world) : Prop := agrees T (w_fs w) /\ truthful w.
  Definition tr (w w' : world) : Prop := sincere w -> sincere w'.
  #[local] Instance tr_pre : PreOrder tr.
  Proof. split; [intros w H; exact H|]. intros a b c H K G. exact (K (H G)). Qed.
  Lemma sincere_crel w w' : crel w w' -> sincere w -> sincere w'.
  Proof.
    intros ((F1 & _ & F3) & C1 & C2) (A & H1 & H2). split; [rewrite F1; exact A|]. split; [rewrite C1; eapply table_mono; eassumption|].
    assert (Q : cur_cache w' = cur_cache w \/ cur_cache w' = w_cache w). { unfold cur_cache. destruct C2 as [-> | ->]; rewrite C1; auto. }
    destruct Q as [-> | ->]; eapply table_mono; eassumption.
  Qed.
  Lemma rel_tr {A} (m : M A) : rel crel m -> rel tr m.
  Proof. intros H w G. eapply sincere_crel; [apply H|exact G]. Qed.
  #[local] Instance tr_Rd : RdPrims tr.
  Proof.
    split; [exact _|intros; apply rel_tr..]; [apply crel_read|apply (rp_print (R := crel))|apply (rp_stdout (R := crel))|apply (rp_fsq (R := crel))|apply (rp_readdir (R := crel))|apply (rp_openread (R := crel))].
  Qed.
  #[local] Instance tr_Put : PutPrims tr.
  Proof. split. intro. apply rel_tr, pp_put. Qed.
  #[local] Instance tr_Ref : RefPrims tr.
  Proof. split; intros; apply rel_tr; [apply rf_head|apply rf_push]. Qed.
  Lemma table_put c st k log tab : agrees T [([str "x"], EFile c st)] -> hashed_as log c k -> true_table log tab -> true_table log (insert_or_ignore (cache_bytes (triple c st)) (as_db_key k) tab).
  Proof.
    intros A Hk H a b I. destruct (A [str "x"] c st) as [O Q]; [reflexivity|]. apply In_ignore in I as [I|I]; [|apply H, I]. inv I. exists (triple c st), k. rewrite Q. auto.
  Qed.
  Lemma sincere_put c st k w : (exists l, lookup (w_fs w) l = Some (EFile c st)) -> hashed_as (w_hashed w) c k -> sincere w -> sincere (snd (cache_put (triple c st) k w)).
  Proof.
    intros [l0 L0] Hk R. pose proof R as (Ag & _). assert (Ag0 : agrees T [([str "x"], EFile c st)]).
    { intros l c' st' L. destruct (Ag _ _ _ L0) as [O Q]. assert (c' = c /\ st' = st) as [-> ->]; [|auto]. destruct l as [|n l]; [discriminate L|].
      unfold lookup in L. cbn [assoc_loc] in L. destruct (names_eqb _ _); inv L. auto. }
    unfold cache_put, cache_write.
    match goal with |- context [op ?e ?x] => destruct (op_case e x) as (fl & w1 & E1 & Tk) end. rewrite E1.
    assert (R1 : sincere w1) by (eapply sincere_crel; [apply crel_ticked, Tk|exact R]).
    assert (Hk1 : hashed_as (w_hashed w1) c k) by (destruct Tk as (? & ? & ->); exact Hk).
    assert (Put : sincere (put_cache (insert_or_ignore (cache_bytes (triple c st)) (as_db_key k) (cur_cache w1)) w1)).
    { destruct R1 as (A1 & H1 & H2). pose proof (table_put c st k _ _ Ag0 Hk1 H2) as P. revert P. generalize (insert_or_ignore (cache_bytes (triple c st)) (as_db_key k) (cur_cache w1)) as tab. clear - A1 H1 H2. intros tab P.
      unfold put_cache. destruct (w_ctxn w1) as [t|] eqn:Q; (split; [exact A1|]); split; cbn [w_hashed w_cache set_ctxn set_cache]; try exact H1; try exact P; unfold cur_cache; cbn; rewrite ?Q; exact P. }
    destruct fl as [| | |[|]]; cbn [snd]; auto; try (eapply sincere_crel; [|exact R1]; split; [split; [reflexivity|split; [reflexivity|apply incl_refl]]|cbn; auto]).
    destruct (w_ctxn w1); [exact R1|exact Put].
  Qed.
  Lemma hash_true p : steady_reads -> rel tr (hash_fs_item ds p).
  Proof.
    intros St w R. unfold hash_fs_item. unfold bind at 1. destruct (fs_metadata p w) as [om w1] eqn:E1.
    assert (C1 : crel w w1) by (pose proof (rp_fsq (R := crel) meta (fun f cwd => match stat f cwd p with Some (_, e) => meta_of e | None => None end) w) as X; fold (fs_metadata p) in X; rewrite E1 in X; exact X).
    destruct om as [m| | | |]; try (eapply sincere_crel; eassumption).
    destruct m as [|size st|]; try (eapply sincere_crel; eassumption).
    unfold bind at 1. destruct (fs_open_read p w1) as [oo w2] eqn:E2.
    assert (C2 : crel w w2) by (etransitivity; [exact C1|]; pose proof (rp_openread (R := crel) p w1) as X; rewrite E2 in X; exact X).
    destruct oo as [r| | | |]; try (eapply sincere_crel; eassumption).
    apply metadata_done in E1 as (T1 & l & e & S1 & M1). apply open_read_done in E2 as (T2 & l' & c & st' & t & S2 & R2).
    destruct (ticked_fs _ _ T1) as [X1 X2]. rewrite X1, X2, S1 in S2. inv S2. cbn in M1. inv M1.
    apply stat_locate in S1 as (_ & L1 & _).
    assert (H' : sincere (snd ((cached <- cache_get (triple c st);; match cached with Some h => ret h | None => h <- put_data ds (snd r);; k <- put_item ds (file_item (wrap64 (lenN c)) h);; try (cache_put (triple c st) k);;; ret k end) w2))).
    2: { destruct R2 as [->|[n ->]]; exact H'. }
    unfold bind at 1. destruct (cache_get (triple c st) w2) as [oc w3] eqn:E3.
    assert (C3 : crel w w3) by (etransitivity; [exact C2|]; pose proof (crel_cache_get (triple c st) w2) as X; rewrite E3 in X; exact X).
    destruct oc as [[h|]| | | |]; try (eapply sincere_crel; eassumption).
    unfold bind at 1. destruct (put_data ds (snd r) w3) as [od w4] eqn:E4.
    assert (C4 : crel w w4) by (etransitivity; [exact C3|]; pose proof (rel_put_data crel (snd r) w3) as X; rewrite E4 in X; exact X).
    destruct od as [h| | | |]; try (eapply sincere_crel; eassumption).
    unfold bind at 1. destruct (put_item ds (file_item (wrap64 (lenN c)) h) w4) as [ok w5] eqn:E5.
    assert (C5 : crel w w5) by (etransitivity; [exact C4|]; pose proof (rel_put_item crel (file_item (wrap64 (lenN c)) h) w4) as X; rewrite E5 in X; exact X).
    destruct ok as [k| | | |]; try (eapply sincere_crel; eassumption).
    assert (G : sincere (snd (cache_put (triple c st) k w5))).
    { pose proof C5 as ((F5 & _ & _) & _). apply sincere_put; [exists l'; rewrite F5; exact L1| |eapply sincere_crel; eassumption].
      apply put_data_done in E4 as (l1 & P1 & Y1). pose proof (segment_done _ _ _ _ _ _ _ R2 P1 eq_refl) as Q. rewrite Q in P1.
      apply (follows_done _ _ _ _ _ _ (follows_item _ _)) in E5 as (l2 & P2 & Y2). eapply (plan_hashed c t (l1 ++ l2)); [exact St| |].
      + unfold pfile. cbn [ptr]. rewrite P1. unfold pbind. rewrite P2. reflexivity.
      + apply (puts_grow w3). eapply puts_app; apply exec_puts; eassumption. }
    unfold bind, try. destruct (cache_put (triple c st) k w5) as [ox w6] eqn:E6. cbn [snd] in G. destruct ox; exact G.
  Qed.
  Lemma compare_true from to : steady_reads -> rel tr (compare ds from to).
  Proof.
    intro St. rewrite compare_eq. apply rel_bind; [exact _| |intro src].
    - destruct from as [p ex fo|k]; cbn [compare_src].
      + apply rel_make_filter_fn; [exact _|]. intros f Hf. apply rel_bind; [exact _|apply rel_walk_real_fs_items; [exact _|exact Hf]|intro; apply rel_ret; exact _].
      + apply rel_bind; [exact _|apply rel_walk_fs_items; exact _|intro; apply rel_ret; exact _].
    - apply rel_bind; [exact _| |intro m].
      + destruct to; [apply rel_walk_fs_items; exact _|apply rel_ret; exact _].
      + unfold compare_tail. assert (Ix : forall A (mm : pmap A) x, rel tr (pm_index mm x)).
        { intros A mm x. unfold pm_index. destruct (pm_get mm x); [apply rel_ret; exact _|intros w H; exact H]. }
        apply rel_bind; [exact _| |intro]; [|apply rel_bind; [exact _| |intro]; [|apply rel_bind; [exact _| |intro; apply rel_ret; exact _]]]; apply rel_mapM; try exact _; intro x.
        * unfold f_added. destruct src as [[b ms]|ms]; (apply rel_bind; [exact _|apply Ix|intro d]); [|apply rel_ret; exact _]. destruct d; [apply rel_ret; exact _|].
          apply rel_bind; [exact _|apply rel_try, hash_true, St|]. intros [h|]; [apply rel_ret; exact _|intros w H; exact H].
        * unfold f_deleted. apply rel_bind; [exact _|apply Ix|intro e]. apply rel_bind; [exact _| |intro; apply rel_ret; exact _].
          destruct src as [[b ms]|ms]; [apply Ix|]. apply rel_bind; [exact _|apply Ix|intro; apply rel_ret; exact _].
        * unfold f_modified. apply rel_bind; [exact _| |].
          -- destruct src as [[b ms]|ms]; (apply rel_bind; [exact _|apply Ix|intro d]); [|apply rel_ret; exact _]. destruct d; [apply rel_ret; exact _|].
             apply rel_bind; [exact _|apply hash_true, St|intro; apply rel_ret; exact _].
          -- intros [h|]; [|apply rel_ret; exact _]. apply rel_bind; [exact _|apply Ix|]. intros t. destruct (key_eqb h (fst t)); apply rel_ret; exact _.
  Qed.
  Lemma command_true cm s c : steady_reads -> uses_cache c = true -> rel tr (run_command cm (Some s) c).
  Proof.
    intros St U. destruct c as [| | | | | | | | | | | | | |cp ck cs| | | | |]; try discriminate U; cbn [run_command with_ds].
    - unfold cmd_compare. apply rel_bind; [exact _| |intro key].
      { destruct ck; [apply rel_canonicalize; exact _|apply rel_bind; [exact _|apply rel_get_head_key; exact _|intro; apply rel_bind; [exact _|apply rel_commit_from_key; exact _|intro; apply rel_ret; exact _]]]. }
      cbv zeta. apply rel_bind; [exact _|apply compare_true, St|intro r]. destruct cs; [apply rel_print_stat_diff_result|apply rel_print_diff_result]; exact _.
    - unfold cmd_status. apply rel_bind; [exact _|apply rel_head_or_fail; exact _|intro n]. apply rel_bind; [exact _|apply rel_try, rel_reflog_get; exact _|intros [k|e]]; [|apply rp_print].
      apply rel_bind; [exact _|apply rp_print|intro]. apply rel_bind; [exact _|apply rel_commit_from_key; exact _|intro cc]. apply rel_bind; [exact _|apply compare_true, St|intro r]. apply rel_print_diff_result; exact _.
    - unfold cmd_checkout_head. apply rel_bind; [exact _|apply rel_head_or_fail; exact _|intro n]. apply rel_bind; [exact _|apply rel_try, rel_reflog_get; exact _|intro g].
      apply rel_bind; [exact _|destruct g; [apply rel_bind; [exact _|apply rel_commit_from_key; exact _|intro]|]; apply rel_ret; exact _|intro t].
      apply rel_bind; [exact _|apply compare_true, St|intro r]. destruct (diff_result_empty r); (apply rel_bind; [exact _| |intros _]); try apply rf_head; try apply rp_print; apply rel_print_diff_result; exact _.
  Qed.

  (** *** Processes *)
  #[local] Existing Instance hx_pre.
  #[local] Existing Instance hx_Rd.
  #[local] Existing Instance hx_Proc.
  Lemma hx_finish st r : rel hx (finish st r).
  Proof. destruct r; cbn [finish]; repeat (first [apply rel_bind; [exact _| |intros _]|apply rel_ignore_on; [exact _|]]); first [apply rp_print|apply pc_rollback|apply pc_commit|apply pc_cache_rollback|apply pc_cache_commit]. Qed.
  Lemma start_true cm w st w1 : true_table (w_hashed w) (w_cache w) -> starts cm w st w1 -> agrees T (w_fs w1) -> sincere w1.
  Proof.
    intros H S A. pose proof (sc_setup cm (close_all w)) as Sc. pose proof (before_setup cm (close_all w)) as B. pose proof (start_cache _ _ _ _ S) as Q. unfold starts in S. rewrite S in Sc, B. cbn [snd] in Sc, B. destruct B as (Hh & _).
    assert (X : true_table (w_hashed w1) (w_cache w1)) by (rewrite Hh; change (w_hashed (close_all w)) with (w_hashed w); destruct Sc as [-> | ->]; [exact H|apply table_nil]).
    split; [exact A|]. split; [exact X|]. rewrite Q. exact X.
  Qed.
  Lemma process_true cm c w : steady_reads -> true_table (w_hashed w) (w_cache w) -> (forall st w1, starts cm w st w1 -> agrees T (w_fs w1)) ->
    true_table (w_hashed (snd (run_process cm c w))) (w_cache (snd (run_process cm c w))).
  Proof.
    intros St H A. assert (Pl : sc w (snd (run_process cm c w)) -> true_table (w_hashed (snd (run_process cm c w))) (w_cache (snd (run_process cm c w)))).
    { intros [Q|Q]; rewrite Q; [|apply table_nil]. eapply table_mono; [apply hx_process|exact H]. }
    pose proof (sc_setup cm (close_all w)) as Sc. destruct (setup cm (close_all w)) as [os w1] eqn:Es. cbn [snd] in Sc. change (sc w w1) in Sc.
    destruct os as [st| | | |]; try (apply Pl; unfold run_process; rewrite main_split; unfold bind at 1; rewrite Es; exact Sc).
    pose proof (start_cache _ _ _ _ Es) as Q1. destruct (run_command cm st c w1) as [oc w2] eqn:R. pose proof (process_shape _ _ _ _ _ _ _ Es R) as Sh.
    assert (Plain : kc w1 w2 -> sc w (snd (run_process cm c w))).
    { intros [H1 H2]. assert (Q2 : cur_cache w2 = w_cache w1) by (unfold cur_cache in *; rewrite H1, H2; exact Q1). assert (S2 : sc w w2) by (unfold sc; rewrite H1; exact Sc).
      assert (E2 : forall r, sc w (snd (finish st r w2))) by (intro r; pose proof (ec_finish st r w2) as [Ec _]; unfold sc in *; destruct Ec as [-> | ->]; [exact S2|rewrite Q2; exact Sc]).
      rewrite Sh. destruct oc; try exact S2; apply E2. }
    destruct st as [s|]; [destruct (uses_cache c) eqn:Uc|]; [|apply Pl, Plain; pose proof (kc_command cm (Some s) c Uc w1) as K; rewrite R in K; exact K|apply Pl, Plain; pose proof (no_repo_kc cm c w1) as K; rewrite R in K; exact K].
    pose proof (start_true cm w (Some s) w1 H Es (A _ _ Es)) as Si. apply (command_true cm s c St Uc) in Si. rewrite R in Si. cbn [snd] in Si. destruct Si as (_ & X1 & X2). rewrite Sh.
    assert (Fi : forall r, true_table (w_hashed (snd (finish (Some s) r w2))) (w_cache (snd (finish (Some s) r w2)))).
    { intro r. eapply table_mono; [apply (hx_finish (Some s) r)|]. pose proof (ec_finish (Some s) r w2) as [[-> | ->] _]; assumption. }
    destruct oc; try exact X1; apply Fi.
  Qed.
  Lemma honest_true w : steady_reads -> honest T w -> true_table (w_hashed w) (w_cache w).
  Proof.
    intro St. induction 1 as [w D C|w cm c H IH P|w w' H IH O Q].
    - rewrite C. apply table_nil.
    - apply process_true; [exact St|exact IH|]. intros st w1 S. apply (P st w1 S).
    - destruct O as (_ & Hh). rewrite Hh. destruct Q as [-> | ->]; [exact IH|apply table_nil].
  Qed.
  Lemma honest_used w : honest T w -> well_used w.
  Proof.
    induction 1 as [w D C|w cm c H IH P|w w' H IH O Q]; [apply wu_start, D|apply wu_process; [exact IH|]; intros st w1 S; destruct (P st w1 S) as (A & B & _); auto|eapply wu_outside; eassumption].
  Qed.
  Lemma agrees_ok f : agrees T f -> triples_ok f.
  Proof.
    intro A. split; [intros l c st L; apply (A l c st L)|]. intros l c st l' c' st' L L' Q. destruct (A _ _ _ L) as [_ X], (A _ _ _ L') as [_ Y]. rewrite <- X, Q. exact Y.
  Qed.
  Lemma table_right w tab : agrees T (w_fs w) -> true_table (w_hashed w) tab -> cur_cache w = tab -> answers_right w.
  Proof.
    intros A H Q l c st k L K. rewrite looked_up_eq, Q in K. destruct (assoc (cache_bytes (triple c st)) tab) as [b|] eqn:As; [|discriminate K].
    apply assoc_In in As. destruct (H _ _ As) as (t & k' & Q1 & O & -> & Hk). destruct (A _ _ _ L) as [O' Tc]. pose proof (cache_bytes_inj _ _ O' O Q1) as Q2. subst t. rewrite Tc in Hk.
    unfold answer in K. rewrite from_as_db_key in K. inv K. exact Hk.
  Qed.
  Lemma sincere_right w : sincere w -> cache_right w.
  Proof. intros (A & H1 & H2). split; [eapply table_right; eauto|]. eapply (table_right (set_ctxn w None)); [exact A|exact H1|reflexivity]. Qed.
  (** C78 *)
  Theorem honest_order cm w st w1 : honest T w -> steady_reads -> starts cm w st w1 -> fs_ok (w_fs w1) -> agrees T (w_fs w1) -> in_order w1.
  Proof. intros H St S O A. split; [exact O|]. split; [apply agrees_ok, A|]. apply sincere_right. eapply (start_true cm w st w1); [apply honest_true; assumption|exact S|exact A]. Qed.
  Lemma honest_readable cm w st w1 : honest T w -> steady_reads -> starts cm w st w1 -> agrees T (w_fs w1) -> cache_readable w1.
  Proof.
    intros H St S A a b I. destruct (start_true cm w st w1 (honest_true _ St H) S A) as (_ & _ & X). destruct (X a b I) as (t & k & _ & _ & Q & _). eauto.
  Qed.

  (** *** What status and compare print *)
  Lemma honest_tidy cm w s w1 : honest T w -> starts cm w (Some s) w1 -> no_coll (w_hashed w1) -> forall t, head_tree w1 (Some t) -> tidy w1 t.
  Proof.
    intros H S NC t Ht. destruct (used_started _ _ _ _ (honest_used _ H) S) as [W Ty]. pose proof (typed_cur _ Ty NC) as Sh. apply item_tidy; [exact Sh|].
    destruct Ht as (n & _ & k & l & c & Hi & Rc & Q). inv Q. destruct (newest_commit _ _ _ _ _ W Sh Hi) as [c' Ic]. rewrite (reads_is _ _ _ _ Ic Rc). eapply commit_formed; eassumption.
  Qed.
  Lemma honest_compared cm w s w1 k : honest T w -> starts cm w (Some s) w1 -> no_coll (w_hashed w1) -> (forall ki, k = Some ki -> names_only w1 Item ki) -> forall t, compared_to w1 k t -> tidy w1 t.
  Proof.
    intros H S NC Nm t Ct. destruct k as [ki|]; cbn [compared_to] in Ct; [|eapply honest_tidy; eassumption]. destruct (used_started _ _ _ _ (honest_used _ H) S) as [W Ty]. pose proof (typed_cur _ Ty NC) as Sh.
    apply item_tidy; [exact Sh|]. apply (Nm ki eq_refl), Ct.
  Qed.
  Theorem honest_status cm w s w1 w2 {F : Fmt} : honest T w -> starts cm w (Some s) w1 -> steady_reads -> fs_ok (w_fs w1) -> agrees T (w_fs w1) -> no_coll (w_hashed w1) ->
    run_command cm (Some s) CStatus w1 = (Done tt, w2) ->
    exists name, rp_head (repo_of (cur_db w1)) = Some name /\
      ((exists k l c A M, history name None (repo_of (cur_db w1)) = k :: l /\ reads_commit w1 k c /\
          differences (cm_exclude cm) (ds_folder s) (ds_repo s) w1 (Some (c_tree c)) (w_hashed w2) A M /\
          writes_lines w1 w2 ((str "HEAD: " ++ name ++ str " [" ++ firstn 8 (as_user_key k) ++ str "]") :: report_lines (map entry_text A) (map (fun x => entry_text (x, true)) M))) \/
       (history name None (repo_of (cur_db w1)) = [] \/ ~ no_errors w1) /\ writes_lines w1 w2 [str "HEAD: " ++ name ++ str " (no commits on " ++ name ++ str ")"]).
  Proof.
    intros H S St O A NC R. apply (status_shows cm w s w1 w2); [apply used_reachable, honest_used, H|exact S|exact St|eapply honest_order; eassumption|eapply honest_tidy; eassumption|exact R].
  Qed.
  Theorem honest_compare cm w s w1 p k w2 {F : Fmt} : honest T w -> starts cm w (Some s) w1 -> steady_reads -> fs_ok (w_fs w1) -> agrees T (w_fs w1) -> no_coll (w_hashed w1) ->
    (forall ki, k = Some ki -> names_only w1 Item ki) -> run_command cm (Some s) (CCompare p k false) w1 = (Done tt, w2) ->
    exists t A M, compared_to w1 k t /\
      differences (cm_exclude cm) (ds_folder s) (match p with Some q => q | None => ds_repo s end) w1 (Some t) (w_hashed w2) A M /\
      writes_lines w1 w2 (report_lines (map entry_text A) (map (fun x => entry_text (x, true)) M)).
  Proof.
    intros H S St O A NC Nm R. apply (compare_shows cm w s w1 p k w2); [apply used_reachable, honest_used, H|exact S|exact St|eapply honest_order; eassumption|eapply honest_compared; eassumption|exact R].
  Qed.
  Theorem honest_compare_stat cm w s w1 p k w2 {F : Fmt} : honest T w -> starts cm w (Some s) w1 -> steady_reads -> fs_ok (w_fs w1) -> agrees T (w_fs w1) -> no_coll (w_hashed w1) ->
    (forall ki, k = Some ki -> names_only w1 Item ki) -> run_command cm (Some s) (CCompare p k true) w1 = (Done tt, w2) ->
    exists t l ls, compared_to w1 k t /\
      stat_differences (cm_exclude cm) (ds_folder s) (match p with Some q => q | None => ds_repo s end) w1 t w2 l /\
      Forall2 (fun f => stat_spelt (display (st_name f)) (N.of_nat (st_added f)) (N.of_nat (st_removed f))) l ls /\ writes_lines w1 w2 ls.
  Proof.
    intros H S St O A NC Nm R. apply (compare_stat_shows cm w s w1 p k w2); [apply used_reachable, honest_used, H|exact S|exact St|eapply honest_order; eassumption|eapply honest_compared; eassumption|exact R].
  Qed.
  (** *** In terms of files *)
  Lemma diff_edits w0 ex fo p k w log A M dbl l f : steady_reads -> snapshot w0 ex fo p k w -> w_fs w0 = f -> p = abs_path l -> fo = abs_path dbl ->
    incl (w_hashed w) log -> no_coll log -> lossless_below f l -> lossless_below (w_fs w) l ->
    differences ex fo p w (Some k) log A M -> edits ex dbl l f (w_fs w) A M.
  Proof.
    intros St Sn F0 -> -> I NC Lf Lg (SA & SM & _ & DA & M1 & M2). destruct (snapshot_tree _ _ _ _ _ _ St (no_coll_incl _ _ I NC) Sn) as (_ & TA & TB).
    assert (Sd : forall x e, snapped w0 ex (abs_path dbl) (abs_path l) x e <-> committed ex dbl l f x e) by (intros x e; unfold snapped, committed; rewrite !locate_abs, F0; reflexivity).
    assert (Od : forall x e, on_disk ex (abs_path dbl) (abs_path l) w x e <-> now ex dbl l (w_fs w) x e) by (intros x e; unfold on_disk, now, committed; rewrite !locate_abs; reflexivity).
    assert (Fr : forall x, fresh ex (abs_path dbl) (abs_path l) w (Some k) x <-> appeared ex dbl l f (w_fs w) x).
    { intro x. unfold fresh, appeared. split; intros [(e & X) N]; (split; [exists e; apply Od, X|]).
      - intros e0 C. apply Sd in C. destruct (TB _ _ C) as (k' & d & It); [intros ->; apply Od in X as [Z _]; congruence|]. exact (N _ _ It).
      - intros k' d It. destruct (TA _ _ _ It) as (e0 & C & _). apply Sd in C. exact (N _ C). }
    split; [exact SA|]. split; [exact SM|]. split.
    - intros x file. rewrite DA. unfold topmost.
      assert (Q : fresh ex (abs_path dbl) (abs_path l) w (Some k) x -> (on_disk ex (abs_path dbl) (abs_path l) w x EDir <-> lookup (w_fs w) (l ++ x) = Some EDir)).
      { intros [(e & X) _]. apply Od in X as (Nx & Lx & Ix). split; [intro Y; apply Od in Y as (_ & Ly & _); exact Ly|]. intro Ly. apply Od. split; [exact Nx|]. split; assumption. }
      split; intros ((P1 & P2) & P3); [pose proof (Q P1) as Q'|pose proof (Q (proj2 (Fr x) P1)) as Q'].
      + split; [|rewrite P3; exact Q']. split; [apply Fr, P1|]. intros y Y Z. apply Fr in Z. exact (P2 y Y Z).
      + split; [|rewrite P3; symmetry; exact Q']. split; [apply Fr, P1|]. intros y Y Z. apply Fr in Z. exact (P2 y Y Z).
    - intro x. split.
      + intro X. destruct (M1 x X) as (c & st & k0 & d & k' & D & It & Hk & Ne). destruct (TA _ _ _ It) as (e & C & Le). exists c, st, e. split; [apply Od, D|]. split; [apply Sd, C|].
        intros st' ->. destruct Le as [(Q & _)|(c' & st'' & Q & _ & Hk')]; [discriminate Q|]. inv Q. apply Ne. eapply hashed_fun; [exact St|exact Hk|]. eapply hashed_mono; eassumption.
      + intros (c & st & e & N & C & Ne). apply Od in N. pose proof N as Nn. apply Od in Nn as (Nx & Lx & Ix). apply Sd in C. destruct (TB _ _ C) as (k' & d & It); [intro; contradiction|].
        destruct (M2 _ _ _ _ _ N It) as [X|Hk]; [exact X|exfalso]. destruct (TA _ _ _ It) as (e' & [Ce _] & Le). destruct C as [C Ci]. rewrite C in Ce. inv Ce.
        assert (Kc : keeps_data c) by (intro t; apply (Lg x); unfold content; rewrite Lx; reflexivity).
        destruct Le as [(-> & _ & Dk)|(c0 & st0 & -> & _ & Hk0)].
        * eapply (dir_key_file log); [exact NC|exact Kc|exact Hk|]. destruct Dk as (names & ks & o & L1 & L2 & L3 & L4). exists names, ks, o. auto.
        * apply (Ne st0). f_equal. symmetry. refine (hashed_inj log _ _ _ NC Kc _ Hk (hashed_mono _ _ _ _ I Hk0)).
          intro t. apply (Lf x). rewrite locate_abs in C. unfold content. rewrite C. reflexivity.
  Qed.
  Theorem edits_none ex dbl l f g A M : edits ex dbl l f g A M -> (A = [] /\ M = [] <-> unedited ex dbl l f g).
  Proof.
    intros (_ & _ & HA & HM). split.
    - intros [-> ->]. assert (Na : forall n x, length x <= n -> ~ appeared ex dbl l f g x).
      { induction n as [|n IH]; intros x Lx Ap; [destruct x; [|inversion Lx]; destruct Ap as [(e & N & _) _]; congruence|].
        apply (HA x (negb (is_dir g (l ++ x)))). split.
        - split; [exact Ap|]. intros y (m & r & ->). apply IH. rewrite app_length in Lx. cbn in Lx. lia.
        - rewrite <- is_dir_iff. destruct (is_dir g (l ++ x)); cbn; split; congruence. }
      assert (Ex : forall x e, now ex dbl l g x e -> exists e0, committed ex dbl l f x e0).
      { intros x e N. destruct (lookup f (l ++ x)) as [e0|] eqn:L; [exists e0; split; [exact L|apply N]|]. destruct (Na _ x (Nat.le_refl _)). split; [eauto|]. intros e0 [C _]. congruence. }
      split; [exact Ex|]. intros x c st N. destruct (Ex _ _ N) as [e0 C]. assert (Nr : ~ rewritten ex dbl l f g x) by (intro X; apply HM in X; destruct X).
      destruct e0 as [|c0 st0| |]; try (destruct Nr; exists c, st; eexists; split; [exact N|]; split; [exact C|]; discriminate).
      destruct (list_eq_dec ascii_dec c c0) as [->|Ne]; [eauto|]. destruct Nr. exists c, st. eexists. split; [exact N|]. split; [exact C|]. intros st' Q. inv Q. congruence.
    - intros [U1 U2]. split.
      + destruct A as [|[x b] A]; [reflexivity|exfalso]. destruct (proj1 (HA x b) (or_introl eq_refl)) as [[[(e & N) Z] _] _]. destruct (U1 _ _ N) as [e0 C]. exact (Z _ C).
      + destruct M as [|x M]; [reflexivity|exfalso]. destruct (proj1 (HM x) (or_introl eq_refl)) as (c & st & e & N & C & Z). destruct (U2 _ _ _ N) as [st0 C']. apply (Z st0). destruct C as [C _], C' as [C' _]. congruence.
  Qed.
  Lemma here_found v x c st : closed (w_fs v) -> lookup (w_fs v) (w_cwd v ++ x) = Some (EFile c st) -> x <> [] -> found_here v x.
  Proof.
    intros Cl L N. exists (w_cwd v ++ x), c, st. unfold stat, resolve, named, is_empty_path. cbn [p_abs p_comps p_slash negb andb]. destruct x as [|n x]; [congruence|]. cbn [map].
    change (Normal n :: map Normal x) with (map Normal (n :: x)). rewrite walk_normals; [rewrite L; reflexivity|]. intros a b Q Nb. rewrite Q, app_assoc in L. eapply closed_app; [exact Cl|exact L|exact Nb].
  Qed.
  Theorem edit_story {F : Fmt} cm w e d db m : honest T w -> steady_reads -> quiet_disk w -> cache_there w -> agrees T (w_fs w) -> repository_at cm w e d db ->
    let l := e ++ removelast d in let dbl := e ++ d in let ex := cm_exclude cm in
    globs_ok cm -> (exists n, rp_head (repo_of db) = Some n /\ utf8_valid n = true) -> can_store ex (abs_path dbl) (abs_path l) w -> lossless_below (w_fs w) l ->
    (lenN m < 2 ^ 62)%N -> utf8_valid m = true ->
    exists w', run_process cm (CCommit None m None) w = (Some 0%N, w') /\ w_fs w' = w_fs w /\ honest T w' /\
      forall v db', outside w' v -> w_cache v = w_cache w' \/ w_cache v = [] -> quiet_disk v -> cache_there v -> agrees T (w_fs v) -> repository_at cm v e d db' ->
        no_coll (w_hashed v) -> length (d_data db') <= stack -> listable ex dbl (w_fs v) (abs_path l) l stack -> lossless_below (w_fs v) l ->
        (forall r e0, committed ex dbl l (w_fs w) r e0 -> lookup (w_fs v) (l ++ r) <> None) ->
        (forall x c st, now ex dbl l (w_fs v) x (EFile c st) -> (forall e0, ~ committed ex dbl l (w_fs w) x e0) -> found_here v x) ->
        exists v' name k r, run_process cm CStatus v = (Some 0%N, v') /\ w_fs v' = w_fs v /\ rp_head (repo_of db') = Some name /\ history name None (repo_of db') = k :: r /\
          (no_coll (w_hashed v') -> exists A M, edits ex dbl l (w_fs w) (w_fs v) A M /\
             writes_lines v v' ((str "HEAD: " ++ name ++ str " [" ++ firstn 8 (as_user_key k) ++ str "]") :: report_lines (map entry_text A) (map (fun x => entry_text (x, true)) M))).
  Proof.
    intros Hw St Qd Ct Ag Rp l dbl ex G Hd Cs Ls Lm Um. pose proof Qd as (F0 & O & Mo). pose proof Rp as (Cp & Nd & _). pose proof (honest_used _ Hw) as U.
    assert (Place : forall x, cache_there x -> cache_place x).
    { intros x. unfold cache_there, cache_place. destruct cache_dir as [p|]; [|trivial]. intros (c & -> & D). exists c. split; [reflexivity|]. intros a b Q. right. apply (D a b). exact Q. }
    destruct (start_found cm w e d db F0 (Place _ Ct) Rp) as (w1 & S & F1 & C1 & D1 & O1 & Cn1 & Cu1 & H1 & Fs1). specialize (Fs1 Ct). fold l dbl in S. set (s := DsState (abs_path dbl) (abs_path l)) in *.
    destruct (proj2 (commit_exactly cm w s w1 None m None (used_reachable _ U) S ltac:(unfold quiet_disk; rewrite Fs1; auto) Lm)) as [w2 R2].
    { split; [exact G|]. split; [intros _; unfold has_head; rewrite Cu1; exact Hd|]. unfold can_store in *. cbn [ds_folder ds_repo s]. rewrite Fs1, C1. exact Cs. }
    destruct (process_live cm _ w (Some s) w1 w2 F0 S R2) as (w' & P & Ow & Fw & Sw & Cw & Hhw & _ & Dw). specialize (Dw s eq_refl).
    assert (Fs2 : w_fs w2 = w_fs w1) by (pose proof (files_kept cm s (CCommit None m None) eq_refl w1) as X; rewrite R2 in X; apply X).
    assert (Hw' : honest T w').
    { replace w' with (snd (run_process cm (CCommit None m None) w)) by (rewrite P; reflexivity). apply ho_process; [exact Hw|]. intros st x Sx. unfold starts in S, Sx. rewrite S in Sx. injection Sx as <- <-. rewrite Fs1. auto. }
    exists w'. split; [exact P|]. split; [congruence|]. split; [exact Hw'|].
    intros v db' Ou Cv Qv Ctv Agv Rpv NC De Li Lg Kp Fo. pose proof Qv as (Fv & Ov & Mv). pose proof (ho_outside T _ _ Hw' Ou Cv) as Hv. pose proof (honest_used _ Hv) as Uv. destruct Ou as [Dv Hhv].
    destruct (start_found cm v e d db' Fv (Place _ Ctv) Rpv) as (v1 & Sv & Fv1 & Cv1 & Dv1 & Ov1 & Cnv1 & Cuv1 & Hv1 & Fsv1). specialize (Fsv1 Ctv). fold l dbl in Sv. fold s in Sv.
    assert (In12 : incl (w_hashed w2) (w_hashed v1)) by (rewrite Hv1, Hhv, Hhw; apply incl_refl).
    assert (NC1 : no_coll (w_hashed v1)) by (rewrite Hv1; exact NC). assert (NC2 : no_coll (w_hashed w2)) by (eapply no_coll_incl; eauto).
    assert (AF : attrs_fits (Attrs m [])).
    { split; [eapply N.lt_trans; [exact Lm|reflexivity]|]. split; [exact Um|]. apply wf_map. split; [reflexivity|constructor]. }
    destruct (commit_works cm w s w1 None m None w2 (used_reachable _ U) S ltac:(rewrite Fs1; exact O) R2 NC2 AF) as (name & tree & k & w0 & N & Fs0 & C0 & Sn & Ic & One & _ & _ & Cn2).
    assert (Db : cur_db v1 = cur_db w2).
    { rewrite Cuv1, <- Dw, Cn2, Cn1. destruct Rpv as (_ & _ & _ & _ & _ & _ & Kn). rewrite Dv in Kn. unfold db_at. rewrite Kn. reflexivity. }
    cbn [branch_of ds_folder ds_repo s] in N, Sn. pose proof (push_branches _ _ _ _ One) as [Hi _]. destruct One as (_ & Hdk & _).
    assert (Ht : head_tree v1 (Some tree)).
    { exists name. rewrite Db. split; [congruence|]. eexists k, _, _. split; [exact Hi|]. split; [eapply reads_commit_cur; [exact Db|apply commit_reads, Ic]|reflexivity]. }
    assert (Rc : reads_commit v1 k (Commit tree (firstn 1 (history name None (repo_of (cur_db w1)))) (Attrs m []))) by (eapply reads_commit_cur; [exact Db|apply commit_reads, Ic]).
    pose proof (snapshot_cur _ _ _ _ _ _ v1 Db In12 Sn) as Sn1. destruct (snapshot_tree _ _ _ _ _ _ St NC1 Sn1) as (_ & TA & TB).
    assert (Hdv : rp_head (repo_of (cur_db v1)) = Some name) by (rewrite Db, Hdk; exact N).
    assert (Hiv : history name None (repo_of (cur_db v1)) = k :: history name None (repo_of (cur_db w1))) by (rewrite Db; exact Hi).
    assert (Ar : at_rest v1).
    { split; [unfold quiet_disk; rewrite Fsv1; auto|]. eapply honest_readable; [exact Hv|exact St|exact Sv|rewrite Fsv1; exact Agv]. }
    assert (Sd : forall x e, snapped w0 ex (abs_path dbl) (abs_path l) x e <-> committed ex dbl l (w_fs w) x e) by (intros x y; unfold snapped, committed; rewrite !locate_abs, Fs0, Fs1; reflexivity).
    assert (Od : forall x e, on_disk ex (abs_path dbl) (abs_path l) v1 x e <-> now ex dbl l (w_fs v) x e) by (intros x y; unfold on_disk, now, committed; rewrite !locate_abs, Fsv1; reflexivity).
    destruct (proj2 (status_exactly cm v s v1 Uv Sv NC1 ltac:(unfold deep_enough; rewrite Cuv1; exact De) Ar)) as [v2 Rv2].
    { split; [exists name; split; [exact Hdv|]; destruct Hd as (n & B & Ut); rewrite Cu1 in N; congruence|]. intros t Ht'. assert (t = tree) as -> by (pose proof (CheckoutCmd.head_tree_fun _ _ _ Ht' Ht) as Q; congruence).
      split; [exact G|]. cbn [ds_folder ds_repo s]. fold ex. split; [|split; [|split]].
      - exists l. rewrite Fsv1, stat_abs.
        + destruct Rpv as (_ & _ & Dirs & _). rewrite (Dirs l [last d []]); [reflexivity|]. unfold l. rewrite <- app_assoc. f_equal. apply app_removelast_last, Nd.
        + intros a b Q _. destruct Rpv as (_ & _ & Dirs & _). apply (Dirs a (b ++ [last d []])). rewrite app_assoc, <- Q. unfold l. rewrite <- app_assoc. f_equal. apply app_removelast_last, Nd.
      - rewrite !locate_abs, Fsv1. exact Li.
      - intros x k' dd It. destruct (TA _ _ _ It) as (e0 & C & Lf). apply Sd in C. pose proof (Kp _ _ C) as Kx. destruct (lookup (w_fs v) (l ++ x)) as [e1|] eqn:L1; [|congruence]. exists e1. apply Od. split; [|split; [exact L1|apply C]].
        intros ->. destruct It as (_ & i & _ & Q1 & Q2). specialize (Q2 eq_refl). subst dd.
        destruct Lf as [(_ & Q & _)|(c & st & -> & _)]; [congruence|]. destruct C as [C _]. rewrite app_nil_r in C. destruct Rp as (_ & _ & Dirs & _). rewrite (Dirs l [last d []]) in C; [discriminate|].
        unfold l. rewrite <- app_assoc. f_equal. apply app_removelast_last, Nd.
      - intros x c st X N1. unfold found_here. rewrite Fsv1, Cv1. apply (Fo x c st); [apply Od, X|]. intros e0 C. apply Sd in C. destruct (TB _ _ C) as (k' & dd & It); [|exact (N1 _ _ It)]. intros ->. destruct X as (X & _). congruence. }
    destruct (process_live cm _ v (Some s) v1 v2 Fv Sv Rv2) as (v' & P' & Ow' & _ & Sw' & _ & Hv' & _). exists v', name, k, (history name None (repo_of (cur_db w1))).
    split; [exact P'|]. pose proof (files_kept cm s CStatus eq_refl v1) as Fk. rewrite Rv2 in Fk. destruct Fk as (Fk & _ & Ik). cbn [snd] in Fk, Ik. split; [congruence|]. rewrite <- Cuv1. split; [exact Hdv|]. split; [exact Hiv|]. rewrite Hv'. intro NC'.
    destruct (honest_status cm v s v1 v2 Hv Sv St ltac:(rewrite Fsv1; exact Ov) ltac:(rewrite Fsv1; exact Agv) NC1 Rv2) as (name' & Hn & [(k' & r' & c' & A & M & Hi' & Rc' & Df & Wr)|[[Hi'|Ne] _]]).
    - rewrite Hdv in Hn. inv Hn. rewrite Hiv in Hi'. inv Hi'. pose proof (reads_commit_fun _ _ _ _ Rc Rc') as <-. exists A, M. split.
      + cbn [c_tree ds_folder ds_repo s] in Df. rewrite <- Fsv1. eapply (diff_edits w0 ex (abs_path dbl) (abs_path l) tree v1 (w_hashed v2)); [exact St|exact Sn1|congruence|reflexivity|reflexivity|exact Ik|exact NC'|exact Ls|rewrite Fsv1; exact Lg|exact Df].
      + unfold writes_lines, writes, screen in *. rewrite Ow', <- Ov1. exact Wr.
    - exfalso. rewrite Hdv in Hn. inv Hn. rewrite Hiv in Hi'. discriminate.
    - exfalso. apply Ne. intros f If. rewrite Fv1 in If. destruct If.
  Qed.
End Honest.
