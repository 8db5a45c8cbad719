(** Showing commits (C40) and their history (C47). *)
From Coq Require Import Permutation Sorted RelationClasses.
From Verif Require Import Base BaseFacts Key KeyFacts Cbor Object ObjectFacts Path World WorldFacts Store File Filter Dir Diff Commit SpecStore StoreCalls SpecRun SpecFile SpecDir SpecDiff SpecPatch SpecShow
  Integrity ObjStoreFacts FilePlan FileFacts ChunkFacts FileRun DirPlan DirFacts DirTrip DirTree DirLive CompareFacts DiffFacts SnapFacts PatchFacts Reader SortFacts LineFacts.

Section ShowFacts.
  Context {E : Env}.
  Notation ds := sqlite_ds.
  Definition anything (e : event) : Prop := True.
  Notation rdr := (reader anything).

  Definition gives {A} (m : M A) (d : db) (r : outcome A) : Prop := exists o, calm m d r o.
  Definition works {A} (m : M A) (d : db) : Prop := exists a, gives m d (Done a).
  Lemma gives_fun {A} (m : M A) d r r' : gives m d r -> gives m d r' -> r = r'.
  Proof. intros [o H] [o' H']. eapply calm_fun; eassumption. Qed.
  Lemma gives_total {A} (m : M A) d : rdr m -> exists r, gives m d r.
  Proof. intro R. destruct (rd_calm _ m R d) as (r & o & C & _). exists r, o. exact C. Qed.
  Lemma gives_bind {A B} (m : M A) (k : A -> M B) d a r : gives m d (Done a) -> gives (k a) d r -> gives (bind m k) d r.
  Proof. intros [o H] [o' H']. eexists. eapply calm_bind; eassumption. Qed.
  Lemma gives_stop {A B} (m : M A) (k : A -> M B) d r r' : gives m d r -> stopped r = Some r' -> gives (bind m k) d r'.
  Proof. intros [o H] S. eexists. eapply calm_bind_stop; eassumption. Qed.
  Lemma gives_unwrap {A} (m : M A) d r : gives m d r -> gives (unwrap m) d (unwrapped r).
  Proof.
    intros [o H]. exists o. intros w F C. destruct (H w F C) as (w' & E1 & S & F'). exists w'. unfold unwrap. rewrite E1. split; [destruct r; reflexivity|auto].
  Qed.
  Lemma gives_ret {A} (a : A) d : gives (ret a) d (Done a).
  Proof. exists []. intros w F _. exists w. split; [reflexivity|]. split; [apply shown_refl|exact F]. Qed.
  Lemma gives_now {A} (m : M A) w r : rdr m -> gives m (cur_db w) r <-> fst (m (set_faults w [])) = r.
  Proof.
    intro R. assert (Z : cur_db (set_faults w []) = cur_db w) by (destruct w; reflexivity). split.
    - intros [o H]. destruct (H (set_faults w []) eq_refl Z) as (w' & -> & _). reflexivity.
    - intro H. destruct (gives_total m (cur_db w) R) as [r' G]. pose proof G as [o C]. destruct (C (set_faults w []) eq_refl Z) as (w' & Q & _).
      rewrite Q in H. cbn in H. subst r'. exact G.
  Qed.
  Lemma works_bind {A B} (m : M A) (k : A -> M B) d : rdr m -> (forall a, rdr (k a)) -> works (bind m k) d <-> exists a, gives m d (Done a) /\ works (k a) d.
  Proof.
    intros R Rk. split.
    - intros (b & G). destruct (gives_total m d R) as [r Gm]. destruct (stopped (B := B) r) as [r'|] eqn:S.
      + pose proof (gives_stop _ k _ _ _ Gm S) as G'. pose proof (gives_fun _ _ _ _ G G') as <-. destruct r; discriminate S.
      + destruct r as [a| | | |]; try discriminate S. exists a. split; [exact Gm|]. destruct (gives_total (k a) d (Rk a)) as [r Gk].
        pose proof (gives_fun _ _ _ _ G (gives_bind _ _ _ _ _ Gm Gk)) as <-. exists b. exact Gk.
    - intros (a & G & b & G'). exists b. eapply gives_bind; eassumption.
  Qed.
  Lemma works_after {A B} (m : M A) (k : A -> M B) d a : rdr m -> (forall a, rdr (k a)) -> gives m d (Done a) -> works (bind m k) d <-> works (k a) d.
  Proof.
    intros R Rk G. rewrite works_bind by assumption. split; [|eauto]. intros (a' & G' & W). pose proof (gives_fun _ _ _ _ G G') as Q. injection Q as ->. exact W.
  Qed.
  Lemma works_ret {A} (a : A) d : works (ret a) d.
  Proof. exists a. apply gives_ret. Qed.
  Lemma works_mapM {A B} (f : A -> M B) l d : (forall x, rdr (f x)) -> works (mapM f l) d <-> forall x, In x l -> works (f x) d.
  Proof.
    intro R. induction l as [|x l IH]; cbn [mapM].
    - split; [intros _ x []|intros _; apply works_ret].
    - rewrite works_bind; [|apply R|intro; apply rd_bind; [apply rd_mapM, R|intro; apply rd_ret]]. split.
      + intros (y & G & W) z [<-|I]; [exists y; exact G|]. rewrite works_bind in W; [|apply rd_mapM, R|intro; apply rd_ret]. destruct W as (ys & G' & _). apply IH; [exists ys; exact G'|exact I].
      + intro H. destruct (H x (or_introl eq_refl)) as (y & G). exists y. split; [exact G|]. rewrite works_bind; [|apply rd_mapM, R|intro; apply rd_ret].
        destruct (proj2 IH (fun z I => H z (or_intror I))) as (ys & G'). exists ys. split; [exact G'|apply works_ret].
  Qed.
  Lemma gives_print t a d : gives (print t a) d (Done tt).
  Proof.
    destruct (gives_total (print t a) d (rd_print anything t a I)) as [r G]. pose proof G as [o C]. set (w := World [] [] [] [] (TxnDirty d) [] None [] [] [] 0).
    destruct (C w eq_refl eq_refl) as (w' & H & _). cbn in H. injection H as <- _. exact G.
  Qed.
  Lemma gives_get w k o : gives (get_obj ds k) (cur_db w) (Done o) <-> reads_as w k (Done o).
  Proof. apply gives_now, rd_get_obj. Qed.
  Lemma works_read_vec w k : works (Diff.read_vec ds k) (cur_db w) <-> exists bs, stored_bytes w k bs.
  Proof.
    assert (S : forall bs, gives (Diff.read_vec ds k) (cur_db w) (Done bs) <-> stored_bytes w k bs).
    { intro bs. rewrite gives_now by apply rd_read_vec. assert (Z : cur_db (set_faults w []) = cur_db w) by (destruct w; reflexivity). split.
      - intro H. destruct (Diff.read_vec ds k (set_faults w [])) as [r w'] eqn:Q. cbn in H. subst r. apply read_vec_stored in Q as [_ S]. exact (stored_db _ _ _ _ Z S).
      - intro H. unfold Diff.read_vec, unwrap. specialize (H (set_faults w []) eq_refl Z). destruct (read_data ds vec_write stack k [] (set_faults w [])) as [r w']. cbn in H. subst r. reflexivity. }
    split; intros (bs & H); exists bs; apply S, H.
  Qed.
  Lemma stored_gives w k bs : stored_bytes w k bs <-> gives (Diff.read_vec ds k) (cur_db w) (Done bs).
  Proof.
    rewrite gives_now by apply rd_read_vec. assert (Z : cur_db (set_faults w []) = cur_db w) by (destruct w; reflexivity). split.
    - intro H. unfold Diff.read_vec, unwrap. specialize (H (set_faults w []) eq_refl Z). destruct (read_data ds vec_write stack k [] (set_faults w [])) as [r w']. cbn in H. subst r. reflexivity.
    - intro H. destruct (Diff.read_vec ds k (set_faults w [])) as [r w'] eqn:Q. cbn in H. subst r. apply read_vec_stored in Q as [_ S]. exact (stored_db _ _ _ _ Z S).
  Qed.

  (** *** When a comparison of stored trees can be shown *)
  Definition has_bytes (w : world) (k : key) : Prop := exists bs, stored_bytes w k bs.
  Lemma works_line_ct w k : works (line_ct ds k) (cur_db w) <-> has_bytes w k.
  Proof.
    unfold line_ct. rewrite works_bind; [|apply rd_read_vec|intro; apply rd_ret]. unfold has_bytes. rewrite <- works_read_vec. split; [intros (a & G & _); exists a; exact G|intros (a & G); exists a; split; [exact G|apply works_ret]].
  Qed.
  Lemma works_seq {A B} (m : M A) (n : M B) d : rdr m -> rdr n -> works (bind m (fun _ => n)) d <-> works m d /\ works n d.
  Proof. intros R Rn. rewrite works_bind; [|exact R|intro; exact Rn]. unfold works. firstorder. Qed.
  Lemma works_stats l d : works (print_stats l) d.
  Proof.
    induction l as [|s l IH]; cbn [print_stats]; [apply works_ret|]. rewrite works_seq; [|apply rd_print; exact I|apply rd_stats; intro; exact I]. split; [|exact IH].
    eexists. apply gives_print.
  Qed.
  Lemma works_stat w r : df_deleted r = [] ->
    works (print_stat_diff_result ds r) (cur_db w) <->
    (forall a k, In a (df_added r) -> ad_isdir a = false -> ad_key a = Some k -> has_bytes w k) /\
    (forall m, In m (df_modified r) -> has_bytes w (md_old m) /\ has_bytes w (md_new m)).
  Proof.
    intro D. unfold print_stat_diff_result. rewrite works_bind; [|apply rd_line_stat|intro; apply rd_stats; intro; exact I].
    assert (Q : (exists a, gives (line_stat ds r) (cur_db w) (Done a) /\ works (print_stats (sort filestat_cmp a)) (cur_db w)) <-> works (line_stat ds r) (cur_db w)).
    { split; [intros (a & G & _); exists a; exact G|intros (a & G); exists a; split; [exact G|apply works_stats]]. }
    rewrite Q. clear Q. unfold line_stat. rewrite D. cbn [filter mapM].
    assert (Ra : forall x : added_result, rdr (match ad_key x with Some k => n <- line_ct ds k ;; ret [FileStat (ad_path x) n 0] | None => ret [] end)).
    { intro x. destruct (ad_key x); [apply rd_bind; [apply rd_line_ct|intro]|]; apply rd_ret. }
    assert (Rm : forall x : modified_result, rdr (before <- Diff.read_vec ds (md_old x) ;; after <- Diff.read_vec ds (md_new x) ;;
       ret (FileStat (md_path x) (length (filter (fun l => match l with DRight _ => true | _ => false end) (diff_lines (lossy before) (lossy after))))
                                 (length (filter (fun l => match l with DLeft _ => true | _ => false end) (diff_lines (lossy before) (lossy after))))))).
    { intro x. do 2 (apply rd_bind; [apply rd_read_vec|intro]). apply rd_ret. }
    assert (Rt : forall a, rdr (bind (ret (@nil (list filestat))) (fun d => bind (mapM (fun x : modified_result => before <- Diff.read_vec ds (md_old x) ;; after <- Diff.read_vec ds (md_new x) ;;
       ret (FileStat (md_path x) (length (filter (fun l => match l with DRight _ => true | _ => false end) (diff_lines (lossy before) (lossy after))))
                                 (length (filter (fun l => match l with DLeft _ => true | _ => false end) (diff_lines (lossy before) (lossy after)))))) (df_modified r)) (fun m => ret (concat a ++ concat d ++ m))))).
    { intro a. apply rd_bind; [apply rd_ret|intro]. apply rd_bind; [apply rd_mapM, Rm|intro]. apply rd_ret. }
    cbv zeta. rewrite works_bind; [|apply rd_mapM, Ra|exact Rt].
    assert (M : forall a, works (bind (ret (@nil (list filestat))) (fun d => bind (mapM (fun x : modified_result => before <- Diff.read_vec ds (md_old x) ;; after <- Diff.read_vec ds (md_new x) ;;
       ret (FileStat (md_path x) (length (filter (fun l => match l with DRight _ => true | _ => false end) (diff_lines (lossy before) (lossy after))))
                                 (length (filter (fun l => match l with DLeft _ => true | _ => false end) (diff_lines (lossy before) (lossy after)))))) (df_modified r)) (fun m => ret (concat a ++ concat d ++ m)))) (cur_db w) <->
      forall m, In m (df_modified r) -> has_bytes w (md_old m) /\ has_bytes w (md_new m)).
    { intro a. rewrite (works_after _ _ _ []); [|apply rd_ret|intro; apply rd_bind; [apply rd_mapM, Rm|intro; apply rd_ret]|apply gives_ret].
      rewrite works_bind; [|apply rd_mapM, Rm|intro; apply rd_ret].
      assert (Q : forall (A B : Type) (m : M A) (g : A -> B), (exists a, gives m (cur_db w) (Done a) /\ works (ret (g a)) (cur_db w)) <-> works m (cur_db w)).
      { intros A B m g. split; [intros (x & G & _); exists x; exact G|intros (x & G); exists x; split; [exact G|apply works_ret]]. }
      rewrite (Q _ _ _ (fun m => concat a ++ concat [] ++ m)). rewrite works_mapM by exact Rm.
      split; intros H m I; specialize (H m I).
      - rewrite works_bind in H; [|apply rd_read_vec|intro; apply rd_bind; [apply rd_read_vec|intro; apply rd_ret]]. destruct H as (b & G1 & H).
        rewrite works_bind in H; [|apply rd_read_vec|intro; apply rd_ret]. destruct H as (c & G2 & _). split; [exists b|exists c]; apply stored_gives; assumption.
      - destruct H as [[b G1] [c G2]]. apply stored_gives in G1, G2. rewrite works_bind; [|apply rd_read_vec|intro; apply rd_bind; [apply rd_read_vec|intro; apply rd_ret]]. exists b. split; [exact G1|].
        rewrite works_bind; [|apply rd_read_vec|intro; apply rd_ret]. exists c. split; [exact G2|apply works_ret]. }
    assert (Ad : works (mapM (fun x : added_result => match ad_key x with Some k => n <- line_ct ds k ;; ret [FileStat (ad_path x) n 0] | None => ret [] end)
        (filter (fun x => negb (ad_isdir x)) (df_added r))) (cur_db w) <-> forall a k, In a (df_added r) -> ad_isdir a = false -> ad_key a = Some k -> has_bytes w k).
    { rewrite works_mapM by exact Ra. split.
      - intros H a k I N K. assert (J : In a (filter (fun x => negb (ad_isdir x)) (df_added r))) by (apply filter_In; rewrite N; auto). specialize (H a J). rewrite K in H.
        rewrite works_bind in H; [|apply rd_line_ct|intro; apply rd_ret]. destruct H as (n & G & _). apply works_line_ct. exists n. exact G.
      - intros H a J. apply filter_In in J as [J N]. apply negb_true_iff in N. destruct (ad_key a) as [k|] eqn:K; [|apply works_ret].
        specialize (H a k J N K). apply works_line_ct in H as [n G]. rewrite works_bind; [|apply rd_line_ct|intro; apply rd_ret]. exists n. split; [exact G|apply works_ret]. }
    rewrite <- Ad. split.
    - intros (a & G & W). split; [exists a; exact G|exact (proj1 (M a) W)].
    - intros [[a G] W]. exists a. split; [exact G|]. exact (proj2 (M a) W).
  Qed.
  Lemma works_fail {A} e d : ~ works (fail e : M A) d.
  Proof. intros (a & o & C). destruct (C (World [] [] [] [] (TxnDirty d) [] None [] [] [] 0) eq_refl eq_refl) as (w' & H & _). discriminate H. Qed.
  Lemma works_whole w p k mk b : works (whole_file ds false p (Some k) mk b) (cur_db w) <-> exists bs, stored_bytes w k bs /\ utf8_valid bs = true.
  Proof.
    unfold whole_file. rewrite works_bind; [|apply rd_read_vec|intro x; destruct (utf8_valid x); [apply rd_ret|apply rd_fail]]. split.
    - intros (x & G & W). exists x. split; [apply stored_gives, G|]. destruct (utf8_valid x); [reflexivity|]. destruct (works_fail _ _ W).
    - intros (x & S & V). exists x. split; [apply stored_gives, S|]. rewrite V. apply works_ret.
  Qed.
  Lemma works_patch_string a b p d : works (patch_from_file_string a b p) d.
  Proof. unfold patch_from_file_string. destruct (hunks_ok (changeset a b)) as (ivl & hs & -> & _). apply works_ret. Qed.
  Lemma works_pair w m : works (before <- Diff.read_vec ds (md_old m) ;; after <- Diff.read_vec ds (md_new m) ;;
      patch_from_file_string (lossy before) (lossy after) (md_path m)) (cur_db w) <-> has_bytes w (md_old m) /\ has_bytes w (md_new m).
  Proof.
    rewrite works_bind; [|apply rd_read_vec|intro; apply rd_bind; [apply rd_read_vec|intro; apply rd_patch_string]]. split.
    - intros (b & G1 & H). rewrite works_bind in H; [|apply rd_read_vec|intro; apply rd_patch_string]. destruct H as (c & G2 & _). split; [exists b|exists c]; apply stored_gives; assumption.
    - intros [[b G1] [c G2]]. apply stored_gives in G1, G2. exists b. split; [exact G1|]. rewrite works_bind; [|apply rd_read_vec|intro; apply rd_patch_string].
      exists c. split; [exact G2|apply works_patch_string].
  Qed.
  Lemma rd_pair m : rdr (before <- Diff.read_vec ds (md_old m) ;; after <- Diff.read_vec ds (md_new m) ;;
      patch_from_file_string (lossy before) (lossy after) (md_path m)).
  Proof. do 2 (apply rd_bind; [apply rd_read_vec|intro]). apply rd_patch_string. Qed.
  Lemma works_patch w r : df_deleted r = [] ->
    works (print_patch_diff_result ds r) (cur_db w) <->
    (forall a k, In a (df_added r) -> ad_isdir a = false -> ad_key a = Some k -> exists bs, stored_bytes w k bs /\ utf8_valid bs = true) /\
    (forall m, In m (df_modified r) -> has_bytes w (md_old m) /\ has_bytes w (md_new m)).
  Proof.
    intro D. unfold print_patch_diff_result. rewrite works_bind; [|apply rd_patch|intro; apply rd_print; exact I].
    assert (Q : (exists a, gives (create_diff_patch_result ds r) (cur_db w) (Done a) /\ works (print "patch" [a]) (cur_db w)) <-> works (create_diff_patch_result ds r) (cur_db w)).
    { split; [intros (a & G & _); exists a; exact G|intros (a & G); exists a; split; [exact G|eexists; apply gives_print]]. }
    rewrite Q. clear Q. unfold create_diff_patch_result. rewrite D. cbn [mapM].
    assert (Rt : forall a : list bytes, rdr (bind (ret (@nil bytes)) (fun d => bind (mapM (fun m : modified_result => before <- Diff.read_vec ds (md_old m) ;; after <- Diff.read_vec ds (md_new m) ;;
      patch_from_file_string (lossy before) (lossy after) (md_path m)) (df_modified r)) (fun m => ret (concat a ++ concat d ++ concat m))))).
    { intro a. apply rd_bind; [apply rd_ret|intro]. apply rd_bind; [apply rd_mapM, rd_pair|intro]. apply rd_ret. }
    rewrite works_bind; [|apply rd_mapM; intro; apply rd_whole|exact Rt].
    assert (M : forall a : list bytes, works (bind (ret (@nil bytes)) (fun d => bind (mapM (fun m : modified_result => before <- Diff.read_vec ds (md_old m) ;; after <- Diff.read_vec ds (md_new m) ;;
      patch_from_file_string (lossy before) (lossy after) (md_path m)) (df_modified r)) (fun m => ret (concat a ++ concat d ++ concat m)))) (cur_db w) <->
      forall m, In m (df_modified r) -> has_bytes w (md_old m) /\ has_bytes w (md_new m)).
    { intro a. rewrite (works_after _ _ _ []); [|apply rd_ret|intro; apply rd_bind; [apply rd_mapM, rd_pair|intro; apply rd_ret]|apply gives_ret].
      rewrite works_bind; [|apply rd_mapM, rd_pair|intro; apply rd_ret].
      assert (Z : (forall m, In m (df_modified r) -> has_bytes w (md_old m) /\ has_bytes w (md_new m)) <-> works (mapM (fun m : modified_result => before <- Diff.read_vec ds (md_old m) ;; after <- Diff.read_vec ds (md_new m) ;;
      patch_from_file_string (lossy before) (lossy after) (md_path m)) (df_modified r)) (cur_db w)).
      { rewrite works_mapM by apply rd_pair. split; intros H m I; apply works_pair, H, I. }
      rewrite Z. split; [intros (x & G & _); exists x; exact G|intros (x & G); exists x; split; [exact G|apply works_ret]]. }
    assert (Ad : works (mapM (fun x => whole_file ds (ad_isdir x) (ad_path x) (ad_key x) LAdd true) (df_added r)) (cur_db w) <->
      forall a k, In a (df_added r) -> ad_isdir a = false -> ad_key a = Some k -> exists bs, stored_bytes w k bs /\ utf8_valid bs = true).
    { rewrite works_mapM by (intro; apply rd_whole). split.
      - intros H a k J N K. specialize (H a J). rewrite N, K in H. apply works_whole in H. exact H.
      - intros H a J. destruct (ad_isdir a) eqn:N; [apply works_ret|]. destruct (ad_key a) as [k|] eqn:K; [|apply works_ret]. apply works_whole, (H a k J N K). }
    rewrite <- Ad. split.
    - intros (a & G & W). split; [exists a; exact G|exact (proj1 (M a) W)].
    - intros [[a G] W]. exists a. split; [exact G|exact (proj2 (M a) W)].
  Qed.

  (** *** Commits *)
  Lemma commit_of_cases o : (exists c, forall v, commit_of_object o v = (Done c, v)) \/ (exists r, (forall c, r <> Done c) /\ forall v, commit_of_object o v = (r, v)).
  Proof.
    unfold commit_of_object. destruct (match decode_attrs_std (o_data o) with Some a => Some a | None => other_attrs (o_data o) end); [|right; exists (Error EDecode); split; [discriminate|reflexivity]].
    destruct (o_keys o); [right; exists (Panicked PIndex); split; [discriminate|reflexivity]|left; eexists; reflexivity].
  Qed.
  Lemma gives_commit_of o c d : (forall v, commit_of_object o v = (Done c, v)) -> gives (commit_of_object o) d (Done c).
  Proof. intro H. exists []. intros w F _. exists w. rewrite H. split; [reflexivity|]. split; [apply shown_refl|exact F]. Qed.
  Lemma commit_done o w c w' : commit_of_object o w = (Done c, w') -> w' = w /\ forall v, commit_of_object o v = (Done c, v).
  Proof.
    intro H. destruct (commit_of_cases o) as [(c' & Q)|(r & N & Q)]; rewrite Q in H; [injection H as <- <-; auto|]. injection H as H _. destruct (N _ H).
  Qed.
  Definition base_of (c : commit) : M (option key) :=
    match c_parents c with
    | p :: _ => po <- unwrap (get_obj ds p) ;; pc <- unwrap (commit_of_object po) ;; ret (Some (c_tree pc))
    | [] => ret None
    end.
  Definition rest_of (c : commit) (kd : kind) : M unit :=
    tree <- base_of c ;;
    dr <- unwrap (compare ds (TDatabase (c_tree c)) tree) ;;
    match kd with KStat => print_stat_diff_result ds dr | KPatch => print_patch_diff_result ds dr end.
  Lemma rd_base c : rdr (base_of c).
  Proof.
    unfold base_of. destruct (c_parents c); [apply rd_ret|]. apply rd_bind; [apply rd_unwrap, rd_get_obj|intro]. apply rd_bind; [apply rd_unwrap, rd_commit_of|intro]. apply rd_ret.
  Qed.
  Lemma rd_kind kd r : rdr (match kd with KStat => print_stat_diff_result ds r | KPatch => print_patch_diff_result ds r end).
  Proof. destruct kd; [apply rd_print_stat|apply rd_print_patch]; intro; exact I. Qed.
  Lemma rd_rest c kd : rdr (rest_of c kd).
  Proof. apply rd_bind; [apply rd_base|intro]. apply rd_bind; [apply rd_unwrap, rd_compare_db|intro]. apply rd_kind. Qed.
  Lemma unwrap_pure {A} (m : M A) a d : gives m d (Done a) -> gives (unwrap m) d (Done a).
  Proof. apply gives_unwrap. Qed.
  Lemma display_eq f k kd w : display_obj ds (S f) k kd w =
    (obj <- unwrap (get_obj ds k) ;;
     match o_type obj with
     | FileBlobTree | FileBlob => read_data ds stdout_write f k tt
     | FSItemFile => match o_keys obj with [k'] => display_obj ds f k' kd | _ => panic_with PAssert end
     | TCommit => print "commit" [as_user_key k] ;;; c <- unwrap (commit_of_object obj) ;; print "" [] ;;; print "message" [at_message (c_attrs c)] ;;; print "" [] ;;; rest_of c kd
     | FSItemDir => print "tree" [as_user_key k]
     | TUnknown => panic_with PExplicit
     end) w.
  Proof. reflexivity. Qed.
  Lemma works_ext {A} (m m' : M A) d : (forall w, m w = m' w) -> works m d <-> works m' d.
  Proof. intro Q. split; intros (a & o & C); exists a, o; intros w F Cd; [rewrite <- Q|rewrite Q]; apply C; assumption. Qed.
  Lemma works_display f k kd w c : is_commit w k c -> works (display_obj ds (S f) k kd) (cur_db w) <-> works (rest_of c kd) (cur_db w).
  Proof.
    intros (o & Ro & To & Co). rewrite (works_ext _ _ _ (display_eq f k kd)). apply gives_get in Ro. apply unwrap_pure in Ro.
    rewrite (works_after _ _ _ o); [|apply rd_unwrap, rd_get_obj| |exact Ro].
    2: { intro a. destruct (o_type a); try apply rd_panic; try (apply rd_print; exact I); try (apply rd_read_data; intros; apply rd_stdout; exact I).
         - apply rd_bind; [apply rd_print; exact I|intro]. apply rd_bind; [apply rd_unwrap, rd_commit_of|intro]. do 3 (apply rd_bind; [apply rd_print; exact I|intro]). apply rd_rest.
         - destruct (o_keys a) as [|k' [|]]; try apply rd_panic. apply rd_display; intro; exact I. }
    rewrite To. rewrite (works_after _ _ _ tt); [|apply rd_print; exact I| |apply gives_print].
    2: { intro. apply rd_bind; [apply rd_unwrap, rd_commit_of|intro]. do 3 (apply rd_bind; [apply rd_print; exact I|intro]). apply rd_rest. }
    rewrite (works_after _ _ _ c); [|apply rd_unwrap, rd_commit_of| |apply unwrap_pure, gives_commit_of, Co].
    2: { intro. do 3 (apply rd_bind; [apply rd_print; exact I|intro]). apply rd_rest. }
    rewrite (works_after _ _ _ tt); [|apply rd_print; exact I|intro; do 2 (apply rd_bind; [apply rd_print; exact I|intro]); apply rd_rest|apply gives_print].
    rewrite (works_after _ _ _ tt); [|apply rd_print; exact I|intro; apply rd_bind; [apply rd_print; exact I|intro]; apply rd_rest|apply gives_print].
    rewrite (works_after _ _ _ tt); [|apply rd_print; exact I|intro; apply rd_rest|apply gives_print]. reflexivity.
  Qed.
  Lemma gives_base w c to : base_tree w c to -> gives (base_of c) (cur_db w) (Done to).
  Proof.
    unfold base_tree, base_of. destruct (c_parents c) as [|p ps]; [intros ->; apply gives_ret|]. intros (pc & (o & Ro & Co) & ->).
    eapply gives_bind; [apply unwrap_pure, gives_get, Ro|]. eapply gives_bind; [apply unwrap_pure, gives_commit_of, Co|]. apply gives_ret.
  Qed.
  Lemma walkable_gives w k : walkable w k -> exists m, gives (walk_fs_items ds k) (cur_db w) (Done m).
  Proof. intros (m & H). exists m. apply gives_now; [apply rd_walk|exact H]. Qed.
  Definition walkable_of (w : world) (to : option key) : Prop := match to with Some k => walkable w k | None => True end.
  Lemma compare_gives w k to : tidy w k -> tidy_of w to -> walkable w k -> walkable_of w to ->
    ((exists x k' d, tree_of w to x k' d /\ forall k'' d', ~ in_tree w k x k'' d') /\ gives (compare ds (TDatabase k) to) (cur_db w) (Panicked PIndex)) \/
    ((forall x k' d, tree_of w to x k' d -> exists k'' d', in_tree w k x k'' d') /\ exists r, gives (compare ds (TDatabase k) to) (cur_db w) (Done r) /\ db_result w (Some k) to r).
  Proof.
    intros Tk Tt Wk Wt. set (w0 := set_faults w []). assert (Z : cur_db w0 = cur_db w) by (destruct w; reflexivity).
    destruct (walkable_gives _ _ Wk) as (m & o1 & C1). destruct (C1 w0 eq_refl Z) as (w1 & E1 & S1 & F1).
    assert (X : exists m' w2, compare_to to w1 = (Done m', w2)).
    { destruct to as [k'|]; [|exists [], w1; reflexivity]. destruct (walkable_gives _ _ Wt) as (m' & o2 & C2). destruct (C2 w1 F1) as (w2 & E2 & _); [rewrite (shown_cur _ _ _ S1); exact Z|]. exists m', w2. exact E2. }
    destruct X as (m' & w2 & E2).
    destruct (compare_db_gen k to w w0 m w1 m' w2) as [(A & Q)|(A & r & Q & D)]; auto.
    - left. split; [exact A|]. apply gives_now; [apply rd_compare_db|]. fold w0. rewrite Q. reflexivity.
    - right. split; [exact A|]. exists r. split; [|exact D]. apply gives_now; [apply rd_compare_db|]. fold w0. rewrite Q. reflexivity.
  Qed.
  Lemma works_rest w c kd to : base_tree w c to -> tidy w (c_tree c) -> tidy_of w to -> walkable w (c_tree c) -> walkable_of w to ->
    works (rest_of c kd) (cur_db w) <-> showable w kd (c_tree c) to.
  Proof.
    intros B Tk Tt Wk Wt. unfold rest_of.
    rewrite (works_after _ _ _ to); [|apply rd_base|intro; apply rd_bind; [apply rd_unwrap, rd_compare_db|intro; apply rd_kind]|apply gives_base, B].
    destruct (compare_gives _ _ _ Tk Tt Wk Wt) as [((x & k' & d & T & N) & G)|(A & r & G & D)].
    - apply gives_unwrap in G. cbn [unwrapped] in G. split.
      + intros W. rewrite works_bind in W; [|apply rd_unwrap, rd_compare_db|intro; apply rd_kind]. destruct W as (r & G' & _). pose proof (gives_fun _ _ _ _ G G') as Q. discriminate Q.
      + intros (H & _). destruct (H _ _ _ T) as (k1 & d1 & T1). destruct (N _ _ T1).
    - rewrite (works_after _ _ _ r); [|apply rd_unwrap, rd_compare_db|intro; apply rd_kind|apply unwrap_pure, G].
      destruct D as (D0 & Da & Dm & _). unfold showable. destruct kd.
      + rewrite works_stat by exact D0. split.
        * intros [H1 H2]. split; [exact A|]. split.
          -- intros x k T N. destruct (H1 (Added (named x) false (Some k)) k) as (bs & S); [apply Da; exists x, k, false; auto|reflexivity|reflexivity|]. exists bs. split; [exact S|discriminate].
          -- intros x k d k' d' T T' N. destruct (H2 (Modified (named x) k' k)) as [S S']; [apply Dm; exists x, k, d, k', d'; auto|]. split; assumption.
        * intros (_ & H1 & H2). split.
          -- intros a k I N K. apply Da in I as (x & k0 & d & T & N' & ->). cbn in N, K. subst d. injection K as ->. destruct (H1 x k T N') as (bs & S & _). exists bs. exact S.
          -- intros m I. apply Dm in I as (x & k & d & k' & d' & T & T' & N & ->). destruct (H2 _ _ _ _ _ T T' N). split; assumption.
      + rewrite works_patch by exact D0. split.
        * intros [H1 H2]. split; [exact A|]. split.
          -- intros x k T N. destruct (H1 (Added (named x) false (Some k)) k) as (bs & S & V); [apply Da; exists x, k, false; auto|reflexivity|reflexivity|]. exists bs. split; [exact S|intros _; exact V].
          -- intros x k d k' d' T T' N. destruct (H2 (Modified (named x) k' k)) as [S S']; [apply Dm; exists x, k, d, k', d'; auto|]. split; assumption.
        * intros (_ & H1 & H2). split.
          -- intros a k I N K. apply Da in I as (x & k0 & d & T & N' & ->). cbn in N, K. subst d. injection K as ->. destruct (H1 x k T N') as (bs & S & V). exists bs. split; [exact S|apply V; reflexivity].
          -- intros m I. apply Dm in I as (x & k & d & k' & d' & T & T' & N & ->). destruct (H2 _ _ _ _ _ T T' N). split; assumption.
  Qed.
  Lemma works_now (m : M unit) w : rdr m -> works m (cur_db w) <-> fst (m (set_faults w [])) = Done tt.
  Proof. intro R. rewrite <- (gives_now _ _ _ R). split; [intros ([] & G); exact G|intro G; exists tt; exact G]. Qed.

  (** C40 *)
  Lemma show_exactly f w k c kd to : is_commit w k c -> base_tree w c to ->
    tidy w (c_tree c) -> tidy_of w to -> walkable w (c_tree c) -> (forall t, to = Some t -> walkable w t) ->
    fst (display_obj ds (S f) k kd (set_faults w [])) = Done tt <-> showable w kd (c_tree c) to.
  Proof.
    intros C B Tk Tt Wk Wt. rewrite <- works_now by (apply rd_display; intro; exact I). rewrite (works_display f k kd w c C). apply works_rest; auto.
    destruct to; [apply Wt; reflexivity|exact I].
  Qed.
  Lemma show_deleted f w k c kd p ps pc x k' d : is_commit w k c -> c_parents c = p :: ps -> reads_commit w p pc ->
    tidy w (c_tree c) -> tidy w (c_tree pc) -> walkable w (c_tree c) -> walkable w (c_tree pc) ->
    in_tree w (c_tree pc) x k' d -> (forall k'' d', ~ in_tree w (c_tree c) x k'' d') ->
    fst (display_obj ds (S f) k kd (set_faults w [])) = Panicked PIndex.
  Proof.
    intros C P Pc Tk Tt Wk Wt T N. apply gives_now; [apply rd_display; intro; exact I|].
    destruct C as (o & Ro & To & Co). apply gives_get in Ro. apply unwrap_pure in Ro.
    assert (X : gives (rest_of c kd) (cur_db w) (Panicked PIndex)).
    { unfold rest_of. eapply gives_bind; [apply (gives_base w c (Some (c_tree pc))); unfold base_tree; rewrite P; exists pc; auto|].
      destruct (compare_gives w (c_tree c) (Some (c_tree pc)) Tk Tt Wk Wt) as [(_ & G)|(A & _)].
      - eapply gives_stop; [apply gives_unwrap, G|reflexivity].
      - destruct (A _ _ _ T) as (k1 & d1 & T1). destruct (N _ _ T1). }
    assert (Y : gives (obj <- unwrap (get_obj ds k) ;;
     match o_type obj with
     | FileBlobTree | FileBlob => read_data ds stdout_write f k tt
     | FSItemFile => match o_keys obj with [k'] => display_obj ds f k' kd | _ => panic_with PAssert end
     | TCommit => print "commit" [as_user_key k] ;;; c <- unwrap (commit_of_object obj) ;; print "" [] ;;; print "message" [at_message (c_attrs c)] ;;; print "" [] ;;; rest_of c kd
     | FSItemDir => print "tree" [as_user_key k]
     | TUnknown => panic_with PExplicit
     end) (cur_db w) (Panicked PIndex)); [|exact Y].
    eapply gives_bind; [exact Ro|]. rewrite To. eapply gives_bind; [apply gives_print|]. eapply gives_bind; [apply unwrap_pure, gives_commit_of, Co|].
    do 3 (eapply gives_bind; [apply gives_print|]). exact X.
  Qed.
  (** A directory has no data. *)
  Lemma dir_no_bytes w k o bs : reads_as w k (Done o) -> o_type o = FSItemDir -> ~ stored_bytes w k bs.
  Proof.
    intros Ro To S. assert (Z : cur_db (set_faults w []) = cur_db w) by (destruct w; reflexivity). specialize (S (set_faults w []) eq_refl Z).
    destruct stack as [|f]; [discriminate S|]. cbn [read_data] in S. unfold reads_as in Ro. unfold bind in S. destruct (get_obj ds k (set_faults w [])) as [r w']. cbn in Ro. subst r.
    rewrite To in S. discriminate S.
  Qed.

  (** *** Trees of snapshots *)
  Lemma pdata_readable objs' reads h : pdata reads = (objs', Done h) -> exists bs, den objs' 5 h bs.
  Proof.
    intro P. destruct (data_den _ _ _ P) as (l1 & l2 & st & _ & _ & _ & _ & A & B). unfold loses in A, B. destruct (kb_get (pd_kb st) 4) as [|x q].
    - eexists. apply A. intros [N _]. apply N. reflexivity.
    - destruct (kb_get (pd_kb st) 3) as [|y r]; [|eexists; apply A; intros [_ N]; discriminate N]. destruct B as (lost & kept & _ & _ & D); [split; [discriminate|reflexivity]|]. exists kept. exact D.
  Qed.
  Lemma file_bytes objs w o h bs : 6 < stack -> (forall o, In o objs -> holds w o) -> holds w o -> o_type o = FSItemFile -> o_keys o = [h] -> den objs 5 h bs -> stored_bytes w (obj_key o) bs.
  Proof.
    intros L H Ho To Ko D w' F C. destruct stack as [|f] eqn:Sk; [lia|]. cbn [read_data].
    assert (H' : forall o, In o objs -> holds w' o) by (intros o' I; destruct (H _ I) as [A B]; split; [exact A|rewrite C; exact B]).
    assert (Ho' : holds w' o) by (destruct Ho as [A B]; split; [exact A|rewrite C; exact B]).
    destruct (get_holds_nofault _ _ F Ho') as (w1 & T & F1 & G). unfold bind. rewrite G, To, Ko.
    destruct (read_vec_live objs 5 h bs f [] w1 F1) as (w2 & R & _); [intros o' I; eapply holds_ticked; eauto|exact D|lia|]. rewrite R. reflexivity.
  Qed.
  Lemma snap_items w0 ex fo p k w x k' d : no_coll (w_hashed w) -> snapshot w0 ex fo p k w -> in_tree w k x k' d ->
    if d then exists o, reads_as w k' (Done o) /\ o_type o = FSItemDir else 6 < stack -> exists bs, stored_bytes w k' bs.
  Proof.
    intros NC (fuel & w1 & S & O & P & R & I) T. apply working_ok in S. assert (NC1 : no_coll (w_hashed w1)) by (eapply no_coll_incl; eauto).
    apply put_dir in P as (e & t & objs & St & Sh & Pt & _ & Ho & _); auto.
    assert (Ho2 : forall o, In o objs -> holds w o) by (intros o Io; eapply still_holds; eauto).
    apply (ptr_stored (fun reads h => exists bs, den objs 5 h bs)) in Pt; [|eapply shows_sized; eauto|].
    2: { intros objs' reads h Ic Pd. apply pdata_readable in Pd as [bs D]. exists bs. eapply den_mono; [apply le_n|exact Ic|exact D]. }
    destruct T as (A & i & It & Ed & _). destruct (at_sub _ _ _ _ _ _ _ Ho2 Pt A) as (t' & Sb & Sd).
    pose proof (stored_item _ _ _ _ _ Ho2 Sd) as X. destruct t' as [size reads|kids].
    - destruct X as (h & X & _). rewrite (item_fun _ _ _ _ It X) in Ed. cbn in Ed. subst d. intro L.
      destruct Sd as (h' & o & S1 & S2 & S3 & S4 & -> & (bs & D)). exists bs. unfold object_of_fsitem in S1. destruct (forallb utf8_valid _); [|discriminate]. injection S1 as <-.
      eapply file_bytes; [exact L|exact Ho2|apply Ho2, S4|reflexivity|reflexivity|exact D].
    - destruct X as (ks & X & _). rewrite (item_fun _ _ _ _ It X) in Ed. cbn in Ed. subst d.
      apply stored_dir in Sd as (ks' & o & S1 & S2 & S3 & -> & _). exists o. split; [apply holds_reads, Ho2, S3|]. unfold object_of_fsitem in S1. destruct (forallb utf8_valid _); [|discriminate]. injection S1 as <-. reflexivity.
  Qed.
  Definition snap_of (w : world) (to : option key) : Prop := match to with Some k => exists w0 ex fo p, snapshot w0 ex fo p k w | None => True end.
  Lemma snap_of_items w to x k d : no_coll (w_hashed w) -> snap_of w to -> tree_of w to x k d ->
    if d then exists o, reads_as w k (Done o) /\ o_type o = FSItemDir else 6 < stack -> exists bs, stored_bytes w k bs.
  Proof. destruct to as [t|]; [|intros _ _ []]. intros NC (w0 & ex & fo & p & Sn) T. eapply snap_items; eauto. Qed.
  Lemma showable_snaps w new old : 6 < stack -> no_coll (w_hashed w) -> snap_of w (Some new) -> snap_of w old ->
    showable w KStat new old <->
    (forall x k d, tree_of w old x k d -> exists k' d', in_tree w new x k' d') /\
    (forall x k d k' d', in_tree w new x k d -> tree_of w old x k' d' -> k <> k' -> d = false /\ d' = false).
  Proof.
    intros L NC Sn So. unfold showable. split.
    - intros (A & _ & B). split; [exact A|]. intros x k d k' d' T T' N. destruct (B _ _ _ _ _ T T' N) as [[bs S] [bs' S']].
      pose proof (snap_of_items w (Some new) x k d NC Sn T) as I. pose proof (snap_of_items w old x k' d' NC So T') as I'. split.
      + destruct d; [|reflexivity]. destruct I as (o & Ro & To). destruct (dir_no_bytes _ _ _ _ Ro To S).
      + destruct d'; [|reflexivity]. destruct I' as (o & Ro & To). destruct (dir_no_bytes _ _ _ _ Ro To S').
    - intros (A & B). split; [exact A|]. split.
      + intros x k T _. destruct (snap_of_items w (Some new) x k false NC Sn T L) as [bs S]. exists bs. split; [exact S|discriminate].
      + intros x k d k' d' T T' N. destruct (B _ _ _ _ _ T T' N) as [-> ->]. split; [exact (snap_of_items w (Some new) x k false NC Sn T L)|exact (snap_of_items w old x k' false NC So T' L)].
  Qed.

  (** *** History *)
  Notation quiet := (reader (fun e => is_header e = false)).
  Lemma quiet_base c : quiet (base_of c).
  Proof.
    unfold base_of. destruct (c_parents c); [apply rd_ret|]. apply rd_bind; [apply rd_unwrap, rd_get_obj|intro]. apply rd_bind; [apply rd_unwrap, rd_commit_of|intro]. apply rd_ret.
  Qed.
  Lemma quiet_rest c kd : quiet (rest_of c kd).
  Proof.
    apply rd_bind; [apply quiet_base|intro]. apply rd_bind; [apply rd_unwrap, rd_compare_db|intro]. destruct kd; [apply rd_print_stat|apply rd_print_patch]; reflexivity.
  Qed.
  Lemma quiet_done {A} (m : M A) w a w' : quiet m -> m w = (Done a, w') -> filter is_header (w_out w') = filter is_header (w_out w) /\ cur_db w' = cur_db w.
  Proof.
    intros Q H. destruct (rd_done _ _ Q _ _ _ H) as (o & S & _ & F). rewrite (shown_out _ _ _ S), filter_app, (shown_cur _ _ _ S). split; [|reflexivity].
    replace (filter is_header o) with (@nil event); [reflexivity|]. symmetry. clear -F. induction F as [|e o He F IH]; [reflexivity|]. cbn [filter]. rewrite He. exact IH.
  Qed.
  Lemma quiet_print t a : String.eqb t "commit" = false -> quiet (print t a).
  Proof. intro H. apply rd_print. exact H. Qed.
  Lemma get_reads k w o w' : unwrap (get_obj ds k) w = (Done o, w') -> reads_as w k (Done o).
  Proof.
    intro H. apply unwrap_done in H. apply get_obj_done in H as (_ & v & A & D). apply reads_iff. eauto.
  Qed.
  Lemma reads_db w v k o : cur_db w = cur_db v -> reads_as w k (Done o) -> reads_as v k (Done o).
  Proof. rewrite !reads_iff. intros ->. auto. Qed.
  Lemma reads_commit_db w v k c : cur_db w = cur_db v -> reads_commit w k c -> reads_commit v k c.
  Proof. intros Q (o & R & C). exists o. split; [eapply reads_db; eauto|exact C]. Qed.
  Lemma lineage_db w v k l : cur_db w = cur_db v -> lineage w k l -> lineage v k l.
  Proof. intro Q. induction 1; [eapply lin_root|eapply lin_step]; eauto using reads_commit_db. Qed.
  Lemma is_commit_db w v k c : cur_db w = cur_db v -> is_commit w k c -> is_commit v k c.
  Proof. intros Q (o & R & C). exists o. split; [eapply reads_db; eauto|exact C]. Qed.
  Lemma display_header f k kd w w' c : is_commit w k c -> display_obj ds f k kd w = (Done tt, w') ->
    filter is_header (w_out w') = header k :: filter is_header (w_out w).
  Proof.
    intros (o & Ro & To & Co) H. destruct f as [|f]; [discriminate|]. rewrite display_eq in H. apply bind_done in H as (o' & w1 & H1 & H).
    assert (o' = o) as -> by (eapply reads_fun; [eapply get_reads, H1|exact Ro]). rewrite To in H.
    apply quiet_done in H1 as [Q1 _]; [|apply rd_unwrap, rd_get_obj].
    apply bind_done in H as ([] & w2 & H2 & H). apply print_done in H2.
    assert (Q : quiet (c <- unwrap (commit_of_object o) ;; print "" [] ;;; print "message" [at_message (c_attrs c)] ;;; print "" [] ;;; rest_of c kd)).
    { apply rd_bind; [apply rd_unwrap, rd_commit_of|intro]. do 3 (apply rd_bind; [apply quiet_print; reflexivity|intro]). apply quiet_rest. }
    apply quiet_done in H as [-> _]; [|exact Q]. rewrite H2. cbn [filter]. change (is_header (Printed "commit" [as_user_key k])) with true. cbn iota. rewrite Q1. reflexivity.
  Qed.
  Lemma rdr_db {A} (m : M A) w a w' : rdr m -> m w = (Done a, w') -> cur_db w' = cur_db w.
  Proof. intros R H. destruct (rd_done _ _ R _ _ _ H) as (o & S & _). apply (shown_cur _ _ _ S). Qed.
  Definition all_commits (w : world) (l : list key) : Prop := forall k, In k l -> exists c, is_commit w k c.
  (** One step: show, two empty lines, read again. *)
  Definition log_step (k : key) (kd : kind) (next : commit -> M unit) : M unit :=
    display_obj ds stack k kd ;;; print "" [] ;;; print "" [] ;;; o <- unwrap (get_obj ds k) ;; c <- unwrap (commit_of_object o) ;; next c.
  Lemma log_step_done k kd next w w' : log_step k kd next w = (Done tt, w') ->
    exists c w1, reads_commit w k c /\ cur_db w1 = cur_db w /\ next c w1 = (Done tt, w') /\
      ((exists c, is_commit w k c) -> filter is_header (w_out w1) = header k :: filter is_header (w_out w)).
  Proof.
    unfold log_step. intro H. apply bind_done in H as ([] & w1 & H1 & H). apply bind_done in H as ([] & w2 & H2 & H). apply bind_done in H as ([] & w3 & H3 & H).
    apply bind_done in H as (o & w4 & H4 & H). apply bind_done in H as (c & w5 & H5 & H). apply unwrap_done in H5. apply commit_done in H5 as [-> Co].
    pose proof (rdr_db _ _ _ _ (rd_display anything (fun _ => I) (fun _ => I) (fun _ => I) stack k kd) H1) as D1.
    apply quiet_done in H2 as [Q2 D2]; [|apply quiet_print; reflexivity]. apply quiet_done in H3 as [Q3 D3]; [|apply quiet_print; reflexivity].
    pose proof (get_reads _ _ _ _ H4) as R4. apply quiet_done in H4 as [Q4 D4]; [|apply rd_unwrap, rd_get_obj].
    exists c, w4. split; [exists o; split; [eapply reads_db; [|exact R4]; congruence|exact Co]|]. split; [congruence|]. split; [exact H|].
    intros [c' Ic]. rewrite Q4, Q3, Q2. eapply display_header; eassumption.
  Qed.
  Lemma log_loop_done fuel : forall c kd w w', log_loop ds fuel c kd w = (Done tt, w') ->
    match c_parents c with
    | [] => w' = w
    | p :: _ => exists l, lineage w p l /\ (all_commits w l -> filter is_header (w_out w') = rev (map header l) ++ filter is_header (w_out w))
    end.
  Proof.
    induction fuel as [|f IH]; intros c kd w w' H; cbn [log_loop] in H; (destruct (c_parents c) as [|p ps]; [apply ret_done in H as [_ ->]; reflexivity|]); [discriminate|].
    change (log_step p kd (fun c' => log_loop ds f c' kd) w = (Done tt, w')) in H. apply log_step_done in H as (c' & w1 & Rc & D1 & H & Hd). apply IH in H.
    destruct (c_parents c') as [|p' ps'] eqn:Pc.
    - subst w'. exists [p]. split; [eapply lin_root; eauto|]. intro A. rewrite Hd by (apply A; left; reflexivity). reflexivity.
    - destruct H as (l & Li & Hl). exists (p :: l). split; [eapply lin_step; eauto; eapply lineage_db; [exact D1|exact Li]|]. intro A.
      rewrite Hl.
      + rewrite Hd by (apply A; left; reflexivity). cbn [map rev]. rewrite <- app_assoc. reflexivity.
      + intros k Ik. destruct (A k (or_intror Ik)) as [c1 I1]. exists c1. eapply is_commit_db; [symmetry; exact D1|exact I1].
  Qed.
  (** C47 *)
  Lemma log_done k kd w w' : log_obj ds k kd w = (Done tt, w') ->
    (exists c, is_commit w k c) /\ exists l, lineage w k l /\ (all_commits w l -> filter is_header (w_out w') = rev (map header l) ++ filter is_header (w_out w)).
  Proof.
    unfold log_obj. intro H. apply bind_done in H as (o & w1 & H1 & H). pose proof (get_reads _ _ _ _ H1) as R1. apply quiet_done in H1 as [Q1 D1]; [|apply rd_unwrap, rd_get_obj].
    destruct (o_type o) eqn:To; try discriminate H.
    change (log_step k kd (fun c' => log_loop ds loop_bound c' kd) w1 = (Done tt, w')) in H. apply log_step_done in H as (c & w2 & Rc & D2 & H & Hd).
    assert (Ic : is_commit w k c).
    { destruct Rc as (o' & R' & C'). exists o'. pose proof (reads_db _ _ _ _ D1 R') as R0. split; [exact R0|]. rewrite (reads_fun _ _ _ _ R0 R1). rewrite (reads_fun _ _ _ _ R0 R1) in C'. auto. }
    split; [eauto|]. apply log_loop_done in H. assert (Ic1 : is_commit w1 k c) by (eapply is_commit_db; [symmetry; exact D1|exact Ic]).
    destruct (c_parents c) as [|p ps] eqn:Pc.
    - subst w'. exists [k]. split; [eapply lin_root; eauto; eapply reads_commit_db; [exact D1|exact Rc]|]. intros _. rewrite Hd by eauto. rewrite Q1. reflexivity.
    - destruct H as (l & Li & Hl). exists (k :: l). split.
      + eapply lin_step; [eapply reads_commit_db; [exact D1|exact Rc]|exact Pc|eapply lineage_db; [|exact Li]; congruence].
      + intro A. rewrite Hl.
        * rewrite Hd by eauto. cbn [map rev]. rewrite <- app_assoc, Q1. reflexivity.
        * intros k' Ik. destruct (A k' (or_intror Ik)) as [c1 I1]. exists c1. eapply is_commit_db; [|exact I1]. congruence.
  Qed.
  (** Conversely. *)
  Lemma works_log_step k kd next w c : reads_commit w k c -> shows_well w kd k -> (forall c, rdr (next c)) -> works (log_step k kd next) (cur_db w) <-> works (next c) (cur_db w).
  Proof.
    intros (o & Ro & Co) Sh Rn. assert (Rd : rdr (display_obj ds stack k kd)) by (apply rd_display; intro; exact I). unfold log_step.
    assert (R3 : forall o, rdr (c <- unwrap (commit_of_object o) ;; next c)) by (intro; apply rd_bind; [apply rd_unwrap, rd_commit_of|exact Rn]).
    assert (R2 : rdr (o <- unwrap (get_obj ds k) ;; c <- unwrap (commit_of_object o) ;; next c)) by (apply rd_bind; [apply rd_unwrap, rd_get_obj|exact R3]).
    assert (Rp : rdr (print "" [])) by (apply rd_print; exact I).
    rewrite (works_after _ _ _ tt); [|exact Rd|intro; apply rd_bind; [exact Rp|intro]; apply rd_bind; [exact Rp|intro; exact R2]|apply gives_now; [exact Rd|exact Sh]].
    rewrite (works_after _ _ _ tt); [|exact Rp|intro; apply rd_bind; [exact Rp|intro; exact R2]|apply gives_print].
    rewrite (works_after _ _ _ tt); [|exact Rp|intro; exact R2|apply gives_print].
    rewrite (works_after _ _ _ o); [|apply rd_unwrap, rd_get_obj|exact R3|apply unwrap_pure, gives_get, Ro].
    rewrite (works_after _ _ _ c); [reflexivity|apply rd_unwrap, rd_commit_of|exact Rn|apply unwrap_pure, gives_commit_of, Co].
  Qed.
  Lemma rdr_loop fuel c kd : rdr (log_loop ds fuel c kd).
  Proof. apply rd_log_loop; intro; exact I. Qed.
  Lemma loop_works w kd k l : lineage w k l -> (forall k, In k l -> shows_well w kd k) -> forall fuel c, reads_commit w k c -> length l <= S fuel -> works (log_loop ds fuel c kd) (cur_db w).
  Proof.
    intro Li. induction Li as [k c Rc Pc|k c p ps l Rc Pc Li IH]; intros Sh fuel c' Rc' L.
    - assert (c' = c) as -> by (destruct Rc as (o & R1 & C1), Rc' as (o' & R2 & C2); rewrite (reads_fun _ _ _ _ R2 R1) in C2; specialize (C1 w); rewrite C2 in C1; injection C1; auto).
      destruct fuel; cbn [log_loop]; rewrite Pc; apply works_ret.
    - assert (c' = c) as -> by (destruct Rc as (o & R1 & C1), Rc' as (o' & R2 & C2); rewrite (reads_fun _ _ _ _ R2 R1) in C2; specialize (C1 w); rewrite C2 in C1; injection C1; auto).
      assert (X : exists c2, reads_commit w p c2) by (destruct Li; eauto). destruct X as [c2 R2].
      assert (Ip : In p l) by (destruct Li; left; reflexivity). assert (length l <= fuel) by (cbn in L; lia).
      destruct fuel as [|f]; [destruct l; [destruct Ip|cbn in *; lia]|]. cbn [log_loop]. rewrite Pc.
      change (works (log_step p kd (fun c' => log_loop ds f c' kd)) (cur_db w)). rewrite works_log_step; [|exact R2|apply Sh; right; exact Ip|intro; apply rdr_loop].
      apply IH; [intros; apply Sh; right; assumption|exact R2|lia].
  Qed.
  Lemma log_works w kd k l c : is_commit w k c -> lineage w k l -> (forall k, In k l -> shows_well w kd k) -> length l <= S loop_bound ->
    fst (log_obj ds k kd (set_faults w [])) = Done tt.
  Proof.
    intros Ic Li Sh L. apply works_now; [apply rd_log; intro; exact I|]. unfold log_obj. destruct Ic as (o & Ro & To & Co).
    rewrite (works_after _ _ _ o); [|apply rd_unwrap, rd_get_obj| |apply unwrap_pure, gives_get, Ro].
    - rewrite To. change (works (log_step k kd (fun c' => log_loop ds loop_bound c' kd)) (cur_db w)). assert (Rc : reads_commit w k c) by (exists o; auto).
      rewrite (works_log_step k kd _ w c); [|exact Rc|apply Sh; destruct Li; left; reflexivity|intro; apply rdr_loop]. eapply loop_works; eauto.
    - intro o'. destruct (o_type o'); try apply rd_panic. apply rd_bind; [apply rd_display; intro; exact I|intro]. do 2 (apply rd_bind; [apply rd_print; exact I|intro]).
      apply rd_bind; [apply rd_unwrap, rd_get_obj|intro]. apply rd_bind; [apply rd_unwrap, rd_commit_of|intro]. apply rdr_loop.
  Qed.

  (** *** Making commits (C44) *)
  Lemma sorted_unique (l l' : list key) : StronglySorted (fun a b => key_cmp a b <> Gt) l -> StronglySorted (fun a b => key_cmp a b <> Gt) l' -> Permutation l l' -> l = l'.
  Proof.
    revert l'. induction l as [|x l IH]; intros l' S S' P; [apply Permutation_nil in P as ->; reflexivity|].
    destruct l' as [|y l']; [apply Permutation_sym, Permutation_nil in P; discriminate P|].
    assert (x = y) as <-.
    { inversion S as [|? ? S1 S2]; subst. inversion S' as [|? ? S1' S2']; subst. rewrite Forall_forall in S2, S2'.
      assert (Ix : In x (y :: l')) by (eapply Permutation_in; [exact P|left; reflexivity]). assert (Iy : In y (x :: l)) by (eapply Permutation_in; [symmetry; exact P|left; reflexivity]).
      destruct Ix as [->|Ix]; [reflexivity|]. destruct Iy as [->|Iy]; [reflexivity|]. specialize (S2 _ Iy). specialize (S2' _ Ix).
      rewrite key_cmp_antisym in S2'. destruct (key_cmp x y) eqn:Q; [apply hash_bytes_inj, bytes_cmp_eq, Q|destruct S2'; reflexivity|destruct S2; reflexivity]. }
    f_equal. apply IH; [inversion S; assumption|inversion S'; assumption|]. apply Permutation_cons_inv in P. exact P.
  Qed.
  Definition key_le (a b : key) : Prop := key_cmp a b <> Gt.
  Lemma key_le_trans a b c : key_le a b -> key_le b c -> key_le a c.
  Proof.
    unfold key_le, key_cmp. intros H K. destruct (bytes_cmp (hash_bytes a) (hash_bytes b)) eqn:Q; [apply bytes_cmp_eq in Q as ->; exact K| |destruct H; reflexivity].
    destruct (bytes_cmp (hash_bytes b) (hash_bytes c)) eqn:Q'; [apply bytes_cmp_eq in Q'; rewrite <- Q', Q; discriminate| |destruct K; reflexivity].
    rewrite (bytes_cmp_trans _ _ _ Q Q'). discriminate.
  Qed.
  Lemma sort_keys_sorted l : StronglySorted key_le (sort key_cmp l).
  Proof. apply Sorted_StronglySorted; [exact key_le_trans|]. apply sort_sorted, key_cmp_antisym. Qed.
  Lemma sort_keys_perm l l' : Permutation l l' -> sort key_cmp l = sort key_cmp l'.
  Proof.
    intro P. apply sorted_unique; try apply sort_keys_sorted. rewrite <- (sort_perm key_cmp l), <- (sort_perm key_cmp l'). exact P.
  Qed.
  Lemma commit_tree_perm s t l l' a w : Permutation l l' -> commit_tree s t l a w = commit_tree s t l' a w.
  Proof. intro P. unfold commit_tree. rewrite (sort_keys_perm _ _ P). reflexivity. Qed.
  Lemma commit_of_commit t l a v : attrs_fits a -> commit_of_object (object_of_commit (Commit t l a)) v = (Done (Commit t l a), v).
  Proof. intro F. unfold commit_of_object, object_of_commit. cbn [o_data o_keys c_attrs c_tree c_parents]. rewrite (decode_attrs _ F). reflexivity. Qed.
  Lemma is_commit_of w c : attrs_fits (c_attrs c) -> reads_as w (obj_key (object_of_commit c)) (Done (object_of_commit c)) -> is_commit w (obj_key (object_of_commit c)) c.
  Proof. intros F R. exists (object_of_commit c). split; [exact R|]. split; [reflexivity|]. intro v. destruct c. apply commit_of_commit, F. Qed.
  Lemma commit_tree_eq s t l a : commit_tree s t l a = put_obj s (object_of_commit (Commit t (sort key_cmp l) a)).
  Proof. reflexivity. Qed.
  Lemma put_commit c w k w' : world_ok w -> no_coll (w_hashed w') -> attrs_fits (c_attrs c) -> put_obj ds (object_of_commit c) w = (Done k, w') -> is_commit w' k c.
  Proof.
    intros W NC F H. destruct (put_obj_holds _ _ _ _ W H NC) as [Ho Qk]. rewrite Qk. apply is_commit_of; [exact F|]. apply holds_reads. exact Ho.
  Qed.
  Lemma commit_tree_done t l a w k w' : world_ok w -> no_coll (w_hashed w') -> attrs_fits a -> commit_tree ds t l a w = (Done k, w') ->
    is_commit w' k (Commit t (sort key_cmp l) a).
  Proof. intros W NC F H. rewrite commit_tree_eq in H. exact (put_commit (Commit t (sort key_cmp l) a) w k w' W NC F H). Qed.
End ShowFacts.
