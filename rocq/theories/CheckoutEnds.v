(** How [checkout] ends. *)
From Coq Require Import RelationClasses.
From Verif Require Import Base BaseFacts TableFacts Key KeyFacts Keyish Cbor CborFacts Object ObjectFacts Path World WorldFacts Store File Filter Dir Diff Commit Main SpecStore StoreCalls SpecRun SpecProc SpecCmd SpecFile SpecDir SpecCache SpecDiff SpecShape SpecLive SpecStoring SpecLooking
  SpecClosure Closure Frame DbRel Integrity StoreFacts ProcFacts InitFacts ObjStoreFacts SessionFacts FilePlan FileFacts ChunkFacts FileRun FsFacts DirPlan DirFacts GetFacts DirTrip FetchSafe DirTree DirWalk WalkFacts DirLive CacheFacts HashFacts CompareFacts DiffFacts CheckoutFacts
  Reader SpecPatch SpecShow SpecOut SpecText CmdFacts OutFacts SnapFacts ShowFacts ShapeFacts ShapeTop LiveFacts LiveDiff LiveCmd LiveStart FatalFacts FatalCmd SparedFacts PanicFacts StoringFacts Ends SpecCheckout LiveCheckout LiveStory CheckoutCmd LookingFacts.

Section CheckoutEnds.
  Context {E : Env}.
  Notation ds := sqlite_ds.
  Context (ex : list bytes) (dbl root : loc) (d : db) (Sh : shp d).
  Notation flt := (filter_fn ex (abs_path dbl)).
  (** Nothing leads nowhere, and the folder is there. *)
  Definition sane (f : fs) : Prop := db_there dbl f /\ forall r, lookup f (root ++ r) <> Some EDangling.
  Definition safe (w : world) : Prop := at_db d w /\ sane (w_fs w).
  Lemma safe_ticked w w1 : ticked w w1 -> w_faults w1 = [] -> safe w -> safe w1.
  Proof. intros T F [A G]. split; [eapply at_ticked; eassumption|]. destruct (ticked_fs _ _ T) as [-> _]. exact G. Qed.
  Lemma safe_fs w f : safe w -> sane f -> safe (set_fs w f).
  Proof. intros [[F C] _] G. split; [split; [exact F|exact C]|exact G]. Qed.
  Lemma safe_op {A} (P : A -> Prop) (eff : fault -> M A) : fine False safe safe P (eff FOk) -> fine False safe safe P (op eff).
  Proof. intros H w S. destruct (op_live eff w (proj1 (proj1 S))) as (w1 & Tk & F1 & ->). apply H. eapply safe_ticked; eassumption. Qed.
  Lemma safe_query {A} (q : fs -> loc -> option A) : fine False safe safe any (fs_query q).
  Proof. apply safe_op. intros w S. cbn. destruct (q _ _); [split; [exact S|exact I]|exact S]. Qed.
  Lemma safe_change {A} (full : fs -> loc -> nat -> option (A * fs)) partial : (forall f cwd t a f', sane f -> full f cwd t = Some (a, f') -> sane f') -> fine False safe safe any (fs_change full partial).
  Proof. intro H. apply safe_op. intros w S. cbn. destruct (full _ _ _) as [[a f']|] eqn:Q; [|exact S]. split; [|exact I]. apply safe_fs; [exact S|]. eapply H; [apply S|exact Q]. Qed.
  Lemma safe_object k : fine False safe safe (fun o => object_at d (as_db_key k) = Some o) (get_obj ds k).
  Proof.
    intros w S. pose proof S as [[F C] _]. rewrite get_obj_eq. unfold bind. destruct (db_read_nofault (fun x => assoc (as_db_key k) (d_data x)) w F) as (w1 & T & F1 & ->). rewrite C.
    assert (safe w1) by (eapply safe_ticked; eassumption). unfold object_at. destruct (assoc (as_db_key k) (d_data d)) as [v|]; [|assumption]. cbn. destruct (decode_object v); cbn; auto.
  Qed.

  (** *** Changes to the file system *)
  Lemma sane_set f x e : x <> [] -> e <> EDangling -> lookup f x <> Some EDir \/ e = EDir -> sane f -> sane (fs_set f x e).
  Proof.
    intros N Ne K [Db Dg]. split.
    - intros a b Q. destruct (list_eq_dec (list_eq_dec ascii_dec) a x) as [->|X]; [|rewrite lookup_set_other by assumption; eapply Db, Q].
      rewrite lookup_set_same by exact N. destruct K as [K| ->]; [destruct K; eapply Db, Q|reflexivity].
    - intros r. destruct (list_eq_dec (list_eq_dec ascii_dec) (root ++ r) x) as [->|X]; [rewrite lookup_set_same by exact N; congruence|rewrite lookup_set_other by assumption; apply Dg].
  Qed.
  Lemma not_root f x : lookup f x <> Some EDir -> x <> [].
  Proof. intros H ->. apply H. reflexivity. Qed.
  Lemma sane_mkdirs cs : forall f cur f', sane f -> mkdirs None f cur cs = Some f' -> sane f'.
  Proof.
    induction cs as [|c cs IH]; intros f cur f' G H; cbn [mkdirs] in H; destruct (is_dir f cur); try discriminate H; [injection H as <-; exact G|].
    destruct c; [eapply IH; eassumption|eapply IH; eassumption|]. cbv zeta in H. destruct (lookup f (cur ++ [n])) as [[| | |]|] eqn:L; try discriminate H; [eapply IH; eassumption|].
    eapply IH; [|exact H]. apply sane_set; auto; [apply snoc_not_nil|discriminate].
  Qed.
  Lemma safe_mkdir p : fine False safe safe any (fs_create_dir_all p).
  Proof.
    unfold fs_create_dir_all. destruct (is_empty_path p); [apply fine_ret; exact I|]. apply safe_change. intros f cwd t a f' G H. destruct (mkdirs None f (base_loc cwd p) (p_comps p)) eqn:M; [|discriminate H].
    injection H as _ <-. eapply sane_mkdirs; eassumption.
  Qed.
  Lemma safe_create p : fine False safe safe any (fs_create p).
  Proof.
    apply safe_change. intros f cwd t a f' G H. unfold create_eff in H. destruct (resolve f cwd p) as [x|]; [|discriminate H]. destruct (p_slash p); [discriminate H|].
    destruct (lookup f x) as [[| | |]|] eqn:L; try discriminate H; injection H as _ <-; (apply sane_set; [eapply not_root; rewrite L; discriminate|discriminate|left; rewrite L; discriminate|exact G]).
  Qed.
  Lemma safe_write x b : fine False safe safe any (file_write x tt b).
  Proof.
    unfold file_write, fs_write. apply safe_change. intros f cwd t a f' G H. injection H as _ <-. unfold append. destruct (lookup f x) as [[| | |]|] eqn:L; try exact G.
    apply sane_set; [eapply not_root; rewrite L; discriminate|discriminate|left; rewrite L; discriminate|exact G].
  Qed.
  Lemma sane_remove f x : x <> [] -> (forall b, dbl <> x ++ b) -> sane f -> sane (fs_remove_tree f x).
  Proof.
    intros N K [Db Dg]. split.
    - intros a b Q. rewrite lookup_remove by exact N. destruct (names_prefix x a) eqn:P; [|eapply Db, Q]. apply names_prefix_iff in P as [r ->]. destruct (K (r ++ b)). rewrite Q, app_assoc. reflexivity.
    - intro r. rewrite lookup_remove by exact N. destruct (names_prefix x (root ++ r)); [discriminate|apply Dg].
  Qed.
  Lemma push_abs l n : path_push (abs_path l) n = abs_path (l ++ [n]).
  Proof. unfold path_push, abs_path. cbn [p_abs p_comps]. rewrite map_app. reflexivity. Qed.
  Lemma safe_removes l L : starts_with (abs_path l) blessed = true -> (forall n b, In n L -> dbl <> l ++ n :: b) -> fine False safe safe any (remove_extra (abs_path l) L).
  Proof.
    intros B. induction L as [|n L IH]; intro H; cbn [remove_extra]; [apply fine_ret; exact I|]. rewrite B. cbv zeta. rewrite push_abs.
    assert (K : forall b, dbl <> (l ++ [n]) ++ b) by (intros b Q; rewrite <- app_assoc in Q; apply (H n b (or_introl eq_refl) Q)).
    eapply fine_seq; [apply safe_query|intros mt _]. eapply (fine_seq safe any); [|intros _ _; apply IH; intros m b I; apply H; right; exact I].
    destruct mt; [|apply safe_change|apply fine_ret; exact I]; try apply safe_change; intros f cwd t a f' G Q.
    - destruct (stat f cwd (abs_path (l ++ [n]))) as [[x e]|] eqn:S; [|discriminate Q]. apply stat_locate in S as (-> & _). rewrite locate_abs in Q. destruct (l ++ [n]) as [|y z] eqn:Z; [discriminate Q|]. destruct e; try discriminate Q. injection Q as _ <-. apply sane_remove; [discriminate|exact K|exact G].
    - destruct (stat f cwd (abs_path (l ++ [n]))) as [[x e]|] eqn:S; [|discriminate Q]. apply stat_locate in S as (-> & _). rewrite locate_abs in Q. destruct e; try discriminate Q. injection Q as _ <-. apply sane_remove; [apply snoc_not_nil|exact K|exact G].
  Qed.

  (** *** Reading a file out *)
  Lemma safe_data x n : forall k, complete d n (as_db_key k) -> points d Data k -> fine False safe safe any (read_data ds (file_write x) n k tt).
  Proof.
    induction n as [|n IH]; intros k C P; cbn [read_data]; [inversion C|]. destruct P as (o & O & R). pose proof (complete_keys d n (as_db_key k) o C O) as K. eapply fine_seq; [apply safe_object|]. cbv beta. intros o' O'. assert (o' = o) as -> by congruence. clear O'.
    pose proof (formed _ _ _ Sh O) as W. unfold well_formed in W. destruct R as [R|R]; rewrite R in *.
    - apply safe_write.
    - destruct W as [_ W]. induction W as [|c ks P W IHk]; [apply fine_ret; exact Logic.I|]. eapply fine_seq; [apply IH; [apply K; left; reflexivity|exact P]|intros [] _; apply IHk; intros y Y; apply K; right; exact Y].
  Qed.

  (** *** Checking out *)
  Lemma checkout_safe g : forall k l, complete d g (as_db_key k) -> points d Item k -> under root l -> apart dbl l -> in_home l -> fine False safe safe any (checkout_fs_item ds g k (abs_path l) flt).
  Proof.
    induction g as [|g IH]; intros k l C P Ur Ap Ho w S; [inversion C|]. rewrite checkout_eq. destruct P as (o & O & T). pose proof (complete_keys d g (as_db_key k) o C O) as K. pose proof (formed _ _ _ Sh O) as Wf. unfold well_formed in Wf.
    assert (B : starts_with (abs_path l) blessed = true) by (apply blessed_home, Ho).
    assert (Gi : forall i, fsitem_of_object o = Some i -> fine False safe safe (fun x => x = i) (get_fsitem ds k)).
    { intros i D. unfold get_fsitem. eapply fine_seq; [apply safe_object|]. cbv beta. intros o' O'. assert (o' = o) as -> by congruence. rewrite D. apply fine_ret. reflexivity. }
    destruct T as [T|T]; rewrite T in Wf.
    - destruct Wf as (size & c & Ks & Pc & D). revert w S. match goal with |- forall w, safe w -> match ?m w with _ => _ end => change (fine False safe safe any m) end.
      eapply fine_seq; [apply Gi, D|]. cbv beta. intros i ->. cbn [fi_type]. eapply fine_seq; [apply safe_create|intros x _]. rewrite B. eapply fine_seq; [apply fine_ret; exact (I : any tt)|intros _ _]. unfold write_item_data. cbn [fi_children].
      apply safe_data; [apply K; rewrite Ks; left; reflexivity|exact Pc].
    - destruct Wf as (names & ks & Ks & Pk & D & Len & Pn & _). pose proof (Gi _ D w S) as G. unfold bind at 1. destruct (get_fsitem ds k w) as [[i|e| | |] w1] eqn:Gw; try contradiction; [|exact G]. destruct G as [S1 ->]. cbn [fi_type fi_children fi_names].
      assert (Rd : exists w2, ticked w1 w2 /\ w_faults w2 = [] /\ (fs_read_dir (abs_path l) w1 = (Error EIo, w2) \/ stat (w_fs w1) (w_cwd w1) (abs_path l) = Some (l, EDir) /\ fs_read_dir (abs_path l) w1 = (Done (children (w_fs w1) l, false), w2))).
      { unfold fs_read_dir. match goal with |- context [op ?e w1] => destruct (op_live e w1 (proj1 (proj1 S1))) as (w2 & T2 & F2 & ->) end. exists w2. split; [exact T2|]. split; [exact F2|]. destruct (ticked_fs _ _ T2) as [-> ->].
        destruct (stat (w_fs w1) (w_cwd w1) (abs_path l)) as [[x e]|] eqn:St; [|left; reflexivity]. pose proof (stat_locate _ _ _ _ _ St) as (Q & _). rewrite locate_abs in Q. subst x. destruct e; try (left; reflexivity). right. auto. }
      destruct Rd as (w2 & T2 & F2 & [Rd|[St Rd]]); unfold bind at 1; rewrite Rd; [eapply safe_ticked; eassumption|].
      pose proof (safe_ticked _ _ T2 F2 S1) as S2. destruct (ticked_fs _ _ T2) as [Fs2 Cw2].
      destruct (filters_live ex dbl (abs_path l) l (children (w_fs w1) l) w2 F2) as (w3 & T3 & F3 & R3); [rewrite Fs2, Cw2; exact St|apply S2| |].
      { rewrite Fs2. intros n In. apply child_lookup in In as [e L]. exists e. split; [exact L|]. intros ->. destruct Ur as [r ->]. rewrite <- app_assoc in L. apply (proj2 (proj2 S1) (r ++ [n])). exact L. }
      rewrite (run_bind _ _ _ _ _ R3). pose proof (safe_ticked _ _ T3 F3 S2) as S3.
      rewrite (run_bind _ _ _ _ _ (eq_refl : ret tt w3 = (Done tt, w3))). clear R3 Rd Gw. revert w3 T3 F3 S3. clear - IH K Ks Pk Pn Len Ur Ap Ho B. intros w3 _ _ S3.
      set (L := filter _ _). assert (HL : forall n b, In n L -> dbl <> l ++ n :: b).
      { intros n b J Q. pose proof (Ap n b Q) as ->. unfold L in J. apply filter_In in J as [J _]. apply filter_In in J as [_ J]. apply kept_false in J. apply J. left. exists []. rewrite app_nil_r. symmetry. exact Q. }
      revert w3 S3. match goal with |- forall w, safe w -> match ?m w with _ => _ end => change (fine False safe safe any m) end.
      eapply fine_seq; [apply safe_removes; assumption|intros _ _].
      assert (F : Forall (fun x : key * name => complete d g (as_db_key (fst x)) /\ points d Item (fst x) /\ entry_name (snd x)) (combine ks names)).
      { apply Forall_forall. intros [c m] X. cbn [fst snd]. pose proof (in_combine_l _ _ _ _ X) as X1. pose proof (in_combine_r _ _ _ _ X) as X2. rewrite Forall_forall in Pk, Pn. rewrite Ks in K. auto. }
      induction F as [|[c m] r (Cc & Pc & Em) F IHr]; cbn [co_each]; [apply fine_ret; exact I|]. cbn [fst snd] in *. eapply fine_seq; [apply safe_mkdir|intros _ _]. rewrite join_plain by exact Em. rewrite push_abs.
      eapply fine_seq; [apply IH; auto|intros _ _; exact IHr].
      + destruct Ur as [y ->]. exists (y ++ [m]). rewrite app_assoc. reflexivity.
      + apply apart_child, Ap.
      + destruct Ho as [y ->]. exists (y ++ [m]). rewrite app_assoc. reflexivity.
  Qed.
End CheckoutEnds.

Section CheckoutEnd.
  Context {E : Env}.
  Notation ds := sqlite_ds.
  Theorem checkout_ends cm w w1 e d t : let dbl := e ++ d in let l := e ++ removelast d in let s := DsState (abs_path dbl) (abs_path l) in
    well_used w -> w_faults w = [] -> starts cm w (Some s) w1 ->
    d <> [] -> (forall a b, dbl = a ++ b -> lookup (w_fs w1) a = Some EDir) -> no_coll (w_hashed w1) -> deep_enough w1 -> fs_ok (w_fs w1) ->
    has_head w1 -> head_tree w1 (Some t) ->
    (~ globs_ok cm -> exists w', run_process cm CCheckout w = (Some 101%N, w')) /\
    (globs_ok cm -> in_home l -> (forall r, lookup (w_fs w1) (l ++ r) <> Some EDangling) ->
      does_it cm CCheckout (Some s) w w1 /\ can_checkout (cm_exclude cm) dbl w1 t l \/
      says_fatal cm CCheckout (Some s) w w1 /\ ~ can_checkout (cm_exclude cm) dbl w1 t l).
  Proof.
    intros dbl l s U Fw S Nd Dirs NC De O Hh Ht.
    assert (Ex := checkout_exactly cm w w1 e d U Fw S Nd Dirs NC De O). fold dbl l s in Ex.
    assert (W : world_ok w1) by exact (proj1 (used_started _ _ _ _ U S)). assert (Sh : shp (cur_db w1)) by exact (typed_cur _ (proj2 (used_started _ _ _ _ U S)) NC).
    assert (Fu : full (cur_db w1)) by exact (started_full _ _ _ _ (used_reachable _ U) S). destruct (calm_setup _ _ _ _ S Fw) as [F1 C1].
    assert (Ldb : exists n, dbl = l ++ [n]). { destruct (exists_last Nd) as (d' & n & ->). exists n. unfold dbl, l. rewrite removelast_last, app_assoc. reflexivity. }
    destruct Ldb as [n0 Ldb].
    assert (Er : forall e w2, run_command cm (Some s) CCheckout w1 = (Error e, w2) -> says_fatal cm CCheckout (Some s) w w1).
    { intros x u X. pose proof (calm_command cm (Some s) CCheckout w1 F1) as [F2 C2]. rewrite X in F2, C2. cbn [snd] in F2, C2. specialize (C2 C1).
      destruct (finish_fatal (Some s) x u F2 C2) as (w3 & Fi & F3 & O3 & _). exists u, (close_all w3), x. split; [exact X|]. split; [|exact O3].
      unfold run_process. rewrite main_split. pose proof S as S'. unfold starts in S'. rewrite (run_bind _ _ _ _ _ S'). unfold bind, try. rewrite X, Fi. reflexivity. }
    destruct Hh as (n & B & Ut). pose proof Ht as (n' & B' & k & r & c & Hi & R & Tc). assert (n' = n) as -> by congruence. 
    destruct (branch_live None w1 n F1 B (fun _ => Ut)) as (v1 & H1 & T1 & Fv1). cbn [refname_or_head] in H1.
    destruct (newest_try n v1 (ok_ticked _ _ T1 W) Fv1) as (v2 & H2 & T2 & Fv2). rewrite (cur_ticked _ _ T1), Hi in H2. apply try_done in H2 as [(a & Q & H2)|(x & Q & _)]; [|discriminate]. injection Q as <-.
    assert (Run : run_command cm (Some s) CCheckout w1 = bind (make_filter_fn (cm_exclude cm) (abs_path dbl)) (fun f => bind (commit_from_key ds k) (fun c => checkout_fs_item ds stack (c_tree c) (abs_path l) f)) v2).
    { cbn [run_command with_ds]. unfold cmd_checkout, get_head_key. cbn [ds_folder ds_repo s]. unfold bind at 1. unfold bind at 1. rewrite H1, H2. reflexivity. }
    split.
    - intro G. assert (X : forallb glob_valid (cm_exclude cm) = false) by (unfold globs_ok in G; destruct (forallb glob_valid (cm_exclude cm)); congruence).
      eexists. eapply process_panics; [exact S|]. rewrite Run. unfold bind, make_filter_fn. rewrite X. reflexivity.
    - intros G Ho Da. rewrite (run_bind _ _ _ _ _ (filter_run _ (abs_path dbl) v2 G)) in Run.
      destruct (newest_commit _ _ _ _ _ W Sh Hi) as [c' Ic]. pose proof (reads_commit_fun _ _ _ _ R (commit_reads _ _ _ Ic)) as <-. pose proof (ticked_trans _ _ _ T1 T2) as T12.
      destruct (commit_get k c v2 Fv2 (is_commit_cur _ _ _ _ (cur_ticked _ _ T12) Ic)) as (v3 & H3 & T3 & Fv3). rewrite (run_bind _ _ _ _ _ H3) in Run. pose proof (ticked_trans _ _ _ T12 T3) as T.
      pose proof (cur_ticked _ _ T) as Cu. destruct (ticked_fs _ _ T) as [Fv Cv]. assert (P : points (cur_db w1) Item (c_tree c)) by (eapply commit_formed; eassumption). pose proof P as (o & Ob & _).
      subst t.
      pose proof (checkout_safe (cm_exclude cm) dbl l (cur_db w1) Sh stack (c_tree c) l (complete_stack _ _ _ Fu De Ob) P) as Sf.
      assert (Ur : under l l) by (exists []; rewrite app_nil_r; reflexivity).
      assert (Ap : apart dbl l) by (intros n1 b Q; rewrite Ldb in Q; apply app_inv_head in Q; congruence).
      specialize (Sf Ur Ap Ho v3). 
      assert (S3 : safe dbl l (cur_db w1) v3) by (split; [split; [exact Fv3|exact Cu]|rewrite Fv; split; [intros a b Q; exact (Dirs a b Q)|exact Da]]).
      specialize (Sf S3). rewrite <- Run in Sf.
      destruct (run_command cm (Some s) CCheckout w1) as [[[]|x|pa| |] w2] eqn:X; try contradiction.
      + left. split; [|destruct (proj1 Ex (ex_intro _ w2 eq_refl)) as (_ & _ & t & Ht' & Can); pose proof (CheckoutCmd.head_tree_fun _ _ _ Ht' Ht) as ->; exact Can].
        destruct (process_live cm CCheckout w (Some s) w1 w2 Fw S X) as (w' & Pp & Rest). exists w2, w'. split; [exact X|]. split; [exact Pp|apply Rest].
      + right. split; [eapply Er; reflexivity|]. intro Can. destruct (proj2 Ex) as [w3 Y]; [|discriminate Y]. split; [exact G|]. split; [exists n; auto|]. exists (c_tree c). auto.
  Qed.
End CheckoutEnd.
