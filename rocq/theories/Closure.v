(** Referential integrity of every reachable store. *)
From Verif Require Import Base Key Keyish Cbor Object Path World Store File Filter Dir Diff Commit Main
  BaseFacts KeyFacts ObjectFacts WorldFacts TableFacts SpecResolve ResolveFacts StoreFacts ObjStoreFacts
  Frame DbRel SpecRun Integrity SpecClosure SortFacts.

Section Closure.
  Context {E : Env}.
  Local Notation ds := sqlite_ds.

  (** Everything below the key is there, at most [n] levels deep. *)
  Inductive complete (d : db) : nat -> bytes -> Prop :=
  | complete_intro n k o : object_at d k = Some o ->
      (forall c, In c (o_keys o) -> complete d n (as_db_key c)) -> complete d (S n) k.

  Definition has (d : db) (k : bytes) : Prop := assoc k (d_data d) <> None.
  Record full (d : db) : Prop := Full {
    fu_data : forall k, has d k -> complete d (length (d_data d)) k;
    fu_rows : forall r, In r (d_reflog d) -> has d (r_key r);
    fu_objs : forall k v, assoc k (d_data d) = Some v -> exists o, v = encode_object o
  }.
  Definition sound (w : world) : Prop :=
    (forall l, full (db_at (w_dbs w) l)) /\
    match w_txn w with TxnDirty d => full d | _ => True end.

  Lemma complete_ext d d' : d_data d' = d_data d -> forall n k, complete d n k -> complete d' n k.
  Proof.
    intros H n k C. induction C as [n k o O _ IH]. econstructor; [|exact IH].
    unfold object_at in *. rewrite H. exact O.
  Qed.
  Lemma complete_mono k0 v0 d : forall n k, complete d n k -> complete (upd_data (insert_or_ignore k0 v0) d) n k.
  Proof.
    intros n k C. induction C as [n k o O _ IH]. econstructor; [|exact IH].
    unfold object_at in *. cbn. rewrite assoc_ignore. destruct (assoc k (d_data d)); [exact O|discriminate].
  Qed.
  Lemma complete_le d n k : complete d n k -> forall m, n <= m -> complete d m k.
  Proof.
    intro C. induction C as [n k o O _ IH]. intros [|m] L; [lia|]. apply complete_intro with o; [exact O|].
    intros c I. apply IH; [exact I|lia].
  Qed.
  Lemma ins_row_length k v l : length (ins_row k v l) = S (length l).
  Proof. induction l as [|[k' v'] l IH]; cbn; [reflexivity|]. destruct (bytes_ltb k k'); cbn; [reflexivity|]. rewrite IH. reflexivity. Qed.
  Lemma ignore_length k v l : length l <= length (insert_or_ignore k v l).
  Proof. unfold insert_or_ignore. destruct (assoc k l); [lia|]. rewrite ins_row_length. lia. Qed.
  Lemma ignore_length_new k v l : assoc k l = None -> length (insert_or_ignore k v l) = S (length l).
  Proof. intro H. unfold insert_or_ignore. rewrite H. apply ins_row_length. Qed.
  Lemma has_mono k0 v0 d k : has d k -> has (upd_data (insert_or_ignore k0 v0) d) k.
  Proof. unfold has. cbn. rewrite assoc_ignore. destruct (assoc k (d_data d)); congruence. Qed.
  Lemma has_new k0 v0 d : has (upd_data (insert_or_ignore k0 v0) d) k0.
  Proof. unfold has. cbn. rewrite assoc_ignore, bytes_eqb_refl. destruct (assoc k0 (d_data d)); discriminate. Qed.

  Lemma full_empty : full db_empty.
  Proof. constructor; cbn; intros; unfold has in *; cbn in *; try contradiction; try congruence. Qed.
  Lemma full_state f d : full d -> full (upd_state f d).
  Proof.
    intros [H1 H2 H3]. constructor; [|exact H2|exact H3].
    intros k K. apply (complete_ext d); [reflexivity|apply H1, K].
  Qed.
  Lemma full_push d n r k : full d -> has d (as_db_key k) ->
    full (upd_reflog (fun rows => rows ++ [Row (next_id rows) n r (as_db_key k)]) d).
  Proof.
    intros [H1 H2 H3] K. constructor; [| |exact H3].
    - intros k' K'. apply (complete_ext d); [reflexivity|apply H1, K'].
    - intros x X. cbn in X. apply in_app_iff in X as [X|[<-|[]]]; [apply H2, X|exact K].
  Qed.
  Lemma full_put d o k : full d -> obj_fits o = true -> (forall c, In c (o_keys o) -> has d (as_db_key c)) ->
    full (upd_data (insert_or_ignore k (encode_object o)) d).
  Proof.
    intros [H1 H2 H3] F K. constructor.
    - intros k' K'. unfold has in K'. cbn in K'. rewrite assoc_ignore in K'.
      destruct (assoc k' (d_data d)) as [v|] eqn:E1.
      { eapply complete_le; [apply complete_mono, H1; unfold has; congruence|]. cbn. apply ignore_length. }
      destruct (bytes_eqb k k') eqn:E2; [|congruence]. apply bytes_eqb_eq in E2. subst k'.
      cbn [upd_data d_data]. rewrite ignore_length_new by exact E1. apply complete_intro with o.
      + unfold object_at. cbn. rewrite assoc_ignore, E1, bytes_eqb_refl. apply decode_encode, F.
      + intros c C. apply complete_mono, H1, K, C.
    - intros r R. apply has_mono, H2, R.
    - intros k' v H. cbn in H. rewrite assoc_ignore in H.
      destruct (assoc k' (d_data d)) eqn:E1; [apply (H3 k'); congruence|].
      destruct (bytes_eqb k k'); [|discriminate]. exists o. injection H as <-. reflexivity.
  Qed.

  Lemma sound_cur w : sound w -> full (cur_db w).
  Proof. intros [H1 H2]. unfold cur_db. destruct (w_txn w); [apply H1|apply H1|exact H2]. Qed.
  Lemma dbs_set_full dbs l d : (forall x, full (db_at dbs x)) -> full d -> forall x, full (db_at (assoc_set l d dbs) x).
  Proof. intros H1 H2 x. rewrite db_at_set. destruct (names_eqb l x); auto. Qed.
  Lemma sound_put w d : sound w -> full d -> sound (put_db d w).
  Proof.
    intros [H1 H2] H. unfold put_db. destruct (w_txn w) eqn:Et; (split; [|cbn; try rewrite Et; auto]); cbn; auto.
    apply dbs_set_full; auto.
  Qed.
  Lemma sound_hash w l : sound w -> sound (set_hashed w l).
  Proof. intros [H1 H2]. split; [exact H1|exact H2]. Qed.
  Lemma sound_lost w : sound w -> sound (set_txn w NoTxn).
  Proof. intros [H1 H2]. split; [exact H1|exact I]. Qed.

  (** Everything that does not store objects or push to reflogs. *)
  Definition snd_rel (w w' : world) : Prop := sound w -> sound w'.
  Lemma snd_same w w' : same_db w w' -> snd_rel w w'.
  Proof. intros (H1 & H2 & H3 & H4) [W1 W2]. split; [rewrite H1; exact W1|rewrite H3; exact W2]. Qed.
  #[export] Instance snd_DbRel : DbRel snd_rel.
  Proof.
    constructor.
    - intros a b c H K W. auto.
    - intros w w' H _. apply snd_same, H.
    - intros w. exact (sound_lost w).
  Qed.
  #[export] Instance snd_DbOnly : DbOnly snd_rel.
  Proof. constructor. intros w w'. apply snd_same. Qed.
  #[export] Instance snd_DbProc : DbProc snd_rel.
  Proof.
    constructor.
    - intros w _ [W1 W2]. split; [exact W1|exact I].
    - intros w W. pose proof (sound_cur w W) as C. destruct W as [W1 W2]. unfold commit_now, cur_db in *.
      destruct (w_txn w); (split; [|exact I]); auto. cbn. apply dbs_set_full; auto.
  Qed.
  #[export] Instance snd_DbOpen : DbOpen snd_rel.
  Proof.
    constructor.
    - intros w p l w' H. unfold open_db_eff in H. destruct (resolve _ _ p) as [l0|]; [|discriminate].
      destruct (p_slash p); [discriminate|]. destruct (lookup (w_fs w) l0) as [[|c st| |]|]; try discriminate.
      + destruct (assoc_loc l0 (w_dbs w)); [inv H; intro; assumption|]. destruct c; inv H.
        intros [W1 W2]. split; [|exact W2]. cbn. apply dbs_set_full; [exact W1|apply full_empty].
      + inv H. intros [W1 W2]. split; [|exact W2]. cbn. apply dbs_set_full; [exact W1|apply full_empty].
    - intros w l [W1 W2]. split; [exact W1|exact I].
    - intros w l h [W1 W2]. split; [|exact W2]. cbn [set_dbs w_dbs]. apply dbs_set_full; [exact W1|].
      apply full_state, W1.
  Qed.

  (** ** Triples: whatever happens the stores stay sound; when the call returns,
      the keys named in the postcondition are stored. *)
  Definition have (ks : list key) (w : world) : Prop := forall k, In k ks -> has (cur_db w) (as_db_key k).
  Definition tri {A} (P : world -> Prop) (m : M A) (Q : A -> world -> Prop) : Prop :=
    forall w, sound w -> P w -> sound (snd (m w)) /\ forall a w', m w = (Done a, w') -> Q a w'.
  Definition any {A} (_ : A) (_ : world) : Prop := True.

  Lemma tri_bind {A B} P (m : M A) Q (k : A -> M B) R :
    tri P m Q -> (forall a, tri (Q a) (k a) R) -> tri P (bind m k) R.
  Proof.
    intros H K w S p. destruct (H w S p) as [S1 D]. unfold bind.
    destruct (m w) as [o w1]. destruct o as [a| | | |]; cbn in *; try (split; [exact S1|intros; discriminate]).
    apply K; auto.
  Qed.
  Lemma tri_ret {A} (a : A) (P : world -> Prop) (Q : A -> world -> Prop) : (forall w, P w -> Q a w) -> tri P (ret a) Q.
  Proof. intros H w S p. split; [exact S|]. intros x w' X. inv X. apply H, p. Qed.
  Lemma tri_conseq {A} (m : M A) (P : world -> Prop) Q (P' : world -> Prop) (Q' : A -> world -> Prop) : tri P m Q -> (forall w, P' w -> P w) ->
    (forall a w, Q a w -> Q' a w) -> tri P' m Q'.
  Proof. intros H H1 H2 w S p. destruct (H w S (H1 w p)) as [S1 D]. split; [exact S1|]. intros. apply H2, D, H0. Qed.
  Lemma tri_fail {A} e P (Q : A -> world -> Prop) : tri P (fail e) Q.
  Proof. intros w S p. split; [exact S|]. intros; discriminate. Qed.
  Lemma tri_panic {A} e P (Q : A -> world -> Prop) : tri P (panic_with e) Q.
  Proof. intros w S p. split; [exact S|]. intros; discriminate. Qed.
  Lemma tri_diverge {A} P (Q : A -> world -> Prop) : tri P diverge Q.
  Proof. intros w S p. split; [exact S|]. intros; discriminate. Qed.
  Lemma tri_of_option {A} e (o : option A) (P : world -> Prop) (Q : A -> world -> Prop) :
    (forall a, o = Some a -> forall w, P w -> Q a w) -> tri P (of_option e o) Q.
  Proof. destruct o; cbn; intro H; [apply tri_ret; apply H; reflexivity|apply tri_fail]. Qed.
  Lemma tri_rel {A} (m : M A) P : rel snd_rel m -> tri P m any.
  Proof. intros H w S p. split; [apply H, S|]. intros; exact I. Qed.
  Lemma tri_try {A} (m : M A) P Q : tri P m Q -> tri P (try m) (fun r w => match r with Ok a => Q a w | Err _ => True end).
  Proof.
    intros H w S p. destruct (H w S p) as [S1 D]. unfold try. destruct (m w) as [[a| | | |] w1]; cbn in *;
      (split; [exact S1|]); intros x w' X; inv X; auto.
  Qed.
  Lemma tri_unwrap {A} (m : M A) P Q : tri P m Q -> tri P (unwrap m) Q.
  Proof.
    intros H w S p. destruct (H w S p) as [S1 D]. split.
    - unfold unwrap. destruct (m w) as [[a| | | |] w1]; exact S1.
    - intros a w' X. apply D, unwrap_done, X.
  Qed.
  (** Calls that neither write to a database nor give it up. *)
  Lemma tri_quiet {A} (m : M A) ks : rel same_db m -> tri (have ks) m (fun _ => have ks).
  Proof.
    intros H w S p. pose proof (H w) as (H1 & H2 & H3 & H4). split; [apply (snd_same w); [apply H|exact S]|].
    intros a w' X. rewrite X in *. cbn in *. intros k K. specialize (p k K). unfold cur_db, disk in *. rewrite H1, H2, H3. exact p.
  Qed.
  Lemma have_nil w : have [] w. Proof. intros k []. Qed.
  Lemma have_incl ks ks' w : have ks w -> incl ks' ks -> have ks' w.
  Proof. intros H I k K. apply H, I, K. Qed.
  Lemma have_app a b w : have a w -> have b w -> have (a ++ b) w.
  Proof. intros H1 H2 k K. apply in_app_iff in K as [K|K]; auto. Qed.

  (** ** Storing *)
  Lemma tri_put_obj ks o : incl (o_keys o) ks -> tri (have ks) (put_obj ds o) (fun k => have (k :: ks)).
  Proof.
    intros I. unfold put_obj. destruct (obj_fits o) eqn:F; [|apply tri_panic].
    intros w S p.
    assert (forall w1, ticked (set_hashed w (encode_object o :: w_hashed w)) w1 ->
      full (upd_data (insert_or_ignore (as_db_key (Blake3B (blake3 (encode_object o)))) (encode_object o)) (cur_db w1))) as FU.
    { intros w1 (t & r & ->). apply full_put; [apply (sound_cur w), S|exact F|]. intros c C. apply (p c), I, C. }
    assert (forall w1, ticked (set_hashed w (encode_object o :: w_hashed w)) w1 -> sound w1) as SU.
    { intros w1 (t & r & ->). exact S. }
    split.
    - unfold put, bind. cbn [hash raw_put sqlite_ds]. unfold hash. cbn.
      unfold sqlite_raw_put, db_write.
      match goal with |- context [op ?e ?x] => destruct (op_case e x) as (f & w1 & H & T) end.
      rewrite H. specialize (FU w1 T). specialize (SU w1 T).
      destruct f as [|n| |[|n]]; cbn; try exact SU; try (apply sound_put; assumption); apply sound_lost, SU.
    - intros k w' H. apply put_done in H as (-> & H & _). intros x X. rewrite H. destruct X as [<-|X].
      + apply has_new.
      + apply has_mono, p, X.
  Qed.
  Definition kbs (kb : key_bufs) : list key := concat kb.
  Lemma In_kb_get kb i x : In x (kb_get kb i) -> In x (kbs kb).
  Proof.
    unfold kb_get, kbs. revert i. induction kb as [|l kb IH]; intros [|i] H; cbn in *; try contradiction;
      apply in_app_iff; eauto.
  Qed.
  Lemma In_kb_set kb i l x : In x (kbs (kb_set kb i l)) -> In x l \/ In x (kbs kb).
  Proof.
    unfold kbs. revert i. induction kb as [|a kb IH]; intros [|i] H; cbn in *; try contradiction;
      apply in_app_iff in H as [H|H]; rewrite in_app_iff; auto. apply IH in H. tauto.
  Qed.
  Lemma In_kb_push kb i k x : In x (kbs (kb_push kb i k)) -> x = k \/ In x (kbs kb).
  Proof.
    unfold kb_push. intro H. apply In_kb_set in H as [H|H]; [|auto].
    apply in_app_iff in H as [H|[H|[]]]; [apply In_kb_get in H|]; auto.
  Qed.

  Lemma tri_put_tree ks l : incl l ks -> tri (have ks) (put_tree ds l) (fun k => have (k :: ks)).
  Proof. intro I. apply tri_put_obj. exact I. Qed.
  Lemma tri_put_blob ks d : tri (have ks) (put_blob ds d) (fun k => have (k :: ks)).
  Proof. apply tri_put_obj. intros x []. Qed.
  Lemma have_more k a b w : have (k :: a ++ b) w -> forall l, (forall x, In x l -> x = k \/ In x a \/ In x b) -> have l w.
  Proof.
    intros H l I x X. apply H. destruct (I x X) as [->|[Y|Y]]; [left; reflexivity|right..]; apply in_app_iff; auto.
  Qed.

  Lemma tri_cascade l z : forall ks kb, tri (have (kbs kb ++ ks)) (cascade ds l z kb) (fun kb' => have (kbs kb' ++ ks)).
  Proof.
    induction l as [|o l IH]; intros ks kb; cbn [cascade]; [apply tri_ret; auto|].
    cbv zeta. destruct (_ || _); [|apply tri_ret; auto].
    eapply tri_bind; [apply tri_put_tree; intros x X; apply in_app_iff; left; eapply In_kb_get, X|].
    intro k. eapply tri_conseq; [apply (IH ks)| |auto]. intros w H. eapply have_more; [exact H|].
    intros x X. apply in_app_iff in X as [X|X]; [|tauto]. apply In_kb_push in X as [X|X]; [tauto|].
    apply In_kb_set in X as [[]|X]. tauto.
  Qed.
  Lemma tri_cut ks st b : tri (have (kbs (pd_kb st) ++ ks)) (cut ds st b) (fun st' => have (kbs (pd_kb st') ++ ks)).
  Proof.
    unfold cut. destruct (Nat.ltb _ b); [apply tri_panic|]. cbv zeta. destruct (negb _); [apply tri_panic|].
    destruct (Nat.leb chunk_max _); [|apply tri_ret; auto].
    eapply tri_bind; [apply tri_put_blob|]. intro k.
    eapply tri_bind.
    - eapply tri_conseq; [apply (tri_cascade _ _ ks)| |intros a w H; exact H]. intros w H. eapply have_more; [exact H|].
      intros x X. apply in_app_iff in X as [X|X]; [|tauto]. apply In_kb_push in X as [X|X]; tauto.
    - intro kb. apply tri_ret. auto.
  Qed.
  Lemma tri_pd_loop ks fuel : forall st reads,
    tri (have (kbs (pd_kb st) ++ ks)) (pd_loop ds fuel st reads) (fun st' => have (kbs (pd_kb st') ++ ks)).
  Proof.
    induction fuel as [|f IH]; intros st reads; cbn [pd_loop]; [apply tri_diverge|].
    destruct (next_match _ _ _) as [m h]. cbv zeta.
    match goal with |- context [match ?m with Some _ => _ | None => _ end] => destruct m as [b|] end.
    - eapply tri_bind; [apply (tri_cut ks (PD _ _ _ _))|]. intro st'. apply IH.
    - destruct reads as [|[[|c d]| |] reads]; try (apply tri_ret; auto); try (eapply tri_conseq; [apply IH| |]; auto);
        apply tri_fail.
  Qed.
  Lemma tri_fold_levels ks l : forall kb, tri (have (kbs kb ++ ks)) (fold_levels ds l kb)
    (fun r => have (match fst r with Some k => [k] | None => [] end ++ kbs (snd r) ++ ks)).
  Proof.
    induction l as [|o l IH]; intro kb; cbn [fold_levels]; [apply tri_ret; auto|].
    eapply tri_bind; [apply tri_put_tree; intros x X; apply in_app_iff; left; eapply In_kb_get, X|].
    intro k.
    assert (tri (have (k :: kbs kb ++ ks)) (fold_levels ds l (kb_push kb (o + 1) k))
      (fun r => have (match fst r with Some k => [k] | None => [] end ++ kbs (snd r) ++ ks))) as R.
    { eapply tri_conseq; [apply IH| |auto]. intros w H. eapply have_more; [exact H|].
      intros x X. apply in_app_iff in X as [X|X]; [|tauto]. apply In_kb_push in X as [X|X]; tauto. }
    destruct (kb_get kb o) as [|k0 [|k1 r]] eqn:G; [exact R| |exact R].
    destruct (forallb _ _); [|exact R].
    apply tri_ret. intros w H. eapply have_more; [exact H|]. cbn. intros x [<-|X].
    - right. left. apply (In_kb_get kb o). rewrite G. left. reflexivity.
    - apply in_app_iff in X. tauto.
  Qed.
  Lemma tri_pd_finish ks st : tri (have (kbs (pd_kb st) ++ ks)) (pd_finish ds st) (fun k => have (k :: ks)).
  Proof.
    unfold pd_finish. cbv zeta. destruct (forallb _ _).
    - eapply tri_conseq; [apply (tri_put_blob (kbs (pd_kb st) ++ ks))|auto|].
      intros k w H. eapply have_more; [exact H|]. intros x [X|X]; auto.
    - eapply (tri_bind _ _ (fun kb => have (kbs kb ++ ks))).
      + destruct (pd_cur st ++ pd_buf st) as [|b r].
        * apply tri_ret. auto.
        * eapply tri_bind; [apply tri_put_blob|]. intro k. apply tri_ret. intros w H. eapply have_more; [exact H|].
          intros x X. apply in_app_iff in X as [X|X]; [|tauto]. apply In_kb_push in X as [X|X]; tauto.
      + intro kb. eapply tri_bind; [apply tri_fold_levels|]. intros [[k|] kb']; cbn [fst snd].
        * apply tri_ret. intros w H. eapply have_incl; [exact H|]. intros x [X|X]; [left; exact X|]. cbn. right. apply in_app_iff. right. exact X.
        * eapply tri_conseq; [apply (tri_put_tree (kbs kb' ++ ks))|auto|].
          -- intros x X. apply in_app_iff. left. eapply In_kb_get, X.
          -- intros k w H. eapply have_more; [exact H|]. intros x [X|X]; auto.
  Qed.
  Lemma tri_put_data ks reads : tri (have ks) (put_data ds reads) (fun k => have (k :: ks)).
  Proof.
    unfold put_data. eapply tri_bind; [apply (tri_pd_loop ks _ pd_init)|]. intro st. apply tri_pd_finish.
  Qed.
  Lemma tri_put_item ks i : incl (fi_children i) ks -> tri (have ks) (put_item ds i) (fun k => have (k :: ks)).
  Proof.
    intro I. unfold put_item. eapply (tri_bind _ _ (fun o w => have ks w /\ incl (o_keys o) ks)).
    - apply tri_of_option. unfold object_of_fsitem. intros o O w H. split; [exact H|].
      destruct (forallb _ _); inv O. exact I.
    - intro o. intros w S [H J]. apply tri_put_obj; assumption.
  Qed.

  (** Queries of the file system. *)
  Lemma quiet_op {A} (eff : fault -> M A) : (forall f w, same_db w (snd (eff f w))) -> rel same_db (op eff).
  Proof.
    intro H. apply rel_op. intros f w w1 T. etransitivity; [apply ticked_same, T|apply H].
  Qed.
  Lemma quiet_query {A} (q : fs -> loc -> option A) : rel same_db (fs_query q).
  Proof. apply quiet_op. intros [] w; cbn; try reflexivity. destruct (q (w_fs w) (w_cwd w)); reflexivity. Qed.
  Lemma quiet_metadata p : rel same_db (fs_metadata p).
  Proof. apply quiet_query. Qed.
  Lemma quiet_readdir p : rel same_db (fs_read_dir p).
  Proof. apply quiet_op. intros f w. destruct (stat _ _ p) as [[l [| | |]]|], f as [|[|]| |]; reflexivity. Qed.
  Lemma quiet_openread p : rel same_db (fs_open_read p).
  Proof. apply quiet_op. intros f w. destruct (stat _ _ p) as [[l [| | |]]|], f as [|[|]| |]; reflexivity. Qed.
  Lemma quiet_filter ex d p : rel same_db (filter_fn ex d p).
  Proof.
    unfold filter_fn. repeat (apply rel_bind; [exact _|apply rel_unwrap, quiet_query|intro]).
    destruct (names_prefix _ _); apply rel_ret; exact _.
  Qed.
  Lemma quiet_cache_read {A} (q : list (bytes * bytes) -> A) : rel same_db (cache_read q).
  Proof. apply quiet_op. intros [] w; repeat split. Qed.
  Lemma quiet_cache_put c k : rel same_db (cache_put c k).
  Proof.
    apply quiet_op. intros f w. destruct f as [|n| |[|n]]; cbn; unfold put_cache; try reflexivity.
    all: destruct (w_ctxn w); repeat split.
  Qed.

  Lemma tri_put_fs_item filter (Hf : forall p, rel same_db (filter p)) fuel : forall ks p,
    tri (have ks) (put_fs_item ds fuel p filter) (fun k => have (k :: ks)).
  Proof.
    induction fuel as [|f IH]; intros ks p; cbn [put_fs_item]; [apply tri_diverge|].
    eapply tri_bind; [apply tri_quiet, quiet_metadata|]. intros [|size st|].
    - eapply tri_bind; [apply tri_quiet, quiet_readdir|]. intros [names err].
      eapply (tri_bind _ _ (fun kids => have (map snd kids ++ ks))).
      + clear err. revert ks. induction names as [|n names IHn]; intro ks; [apply tri_ret; auto|].
        eapply tri_bind; [apply tri_quiet, Hf|]. intros [|]; [|apply IHn].
        eapply tri_bind; [apply IH|]. intro k. eapply tri_bind; [apply (IHn (k :: ks))|].
        intro kids. apply tri_ret. cbn. intros w H. eapply have_incl; [exact H|].
        intros x [X|X]; apply in_app_iff; [right; left; exact X|]. apply in_app_iff in X as [X|X]; [auto|right; right; exact X].
      + intros kids. destruct err; [apply tri_fail|].
        eapply tri_conseq; [apply (tri_put_item (map snd kids ++ ks))|auto|].
        * cbn. intros x X. apply in_app_iff. auto.
        * intros k w H. eapply have_more; [exact H|]. intros x [X|X]; auto.
    - eapply tri_bind; [apply tri_quiet, quiet_openread|]. intros [[st' fsize] reads].
      eapply tri_bind; [apply tri_put_data|]. intro h.
      eapply tri_conseq; [apply (tri_put_item (h :: ks))|auto|].
      + cbn. intros x [X|[]]. left. exact X.
      + intros k w H. eapply have_incl; [exact H|]. intros x [X|X]; [left; exact X|right; right; exact X].
    - apply tri_panic.
  Qed.

  (** ** Reading *)
  Lemma tri_reads {A} (m : M A) (P : world -> Prop) (Q : A -> world -> Prop) : rel snd_rel m ->
    (forall w a w', full (cur_db w) -> P w -> m w = (Done a, w') -> Q a w') -> tri P m Q.
  Proof. intros H K w S p. split; [apply H, S|]. intros a w' X. eapply K; eauto. apply sound_cur, S. Qed.
  Lemma have_cur ks w w' : cur_db w' = cur_db w -> have ks w -> have ks w'.
  Proof. intros H p k K. rewrite H. apply p, K. Qed.
  Lemma read_done {A} (q : db -> A) w a w' : db_read q w = (Done a, w') -> a = q (cur_db w) /\ cur_db w' = cur_db w.
  Proof. intro H. apply db_read_done in H as [(t & r & ->) H]. split; [exact H|reflexivity]. Qed.
  Lemma order_desc_In x l : In x (order_desc l) -> In x l.
  Proof.
    unfold order_desc. cut (forall acc, In x (fold_left (fun acc x => ins_desc x acc) l acc) -> In x l \/ In x acc).
    { intros H K. destruct (H [] K) as [|[]]. assumption. }
    assert (forall y acc, In x (ins_desc y acc) -> x = y \/ In x acc) as I.
    { intros y acc. induction acc as [|z acc IH]; cbn; [intuition|]. destruct (_ <=? _)%N; cbn; intuition. }
    induction l as [|y l IH]; cbn; intros acc H; [auto|]. apply IH in H as [H|H]; [auto|]. apply I in H as [H|H]; auto.
  Qed.
  Lemma reflog_get_done n r w k w' : reflog_get ds n r w = (Done k, w') ->
    cur_db w' = cur_db w /\ exists x, In x (d_reflog (cur_db w)) /\ r_key x = as_db_key k.
  Proof.
    cbn [reflog_get sqlite_ds]. unfold sqlite_reflog_get. intro H. apply bind_done in H as (a & w1 & H1 & H).
    apply read_done in H1 as [H1 H2]. destruct a as [x|]; [|discriminate].
    apply lift_result_done in H as [H ->]. split; [exact H2|].
    apply from_db_key_ok in H. subst x. unfold select_reflog in H1.
    assert (In (as_db_key k) (map r_key (order_desc (filter (row_matches n r) (d_reflog (cur_db w)))))) as I.
    { destruct (map _ _); inv H1. left. reflexivity. }
    apply in_map_iff in I as (x & X & I). apply order_desc_In, filter_In in I. exists x. tauto.
  Qed.
  Lemma tri_reflog_get ks n r : tri (have ks) (reflog_get ds n r) (fun k => have (k :: ks)).
  Proof.
    apply tri_reads; [apply rel_reflog_get; exact _|]. intros w k w' F p H.
    apply reflog_get_done in H as (C & x & X & K). intros y [<-|Y].
    - rewrite C, <- K. apply (fu_rows _ F), X.
    - rewrite C. apply p, Y.
  Qed.
  Lemma get_head_done w h w' : get_head ds w = (Done h, w') -> cur_db w' = cur_db w.
  Proof.
    unfold get_head. intro H. apply bind_done in H as (a & w1 & H1 & H). apply read_done in H1 as [_ H1].
    destruct a as [b|]; [|apply ret_done in H as [_ ->]; exact H1].
    destruct (utf8_valid b); [apply ret_done in H as [_ ->]; exact H1|discriminate].
  Qed.
  Lemma tri_refname ks r : tri (have ks) (refname_or_head r) (fun _ => have ks).
  Proof.
    destruct r as [r|]; cbn [refname_or_head]; [apply tri_ret; auto|]. unfold head_or_fail.
    eapply tri_bind; [|intro h; apply tri_of_option; intros a _ w H; exact H].
    apply tri_reads; [apply rel_get_head; exact _|]. intros w h w' _ p H. apply get_head_done in H.
    eapply have_cur; eauto.
  Qed.
  Lemma tri_canonicalize ks s : tri (have ks) (canonicalize ds s) (fun k => have (k :: ks)).
  Proof.
    apply tri_reads; [apply rel_canonicalize; exact _|]. intros w k w' F p H. destruct s as [s a b|s x|o r n].
    - cbn [canonicalize raw_between sqlite_ds] in H. apply bind_done in H as (l & w1 & H1 & H).
      apply unwrap_done, read_done in H1 as [-> C].
      assert (forall y, In y (select_between a b (d_data (cur_db w))) -> has (cur_db w) y) as SB.
      { intros y Y. apply filter_In in Y as [Y _]. unfold has. intro N. apply assoc_None in N. contradiction. }
      destruct (select_between a b (d_data (cur_db w))) as [|y [|z l]]; cbn [resolve_results] in H.
      + discriminate.
      + apply lift_result_done in H as [H ->]. apply from_db_key_ok in H. subst y.
        intros x [<-|X]; rewrite C; [apply SB; left; reflexivity|apply p, X].
      + apply bind_done in H as (? & ? & _ & H). discriminate.
    - cbn [canonicalize raw_get sqlite_ds] in H. apply bind_done in H as (v & w1 & H1 & H).
      apply unwrap_done in H1. unfold sqlite_raw_get in H1. apply bind_done in H1 as (y & w2 & H1 & H2).
      apply read_done in H1 as [H1 _]. destruct y as [y|]; [|discriminate]. apply ret_done in H2 as [-> _].
      symmetry in H1. destruct (fu_objs _ F _ _ H1) as [ob ->]. cbn [resolve_results] in H.
      destruct (encode_object_first ob) as [rr R]. rewrite R in H.
      rewrite from_db_key_unknown in H; [discriminate|]. intro X. apply (f_equal byte_val) in X. vm_compute in X. discriminate.
    - cbn [canonicalize] in H. apply bind_done in H as (y & w1 & H1 & H). apply try_done in H1.
      destruct y as [y|e].
      + apply ret_done in H as [-> ->]. destruct H1 as [(z & Z & H1)|(z & Z & _)]; [|discriminate]. inv Z.
        apply reflog_get_done in H1 as (C & x & X & K). intros t [<-|T]; rewrite C.
        * rewrite <- K. apply (fu_rows _ F), X.
        * apply p, T.
      + destruct e; discriminate.
  Qed.
  Lemma tri_mapM {A} (f : A -> M key) l : (forall ks a, tri (have ks) (f a) (fun k => have (k :: ks))) ->
    forall ks, tri (have ks) (mapM f l) (fun r => have (r ++ ks)).
  Proof.
    intro H. induction l as [|a l IH]; intro ks; cbn [mapM]; [apply tri_ret; auto|].
    eapply tri_bind; [apply H|]. intro k. eapply tri_bind; [apply IH|]. intro r. apply tri_ret. cbn.
    intros w K. eapply have_incl; [exact K|]. intros x [X|X]; apply in_app_iff; [right; left; exact X|].
    apply in_app_iff in X as [X|X]; [auto|right; right; exact X].
  Qed.

  (** ** Writing references *)
  Lemma tri_write ks (u : db -> db) : (forall w, full (cur_db w) -> have ks w -> full (u (cur_db w))) ->
    tri (have ks) (db_write u) any.
  Proof.
    intros H w S p. split; [|intros; exact I]. unfold db_write.
    destruct (op_case (fun f w => match f with
      | FOk => (Done tt, put_db (u (cur_db w)) w)
      | FErr _ => (Error ESql, w)
      | FErrRb => (Error ESql, set_txn w NoTxn)
      | FCrash O => (Crashed, w)
      | FCrash (S _) => (Crashed, put_db (u (cur_db w)) w)
      end) w) as (f & w1 & H1 & (t & r & ->)). rewrite H1.
    assert (full (u (cur_db (set_faults (set_tick w t) r)))) as FU by (apply H; [apply (sound_cur w), S|exact p]).
    destruct f as [|n| |[|n]]; cbn [snd]; try exact S; try (apply sound_put; [exact S|exact FU]). apply sound_lost. exact S.
  Qed.
  Lemma tri_push ks r : In (rl_key r) ks -> tri (have ks) (reflog_push ds r) any.
  Proof. intro I. apply tri_write. intros w F p. apply full_push; [exact F|apply p, I]. Qed.
  Lemma tri_put_head ks h : tri (have ks) (put_head ds h) any.
  Proof. apply tri_write. intros w F p. apply full_state, F. Qed.

  (** ** Commands *)
  Definition calm (P : world -> Prop) {A} (m : M A) : Prop := tri P m any.
  Lemma calm_rel {A} P (m : M A) : rel snd_rel m -> calm P m. Proof. apply tri_rel. Qed.
  Lemma calm_of {A} P (m : M A) Q : tri P m Q -> calm P m.
  Proof. intro H. eapply tri_conseq; [exact H|auto|]. intros; exact I. Qed.
  Lemma calm_bind {A B} (m : M A) (k : A -> M B) P : calm P m -> (forall a, calm (any a) (k a)) -> calm P (bind m k).
  Proof. intros. eapply tri_bind; eauto. Qed.
  Lemma calm_try {A} P (m : M A) : calm P m -> calm P (try m).
  Proof. intro H. eapply calm_of, tri_try, H. Qed.
  Lemma calm_mapM {A B} (f : A -> M B) l : (forall a P, calm P (f a)) -> forall P, calm P (mapM f l).
  Proof.
    intro H. induction l as [|a l IH]; intro P; cbn [mapM]; [apply tri_ret; intros; exact I|].
    apply calm_bind; [apply H|]. intro b. apply calm_bind; [apply IH|]. intro. apply tri_ret; intros; exact I.
  Qed.
  Lemma calm_weak {A} (m : M A) : calm (have []) m -> forall P, calm P m.
  Proof. intros H P. eapply tri_conseq; [exact H|intros; apply have_nil|auto]. Qed.

  Lemma calm_hash_fs_item p P : calm P (hash_fs_item ds p).
  Proof.
    apply calm_weak. unfold hash_fs_item.
    eapply tri_bind; [apply tri_quiet, quiet_metadata|]. intros [|size st|]; try apply tri_fail.
    eapply tri_bind; [apply tri_quiet, quiet_openread|]. intros [[st' fsize] reads]. cbv zeta.
    eapply (tri_bind _ _ (fun _ => have [])).
    - apply (tri_quiet _ []). unfold cache_get. apply rel_bind; [exact _|apply quiet_cache_read|].
      intros [d|]; [|apply rel_ret; exact _]. apply rel_bind; [exact _|apply rel_lift_result; exact _|]. intro. apply rel_ret; exact _.
    - intros [h|]; [apply tri_ret; intros; exact I|].
      eapply tri_bind; [apply tri_put_data|]. intro h. eapply tri_bind; [apply tri_put_item|].
      { cbn. intros x [X|[]]. left. exact X. }
      intro k. eapply (tri_bind _ _ any); [apply calm_try, calm_rel, cp_put|].
      intro. apply tri_ret. intros; exact I.
  Qed.
  Lemma calm_ret {A} P (a : A) : calm P (ret a). Proof. apply tri_ret. intros; exact I. Qed.
  Lemma calm_compare from to P : calm P (compare ds from to).
  Proof.
    destruct from as [p ex fo|k]; [|apply calm_rel, rel_compare_db; exact _].
    unfold compare. apply calm_bind.
    { apply calm_rel. apply rel_make_filter_fn; [exact _|]. intros f Hf. rel_tac. apply rel_walk_real_fs_items; [exact _|exact Hf]. }
    intro src. apply calm_bind; [apply calm_rel; destruct to; [apply rel_walk_fs_items; exact _|apply rel_ret; exact _]|].
    intro tm. cbv zeta. apply calm_bind; [|intro added; apply calm_bind; [|intro deleted; apply calm_bind; [|intro; apply calm_ret]]].
    - apply calm_mapM. intros x Q. destruct src as [[b m]|m].
      + apply calm_bind; [apply calm_rel, rel_pm_index; exact _|]. intros [|]; [apply calm_ret|].
        apply calm_bind; [apply calm_try, calm_hash_fs_item|]. intros [h|e]; [apply calm_ret|apply tri_panic].
      + apply calm_bind; [apply calm_rel, rel_pm_index; exact _|]. intro. apply calm_ret.
    - apply calm_mapM. intros x Q. apply calm_rel. apply rel_bind; [exact _|apply rel_pm_index; exact _|intro].
      apply rel_bind; [exact _| |intro; apply rel_ret; exact _]. destruct src as [[b m]|m].
      + apply rel_pm_index; exact _.
      + apply rel_bind; [exact _|apply rel_pm_index; exact _|intro]. apply rel_ret; exact _.
    - apply calm_mapM. intros x Q. apply calm_bind.
      + destruct src as [[b m]|m].
        * apply calm_bind; [apply calm_rel, rel_pm_index; exact _|]. intros [|]; [apply calm_ret|].
          apply calm_bind; [apply calm_hash_fs_item|]. intro. apply calm_ret.
        * apply calm_bind; [apply calm_rel, rel_pm_index; exact _|]. intro. apply calm_ret.
      + intros [k|]; [|apply calm_ret]. apply calm_bind; [apply calm_rel, rel_pm_index; exact _|]. intro t.
        destruct (key_eqb k (fst t)); apply calm_ret.
  Qed.
  Lemma tri_filter {A} ex d (k : (path -> M bool) -> M A) P Q :
    (forall f, (forall p, rel same_db (f p)) -> tri P (k f) Q) -> tri P (bind (make_filter_fn ex d) k) Q.
  Proof.
    intro H. unfold make_filter_fn. destruct (forallb glob_valid ex).
    - intros w S p. unfold bind, ret. apply H; [|exact S|exact p]. intro. apply quiet_filter.
    - intros w S p. split; [exact S|]. intros; discriminate.
  Qed.
  Lemma tri_commit_tree ks t ps a : In t ks -> incl ps ks -> tri (have ks) (commit_tree ds t ps a) (fun k => have (k :: ks)).
  Proof.
    intros H1 H2. apply tri_put_obj. cbn. intros x [<-|X]; [exact H1|]. apply sort_in in X. apply H2, X.
  Qed.
  Lemma calm_insert cm s p : calm (have []) (cmd_insert cm s p).
  Proof.
    unfold cmd_insert. apply tri_filter. intros f Hf.
    eapply tri_bind; [apply tri_put_fs_item, Hf|]. intro k. apply calm_rel, rp_print.
  Qed.
  Lemma calm_commit cm s p m r : calm (have []) (cmd_commit cm s p m r).
  Proof.
    unfold cmd_commit. apply tri_filter. intros f Hf. cbv zeta.
    eapply tri_bind; [apply tri_refname|]. intro name.
    eapply tri_bind; [apply tri_try, tri_reflog_get|]. intro got.
    eapply (tri_bind _ _ (fun ps => have ps)).
    - destruct got as [k|[]]; try apply tri_fail; apply tri_ret; intros w H; [exact H|apply have_nil].
    - intro ps. eapply tri_bind; [apply tri_put_fs_item, Hf|]. intro t.
      eapply tri_bind; [apply tri_commit_tree; [left; reflexivity|intros x X; right; exact X]|].
      intro c. apply tri_push. left. reflexivity.
  Qed.
  Lemma calm_commit_tree t ps : calm (have []) (cmd_commit_tree t ps).
  Proof.
    unfold cmd_commit_tree. eapply tri_bind; [apply tri_canonicalize|]. intro k.
    eapply tri_bind; [apply tri_mapM; intros; apply tri_canonicalize|]. intro l.
    eapply tri_bind; [apply tri_commit_tree; [|intros x X; apply in_app_iff; auto]|].
    - apply in_app_iff. right. left. reflexivity.
    - intro. apply calm_rel, rp_print.
  Qed.
  Lemma calm_ref_update k n : calm (have []) (cmd_ref_update k n).
  Proof.
    unfold cmd_ref_update. eapply tri_bind; [apply tri_canonicalize|]. intro x.
    eapply tri_bind; [apply tri_refname|]. intro name. apply tri_push. left. reflexivity.
  Qed.
  Lemma calm_reflog_push k n r : calm (have []) (cmd_reflog_push k n r).
  Proof.
    unfold cmd_reflog_push. eapply tri_bind; [apply tri_canonicalize|]. intro x. apply tri_push. left. reflexivity.
  Qed.
  Lemma calm_cmd_compare cm s p k b P : calm P (cmd_compare cm s p k b).
  Proof.
    unfold cmd_compare. apply calm_bind.
    - apply calm_rel. destruct k; [apply rel_canonicalize; exact _|]. apply rel_bind; [exact _|apply rel_get_head_key; exact _|intro].
      apply rel_bind; [exact _|apply rel_commit_from_key; exact _|intro]. apply rel_ret; exact _.
    - intro key. cbv zeta. apply calm_bind; [apply calm_compare|]. intro r. apply calm_rel.
      destruct b; [apply rel_print_stat_diff_result; exact _|apply rel_print_diff_result; exact _].
  Qed.
  Lemma calm_status cm s P : calm P (cmd_status cm s).
  Proof.
    unfold cmd_status. apply calm_bind; [apply calm_rel, rel_head_or_fail; exact _|]. intro name.
    apply calm_bind; [apply calm_try, calm_rel, rel_reflog_get; exact _|]. intros [k|e]; [|apply calm_rel, rp_print].
    apply calm_bind; [apply calm_rel, rp_print|]. intro.
    apply calm_bind; [apply calm_rel, rel_commit_from_key; exact _|]. intro c.
    apply calm_bind; [apply calm_compare|]. intro. apply calm_rel, rel_print_diff_result; exact _.
  Qed.
  Lemma calm_checkout_head cm s n P : calm P (cmd_checkout_head cm s n).
  Proof.
    unfold cmd_checkout_head. apply calm_bind; [apply calm_rel, rel_head_or_fail; exact _|]. intro name.
    apply calm_bind; [apply calm_try, calm_rel, rel_reflog_get; exact _|]. intro got.
    apply calm_bind.
    { destruct got; [|apply calm_ret]. apply calm_bind; [apply calm_rel, rel_commit_from_key; exact _|]. intro. apply calm_ret. }
    intro t. apply calm_bind; [apply calm_compare|]. intro r. destruct (diff_result_empty r).
    - apply calm_bind; [apply calm_weak, tri_put_head|]. intro. apply calm_rel, rp_print.
    - apply calm_bind; [apply calm_rel, rp_print|]. intro. apply calm_rel, rel_print_diff_result; exact _.
  Qed.
  Lemma calm_run_command cm st c : calm (have []) (run_command cm st c).
  Proof.
    destruct c; cbn [run_command];
      try match goal with |- calm _ (with_ds _ _) => unfold with_ds; destruct st as [s|]; [|apply tri_fail] end.
    - apply calm_insert.
    - apply calm_commit.
    - apply calm_rel, rel_cmd_fetch; exact _.
    - apply calm_rel, rel_cmd_pretty_print; exact _.
    - apply calm_commit_tree.
    - apply calm_rel, rel_cmd_reflog_get; exact _.
    - apply calm_reflog_push.
    - apply calm_rel, rel_cmd_walk_tree; exact _.
    - apply calm_rel, rel_cmd_walk_fs_tree; exact _.
    - apply tri_put_head.
    - apply calm_rel, rel_cmd_get_head; exact _.
    - apply calm_rel. unfold cmd_init. apply rel_bind; [exact _|apply fp_mkdir|intro]. apply pc_open_init.
    - apply calm_rel, rel_cmd_show; exact _.
    - apply calm_rel, rel_cmd_log; exact _.
    - apply calm_cmd_compare.
    - apply calm_status.
    - apply calm_rel, rel_cmd_checkout; exact _.
    - apply calm_checkout_head.
    - apply calm_rel, rel_cmd_ref_log; exact _.
    - apply calm_ref_update.
  Qed.
  Lemma rel_run_command_sound cm st c : rel snd_rel (run_command cm st c).
  Proof. intros w S. apply (calm_run_command cm st c w S), have_nil. Qed.
  Lemma main_sound cm c w : sound w -> sound (snd (main cm c w)).
  Proof.
    intro S. refine (rel_main_of snd_rel cm c _ w S). intro. apply rel_run_command_sound.
  Qed.

  Definition dbs_full (w : world) : Prop := forall l, full (db_at (w_dbs w) l).
  Lemma reachable_full w : reachable w -> dbs_full w.
  Proof.
    induction 1.
    - intro l. rewrite H. apply full_empty.
    - unfold run_process. assert (sound (close_all w)) as S by (split; [exact IHreachable|exact I]).
      apply (main_sound cm c) in S as [S _]. destruct (main cm c (close_all w)) as [o w']. exact S.
    - destruct H0 as [H0 H1]. intro l. rewrite H0. apply IHreachable.
  Qed.

  Lemma complete_object d n k : complete d n k -> exists o, object_at d k = Some o.
  Proof. intros []. eauto. Qed.
  Lemma full_no_dangling d : full d -> no_dangling d.
  Proof.
    intros [H1 H2 H3]. split; [|split].
    - intros k v H. eapply complete_object, H1. unfold has. intro N. apply assoc_None in N. apply N.
      apply in_map_iff. exists (k, v). auto.
    - intros p c M. destruct M as [p o c O I].
      assert (complete d (length (d_data d)) p) as C. { apply H1. unfold has, object_at in *. destruct (assoc p (d_data d)); congruence. }
      destruct C as [n p o' O' C]. eapply complete_object, C. congruence.
    - intros r R. eapply complete_object, H1, H2, R.
  Qed.
  Lemma complete_acc d n k : complete d n k -> Acc (fun c p => mentions d p c) k.
  Proof.
    intro C. induction C as [n k o O _ IH]. constructor. intros c M. destruct M as [p o' c O' I]. apply IH. congruence.
  Qed.
  Lemma full_grounded d : full d -> grounded d.
  Proof.
    intros F k. destruct (assoc k (d_data d)) eqn:A.
    - eapply complete_acc, (fu_data _ F). unfold has. congruence.
    - constructor. intros c M. destruct M as [p o c O _]. unfold object_at in O. rewrite A in O. discriminate.
  Qed.
  Lemma grounded_acyclic d k : grounded d -> ~ reaches d k k.
  Proof.
    intros G. specialize (G k). induction G as [k _ IH]. intro R. 
    assert (forall a b, reaches d a b -> forall c, mentions d b c -> reaches d a c) as T.
    { induction 1; intros z Z; eapply reaches_more; eauto. apply reaches_one, Z. }
    inversion R as [a b M|a b c M R']; subst.
    - exact (IH k M R).
    - apply (IH b M). eapply T; eauto.
  Qed.
  Lemma reachable_no_dangling w l : reachable w -> no_dangling (db_at (w_dbs w) l).
  Proof. intro R. apply full_no_dangling, reachable_full, R. Qed.
  Lemma reachable_acyclic w l : reachable w -> grounded (db_at (w_dbs w) l) /\ forall k, ~ reaches (db_at (w_dbs w) l) k k.
  Proof.
    intro R. assert (grounded (db_at (w_dbs w) l)) as G by (apply full_grounded, reachable_full, R).
    split; [exact G|]. intro k. apply grounded_acyclic, G.
  Qed.
End Closure.
