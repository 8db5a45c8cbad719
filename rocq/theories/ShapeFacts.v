(** Every object that ordinary use stores is well-formed and refers to objects of the
    right kind. *)
From Verif Require Import Base Key Keyish Cbor Object Path World Store File Filter Dir Diff Commit Main
  BaseFacts KeyFacts CborFacts ObjectFacts WorldFacts TableFacts SpecStore SpecResolve ResolveFacts StoreFacts ObjStoreFacts
  Frame DbRel SpecRun SpecProc SpecDir Integrity SpecClosure Closure SortFacts FsFacts DirPlan DirFacts ProcFacts SpecDiff SpecOut OutFacts SpecShape.

Section Shape.
  Context {E : Env}.
  Local Notation ds := sqlite_ds.

  Definition is_version (d : db) (k : bytes) : Prop := exists o, object_at d k = Some o /\ o_type o = TCommit.
  Definition shp (d : db) : Prop :=
    (forall k v, assoc k (d_data d) = Some v -> exists o, decode_object v = Some o /\ well_formed d o) /\
    (forall r, In r (d_reflog d) -> is_version d (r_key r)).
  Definition typed (w : world) : Prop := no_coll (w_hashed w) ->
    (forall l, shp (db_at (w_dbs w) l)) /\ match w_txn w with TxnDirty d => shp d | _ => True end.
  Definition inv (w : world) : Prop := world_ok w /\ typed w.

  Definition le (d d' : db) : Prop := forall k v, assoc k (d_data d) = Some v -> assoc k (d_data d') = Some v.
  Lemma le_refl d : le d d. Proof. intros k v H. exact H. Qed.
  Lemma object_le d d' k o : le d d' -> object_at d k = Some o -> object_at d' k = Some o.
  Proof. intros L. unfold object_at. destruct (assoc k (d_data d)) as [v|] eqn:A; [|discriminate]. rewrite (L _ _ A). auto. Qed.
  Lemma points_le d d' s k : le d d' -> points d s k -> points d' s k.
  Proof. intros L (o & O & S). exists o. split; [eapply object_le; eauto|exact S]. Qed.
  Lemma all_points_le d d' s l : le d d' -> Forall (points d s) l -> Forall (points d' s) l.
  Proof. intros L. apply Forall_impl. intro. apply points_le, L. Qed.
  Lemma formed_le d d' o : le d d' -> well_formed d o -> well_formed d' o.
  Proof.
    intro L. unfold well_formed. destruct (o_type o); auto.
    all: intro H; repeat match goal with H : exists _, _ |- _ => destruct H as [? H] | H : _ /\ _ |- _ => destruct H end; eauto 10 using all_points_le, points_le.
  Qed.
  Lemma le_put k v d : le d (upd_data (insert_or_ignore k v) d).
  Proof. intros k' v' H. cbn. rewrite assoc_ignore, H. reflexivity. Qed.
  Lemma version_le d d' k : le d d' -> is_version d k -> is_version d' k.
  Proof. intros L (o & O & T). exists o. split; [eapply object_le; eauto|exact T]. Qed.
  Lemma shp_empty : shp db_empty. Proof. split; [intros k v H; discriminate|intros r []]. Qed.
  Lemma shp_state f d : shp d -> shp (upd_state f d).
  Proof. intro S. exact S. Qed.
  Lemma shp_push d n r k : shp d -> is_version d (as_db_key k) ->
    shp (upd_reflog (fun rows => rows ++ [Row (next_id rows) n r (as_db_key k)]) d).
  Proof.
    intros [H1 H2] K. split; [exact H1|]. intros x X. cbn in X. apply in_app_iff in X as [X|[<-|[]]]; [apply H2, X|exact K].
  Qed.
  Lemma shp_put d o k : shp d -> obj_fits o = true -> well_formed d o -> shp (upd_data (insert_or_ignore k (encode_object o)) d).
  Proof.
    intros [S R] F Wf. split; [|intros r X; eapply version_le; [apply le_put|apply R, X]]. intros k' v A. cbn in A. rewrite assoc_ignore in A. destruct (assoc k' (d_data d)) as [v'|] eqn:A1.
    - inv A. destruct (S _ _ A1) as (o' & D & Wf'). exists o'. split; [exact D|]. eapply formed_le; [apply le_put|exact Wf'].
    - destruct (bytes_eqb k k'); [|discriminate]. inv A. exists o. split; [apply decode_encode, F|]. eapply formed_le; [apply le_put|exact Wf].
  Qed.

  Lemma typed_cur w : typed w -> no_coll (w_hashed w) -> shp (cur_db w).
  Proof. intros T NC. destruct (T NC) as [H1 H2]. unfold cur_db. destruct (w_txn w); [apply H1|apply H1|exact H2]. Qed.
  Lemma dbs_set_shp dbs l d : (forall x, shp (db_at dbs x)) -> shp d -> forall x, shp (db_at (assoc_set l d dbs) x).
  Proof. intros H1 H2 x. rewrite db_at_set. destruct (names_eqb l x); auto. Qed.
  Lemma typed_put w d : typed w -> (no_coll (w_hashed w) -> shp d) -> typed (put_db d w).
  Proof.
    intros T H NC. assert (NC' : no_coll (w_hashed w)) by (unfold put_db in NC; destruct (w_txn w); exact NC). specialize (H NC').
    destruct (T NC') as [H1 H2]. unfold put_db. destruct (w_txn w) eqn:Et; (split; [|cbn; try rewrite Et; auto]); cbn; auto.
    apply dbs_set_shp; auto.
  Qed.
  Lemma typed_lost w : typed w -> typed (set_txn w NoTxn).
  Proof. intros T NC. destruct (T NC) as [H1 H2]. split; [exact H1|exact I]. Qed.

  (** ** Everything that does not store objects *)
  Definition ty_rel (w w' : world) : Prop := typed w -> typed w'.
  Lemma ty_same w w' : same_db w w' -> ty_rel w w'.
  Proof. intros (H1 & H2 & H3 & H4) T NC. rewrite H4 in NC. destruct (T NC) as [W1 W2]. split; [rewrite H1; exact W1|rewrite H3; exact W2]. Qed.
  #[export] Instance ty_DbRel : DbRel ty_rel.
  Proof.
    constructor.
    - intros a b c H K W. auto.
    - intros w w' H _. apply ty_same, H.
    - intros w. exact (typed_lost w).
  Qed.
  #[export] Instance ty_DbOnly : DbOnly ty_rel.
  Proof. constructor. intros w w'. apply ty_same. Qed.
  #[export] Instance ty_DbProc : DbProc ty_rel.
  Proof.
    constructor.
    - intros w _ T NC. destruct (T NC) as [W1 W2]. split; [exact W1|exact I].
    - intros w T NC. assert (NC' : no_coll (w_hashed w)) by (unfold commit_now in NC; destruct (w_txn w); exact NC).
      pose proof (typed_cur w T NC') as C. destruct (T NC') as [W1 W2]. unfold commit_now, cur_db in *.
      destruct (w_txn w); (split; [|exact I]); auto. cbn. apply dbs_set_shp; auto.
  Qed.
  #[export] Instance ty_DbOpen : DbOpen ty_rel.
  Proof.
    constructor.
    - intros w p l w' H. unfold open_db_eff in H. destruct (resolve _ _ p) as [l0|]; [|discriminate].
      destruct (p_slash p); [discriminate|]. destruct (lookup (w_fs w) l0) as [[|c st| |]|]; try discriminate.
      + destruct (assoc_loc l0 (w_dbs w)); [inv H; intro; assumption|]. destruct c; inv H.
        intros T NC. destruct (T NC) as [W1 W2]. split; [|exact W2]. cbn. apply dbs_set_shp; [exact W1|apply shp_empty].
      + inv H. intros T NC. destruct (T NC) as [W1 W2]. split; [|exact W2]. cbn. apply dbs_set_shp; [exact W1|apply shp_empty].
    - intros w l T NC. destruct (T NC) as [W1 W2]. split; [exact W1|exact I].
    - intros w l h T NC. destruct (T NC) as [W1 W2]. split; [|exact W2]. cbn [set_dbs w_dbs]. apply dbs_set_shp; [exact W1|].
      apply shp_state, W1.
  Qed.

  (** ** Triples *)
  (** What is stored stays, and the files do not change. *)
  Definition ext (w w' : world) : Prop :=
    incl (w_hashed w) (w_hashed w') /\ le (cur_db w) (cur_db w') /\ w_fs w' = w_fs w.
  Lemma ext_refl w : ext w w. Proof. split; [apply incl_refl|]. split; [apply le_refl|reflexivity]. Qed.
  Lemma ext_trans a b c : ext a b -> ext b c -> ext a c.
  Proof. intros (H1 & H2 & H3) (K1 & K2 & K3). split; [eapply incl_tran; eauto|]. split; [|congruence]. intros k v H. auto. Qed.
  Lemma coll_incl a b : incl a b -> no_coll b -> no_coll a.
  Proof. intros I H x y X Y. apply H; auto. Qed.
  Class Stable (P : world -> Prop) := stable : forall w w', ext w w' -> P w -> P w'.
  Definition tri {A} (P : world -> Prop) (m : M A) (Q : A -> world -> Prop) : Prop :=
    forall w, inv w -> P w -> inv (snd (m w)) /\ forall a w', m w = (Done a, w') -> ext w w' /\ Q a w'.

  Definition ref (s : role) (k : key) (w : world) : Prop := no_coll (w_hashed w) -> points (cur_db w) s k.
  Definition refs (s : role) (l : list key) (w : world) : Prop := forall k, In k l -> ref s k w.
  #[local] Instance ref_stable s k : Stable (ref s k).
  Proof. intros w w' (H1 & H2 & _) R NC. eapply points_le; [exact H2|]. apply R. eapply coll_incl; eauto. Qed.
  #[local] Instance refs_stable s l : Stable (refs s l).
  Proof. intros w w' X R k K. eapply ref_stable; eauto. Qed.
  #[local] Instance ok_stable : Stable (fun w => fs_ok (w_fs w)).
  Proof. intros w w' (_ & _ & ->). auto. Qed.
  #[local] Instance and_stable P Q : Stable P -> Stable Q -> Stable (fun w => P w /\ Q w).
  Proof. intros H1 H2 w w' X [p q]. split; eapply stable; eauto. Qed.
  #[local] Instance const_stable P : Stable (fun _ => P).
  Proof. intros w w' _ p. exact p. Qed.

  Lemma tri_bind {A B} P {S : Stable P} (m : M A) Q (k : A -> M B) R :
    tri P m Q -> (forall a, tri (fun w => P w /\ Q a w) (k a) R) -> tri P (bind m k) R.
  Proof.
    intros H K w I p. destruct (H w I p) as [I1 D]. unfold bind.
    destruct (m w) as [o w1]. destruct o as [a| | | |]; cbn in *; try (split; [exact I1|intros; discriminate]).
    destruct (D a w1 eq_refl) as [X q]. destruct (K a w1 I1 (conj (stable w w1 X p) q)) as [I2 D2]. split; [exact I2|].
    intros b w' Y. destruct (D2 b w' Y) as [X' r]. split; [eapply ext_trans; eauto|exact r].
  Qed.
  Lemma tri_ret {A} (a : A) (P : world -> Prop) (Q : A -> world -> Prop) : (forall w, P w -> Q a w) -> tri P (ret a) Q.
  Proof. intros H w I p. split; [exact I|]. intros x w' X. inv X. split; [apply ext_refl|apply H, p]. Qed.
  Lemma tri_conseq {A} (m : M A) (P : world -> Prop) Q (P' : world -> Prop) (Q' : A -> world -> Prop) : tri P m Q -> (forall w, P' w -> P w) ->
    (forall a w, Q a w -> Q' a w) -> tri P' m Q'.
  Proof.
    intros H H1 H2 w I p. destruct (H w I (H1 w p)) as [I1 D]. split; [exact I1|]. intros a w' X. destruct (D a w' X) as [Y q]. auto.
  Qed.
  Lemma tri_fail {A} e P (Q : A -> world -> Prop) : tri P (fail e) Q.
  Proof. intros w I p. split; [exact I|]. intros; discriminate. Qed.
  Lemma tri_panic {A} e P (Q : A -> world -> Prop) : tri P (panic_with e) Q.
  Proof. intros w I p. split; [exact I|]. intros; discriminate. Qed.
  Lemma tri_diverge {A} P (Q : A -> world -> Prop) : tri P diverge Q.
  Proof. intros w I p. split; [exact I|]. intros; discriminate. Qed.
  Lemma tri_of_option {A} e (o : option A) (P : world -> Prop) (Q : A -> world -> Prop) :
    (forall a, o = Some a -> forall w, P w -> Q a w) -> tri P (of_option e o) Q.
  Proof. destruct o; cbn; intro H; [apply tri_ret; apply H; reflexivity|apply tri_fail]. Qed.
  (** Queries. *)
  Lemma ticked_ext w w' : ticked w w' -> ext w w'.
  Proof. intros (t & r & ->). split; [apply incl_refl|]. split; [apply le_refl|reflexivity]. Qed.
  Lemma inv_same w w' : same_db w w' -> inv w -> inv w'.
  Proof. intros H [I1 I2]. split; [eapply (do_same (R := ok_rel)); eauto|eapply ty_same; eauto]. Qed.
  Lemma tri_query {A} (m : M A) (P : world -> Prop) (Q : A -> world -> Prop) : rel same_db m ->
    (forall w a w', m w = (Done a, w') -> P w -> ticked w w' /\ Q a w') -> tri P m Q.
  Proof.
    intros H K w I p. split; [eapply inv_same; [apply H|exact I]|]. intros a w' X. destruct (K w a w' X p) as [T q].
    split; [apply ticked_ext, T|exact q].
  Qed.

  (** ** Storing *)
  Lemma tri_put_obj o : tri (fun w => no_coll (w_hashed w) -> well_formed (cur_db w) o) (put_obj ds o)
    (fun k w => no_coll (w_hashed w) -> object_at (cur_db w) (as_db_key k) = Some o).
  Proof.
    intros w [I1 I2] p. split; [split|].
    - apply (rel_put_obj ok_rel), I1.
    - unfold put_obj. destruct (obj_fits o) eqn:F; [|exact I2].
      assert (HS : forall w1, ticked (set_hashed w (encode_object o :: w_hashed w)) w1 -> no_coll (w_hashed w1) -> no_coll (w_hashed w)).
      { intros w1 (t & r & ->) NC. eapply coll_incl; [|exact NC]. cbn. apply incl_tl, incl_refl. }
      assert (TY : forall w1, ticked (set_hashed w (encode_object o :: w_hashed w)) w1 -> typed w1).
      { intros w1 T NC. destruct (I2 (HS w1 T NC)) as [H1 H2]. destruct T as (t & r & ->). split; [exact H1|exact H2]. }
      assert (SH : forall w1, ticked (set_hashed w (encode_object o :: w_hashed w)) w1 -> no_coll (w_hashed w1) ->
        shp (upd_data (insert_or_ignore (as_db_key (Blake3B (blake3 (encode_object o)))) (encode_object o)) (cur_db w1))).
      { intros w1 T NC. specialize (HS w1 T NC). destruct T as (t & r & ->). apply shp_put; [apply (typed_cur w I2 HS)|exact F|exact (p HS)]. }
      unfold put, bind. cbn [hash raw_put sqlite_ds]. unfold hash. cbn. unfold sqlite_raw_put, db_write.
      match goal with |- context [op ?e ?x] => destruct (op_case e x) as (f & w1 & H & T) end.
      rewrite H. specialize (TY w1 T). specialize (SH w1 T).
      destruct f as [|n| |[|n]]; cbn; try exact TY; try (apply typed_put; assumption); apply typed_lost, TY.
    - intros k w' H. pose proof H as H0. destruct (put_obj_key _ _ _ _ _ H) as [_ F]. apply put_obj_put in H. pose proof H as H'.
      apply put_done in H as (-> & C & Hh & _). split.
      + split; [rewrite Hh; apply incl_tl, incl_refl|]. split; [rewrite C; apply le_put|].
        clear H0.
        apply bind_done in H' as (k0 & w0 & H1 & H'). inv H1. apply bind_done in H' as (u & w2 & H1 & H').
        apply ret_done in H' as [_ ->]. apply db_write_done in H1 as (w1 & T & -> & _). rewrite put_db_fs. destruct T as (t & r & ->). reflexivity.
      + intro NC. unfold object_at. rewrite (put_assoc _ _ _ _ I1 H' NC). apply decode_encode, F.
  Qed.
  Lemma ref_intro s k o w : of_role s o -> (no_coll (w_hashed w) -> object_at (cur_db w) (as_db_key k) = Some o) -> ref s k w.
  Proof. intros S H NC. exists o. auto. Qed.
  Lemma refs_forall s l w : refs s l w -> no_coll (w_hashed w) -> Forall (points (cur_db w) s) l.
  Proof. intros H NC. apply Forall_forall. intros k K. apply H; assumption. Qed.

  Lemma tri_put_tree l : tri (refs Data l) (put_tree ds l) (ref Data).
  Proof.
    eapply tri_conseq; [apply tri_put_obj| |].
    - intros w H NC. cbn. split; [reflexivity|]. apply refs_forall; assumption.
    - intros k w H. eapply ref_intro; [|exact H]. right. reflexivity.
  Qed.
  Lemma tri_put_blob d P : tri P (put_blob ds d) (ref Data).
  Proof.
    eapply tri_conseq; [apply tri_put_obj| |].
    - intros w _ NC. reflexivity.
    - intros k w H. eapply ref_intro; [|exact H]. left. reflexivity.
  Qed.
  Lemma refs_cons s k l w : ref s k w -> refs s l w -> refs s (k :: l) w.
  Proof. intros H K x [<-|X]; auto. Qed.
  Lemma refs_sub s l l' w : refs s l w -> incl l' l -> refs s l' w.
  Proof. intros H I k K. apply H, I, K. Qed.
  Lemma refs_push s kb i k w : ref s k w -> refs s (kbs kb) w -> refs s (kbs (kb_push kb i k)) w.
  Proof. intros H K x X. apply In_kb_push in X as [->|X]; auto. Qed.
  Lemma refs_set s kb i w : refs s (kbs kb) w -> refs s (kbs (kb_set kb i [])) w.
  Proof. intros K x X. apply In_kb_set in X as [[]|X]; auto. Qed.
  Lemma refs_get s kb i w : refs s (kbs kb) w -> refs s (kb_get kb i) w.
  Proof. intros K x X. apply K. eapply In_kb_get, X. Qed.

  Lemma tri_cascade l z : forall kb, tri (refs Data (kbs kb)) (cascade ds l z kb) (fun kb' => refs Data (kbs kb')).
  Proof.
    induction l as [|o l IH]; intros kb; cbn [cascade]; [apply tri_ret; auto|].
    cbv zeta. destruct (_ || _); [|apply tri_ret; auto].
    eapply tri_bind; [exact _|eapply tri_conseq; [apply tri_put_tree| |intros a w H; exact H]; intros w H; apply refs_get, H|].
    intro k. eapply tri_conseq; [apply IH| |auto]. intros w [H1 H2]. apply refs_push; [exact H2|]. apply refs_set, H1.
  Qed.
  Lemma tri_cut st b : tri (refs Data (kbs (pd_kb st))) (cut ds st b) (fun st' => refs Data (kbs (pd_kb st'))).
  Proof.
    unfold cut. destruct (Nat.ltb _ b); [apply tri_panic|]. cbv zeta. destruct (negb _); [apply tri_panic|].
    destruct (Nat.leb chunk_max _); [|apply tri_ret; auto].
    eapply tri_bind; [exact _|apply tri_put_blob|]. intro k.
    eapply tri_bind; [exact _| |].
    - eapply tri_conseq; [apply tri_cascade| |intros a w H; exact H]. intros w [H1 H2]. apply refs_push; assumption.
    - intro kb. apply tri_ret. intros w H. apply H.
  Qed.
  Lemma tri_pd_loop fuel : forall st reads,
    tri (refs Data (kbs (pd_kb st))) (pd_loop ds fuel st reads) (fun st' => refs Data (kbs (pd_kb st'))).
  Proof.
    induction fuel as [|f IH]; intros st reads; cbn [pd_loop]; [apply tri_diverge|].
    destruct (next_match _ _ _) as [m h]. cbv zeta.
    match goal with |- context [match ?m with Some _ => _ | None => _ end] => destruct m as [b|] end.
    - eapply tri_bind; [exact _|apply (tri_cut (PD _ _ _ _))|]. intro st'. eapply tri_conseq; [apply IH| |auto]. intros w H. apply H.
    - destruct reads as [|[[|c d]| |] reads]; try (apply tri_ret; auto); try (eapply tri_conseq; [apply IH| |]; auto);
        apply tri_fail.
  Qed.
  Lemma tri_fold_levels l : forall kb, tri (refs Data (kbs kb)) (fold_levels ds l kb)
    (fun r w => refs Data (kbs (snd r)) w /\ match fst r with Some k => ref Data k w | None => True end).
  Proof.
    induction l as [|o l IH]; intro kb; cbn [fold_levels]; [apply tri_ret; cbn; auto|].
    eapply tri_bind; [exact _|eapply tri_conseq; [apply tri_put_tree| |intros a w H; exact H]; intros w H; apply refs_get, H|].
    intro k.
    assert (tri (fun w => refs Data (kbs kb) w /\ ref Data k w) (fold_levels ds l (kb_push kb (o + 1) k))
      (fun r w => refs Data (kbs (snd r)) w /\ match fst r with Some k => ref Data k w | None => True end)) as R.
    { eapply tri_conseq; [apply IH| |auto]. intros w [H1 H2]. apply refs_push; assumption. }
    destruct (kb_get kb o) as [|k0 [|k1 r]] eqn:G; [exact R| |exact R].
    destruct (forallb _ _); [|exact R].
    apply tri_ret. intros w [H1 H2]. cbn. split; [exact H1|]. apply (refs_get _ _ o _ H1). rewrite G. left. reflexivity.
  Qed.
  Lemma tri_pd_finish st : tri (refs Data (kbs (pd_kb st))) (pd_finish ds st) (ref Data).
  Proof.
    unfold pd_finish. cbv zeta. destruct (forallb _ _); [apply tri_put_blob|].
    eapply (tri_bind _ _ (fun kb => refs Data (kbs kb))).
    - destruct (pd_cur st ++ pd_buf st) as [|b r]; [apply tri_ret; auto|].
      eapply tri_bind; [exact _|apply tri_put_blob|]. intro k. apply tri_ret. intros w [H1 H2]. apply refs_push; assumption.
    - intro kb. eapply tri_conseq; [|intros w [_ H]; exact H|intros a w H; exact H].
      eapply tri_bind; [exact _|apply tri_fold_levels|]. intros [[k|] kb']; cbn [fst snd].
      + apply tri_ret. intros w H. apply H.
      + eapply tri_conseq; [apply tri_put_tree| |auto]. intros w (_ & H & _). apply refs_get, H.
  Qed.
  Lemma tri_put_data reads P : tri P (put_data ds reads) (ref Data).
  Proof.
    apply (tri_conseq _ (fun _ => True) (ref Data)); [|auto|auto]. unfold put_data.
    apply (tri_bind (fun _ => True) _ (fun st => refs Data (kbs (pd_kb st)))).
    - eapply tri_conseq; [apply (tri_pd_loop _ pd_init)| |intros a w H; exact H]. intros w _ k K. destruct K.
    - intro st. eapply tri_conseq; [apply tri_pd_finish| |auto]. intros w H. apply H.
  Qed.
  Lemma tri_put_item i (P : world -> Prop) : (forall w o, P w -> object_of_fsitem i = Some o -> obj_fits o = true -> no_coll (w_hashed w) -> well_formed (cur_db w) o) ->
    tri P (put_item ds i) (ref Item).
  Proof.
    intro H. unfold put_item. intros w I p. unfold bind. destruct (object_of_fsitem i) as [o|] eqn:O; cbn.
    - destruct (obj_fits o) eqn:F.
      + eapply (tri_conseq _ _ _ P (ref Item)); [apply tri_put_obj| | |exact I|exact p].
        * intros v q NC. eapply H; eauto.
        * intros k v X. eapply ref_intro; [|exact X]. unfold object_of_fsitem in O. destruct (forallb _ _); inv O. cbn. destruct (fi_type i); auto.
      + unfold put_obj. rewrite F. apply (tri_panic PCapacity P (ref Item)); assumption.
    - apply (tri_fail EEncode P (ref Item)); assumption.
  Qed.
  Lemma tri_put_file size h P : (size < 2 ^ 64)%N -> tri (fun w => P w /\ ref Data h w) (put_item ds (file_item size h)) (ref Item).
  Proof.
    intros S. apply tri_put_item. intros w o [_ R] O F NC. pose proof (fsitem_object _ _ O F S) as D.
    unfold object_of_fsitem in O. cbn [fi_names file_item forallb fi_type fi_children fsitem_objtype] in O.
    unfold well_formed. inv O. cbn [o_type o_keys] in *. exists size, h. split; [reflexivity|]. split; [apply R, NC|exact D].
  Qed.
  Lemma tri_put_dir names ks P : Forall entry_name names -> NoDup names -> length names = length ks ->
    tri (fun w => P w /\ refs Item ks w) (put_item ds (dir_item names ks)) (ref Item).
  Proof.
    intros En Nd Le. apply tri_put_item. intros w o [_ R] O F NC. pose proof (fsitem_object _ _ O F (wrap64_lt _)) as D.
    unfold object_of_fsitem in O. destruct (forallb _ _); [|discriminate]. cbn [fi_names dir_item forallb fi_type fi_children fsitem_objtype] in O.
    unfold well_formed. assert (T : o_type o = FSItemDir) by (inv O; reflexivity). assert (K : o_keys o = ks) by (inv O; reflexivity). rewrite T, K.
    exists names, ks. split; [reflexivity|]. split; [apply refs_forall; assumption|]. split.
    - rewrite D. unfold dir_item. f_equal. f_equal. unfold wrap64, u64_modulus. apply N.mod_small.
      unfold obj_fits in F. rewrite K in F. apply andb_true_iff in F as [_ F]. apply N.ltb_lt in F. eapply N.lt_trans; [exact F|]. reflexivity.
    - auto.
  Qed.

  (** Sublists. *)
  Inductive sub {A} : list A -> list A -> Prop :=
  | sub_nil : sub [] []
  | sub_keep x a b : sub a b -> sub (x :: a) (x :: b)
  | sub_skip x a b : sub a b -> sub a (x :: b).
  Lemma sub_in {A} (a b : list A) x : sub a b -> In x a -> In x b.
  Proof. induction 1; cbn; intuition. Qed.
  Lemma sub_nodup {A} (a b : list A) : sub a b -> NoDup b -> NoDup a.
  Proof.
    induction 1; intro N; [constructor| |]; apply NoDup_cons_iff in N as [N1 N2]; auto. constructor; auto.
    intro I. apply N1. eapply sub_in; eauto.
  Qed.
  Lemma children_names f l n : fs_ok f -> In n (children f l) -> entry_name n.
  Proof.
    intros [_ O] I. apply children_iff in I as (e & I). apply O in I as (_ & F & _). apply Forall_app in F as [_ F]. inversion F. assumption.
  Qed.

  Lemma tri_put_fs_item filter (Hf : forall p P, tri P (filter p) (fun _ _ => True)) fuel : forall p,
    tri (fun w => fs_ok (w_fs w)) (put_fs_item ds fuel p filter) (ref Item).
  Proof.
    induction fuel as [|f IH]; intros p; cbn [put_fs_item]; [apply tri_diverge|].
    eapply (tri_bind _ _ (fun m _ => match m with MFile size _ => (size < 2 ^ 64)%N | _ => True end)).
    { apply tri_query; [apply quiet_metadata|]. intros w m w' H _. apply metadata_done in H as (T & l & e & _ & M). split; [exact T|].
      destruct e; cbn in M; inv M; auto. apply wrap64_lt. }
    intros [|size st|].
    - eapply (tri_bind _ _ (fun r w => NoDup (fst r) /\ Forall entry_name (fst r))).
      { apply tri_query; [apply quiet_readdir|]. intros w r w' H [O _]. apply read_dir_done in H as (T & l & _ & R). split; [exact T|].
        assert (HH : NoDup (children (w_fs w) l) /\ Forall entry_name (children (w_fs w) l)).
        { split; [apply children_nodup, O|]. apply Forall_forall. intros n I. eapply children_names; eauto. }
        destruct R as [->|(n & ->)]; cbn [fst]; [exact HH|]. destruct HH as [H1 H2]. 
        assert (S : sub (firstn n (children (w_fs w) l)) (children (w_fs w) l)).
        { clear. generalize (children (w_fs w) l) as x. induction n as [|n IH]; intros [|y x]; cbn; try constructor; auto. induction x; constructor; auto. }
        split; [eapply sub_nodup; eauto|]. apply Forall_forall. intros y Y. rewrite Forall_forall in H2. apply H2. eapply sub_in; eauto. }
      intros [names err]. cbn [fst].
      eapply (tri_bind _ _ (fun kids w => refs Item (map snd kids) w /\ sub (map fst kids) names)).
      + clear err. eapply (tri_conseq _ (fun w => fs_ok (w_fs w)) _ _ _); [|intros w H; apply H|intros a w H; exact H].
        induction names as [|n names IHn]; [apply tri_ret; intros w _; split; [intros k []|constructor]|].
        eapply (tri_bind _ _ (fun _ _ => True)); [apply Hf|]. intros [|].
        * eapply (tri_bind _ _ (ref Item)); [eapply tri_conseq; [apply IH|intros w H; apply H|auto]|]. intro k.
          eapply tri_bind; [exact _|eapply tri_conseq; [apply IHn|intros w H; apply H|intros a w H; exact H]|].
          intro kids. apply tri_ret. cbn. intros w (((_ & _) & Hk) & Hs & Su). split; [apply refs_cons; assumption|constructor; exact Su].
        * eapply tri_conseq; [apply IHn|intros w H; apply H|]. intros kids w [H1 H2]. split; [exact H1|constructor; exact H2].
      + intros kids. destruct err; [apply tri_fail|].
        assert (G : forall w, (fs_ok (w_fs w) /\ True) /\ (NoDup names /\ Forall entry_name names) -> True) by auto. clear G.
        intros w I ((_ & Nd & En) & Hs & Su).
        assert (Nd' : NoDup (map fst kids)) by (eapply sub_nodup; eauto).
        assert (En' : Forall entry_name (map fst kids)).
        { apply Forall_forall. intros y Y. rewrite Forall_forall in En. apply En. eapply sub_in; eauto. }
        apply (tri_put_dir (map fst kids) (map snd kids) (fun _ => True) En' Nd'); [rewrite !map_length; reflexivity|exact I|]. split; [exact Logic.I|exact Hs].
    - eapply (tri_bind _ _ (fun _ _ => True)).
      { apply tri_query; [apply quiet_openread|]. intros w r w' H _. apply open_read_done in H. split; [apply H|exact I]. }
      intros [[st' fsize] reads]. eapply tri_bind; [exact _|apply tri_put_data|]. intro h.
      intros w Iw (((_ & S) & _) & R). apply (tri_put_file size h (fun _ => True) S); [exact Iw|]. split; [exact I|exact R].
    - apply tri_panic.
  Qed.

  (** ** Commands *)
  Definition inv_rel (w w' : world) : Prop := inv w -> inv w'.
  Lemma inv_both w w' : ok_rel w w' -> ty_rel w w' -> inv_rel w w'.
  Proof. intros H1 H2 [I1 I2]. split; auto. Qed.
  #[export] Instance inv_DbRel : DbRel inv_rel.
  Proof.
    constructor.
    - intros a b c H K W. apply K, H, W.
    - intros w w' H _. intro W. eapply inv_same; eauto.
    - intros w. apply inv_both; apply dr_lost.
  Qed.
  #[export] Instance inv_DbOnly : DbOnly inv_rel.
  Proof. constructor. intros w w' H W. eapply inv_same; eauto. Qed.
  Lemma inv_write (u : db -> db) P : (forall log d, db_ok log d -> db_ok log (u d)) -> (forall d, P d -> shp d -> shp (u d)) ->
    forall w, inv w -> (no_coll (w_hashed w) -> P (cur_db w)) -> inv (snd (db_write u w)).
  Proof.
    intros H1 H2 w I p. unfold db_write.
    match goal with |- context [op ?e ?x] => destruct (op_case e x) as (f & w1 & H & T) end. rewrite H. clear H.
    assert (I1 : inv w1) by (eapply inv_same; [apply ticked_same, T|exact I]).
    assert (I2 : inv (put_db (u (cur_db w1)) w1)).
    { destruct I1 as [A B]. split; [apply world_ok_put; [exact A|apply H1, world_ok_cur, A]|]. apply typed_put; [exact B|].
      intro NC. destruct T as (t & r & ->). apply H2; [apply p, NC|exact (typed_cur _ B NC)]. }
    destruct f as [|n| |[|n]]; try exact I1; try exact I2. apply (dr_lost (R := inv_rel)), I1.
  Qed.
  Lemma inv_head h : rel inv_rel (put_head ds h).
  Proof. intros w I. apply (inv_write _ (fun _ => True)); [intros; apply db_ok_state; assumption|intros; apply shp_state; assumption|exact I|trivial]. Qed.
  Lemma inv_push n k r w : inv w -> ref Version k w -> inv (snd (reflog_push ds (Reflog n k r) w)).
  Proof.
    intros I R. apply (inv_write _ (fun d => is_version d (as_db_key k))); [intros; apply db_ok_push; assumption|intros; apply shp_push; assumption|exact I|].
    intro NC. destruct (R NC) as (o & O & T). exists o. auto.
  Qed.
  #[export] Instance inv_DbProc : DbProc inv_rel.
  Proof. constructor; intros; apply inv_both; first [apply dr_begin; assumption|apply dr_commit]. Qed.
  #[export] Instance inv_DbOpen : DbOpen inv_rel.
  Proof. constructor; intros; apply inv_both; first [eapply dr_open; eassumption|apply dr_connect|apply dr_init]. Qed.

  Lemma rel_of_tri {A} (m : M A) Q : tri (fun _ => True) m Q -> rel inv_rel m.
  Proof. intros H w I. apply (H w I Logic.I). Qed.
  Definition still (w w' : world) : Prop := same_db w w' /\ w_fs w' = w_fs w.
  #[export] Instance still_pre : RelationClasses.PreOrder still.
  Proof. split; [intro; split; reflexivity|]. intros a b c [H1 H2] [K1 K2]. split; [etransitivity; eauto|congruence]. Qed.
  Lemma still_ext w w' : still w w' -> ext w w'.
  Proof.
    intros [(H1 & H2 & H3 & H4) F]. split; [rewrite H4; apply incl_refl|]. split; [|exact F].
    unfold cur_db, disk. rewrite H1, H2, H3. apply le_refl.
  Qed.
  Lemma tri_still {A} (m : M A) P : rel still m -> tri P m (fun _ _ => True).
  Proof.
    intros H w I _. split; [eapply inv_same; [apply (H w)|exact I]|]. intros a w' X. specialize (H w). rewrite X in H. split; [apply still_ext, H|exact Logic.I].
  Qed.
  Lemma still_op {A} (eff : fault -> M A) : (forall f w, still w (snd (eff f w))) -> rel still (op eff).
  Proof.
    intro H. apply rel_op. intros f w w1 T. etransitivity; [|apply H]. destruct T as (t & r & ->). split; [repeat split|reflexivity].
  Qed.
  Lemma still_query {A} (q : fs -> loc -> option A) : rel still (fs_query q).
  Proof. apply still_op. intros [] w; cbn; try reflexivity. destruct (q (w_fs w) (w_cwd w)); reflexivity. Qed.
  Lemma still_openread p : rel still (fs_open_read p).
  Proof. apply still_op. intros f w. destruct (stat _ _ p) as [[l [| | |]]|], f as [|[|]| |]; reflexivity. Qed.
  Lemma still_cache_get c : rel still (cache_get c).
  Proof.
    unfold cache_get. apply rel_bind; [exact _| |intros [d|]; [|apply rel_ret; exact _]].
    - apply still_op. intros [] w; split; repeat split.
    - apply rel_bind; [exact _|apply rel_lift_result; exact _|]. intro. apply rel_ret; exact _.
  Qed.
  Lemma still_cache_put c k : rel still (try (cache_put c k)).
  Proof.
    apply rel_try. apply still_op. intros f w. destruct f as [|n| |[|n]]; cbn; unfold put_cache; try reflexivity.
    all: destruct (w_ctxn w); split; repeat split.
  Qed.
  Lemma still_filter ex d p : rel still (filter_fn ex d p).
  Proof.
    unfold filter_fn. repeat (apply rel_bind; [exact _|apply rel_unwrap, still_query|intro]).
    destruct (names_prefix _ _); apply rel_ret; exact _.
  Qed.

  Lemma rel_hash_fs p : rel inv_rel (hash_fs_item ds p).
  Proof.
    eapply (rel_of_tri _ (fun _ _ => True)). unfold hash_fs_item.
    apply (tri_bind (fun _ => True) _ (fun m _ => match m with MFile size _ => (size < 2 ^ 64)%N | _ => True end)).
    { apply tri_query; [apply quiet_metadata|]. intros w m w' H _. apply metadata_done in H as (T & l & e & _ & M). split; [exact T|].
      destruct e; cbn in M; inv M; auto. apply wrap64_lt. }
    intros [|size st|]; try apply tri_fail.
    eapply (tri_bind _ _ (fun _ _ => True)); [apply tri_still, still_openread|]. intros [[st' fsize] reads]. cbv zeta.
    eapply (tri_bind _ _ (fun _ _ => True)); [apply tri_still, still_cache_get|].
    intros [h|]; [apply tri_ret; auto|].
    eapply (tri_bind _ _ (ref Data)); [apply tri_put_data|]. intro h.
    eapply (tri_bind _ _ (fun _ _ => True)).
    - intros w Iw ((((_ & S) & _) & _) & R). destruct (tri_put_file size h (fun _ => True) S w Iw (conj I R)) as [I2 D]. split; [exact I2|].
      intros a w' X. destruct (D a w' X). auto.
    - intro k. eapply (tri_bind _ _ (fun _ _ => True)); [apply tri_still, still_cache_put|]. intro. apply tri_ret. auto.
    Unshelve. all: try exact _.
  Qed.
  Lemma rel_inv_compare from to : rel inv_rel (compare ds from to).
  Proof.
    destruct from as [p ex fo|k]; [|apply rel_compare_db; exact _].
    unfold compare. apply rel_bind; [exact _| |].
    { apply rel_make_filter_fn; [exact _|]. intros f Hf. rel_tac. apply rel_walk_real_fs_items; [exact _|exact Hf]. }
    intro src. apply rel_bind; [exact _|destruct to; [apply rel_walk_fs_items; exact _|apply rel_ret; exact _]|].
    intro tm. cbv zeta. apply rel_bind; [exact _| |intro added; apply rel_bind; [exact _| |intro deleted; apply rel_bind; [exact _| |intro; apply rel_ret; exact _]]].
    - apply rel_mapM; [exact _|]. intros x. destruct src as [[b m]|m].
      + apply rel_bind; [exact _|apply rel_pm_index; exact _|]. intros [|]; [apply rel_ret; exact _|].
        apply rel_bind; [exact _|apply rel_try, rel_hash_fs|]. intros [h|e]; [apply rel_ret; exact _|apply rel_panic; exact _].
      + apply rel_bind; [exact _|apply rel_pm_index; exact _|]. intro. apply rel_ret; exact _.
    - apply rel_mapM; [exact _|]. intros x. apply rel_bind; [exact _|apply rel_pm_index; exact _|intro].
      apply rel_bind; [exact _| |intro; apply rel_ret; exact _]. destruct src as [[b m]|m].
      + apply rel_pm_index; exact _.
      + apply rel_bind; [exact _|apply rel_pm_index; exact _|intro]. apply rel_ret; exact _.
    - apply rel_mapM; [exact _|]. intros x. apply rel_bind; [exact _| |].
      + destruct src as [[b m]|m].
        * apply rel_bind; [exact _|apply rel_pm_index; exact _|]. intros [|]; [apply rel_ret; exact _|].
          apply rel_bind; [exact _|apply rel_hash_fs|]. intro. apply rel_ret; exact _.
        * apply rel_bind; [exact _|apply rel_pm_index; exact _|]. intro. apply rel_ret; exact _.
      + intros [k|]; [|apply rel_ret; exact _]. apply rel_bind; [exact _|apply rel_pm_index; exact _|]. intro t.
        destruct (key_eqb k (fst t)); apply rel_ret; exact _.
  Qed.
  Lemma inv_cmd_compare cm s p k b : rel inv_rel (cmd_compare cm s p k b).
  Proof.
    unfold cmd_compare. apply rel_bind; [exact _| |].
    - destruct k; [apply rel_canonicalize; exact _|]. apply rel_bind; [exact _|apply rel_get_head_key; exact _|intro].
      apply rel_bind; [exact _|apply rel_commit_from_key; exact _|intro]. apply rel_ret; exact _.
    - intro key. cbv zeta. apply rel_bind; [exact _|apply rel_inv_compare|]. intro r.
      destruct b; [apply rel_print_stat_diff_result; exact _|apply rel_print_diff_result; exact _].
  Qed.
  Lemma inv_status cm s : rel inv_rel (cmd_status cm s).
  Proof.
    unfold cmd_status. apply rel_bind; [exact _|apply rel_head_or_fail; exact _|]. intro name.
    apply rel_bind; [exact _|apply rel_try, rel_reflog_get; exact _|]. intros [k|e]; [|apply rp_print].
    apply rel_bind; [exact _|apply rp_print|]. intro.
    apply rel_bind; [exact _|apply rel_commit_from_key; exact _|]. intro c.
    apply rel_bind; [exact _|apply rel_inv_compare|]. intro. apply rel_print_diff_result; exact _.
  Qed.
  Lemma inv_checkout_head cm s n : rel inv_rel (cmd_checkout_head cm s n).
  Proof.
    unfold cmd_checkout_head. apply rel_bind; [exact _|apply rel_head_or_fail; exact _|]. intro name.
    apply rel_bind; [exact _|apply rel_try, rel_reflog_get; exact _|]. intro got.
    apply rel_bind; [exact _| |].
    { destruct got; [|apply rel_ret; exact _]. apply rel_bind; [exact _|apply rel_commit_from_key; exact _|]. intro. apply rel_ret; exact _. }
    intro t. apply rel_bind; [exact _|apply rel_inv_compare|]. intro r. destruct (diff_result_empty r).
    - apply rel_bind; [exact _|apply inv_head|]. intro. apply rp_print.
    - apply rel_bind; [exact _|apply rp_print|]. intro. apply rel_print_diff_result; exact _.
  Qed.

  (** With the files in order. *)
  Definition when (P : world -> Prop) {A} (m : M A) : Prop := forall w, inv w -> P w -> inv (snd (m w)).
  Lemma when_tri {A} P (m : M A) Q : tri P m Q -> when P m.
  Proof. intros H w I p. apply (H w I p). Qed.
  Lemma when_rel {A} P (m : M A) : rel inv_rel m -> when P m.
  Proof. intros H w I _. apply H, I. Qed.
  Lemma when_filter {A} ex d (k : (path -> M bool) -> M A) P :
    (forall f, (forall p, rel still (f p)) -> when P (k f)) -> when P (bind (make_filter_fn ex d) k).
  Proof.
    intro H. unfold make_filter_fn. destruct (forallb glob_valid ex).
    - intros w I p. unfold bind, ret. apply H; [|exact I|exact p]. intro. apply still_filter.
    - intros w I p. exact I.
  Qed.
  Definition fs_same (w w' : world) : Prop := w_fs w' = w_fs w.
  Definition fine (w : world) : Prop := fs_ok (w_fs w).
  Lemma when_bind {A B} (m : M A) (k : A -> M B) P (Q : A -> world -> Prop) : when P m -> (forall w a w', inv w -> m w = (Done a, w') -> P w -> Q a w') ->
    (forall a, when (Q a) (k a)) -> when P (bind m k).
  Proof.
    intros H K L w I p. specialize (H w I p). unfold bind. destruct (m w) as [o w1] eqn:X. destruct o as [a| | | |]; try exact H.
    apply L; [exact H|]. eapply K; eauto.
  Qed.
  Lemma fs_read_same {A} (q : db -> A) : rel fs_same (db_read q).
  Proof. intro w. destruct (db_read q w) as [o w'] eqn:X. unfold db_read in X. match type of X with op ?e ?x = _ => destruct (op_case e x) as (fl & w1 & E1 & T) end.
    rewrite E1 in X. destruct T as (t & r & ->). destruct fl; inv X; reflexivity. Qed.
  Instance fs_same_pre : RelationClasses.PreOrder fs_same.
  Proof. split; [intro; reflexivity|]. intros a b c H K. unfold fs_same in *. congruence. Qed.
  Lemma fs_reflog_get n r : rel fs_same (reflog_get ds n r).
  Proof.
    cbn [reflog_get sqlite_ds]. unfold sqlite_reflog_get. apply rel_bind; [exact _|apply fs_read_same|].
    intros [x|]; [apply rel_lift_result; exact _|apply rel_fail; exact _].
  Qed.
  Lemma fs_refname r : rel fs_same (refname_or_head r).
  Proof.
    destruct r; cbn [refname_or_head]; [apply rel_ret; exact _|]. unfold head_or_fail, get_head. cbn [raw_get_state sqlite_ds]. unfold sqlite_raw_get_state.
    apply rel_bind; [exact _| |intro; apply rel_of_option; exact _].
    apply rel_bind; [exact _|apply fs_read_same|]. intros [b|]; [|apply rel_ret; exact _]. destruct (utf8_valid b); [apply rel_ret; exact _|apply rel_fail; exact _].
  Qed.
  Lemma fine_after {A} (m : M A) w a w' : rel fs_same m -> m w = (Done a, w') -> fine w -> fine w'.
  Proof. intros H X O. specialize (H w). rewrite X in H. unfold fs_same in H. cbn [snd] in H. unfold fine. rewrite H. exact O. Qed.

  Lemma attrs_len m : (lenN m <= lenN (enc (value_of_attrs (Attrs m []))))%N.
  Proof.
    unfold value_of_attrs. cbn [at_message at_extra]. unfold lenN. cbn [enc flat_map]. rewrite !app_length. lia.
  Qed.
  Lemma fits_data o : obj_fits o = true -> (lenN (o_data o) < 2 ^ 64)%N.
  Proof. intro F. apply obj_fits_fits in F as [F _]. exact F. Qed.
  Lemma commit_decodes t ps m o : utf8_valid m = true -> o = object_of_commit (Commit t ps (Attrs m [])) -> obj_fits o = true ->
    o_type o = TCommit /\ o_keys o = t :: ps /\ forall w, commit_of_object o w = (Done (Commit t ps (Attrs m [])), w).
  Proof.
    intros U H F. apply fits_data in F. assert (D : o_data o = enc (value_of_attrs (Attrs m []))) by (rewrite H; reflexivity).
    assert (K : o_keys o = t :: ps) by (rewrite H; reflexivity). split; [rewrite H; reflexivity|]. clear H. split; [exact K|].
    rewrite D in F. intro w. unfold commit_of_object. rewrite D, K, decode_attrs; [reflexivity|].
    split; [|split; [exact U|]].
    - eapply N.le_lt_trans; [apply attrs_len|exact F].
    - apply wf_map. split; [reflexivity|constructor].
  Qed.
  Lemma tri_commit_tree t ps m : utf8_valid m = true -> tri (fun w => ref Item t w /\ refs Version ps w) (commit_tree ds t ps (Attrs m [])) (ref Version).
  Proof.
    intros U. unfold commit_tree. remember (object_of_commit (Commit t (sort key_cmp ps) (Attrs m []))) as o eqn:Ho.
    destruct (obj_fits o) eqn:F; [|unfold put_obj; rewrite F; apply tri_panic].
    destruct (commit_decodes _ _ _ _ U Ho F) as (T & K & D). clear Ho.
    eapply tri_conseq; [apply tri_put_obj| |intros k w H; eapply ref_intro; [exact T|exact H]]. intros w [R R2] NC. unfold well_formed. rewrite T.
    exists t, (sort key_cmp ps), (Attrs m []). split; [exact K|]. split; [apply R, NC|]. split; [|exact D].
    apply Forall_forall. intros k X. apply sort_in in X. apply R2; assumption.
  Qed.
  Lemma when_insert cm s p : when fine (cmd_insert cm s p).
  Proof.
    unfold cmd_insert. apply when_filter. intros f Hf. eapply when_bind.
    - eapply when_tri, tri_put_fs_item. intros q P. apply tri_still, Hf.
    - intros w a w' _ _ _. exact I.
    - intro k. apply when_rel, rp_print.
  Qed.
  Lemma reflog_ref n r w k w' : inv w -> reflog_get ds n r w = (Done k, w') -> ext w w' /\ ref Version k w'.
  Proof.
    intros [W T] H. pose proof H as H'. apply reflog_get_done in H as (C & x & X & K).
    assert (Tk : ticked w w').
    { cbn [reflog_get sqlite_ds] in H'. unfold sqlite_reflog_get in H'. apply bind_done in H' as (a & w1 & H1 & H').
      apply db_read_done in H1 as [H1 _]. destruct a as [y|]; [|discriminate]. apply lift_result_done in H' as [_ ->]. exact H1. }
    split; [apply ticked_ext, Tk|]. intro NC. rewrite (hashed_ticked _ _ Tk) in NC. pose proof (typed_cur w T NC) as [_ S]. destruct (S x X) as (o & O & Ty).
    exists o. rewrite C, <- K. auto.
  Qed.
  Lemma when_commit cm s p m r : utf8_valid m = true -> when fine (cmd_commit cm s p m r).
  Proof.
    intro U. unfold cmd_commit. apply when_filter. intros f Hf. cbv zeta.
    eapply (when_bind _ _ _ (fun _ => fine)); [apply when_rel, rel_refname_or_head; exact _|intros w a w' _ X; eapply fine_after; [|exact X]; apply fs_refname|].
    intro name. eapply (when_bind _ _ _ (fun got w => fine w /\ match got with Ok k => ref Version k w | Err _ => True end)); [apply when_rel, rel_try, rel_reflog_get; exact _| |].
    { intros w a w' I X O. split; [eapply fine_after; [|exact X|exact O]; apply rel_try, fs_reflog_get|].
      apply try_done in X as [(k & -> & X)|(e & -> & _)]; [|exact Logic.I]. eapply reflog_ref; eauto. }
    intro got. eapply (when_bind _ _ _ (fun ps w => fine w /\ refs Version ps w)).
    - apply when_rel. destruct got as [k|[]]; first [apply rel_ret; exact _|apply rel_fail; exact _].
    - intros w a w' _ X [O R]. destruct got as [k|[]]; try discriminate X; apply ret_done in X as [-> ->]; (split; [exact O|]).
      + intros x [<-|[]]. exact R.
      + intros x [].
    - intros ps w I [O R]. unfold bind at 1.
      destruct (tri_put_fs_item f (fun q P => tri_still _ P (Hf q)) stack (match p with Some q => q | None => ds_repo s end) w I O) as [I1 D].
      destruct (put_fs_item _ _ _ _ w) as [[t| | | |] w1]; try exact I1. destruct (D t w1 eq_refl) as [X R1].
      unfold bind. destruct (tri_commit_tree t ps m U w1 I1 (conj R1 (refs_stable _ _ _ _ X R))) as [I2 D2].
      destruct (commit_tree _ _ _ _ w1) as [[c| | | |] w2]; try exact I2. destruct (D2 c w2 eq_refl) as [_ R2].
      apply inv_push; assumption.
  Qed.
  Definition only (s : role) (ki : keyish) (w : world) : Prop := no_coll (w_hashed w) -> names_only w s ki.
  Lemma tri_canon s ki : tri (only s ki) (canonicalize ds ki) (ref s).
  Proof.
    intros w I O. split; [apply (rel_canonicalize inv_rel), I|]. intros k w' H. apply canon_done in H as [T D]; [|apply I].
    split; [apply ticked_ext, T|]. intro NC. rewrite (cur_ticked _ _ T). rewrite (hashed_ticked _ _ T) in NC. apply O; assumption.
  Qed.
  Lemma canon_ticked ki w k w' : inv w -> canonicalize ds ki w = (Done k, w') -> ticked w w'.
  Proof. intros I H. apply canon_done in H as [T D]; [exact T|apply I]. Qed.
  Lemma only_ticked s ki w w' : ticked w w' -> only s ki w -> only s ki w'.
  Proof. intros (t & r & ->) O. exact O. Qed.
  Lemma when_ref_update k n : when (only Version k) (cmd_ref_update k n).
  Proof.
    unfold cmd_ref_update. apply (when_bind _ _ _ (ref Version)); [apply when_rel, rel_canonicalize; exact _|intros w a w' I X O; eapply tri_canon; eauto|].
    intro key. apply (when_bind _ _ _ (fun _ => ref Version key)); [apply when_rel, rel_refname_or_head; exact _| |].
    - intros w a w' I X R. apply branch_done in X as [T _]. eapply ref_stable; [apply ticked_ext, T|exact R].
    - intros name w I R. apply inv_push; assumption.
  Qed.
  Lemma when_reflog_push k n r : when (only Version k) (cmd_reflog_push k n r).
  Proof.
    unfold cmd_reflog_push. apply (when_bind _ _ _ (ref Version)); [apply when_rel, rel_canonicalize; exact _|intros w a w' I X O; eapply tri_canon; eauto|].
    intros key w I R. apply inv_push; assumption.
  Qed.
  Lemma when_canons s l : when (fun w => Forall (fun ki => only s ki w) l) (mapM (canonicalize ds) l) /\
    forall w a w', inv w -> mapM (canonicalize ds) l w = (Done a, w') -> Forall (fun ki => only s ki w) l -> ext w w' /\ refs s a w'.
  Proof.
    split; [apply when_rel, rel_mapM; [exact _|intro; apply rel_canonicalize; exact _]|].
    induction l as [|ki l IH]; intros w a w' I H O; cbn [mapM] in H.
    - apply ret_done in H as [-> ->]. split; [apply ext_refl|]. intros x [].
    - apply bind_done in H as (k & w1 & H1 & H). apply bind_done in H as (r & w2 & H2 & H). apply ret_done in H as [-> ->].
      inversion O as [|? ? O1 O2]; subst. destruct (tri_canon s ki w I O1) as [I1 D]. rewrite H1 in I1. destruct (D _ _ H1) as [X R].
      pose proof (canon_ticked _ _ _ _ I H1) as T.
      apply IH in H2 as [X2 R2]; [|exact I1|eapply Forall_impl; [|exact O2]; intros ki' O'; eapply only_ticked; eauto].
      split; [eapply ext_trans; eauto|]. apply refs_cons; [eapply ref_stable; eauto|exact R2].
  Qed.
  Lemma when_commit_tree t ps : when (fun w => only Item t w /\ Forall (fun ki => only Version ki w) ps) (cmd_commit_tree t ps).
  Proof.
    unfold cmd_commit_tree.
    apply (when_bind _ _ _ (fun k w => ref Item k w /\ Forall (fun ki => only Version ki w) ps)); [apply when_rel, rel_canonicalize; exact _| |].
    { intros w a w' I X [O1 O2]. split; [eapply tri_canon; eauto|]. eapply Forall_impl; [|exact O2]. intros ki O. eapply only_ticked; [|exact O]. eapply canon_ticked; eauto. }
    intro k. apply (when_bind _ _ _ (fun l w => ref Item k w /\ refs Version l w)); [apply when_rel, rel_mapM; [exact _|intro; apply rel_canonicalize; exact _]| |].
    { intros w a w' I X [O1 O2]. destruct (proj2 (when_canons Version ps) w a w' I X O2) as [Y R]. split; [eapply ref_stable; eauto|exact R]. }
    intros l. apply (when_bind _ _ _ (fun _ _ => True)).
    - apply (when_tri _ _ (ref Version)). apply tri_commit_tree. reflexivity.
    - auto.
    - intro c. apply when_rel, rp_print.
  Qed.
  Definition ready (c : command) (w : world) : Prop := fine w /\ sensible w c.
  Lemma when_conseq {A} (P Q : world -> Prop) (m : M A) : when P m -> (forall w, Q w -> P w) -> when Q m.
  Proof. intros H K w I q. apply H; auto. Qed.
  Lemma when_run_command cm st c : when (ready c) (run_command cm st c).
  Proof.
    destruct c; cbn [run_command];
      try match goal with |- when _ (with_ds _ _) => unfold with_ds; destruct st as [s|]; [|apply when_rel, rel_fail; exact _] end.
    - eapply when_conseq; [apply when_insert|]. intros w H. apply H.
    - intros w I [O S]. exact (when_commit cm s p message refname S w I O).
    - apply when_rel, rel_cmd_fetch; exact _.
    - apply when_rel, rel_cmd_pretty_print; exact _.
    - eapply when_conseq; [apply when_commit_tree|]. intros w [_ [S1 S2]]. split; [intros _; exact S1|]. eapply Forall_impl; [|exact S2]. intros ki H _. exact H.
    - apply when_rel, rel_cmd_reflog_get; exact _.
    - eapply when_conseq; [apply when_reflog_push|]. intros w [_ S] _. exact S.
    - apply when_rel, rel_cmd_walk_tree; exact _.
    - apply when_rel, rel_cmd_walk_fs_tree; exact _.
    - apply when_rel, inv_head.
    - apply when_rel, rel_cmd_get_head; exact _.
    - apply when_rel. unfold cmd_init. apply rel_bind; [exact _|apply fp_mkdir|intro]. apply pc_open_init.
    - apply when_rel, rel_cmd_show; exact _.
    - apply when_rel, rel_cmd_log; exact _.
    - apply when_rel, inv_cmd_compare.
    - apply when_rel, inv_status.
    - apply when_rel, rel_cmd_checkout; exact _.
    - apply when_rel, inv_checkout_head.
    - apply when_rel, rel_cmd_ref_log; exact _.
    - eapply when_conseq; [apply when_ref_update|]. intros w [_ S] _. exact S.
  Qed.
  Lemma rel_finish st r : rel inv_rel (finish st r).
  Proof.
    unfold finish. destruct r; repeat (apply rel_bind; [exact _| |intros _]).
    - apply rel_ignore_on; [exact _|apply pc_commit].
    - apply pc_cache_commit.
    - apply rp_print.
    - apply rel_ignore_on; [exact _|apply pc_rollback].
    - apply pc_cache_rollback.
  Qed.
  Lemma rel_setup' cm : rel inv_rel (setup cm).
  Proof.
    unfold setup. apply rel_bind; [exact _|apply rel_open_repo; exact _|intro st]. apply rel_bind; [exact _|apply rel_open_cache; exact _|intros _].
    apply rel_bind; [exact _|apply rel_ignore_on; [exact _|apply pc_begin]|intros _]. apply rel_bind; [exact _|apply pc_cache_begin|intros _]. apply rel_ret; exact _.
  Qed.
  Lemma process_inv cm c w : inv (close_all w) -> (forall st w1, starts cm w st w1 -> ready c w1) ->
    inv (snd (run_process cm c w)).
  Proof.
    intros I H. unfold run_process. rewrite main_split. unfold bind at 1.
    pose proof (rel_setup' cm (close_all w) I) as I1. destruct (setup cm (close_all w)) as [os w1] eqn:S.
    assert (G : inv (snd (match os with Done st => bind (try (run_command cm st c)) (finish st) w1 | Error e => (Error e, w1) | Panicked e => (Panicked e, w1)
      | Crashed => (Crashed, w1) | Diverged => (Diverged, w1) end))).
    { destruct os as [st| | | |]; try exact I1. unfold bind.
      assert (I2 : inv (snd (try (run_command cm st c) w1))).
      { unfold try. pose proof (when_run_command cm st c w1 I1 (H _ _ S)) as X. destruct (run_command cm st c w1) as [[| | | |] w2]; exact X. }
      destruct (try (run_command cm st c) w1) as [[r| | | |] w2]; try exact I2. apply rel_finish, I2. }
    destruct os; cbn [snd] in *;
      match goal with |- context [let '(o, w') := ?m in _] => destruct m as [o w'] end || idtac; 
      (destruct G as [[G1 G2] G3]; split; [split; [exact G1|exact Logic.I]|]; intro NC; destruct (G3 NC) as [G4 G5]; split; [exact G4|exact Logic.I]).
  Qed.
End Shape.
