(** What fetching can change, whatever is stored and whatever fails. *)
From Verif Require Import Base BaseFacts Key Cbor CborFacts Object ObjectFacts Path World WorldFacts Store File Filter Dir SpecStore StoreCalls SpecRun SpecFile SpecDir
  Frame DbRel Integrity ObjStoreFacts SessionFacts FilePlan FileFacts ChunkFacts FileRun FsFacts DirPlan DirFacts GetFacts DirTrip.
From Coq Require Import RelationClasses.

Section FetchSafe.
  Context {E : Env}.
  Notation ds := sqlite_ds.
  Context (f0 : fs) (cwd0 : loc) (A : loc -> option entry -> Prop).

  (** Every location is as before, or was empty and is allowed to be as it is. *)
  Definition chg (f : fs) : Prop := forall x, lookup f x = lookup f0 x \/ (lookup f0 x = None /\ A x (lookup f x)).
  Definition inside (w : world) : Prop := w_cwd w = cwd0 /\ chg (w_fs w).
  Definition stays (w w' : world) : Prop := inside w -> inside w'.
  Instance stays_pre : PreOrder stays.
  Proof. split; [intros w H; exact H|intros a b c H K I; auto]. Qed.
  Lemma op_stays {B} (eff : fault -> M B) : (forall fl, rel stays (eff fl)) -> rel stays (op eff).
  Proof.
    intros H w I. destruct (op_case eff w) as (fl & w1 & E1 & T). rewrite E1. apply H. destruct T as (? & ? & ->). exact I.
  Qed.
  Instance stays_rd : RdPrims stays.
  Proof.
    split; try exact _; intros.
    - apply op_stays. intros [| | |] w I; exact I.
    - apply op_stays. intros [| | |] w I; exact I.
    - apply op_stays. intros [| | |] w I; exact I.
    - apply op_stays. intros fl w I. destruct fl; try exact I. destruct (q (w_fs w) (w_cwd w)); exact I.
    - apply op_stays. intros fl w I. destruct (stat (w_fs w) (w_cwd w) p) as [[? [| | |]]|]; destruct fl as [|[|]| |]; exact I.
    - apply op_stays. intros fl w I. destruct (stat (w_fs w) (w_cwd w) p) as [[? [| | |]]|]; destruct fl as [|[|]| |]; exact I.
  Qed.
  Lemma chg_set f l e : l <> [] -> chg f -> lookup f0 l = None -> A l (Some e) -> chg (fs_set f l e).
  Proof.
    intros N C L H x. destruct (loc_eq_dec x l) as [->|D]; [right; rewrite lookup_set_same by exact N; auto|].
    rewrite lookup_set_other by assumption. apply C.
  Qed.
  Lemma fs_change_stays {B} full part : 
    (forall f t (a : B) f', chg f -> full f cwd0 t = Some (a, f') -> chg f') ->
    (forall n f t, chg f -> chg (part n f cwd0 t)) -> rel stays (fs_change full part).
  Proof.
    intros H1 H2. apply op_stays. intros fl w [C I]. rewrite C. destruct (full (w_fs w) cwd0 (w_tick w)) as [[a f']|] eqn:Q.
    - destruct fl; (split; [exact C|]); cbn; [eapply H1; eauto| |exact I|]; apply H2, I.
    - destruct fl; split; assumption.
  Qed.
  Lemma mkdirs_chg p : (forall a b, p_comps p = a ++ b -> A (fold_left step_comp a (base_loc cwd0 p)) (Some EDir)) ->
    forall n f f', chg f -> mkdirs n f (base_loc cwd0 p) (p_comps p) = Some f' -> chg f'.
  Proof.
    intros H n f f' C M x. apply mkdirs_adds in M. destruct (M x) as [X|(X1 & X2 & a & b & Hc & Hx)]; [rewrite X; apply C|].
    destruct (C x) as [C1|(C1 & C2)]; right; (split; [congruence|]); rewrite X2; subst x; eapply H; eauto.
  Qed.
  Lemma create_dir_stays p : (forall a b, p_comps p = a ++ b -> A (fold_left step_comp a (base_loc cwd0 p)) (Some EDir)) ->
    rel stays (fs_create_dir_all p).
  Proof.
    intro H. unfold fs_create_dir_all. destruct (is_empty_path p); [intros w I; exact I|]. apply fs_change_stays.
    - intros f t a f' C Q. destruct (mkdirs None f (base_loc cwd0 p) (p_comps p)) eqn:M; inv Q. eapply mkdirs_chg; eauto.
    - intros n f t C. destruct (mkdirs (Some n) f (base_loc cwd0 p) (p_comps p)) eqn:M; [|exact C]. eapply mkdirs_chg; eauto.
  Qed.
  Lemma chg_none f l : chg f -> lookup f l = None -> lookup f0 l = None.
  Proof. intros C L. destruct (C l) as [X|[X _]]; congruence. Qed.
  Lemma create_new_stays p : (forall e, A (locate cwd0 p) (Some e)) -> rel stays (fs_create_new p).
  Proof.
    intro H. assert (K : forall f t a f', chg f -> create_new_eff p f cwd0 t = Some (a, f') -> chg f').
    { intros f t a f' C Q. unfold create_new_eff in Q. destruct (resolve f cwd0 p) as [l|] eqn:R; [|discriminate].
      destruct (p_slash p); [discriminate|]. destruct (lookup f l) eqn:L; inv Q. apply chg_set; auto.
      - intros ->. discriminate.
      - eapply chg_none; eauto.
      - rewrite (resolve_locate _ _ _ _ R). apply H. }
    apply fs_change_stays; [eauto|]. intros [|n] f t C; [exact C|]. destruct (create_new_eff p f cwd0 t) as [[? f']|] eqn:Q; [|exact C]. eapply K; eauto.
  Qed.
  Lemma append_chg l d f t : l <> [] -> lookup f0 l = None -> (forall e, A l (Some e)) -> chg f -> chg (append l d f t).
  Proof. intros N L H C. unfold append. destruct (lookup f l) as [[| | |]|]; try exact C. apply chg_set; auto. Qed.
  Lemma write_stays l d : l <> [] -> lookup f0 l = None -> (forall e, A l (Some e)) -> rel stays (fs_write l d).
  Proof.
    intros N L H. apply fs_change_stays.
    - intros f t a f' C Q. inv Q. apply append_chg; auto.
    - intros n f t C. apply append_chg; auto.
  Qed.

  (** What is stored does not change. *)
  Lemma read_cur l g : forall c u w u' w', read_data ds (file_write l) g c u w = (Done u', w') -> cur_db w' = cur_db w.
  Proof.
    induction g as [|g IH]; intros c u w u' w' M; [discriminate|]. cbn [read_data] in M.
    apply bind_done in M as (o & w1 & M1 & M). apply get_obj_done in M1 as (T & _). rewrite <- (cur_ticked _ _ T). clear T.
    destruct (o_type o); try discriminate.
    - revert u w1 M. induction (o_keys o) as [|k r IHr]; intros u w1 M; [inv M; reflexivity|].
      apply bind_done in M as (u1 & w2 & M1 & M2). rewrite <- (IH _ _ _ _ _ M1). eapply IHr, M2.
    - apply write_done in M as (O & _). apply only_cur, O.
    - destruct (o_keys o) as [|k [|]]; try discriminate. eapply IH, M.
  Qed.

  (** The item stored under a key. *)
  Definition db_item (d : db) (k : key) : option fsitem :=
    match assoc (as_db_key k) (d_data d) with
    | Some v => match decode_object v with Some o => fsitem_of_object o | None => None end
    | None => None
    end.
  Lemma get_fsitem_item k w i w' : get_fsitem ds k w = (Done i, w') -> db_item (cur_db w) k = Some i.
  Proof. intro H. apply get_fsitem_done in H as (_ & o & H1 & v & H2 & H3). unfold db_item. rewrite H2, H3. exact H1. Qed.

  Context (d0 : db) (Okp : key -> path -> Prop)
    (Ok_file : forall k p i, Okp k p -> db_item d0 k = Some i -> fi_type i = ItFile ->
       (forall e, A (locate cwd0 p) (Some e)) /\ forall a b, p_comps p = a ++ b -> b <> [] -> A (fold_left step_comp a (base_loc cwd0 p)) (Some EDir))
    (Ok_dir : forall k p i c n, Okp k p -> db_item d0 k = Some i -> fi_type i = ItDir ->
       In (c, n) (combine (fi_children i) (fi_names i)) -> Okp c (join_name p n)).

  Lemma bind_stays {B C} (m : M B) (f : B -> M C) w : rel stays m -> inside w ->
    (forall b w', m w = (Done b, w') -> inside w' -> inside (snd (f b w'))) -> inside (snd (bind m f w)).
  Proof.
    intros H I K. specialize (H w I). unfold bind. destruct (m w) as [[b| | | |] w'] eqn:Q; try exact H. apply K; auto.
  Qed.
  Lemma get_fs_stays fuel : forall k p w, cur_db w = d0 -> Okp k p -> inside w ->
    inside (snd (get_fs_item ds fuel k p w)) /\ (fst (get_fs_item ds fuel k p w) = Done tt -> cur_db (snd (get_fs_item ds fuel k p w)) = d0).
  Proof.
    induction fuel as [|g IH]; intros k p w Hd Ok I; [split; [exact I|discriminate]|]. rewrite get_fs_item_eq.
    assert (Db : forall (i : fsitem) w1, get_fsitem ds k w = (Done i, w1) -> cur_db w1 = d0 /\ db_item d0 k = Some i).
    { intros i w1 H. split; [|rewrite <- Hd; eapply get_fsitem_item, H]. apply get_fsitem_done in H as (T & _). rewrite (cur_ticked _ _ T). exact Hd. }
    unfold bind at 1 2 3. pose proof (rel_get_fsitem stays k w I) as I1. destruct (get_fsitem ds k w) as [[i| | | |] w1] eqn:Q; try (split; [exact I1|discriminate]).
    cbn [snd] in I1. destruct (Db i w1 eq_refl) as [Hd1 It]. clear Db. destruct (fi_type i) eqn:Ty.
    - pose proof (fun c n => Ok_dir k p i c n Ok It Ty) as Kids. clear It Ok Q Hd I. revert w1 I1 Hd1 Kids.
      induction (combine (fi_children i) (fi_names i)) as [|[c n] l IHl]; intros w1 I1 Hd1 Kids; cbn [get_each]; [split; [exact I1|auto]|].
      destruct (IH c (join_name p n) w1 Hd1 (Kids _ _ (or_introl eq_refl)) I1) as [I2 D2]. unfold bind.
      destruct (get_fs_item ds g c (join_name p n) w1) as [[[]| | | |] w2]; try (split; [exact I2|discriminate]).
      apply IHl; auto. intros c' n' H. apply Kids. right. exact H.
    - destruct (Ok_file k p i Ok It Ty) as [A1 A2]. split.
      + unfold make_file. apply bind_stays; auto.
        { unfold parent. destruct (p_comps p) as [|c0 cs0] eqn:Ec; [intros x X; exact X|]. apply create_dir_stays. cbn [p_comps]. intros a b Hab.
          apply (A2 a (b ++ [last (c0 :: cs0) c0])); [|destruct b; discriminate]. rewrite app_assoc, <- Hab. apply app_removelast_last. discriminate. }
        intros [] w2 _ I2. apply bind_stays; auto; [apply create_new_stays, A1|]. intros l w3 H3 I3.
        apply create_new_done in H3 as (_ & R & _ & L & _). rewrite (proj1 I2) in R. pose proof (resolve_locate _ _ _ _ R) as ->.
        pose proof (chg_none _ _ (proj2 I2) L) as L0. unfold write_item_data. destruct (fi_children i) as [|c r]; [exact I3|].
        refine (rel_read_data stays _ _ _ _ _ _ I3). intros s d. unfold file_write. apply write_stays; auto. intros N. rewrite N in L. discriminate.
      + intro H. destruct (make_file g i p w1) as [[[]| | | |] w'] eqn:M; try discriminate. cbn [snd]. clear H.
        unfold make_file in M. apply bind_done in M as ([] & w2 & M1 & M). apply bind_done in M as (l & w3 & M2 & M3).
        apply create_new_done in M2 as (O2 & _). rewrite <- Hd1.
        assert (O1 : fs_only w1 w2) by (destruct (parent p); [apply mkdir_done in M1; tauto|inv M1; apply fs_only_refl]).
        rewrite <- (only_cur _ _ O1), <- (only_cur _ _ O2). unfold write_item_data in M3. destruct (fi_children i) as [|c r]; [discriminate|].
        eapply read_cur, M3.
  Qed.
End FetchSafe.
