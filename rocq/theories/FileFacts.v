(** Facts about chunking (src/file.rs), on the level of plans. *)
From Verif Require Import Base BaseFacts Key KeyFacts Object World Store WorldFacts File ObjStoreFacts SpecFile FilePlan.

Section FileFacts.
  Context {E : Env}.

  (** *** Plans *)
  Lemma pbind_done {A B} (p : plan A) (f : A -> plan B) l b :
    pbind p f = (l, Done b) -> exists l1 a l2, p = (l1, Done a) /\ f a = (l2, Done b) /\ l = l1 ++ l2.
  Proof.
    destruct p as [l1 [a|e|x| |]]; cbn; intro H; try discriminate.
    destruct (f a) as [l2 r] eqn:F. inv H. eauto 7.
  Qed.
  Lemma pput_done o l k : pput o = (l, Done k) -> l = [o] /\ k = obj_key o /\ obj_fits o = true.
  Proof. unfold pput. destruct (obj_fits o) eqn:F; intro H; inv H. auto. Qed.
  Lemma pret_done {A} (a b : A) l : pret a = (l, Done b) -> l = [] /\ b = a.
  Proof. intro H. inv H. auto. Qed.

  (** *** The rolling hash *)
  Lemma next_match_some buf : forall h n h', next_match h buf blob_zero_count_bitmask = (Some n, h') ->
    1 <= n <= length buf /\ N.land h' blob_zero_count_bitmask = 0%N /\ (h' < 2 ^ 64)%N.
  Proof.
    induction buf as [|b buf IH]; intros h n h' H; cbn [next_match] in H; [discriminate|].
    destruct (N.land (gear_step h b) blob_zero_count_bitmask =? 0)%N eqn:Ez.
    - inv H. split; [cbn; lia|]. split; [apply N.eqb_eq, Ez|]. apply N.mod_lt. discriminate.
    - destruct (next_match (gear_step h b) buf blob_zero_count_bitmask) as [[m|] h2] eqn:Em; inv H.
      apply IH in Em as (A & B). split; [cbn; lia|exact B].
  Qed.
  Lemma land_small h : (h < 2 ^ 64)%N -> N.land h blob_zero_count_bitmask = 0%N -> (h < 2 ^ 51)%N.
  Proof.
    intros H L. destruct (N.lt_ge_cases h (2 ^ 51)) as [|G]; [assumption|exfalso].
    assert (P : (0 < h)%N) by (eapply N.lt_le_trans; [|exact G]; reflexivity).
    assert (X : N.testbit (N.land h blob_zero_count_bitmask) (N.log2 h) = true).
    { rewrite N.land_spec, N.bit_log2 by lia. cbn [andb].
      change blob_zero_count_bitmask with (N.shiftl (N.ones 13) 51).
      assert (51 <= N.log2 h)%N by (apply N.log2_le_pow2; assumption).
      assert (N.log2 h < 64)%N by (apply N.log2_lt_pow2; assumption).
      rewrite N.shiftl_spec_high' by assumption. apply N.ones_spec_low. lia. }
    rewrite L in X. rewrite N.bits_0 in X. discriminate.
  Qed.
  Lemma match_zeros h : (h < 2 ^ 64)%N -> N.land h blob_zero_count_bitmask = 0%N -> (blob_zero_count <=? leading_zeros h)%N = true.
  Proof.
    intros H L. apply land_small in L; [|exact H]. apply N.leb_le. unfold leading_zeros, blob_zero_count.
    destruct h as [|p]; [cbn; lia|].
    assert (N.size (N.pos p) <= 51)%N; [|lia]. rewrite N.size_log2 by discriminate.
    apply N.log2_lt_pow2 in L; lia.
  Qed.

  Lemma chunk_max_val : N.of_nat chunk_max = 32768%N.
  Proof. unfold chunk_max. rewrite N2Nat.id. reflexivity. Qed.
  Lemma chunk_max_pos : 1 <= chunk_max.
  Proof. pose proof chunk_max_val. lia. Qed.
  Lemma level_max_pos : 1 <= level_max.
  Proof. assert (N.of_nat level_max = 512%N) by (unfold level_max; rewrite N2Nat.id; reflexivity). lia. Qed.
  Local Opaque chunk_max level_max.

  (** *** Key buffers *)
  Lemma kb_set_length kb i l : length (kb_set kb i l) = length kb.
  Proof. revert i. induction kb as [|x kb IH]; intros [|i]; cbn; auto. Qed.
  Lemma kb_get_set kb i j l : i < length kb -> kb_get (kb_set kb i l) j = if Nat.eqb i j then l else kb_get kb j.
  Proof.
    unfold kb_get. revert i j. induction kb as [|x kb IH]; intros i j H; cbn in H; [lia|].
    destruct i, j; cbn; try reflexivity. apply IH. lia.
  Qed.
  Lemma kb_push_length kb i k : length (kb_push kb i k) = length kb.
  Proof. apply kb_set_length. Qed.
  Lemma kb_get_push kb i j k : i < length kb ->
    kb_get (kb_push kb i k) j = if Nat.eqb i j then kb_get kb i ++ [k] else kb_get kb j.
  Proof. intro H. unfold kb_push. rewrite kb_get_set by exact H. reflexivity. Qed.

  (** *** Denotation of a key in terms of the objects put *)
  Fixpoint den (objs : list object) (n : nat) (k : key) (bs : bytes) : Prop :=
    exists o, In o objs /\ obj_key o = k /\
      ((o_type o = FileBlob /\ o_data o = bs) \/
       (o_type o = FileBlobTree /\
        match n with
        | O => False
        | S m => exists parts, Forall2 (den objs m) (o_keys o) parts /\ concat parts = bs
        end)).
  Lemma Forall2_impl' {A B} (P Q : A -> B -> Prop) l l' : (forall a b, P a b -> Q a b) -> Forall2 P l l' -> Forall2 Q l l'.
  Proof. intros H F. induction F; constructor; auto. Qed.
  Lemma den_mono objs objs' n : forall m k bs, n <= m -> incl objs objs' -> den objs n k bs -> den objs' m k bs.
  Proof.
    induction n as [|n IH]; intros m k bs L I (o & H1 & H2 & H3).
    - destruct m; cbn; exists o; (split; [apply I, H1|split; [exact H2|]]); destruct H3 as [H3|[_ []]]; auto.
    - destruct m as [|m]; [lia|]. cbn. exists o. split; [apply I, H1|split; [exact H2|]].
      destruct H3 as [H3|[H3 (parts & H4 & H5)]]; [auto|]. right. split; [exact H3|]. exists parts. split; [|exact H5].
      eapply Forall2_impl'; [|exact H4]. intros a b. apply IH; [lia|exact I].
  Qed.
  Definition lev (objs : list object) (n : nat) (l : list key) (bs : bytes) : Prop :=
    exists parts, Forall2 (den objs n) l parts /\ concat parts = bs.
  Lemma lev_mono objs objs' n m l bs : n <= m -> incl objs objs' -> lev objs n l bs -> lev objs' m l bs.
  Proof. intros L I (p & H1 & H2). exists p. split; [|exact H2]. eapply Forall2_impl'; [|exact H1]. intros. eapply den_mono; eauto. Qed.
  Lemma lev_nil objs n bs : lev objs n [] bs -> bs = [].
  Proof. intros (p & H & <-). inv H. reflexivity. Qed.
  Lemma lev_empty objs n : lev objs n [] [].
  Proof. exists []. split; [constructor|reflexivity]. Qed.
  Lemma lev_one objs n k bs : lev objs n [k] bs <-> den objs n k bs.
  Proof.
    split.
    - intros (p & H & <-). inversion H as [|a b r s H1 H2]. subst. inv H2. cbn. rewrite app_nil_r. exact H1.
    - intro H. exists [bs]. split; [constructor; [exact H|constructor]|]. apply app_nil_r.
  Qed.
  Lemma lev_app objs n a b x y : lev objs n a x -> lev objs n b y -> lev objs n (a ++ b) (x ++ y).
  Proof.
    intros (p & H1 & <-) (q & H2 & <-). exists (p ++ q). split; [apply Forall2_app; assumption|]. apply concat_app.
  Qed.
  Lemma den_tree objs n l bs : lev objs n l bs -> In (Object [] l FileBlobTree) objs ->
    den objs (S n) (obj_key (Object [] l FileBlobTree)) bs.
  Proof. intros (p & H1 & H2) I. cbn. eexists. split; [exact I|]. split; [reflexivity|]. right. split; [reflexivity|]. eauto. Qed.
  Lemma den_blob objs n bs : In (Object bs [] FileBlob) objs -> den objs n (obj_key (Object bs [] FileBlob)) bs.
  Proof. intro I. destruct n; cbn; eexists; (split; [exact I|]); auto. Qed.

  (** Contents of levels [o], ..., [o + m - 1], highest first. *)
  Fixpoint down (c : nat -> bytes) (o m : nat) : bytes :=
    match m with
    | O => []
    | S m' => down c (S o) m' ++ c o
    end.
  Lemma down_ext c c' m : forall o, (forall i, o <= i < o + m -> c i = c' i) -> down c o m = down c' o m.
  Proof.
    induction m as [|m IH]; intros o H; cbn; [reflexivity|]. rewrite (IH (S o)), H by (try intros; try apply H; lia).
    reflexivity.
  Qed.
  Lemma down_nil c m : forall o, (forall i, o <= i < o + m -> c i = []) -> down c o m = [].
  Proof.
    induction m as [|m IH]; intros o H; cbn; [reflexivity|].
    rewrite (IH (S o)), H by (try intros; try apply H; lia). reflexivity.
  Qed.
  Lemma down_last c m : forall o, down c o (S m) = c (o + m) ++ down c o m.
  Proof.
    induction m as [|m IH]; intro o.
    - cbn. rewrite Nat.add_0_r, app_nil_r. reflexivity.
    - change (down c o (S (S m))) with (down c (S o) (S m) ++ c o). rewrite IH. cbn [down].
      rewrite <- app_assoc. replace (S o + m) with (o + S m) by lia. reflexivity.
  Qed.

  (** Levels [0..4] hold contents [c 0..4]. *)
  Definition kbden (objs : list object) (kb : key_bufs) (c : nat -> bytes) : Prop :=
    length kb = 5 /\ forall i, i <= 4 -> lev objs i (kb_get kb i) (c i).
  Lemma kbden_mono objs objs' kb c : incl objs objs' -> kbden objs kb c -> kbden objs' kb c.
  Proof. intros I [L H]. split; [exact L|]. intros i Hi. eapply lev_mono; [reflexivity|exact I|auto]. Qed.
  Definition keys_total (kb : key_bufs) : nat := length (concat kb).
  Lemma keys_total_set kb i l : i < length kb ->
    keys_total (kb_set kb i l) + length (kb_get kb i) = keys_total kb + length l.
  Proof.
    unfold keys_total, kb_get. revert i. induction kb as [|x kb IH]; intros i H; cbn in H; [lia|].
    destruct i; cbn; rewrite !app_length; [lia|]. specialize (IH i ltac:(lia)). lia.
  Qed.
  Lemma keys_total_push kb i k : i < length kb -> keys_total (kb_push kb i k) = S (keys_total kb).
  Proof.
    intro H. unfold kb_push. pose proof (keys_total_set kb i (kb_get kb i ++ [k]) H) as X.
    rewrite app_length in X. cbn in X. lia.
  Qed.

  (** *** The cascade keeps the content *)
  Definition low_empty (kb : key_bufs) (o : nat) : Prop := forall i, i < o -> kb_get kb i = [].
  Lemma cascade_den m : forall o z kb objs c l kb',
    o + m = 4 -> low_empty kb o -> kb_get kb o <> [] -> kbden objs kb c -> (forall i, i < o -> c i = []) ->
    pcascade (seq o m) z kb = (l, Done kb') ->
    keys_total kb' <= keys_total kb /\
    exists c', kbden (objs ++ l) kb' c' /\ down c' 0 5 = down c 0 5.
  Proof.
    induction m as [|m IH]; intros o z kb objs c l kb' Ho HL HN K C H; cbn [seq pcascade] in H.
    - apply pret_done in H as [-> ->]. rewrite app_nil_r. eauto.
    - destruct (_ || _).
      2:{ apply pret_done in H as [-> ->]. rewrite app_nil_r. eauto. }
      apply pbind_done in H as (l1 & k & l2 & H1 & H2 & ->). unfold ptree in H1. apply pput_done in H1 as (-> & -> & F).
      replace (o + 1) with (S o) in H2 by lia. destruct K as [L K]. set (t := Object [] (kb_get kb o) FileBlobTree) in *.
      set (kb1 := kb_push (kb_set kb o []) (S o) (obj_key t)) in *.
      assert (G : forall j, kb_get kb1 j = if Nat.eqb (S o) j then kb_get kb (S o) ++ [obj_key t] else if Nat.eqb o j then [] else kb_get kb j).
      { intro j. unfold kb1. rewrite kb_get_push by (rewrite kb_set_length; lia).
        rewrite !kb_get_set by lia. destruct (Nat.eqb o (S o)) eqn:E1; [apply Nat.eqb_eq in E1; lia|]. reflexivity. }
      set (c1 := fun i => if Nat.eqb i (S o) then c (S o) ++ c o else if Nat.eqb i o then [] else c i).
      assert (T1 : keys_total kb1 <= keys_total kb).
      { unfold kb1. rewrite keys_total_push by (rewrite kb_set_length; lia).
        pose proof (keys_total_set kb o [] ltac:(lia)) as X. cbn in X.
        destruct (kb_get kb o) eqn:Ek; [contradiction|]. cbn in X. lia. }
      edestruct (IH (S o) z kb1 (objs ++ [t]) c1 l2 kb') as (T & c' & B1 & B2); auto; try lia.
      + intros i Hi. rewrite G. destruct (Nat.eqb (S o) i) eqn:E1; [apply Nat.eqb_eq in E1; lia|].
        destruct (Nat.eqb o i) eqn:E2; [reflexivity|]. apply Nat.eqb_neq in E2. apply HL. lia.
      + rewrite G, Nat.eqb_refl. destruct (kb_get kb (S o)); discriminate.
      + split; [unfold kb1; rewrite kb_push_length, kb_set_length; exact L|].
        intros i Hi. rewrite G. unfold c1. cbv beta. rewrite (Nat.eqb_sym i (S o)), (Nat.eqb_sym i o).
        assert (I : incl objs (objs ++ [t])) by (apply incl_appl, incl_refl).
        destruct (Nat.eqb (S o) i) eqn:E1.
        * apply Nat.eqb_eq in E1. subst i. apply lev_app; [eapply lev_mono; [reflexivity|exact I|auto]|].
          apply lev_one. apply den_tree; [|apply in_or_app; right; left; reflexivity].
          eapply lev_mono; [reflexivity|exact I|]. apply K. lia.
        * destruct (Nat.eqb o i); [apply lev_empty|]. eapply lev_mono; [reflexivity|exact I|auto].
      + intros i Hi. unfold c1. destruct (Nat.eqb i (S o)) eqn:E1; [apply Nat.eqb_eq in E1; lia|].
        destruct (Nat.eqb i o) eqn:E2; [reflexivity|]. apply Nat.eqb_neq in E2. apply C. lia.
      + split; [lia|]. exists c'. rewrite <- app_assoc in B1. split; [exact B1|]. rewrite B2.
        clear -C Ho. unfold c1.
        assert (o = 0 \/ o = 1 \/ o = 2 \/ o = 3) as D by lia.
        destruct D as [->|[->|[->| ->]]]; cbn; rewrite ?(C 0), ?(C 1), ?(C 2) by lia; rewrite ?app_nil_r, <- ?app_assoc; reflexivity.
  Qed.

  (** *** Invariant of the loop *)
  Record inv (objs : list object) (st : pd_state) (data : bytes) : Prop := Inv {
    iv_c : exists c, kbden objs (pd_kb st) c /\ data = down c 0 5 ++ pd_cur st ++ pd_buf st /\
             keys_total (pd_kb st) <= length (down c 0 5)
  }.
  Lemma inv_init : inv [] pd_init [].
  Proof.
    constructor. exists (fun _ => []). split; [|split; [reflexivity|cbn; lia]]. split; [reflexivity|].
    intros i Hi. destruct i as [|[|[|[|[|]]]]]; try apply lev_empty. lia.
  Qed.
  Lemma cut_inv objs st b data l st' : inv objs st data -> pcut st b = (l, Done st') ->
    inv (objs ++ l) st' data /\ length (pd_buf st') = length (pd_buf st) - b.
  Proof.
    intros [(c & K & D & T)] H. unfold pcut in H. destruct (Nat.ltb (length (pd_buf st)) b) eqn:Eb; [discriminate|].
    cbv zeta in H. destruct (negb _); [discriminate|].
    destruct (Nat.leb chunk_max _) eqn:Em.
    - apply pbind_done in H as (l1 & k & l2 & H1 & H & ->). unfold pblob in H1. apply pput_done in H1 as (-> & -> & F).
      apply pbind_done in H as (l3 & kb' & l4 & H1 & H & ->). apply pret_done in H as [-> ->].
      set (cur := pd_cur st ++ firstn b (pd_buf st)) in *. set (o := Object cur [] FileBlob) in *.
      assert (L5 : length (pd_kb st) = 5) by apply K.
      set (c1 := fun i => match i with O => c 0 ++ cur | _ => c i end).
      edestruct (cascade_den 4 0 (leading_zeros (pd_hash st)) (kb_push (pd_kb st) 0 (obj_key o)) (objs ++ [o]) c1 l3 kb')
        as (T2 & c' & B1 & B2); auto.
      + intros i Hi. lia.
      + rewrite kb_get_push by lia. cbn. destruct (kb_get (pd_kb st) 0); discriminate.
      + split; [rewrite kb_push_length; exact L5|]. intros i Hi. rewrite kb_get_push by lia.
        destruct K as [_ K]. assert (I : incl objs (objs ++ [o])) by (apply incl_appl, incl_refl).
        destruct i as [|i]; cbn [Nat.eqb c1].
        * apply lev_app; [eapply lev_mono; [reflexivity|exact I|apply K; lia]|]. apply lev_one.
          apply den_blob. apply in_or_app. right. left. reflexivity.
        * eapply lev_mono; [reflexivity|exact I|apply K; lia].
      + intros i Hi. lia.
      + rewrite keys_total_push in T2 by lia.
        assert (DD : down c1 0 5 = down c 0 5 ++ cur).
        { cbn. rewrite <- !app_assoc. reflexivity. }
        split; [|cbn [pd_buf]; apply skipn_length].
        constructor. exists c'. cbn [pd_kb pd_cur pd_buf]. rewrite app_nil_r, <- app_assoc in *.
        split; [exact B1|]. rewrite B2, DD. split.
        * rewrite D. unfold cur. rewrite <- !app_assoc. cbn [app]. rewrite firstn_skipn. reflexivity.
        * rewrite app_length. apply Nat.leb_le in Em. pose proof chunk_max_pos. unfold byte in *. lia.
    - apply pret_done in H as [-> ->]. rewrite app_nil_r. split; [|cbn [pd_buf]; apply skipn_length].
      constructor. exists c. cbn [pd_kb pd_cur pd_buf]. split; [exact K|]. split; [|exact T].
      rewrite D, <- !app_assoc, firstn_skipn. reflexivity.
  Qed.
  Lemma loop_inv f : forall objs st reads data l st', inv objs st data -> ploop f st reads = (l, Done st') ->
    snd (stream reads) = false /\ inv (objs ++ l) st' (data ++ fst (stream reads)) /\ pd_buf st' = [].
  Proof.
    induction f as [|f IH]; intros objs st reads data l st' I H; cbn [ploop] in H; [discriminate|].
    destruct (next_match _ _ _) as [hm h]. cbv zeta in H. cbn [pd_buf pd_kb pd_cur] in H.
    match type of H with context [match ?x with Some _ => _ | None => _ end] => destruct x as [b|] end.
    - apply pbind_done in H as (l1 & st1 & l2 & H1 & H & ->).
      assert (I1 : inv objs (PD (pd_kb st) (pd_buf st) (pd_cur st) h) data) by (destruct I; constructor; assumption).
      apply (cut_inv _ _ _ _ _ _ I1) in H1 as [I2 _]. rewrite app_assoc. eapply IH; eassumption.
    - assert (I1 : forall d x, inv objs (PD (pd_kb st) d (pd_cur st ++ pd_buf st) x) (data ++ d)).
      { intros d x. destruct I as [(c & K & D & T)]. constructor. exists c. cbn [pd_kb pd_cur pd_buf].
        split; [exact K|]. split; [|exact T]. rewrite D, <- !app_assoc. reflexivity. }
      destruct reads as [|[[|x d]| |] r]; cbn [stream].
      + apply pret_done in H as [-> ->]. rewrite app_nil_r. auto.
      + apply pret_done in H as [-> ->]. rewrite app_nil_r. auto.
      + specialize (IH _ _ _ _ _ _ (I1 (x :: d) h) H). destruct (stream r) as [s e]. cbn [fst snd] in *.
        rewrite app_assoc. exact IH.
      + specialize (IH _ _ _ _ _ _ (I1 [] h) H). rewrite app_nil_r in IH. exact IH.
      + discriminate.
  Qed.

  (** *** Folding the levels at the end *)
  Definition pfin (x : option key * key_bufs) : plan key :=
    match x with (Some k, _) => pret k | (None, kb') => ptree (kb_get kb' 4) end.
  Definition empty_at (kb : key_bufs) (x : nat) : bool := match kb_get kb x with [] => true | _ => false end.
  Lemma pfold_cons o m kb l k : o + S m = 4 -> length kb = 5 ->
    pbind (pfold (seq o (S m)) kb) pfin = (l, Done k) ->
    let t := Object [] (kb_get kb o) FileBlobTree in
    exists l2, l = t :: l2 /\ obj_fits t = true /\
    ((kb_get kb o = [k] /\ forallb (empty_at kb) (seq (S o) m) = true) \/
     (~ (exists k0, kb_get kb o = [k0] /\ forallb (empty_at kb) (seq (S o) m) = true) /\
      pbind (pfold (seq (S o) m) (kb_push kb (S o) (obj_key t))) pfin = (l2, Done k))).
  Proof.
    intros Ho L H t. apply pbind_done in H as (l1 & r & l2 & H & H2 & ->). cbn [seq pfold] in H.
    apply pbind_done in H as (l3 & k1 & l4 & H & H1 & ->). apply pput_done in H as (-> & -> & F).
    fold t in H1, F. replace (4 - (1 + o)) with m in H1 by lia. replace (o + 1) with (S o) in H1 by lia.
    change (seq (1 + o) m) with (seq (S o) m) in H1.
    exists (l4 ++ l2). split; [reflexivity|]. split; [exact F|].
    assert (R : forall p, p = (l4, Done r) -> pbind p pfin = (l4 ++ l2, Done k)).
    { intros p ->. cbn [pbind]. rewrite H2. reflexivity. }
    fold t. destruct (kb_get kb o) as [|k0 [|k2 kr]] eqn:Ek.
    - right. split; [intros (x & X & _); discriminate|]. apply R, H1.
    - change (fun x : nat => match kb_get kb x with | [] => true | _ :: _ => false end) with (empty_at kb) in H1.
      destruct (forallb (empty_at kb) (seq (S o) m)) eqn:Ef.
      + left. apply pret_done in H1 as [-> ->]. apply pret_done in H2 as [-> ->]. auto.
      + right. split; [intros (x & _ & X); discriminate|]. apply R, H1.
    - right. split; [intros (x & X & _); discriminate|]. apply R, H1.
  Qed.
  Lemma push_step objs o kb c : length kb = 5 -> S o <= 4 -> (forall i, o <= i <= 4 -> lev objs i (kb_get kb i) (c i)) ->
    let t := Object [] (kb_get kb o) FileBlobTree in
    forall i, S o <= i <= 4 ->
      lev (objs ++ [t]) i (kb_get (kb_push kb (S o) (obj_key t)) i) (if Nat.eqb i (S o) then c (S o) ++ c o else c i).
  Proof.
    intros L Ho K t i Hi. rewrite kb_get_push by lia. rewrite (Nat.eqb_sym i).
    assert (I : incl objs (objs ++ [t])) by (apply incl_appl, incl_refl).
    destruct (Nat.eqb (S o) i) eqn:E1.
    - apply Nat.eqb_eq in E1. subst i. apply lev_app; [eapply lev_mono; [reflexivity|exact I|apply K; lia]|].
      apply lev_one, den_tree; [|apply in_or_app; right; left; reflexivity].
      eapply lev_mono; [reflexivity|exact I|apply K; lia].
    - eapply lev_mono; [reflexivity|exact I|apply K; lia].
  Qed.
  Lemma down_push c o m : down (fun i => if Nat.eqb i (S o) then c (S o) ++ c o else c i) (S o) (S m) = down c o (S (S m)).
  Proof.
    cbn [down]. rewrite Nat.eqb_refl. rewrite <- app_assoc. f_equal. apply down_ext. intros i Hi.
    destruct (Nat.eqb i (S o)) eqn:E1; [apply Nat.eqb_eq in E1; lia|reflexivity].
  Qed.
  Lemma empty_range kb c objs o m : (forall i, o <= i <= 4 -> lev objs i (kb_get kb i) (c i)) -> o + S m <= 5 ->
    forallb (empty_at kb) (seq (S o) m) = true -> forall i, S o <= i < S o + m -> kb_get kb i = [] /\ c i = [].
  Proof.
    intros K Ho H i Hi. rewrite forallb_forall in H. specialize (H i ltac:(apply in_seq; lia)). unfold empty_at in H.
    destruct (kb_get kb i) eqn:Ek; [|discriminate]. split; [reflexivity|]. apply (lev_nil objs i). rewrite <- Ek. apply K. lia.
  Qed.

  Lemma pfold_keeps m : forall o kb objs c l k,
    o + m = 4 -> length kb = 5 -> (forall i, o <= i <= 4 -> lev objs i (kb_get kb i) (c i)) ->
    (m = 0 \/ kb_get kb 4 = [] \/ (if Nat.eqb m 1 then length (kb_get kb 3) <> 1 else kb_get kb 3 <> [])) ->
    pbind (pfold (seq o m) kb) pfin = (l, Done k) ->
    den (objs ++ l) 5 k (down c o (S m)).
  Proof.
    induction m as [|m IH]; intros o kb objs c l k Ho L K NL H.
    - assert (o = 4) by lia. subst o. apply pbind_done in H as (l1 & r & l2 & H1 & H & ->). cbn [seq pfold] in H1.
      apply pret_done in H1 as [-> ->]. apply pput_done in H as (-> & -> & F).
      cbn [down app]. apply den_tree; [|apply in_or_app; right; left; reflexivity].
      eapply lev_mono; [reflexivity| |apply K; lia]. apply incl_appl, incl_refl.
    - destruct (pfold_cons _ _ _ _ _ Ho L H) as (l2 & -> & F & [[G1 G2]|[G1 G2]]).
      + assert (X := empty_range kb c objs o m K ltac:(lia) G2).
        assert (Z : forall i, S o <= i < S o + S m -> c i = []).
        { intros i Hi. destruct (Nat.eq_dec i 4) as [->|N4].
          - apply (lev_nil objs 4). destruct NL as [NL|[NL|NL]]; [discriminate|rewrite <- NL; apply K; lia|].
            exfalso. destruct (Nat.eqb (S m) 1) eqn:E1.
            + apply Nat.eqb_eq in E1. assert (o = 3) by lia. subst o. rewrite G1 in NL. cbn in NL. lia.
            + apply Nat.eqb_neq in E1. destruct (X 3 ltac:(lia)). contradiction.
          - apply X. lia. }
        cbn [down]. assert (D := down_nil c (S m) (S o) Z). cbn [down] in D. rewrite D. cbn [app].
        apply (den_mono objs _ o); [lia|apply incl_appl, incl_refl|]. apply lev_one. rewrite <- G1. apply K. lia.
      + set (t := Object [] (kb_get kb o) FileBlobTree) in *.
        specialize (IH (S o) (kb_push kb (S o) (obj_key t)) (objs ++ [t])
          (fun i => if Nat.eqb i (S o) then c (S o) ++ c o else c i) l2 k ltac:(lia)).
        rewrite <- app_assoc in IH. cbn [app] in IH. rewrite down_push in IH. apply IH; auto.
        * rewrite kb_push_length. exact L.
        * apply push_step; auto. lia.
        * destruct m as [|m]; [left; reflexivity|]. right. destruct NL as [NL|[NL|NL]]; [discriminate| |].
          -- left. rewrite kb_get_push by lia. destruct (Nat.eqb (S o) 4) eqn:E1; [apply Nat.eqb_eq in E1; lia|exact NL].
          -- right. cbn [Nat.eqb] in NL. rewrite kb_get_push by lia. destruct (Nat.eqb (S m) 1) eqn:E2.
             ++ apply Nat.eqb_eq in E2. assert (S o = 3) by lia. rewrite H0, Nat.eqb_refl. rewrite app_length. cbn.
                destruct (kb_get kb 3); [contradiction|cbn; lia].
             ++ apply Nat.eqb_neq in E2. destruct (Nat.eqb (S o) 3) eqn:E3; [apply Nat.eqb_eq in E3; lia|exact NL].
  Qed.
  Lemma pfold_loses m : forall o kb objs c l k,
    o + m = 4 -> 1 <= m -> length kb = 5 -> (forall i, o <= i <= 4 -> lev objs i (kb_get kb i) (c i)) ->
    (if Nat.eqb m 1 then length (kb_get kb 3) = 1 else kb_get kb 3 = []) ->
    pbind (pfold (seq o m) kb) pfin = (l, Done k) ->
    den (objs ++ l) 5 k (down c o m).
  Proof.
    induction m as [|m IH]; intros o kb objs c l k Ho Hm L K NL H; [lia|].
    destruct (pfold_cons _ _ _ _ _ Ho L H) as (l2 & -> & F & [[G1 G2]|[G1 G2]]).
    - assert (X := empty_range kb c objs o m K ltac:(lia) G2).
      cbn [down]. rewrite down_nil by (intros i Hi; apply X; lia). cbn [app].
      apply (den_mono objs _ o); [lia|apply incl_appl, incl_refl|]. apply lev_one. rewrite <- G1. apply K. lia.
    - destruct m as [|m].
      { exfalso. cbn [Nat.eqb] in NL. assert (o = 3) by lia. subst o. apply G1.
        destruct (kb_get kb 3) as [|x [|]]; try discriminate. exists x. split; reflexivity. }
      set (t := Object [] (kb_get kb o) FileBlobTree) in *.
      specialize (IH (S o) (kb_push kb (S o) (obj_key t)) (objs ++ [t])
        (fun i => if Nat.eqb i (S o) then c (S o) ++ c o else c i) l2 k ltac:(lia) ltac:(lia)).
      rewrite <- app_assoc in IH. cbn [app] in IH. rewrite down_push in IH. apply IH; auto.
      + rewrite kb_push_length. exact L.
      + apply push_step; auto. lia.
      + cbn [Nat.eqb] in NL. rewrite kb_get_push by lia. destruct (Nat.eqb (S m) 1) eqn:E2.
        * apply Nat.eqb_eq in E2. assert (S o = 3) by lia. rewrite H0, Nat.eqb_refl, NL. reflexivity.
        * apply Nat.eqb_neq in E2. destruct (Nat.eqb (S o) 3) eqn:E3; [apply Nat.eqb_eq in E3; lia|exact NL].
  Qed.

  (** *** The end of [put_data] *)
  Definition loses (kb : key_bufs) : Prop := kb_get kb 4 <> [] /\ kb_get kb 3 = [].
  Lemma push_blob (kb0 kb : key_bufs) l o : pbind (pput o) (fun k => pret (kb_push kb0 0 k)) = (l, Done kb) ->
    l = [o] /\ kb = kb_push kb0 0 (obj_key o).
  Proof.
    intro H. apply pbind_done in H as (l3 & k0 & l4 & H1 & H3 & ->). apply pput_done in H1 as (-> & -> & F).
    apply pret_done in H3 as [-> ->]. auto.
  Qed.
  Lemma last_blob objs kb0 cur c l kb : length kb0 = 5 -> (forall i, 0 <= i <= 4 -> lev objs i (kb_get kb0 i) (c i)) ->
    match cur with
    | [] => pret kb0
    | _ => pbind (pput (Object cur [] FileBlob)) (fun k => pret (kb_push kb0 0 k))
    end = (l, Done kb) ->
    kb_get kb 4 = kb_get kb0 4 /\ kb_get kb 3 = kb_get kb0 3 /\ length kb = 5 /\
    exists c', (forall i, 0 <= i <= 4 -> lev (objs ++ l) i (kb_get kb i) (c' i)) /\ down c' 0 5 = down c 0 5 ++ cur /\ c' 4 = c 4.
  Proof.
    intros L K H. destruct cur as [|x cur].
    - apply pret_done in H as [-> ->]. split; [reflexivity|]. split; [reflexivity|]. split; [exact L|].
      exists c. rewrite !app_nil_r. split; [exact K|]. split; reflexivity.
    - apply push_blob in H as [-> ->]. rewrite (kb_get_push kb0 0 4), (kb_get_push kb0 0 3) by lia. rewrite kb_push_length.
      split; [reflexivity|]. split; [reflexivity|]. split; [exact L|].
      exists (fun i => match i with O => c 0 ++ (x :: cur) | _ => c i end).
      split; [|split; [|reflexivity]].
      + intros i Hi. rewrite kb_get_push by lia.
        assert (I : incl objs (objs ++ [Object (x :: cur) [] FileBlob])) by (apply incl_appl, incl_refl).
        destruct i as [|i]; cbn [Nat.eqb].
        * apply lev_app; [eapply lev_mono; [reflexivity|exact I|apply K; lia]|]. apply lev_one, den_blob.
          apply in_or_app. right. left. reflexivity.
        * eapply lev_mono; [reflexivity|exact I|apply K; lia].
      + cbn [down]. rewrite <- !app_assoc. reflexivity.
  Qed.
  Lemma pfinish_eq st : pd_buf st = [] -> pfinish st =
    if forallb (empty_at (pd_kb st)) (seq 0 4) then pblob (pd_cur st)
    else pbind (match pd_cur st with
                | [] => pret (pd_kb st)
                | _ => pbind (pput (Object (pd_cur st) [] FileBlob)) (fun k => pret (kb_push (pd_kb st) 0 k))
                end) (fun kb => pbind (pfold (seq 0 4) kb) pfin).
  Proof. intro B. unfold pfinish. rewrite B, app_nil_r. reflexivity. Qed.
  Lemma finish_den objs st data l k : inv objs st data -> pd_buf st = [] -> pfinish st = (l, Done k) ->
    (~ loses (pd_kb st) -> den (objs ++ l) 5 k data) /\
    (loses (pd_kb st) -> exists lost kept, data = lost ++ kept /\ lev objs 4 (kb_get (pd_kb st) 4) lost /\ den (objs ++ l) 5 k kept).
  Proof.
    intros [(c & [L K] & D & T)] B H. rewrite pfinish_eq in H by exact B. rewrite B, app_nil_r in D.
    destruct (forallb (empty_at (pd_kb st)) (seq 0 4)) eqn:Ef.
    - apply pput_done in H as (-> & -> & F).
      assert (Z : forall i, i < 4 -> kb_get (pd_kb st) i = [] /\ c i = []).
      { intros i Hi. rewrite forallb_forall in Ef. specialize (Ef i ltac:(apply in_seq; lia)). unfold empty_at in Ef.
        destruct (kb_get (pd_kb st) i) eqn:Ek; [|discriminate]. split; [reflexivity|]. apply (lev_nil objs i). rewrite <- Ek. apply K. lia. }
      assert (DD : down c 0 5 = c 4).
      { cbn. destruct (Z 0 ltac:(lia)) as [_ ->], (Z 1 ltac:(lia)) as [_ ->], (Z 2 ltac:(lia)) as [_ ->], (Z 3 ltac:(lia)) as [_ ->].
        rewrite !app_nil_r. reflexivity. }
      rewrite DD in D.
      assert (DB : den (objs ++ [Object (pd_cur st) [] FileBlob]) 5 (obj_key (Object (pd_cur st) [] FileBlob)) (pd_cur st)).
      { apply den_blob. apply in_or_app. right. left. reflexivity. }
      split.
      + intro NL. assert (c 4 = []).
        { apply (lev_nil objs 4). specialize (K 4 ltac:(lia)). destruct (kb_get (pd_kb st) 4) eqn:E4; [exact K|].
          exfalso. apply NL. split; [congruence|]. apply Z. lia. }
        rewrite D, H. exact DB.
      + intros _. exists (c 4), (pd_cur st). split; [exact D|]. split; [apply K; lia|exact DB].
    - apply pbind_done in H as (l1 & kb & l2 & H1 & H & ->).
      (* the buffers after the last blob was added *)
      destruct (last_blob _ _ _ _ _ _ L (fun i Hi => K i (proj2 Hi)) H1) as (A4 & A3 & LL & c' & K' & D' & C4).
      rewrite <- D in D'.
      rewrite app_assoc. split.
      + intro NL. rewrite <- D'. eapply (pfold_keeps 4 0 kb); auto. right.
        unfold loses in NL. rewrite A4, A3. cbn [Nat.eqb]. destruct (kb_get (pd_kb st) 4) eqn:E4; [left; reflexivity|].
        right. intro. apply NL. split; [discriminate|assumption].
      + intros [N4 N3]. exists (c' 4), (down c' 0 4). split; [rewrite <- D'; apply (down_last c' 4 0)|].
        split; [rewrite C4; apply K; lia|]. eapply (pfold_loses 4 0 kb); auto. cbn [Nat.eqb]. rewrite A3. exact N3.
  Qed.
  Lemma data_den reads l k : pdata reads = (l, Done k) ->
    exists l1 l2 st, ploop (reads_weight reads) pd_init reads = (l1, Done st) /\ pfinish st = (l2, Done k) /\ l = l1 ++ l2 /\
      snd (stream reads) = false /\
      (~ loses (pd_kb st) -> den l 5 k (fst (stream reads))) /\
      (loses (pd_kb st) -> exists lost kept, fst (stream reads) = lost ++ kept /\ lev l1 4 (kb_get (pd_kb st) 4) lost /\ den l 5 k kept).
  Proof.
    intro H. apply pbind_done in H as (l1 & st & l2 & H1 & H2 & ->). exists l1, l2, st.
    destruct (loop_inv _ _ _ _ _ _ _ inv_init H1) as (S1 & I & B). cbn [app] in I.
    destruct (finish_den _ _ _ _ _ I B H2) as [F1 F2]. split; [exact H1|]. split; [exact H2|]. split; [reflexivity|]. split; [exact S1|]. split; [exact F1|exact F2].
  Qed.
End FileFacts.
