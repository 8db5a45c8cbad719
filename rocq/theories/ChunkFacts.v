(** Facts about chunking: termination, absence of panics, blob sizes, interrupted
    reads. *)
From Verif Require Import Base BaseFacts Key KeyFacts Object World Store WorldFacts File ObjStoreFacts SpecFile FilePlan FileFacts.

Section ChunkFacts.
  Context {E : Env}.

  (** *** Fuel *)
  Lemma reads_weight_pos r : 1 <= reads_weight r.
  Proof. destruct r as [|[d| |] r]; cbn; lia. Qed.
  Lemma pcut_buf st b l st' : pcut st b = (l, Done st') -> length (pd_buf st') = length (pd_buf st) - b.
  Proof.
    unfold pcut. destruct (Nat.ltb _ _); [discriminate|]. cbv zeta. destruct (negb _); [discriminate|].
    intro H. destruct (Nat.leb _ _).
    - apply pbind_done in H as (l1 & k & l2 & _ & H & ->). apply pbind_done in H as (l3 & kb & l4 & _ & H & ->).
      apply pret_done in H as [_ ->]. apply skipn_length.
    - apply pret_done in H as [_ ->]. apply skipn_length.
  Qed.
  Definition boundary (hm : option nat) (buf : bytes) : option nat :=
    if Nat.ltb chunk_max (length buf) then Some chunk_max else hm.
  (** A boundary is inside the buffer, and the assertion of line 43 holds there. *)
  Lemma boundary_ok h0 buf hm h b : next_match h0 buf blob_zero_count_bitmask = (hm, h) -> boundary hm buf = Some b ->
    1 <= b <= length buf /\ ((blob_zero_count <=? leading_zeros h)%N || Nat.eqb b chunk_max) = true.
  Proof.
    intros N B. unfold boundary in B. destruct (Nat.ltb chunk_max (length buf)) eqn:L.
    - inv B. apply Nat.ltb_lt in L. pose proof chunk_max_pos. rewrite Nat.eqb_refl, orb_true_r. split; [lia|reflexivity].
    - subst hm. apply next_match_some in N as (A & B & C). split; [exact A|]. rewrite match_zeros by assumption. reflexivity.
  Qed.
  Lemma ploop_unfold f st reads : ploop (S f) st reads =
    let '(hm, h) := next_match (pd_hash st) (pd_buf st) blob_zero_count_bitmask in
    match boundary hm (pd_buf st) with
    | Some b => pbind (pcut (PD (pd_kb st) (pd_buf st) (pd_cur st) h) b) (fun st' => ploop f st' reads)
    | None =>
        let cur := pd_cur st ++ pd_buf st in
        match reads with
        | [] => pret (PD (pd_kb st) [] cur h)
        | RData [] :: _ => pret (PD (pd_kb st) [] cur h)
        | RData d :: r => ploop f (PD (pd_kb st) d cur h) r
        | RInterrupted :: r => ploop f (PD (pd_kb st) [] cur h) r
        | RError :: _ => pstop (Error EIo)
        end
    end.
  Proof. reflexivity. Qed.
  Lemma pbind_ext {A B} (p : plan A) (f g : A -> plan B) :
    (forall l a, p = (l, Done a) -> f a = g a) -> pbind p f = pbind p g.
  Proof. destruct p as [l [a|e|x| |]]; intro H; cbn; try reflexivity. rewrite (H l a eq_refl). reflexivity. Qed.

  (** Interrupted reads can be left out. *)
  Lemma ploop_strip f : forall f' st reads,
    length (pd_buf st) + reads_weight reads <= f -> length (pd_buf st) + reads_weight (strip reads) <= f' ->
    ploop f st reads = ploop f' st (strip reads).
  Proof.
    induction f as [|f IH]; intros f' st reads W W'; [pose proof (reads_weight_pos reads); lia|].
    destruct f' as [|f']; [pose proof (reads_weight_pos (strip reads)); lia|].
    rewrite !ploop_unfold. destruct (next_match _ _ _) as [hm h] eqn:N.
    destruct (boundary hm (pd_buf st)) as [b|] eqn:B.
    - apply pbind_ext. intros l st' C. apply pcut_buf in C. cbn [pd_buf] in C.
      destruct (boundary_ok _ _ _ _ _ N B) as [A _]. apply IH; lia.
    - cbv zeta. destruct reads as [|[[|x d]| |] r]; try reflexivity.
      + change (strip (RData (x :: d) :: r)) with (RData (x :: d) :: strip r) in *. cbn [reads_weight] in W, W'.
        apply IH; cbn [pd_buf]; lia.
      + change (strip (RInterrupted :: r)) with (strip r) in *. cbn [reads_weight] in W.
        rewrite (IH (S f') (PD (pd_kb st) [] (pd_cur st ++ pd_buf st) h) r) by (cbn [pd_buf length]; lia).
        rewrite ploop_unfold. cbn [pd_buf pd_hash next_match pd_kb pd_cur]. unfold boundary. cbn [length].
        pose proof chunk_max_pos. destruct (Nat.ltb chunk_max 0) eqn:Z; [apply Nat.ltb_lt in Z; lia|].
        rewrite !app_nil_r. reflexivity.
  Qed.
  Lemma pdata_strip reads : pdata reads = pdata (strip reads).
  Proof.
    unfold pdata. rewrite (ploop_strip (reads_weight reads) (reads_weight (strip reads))); cbn; auto.
  Qed.
  Lemma pdata_same r1 r2 : strip r1 = strip r2 -> pdata r1 = pdata r2.
  Proof. intro H. rewrite (pdata_strip r1), (pdata_strip r2), H. reflexivity. Qed.

  (** *** Outcomes *)
  Definition fine {A} (r : outcome A) : Prop :=
    match r with Done _ | Error EIo | Panicked PCapacity => True | _ => False end.
  Lemma pbind_fine {A B} (p : plan A) (f : A -> plan B) :
    fine (snd p) -> (forall l a, p = (l, Done a) -> fine (snd (f a))) -> fine (snd (pbind p f)).
  Proof.
    destruct p as [l [a|e|x| |]]; intros H K; cbn in *; auto. specialize (K l a eq_refl). destruct (f a). exact K.
  Qed.
  Lemma pput_fine o : fine (snd (pput o)).
  Proof. unfold pput. destruct (obj_fits o); exact I. Qed.
  Lemma pcascade_fine l : forall z kb, fine (snd (pcascade l z kb)).
  Proof.
    induction l as [|o l IH]; intros z kb; cbn [pcascade]; [exact I|]. destruct (_ || _); [|exact I].
    apply pbind_fine; [apply pput_fine|auto].
  Qed.
  Lemma pcut_fine st b : b <= length (pd_buf st) ->
    ((blob_zero_count <=? leading_zeros (pd_hash st))%N || Nat.eqb b chunk_max) = true -> fine (snd (pcut st b)).
  Proof.
    intros L A. unfold pcut. destruct (Nat.ltb _ _) eqn:X; [apply Nat.ltb_lt in X; lia|]. cbv zeta. rewrite A. cbn [negb].
    destruct (Nat.leb _ _); [|exact I]. apply pbind_fine; [apply pput_fine|intros]. apply pbind_fine; [apply pcascade_fine|intros].
    exact I.
  Qed.
  Lemma ploop_fine f : forall st reads, length (pd_buf st) + reads_weight reads <= f -> fine (snd (ploop f st reads)).
  Proof.
    induction f as [|f IH]; intros st reads W; [pose proof (reads_weight_pos reads); lia|].
    rewrite ploop_unfold. destruct (next_match _ _ _) as [hm h] eqn:N.
    destruct (boundary hm (pd_buf st)) as [b|] eqn:B.
    - destruct (boundary_ok _ _ _ _ _ N B) as [A1 A2]. apply pbind_fine; [apply pcut_fine; [cbn; lia|exact A2]|].
      intros l st' C. apply pcut_buf in C. cbn [pd_buf] in C. apply IH. lia.
    - cbv zeta. destruct reads as [|[[|x d]| |] r]; try exact I; cbn [reads_weight length] in W; apply IH; cbn [pd_buf length]; lia.
  Qed.
  Lemma pfold_fine l : forall kb, fine (snd (pfold l kb)).
  Proof.
    induction l as [|o l IH]; intro kb; cbn [pfold]; [exact I|]. apply pbind_fine; [apply pput_fine|intros].
    destruct (kb_get kb o) as [|? [|]]; auto. destruct (forallb _ _); [exact I|auto].
  Qed.
  Lemma pfinish_fine st : fine (snd (pfinish st)).
  Proof.
    unfold pfinish. cbv zeta. destruct (forallb _ _); [apply pput_fine|]. apply pbind_fine.
    - destruct (pd_cur st ++ pd_buf st); [exact I|]. apply pbind_fine; [apply pput_fine|intros; exact I].
    - intros. apply pbind_fine; [apply pfold_fine|]. intros l2 [[k|] kb'] _; [exact I|apply pput_fine].
  Qed.
  Lemma pdata_fine reads : fine (snd (pdata reads)).
  Proof. apply pbind_fine; [apply ploop_fine; cbn; lia|intros; apply pfinish_fine]. Qed.

  (** *** A failing read is reported *)
  Lemma ploop_error f : forall st reads l st', ploop f st reads = (l, Done st') -> snd (stream reads) = false.
  Proof.
    induction f as [|f IH]; intros st reads l st' H; [discriminate|].
    rewrite ploop_unfold in H. destruct (next_match _ _ _) as [hm h].
    destruct (boundary hm (pd_buf st)) as [b|].
    - apply pbind_done in H as (l1 & st1 & l2 & _ & H & ->). eauto.
    - cbv zeta in H. destruct reads as [|[[|x d]| |] r]; cbn [stream]; try reflexivity; try discriminate.
      + apply IH in H. destruct (stream r). exact H.
      + apply IH in H. exact H.
  Qed.
  Lemma ploop_noerror f : forall st reads l e, ploop f st reads = (l, Error e) -> snd (stream reads) = true.
  Proof.
    assert (PB : forall A B (p : plan A) (g : A -> plan B) l e, (forall e', snd p <> Error e') -> pbind p g = (l, Error e) ->
      exists l1 a l2, p = (l1, Done a) /\ g a = (l2, Error e)).
    { intros A B [l1 [a|e1|x| |]] g l e H K; cbn in *; try discriminate; [|destruct (H e1); reflexivity].
      destruct (g a) eqn:G. inv K. eauto. }
    assert (PP : forall o e, snd (pput o) <> Error e) by (intros o e; unfold pput; destruct (obj_fits o); discriminate).
    assert (PC : forall l z kb e, snd (pcascade l z kb) <> Error e).
    { induction l as [|o l IH]; intros z kb e; cbn [pcascade]; [discriminate|]. destruct (_ || _); [|discriminate].
      intro H. destruct (pbind _ _) as [l1 r] eqn:B. cbn in H. subst r. apply PB in B as (? & k & l2 & _ & B); [|apply PP].
      apply (IH z (kb_push (kb_set kb o []) (o + 1) k) e). rewrite B. reflexivity. }
    assert (PT : forall st b e, snd (pcut st b) <> Error e).
    { intros st b e. unfold pcut. destruct (Nat.ltb _ _); [discriminate|]. cbv zeta. destruct (negb _); [discriminate|].
      destruct (Nat.leb _ _); [|discriminate]. intro H. destruct (pbind _ _) as [l1 r] eqn:B. cbn in H. subst r.
      apply PB in B as (? & ? & ? & _ & B); [|apply PP]. apply PB in B as (? & ? & ? & _ & B); [discriminate|apply PC]. }
    induction f as [|f IH]; intros st reads l e H; [discriminate|].
    rewrite ploop_unfold in H. destruct (next_match _ _ _) as [hm h].
    destruct (boundary hm (pd_buf st)) as [b|].
    - apply PB in H as (? & ? & ? & _ & H); [|apply PT]. eauto.
    - cbv zeta in H. destruct reads as [|[[|x d]| |] r]; cbn [stream]; try discriminate.
      + apply IH in H. destruct (stream r). exact H.
      + apply IH in H. exact H.
      + reflexivity.
  Qed.

  (** *** No capacity overflow below 2^62 bytes *)
  Definition small (n : nat) : Prop := (N.of_nat n < 2 ^ 62)%N.
  Lemma fits_small d ks t : small (length d) -> small (length ks) -> obj_fits (Object d ks t) = true.
  Proof.
    unfold small, obj_fits, max_vec, lenN. cbn [o_data o_keys]. intros H1 H2.
    apply andb_true_intro. split; apply N.ltb_lt; (eapply N.lt_trans; [eassumption|reflexivity]).
  Qed.
  Lemma kb_get_total kb i : length (kb_get kb i) <= keys_total kb.
  Proof.
    unfold kb_get, keys_total. revert i. induction kb as [|x kb IH]; intros [|i]; cbn; try lia; rewrite app_length; [lia|].
    specialize (IH i). lia.
  Qed.
  Lemma small_le a b : small b -> a <= b -> small a.
  Proof. unfold small. intros. lia. Qed.
  Lemma pput_total o : obj_fits o = true -> pput o = ([o], Done (obj_key o)).
  Proof. unfold pput. intros ->. reflexivity. Qed.
  Lemma pcascade_total l : forall z kb, length kb = 5 -> Forall (fun o => o < 4) l -> small (keys_total kb + length l) ->
    exists l' kb', pcascade l z kb = (l', Done kb').
  Proof.
    induction l as [|o l IH]; intros z kb L F S; cbn [pcascade]; [eexists _, _; reflexivity|]. inv F.
    destruct (_ || _); [|eexists _, _; reflexivity].
    assert (ptree (kb_get kb o) = ([Object [] (kb_get kb o) FileBlobTree], Done (obj_key (Object [] (kb_get kb o) FileBlobTree)))).
    { apply pput_total, fits_small; [reflexivity|]. eapply small_le; [exact S|]. pose proof (kb_get_total kb o). lia. }
    rewrite H. cbn [pbind].
    edestruct (IH z (kb_push (kb_set kb o []) (o + 1) (obj_key (Object [] (kb_get kb o) FileBlobTree)))) as (l' & kb' & R).
    - rewrite kb_push_length, kb_set_length. exact L.
    - assumption.
    - rewrite keys_total_push by (rewrite kb_set_length; lia). pose proof (keys_total_set kb o [] ltac:(lia)) as X. cbn in X.
      eapply small_le; [exact S|]. cbn. lia.
    - rewrite R. eexists _, _. reflexivity.
  Qed.
  Lemma pcut_total objs st b data : inv objs st data -> b <= length (pd_buf st) ->
    ((blob_zero_count <=? leading_zeros (pd_hash st))%N || Nat.eqb b chunk_max) = true -> small (length data + 5) ->
    exists l st', pcut st b = (l, Done st').
  Proof.
    intros [(c & K & D & T)] L A S. unfold pcut. destruct (Nat.ltb _ _) eqn:X; [apply Nat.ltb_lt in X; lia|]. cbv zeta. rewrite A.
    cbn [negb]. assert (LD : length data = length (down c 0 5) + length (pd_cur st) + length (pd_buf st)).
    { rewrite D, !app_length. unfold byte. lia. }
    destruct (Nat.leb _ _); [|eexists _, _; reflexivity].
    set (cur := pd_cur st ++ firstn b (pd_buf st)).
    assert (P : pblob cur = ([Object cur [] FileBlob], Done (obj_key (Object cur [] FileBlob)))).
    { apply pput_total, fits_small; [|reflexivity]. eapply small_le; [exact S|]. unfold cur. rewrite app_length, firstn_length.
      unfold byte in *. lia. }
    rewrite P. cbn [pbind].
    edestruct (pcascade_total [0; 1; 2; 3] (leading_zeros (pd_hash st)) (kb_push (pd_kb st) 0 (obj_key (Object cur [] FileBlob)))) as (l' & kb' & R).
    - rewrite kb_push_length. apply K.
    - repeat constructor.
    - assert (length (pd_kb st) = 5) by apply K. rewrite keys_total_push by lia.
      eapply small_le; [exact S|]. cbn [length]. unfold byte in *. lia.
    - rewrite R. eexists _, _. reflexivity.
  Qed.
  Lemma ploop_total f : forall objs st reads data, inv objs st data ->
    length (pd_buf st) + reads_weight reads <= f -> small (length (data ++ fst (stream reads)) + 5) ->
    (exists l st', ploop f st reads = (l, Done st')) \/ (exists l, ploop f st reads = (l, Error EIo)).
  Proof.
    induction f as [|f IH]; intros objs st reads data I W S; [pose proof (reads_weight_pos reads); lia|].
    rewrite ploop_unfold. destruct (next_match _ _ _) as [hm h] eqn:N.
    destruct (boundary hm (pd_buf st)) as [b|] eqn:B.
    - destruct (boundary_ok _ _ _ _ _ N B) as [A1 A2].
      assert (I1 : inv objs (PD (pd_kb st) (pd_buf st) (pd_cur st) h) data) by (destruct I; constructor; assumption).
      destruct (pcut_total _ _ _ _ I1 (proj2 A1) A2) as (l & st' & C).
      { eapply small_le; [exact S|]. rewrite app_length. lia. }
      destruct (cut_inv _ _ _ _ _ _ I1 C) as [I2 L2]. cbn [pd_buf] in L2. rewrite C. cbn [pbind].
      destruct (IH _ st' reads data I2 ltac:(lia) S) as [(l' & st'' & R)|(l' & R)]; rewrite R; [left|right]; eexists; try eexists; reflexivity.
    - cbv zeta.
      assert (I1 : forall d x, inv objs (PD (pd_kb st) d (pd_cur st ++ pd_buf st) x) (data ++ d)).
      { intros d x. destruct I as [(c & K & D & T)]. constructor. exists c. cbn [pd_kb pd_cur pd_buf].
        split; [exact K|]. split; [|exact T]. rewrite D, <- !app_assoc. reflexivity. }
      destruct reads as [|[[|x d]| |] r]; cbn [stream reads_weight] in *.
      + left. eexists _, _. reflexivity.
      + left. eexists _, _. reflexivity.
      + eapply (IH _ _ _ _ (I1 (x :: d) h)); [cbn [pd_buf] in *; lia|]. destruct (stream r). cbn [fst] in *.
        rewrite <- app_assoc. exact S.
      + eapply (IH _ _ _ _ (I1 [] h)); [cbn [pd_buf length] in *; lia|]. rewrite app_nil_r. exact S.
      + right. eexists. reflexivity.
  Qed.
  Lemma pfold_total m : forall o kb, o + m = 4 -> length kb = 5 -> small (keys_total kb + m) ->
    exists l k, pbind (pfold (seq o m) kb) pfin = (l, Done k).
  Proof.
    induction m as [|m IH]; intros o kb Ho L S.
    - cbn [seq pfold pret pbind pfin]. unfold ptree. rewrite pput_total; [eexists _, _; reflexivity|].
      apply fits_small; [reflexivity|]. eapply small_le; [exact S|]. pose proof (kb_get_total kb 4). lia.
    - cbn [seq pfold]. set (t := Object [] (kb_get kb o) FileBlobTree).
      assert (P : ptree (kb_get kb o) = ([t], Done (obj_key t))).
      { apply pput_total, fits_small; [reflexivity|]. eapply small_le; [exact S|]. pose proof (kb_get_total kb o). lia. }
      rewrite P. clearbody t. cbn [pbind].
      destruct (IH (Datatypes.S o) (kb_push kb (o + 1) (obj_key t))) as (l & k & R); try lia.
      { rewrite kb_push_length. exact L. }
      { rewrite keys_total_push by lia. eapply small_le; [exact S|]. lia. }
      assert (X : exists l k, pbind (let '(l', r) := pfold (seq (Datatypes.S o) m) (kb_push kb (o + 1) (obj_key t)) in ([t] ++ l', r)) pfin = (l, Done k)).
      { destruct (pfold (seq (Datatypes.S o) m) (kb_push kb (o + 1) (obj_key t))) as [l1 [[a b]|e|x| |]]; cbn [pbind] in *; try discriminate.
        destruct (pfin (a, b)) as [l3 r3]. inv R. eexists _, _. reflexivity. }
      destruct (kb_get kb o) as [|k0 [|]]; try exact X. destruct (forallb _ _); [|exact X].
      cbn [pret app pbind pfin]. eexists _, _. reflexivity.
  Qed.
  Lemma pfinish_total objs st data : inv objs st data -> pd_buf st = [] -> small (length data + 5) ->
    exists l k, pfinish st = (l, Done k).
  Proof.
    intros [(c & K & D & T)] B S. rewrite pfinish_eq by exact B. rewrite B, app_nil_r in D.
    assert (LD : length data = length (down c 0 5) + length (pd_cur st)) by (rewrite D, app_length; reflexivity).
    assert (P : pput (Object (pd_cur st) [] FileBlob) = ([Object (pd_cur st) [] FileBlob], Done (obj_key (Object (pd_cur st) [] FileBlob)))).
    { apply pput_total, fits_small; [|reflexivity]. eapply small_le; [exact S|]. unfold byte in *. lia. }
    destruct (forallb _ _); [unfold pblob; rewrite P; eexists _, _; reflexivity|].
    assert (L5 : length (pd_kb st) = 5) by apply K.
    destruct (pd_cur st) as [|x cur] eqn:Ec.
    - destruct (pfold_total 4 0 (pd_kb st)) as (l & k & R); auto.
      { eapply small_le; [exact S|]. unfold byte in *. lia. }
      cbn [pret pbind] in *. destruct (pbind _ _). inv R. eexists _, _. reflexivity.
    - rewrite P. cbn [pbind pret app].
      destruct (pfold_total 4 0 (kb_push (pd_kb st) 0 (obj_key (Object (x :: cur) [] FileBlob)))) as (l & k & R); auto.
      { rewrite kb_push_length. exact L5. }
      { rewrite keys_total_push by lia. eapply small_le; [exact S|]. cbn [length] in LD. unfold byte in *. lia. }
      destruct (pbind _ _). inv R. eexists _, _. reflexivity.
  Qed.
  Lemma pdata_total reads : small (length (fst (stream reads)) + 5) ->
    if snd (stream reads) then snd (pdata reads) = Error EIo else exists l k, pdata reads = (l, Done k).
  Proof.
    intro S. destruct (ploop_total (reads_weight reads) [] pd_init reads [] inv_init) as [(l & st & R)|(l & R)];
      [cbn; lia|exact S| |]; unfold pdata; rewrite R.
    - rewrite (ploop_error _ _ _ _ _ R). destruct (loop_inv _ _ _ _ _ _ _ inv_init R) as (_ & I & B). cbn [app] in I.
      destruct (pfinish_total _ _ _ I B S) as (l2 & k & F). cbn [pbind]. rewrite F. eexists _, _. reflexivity.
    - rewrite (ploop_noerror _ _ _ _ _ R). reflexivity.
  Qed.

  (** *** Blob sizes *)
  Lemma blobs_app a b : blobs (a ++ b) = blobs a ++ blobs b.
  Proof. apply flat_map_app. Qed.
  Lemma pbind_fst {A B} (p : plan A) (f : A -> plan B) :
    fst (pbind p f) = fst p ++ match snd p with Done a => fst (f a) | _ => [] end.
  Proof. destruct p as [l [a|e|x| |]]; cbn; rewrite ?app_nil_r; try reflexivity. destruct (f a). reflexivity. Qed.
  Lemma ptree_blobs ks : blobs (fst (ptree ks)) = [].
  Proof. unfold ptree, pput. destruct (obj_fits _); reflexivity. Qed.
  Lemma pcascade_blobs l : forall z kb, blobs (fst (pcascade l z kb)) = [].
  Proof.
    induction l as [|o l IH]; intros z kb; cbn [pcascade]; [reflexivity|]. destruct (_ || _); [|reflexivity].
    rewrite pbind_fst, blobs_app, ptree_blobs. destruct (snd _); try reflexivity. apply IH.
  Qed.
  Lemma pfold_blobs l : forall kb, blobs (fst (pfold l kb)) = [].
  Proof.
    induction l as [|o l IH]; intros kb; cbn [pfold]; [reflexivity|].
    rewrite pbind_fst, blobs_app, ptree_blobs. destruct (snd (ptree _)); try reflexivity. cbn [app].
    destruct (kb_get kb o) as [|? [|]]; auto. destruct (forallb _ _); auto.
  Qed.
  Lemma pblob_blobs d : blobs (fst (pblob d)) = [] \/ blobs (fst (pblob d)) = [d].
  Proof. unfold pblob, pput. destruct (obj_fits _); auto. Qed.
  Lemma pcut_blobs st b : let cur := pd_cur st ++ firstn b (pd_buf st) in
    (blobs (fst (pcut st b)) = [] /\
       forall st', snd (pcut st b) = Done st' -> pd_cur st' = cur /\ pd_buf st' = skipn b (pd_buf st) /\ length cur < chunk_max) \/
    (blobs (fst (pcut st b)) = [cur] /\ chunk_max <= length cur /\
       forall st', snd (pcut st b) = Done st' -> pd_cur st' = [] /\ pd_buf st' = skipn b (pd_buf st)).
  Proof.
    intro cur. unfold pcut. destruct (Nat.ltb _ _); [left; split; [reflexivity|discriminate]|]. cbv zeta.
    destruct (negb _); [left; split; [reflexivity|discriminate]|]. fold cur.
    destruct (Nat.leb chunk_max (length cur)) eqn:L.
    - apply Nat.leb_le in L. unfold pblob, pput at 1 2. destruct (obj_fits (Object cur [] FileBlob)) eqn:F.
      + right. unfold pput. rewrite F. cbn [pbind]. unfold pbind at 1 2.
        pose proof (pcascade_blobs [0;1;2;3] (leading_zeros (pd_hash st)) (kb_push (pd_kb st) 0 (obj_key (Object cur [] FileBlob)))) as X.
        destruct (pcascade _ _ _) as [l1 [kb|e|x| |]]; cbn [pret fst snd] in *; rewrite ?app_nil_r; cbn [app];
          unfold blobs in *; cbn [flat_map o_type o_data app]; rewrite X; (split; [reflexivity|]); (split; [exact L|]); intros st' H; inv H; split; reflexivity.
      + left. cbn. split; [reflexivity|discriminate].
    - apply Nat.leb_gt in L. left. cbn. split; [reflexivity|]. intros st' H. inv H. auto.
  Qed.
  Lemma ploop_min f : forall st reads, Forall (fun d => chunk_max <= length d) (blobs (fst (ploop f st reads))).
  Proof.
    induction f as [|f IH]; intros st reads; [constructor|]. rewrite ploop_unfold.
    destruct (next_match _ _ _) as [hm h]. destruct (boundary hm (pd_buf st)) as [b|].
    - rewrite pbind_fst, blobs_app. apply Forall_app. split.
      + destruct (pcut_blobs (PD (pd_kb st) (pd_buf st) (pd_cur st) h) b) as [[-> _]|[-> [L _]]]; constructor; auto.
      + destruct (snd _); [apply IH|constructor..].
    - cbv zeta. destruct reads as [|[[|x d]| |] r]; try constructor; apply IH.
  Qed.
  (** The blobs of the loop, and what is left, are the data. *)
  Lemma ploop_concat f : forall st reads l st', ploop f st reads = (l, Done st') ->
    concat (blobs l) ++ pd_cur st' = pd_cur st ++ pd_buf st ++ fst (stream reads) /\ pd_buf st' = [].
  Proof.
    induction f as [|f IH]; intros st reads l st' H; [discriminate|]. rewrite ploop_unfold in H.
    destruct (next_match _ _ _) as [hm h]. destruct (boundary hm (pd_buf st)) as [b|].
    - apply pbind_done in H as (l1 & st1 & l2 & H1 & H & ->). apply IH in H as [H B]. split; [|exact B].
      destruct (pcut_blobs (PD (pd_kb st) (pd_buf st) (pd_cur st) h) b) as [[X Y]|[X [_ Y]]]; rewrite H1 in X, Y;
        cbn [fst snd pd_cur pd_buf] in X, Y; specialize (Y st1 eq_refl); rewrite blobs_app, X, concat_app, <- app_assoc, H.
      + destruct Y as (-> & -> & _). cbn. rewrite <- !app_assoc. f_equal. rewrite app_assoc, firstn_skipn. reflexivity.
      + destruct Y as (-> & ->). cbn. rewrite <- !app_assoc. f_equal. cbn [app]. rewrite app_assoc, firstn_skipn. reflexivity.
    - cbv zeta in H. destruct reads as [|[[|x d]| |] r]; cbn [stream] in *; try discriminate.
      + apply pret_done in H as [-> ->]. cbn. rewrite app_nil_r. auto.
      + apply pret_done in H as [-> ->]. cbn. rewrite app_nil_r. auto.
      + apply IH in H. destruct (stream r). cbn [pd_cur pd_buf fst] in *. rewrite <- app_assoc in H. exact H.
      + apply IH in H. cbn [pd_cur pd_buf app] in *. rewrite <- app_assoc in H. exact H.
  Qed.
  Lemma pfinish_blobs st l k : pd_buf st = [] -> pfinish st = (l, Done k) ->
    blobs l = [pd_cur st] \/ (pd_cur st = [] /\ blobs l = []).
  Proof.
    intros B. rewrite pfinish_eq by exact B. destruct (forallb _ _); intro H.
    - unfold pblob in H. apply pput_done in H as (-> & _). left. reflexivity.
    - apply pbind_done in H as (l1 & kb & l2 & H1 & H & ->). apply pbind_done in H as (l3 & r & l4 & H2 & H & ->).
      assert (X2 : blobs l3 = []) by (change l3 with (fst (l3, Done r)); rewrite <- H2; apply pfold_blobs).
      assert (X3 : blobs l4 = []).
      { change l4 with (fst (l4, Done k)). rewrite <- H. destruct r as [[k'|] kb']; [reflexivity|apply ptree_blobs]. }
      rewrite !blobs_app, X2, X3, !app_nil_r. destruct (pd_cur st) as [|x cur] eqn:Ec.
      + apply pret_done in H1 as [-> _]. auto.
      + apply push_blob in H1 as [-> _]. left. reflexivity.
  Qed.
  (** All blobs in order are the data; all but the last have at least 32768 bytes. *)
  Lemma pdata_blobs reads l k : pdata reads = (l, Done k) ->
    concat (blobs l) = fst (stream reads) /\
    exists chunks last, blobs l = chunks ++ last /\ Forall (fun d => chunk_max <= length d) chunks /\ length last <= 1.
  Proof.
    intro H. apply pbind_done in H as (l1 & st & l2 & H1 & H2 & ->).
    destruct (ploop_concat _ _ _ _ _ H1) as [C B]. cbn in C.
    assert (M : Forall (fun d => chunk_max <= length d) (blobs l1)).
    { change l1 with (fst (l1, Done st)). rewrite <- H1. apply ploop_min. }
    rewrite blobs_app, concat_app. destruct (pfinish_blobs _ _ _ B H2) as [X|[Y X]]; rewrite X; cbn [concat].
    - rewrite app_nil_r. split; [exact C|]. exists (blobs l1), [pd_cur st]. auto.
    - rewrite Y in C. split; [exact C|]. exists (blobs l1), []. auto.
  Qed.

  (** Full reads keep blobs at 65536 bytes at most. *)
  Definition room (st : pd_state) (reads : list readres) : Prop :=
    (length (pd_cur st) <= chunk_max /\ length (pd_buf st) = 2 * chunk_max) \/
    length (pd_cur st) + length (pd_buf st) <= chunk_max \/
    (fst (stream reads) = [] /\ length (pd_cur st) <= chunk_max /\ length (pd_buf st) <= 2 * chunk_max) \/
    (fst (stream reads) = [] /\ length (pd_cur st) + length (pd_buf st) <= 2 * chunk_max).
  Lemma full_twice (d : bytes) : full_read d <-> length d = 2 * chunk_max.
  Proof. unfold full_read, lenN. pose proof chunk_max_val. lia. Qed.
  Lemma at_most_twice (d : bytes) : (lenN d <= 65536)%N <-> length d <= 2 * chunk_max.
  Proof. unfold lenN. pose proof chunk_max_val. lia. Qed.
  Lemma stream_data x d r : fst (stream (RData (x :: d) :: r)) <> [].
  Proof. cbn. destruct (stream r). discriminate. Qed.
  Lemma ploop_max f : forall st reads, room st reads -> full_reads reads ->
    Forall (fun d => length d <= 2 * chunk_max) (blobs (fst (ploop f st reads))) /\
    forall st', snd (ploop f st reads) = Done st' -> length (pd_cur st') <= 2 * chunk_max.
  Proof.
    pose proof chunk_max_pos as CP.
    induction f as [|f IH]; intros st reads R F; [split; [constructor|discriminate]|]. rewrite ploop_unfold.
    destruct (next_match _ _ _) as [hm h] eqn:N. destruct (boundary hm (pd_buf st)) as [b|] eqn:B.
    - destruct (boundary_ok _ _ _ _ _ N B) as [A _].
      rewrite pbind_fst, blobs_app.
      assert (SND : forall st', snd (pbind (pcut (PD (pd_kb st) (pd_buf st) (pd_cur st) h) b) (fun st' => ploop f st' reads)) = Done st' ->
        exists st1, snd (pcut (PD (pd_kb st) (pd_buf st) (pd_cur st) h) b) = Done st1 /\ snd (ploop f st1 reads) = Done st').
      { intros st' H. destruct (pbind _ _) as [l r] eqn:PB. cbn in H. subst r. apply pbind_done in PB as (l1 & st1 & l2 & P1 & P2 & ->).
        exists st1. rewrite P1, P2. auto. }
      destruct (pcut_blobs (PD (pd_kb st) (pd_buf st) (pd_cur st) h) b) as [[X Y]|[X [L Y]]];
        cbn [pd_cur pd_buf] in *; rewrite X.
      + cbn [app]. assert (RR : forall st1, snd (pcut (PD (pd_kb st) (pd_buf st) (pd_cur st) h) b) = Done st1 -> room st1 reads).
        { intros st1 H. destruct (Y st1 H) as (Y1 & Y2 & Y3). rewrite app_length, firstn_length in Y3.
          assert (b < chunk_max) by (unfold byte in *; lia).
          assert (NB : length (pd_buf st) <= chunk_max).
          { unfold boundary in B. destruct (Nat.ltb chunk_max (length (pd_buf st))) eqn:Z; [inv B; lia|]. apply Nat.ltb_ge in Z. exact Z. }
          unfold room in *. rewrite Y1, Y2, app_length, firstn_length, skipn_length. unfold byte in *.
          destruct R as [[R1 R2]|[R|[(R0 & R1 & R2)|(R0 & R1)]]];
            [exfalso; lia|right; left; lia|right; right; right; split; [exact R0|lia]|right; right; right; split; [exact R0|lia]]. }
        split.
        * destruct (snd (pcut _ _)) eqn:S; try constructor. apply IH; auto.
        * intros st' H. destruct (SND st' H) as (st1 & S1 & S2). exact (proj2 (IH st1 reads (RR st1 S1) F) st' S2).
      + rewrite app_length, firstn_length in L.
        assert (LL : length (pd_cur st ++ firstn b (pd_buf st)) <= 2 * chunk_max).
        { rewrite app_length, firstn_length. unfold room in R. unfold boundary in B.
          destruct (Nat.ltb chunk_max (length (pd_buf st))) eqn:Z.
          - inv B. apply Nat.ltb_lt in Z. unfold byte in *.
            destruct R as [[R1 R2]|[R|[(R0 & R1 & R2)|(R0 & R1)]]]; lia.
          - apply Nat.ltb_ge in Z. unfold byte in *. destruct R as [[R1 R2]|[R|[(R0 & R1 & R2)|(R0 & R1)]]]; lia. }
        assert (RR : forall st1, snd (pcut (PD (pd_kb st) (pd_buf st) (pd_cur st) h) b) = Done st1 -> room st1 reads).
        { intros st1 H. destruct (Y st1 H) as (Y1 & Y2). unfold room in *. rewrite Y1, Y2, skipn_length. cbn [length].
          unfold boundary in B. destruct (Nat.ltb chunk_max (length (pd_buf st))) eqn:Z.
          - inv B. apply Nat.ltb_lt in Z. unfold byte in *.
            destruct R as [[R1 R2]|[R|[(R0 & R1 & R2)|(R0 & R1)]]]; right; left; lia.
          - apply Nat.ltb_ge in Z. unfold byte in *. right. left. lia. }
        split.
        * cbn [app]. constructor; [exact LL|]. destruct (snd (pcut _ _)) eqn:S; try constructor. apply IH; auto.
        * intros st' H. destruct (SND st' H) as (st1 & S1 & S2). exact (proj2 (IH st1 reads (RR st1 S1) F) st' S2).
    - assert (NB : length (pd_buf st) <= chunk_max).
      { unfold boundary in B. destruct (Nat.ltb chunk_max (length (pd_buf st))) eqn:Z; [discriminate|]. apply Nat.ltb_ge in Z. exact Z. }
      cbv zeta.
      assert (RN : fst (stream reads) <> [] -> length (pd_cur st ++ pd_buf st) <= chunk_max).
      { intro NE. rewrite app_length. unfold room in R. unfold byte in *. destruct R as [R|[R|[[R _]|[R _]]]]; try contradiction; lia. }
      assert (RC : length (pd_cur st ++ pd_buf st) <= 2 * chunk_max).
      { rewrite app_length. unfold room in R. unfold byte in *. destruct R as [[R1 R2]|[R|[(R0 & R1 & R2)|(R0 & R1)]]]; lia. }
      destruct reads as [|[[|x d]| |] r]; cbn [full_reads] in F.
      + cbn. split; [constructor|]. intros st' H. inv H. exact RC.
      + cbn. split; [constructor|]. intros st' H. inv H. exact RC.
      + destruct F as (F1 & F2 & F3). apply at_most_twice in F1. rewrite full_twice in F2. specialize (RN (stream_data x d r)). apply IH; [|exact F3].
        unfold room. cbn [pd_cur pd_buf]. destruct F2 as [F2|F2]; [left; split; assumption|]. right. right. left. auto.
      + apply IH; [|exact F]. unfold room. cbn [pd_cur pd_buf length]. cbn [stream] in RN.
        destruct (fst (stream r)) eqn:Es.
        * right. right. right. split; [reflexivity|lia].
        * right. left. specialize (RN ltac:(discriminate)). lia.
      + cbn. split; [constructor|discriminate].
  Qed.
  Lemma pdata_max reads l k : full_reads reads -> pdata reads = (l, Done k) ->
    Forall (fun d => length d <= 2 * chunk_max) (blobs l).
  Proof.
    intros F H. apply pbind_done in H as (l1 & st & l2 & H1 & H2 & ->).
    destruct (ploop_max (reads_weight reads) pd_init reads) as [M1 M2]; [|exact F|].
    { right. left. cbn. lia. }
    rewrite H1 in M1, M2. cbn [fst snd] in *. rewrite blobs_app. apply Forall_app. split; [exact M1|].
    destruct (ploop_concat _ _ _ _ _ H1) as [_ B].
    destruct (pfinish_blobs _ _ _ B H2) as [X|[Y X]]; rewrite X; constructor; auto.
  Qed.

  (** *** Small files are one blob *)
  Lemma ploop_small f : forall st reads l st', pd_kb st = kb_empty ->
    length (pd_cur st ++ pd_buf st ++ fst (stream reads)) < chunk_max -> ploop f st reads = (l, Done st') ->
    l = [] /\ exists h, st' = PD kb_empty [] (pd_cur st ++ pd_buf st ++ fst (stream reads)) h.
  Proof.
    induction f as [|f IH]; intros st reads l st' K L H; [discriminate|]. rewrite ploop_unfold in H.
    destruct (next_match _ _ _) as [hm h]. destruct (boundary hm (pd_buf st)) as [b|].
    - apply pbind_done in H as (l1 & st1 & l2 & H1 & H & ->).
      assert (X : l1 = [] /\ st1 = PD kb_empty (skipn b (pd_buf st)) (pd_cur st ++ firstn b (pd_buf st)) h).
      { unfold pcut in H1. cbn [pd_buf pd_cur pd_hash pd_kb] in H1. destruct (Nat.ltb _ _); [discriminate|]. cbv zeta in H1.
        destruct (negb _); [discriminate|]. destruct (Nat.leb chunk_max _) eqn:Z.
        - apply Nat.leb_le in Z. rewrite app_length, firstn_length in Z. rewrite !app_length in L. unfold byte in *. lia.
        - apply pret_done in H1 as [-> ->]. rewrite K. auto. }
      destruct X as [-> ->].
      assert (EQ : (pd_cur st ++ firstn b (pd_buf st)) ++ skipn b (pd_buf st) ++ fst (stream reads) = pd_cur st ++ pd_buf st ++ fst (stream reads)).
      { rewrite <- app_assoc. f_equal. rewrite app_assoc, firstn_skipn. reflexivity. }
      rewrite <- EQ. apply IH in H; [|reflexivity|cbn [pd_cur pd_buf]; rewrite EQ; exact L]. cbn [pd_cur pd_buf] in H. exact H.
    - cbv zeta in H. destruct reads as [|[[|x d]| |] r]; try discriminate.
      + apply pret_done in H as [-> ->]. cbn. rewrite K, app_nil_r. eauto.
      + apply pret_done in H as [-> ->]. cbn. rewrite K, app_nil_r. eauto.
      + cbn [stream] in *. destruct (stream r) as [s e] eqn:Es. cbn [fst] in *.
        apply IH in H; [|exact K|]; cbn [pd_cur pd_buf]; rewrite Es in *; cbn [fst pd_cur pd_buf] in *; rewrite <- ?app_assoc in *; auto.
      + cbn [stream] in *. apply IH in H; [|exact K|]; cbn [pd_cur pd_buf app] in *; rewrite <- ?app_assoc in *; auto.
  Qed.
  Lemma pdata_small reads l k : pdata reads = (l, Done k) -> length (fst (stream reads)) < chunk_max ->
    k = obj_key (Object (fst (stream reads)) [] FileBlob).
  Proof.
    intros H L. apply pbind_done in H as (l1 & st & l2 & H1 & H2 & ->).
    destruct (ploop_small _ pd_init _ _ _ eq_refl L H1) as [_ [h ->]]. cbn [pd_cur pd_buf pd_init app] in *.
    rewrite pfinish_eq in H2 by reflexivity. cbn [pd_kb pd_cur] in H2. cbn [seq forallb empty_at kb_get kb_empty nth andb] in H2.
    unfold pblob in H2. apply pput_done in H2 as (_ & -> & _). reflexivity.
  Qed.
End ChunkFacts.
