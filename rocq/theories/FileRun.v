(** Storing and reading file data in a store. *)
From Verif Require Import Base BaseFacts Key KeyFacts Object World Store WorldFacts TableFacts SpecStore StoreCalls SpecTrace
  StoreFacts Frame DbRel Main SpecRun Integrity File ObjStoreFacts SpecFile FilePlan FileFacts ChunkFacts SessionFacts.

Section FileRun.
  Context {E : Env}.
  Notation ds := sqlite_ds.

  (** *** Executing plans *)
  Lemma follows_done {A} s (m : M A) p w a w' : follows s m p -> m w = (Done a, w') ->
    exists l, p = (l, Done a) /\ exec s l w = (Done tt, w').
  Proof.
    intros F H. rewrite F in H. apply bind_done in H as ([] & w1 & H1 & H2). inv H2.
    destruct p as [l r]. cbn [fst snd] in *. subst r. eauto.
  Qed.
  Lemma follows_intro {A} s (m : M A) l a w w' : follows s m (l, Done a) -> exec s l w = (Done tt, w') -> m w = (Done a, w').
  Proof. intros F H. rewrite F. cbn [fst snd]. unfold bind. rewrite H. reflexivity. Qed.
  Lemma put_data_done s reads w k w' : put_data s reads w = (Done k, w') ->
    exists l, pdata reads = (l, Done k) /\ exec s l w = (Done tt, w').
  Proof. apply follows_done, follows_data. Qed.
  Lemma exec_cons o l s w w' : exec s (o :: l) w = (Done tt, w') ->
    exists w1, put_obj s o w = (Done (obj_key o), w1) /\ exec s l w1 = (Done tt, w').
  Proof.
    cbn [exec]. intro H. apply bind_done in H as (k & w1 & H1 & H2). exists w1.
    destruct (put_obj_key _ _ _ _ _ H1) as [-> _]. auto.
  Qed.

  Lemma no_coll_incl a b : incl a b -> no_coll b -> no_coll a.
  Proof. intros I H x y Hx Hy. apply H; auto. Qed.
  Lemma put_obj_step o w k w' : put_obj ds o w = (Done k, w') ->
    incl (w_hashed w) (w_hashed w') /\ (forall x v, assoc x (d_data (cur_db w)) = Some v -> assoc x (d_data (cur_db w')) = Some v) /\
    w_conn w' = w_conn w /\ in_txn w' = in_txn w.
  Proof.
    intro H. apply put_obj_put in H. apply put_done in H as (_ & C & Hh & _ & T & Cn). rewrite Hh.
    split; [apply incl_tl, incl_refl|]. split; [|auto]. rewrite C. intros x v A. cbn. rewrite assoc_ignore, A. reflexivity.
  Qed.
  Lemma put_obj_ok o w : world_ok w -> world_ok (snd (put_obj ds o w)).
  Proof. exact (rel_put_obj ok_rel o w). Qed.
  Lemma exec_keeps l : forall w w', exec ds l w = (Done tt, w') ->
    incl (w_hashed w) (w_hashed w') /\ (forall o, holds w o -> holds w' o) /\ w_conn w' = w_conn w /\ in_txn w' = in_txn w.
  Proof.
    induction l as [|o l IH]; intros w w' H.
    - inv H. split; [apply incl_refl|auto].
    - apply exec_cons in H as (w1 & H1 & H2). apply put_obj_step in H1 as (A & B & C & D). apply IH in H2 as (A' & B' & C' & D').
      split; [eapply incl_tran; eassumption|]. split; [|split; congruence].
      intros x [F X]. apply B'. split; [exact F|]. apply B, X.
  Qed.
  Lemma exec_ok l : forall w, world_ok w -> world_ok (snd (exec ds l w)).
  Proof.
    induction l as [|o l IH]; intros w W; [exact W|]. cbn [exec]. pose proof (put_obj_ok o w W) as P. unfold bind.
    destruct (put_obj ds o w) as [[| | | |] w1]; try exact P. apply IH, P.
  Qed.
  Lemma exec_holds l : forall w w', world_ok w -> exec ds l w = (Done tt, w') -> no_coll (w_hashed w') ->
    world_ok w' /\ forall o, In o l -> holds w' o.
  Proof.
    induction l as [|o l IH]; intros w w' W H NC.
    - inv H. split; [exact W|intros o []].
    - apply exec_cons in H as (w1 & H1 & H2).
      assert (W1 : world_ok w1) by (pose proof (put_obj_ok o w W) as P; rewrite H1 in P; exact P).
      destruct (IH _ _ W1 H2 NC) as [W2 HH]. split; [exact W2|]. destruct (exec_keeps _ _ _ H2) as (I & K & _).
      intros x [<-|X]; [|apply HH, X]. apply K. exact (proj1 (put_obj_holds _ _ _ _ W H1 (no_coll_incl _ _ I NC))).
  Qed.

  (** Without faults every put succeeds. *)
  Lemma put_obj_nofault o w : w_faults w = [] -> obj_fits o = true ->
    exists w', put_obj ds o w = (Done (obj_key o), w') /\ w_faults w' = [].
  Proof.
    intros F Fi. unfold put_obj. rewrite Fi. unfold put, bind, hash. cbn [raw_put sqlite_ds]. unfold sqlite_raw_put, db_write, bind.
    match goal with |- context [op ?e ?x] => destruct (op_unfold e x) as (f & r & E1 & G) end.
    destruct (G F) as [-> ->]. rewrite E1. eexists. split; [reflexivity|].
    unfold put_db. match goal with |- context [match ?t with NoTxn => _ | _ => _ end] => destruct t end; reflexivity.
  Qed.
  Lemma exec_nofault l : forall w, w_faults w = [] -> Forall (fun o => obj_fits o = true) l ->
    exists w', exec ds l w = (Done tt, w') /\ w_faults w' = [].
  Proof.
    induction l as [|o l IH]; intros w F Fi; [exists w; auto|]. inv Fi. cbn [exec].
    destruct (put_obj_nofault o w F H1) as (w1 & P & F1). unfold bind. rewrite P. apply IH; assumption.
  Qed.
  (** A plan only puts objects that fit. *)
  Definition fitting {A} (p : plan A) : Prop := Forall (fun o => obj_fits o = true) (fst p).
  Lemma fitting_put o : fitting (pput o).
  Proof. unfold fitting, pput. destruct (obj_fits o) eqn:F; repeat constructor. exact F. Qed.
  Lemma fitting_bind {A B} (p : plan A) (f : A -> plan B) : fitting p -> (forall a, fitting (f a)) -> fitting (pbind p f).
  Proof.
    unfold fitting. intros H K. rewrite pbind_fst. apply Forall_app. split; [exact H|]. destruct (snd p); auto.
  Qed.
  Lemma fitting_ret {A} (a : A) : fitting (pret a).
  Proof. constructor. Qed.
  Lemma fitting_cascade l : forall z kb, fitting (pcascade l z kb).
  Proof.
    induction l as [|o l IH]; intros z kb; cbn [pcascade]; [apply fitting_ret|]. destruct (_ || _); [|apply fitting_ret].
    apply fitting_bind; [apply fitting_put|auto].
  Qed.
  Lemma fitting_cut st b : fitting (pcut st b).
  Proof.
    unfold pcut. destruct (Nat.ltb _ _); [constructor|]. cbv zeta. destruct (negb _); [constructor|].
    destruct (Nat.leb _ _); [|apply fitting_ret]. apply fitting_bind; [apply fitting_put|intro].
    apply fitting_bind; [apply fitting_cascade|intro; apply fitting_ret].
  Qed.
  Lemma fitting_loop f : forall st reads, fitting (ploop f st reads).
  Proof.
    induction f as [|f IH]; intros st reads; [constructor|]. rewrite ploop_unfold. destruct (next_match _ _ _) as [hm h].
    destruct (boundary hm (pd_buf st)); [apply fitting_bind; [apply fitting_cut|auto]|]. cbv zeta.
    destruct reads as [|[[|x d]| |] r]; try apply fitting_ret; auto. constructor.
  Qed.
  Lemma fitting_fold l : forall kb, fitting (pfold l kb).
  Proof.
    induction l as [|o l IH]; intros kb; cbn [pfold]; [apply fitting_ret|]. apply fitting_bind; [apply fitting_put|intro].
    destruct (kb_get kb o) as [|? [|]]; auto. destruct (forallb _ _); auto using fitting_ret.
  Qed.
  Lemma fitting_finish st : fitting (pfinish st).
  Proof.
    unfold pfinish. cbv zeta. destruct (forallb _ _); [apply fitting_put|]. apply fitting_bind.
    - destruct (pd_cur st ++ pd_buf st); [apply fitting_ret|]. apply fitting_bind; [apply fitting_put|intro; apply fitting_ret].
    - intro. apply fitting_bind; [apply fitting_fold|]. intros [[k|] kb']; [apply fitting_ret|apply fitting_put].
  Qed.
  Lemma fitting_data reads : fitting (pdata reads).
  Proof. apply fitting_bind; [apply fitting_loop|apply fitting_finish]. Qed.

  (** What [put_data] returns without storage faults. *)
  Lemma put_data_nofault reads w : w_faults w = [] -> fst (put_data ds reads w) = snd (pdata reads).
  Proof.
    intro F. rewrite follows_data. destruct (exec_nofault _ w F (fitting_data reads)) as (w' & X & _).
    unfold bind. rewrite X. reflexivity.
  Qed.
  (** What it can return in any case. *)
  Lemma exec_outcome l : forall w, match fst (exec ds l w) with
    | Done _ | Error ESql | Crashed => True
    | Panicked PCapacity => True
    | _ => False end.
  Proof.
    induction l as [|o l IH]; intro w; cbn [exec]; [exact I|]. unfold bind at 1. unfold put_obj. destruct (obj_fits o); [|exact I].
    unfold put, bind, hash. cbn [raw_put sqlite_ds]. unfold sqlite_raw_put, db_write, bind.
    match goal with |- context [op ?e ?x] => destruct (op_case e x) as (f & w1 & E1 & T) end. rewrite E1.
    destruct f as [| | |[|]]; try exact I. apply IH.
  Qed.
  Lemma put_data_outcome reads w :
    match fst (put_data ds reads w) with
    | Done _ | Error EIo | Error ESql | Panicked PCapacity | Crashed => True
    | _ => False
    end.
  Proof.
    rewrite follows_data. unfold bind. pose proof (exec_outcome (fst (pdata reads)) w) as X. pose proof (pdata_fine reads) as Y.
    destruct (exec ds (fst (pdata reads)) w) as [[u|e|x| |] w1]; cbn [fst out] in *; try exact X.
    - destruct (snd (pdata reads)) as [|[]|[]| |]; try exact I; contradiction.
    - destruct e; try exact I; contradiction.
  Qed.

  (** Idempotence. *)
  Lemma exec_again l : forall w w', (forall o, In o l -> exists v, assoc (as_db_key (obj_key o)) (d_data (cur_db w)) = Some v) ->
    exec ds l w = (Done tt, w') -> cur_db w' = cur_db w /\ disk w' = disk w.
  Proof.
    induction l as [|o l IH]; intros w w' H X.
    - inv X. auto.
    - apply exec_cons in X as (w1 & X1 & X2). apply put_obj_put in X1. destruct (H o (or_introl eq_refl)) as [v Hv].
      destruct (put_present _ _ _ _ _ Hv X1) as (_ & C & D).
      destruct (IH w1 w') as [C' D']; [|exact X2|split; congruence]. intros o' I. rewrite C. apply H. right. exact I.
  Qed.
  Lemma exec_present l : forall w w', exec ds l w = (Done tt, w') ->
    forall o, In o l -> exists v, assoc (as_db_key (obj_key o)) (d_data (cur_db w')) = Some v.
  Proof.
    induction l as [|o l IH]; intros w w' X x I0; [destruct I0|]. destruct I0 as [<-|I].
    - apply exec_cons in X as (w1 & X1 & X2). apply put_obj_put, put_done in X1 as (_ & C & _).
      assert (P : exists v, assoc (as_db_key (obj_key o)) (d_data (cur_db w1)) = Some v).
      { rewrite C. cbn. rewrite assoc_ignore. destruct (assoc _ _) as [v|]; [eauto|]. rewrite bytes_eqb_refl. eauto. }
      destruct P as [v P]. exists v. clear -X2 P. revert w1 X2 P. induction l as [|y l IH]; intros w1 X2 P.
      + inv X2. exact P.
      + apply exec_cons in X2 as (w2 & X1 & X2). apply put_obj_step in X1 as (_ & B & _). eauto.
    - apply exec_cons in X as (w1 & X1 & X2). eauto.
  Qed.
  Lemma put_data_twice reads w k w1 k' w2 :
    put_data ds reads w = (Done k, w1) -> put_data ds reads w1 = (Done k', w2) ->
    k' = k /\ cur_db w2 = cur_db w1 /\ disk w2 = disk w1.
  Proof.
    intros H1 H2. apply put_data_done in H1 as (l & P & X). apply put_data_done in H2 as (l' & P' & X').
    rewrite P in P'. inv P'. split; [reflexivity|]. eapply exec_again; [|exact X']. eapply exec_present, X.
  Qed.
  Lemma put_data_any s s' reads w w' k k' w1 w1' :
    put_data s reads w = (Done k, w1) -> put_data s' reads w' = (Done k', w1') -> k = k'.
  Proof.
    intros H1 H2. apply put_data_done in H1 as (l & P & _). apply put_data_done in H2 as (l' & P' & _). congruence.
  Qed.

  Lemma exec_hashed l : forall w w', exec ds l w = (Done tt, w') -> puts_between w w' l.
  Proof.
    unfold puts_between. induction l as [|o l IH]; intros w w' H.
    - inv H. reflexivity.
    - apply exec_cons in H as (w1 & H1 & H2). apply put_obj_put, put_done in H1 as (_ & _ & H1 & _). rewrite (IH _ _ H2), H1.
      cbn [map rev]. rewrite <- app_assoc. reflexivity.
  Qed.
  Lemma no_coll_nodup log : NoDup (map blake3 log) -> no_coll log.
  Proof.
    induction log as [|x log IH]; intros N a b Ha Hb H; [destruct Ha|]. cbn [map] in N. apply NoDup_cons_iff in N as [N1 N2].
    destruct Ha as [<-|Ha], Hb as [<-|Hb].
    - reflexivity.
    - exfalso. apply N1. rewrite H. apply in_map, Hb.
    - exfalso. apply N1. rewrite <- H. apply in_map, Ha.
    - apply IH; assumption.
  Qed.

  (** *** Reading *)
  Section Reading.
    Context {S : Type} (wr : S -> bytes -> M S) (Inv : S -> bytes -> world -> Prop) (objs : list object).
    Hypothesis Inv_holds : forall s acc w, Inv s acc w -> forall o, In o objs -> holds w o.
    Hypothesis Inv_tick : forall s acc w w1, Inv s acc w -> ticked w w1 -> Inv s acc w1.
    Hypothesis Inv_wr : forall s acc w d s' w', Inv s acc w -> wr s d w = (Done s', w') -> Inv s' (acc ++ d) w'.

    Definition each (f : nat) : list key -> S -> M S :=
      fix each (l : list key) (s : S) : M S :=
        match l with
        | [] => ret s
        | k' :: r => s' <- read_data ds wr f k' s ;; each r s'
        end.
    Lemma read_den n : forall k bs f s acc w s' w', den objs n k bs -> Inv s acc w ->
      read_data ds wr f k s w = (Done s', w') -> Inv s' (acc ++ bs) w'.
    Proof.
      induction n as [|n IH]; intros k bs f s acc w s' w' D I R; (destruct f as [|f]; [discriminate|]); cbn [read_data] in R;
        destruct D as (o & Ho & <- & D); apply bind_done in R as (o' & w1 & G & R);
        rewrite (get_holds_done _ _ _ _ (Inv_holds _ _ _ I o Ho) G) in R;
        apply get_obj_done in G as [T _]; apply (Inv_tick _ _ _ _ I) in T.
      - destruct D as [[Et Ed]|[_ []]]. rewrite Et in R. subst bs. eapply Inv_wr; eassumption.
      - destruct D as [[Et Ed]|[Et (parts & F & C)]]; rewrite Et in R.
        + subst bs. eapply Inv_wr; eassumption.
        + change (each f (o_keys o) s w1 = (Done s', w')) in R. subst bs.
          clear Et Ho I. revert s acc w1 T R. induction F as [|k bs ks parts Dk F IHF]; intros s acc w1 T R.
          * apply ret_done in R as [-> ->]. cbn. rewrite app_nil_r. exact T.
          * cbn [each] in R. apply bind_done in R as (s1 & w2 & R1 & R2). cbn [concat]. rewrite app_assoc.
            eapply IHF; [|exact R2]. eapply IH; eassumption.
    Qed.
  End Reading.
  Section ReadingLive.
    Context {S : Type} (wr : S -> bytes -> M S) (Inv : S -> bytes -> world -> Prop) (objs : list object).
    Hypothesis Inv_holds : forall s acc w, Inv s acc w -> w_faults w = [] /\ forall o, In o objs -> holds w o.
    Hypothesis Inv_tick : forall s acc w w1, Inv s acc w -> ticked w w1 -> w_faults w1 = [] -> Inv s acc w1.
    Hypothesis Inv_wr : forall s acc w d, Inv s acc w -> exists s' w', wr s d w = (Done s', w') /\ Inv s' (acc ++ d) w'.
    Lemma read_live n : forall k bs f s acc w, den objs n k bs -> n < f -> Inv s acc w ->
      exists s' w', read_data ds wr f k s w = (Done s', w') /\ Inv s' (acc ++ bs) w'.
    Proof.
      induction n as [|n IH]; intros k bs f s acc w D L I; (destruct f as [|f]; [lia|]); cbn [read_data];
        destruct D as (o & Ho & <- & D); destruct (Inv_holds _ _ _ I) as [NF HH];
        destruct (get_holds_nofault w o NF (HH o Ho)) as (w1 & T & NF1 & G);
        unfold bind at 1; rewrite G; pose proof (Inv_tick _ _ _ _ I T NF1) as I1.
      - destruct D as [[-> <-]|[_ []]]. apply Inv_wr, I1.
      - destruct D as [[Et Ed]|[Et (parts & F & C)]]; rewrite Et.
        + subst bs. apply Inv_wr, I1.
        + change (exists s' w', each wr f (o_keys o) s w1 = (Done s', w') /\ Inv s' (acc ++ bs) w'). subst bs.
          clear Et Ho I HH NF NF1 G T. revert s acc w1 I1. induction F as [|k bs ks parts Dk F IHF]; intros s acc w1 I1.
          * exists s, w1. cbn. rewrite app_nil_r. auto.
          * cbn [each concat]. destruct (IH k bs f s acc w1 Dk ltac:(lia) I1) as (s1 & w2 & R1 & I2).
            unfold bind. rewrite R1. rewrite app_assoc. apply IHF, I2.
    Qed.
  End ReadingLive.

  (** Reading into a byte vector. *)
  Lemma holds_ticked w w1 o : ticked w w1 -> holds w o -> holds w1 o.
  Proof. intros T [F H]. split; [exact F|]. rewrite (cur_ticked _ _ T). exact H. Qed.
  Lemma ticked_trans a b c : ticked a b -> ticked b c -> ticked a c.
  Proof. intros (t & f & ->) (t' & f' & ->). exists t', f'. reflexivity. Qed.
  Lemma ticked_refl w : ticked w w.
  Proof. exists (w_tick w), (w_faults w). destruct w; reflexivity. Qed.
  Lemma read_vec objs n k bs f s w s' w' : (forall o, In o objs -> holds w o) -> den objs n k bs ->
    read_data ds vec_write f k s w = (Done s', w') -> s' = s ++ bs /\ ticked w w'.
  Proof.
    intros H D R.
    apply (read_den vec_write (fun s1 acc w1 => s1 = s ++ acc /\ ticked w w1) objs) with (acc := []) (n := n) (bs := bs) in R; auto.
    - intros s1 acc w1 [_ T] o Ho. eapply holds_ticked; eauto.
    - intros s1 acc w1 w2 [-> T] T2. split; [reflexivity|eapply ticked_trans; eassumption].
    - intros s1 acc w1 d s2 w2 [-> T] X. apply ret_done in X as [-> ->]. rewrite app_assoc. auto.
    - split; [symmetry; apply app_nil_r|apply ticked_refl].
  Qed.
  Lemma read_vec_live objs n k bs f s w : w_faults w = [] -> (forall o, In o objs -> holds w o) -> den objs n k bs -> n < f ->
    exists w', read_data ds vec_write f k s w = (Done (s ++ bs), w') /\ ticked w w' /\ w_faults w' = [].
  Proof.
    intros F H D L.
    destruct (read_live vec_write (fun s1 acc w1 => s1 = s ++ acc /\ ticked w w1 /\ w_faults w1 = []) objs) with (acc := @nil byte) (n := n) (k := k) (bs := bs) (f := f) (s := s) (w := w)
      as (s' & w' & R & -> & T); auto.
    - intros s1 acc w1 (_ & T & NF). split; [exact NF|]. intros o Ho. eapply holds_ticked; eauto.
    - intros s1 acc w1 w2 (-> & T & _) T2 NF. split; [reflexivity|]. split; [eapply ticked_trans; eassumption|exact NF].
    - intros s1 acc w1 d (-> & T & NF). exists ((s ++ acc) ++ d), w1. split; [reflexivity|]. rewrite app_assoc. auto.
    - split; [symmetry; apply app_nil_r|]. split; [apply ticked_refl|exact F].
    - exists w'. auto.
  Qed.

  (** *** Round trip *)
  Lemma den_reads objs w k bs : (forall o, In o objs -> holds w o) -> den objs 5 k bs -> reads_data w k bs.
  Proof.
    intros H D fuel L. edestruct (read_vec_live objs 5 k bs fuel [] (set_faults w [])) as (w' & R & _); auto.
    rewrite R. reflexivity.
  Qed.
  Lemma split_data reads w k w' : put_data ds reads w = (Done k, w') ->
    exists st w1, pd_loop ds (reads_weight reads) pd_init reads w = (Done st, w1) /\ pd_finish ds st w1 = (Done k, w').
  Proof. intro H. apply bind_done in H as (st & w1 & H1 & H2). eauto. Qed.
  Lemma round_trip reads w st w1 k w' : world_ok w ->
    pd_loop ds (reads_weight reads) pd_init reads w = (Done st, w1) -> pd_finish ds st w1 = (Done k, w') ->
    no_coll (w_hashed w') ->
    snd (stream reads) = false /\
    (~ loses (pd_kb st) -> reads_data w' k (fst (stream reads))) /\
    (loses (pd_kb st) -> exists lost kept, fst (stream reads) = lost ++ kept /\ reads_data w' k kept /\
       (* the lost part is stored, but not referred to *)
       exists objs, lev objs 4 (kb_get (pd_kb st) 4) lost /\ (forall o, In o objs -> holds w' o)).
  Proof.
    intros W H1 H2 NC.
    apply (follows_done _ _ _ _ _ _ (follows_loop ds _ _ _)) in H1 as (l1 & P1 & X1).
    apply (follows_done _ _ _ _ _ _ (follows_finish ds st)) in H2 as (l2 & P2 & X2).
    assert (X : exec ds (l1 ++ l2) w = (Done tt, w')).
    { rewrite exec_app. unfold bind. rewrite X1. exact X2. }
    assert (P : pdata reads = (l1 ++ l2, Done k)).
    { unfold pdata. rewrite P1. cbn [pbind]. rewrite P2. reflexivity. }
    destruct (exec_holds _ _ _ W X NC) as [_ HH].
    destruct (data_den _ _ _ P) as (m1 & m2 & st' & Q1 & Q2 & Q & S & A & B). rewrite P1 in Q1. inv Q1.
    split; [exact S|]. split.
    - intro NL. eapply den_reads; [exact HH|]. apply A, NL.
    - intro NL. destruct (B NL) as (lost & kept & D1 & D2 & D3). exists lost, kept. split; [exact D1|].
      split; [eapply den_reads; eassumption|]. exists m1. split; [exact D2|].
      intros o Ho. apply HH. apply in_or_app. left. exact Ho.
  Qed.
  Lemma lost_part reads w st w1 k w' : world_ok w ->
    pd_loop ds (reads_weight reads) pd_init reads w = (Done st, w1) -> pd_finish ds st w1 = (Done k, w') ->
    no_coll (w_hashed w') -> loses (pd_kb st) ->
    exists lost kept, fst (stream reads) = lost ++ kept /\ reads_data w' k kept /\
      exists parts, Forall2 (reads_data w') (kb_get (pd_kb st) 4) parts /\ concat parts = lost.
  Proof.
    intros W H1 H2 NC L. destruct (round_trip _ _ _ _ _ _ W H1 H2 NC) as (_ & _ & R).
    destruct (R L) as (lost & kept & A & B & objs & (parts & P & C) & H). exists lost, kept. split; [exact A|]. split; [exact B|].
    exists parts. split; [|exact C]. eapply Forall2_impl'; [|exact P]. intros a b D. eapply den_reads; [exact H|].
    eapply den_mono; [|apply incl_refl|exact D]. lia.
  Qed.

  (** Reading depends on the contents of the store only. *)
  Lemma read_same fuel : forall k s w1 w2 s1 s2 w1' w2', cur_db w1 = cur_db w2 ->
    read_data ds vec_write fuel k s w1 = (Done s1, w1') -> read_data ds vec_write fuel k s w2 = (Done s2, w2') ->
    s1 = s2 /\ cur_db w1' = cur_db w1 /\ cur_db w2' = cur_db w2.
  Proof.
    induction fuel as [|f IH]; intros k s w1 w2 s1 s2 w1' w2' C R1 R2; [discriminate|]. cbn [read_data] in R1, R2.
    apply bind_done in R1 as (o1 & u1 & G1 & R1). apply bind_done in R2 as (o2 & u2 & G2 & R2).
    apply get_obj_done in G1 as (T1 & v1 & A1 & D1). apply get_obj_done in G2 as (T2 & v2 & A2 & D2).
    rewrite C in A1. rewrite A1 in A2. inv A2. rewrite D1 in D2. inv D2.
    apply cur_ticked in T1. apply cur_ticked in T2. rewrite <- T1, <- T2 in C. rewrite <- T1, <- T2. clear T1 T2.
    assert (EA : forall l s u1 u2, cur_db u1 = cur_db u2 -> forall s1 s2 w1' w2', each vec_write f l s u1 = (Done s1, w1') -> each vec_write f l s u2 = (Done s2, w2') ->
      s1 = s2 /\ cur_db w1' = cur_db u1 /\ cur_db w2' = cur_db u2).
    { clear -IH. induction l as [|k l IHl]; intros s u1 u2 C s1 s2 w1' w2' R1 R2; cbn [each] in *.
      - apply ret_done in R1 as [-> ->]. apply ret_done in R2 as [-> ->]. auto.
      - apply bind_done in R1 as (a1 & v1 & A1 & R1). apply bind_done in R2 as (a2 & v2 & A2 & R2).
        destruct (IH _ _ _ _ _ _ _ _ C A1 A2) as (-> & C1 & C2).
        destruct (IHl a2 v1 v2 ltac:(congruence) _ _ _ _ R1 R2) as (-> & C3 & C4). repeat split; congruence. }
    destruct (o_type o2); try discriminate.
    - eapply EA; eassumption.
    - apply ret_done in R1 as [-> ->]. apply ret_done in R2 as [-> ->]. auto.
    - destruct (o_keys o2) as [|k' [|]]; try discriminate. eapply IH; eassumption.
  Qed.
  Lemma read_deterministic w k bs fuel f bs' w' :
    fst (read_data ds vec_write fuel k [] (set_faults w [])) = Done bs ->
    read_data ds vec_write fuel k [] (set_faults w f) = (Done bs', w') -> bs' = bs.
  Proof.
    intros R1 R2. destruct (read_data ds vec_write fuel k [] (set_faults w [])) as [r w1] eqn:Q. cbn [fst] in R1. subst r.
    symmetry. refine (proj1 (read_same _ _ _ _ _ _ _ _ _ _ Q R2)). reflexivity.
  Qed.

  Lemma exec_null l : forall w, Forall (fun o => obj_fits o = true) l -> exists w', exec null_ds l w = (Done tt, w').
  Proof.
    induction l as [|o l IH]; intros w F; [eexists; reflexivity|]. inv F. cbn [exec]. unfold bind, put_obj. rewrite H1.
    unfold put, bind, hash. cbn [raw_put null_ds]. unfold ret at 1 2. apply IH. assumption.
  Qed.
  Lemma put_data_null reads w w' k w1 : put_data ds reads w = (Done k, w1) -> fst (put_data null_ds reads w') = Done k.
  Proof.
    intro H. apply put_data_done in H as (l & P & _). rewrite follows_data. pose proof (fitting_data reads) as F.
    unfold fitting in F. rewrite P in *. cbn [fst snd] in *. destruct (exec_null l w' F) as (w2 & X). unfold bind. rewrite X. reflexivity.
  Qed.

  Lemma blob_sizes reads w k w' : put_data ds reads w = (Done k, w') ->
    exists objs, puts_between w w' objs /\ concat (blobs objs) = fst (stream reads) /\
      exists chunks last, blobs objs = chunks ++ last /\ length last <= 1 /\
        Forall (fun d => 32768 <= lenN d)%N chunks /\
        (full_reads reads -> Forall (fun d => lenN d <= 65536)%N (blobs objs)).
  Proof.
    intro H. apply put_data_done in H as (l & P & X). exists l. split; [apply exec_hashed, X|].
    destruct (pdata_blobs _ _ _ P) as (C & chunks & last & B & M & L). split; [exact C|]. exists chunks, last.
    split; [exact B|]. split; [exact L|]. split.
    - eapply Forall_impl; [|exact M]. intros d Hd. unfold lenN. pose proof chunk_max_val. unfold byte in *. lia.
    - intro F. eapply Forall_impl; [|exact (pdata_max _ _ _ F P)]. intros d Hd. apply at_most_twice, Hd.
  Qed.
  Lemma small_files reads w k w' : put_data ds reads w = (Done k, w') -> (lenN (fst (stream reads)) < 32768)%N ->
    k = Blake3B (blake3 (encode_object (Object (fst (stream reads)) [] FileBlob))).
  Proof.
    intros H L. apply put_data_done in H as (l & P & _). apply (pdata_small _ _ _ P). unfold lenN in L.
    pose proof chunk_max_val. unfold byte in *. lia.
  Qed.
  Lemma small_len (d : bytes) : (lenN d + 5 < 2 ^ 62)%N -> small (length d + 5).
  Proof. unfold small, lenN. intro H. rewrite Nat2N.inj_add. exact H. Qed.
  Lemma put_data_succeeds reads w : w_faults w = [] -> snd (stream reads) = false -> (lenN (fst (stream reads)) + 5 < 2 ^ 62)%N ->
    exists k w', put_data ds reads w = (Done k, w').
  Proof.
    intros F S L. pose proof (pdata_total reads (small_len _ L)) as T. rewrite S in T. destruct T as (l & k & T).
    pose proof (put_data_nofault reads w F) as Q. rewrite T in Q. cbn [snd] in Q.
    destruct (put_data ds reads w) as [r w']. cbn [fst] in Q. subst r. eauto.
  Qed.
  Lemma exec_outcome_fits l : Forall (fun o => obj_fits o = true) l -> forall w, match fst (exec ds l w) with
    | Done _ | Error ESql | Crashed => True
    | _ => False end.
  Proof.
    induction l as [|o l IH]; intros F w; cbn [exec]; [exact I|]. inv F. unfold bind at 1. unfold put_obj. rewrite H1.
    unfold put, bind, hash. cbn [raw_put sqlite_ds]. unfold sqlite_raw_put, db_write, bind.
    match goal with |- context [op ?e ?x] => destruct (op_case e x) as (f & w1 & E1 & T) end. rewrite E1.
    destruct f as [| | |[|]]; try exact I. apply IH. assumption.
  Qed.
  Lemma put_data_outcomes reads w :
    match fst (put_data ds reads w) with
    | Done _ | Error EIo | Error ESql | Crashed => True
    | Panicked PCapacity => (2 ^ 62 <= lenN (fst (stream reads)) + 5)%N
    | _ => False
    end.
  Proof.
    rewrite follows_data. unfold bind. pose proof (exec_outcome_fits _ (fitting_data reads) w) as X. pose proof (pdata_fine reads) as Y.
    destruct (exec ds (fst (pdata reads)) w) as [[u|e|x| |] w1]; cbn [fst out] in *; try exact X; try contradiction.
    - destruct (N.lt_ge_cases (lenN (fst (stream reads)) + 5) (2 ^ 62)) as [L|L].
      + pose proof (pdata_total reads (small_len _ L)) as T. destruct (snd (stream reads)).
        * rewrite T. exact I.
        * destruct T as (l & k & ->). exact I.
      + destruct (snd (pdata reads)) as [|[]|[]| |]; try exact I; try contradiction. exact L.
    - destruct e; try exact I; contradiction.
  Qed.
  Lemma interrupts_invisible s reads reads' w : strip reads = strip reads' -> put_data s reads w = put_data s reads' w.
  Proof. intro H. rewrite !follows_data. rewrite (pdata_same _ _ H). reflexivity. Qed.
  Lemma errors_reported reads w : snd (stream reads) = true ->
    (forall k, fst (put_data ds reads w) <> Done k) /\
    (w_faults w = [] -> (lenN (fst (stream reads)) + 5 < 2 ^ 62)%N -> fst (put_data ds reads w) = Error EIo).
  Proof.
    intro S. split.
    - intros k H. destruct (put_data ds reads w) as [r w'] eqn:Q. cbn [fst] in H. subst r.
      apply put_data_done in Q as (l & P & _). apply data_den in P as (l1 & l2 & st & _ & _ & _ & X & _). congruence.
    - intros F L. rewrite put_data_nofault by exact F. pose proof (pdata_total reads (small_len _ L)) as T. rewrite S in T. exact T.
  Qed.
End FileRun.
