(** [hash_fs_item] and the cache. *)
From Coq Require Import RelationClasses.
From Verif Require Import Base BaseFacts Key KeyFacts Cbor CborFacts Object Path World WorldFacts Store TableFacts File Filter Dir Diff SpecStore SpecRun SpecFile SpecDir SpecCache
  Frame Integrity ObjStoreFacts FilePlan FileFacts FileRun FsFacts DirPlan DirFacts GetFacts DirTrip DirWalk CacheFacts.

Section HashFacts.
  Context {E : Env}.
  Notation ds := sqlite_ds.

  (** Files stay, the hash log grows. *)
  Definition fr (w w' : world) : Prop := w_fs w' = w_fs w /\ w_cwd w' = w_cwd w /\ incl (w_hashed w) (w_hashed w').
  #[export] Instance fr_pre : PreOrder fr.
  Proof.
    split; [intro w; repeat split; apply incl_refl|]. intros a b c (A1 & A2 & A3) (B1 & B2 & B3).
    repeat split; try congruence. eapply incl_tran; eassumption.
  Qed.
  Lemma fr_ticked w w1 : ticked w w1 -> fr w w1.
  Proof. intros (? & ? & ->). repeat split. apply incl_refl. Qed.
  (** ... and the cache stays, up to a rollback. *)
  Definition crel (w w' : world) : Prop :=
    fr w w' /\ w_cache w' = w_cache w /\ (w_ctxn w' = w_ctxn w \/ w_ctxn w' = None).
  #[export] Instance crel_pre : PreOrder crel.
  Proof.
    split; [intro w; split; [reflexivity|auto]|]. intros a b c (A1 & A2 & A3) (B1 & B2 & B3).
    split; [etransitivity; eassumption|]. split; [congruence|]. destruct B3 as [->|]; auto.
  Qed.
  Lemma crel_ticked w w1 : ticked w w1 -> crel w w1.
  Proof. intro T. split; [apply fr_ticked, T|]. destruct T as (? & ? & ->). auto. Qed.
  Ltac op_tac := match goal with |- rel _ ?m => intro w; try unfold m end;
    match goal with |- context [op ?e ?x] => let fl := fresh "fl" in let w1 := fresh "w1" in let E1 := fresh "E1" in let T := fresh "T" in
      destruct (op_case e x) as (fl & w1 & E1 & T); rewrite E1; clear E1; etransitivity; [apply crel_ticked, T|]; clear T end.
  Ltac crel_fin := try solve [reflexivity | split; [split; [reflexivity|split; [reflexivity|apply incl_refl]]|cbn; auto]].
  Lemma crel_read {A} (q : db -> A) : rel crel (db_read q).
  Proof. unfold db_read. op_tac. destruct fl; crel_fin. Qed.
  #[export] Instance crel_Rd : RdPrims crel.
  Proof.
    split; [exact _|intros; apply crel_read|..].
    - intros t a. unfold print. op_tac. destruct fl; crel_fin.
    - intros d. unfold write_stdout. op_tac. destruct fl; crel_fin.
    - intros A q. unfold fs_query. op_tac. destruct fl; crel_fin. cbn. destruct (q _ _); crel_fin.
    - intro p. unfold fs_read_dir. op_tac. cbn. destruct (stat _ _ _) as [[l [| | |]]|]; destruct fl as [|[|]| |]; crel_fin.
    - intro p. unfold fs_open_read. op_tac. cbn. destruct (stat _ _ _) as [[l [| | |]]|]; destruct fl as [|[|]| |]; crel_fin.
  Qed.
  Lemma crel_write u : rel crel (db_write u).
  Proof.
    unfold db_write. op_tac. assert (P : forall d, crel w1 (put_db d w1)) by (intro d; unfold put_db; destruct (w_txn w1); crel_fin).
    destruct fl as [| | |[|]]; crel_fin; apply P.
  Qed.
  #[export] Instance crel_Put : PutPrims crel.
  Proof.
    split. intro d. unfold put. cbn [raw_put sqlite_ds]. unfold sqlite_raw_put. apply rel_bind; [exact _| |].
    - intro w. unfold hash. cbn. split; [|auto]. split; [reflexivity|]. split; [reflexivity|]. apply incl_tl, incl_refl.
    - intro k. apply rel_bind; [exact _|apply crel_write|]. intros ? w. reflexivity.
  Qed.
  #[export] Instance crel_Ref : RefPrims crel.
  Proof.
    split.
    - intro h. unfold put_head. cbn [raw_put_state sqlite_ds]. apply crel_write.
    - intro h. cbn [reflog_push sqlite_ds]. apply crel_write.
  Qed.
  Lemma crel_cache_read {A} (q : list (bytes * bytes) -> A) : rel crel (cache_read q).
  Proof. unfold cache_read. op_tac. destruct fl; crel_fin. Qed.
  Lemma crel_cache_get c : rel crel (cache_get c).
  Proof.
    unfold cache_get. apply rel_bind; [exact _|apply crel_cache_read|]. intros [d|] w; [|reflexivity].
    unfold bind, lift_result. destruct (from_db_key d); reflexivity.
  Qed.
  Lemma fr_cache_put c k : rel fr (cache_put c k).
  Proof.
    intro w. unfold cache_put, cache_write.
    match goal with |- context [op ?e ?x] => destruct (op_case e x) as (fl & w1 & E1 & T) end. rewrite E1. etransitivity; [apply fr_ticked, T|].
    destruct fl as [| | |[|]]; cbn; try (repeat split; apply incl_refl); unfold put_cache; destruct (w_ctxn w1); (repeat split; apply incl_refl).
  Qed.
  Lemma rel_fr {A} (m : M A) : rel crel m -> rel fr m.
  Proof. intros H w. apply H. Qed.
  #[export] Instance fr_Rd : RdPrims fr.
  Proof.
    split; [exact _|intros; apply rel_fr..]; [apply crel_read|apply (rp_print (R := crel))|apply (rp_stdout (R := crel))|apply (rp_fsq (R := crel))|apply (rp_readdir (R := crel))|apply (rp_openread (R := crel))].
  Qed.
  #[export] Instance fr_Put : PutPrims fr.
  Proof. split. intro. apply rel_fr, pp_put. Qed.
  #[export] Instance fr_Cache : CachePrims fr.
  Proof. split; [intros; apply rel_fr, crel_cache_read|intros; apply fr_cache_put]. Qed.

  (** *** Right answers *)
  Lemma right_mono w w' : crel w w' -> cache_right w -> cache_right w'.
  Proof.
    intros ((F1 & F2 & F3) & C1 & C2) [H1 H2].
    assert (G : forall u, w_fs u = w_fs w -> incl (w_hashed w) (w_hashed u) -> cur_cache u = cur_cache w \/ cur_cache u = w_cache w -> answers_right u).
    { intros u U1 U2 U3 l c st k L A. eapply hashed_mono; [exact U2|]. rewrite U1 in L. rewrite looked_up_eq in A.
      destruct U3 as [U3|U3]; rewrite U3 in A; [apply (H1 l c st)|apply (H2 l c st)]; auto; rewrite looked_up_eq; exact A. }
    split; apply G; auto.
    unfold cur_cache. destruct C2 as [->| ->]; [left|right]; rewrite ?C1; [destruct (w_ctxn w)|]; reflexivity || exact C1.
  Qed.
  Lemma right_put c st k w : triples_ok (w_fs w) -> (exists l, lookup (w_fs w) l = Some (EFile c st)) ->
    hashed_as (w_hashed w) c k -> cache_right w -> cache_right (snd (cache_put (triple c st) k w)).
  Proof.
    intros [T1 T2] [l0 L0] Hk R. unfold cache_put, cache_write.
    match goal with |- context [op ?e ?x] => destruct (op_case e x) as (fl & w1 & E1 & T) end. rewrite E1.
    assert (R1 : cache_right w1) by (eapply right_mono; [apply crel_ticked, T|exact R]).
    assert (F1 : w_fs w1 = w_fs w /\ w_hashed w1 = w_hashed w) by (destruct T as (? & ? & ->); auto). destruct F1 as [F1 F2].
    assert (Tab : forall tab l c' st' k', lookup (w_fs w) l = Some (EFile c' st') ->
      (answer (assoc (cache_bytes (triple c' st')) tab) = Done (Some k') -> hashed_as (w_hashed w) c' k') ->
      answer (assoc (cache_bytes (triple c' st')) (insert_or_ignore (cache_bytes (triple c st)) (as_db_key k) tab)) = Done (Some k') ->
      hashed_as (w_hashed w) c' k').
    { intros tab l c' st' k' L HA A. rewrite assoc_ignore in A. destruct (assoc (cache_bytes (triple c' st')) tab) as [d|]; [auto|].
      rewrite bytes_eqb_triple in A by eauto. destruct (same_triple (triple c' st') (triple c st)) eqn:Q; [|discriminate].
      apply same_triple_iff in Q. assert (c' = c) as -> by eauto. cbn [answer] in A. rewrite from_as_db_key in A. inv A. exact Hk. }
    assert (Put : cache_right (put_cache (insert_or_ignore (cache_bytes (triple c st)) (as_db_key k) (cur_cache w1)) w1)).
    { destruct R1 as [A1 A2]. unfold answers_right in A1, A2. cbn [w_fs w_hashed set_ctxn] in A2. rewrite F1, F2 in A1, A2. split.
      - intros l c' st' k' L A. rewrite looked_up_eq, cur_put_cache in A.
        assert (X : w_fs (put_cache (insert_or_ignore (cache_bytes (triple c st)) (as_db_key k) (cur_cache w1)) w1) = w_fs w /\
          w_hashed (put_cache (insert_or_ignore (cache_bytes (triple c st)) (as_db_key k) (cur_cache w1)) w1) = w_hashed w)
          by (unfold put_cache; destruct (w_ctxn w1); auto). destruct X as [X1 X2]. rewrite X1 in L. rewrite X2.
        eapply Tab; [exact L| |exact A]. intro B. eapply A1; [exact L|]. rewrite looked_up_eq. exact B.
      - intros l c' st' k' L A. rewrite looked_up_eq in A. unfold put_cache in *. destruct (w_ctxn w1) as [tab|] eqn:Q; cbn [w_fs w_hashed set_ctxn set_cache] in *.
        + rewrite F1 in L. rewrite F2. eapply A2; [exact L|]. rewrite looked_up_eq. exact A.
        + rewrite F1 in L. rewrite F2. assert (Qc : cur_cache w1 = w_cache w1) by (unfold cur_cache; rewrite Q; reflexivity).
          rewrite Qc in A. eapply Tab; [exact L| |exact A]. intro B. eapply A2; [exact L|]. rewrite looked_up_eq. exact B. }
    destruct fl as [| | |[|]]; cbn [snd]; auto; try (eapply right_mono; [|exact R1]; split; [split; [reflexivity|split; [reflexivity|apply incl_refl]]|cbn; auto]).
    destruct (w_ctxn w1); [exact R1|exact Put].
  Qed.
  (** *** [hash_fs_item] *)
  Lemma segment_done size c st t (r : stamp * N * list readres) h l : (r = (st, wrap64 (lenN c), segment (read_sizes t c) c) \/
       exists n, r = (st, wrap64 (lenN c), firstn n (segment (read_sizes t c) c) ++ [RError])) ->
    pdata (snd r) = (l, Done h) -> size = wrap64 (lenN c) -> snd r = segment (read_sizes t c) c.
  Proof.
    intros R P _. destruct R as [->|[n ->]]; [reflexivity|]. cbn [snd] in *. exfalso.
    apply data_den in P as (? & ? & ? & _ & _ & _ & Y & _). rewrite stream_error in Y; [discriminate|]. apply Forall_firstn', segment_nonempty.
  Qed.
  Lemma cache_get_done ck w r w' : cache_get ck w = (Done r, w') -> ticked w w' /\ looked_up w ck = Done r.
  Proof.
    unfold cache_get. intro H. apply bind_done in H as (d & w1 & H1 & H2). unfold cache_read in H1.
    match type of H1 with op ?e ?y = _ => destruct (op_case e y) as (fl & w2 & E1 & T) end. rewrite E1 in H1.
    rewrite looked_up_eq. assert (cur_cache w2 = cur_cache w) as X by (destruct T as (? & ? & ->); reflexivity). rewrite X in H1.
    destruct fl; inv H1. destruct (assoc (cache_bytes ck) (cur_cache w)) as [d|]; cbn [answer].
    - apply bind_done in H2 as (k & w3 & H2 & H3). apply lift_result_done in H2 as [H2 ->]. apply ret_done in H3 as [-> ->].
      split; [exact T|]. rewrite H2. reflexivity.
    - apply ret_done in H2 as [-> ->]. auto.
  Qed.
  Lemma hash_done p w k w' : hash_fs_item ds p w = (Done k, w') ->
    exists l c st, stat (w_fs w) (w_cwd w) p = Some (l, EFile c st) /\
      ((ticked w w' /\ looked_up w (triple c st) = Done (Some k)) \/
       exists t objs w1, looked_up w (triple c st) = Done None /\ pfile c t = (objs, Done k) /\ puts ds w objs w1 /\
         w' = snd (cache_put (triple c st) k w1)).
  Proof.
    unfold hash_fs_item. intro H. apply bind_done in H as (m & w1 & H1 & H). apply metadata_done in H1 as (T1 & l & e & S1 & M1).
    destruct m as [|size st|]; try discriminate. apply bind_done in H as (r & w2 & H2 & H). apply open_read_done in H2 as (T2 & l' & c & st' & t & S2 & R2).
    destruct (ticked_fs _ _ T1) as [X1 X2]. rewrite X1, X2, S1 in S2. inv S2. exists l', c, st'. split; [exact S1|]. cbn in M1. inv M1.
    assert (H' : (cached <- cache_get (triple c st);; match cached with Some h => ret h | None => h <- put_data ds (snd r);; k <- put_item ds (file_item (wrap64 (lenN c)) h);; try (cache_put (triple c st) k);;; ret k end) w2 = (Done k, w')).
    { destruct R2 as [->|[n ->]]; exact H. } clear H.
    apply bind_done in H' as (cc & w3 & H3 & H). apply cache_get_done in H3 as [T3 L3].
    assert (L : looked_up w2 (triple c st) = looked_up w (triple c st)) by (rewrite !looked_up_eq; destruct T1 as (? & ? & ->), T2 as (? & ? & ->); reflexivity).
    rewrite L in L3. pose proof (ticked_trans _ _ _ (ticked_trans _ _ _ T1 T2) T3) as T. destruct cc as [h|].
    - left. apply ret_done in H as [-> ->]. auto.
    - right. apply bind_done in H as (h & w4 & H4 & H). apply put_data_done in H4 as (l1 & P1 & Y1).
      pose proof (segment_done _ _ _ _ _ _ _ R2 P1 eq_refl) as Q. rewrite Q in P1. apply bind_done in H as (k' & w5 & H5 & H).
      apply (follows_done _ _ _ _ _ _ (follows_item _ _)) in H5 as (l2 & P2 & Y2).
      exists t, (l1 ++ l2), w5. split; [exact L3|]. 
      assert (k' = k /\ w' = snd (cache_put (triple c st) k' w5)) as [<- EE].
      { apply bind_done in H as (x & w6 & H6 & H). apply ret_done in H as [-> ->]. split; [reflexivity|]. apply try_done in H6 as [(a & _ & Z)|(e' & _ & Z)]; rewrite Z; reflexivity. }
      split; [|split; [|exact EE]].
      + unfold pfile. cbn [ptr]. rewrite P1. unfold pbind. rewrite P2. reflexivity.
      + eapply puts_tick; [exact T|]. eapply puts_app; apply exec_puts; eassumption.
  Qed.
  Lemma puts_grow w l w' : puts ds w l w' -> incl (map encode_object l) (w_hashed w') /\ incl (w_hashed w) (w_hashed w').
  Proof.
    intro P. rewrite (puts_log ds _ _ _ (or_introl eq_refl) P). split; [|apply incl_appr, incl_refl].
    intros x Hx. apply in_or_app. left. apply in_rev. rewrite rev_involutive. exact Hx.
  Qed.
  Lemma hash_right p w k w' : steady_reads -> cache_right w -> hash_fs_item ds p w = (Done k, w') ->
    exists l c st, stat (w_fs w) (w_cwd w) p = Some (l, EFile c st) /\ hashed_as (w_hashed w') c k.
  Proof.
    intros St [R _] H. pose proof (rel_hash_fs_item fr p w) as F. rewrite H in F. destruct F as (_ & _ & F).
    apply hash_done in H as (l & c & st & S & H). exists l, c, st. split; [exact S|]. apply stat_locate in S as (_ & L & _).
    destruct H as [[T A]|(t & objs & w1 & _ & P & U & ->)].
    - eapply hashed_mono; [exact F|]. eapply R; eauto.
    - eapply plan_hashed; [exact St|exact P|]. eapply incl_tran; [apply (puts_grow _ _ _ U)|]. apply fr_cache_put.
  Qed.
  Lemma hash_keeps p w : steady_reads -> triples_ok (w_fs w) -> cache_right w -> cache_right (snd (hash_fs_item ds p w)).
  Proof.
    intros St T R. unfold hash_fs_item. unfold bind at 1. destruct (fs_metadata p w) as [om w1] eqn:E1.
    assert (C1 : crel w w1) by (pose proof (rp_fsq (R := crel) meta (fun f cwd => match stat f cwd p with Some (_, e) => meta_of e | None => None end) w) as X; fold (fs_metadata p) in X; rewrite E1 in X; exact X).
    destruct om as [m| | | |]; try (eapply right_mono; eassumption).
    destruct m as [|size st|]; try (eapply right_mono; eassumption).
    unfold bind at 1. destruct (fs_open_read p w1) as [oo w2] eqn:E2.
    assert (C2 : crel w w2) by (etransitivity; [exact C1|]; pose proof (rp_openread (R := crel) p w1) as X; rewrite E2 in X; exact X).
    destruct oo as [r| | | |]; try (eapply right_mono; eassumption).
    apply metadata_done in E1 as (T1 & l & e & S1 & M1). apply open_read_done in E2 as (T2 & l' & c & st' & t & S2 & R2).
    destruct (ticked_fs _ _ T1) as [X1 X2]. rewrite X1, X2, S1 in S2. inv S2. cbn in M1. inv M1.
    apply stat_locate in S1 as (_ & L1 & _).
    assert (H' : cache_right (snd ((cached <- cache_get (triple c st);; match cached with Some h => ret h | None => h <- put_data ds (snd r);; k <- put_item ds (file_item (wrap64 (lenN c)) h);; try (cache_put (triple c st) k);;; ret k end) w2))).
    2: { destruct R2 as [->|[n ->]]; exact H'. }
    unfold bind at 1. destruct (cache_get (triple c st) w2) as [oc w3] eqn:E3.
    assert (C3 : crel w w3) by (etransitivity; [exact C2|]; pose proof (crel_cache_get (triple c st) w2) as X; rewrite E3 in X; exact X).
    destruct oc as [[h|]| | | |]; try (eapply right_mono; eassumption).
    unfold bind at 1. destruct (put_data ds (snd r) w3) as [od w4] eqn:E4.
    assert (C4 : crel w w4) by (etransitivity; [exact C3|]; pose proof (rel_put_data crel (snd r) w3) as X; rewrite E4 in X; exact X).
    destruct od as [h| | | |]; try (eapply right_mono; eassumption).
    unfold bind at 1. destruct (put_item ds (file_item (wrap64 (lenN c)) h) w4) as [ok w5] eqn:E5.
    assert (C5 : crel w w5) by (etransitivity; [exact C4|]; pose proof (rel_put_item crel (file_item (wrap64 (lenN c)) h) w4) as X; rewrite E5 in X; exact X).
    destruct ok as [k| | | |]; try (eapply right_mono; eassumption).
    assert (G : cache_right (snd (cache_put (triple c st) k w5))).
    { pose proof C5 as ((F5 & _ & _) & _). apply right_put; [rewrite F5; exact T|exists l'; rewrite F5; exact L1| |eapply right_mono; eassumption].
      apply put_data_done in E4 as (l1 & P1 & Y1). pose proof (segment_done _ _ _ _ _ _ _ R2 P1 eq_refl) as Q. rewrite Q in P1.
      apply (follows_done _ _ _ _ _ _ (follows_item _ _)) in E5 as (l2 & P2 & Y2). eapply (plan_hashed c t (l1 ++ l2)); [exact St| |].
      + unfold pfile. cbn [ptr]. rewrite P1. unfold pbind. rewrite P2. reflexivity.
      + apply (puts_grow w3). eapply puts_app; apply exec_puts; eassumption. }
    unfold bind, try. destruct (cache_put (triple c st) k w5) as [ox w6] eqn:E6. cbn [snd] in G. destruct ox; exact G.
  Qed.
End HashFacts.
