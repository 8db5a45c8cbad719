(** Facts about stored directories and about fetching them. *)
From Verif Require Import Base BaseFacts Key Cbor CborFacts Object ObjectFacts Path World WorldFacts Store File Filter Dir SpecStore StoreCalls SpecRun SpecFile SpecDir
  Frame DbRel Integrity ObjStoreFacts FilePlan FileFacts ChunkFacts FileRun FsFacts DirPlan.
From Coq Require Import RelationClasses.

Ltac blia := unfold name, bytes, byte in *; lia.
Section DirFacts.
  Context {E : Env}.
  Notation ds := sqlite_ds.

  (** *** Items *)
  Lemma flat_enc_len l : length l <= length (flat_map (fun n => enc (VText n)) l) /\
    forall n, In n l -> length n <= length (flat_map (fun n => enc (VText n)) l).
  Proof.
    induction l as [|m l [IH1 IH2]]; cbn [flat_map length]; [split; [blia|intros n []]|].
    change (enc (VText m)) with (head 3 (lenN m) ++ m). rewrite !app_length. pose proof (head_nonempty 3 (lenN m)). split; [blia|].
    intros n [->|I]; [blia|]. apply IH2 in I. blia.
  Qed.
  Lemma item_len i : length (fi_names i) <= length (enc (value_of_fsitem i)) /\
    forall n, In n (fi_names i) -> length n <= length (enc (value_of_fsitem i)).
  Proof.
    assert (H : exists a, enc (value_of_fsitem i) = a ++ flat_map (fun n => enc (VText n)) (fi_names i)).
    { unfold value_of_fsitem. cbn [enc flat_map]. rewrite (flat_map_concat_map enc (map VText _)), map_map, <- flat_map_concat_map.
      eexists. rewrite app_nil_r, !app_assoc. f_equal. }
    destruct H as [a ->]. rewrite app_length. destruct (flat_enc_len (fi_names i)) as [H1 H2]. split; [blia|].
    intros n I. apply H2 in I. blia.
  Qed.
  Lemma item_fits i o : object_of_fsitem i = Some o -> obj_fits o = true -> (fi_size i < 2 ^ 64)%N -> fsitem_fits i.
  Proof.
    unfold object_of_fsitem. destruct (forallb utf8_valid (fi_names i)); [|discriminate]. intros H F S.
    assert (o = Object (enc (value_of_fsitem i)) (fi_children i) (fsitem_objtype (fi_type i))) by congruence. subst o.
    apply obj_fits_fits in F as [F _]. cbn [o_data] in F. unfold lenN in F. destruct (item_len i) as [H1 H2].
    split; [exact S|]. unfold lenN. unfold byte in *. split; [blia|]. apply Forall_forall. intros n I. apply H2 in I. blia.
  Qed.
  Lemma fsitem_object i o : object_of_fsitem i = Some o -> obj_fits o = true -> (fi_size i < 2 ^ 64)%N -> fsitem_of_object o = Some i.
  Proof.
    intros H F S. destruct (decode_fsitem i o (item_fits i o H F S) H) as (D & K & _). unfold fsitem_of_object. rewrite D, K.
    destruct i; reflexivity.
  Qed.
  Lemma wrap64_lt n : (wrap64 n < 2 ^ 64)%N.
  Proof. unfold wrap64. apply N.mod_lt. discriminate. Qed.
  Lemma pitem_done i l k : pitem i = (l, Done k) -> exists o, object_of_fsitem i = Some o /\ l = [o] /\ k = obj_key o /\ obj_fits o = true.
  Proof.
    unfold pitem. destruct (object_of_fsitem i) as [o|]; [|discriminate]. intro H. apply pput_done in H as (-> & -> & F). eauto.
  Qed.

  (** *** Stored trees *)
  Fixpoint stored (objs : list object) (D : list readres -> key -> Prop) (t : rtree) (k : key) : Prop :=
    match t with
    | RFile size reads => exists h o, object_of_fsitem (file_item size h) = Some o /\ obj_fits o = true /\ (size < 2 ^ 64)%N /\
        In o objs /\ k = obj_key o /\ D reads h
    | RDir kids => exists ks o, object_of_fsitem (dir_item (map fst kids) ks) = Some o /\ obj_fits o = true /\
        In o objs /\ k = obj_key o /\
        (fix go (l : list (name * rtree)) (ks : list key) : Prop :=
           match l, ks with
           | [], [] => True
           | (_, t) :: l, k :: ks => stored objs D t k /\ go l ks
           | _, _ => False
           end) kids ks
    end.
  Definition stored_all (objs : list object) (D : list readres -> key -> Prop) : list (name * rtree) -> list key -> Prop :=
    fix go (l : list (name * rtree)) (ks : list key) : Prop :=
      match l, ks with
      | [], [] => True
      | (_, t) :: l, k :: ks => stored objs D t k /\ go l ks
      | _, _ => False
      end.
  Lemma stored_dir objs D kids k : stored objs D (RDir kids) k <->
    exists ks o, object_of_fsitem (dir_item (map fst kids) ks) = Some o /\ obj_fits o = true /\
        In o objs /\ k = obj_key o /\ stored_all objs D kids ks.
  Proof. reflexivity. Qed.
  Lemma stored_mono objs objs' (D D' : list readres -> key -> Prop) t : incl objs objs' -> (forall r k, D r k -> D' r k) ->
    forall k, stored objs D t k -> stored objs' D' t k.
  Proof.
    intros I K. induction t as [s r|kids IH] using rtree_ind'; intros k H.
    - destruct H as (h & o & H1 & H2 & H3 & H4 & H5 & H6). exists h, o. repeat split; auto.
    - apply stored_dir in H as (ks & o & H1 & H2 & H3 & H4 & H5). apply stored_dir. exists ks, o. repeat split; auto.
      clear H1. revert ks H5. induction IH as [|[n t] l H IH IH']; intros [|k0 ks] H5; cbn in *; try tauto.
      destruct H5. split; auto.
  Qed.
  (** Trees with sizes that are [u64]s. *)
  Fixpoint sized (t : rtree) : Prop :=
    match t with
    | RFile s _ => (s < 2 ^ 64)%N
    | RDir kids => (fix go (l : list (name * rtree)) : Prop := match l with [] => True | (_, t) :: r => sized t /\ go r end) kids
    end.
  Lemma sized_dir kids : sized (RDir kids) <-> Forall (fun x => sized (snd x)) kids.
  Proof.
    cbn [sized]. induction kids as [|[n t] l IH]; [split; constructor|]. rewrite Forall_cons_iff, <- IH. cbn. tauto.
  Qed.
  Lemma ptr_stored (D : list readres -> key -> Prop) t : forall objs k, sized t -> ptr t = (objs, Done k) ->
    (forall objs' reads h, incl objs' objs -> pdata reads = (objs', Done h) -> D reads h) ->
    stored objs D t k.
  Proof.
    induction t as [s r|kids IH] using rtree_ind'; intros objs k S H HD.
    - cbn [ptr] in H. apply pbind_done in H as (l1 & h & l2 & H1 & H2 & ->). apply pitem_done in H2 as (o & H2 & -> & -> & F).
      exists h, o. split; [exact H2|]. split; [exact F|]. split; [exact S|]. split; [apply in_or_app; right; left; reflexivity|].
      split; [reflexivity|]. eapply HD; [|exact H1]. apply incl_appl, incl_refl.
    - rewrite ptr_dir in H. apply pbind_done in H as (l1 & ks & l2 & H1 & H2 & ->). apply pitem_done in H2 as (o & H2 & -> & -> & F).
      apply sized_dir in S. apply stored_dir. exists ks, o. split; [exact H2|]. split; [exact F|]. split; [apply in_or_app; right; left; reflexivity|].
      split; [reflexivity|]. clear H2 F. assert (HD' : forall objs' reads h, incl objs' l1 -> pdata reads = (objs', Done h) -> D reads h).
      { intros objs' reads h I. apply HD. apply incl_appl, I. } clear HD.
      cut (stored_all l1 D kids ks).
      { assert (I : incl l1 (l1 ++ [o])) by apply incl_appl, incl_refl. clear -I. revert ks.
        induction kids as [|[n t] l IH]; intros [|k ks] H; cbn in *; try tauto. destruct H. split; [|auto].
        eapply stored_mono; [exact I| |exact H]. auto. }
      clear o. revert ks l1 H1 HD'. induction IH as [|[n t] l Ht Hl IHl]; intros ks l1 H1 HD'; cbn [pkids_with] in H1.
      + apply pret_done in H1 as [-> ->]. exact I.
      + apply pbind_done in H1 as (a & k & b & Ha & Hb & ->). apply pbind_done in Hb as (c & ks' & d & Hc & Hd & ->).
        apply pret_done in Hd as [-> ->]. inv S. cbn [snd] in *. cbn [stored_all].
        assert (Ia : incl a (a ++ c ++ [])) by apply incl_appl, incl_refl.
        assert (Ic : incl c (a ++ c ++ [])) by (rewrite app_nil_r; apply incl_appr, incl_refl). split.
        * eapply stored_mono; [exact Ia| |eapply Ht; eauto]; [auto|]. intros objs' reads h I. apply HD'. eapply incl_tran; eassumption.
        * assert (X : stored_all c D l ks') by (apply IHl; auto; intros objs' reads h I; apply HD'; eapply incl_tran; eassumption).
          clear -X Ic. revert ks' X. induction l as [|[n t] l IH]; intros [|k ks] H; cbn in *; try tauto. destruct H. split; [|auto].
          eapply stored_mono; [exact Ic| |exact H]. auto.
  Qed.
  Lemma shows_sized f keep p l t : shows f keep p l t -> sized t.
  Proof.
    revert p l. induction t as [s r|kids IH] using rtree_ind'; intros p l H; inv H.
    - apply wrap64_lt.
    - apply sized_dir. apply Forall_forall. intros [n t] I. rewrite Forall_forall in IH. eapply (IH _ I). cbn [snd]. eauto.
  Qed.

  (** *** Objects put are held *)
  Lemma holds_step o w k w' x : put_obj ds o w = (Done k, w') -> holds w x -> holds w' x.
  Proof. intros H [F A]. apply put_obj_step in H as (_ & B & _). split; [exact F|auto]. Qed.
  Lemma puts_holds w l w' : puts ds w l w' -> world_ok w -> no_coll (w_hashed w') ->
    world_ok w' /\ incl (w_hashed w) (w_hashed w') /\ (forall o, holds w o -> holds w' o) /\ forall o, In o l -> holds w' o.
  Proof.
    intro P. induction P as [w|w w1 l w' T P IH|w o w1 l w' H P IH]; intros W NC.
    - split; [exact W|]. split; [apply incl_refl|]. split; [auto|intros o []].
    - assert (W1 : world_ok w1) by (destruct T as (? & ? & ->); exact W). destruct (IH W1 NC) as (A & B & C & D).
      rewrite (hashed_ticked _ _ T) in B. split; [exact A|]. split; [exact B|]. split; [|exact D].
      intros x Hx. apply C. eapply holds_ticked; eauto.
    - assert (W1 : world_ok w1) by (pose proof (put_obj_ok o w W) as X; rewrite H in X; exact X).
      destruct (IH W1 NC) as (A & B & C & D). pose proof (put_obj_step _ _ _ _ H) as (I & _).
      split; [exact A|]. split; [eapply incl_tran; eassumption|]. split.
      + intros x Hx. apply C. eapply holds_step; eassumption.
      + intros x [<-|I']; [|auto]. apply C. eapply put_obj_holds; [exact W|exact H|]. eapply no_coll_incl; [exact B|exact NC].
  Qed.
  Lemma quiet_sqlite : quiet ds.
  Proof.
    intros o w. unfold put_obj. destruct (obj_fits o); [|auto]. unfold put, bind, hash. cbn [raw_put sqlite_ds].
    unfold sqlite_raw_put, bind, db_write. match goal with |- context [op ?e ?x] => destruct (op_case e x) as (fl & w1 & E1 & T) end.
    rewrite E1. destruct T as (? & ? & ->). cbn. destruct fl as [| | |[|]]; cbn; auto; unfold put_db; cbn; destruct (w_txn w); auto.
  Qed.
End DirFacts.
