(** Facts about [simplify] of Diff.v. *)
From Coq Require Import Permutation Sorted.
From Verif Require Import Base BaseFacts Key Object Path World WorldFacts Store File Filter Dir Diff SpecDir SpecDiff SpecPatch FsFacts DirPlan WalkFacts SortFacts.

Lemma comps_prefix_names a b : comps_prefix (map Normal a) (map Normal b) = true <-> exists s, b = a ++ s.
Proof.
  revert b. induction a as [|x a IH]; intros b; cbn; [split; [eauto|reflexivity]|]. destruct b as [|y b]; cbn.
  - split; [discriminate|intros (s & H); discriminate].
  - rewrite andb_true_iff, bytes_eqb_eq, IH. split.
    + intros [-> (s & ->)]. exists s. reflexivity.
    + intros (s & H). injection H as -> ->. eauto.
Qed.
Lemma starts_named a b : starts_with (named a) (named b) = true <-> exists s, a = b ++ s.
Proof.
  unfold starts_with, named, is_empty_path. cbn [p_abs p_comps p_slash Bool.eqb andb]. rewrite orb_true_iff, comps_prefix_names. split; [|auto].
  intros [H|H]; [exact H|]. destruct b; [|cbn in H; discriminate]. exists a. reflexivity.
Qed.
Lemma named_inj a b : named a = named b -> a = b.
Proof.
  intro H. injection H as H. revert b H. induction a as [|x a IH]; intros [|y b] H; try discriminate; [reflexivity|]. injection H as -> H. f_equal. apply IH, H.
Qed.
Lemma inside_lt a b : inside a b -> loc_lt a b.
Proof. intros (n & s & ->). induction a as [|x a IH]; cbn; [constructor|apply lex_tail, IH]. Qed.
Lemma inside_trans a b c : inside a b -> inside b c -> inside a c.
Proof. intros (n & s & ->) (m & t & ->). exists n, (s ++ m :: t). rewrite <- app_assoc. reflexivity. Qed.
Lemma prefix_inside (a b s : loc) : b = a ++ s -> a <> b -> inside a b.
Proof. intros -> H. destruct s as [|n s]; [rewrite app_nil_r in H; congruence|exists n, s; reflexivity]. Qed.

Lemma sublist_snoc {A} (m l : list A) x : sublist m l -> sublist (m ++ [x]) (l ++ [x]).
Proof. induction 1; cbn; repeat constructor; auto. Qed.
Lemma sublist_drop {A} (m l : list A) x : sublist m l -> sublist m (l ++ [x]).
Proof. induction 1; cbn; repeat constructor; auto. Qed.
Lemma sublist_in {A} (m l : list A) : sublist m l -> forall x, In x m -> In x l.
Proof. induction 1; cbn; intuition. Qed.
Lemma sublist_map {A B} (f : A -> B) m l : sublist m l -> sublist (map f m) (map f l).
Proof. induction 1; cbn; constructor; auto. Qed.
Lemma sublist_named m rs : sublist m (map named rs) -> exists ms, m = map named ms /\ sublist ms rs.
Proof.
  revert m. induction rs as [|r rs IH]; intros m H; inversion H as [|? ? ? K|? ? ? K]; subst.
  - exists []. split; constructor.
  - apply IH in K as (ms & -> & K). exists (r :: ms). split; [reflexivity|constructor; exact K].
  - apply IH in K as (ms & -> & K). exists ms. split; [reflexivity|constructor; exact K].
Qed.
Lemma sublist_sorted (m rs : list loc) : sublist m rs -> StronglySorted loc_lt rs -> StronglySorted loc_lt m.
Proof.
  induction 1 as [|x m l S IH|x m l S IH]; intro H; [constructor| |]; inversion H as [|? ? H1 H2]; subst; auto.
  constructor; auto. rewrite Forall_forall in *. intros y I. eapply H2, sublist_in; eauto.
Qed.

Section Keep.
  Context {A : Type} (get : A -> path).

  Lemma keep_snoc l p : keep_topmost get (l ++ [p]) =
    if existsb (fun x => starts_with (get p) (get x)) (keep_topmost get l) then keep_topmost get l else keep_topmost get l ++ [p].
  Proof. unfold keep_topmost. rewrite fold_left_app. reflexivity. Qed.
  Lemma keep_sublist l : sublist (keep_topmost get l) l.
  Proof.
    induction l as [|p l IH] using rev_ind; [constructor|]. rewrite keep_snoc. destruct (existsb _ _); [apply sublist_drop|apply sublist_snoc]; exact IH.
  Qed.
  Lemma by_path_snoc l p : by_path get (l ++ [p]) -> by_path get l /\ exists r, get p = named r /\ forall a s, In a l -> get a = named s -> loc_lt s r.
  Proof.
    intros (rs & M & S). rewrite map_app in M. cbn in M. destruct (@exists_last _ rs) as (rs0 & r & ->).
    { intros ->. cbn in M. destruct (map get l); discriminate. }
    rewrite map_app in M. cbn in M. apply app_inj_tail in M as [M Mp].
    assert (SS : StronglySorted loc_lt rs0 /\ Forall (fun s => loc_lt s r) rs0).
    { clear M Mp. induction rs0 as [|x rs0 IH]; [split; constructor|]. cbn in S. inversion S as [|? ? S1 S2]; subst. destruct (IH S1) as [I1 I2].
      apply Forall_app in S2 as [S2 S3]. inversion S3; subst. split; constructor; auto. }
    destruct SS as [S1 S2]. split; [exists rs0; auto|]. exists r. split; [exact Mp|]. intros a s I G. apply (in_map get) in I. rewrite M, G in I.
    apply in_map_iff in I as (s' & Q & I). apply named_inj in Q. subst s'. rewrite Forall_forall in S2. apply S2, I.
  Qed.
  Lemma by_path_get l a : by_path get l -> In a l -> exists r, get a = named r.
  Proof. intros (rs & M & _) I. apply (in_map get) in I. rewrite M in I. apply in_map_iff in I as (r & <- & _). eauto. Qed.
  Definition top (l : list A) (a : A) : Prop := In a l /\ forall b r s, In b l -> get a = named r -> get b = named s -> ~ inside s r.
  Lemma keep_top l : by_path get l ->
    (forall a, In a (keep_topmost get l) <-> top l a) /\
    (forall b r, In b l -> get b = named r -> exists a s t, In a (keep_topmost get l) /\ get a = named s /\ r = s ++ t).
  Proof.
    induction l as [|p l IH] using rev_ind; intro H.
    - split; [|intros b r []]. intro a. split; [intros []|intros [[] _]].
    - apply by_path_snoc in H as (Hl & rp & Gp & Lt). destruct (IH Hl) as [IH1 IH2]. rewrite keep_snoc.
      assert (Old : forall a, In a l -> (top (l ++ [p]) a <-> top l a)).
      { intros a I. unfold top. rewrite in_app_iff. split.
        - intros [_ H]. split; [exact I|]. intros b r s Ib. apply H, in_or_app. left. exact Ib.
        - intros [_ H]. split; [left; exact I|]. intros b r s Ib Ga Gb. apply in_app_or in Ib as [Ib|[<-|[]]]; [eauto|].
          rewrite Gp in Gb. apply named_inj in Gb. subst s. intro X. apply inside_lt in X. pose proof (Lt _ _ I Ga) as Y.
          apply (loc_lt_irrefl r). eapply loc_lt_trans; eassumption. }
      destruct (existsb _ _) eqn:X.
      + apply existsb_exists in X as (x & Ix & Sx). assert (Ixl : In x l) by (apply (sublist_in _ _ (keep_sublist l)), Ix).
        destruct (by_path_get _ _ Hl Ixl) as [rx Gx]. rewrite Gp, Gx in Sx. apply starts_named in Sx as (s & Sx).
        pose proof (Lt _ _ Ixl Gx) as Ltx. assert (Hne : rx <> rp) by (intros ->; eapply loc_lt_irrefl; eauto). split.
        * intro a. split; intro K.
          -- assert (Ia : In a l) by (apply (sublist_in _ _ (keep_sublist l)), K). apply Old; [exact Ia|]. apply IH1, K.
          -- pose proof K as [Ia _]. apply in_app_or in Ia as [Ia|[<-|[]]]; [apply IH1, Old; assumption|]. exfalso.
             destruct K as [_ K]. apply (K x rp rx); auto; [apply in_or_app; left; exact Ixl|]. eapply prefix_inside; eauto.
        * intros b r Ib Gb. apply in_app_or in Ib as [Ib|[<-|[]]]; [eauto|]. rewrite Gp in Gb. apply named_inj in Gb. subst r. exists x, rx, s. auto.
      + assert (NX : forall x rx, In x (keep_topmost get l) -> get x = named rx -> ~ exists s, rp = rx ++ s).
        { intros x rx Ix Gx Y. apply starts_named in Y. rewrite <- Gp, <- Gx in Y.
          assert (Z : existsb (fun x => starts_with (get p) (get x)) (keep_topmost get l) = true) by (apply existsb_exists; eauto). congruence. }
        split.
        * intro a. rewrite in_app_iff. split.
          -- intros [K|[<-|[]]].
             ++ assert (Ia : In a l) by (apply (sublist_in _ _ (keep_sublist l)), K). apply Old; [exact Ia|]. apply IH1, K.
             ++ split; [apply in_or_app; right; left; reflexivity|]. intros b r s Ib Ga Gb. rewrite Gp in Ga. apply named_inj in Ga. subst r.
                apply in_app_or in Ib as [Ib|[<-|[]]].
                ** intros (n & t & ->). destruct (IH2 b s Ib Gb) as (x & sx & t' & Ix & Gx & ->). apply (NX x sx Ix Gx). exists (t' ++ n :: t). rewrite app_assoc. reflexivity.
                ** rewrite Gp in Gb. apply named_inj in Gb. subst s. intro Y. apply inside_lt, loc_lt_irrefl in Y. exact Y.
          -- intro K. pose proof K as [Ia _]. apply in_app_or in Ia as [Ia|[<-|[]]]; [left; apply IH1, Old; assumption|right; left; reflexivity].
        * intros b r Ib Gb. apply in_app_or in Ib as [Ib|[<-|[]]].
          -- destruct (IH2 b r Ib Gb) as (a & s & t & Ia & Ga & Q). exists a, s, t. split; [apply in_or_app; left; exact Ia|auto].
          -- rewrite Gp in Gb. apply named_inj in Gb. subst r. exists p, rp, []. split; [apply in_or_app; right; left; reflexivity|]. rewrite app_nil_r. auto.
  Qed.
  Lemma prefixes_comparable (a b s t : loc) : a ++ s = b ++ t -> a = b \/ inside a b \/ inside b a.
  Proof.
    revert b. induction a as [|x a IH]; intros [|y b] H; cbn in H; [left; reflexivity|right; left; exists y, b; reflexivity|right; right; exists x, a; reflexivity|].
    injection H as -> H. destruct (IH b H) as [->|[(n & u & ->)|(n & u & ->)]]; [left; reflexivity|right; left|right; right]; exists n, u; reflexivity.
  Qed.
  (** The whole story. *)
  Lemma keep_spec l : by_path get l ->
    sublist (keep_topmost get l) l /\ by_path get (keep_topmost get l) /\
    (forall a r, In a l -> get a = named r -> (In a (keep_topmost get l) <-> forall b s, In b l -> get b = named s -> ~ inside s r)) /\
    (forall a r, In a l -> get a = named r -> ~ In a (keep_topmost get l) ->
       exists s, (exists b, In b (keep_topmost get l) /\ get b = named s) /\ inside s r /\
         forall b s', In b (keep_topmost get l) -> get b = named s' -> inside s' r -> s' = s).
  Proof.
    intro H. destruct (keep_top l H) as [T C]. split; [apply keep_sublist|]. split; [|split].
    - destruct H as (rs & M & S). pose proof (sublist_map get _ _ (keep_sublist l)) as K. rewrite M in K. apply sublist_named in K as (ms & Q & K).
      exists ms. split; [exact Q|]. eapply sublist_sorted; eassumption.
    - intros a r I G. rewrite T. unfold top. split.
      + intros [_ K] b s Ib Gb. eapply K; eauto.
      + intro K. split; [exact I|]. intros b r' s Ib Ga Gb. rewrite G in Ga. apply named_inj in Ga. subst r'. eauto.
    - intros a r I G N. destruct (C a r I G) as (b & s & t & Ib & Gb & ->). exists s. split; [eauto|].
      assert (St : inside s (s ++ t)).
      { destruct t as [|n t]; [exfalso|exists n, t; reflexivity]. rewrite app_nil_r in G. apply N. apply T. apply T in Ib as [Ib Kb].
        split; [exact I|]. intros b' r' s' Ib' Ga Gb'. rewrite G in Ga. apply named_inj in Ga. subst r'. eapply Kb; eauto. }
      split; [exact St|]. intros b' s' Ib' Gb' (n & u & Q). destruct (prefixes_comparable s' s (n :: u) t (eq_sym Q)) as [->|[X|X]]; [reflexivity|exfalso|exfalso].
      + apply T in Ib as [_ K]. apply T in Ib' as [I' _]. exact (K b' s s' I' Gb Gb' X).
      + apply T in Ib' as [_ K]. apply T in Ib as [I' _]. exact (K b s' s I' Gb' Gb X).
  Qed.
End Keep.
