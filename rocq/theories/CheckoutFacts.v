(** Facts about [checkout_fs_item]. *)
From Verif Require Import Base BaseFacts Key Cbor CborFacts Object ObjectFacts Path World WorldFacts Store File Filter Dir SpecStore StoreCalls SpecRun SpecFile SpecDir SpecCheckout
  Frame DbRel Integrity ObjStoreFacts SessionFacts FilePlan FileFacts ChunkFacts FileRun FsFacts DirPlan DirFacts GetFacts DirTrip FetchSafe DirTree.

From Coq Require Import RelationClasses.

(** Every entry is in a directory. *)
Definition closed (f : fs) : Prop := forall x n e, lookup f (x ++ [n]) = Some e -> lookup f x = Some EDir.
Lemma fs_ok_closed f : fs_ok f -> closed f.
Proof. intros O x n e H. apply (fs_ok_parent f x [n] e O H). discriminate. Qed.
Lemma closed_app f x r e : closed f -> lookup f (x ++ r) = Some e -> r <> [] -> lookup f x = Some EDir.
Proof.
  intros C. revert e. induction r as [|n r IH] using rev_ind; intros e H N; [congruence|]. rewrite app_assoc in H. apply C in H.
  destruct r as [|m r]; [rewrite app_nil_r in H; exact H|]. eapply IH; [exact H|discriminate].
Qed.
Lemma closed_none f x r : closed f -> lookup f x <> Some EDir -> r <> [] -> lookup f (x ++ r) = None.
Proof.
  intros C H N. destruct (lookup f (x ++ r)) as [e|] eqn:L; [|reflexivity]. exfalso. apply (closed_app _ _ _ _ C) in L; [|exact N]. exact (H L).
Qed.
Lemma combine_snd {A B} (a : list A) : forall b : list B, length a = length b -> map snd (combine a b) = b.
Proof. induction a as [|x a IH]; intros [|y b] L; cbn in *; try discriminate; [reflexivity|]. f_equal. apply IH. congruence. Qed.
Lemma lookup_remove f l x : l <> [] -> lookup (fs_remove_tree f l) x = if names_prefix l x then None else lookup f x.
Proof.
  intro N. unfold lookup. destruct x as [|a x]; [destruct l; [congruence|reflexivity]|]. unfold fs_remove_tree.
  induction f as [|[k e] f IH]; cbn; [destruct (names_prefix l (a :: x)); reflexivity|].
  destruct (names_prefix l k) eqn:P; cbn [negb]; cbn [assoc_loc].
  - rewrite IH. destruct (names_eqb k (a :: x)) eqn:Q; [apply names_eqb_eq in Q; subst; rewrite P; reflexivity|reflexivity].
  - destruct (names_eqb k (a :: x)) eqn:Q; [apply names_eqb_eq in Q; subst; rewrite P; reflexivity|exact IH].
Qed.
Lemma under_dec l x : under l x \/ ~ under l x.
Proof.
  destruct (names_prefix l x) eqn:P; [left; apply names_prefix_iff, P|]. right. intro U. apply names_prefix_iff in U. congruence.
Qed.
Lemma under_kids l n m r : under (l ++ [n]) (l ++ m :: r) -> n = m.
Proof. intros [r' H]. rewrite <- app_assoc in H. apply app_inv_head in H. cbn in H. congruence. Qed.
Lemma under_down l n x : under (l ++ [n]) x -> under l x.
Proof. intros [r ->]. exists (n :: r). rewrite <- app_assoc. reflexivity. Qed.

Section CheckoutFacts.
  Context {E : Env}.
  Notation ds := sqlite_ds.

  (** *** Resolving a path while something below it changes *)
  Lemma walk_keep f f1 cs : forall cur l, ~ In ParentDir cs -> walk_comps f cur cs = Some l ->
    (forall x, under x l -> x <> l -> lookup f x = Some EDir -> lookup f1 x = Some EDir) ->
    (lookup f l = Some EDir -> lookup f1 l = Some EDir) -> 
    walk_comps f1 cur cs = Some l.
  Proof.
    induction cs as [|c cs IH]; intros cur l N W H Hl; [exact W|]. cbn [walk_comps] in *. destruct (is_dir f cur) eqn:D; [|discriminate].
    assert (U : under cur l).
    { pose proof (walk_locate _ _ _ _ W) as Hw. assert (X : forall cs u, ~ In ParentDir cs -> under u (fold_left step_comp cs u)).
      { clear. induction cs as [|c cs IH]; intros u N; [exists []; cbn; rewrite app_nil_r; reflexivity|]. cbn [fold_left].
        destruct (IH (step_comp u c)) as [r ->]; [intro I; apply N; right; exact I|].
        destruct c as [| |n]; cbn [step_comp]; [exists r; reflexivity|exfalso; apply N; left; reflexivity|]. exists (n :: r). rewrite <- app_assoc. reflexivity. }
      destruct c as [| |n]; [rewrite Hw; apply X; intro I; apply N; right; exact I|exfalso; apply N; left; reflexivity|].
      destruct (X cs (cur ++ [n])) as [r Hr]; [intro I; apply N; right; exact I|]. rewrite Hw, Hr. exists (n :: r). rewrite <- app_assoc. reflexivity. }
    assert (D1 : is_dir f1 cur = true).
    { apply is_dir_iff. apply is_dir_iff in D. destruct (loc_eq_dec cur l) as [->|Ne]; [apply Hl, D|apply H; assumption]. }
    rewrite D1. apply IH; auto. intro I. apply N. right. exact I.
  Qed.
  Lemma resolve_keep f f1 cwd p l : ~ In ParentDir (p_comps p) -> resolve f cwd p = Some l ->
    (forall x, ~ under l x -> lookup f1 x = lookup f x) -> lookup f1 l = lookup f l -> resolve f1 cwd p = Some l.
  Proof.
    intros N R H Hl. unfold resolve in *. destruct (is_empty_path p); [discriminate|]. eapply walk_keep; eauto; [|congruence].
    intros x [r U] Ne D. rewrite H; [exact D|]. intros [r' ->]. apply Ne. rewrite <- app_assoc in U.
    rewrite <- (app_nil_r l) in U at 1. apply app_inv_head in U. destruct r'; [apply app_nil_r|discriminate].
  Qed.

  (** *** Writing a stored file *)
  Lemma read_file l g : forall k w w' acc st, l <> [] -> lookup (w_fs w) l = Some (EFile acc st) ->
    read_data ds (file_write l) g k tt w = (Done tt, w') ->
    exists bs, fs_only w w' /\ written (w_fs w) l (acc ++ bs) (w_fs w') /\
      forall w2 g' v, cur_db w2 = cur_db w -> w_faults w2 = [] -> g <= g' ->
        exists w3, read_data ds vec_write g' k v w2 = (Done (v ++ bs), w3) /\ cur_db w3 = cur_db w /\ w_faults w3 = [].
  Proof.
    induction g as [|g IH]; intros k w w' acc st N L R; [discriminate|]. cbn [read_data] in R.
    apply bind_done in R as (o & w1 & G & R). apply get_obj_done in G as (T & vv & V & D).
    pose proof (ticked_only _ _ T) as O1. destruct (ticked_fs _ _ T) as [F1 _].
    assert (Get : forall w2, cur_db w2 = cur_db w -> w_faults w2 = [] -> exists w3, get_obj ds k w2 = (Done o, w3) /\ cur_db w3 = cur_db w /\ w_faults w3 = []).
    { intros w2 C2 NF2. destruct (get_obj ds k w2) as [q w3] eqn:Q. rewrite get_obj_eq in Q. unfold bind at 1, db_read, op in Q. cbn [w_faults set_tick] in Q. rewrite NF2 in Q.
      change (cur_db (set_tick w2 (S (w_tick w2)))) with (cur_db w2) in Q. rewrite C2, V in Q. cbn in Q. rewrite D in Q. inv Q. exists (set_tick w2 (S (w_tick w2))). auto. }
    rewrite <- F1 in L.
    destruct (o_type o) eqn:Ty; try discriminate.
    - assert (Each : forall ks w1 w' acc st, lookup (w_fs w1) l = Some (EFile acc st) -> each (file_write l) g ks tt w1 = (Done tt, w') ->
        exists bs, fs_only w1 w' /\ written (w_fs w1) l (acc ++ bs) (w_fs w') /\
          forall w2 g' v, cur_db w2 = cur_db w1 -> w_faults w2 = [] -> g <= g' ->
            exists w3, each vec_write g' ks v w2 = (Done (v ++ bs), w3) /\ cur_db w3 = cur_db w1 /\ w_faults w3 = []).
      { clear - IH N. induction ks as [|c ks IHks]; intros w1 w' acc st L R; cbn [each] in R.
        - apply ret_done in R as [_ ->]. exists []. split; [apply fs_only_refl|]. rewrite app_nil_r. split; [split; [eauto|auto]|].
          intros w2 g' v C NF _. exists w2. cbn [each]. rewrite app_nil_r. auto.
        - apply bind_done in R as ([] & w2 & R1 & R2). destruct (IH c w1 w2 acc st N L R1) as (b1 & O1 & [(st1 & W1) W1'] & K1).
          destruct (IHks w2 w' (acc ++ b1) st1 W1 R2) as (b2 & O2 & [W2 W2'] & K2). exists (b1 ++ b2). split; [eapply fs_only_trans; eassumption|].
          rewrite <- app_assoc in W2. split; [split; [exact W2|intros x Hx; rewrite W2', W1' by exact Hx; reflexivity]|].
          intros v2 g' v C NF Le. destruct (K1 v2 g' v C NF Le) as (v3 & E3 & C3 & NF3).
          destruct (K2 v3 g' (v ++ b1)) as (v4 & E4 & C4 & NF4); [rewrite (only_cur _ _ O1); exact C3|exact NF3|exact Le|].
          exists v4. cbn [each]. unfold bind. rewrite E3, E4, app_assoc. split; [reflexivity|]. split; [rewrite C4; apply only_cur, O1|exact NF4]. }
      destruct (Each (o_keys o) w1 w' acc st L R) as (bs & O2 & W2 & K). exists bs. split; [eapply fs_only_trans; eassumption|]. rewrite F1 in W2. split; [exact W2|].
      intros w2 g' v C NF Le. destruct g' as [|g']; [lia|]. destruct (Get w2 C NF) as (w3 & G3 & C3 & NF3).
      destruct (K w3 g' v) as (w4 & E4 & C4 & NF4); [rewrite (only_cur _ _ O1); exact C3|exact NF3|lia|].
      exists w4. cbn [read_data]. unfold bind at 1. rewrite G3, Ty. split; [exact E4|]. split; [rewrite C4; apply only_cur, O1|exact NF4].
    - unfold file_write in R. apply write_done in R as (O2 & t & F2). exists (o_data o). split; [eapply fs_only_trans; eassumption|].
      destruct (lookup_append l (o_data o) (w_fs w1) t N) as [A B]. rewrite <- F2 in A, B. split.
      + split; [eapply A, L|]. intros x Hx. rewrite B, F1 by exact Hx. reflexivity.
      + intros w2 g' v C NF Le. destruct g' as [|g']; [lia|]. destruct (Get w2 C NF) as (w3 & G3 & C3 & NF3). exists w3.
        cbn [read_data]. unfold bind at 1. rewrite G3, Ty. auto.
    - destruct (o_keys o) as [|c [|]] eqn:Ks; try discriminate. destruct (IH c w1 w' acc st N L R) as (bs & O2 & W2 & K). exists bs.
      split; [eapply fs_only_trans; eassumption|]. rewrite F1 in W2. split; [exact W2|].
      intros w2 g' v C NF Le. destruct g' as [|g']; [lia|]. destruct (Get w2 C NF) as (w3 & G3 & C3 & NF3).
      destruct (K w3 g' v) as (w4 & E4 & C4 & NF4); [rewrite (only_cur _ _ O1); exact C3|exact NF3|lia|].
      exists w4. cbn [read_data]. unfold bind at 1. rewrite G3, Ty, Ks. split; [exact E4|]. split; [rewrite C4; apply only_cur, O1|exact NF4].
  Qed.

  (** *** The steps of a directory *)
  Definition co_each (g : nat) (p : path) (flt : path -> M bool) : list (key * name) -> M unit :=
    fix each (l : list (key * name)) : M unit :=
      match l with
      | [] => ret tt
      | (c, n) :: r => fs_create_dir_all p ;;; checkout_fs_item ds g c (join_name p n) flt ;;; each r
      end.
  Lemma checkout_eq g k p flt w : checkout_fs_item ds (S g) k p flt w =
    (item <- get_fsitem ds k ;;
     match fi_type item with
     | ItDir =>
         entries <- fs_read_dir p ;;
         let '(names, err) := entries in
         fs_items <- filter_names p flt names ;;
         (if (err : bool) then fail EIo else ret tt) ;;;
         remove_extra p (List.filter (fun n => negb (name_stored (fi_names item) n)) fs_items) ;;;
         co_each g p flt (combine (fi_children item) (fi_names item))
     | ItFile =>
         l <- fs_create p ;;
         (if starts_with p blessed then ret tt else panic_with PAssert) ;;;
         write_item_data ds g item l
     end) w.
  Proof. reflexivity. Qed.

  Lemma filter_names_done ex db p l names : forall w r w', stat (w_fs w) (w_cwd w) p = Some (l, EDir) ->
    (forall n, In n names -> exists e, lookup (w_fs w) (l ++ [n]) = Some e) ->
    filter_names p (filter_fn ex db) names w = (Done r, w') ->
    ticked w w' /\ r = filter (fun n => kept ex (locate (w_cwd w) db) (path_push p n) (l ++ [n])) names.
  Proof.
    induction names as [|n names IH]; intros w r w' S H R; cbn [filter_names] in R.
    - apply ret_done in R as [-> ->]. split; [apply ticked_refl|reflexivity].
    - apply bind_done in R as (b & w1 & R1 & R). apply bind_done in R as (rest & w2 & R2 & R3). apply ret_done in R3 as [-> ->].
      destruct (filter_answers ex db (w_fs w) (w_cwd w) _ _ _ _ eq_refl eq_refl R1) as [T1 B]. destruct (ticked_fs _ _ T1) as [F C].
      destruct (H n (or_introl eq_refl)) as [e Le]. specialize (B _ _ (stat_push _ _ _ _ _ _ S Le)).
      destruct (IH w1 rest w2) as [T2 ->]; auto; [rewrite F, C; exact S|rewrite F; intros m I; apply H; right; exact I|].
      split; [eapply ticked_trans; eassumption|]. cbn [filter]. rewrite <- B, C. destruct b; reflexivity.
  Qed.

  (** What [remove_extra] leaves. *)
  Definition removes (f f1 : fs) (l : loc) (L : list name) : Prop :=
    (forall n, In n L -> exists e, lookup f (l ++ [n]) = Some e /\ e <> EDangling) /\
    (forall n r, In n L -> lookup f (l ++ [n]) <> Some ESpecial -> lookup f1 (l ++ n :: r) = None) /\
    (forall x, (forall n, In n L -> lookup f (l ++ [n]) <> Some ESpecial -> ~ under (l ++ [n]) x) -> lookup f1 x = lookup f x).
  Lemma removes_closed f f1 l L : closed f -> removes f f1 l L -> closed f1.
  Proof.
    intros C (_ & R1 & R2) x n e H.
    assert (K : forall m, In m L -> lookup f (l ++ [m]) <> Some ESpecial -> ~ under (l ++ [m]) (x ++ [n])).
    { intros m I S [r Hr]. rewrite Hr, <- app_assoc in H. cbn [app] in H. rewrite (R1 m r I S) in H. discriminate. }
    rewrite R2 in H by exact K. apply C in H. rewrite R2; [exact H|]. intros m I S [r Hr]. apply (K m I S). exists (r ++ [n]). rewrite Hr, app_assoc. reflexivity.
  Qed.
  Lemma remove_done p l L : forall w w', ~ In ParentDir (p_comps p) -> resolve (w_fs w) (w_cwd w) p = Some l -> lookup (w_fs w) l = Some EDir ->
    remove_extra p L w = (Done tt, w') -> fs_only w w' /\ removes (w_fs w) (w_fs w') l L.
  Proof.
    induction L as [|n L IH]; intros w w' N R Ld H; cbn [remove_extra] in H.
    - apply ret_done in H as [_ ->]. split; [apply fs_only_refl|]. split; [intros n []|]. split; [intros n r []|auto].
    - destruct (starts_with p blessed); [|discriminate]. apply bind_done in H as (mt & w1 & H1 & H). apply bind_done in H as ([] & w2 & H2 & H3).
      apply metadata_done in H1 as (T1 & x & e & S1 & M1). destruct (ticked_fs _ _ T1) as [F1 C1].
      pose proof (resolve_push (w_fs w) (w_cwd w) p l n R (proj2 (is_dir_iff _ _) Ld)) as Rn.
      pose proof S1 as S1'. apply stat_locate in S1' as (_ & Lx & Rx). assert (x = l ++ [n]) by congruence. subst x.
      assert (Step : fs_only w1 w2 /\ ((e = ESpecial /\ w_fs w2 = w_fs w) \/ (e <> ESpecial /\ w_fs w2 = fs_remove_tree (w_fs w) (l ++ [n])))).
      { destruct e; cbn in M1; inv M1.
        - apply fs_change_done in H2 as (O2 & t & H2). split; [exact O2|]. right. split; [discriminate|]. rewrite F1, C1, S1 in H2.
          destruct (l ++ [n]) eqn:Q; [destruct l; discriminate|]. rewrite <- Q in *. inv H2. reflexivity.
        - apply fs_change_done in H2 as (O2 & t & H2). split; [exact O2|]. right. split; [discriminate|]. rewrite F1, C1, S1 in H2. inv H2. reflexivity.
        - apply ret_done in H2 as [_ ->]. split; [apply fs_only_refl|]. left. rewrite F1. auto. }
      destruct Step as [O2 Step].
      assert (Ne : e <> EDangling) by (intros ->; discriminate).
      assert (Out : forall x, ~ under (l ++ [n]) x -> lookup (w_fs w2) x = lookup (w_fs w) x).
      { intros x U. destruct Step as [[_ ->]|[_ ->]]; [reflexivity|]. rewrite lookup_remove by apply snoc_not_nil.
        destruct (names_prefix (l ++ [n]) x) eqn:P; [|reflexivity]. exfalso. apply U, names_prefix_iff, P. }
      assert (Ul : ~ under (l ++ [n]) l).
      { intros [r Hr]. apply (f_equal (@length name)) in Hr. rewrite !app_length in Hr. cbn in Hr. lia. }
      assert (Cw : w_cwd w2 = w_cwd w) by (rewrite (only_cwd _ _ O2); exact C1).
      destruct (IH w2 w') as (O3 & K1 & K2 & K3); auto.
      { rewrite Cw. apply (resolve_keep (w_fs w)); auto. intros x U. apply Out. intro U'. apply U. eapply under_down, U'. }
      { rewrite Out by exact Ul. exact Ld. }
      split; [eapply fs_only_trans; [apply ticked_only, T1|]; eapply fs_only_trans; eassumption|].
      assert (Kid : forall m, In m L -> exists e', lookup (w_fs w) (l ++ [m]) = Some e' /\ e' <> EDangling /\ lookup (w_fs w2) (l ++ [m]) = Some e').
      { intros m I. destruct (K1 m I) as (e' & L' & N'). destruct (bytes_eqb m n) eqn:Q.
        - apply bytes_eqb_true in Q. subst m. destruct Step as [[-> F2]|[_ F2]]; rewrite F2 in L' |- *.
          + exists e'. auto.
          + rewrite lookup_remove in L' by apply snoc_not_nil. replace (names_prefix (l ++ [n]) (l ++ [n])) with true in L'; [discriminate|].
            symmetry. apply names_prefix_iff. exists []. rewrite app_nil_r. reflexivity.
        - assert (U : ~ under (l ++ [n]) (l ++ [m])). { intro U. apply under_kids in U. subst m. rewrite bytes_eqb_refl in Q. discriminate. }
          rewrite Out in L' by exact U. rewrite Out by exact U. eauto. }
      split; [|split].
      + intros m [<-|I]; [exists e; auto|]. destruct (Kid m I) as (e2 & A & B & _). exists e2. auto.
      + intros m r [<-|I] Sp.
        * destruct Step as [[-> _]|[_ F2]]; [congruence|].
          assert (Z : lookup (w_fs w2) (l ++ n :: r) = None).
          { rewrite F2, lookup_remove by apply snoc_not_nil. replace (names_prefix (l ++ [n]) (l ++ n :: r)) with true; [reflexivity|].
            symmetry. apply names_prefix_iff. exists r. rewrite <- app_assoc. reflexivity. }
          destruct (in_dec (list_eq_dec ascii_dec) n L) as [I|I].
          -- destruct (Kid n I) as (e' & A & _ & B). apply K2; [exact I|]. rewrite B, <- A. exact Sp.
          -- rewrite K3; [exact Z|]. intros m J _ U. apply under_kids in U. subst m. exact (I J).
        * destruct (Kid m I) as (e' & A & _ & B). apply K2; [exact I|]. congruence.
      + intros x Hx. destruct Step as [[-> F2]|[Ns F2]].
        * rewrite K3, F2; [reflexivity|]. intros m I Sp. rewrite F2 in Sp. apply Hx; [right; exact I|exact Sp].
        * rewrite K3, Out; [reflexivity|apply Hx; [left; reflexivity|congruence]|]. intros m I Sp.
          destruct (Kid m I) as (e' & A & _ & B). apply Hx; [right; exact I|congruence].
  Qed.

  (** *** The stored tree *)
  Lemma reads_cur w w' k o : cur_db w' = cur_db w -> reads_as w k o -> reads_as w' k o.
  Proof.
    unfold reads_as. rewrite !get_obj_eq. unfold bind, db_read, op. cbn [w_faults set_faults set_tick].
    change (cur_db (set_tick (set_faults w []) (S (w_tick (set_faults w []))))) with (cur_db w).
    change (cur_db (set_tick (set_faults w' []) (S (w_tick (set_faults w' []))))) with (cur_db w').
    intros -> <-. destruct (assoc (as_db_key k) (d_data (cur_db w))) as [v|]; [|reflexivity]. cbn. destruct (decode_object v); reflexivity.
  Qed.
  Lemma item_cur w w' k i : cur_db w' = cur_db w -> item_at w k i -> item_at w' k i.
  Proof. intros C (o & R & F). exists o. split; [eapply reads_cur; eassumption|exact F]. Qed.
  Lemma at_path_cur w w' k r k' : cur_db w' = cur_db w -> at_path w k r k' -> at_path w' k r k'.
  Proof. intros C H. induction H as [k|k o i n k' r k'' H1 H2 H3 H4 H5 IH]; [constructor|]. eapply ap_in; eauto. eapply reads_cur; eassumption. Qed.
  Lemma entries_cur w w' k k' : cur_db w' = cur_db w -> entries_of w k k' -> entries_of w' k k'.
  Proof. intros C H. induction H as [k|k o i k' k'' H1 H2 H3 H4 H5 IH]; [constructor|]. eapply eo_child; eauto. eapply reads_cur; eassumption. Qed.
  Lemma regular_cur w w' k : cur_db w' = cur_db w -> regular w k -> regular w' k.
  Proof. intros C R k' i En It Ty. symmetry in C. apply (R k' i); [| |exact Ty]; [eapply entries_cur; eassumption|eapply item_cur; eassumption]. Qed.
  Lemma regular_child w k i k' : regular w k -> item_at w k i -> fi_type i = ItDir -> In k' (fi_children i) -> regular w k'.
  Proof.
    intros R (o & R1 & R2) T I k'' i' En It Ty. apply (R k'' i'); [|exact It|exact Ty]. eapply eo_child; eauto.
  Qed.
  Lemma at_inv w k r k' : at_path w k r k' -> match r with
    | [] => k' = k
    | n :: r' => exists i c, item_at w k i /\ fi_type i = ItDir /\ In (c, n) (combine (fi_children i) (fi_names i)) /\ at_path w c r' k'
    end.
  Proof. intro H. destruct H as [k|k o i n k' r k'' H1 H2 H3 H4 H5]; [reflexivity|]. exists i, k'. split; [exists o; auto|auto]. Qed.
  Lemma combine_fun {A B} (a : list A) (b : list B) x y n : NoDup b -> In (x, n) (combine a b) -> In (y, n) (combine a b) -> x = y.
  Proof.
    intro N. revert a. induction N as [|m b Nm N IH]; intros [|z a] H K; cbn in *; try tauto.
    destruct H as [H|H], K as [K|K].
    - congruence.
    - inv H. apply in_combine_r in K. contradiction.
    - inv K. apply in_combine_r in H. contradiction.
    - eapply IH; eassumption.
  Qed.
  Section Item.
    Context (w : world) (k : key) (i : fsitem) (R : regular w k) (It : item_at w k i).
    Lemma at_file r : fi_type i = ItFile -> r <> [] -> absent w k r.
    Proof.
      intros T N k' H. apply at_inv in H. destruct r as [|n r]; [congruence|]. destruct H as (i' & c & H1 & H2 & _).
      pose proof (item_fun _ _ _ _ It H1). congruence.
    Qed.
    Lemma at_child c n r k' : fi_type i = ItDir -> In (c, n) (combine (fi_children i) (fi_names i)) ->
      at_path w k (n :: r) k' <-> at_path w c r k'.
    Proof.
      intros T I. split.
      - intro H. apply at_inv in H as (i' & c' & H1 & H2 & H3 & H4). pose proof (item_fun _ _ _ _ It H1). subst i'.
        destruct (R k i (eo_refl w k) It T) as (_ & N & _). rewrite (combine_fun _ _ _ _ _ N I H3). exact H4.
      - intro H. destruct It as (o & R1 & R2). eapply ap_in; eauto.
    Qed.
    Lemma at_off n r : fi_type i = ItDir -> ~ In n (fi_names i) -> absent w k (n :: r).
    Proof.
      intros T I k' H. apply at_inv in H as (i' & c' & H1 & H2 & H3 & H4). pose proof (item_fun _ _ _ _ It H1). subst i'.
      apply in_combine_r in H3. contradiction.
    Qed.
    Lemma dir_child c n r : fi_type i = ItDir -> In (c, n) (combine (fi_children i) (fi_names i)) ->
      dir_at w k (n :: r) <-> dir_at w c r.
    Proof. intros T I. split; intros (k' & i' & H1 & H2); exists k', i'; (split; [eapply at_child; eassumption|exact H2]). Qed.
    Lemma spared_child ex dbl f p l c n r : fi_type i = ItDir -> In (c, n) (combine (fi_children i) (fi_names i)) ->
      spared ex dbl f w k p l (n :: r) <-> spared ex dbl f w c (path_push p n) (l ++ [n]) r.
    Proof.
      intros T I. split.
      - intros (r1 & m & r2 & Hr & D & A & X). destruct r1 as [|n' r1].
        + inv Hr. exfalso. apply (A c). cbn [app]. apply (at_child c m [] c T I). constructor.
        + inv Hr. exists r1, m, r2. split; [reflexivity|]. split; [eapply dir_child; eassumption|]. split.
          * intros k' H. apply (A k'). apply (at_child c n' (r1 ++ [m]) k' T I). exact H.
          * rewrite <- !app_assoc. destruct X as [X|X]; [left|right; exact X].
            unfold excluded in *. rewrite push_below, below_app, <- app_assoc. exact X.
      - intros (r1 & m & r2 & -> & D & A & X). exists (n :: r1), m, r2. split; [reflexivity|]. split; [eapply dir_child; eassumption|]. split.
        + intros k' H. apply (A k'). apply (at_child c n (r1 ++ [m]) k' T I). exact H.
        + rewrite <- !app_assoc in X. destruct X as [X|X]; [left|right; exact X].
          unfold excluded in *. rewrite push_below, below_app, <- app_assoc in X. exact X.
    Qed.
    Lemma spared_off ex dbl f p l n r : fi_type i = ItDir -> ~ In n (fi_names i) ->
      spared ex dbl f w k p l (n :: r) <-> excluded ex dbl p l [n] \/ lookup f (l ++ [n]) = Some ESpecial.
    Proof.
      intros T I. split.
      - intros (r1 & m & r2 & Hr & D & A & X). destruct r1 as [|n' r1]; [inv Hr; exact X|]. inv Hr.
        destruct D as (k' & i' & D & _). exfalso. exact (at_off n' r1 T I k' D).
      - intro X. exists [], n, r. split; [reflexivity|]. split; [exists k, i; split; [constructor|auto]|]. split; [apply at_off; assumption|exact X].
    Qed.
  End Item.

  (** Everything that is at [l ++ r] after checking [k] out. *)
  Lemma outcome_child ex dbl f f' w k i p l c n r : regular w k -> item_at w k i -> fi_type i = ItDir -> In (c, n) (combine (fi_children i) (fi_names i)) ->
    outcome_at ex dbl f f' w c (path_push p n) (l ++ [n]) r -> outcome_at ex dbl f f' w k p l (n :: r).
  Proof.
    intros R It T I H. unfold outcome_at in *. rewrite (spared_child w k i R It ex dbl f p l c n r T I).
    rewrite <- !app_assoc in H. cbn [app] in H.
    assert (A : absent w c r -> absent w k (n :: r)) by (intros A k' K; apply (A k'); eapply at_child; eassumption).
    destruct H as [(H1 & H2)|[(b & H1 & H2)|[(H1 & H2)|(H1 & H2)]]].
    - left. split; [eapply dir_child; eassumption|exact H2].
    - right. left. exists b. split; [|exact H2]. destruct H1 as (k' & i' & h & rest & H1 & H3). exists k', i', h, rest. split; [eapply at_child; eassumption|exact H3].
    - right. right. left. auto.
    - right. right. right. auto.
  Qed.
  Lemma outcome_ext ex dbl f f' g g' w k p l r : (forall x, under l x -> lookup g x = lookup f x) -> (forall x, under l x -> lookup g' x = lookup f' x) ->
    outcome_at ex dbl f f' w k p l r -> outcome_at ex dbl g g' w k p l r.
  Proof.
    intros F F'.
    assert (S : spared ex dbl g w k p l r <-> spared ex dbl f w k p l r).
    { unfold spared. split; intros (r1 & n & r2 & H1 & H2 & H3 & H4); exists r1, n, r2; repeat (split; [assumption|]).
      - rewrite F in H4 by (eexists; reflexivity). exact H4.
      - rewrite F by (eexists; reflexivity). exact H4. }
    unfold outcome_at, content. rewrite S, F, F' by (eexists; reflexivity). tauto.
  Qed.
  Lemma read_sim g : forall k v w w2, cur_db w2 = cur_db w -> w_faults w = [] -> w_faults w2 = [] ->
    exists o u u2, read_data ds vec_write g k v w = (o, u) /\ read_data ds vec_write g k v w2 = (o, u2) /\ cur_db u2 = cur_db u /\ w_faults u = [] /\ w_faults u2 = [].
  Proof.
    induction g as [|g IH]; intros k v w w2 C NF NF2; [exists Diverged, w, w2; auto|]. cbn [read_data].
    assert (G : exists (o : outcome object) u u2, get_obj ds k w = (o, u) /\ get_obj ds k w2 = (o, u2) /\ cur_db u2 = cur_db u /\ w_faults u = [] /\ w_faults u2 = []).
    { rewrite !get_obj_eq. unfold bind, db_read, op. cbn [w_faults set_tick]. rewrite NF, NF2.
      change (cur_db (set_tick w (S (w_tick w)))) with (cur_db w). change (cur_db (set_tick w2 (S (w_tick w2)))) with (cur_db w2). rewrite C.
      destruct (assoc (as_db_key k) (d_data (cur_db w))) as [b|]; cbn; [destruct (decode_object b); cbn|];
        eexists _, (set_tick w (S (w_tick w))), (set_tick w2 (S (w_tick w2))); repeat (split; [reflexivity|]); (split; [exact C|auto]). }
    destruct G as (o & u & u2 & G1 & G2 & C' & N1 & N2). unfold bind at 1. rewrite G1. unfold bind at 2. rewrite G2.
    destruct o as [o| | | |]; try (eexists _, u, u2; repeat (split; [reflexivity|]); auto; fail).
    destruct (o_type o); try (eexists _, u, u2; repeat (split; [reflexivity|]); auto; fail).
    - change (exists r x x2, each vec_write g (o_keys o) v u = (r, x) /\ each vec_write g (o_keys o) v u2 = (r, x2) /\ cur_db x2 = cur_db x /\ w_faults x = [] /\ w_faults x2 = []).
      clear G1 G2. revert v u u2 C' N1 N2. induction (o_keys o) as [|c ks IHk]; intros v u u2 C' N1 N2; cbn [each].
      + eexists _, u, u2. repeat (split; [reflexivity|]). auto.
      + destruct (IH c v u u2 C' N1 N2) as (r & x & x2 & R1 & R2 & C2 & N3 & N4). unfold bind. rewrite R1, R2.
        destruct r as [r| | | |]; try (eexists _, x, x2; repeat (split; [reflexivity|]); auto; fail). apply IHk; assumption.
    - destruct (o_keys o) as [|c [|]]; try (eexists _, u, u2; repeat (split; [reflexivity|]); auto; fail). apply IH; assumption.
  Qed.
  Lemma yields_cur w w' k c : cur_db w' = cur_db w -> yields w k c -> yields w' k c.
  Proof.
    intros C [n H]. exists n. intros fuel L. rewrite <- (H fuel L).
    destruct (read_sim fuel k [] (set_faults w []) (set_faults w' []) C eq_refl eq_refl) as (o & u & u2 & R1 & R2 & _). rewrite R1, R2. reflexivity.
  Qed.
  Lemma yields_fun w k c c' : yields w k c -> yields w k c' -> c = c'.
  Proof. intros [n H] [m K]. specialize (H (n + m) ltac:(lia)). specialize (K (n + m) ltac:(lia)). congruence. Qed.
  Lemma at_cur_iff w w' k r k' : cur_db w' = cur_db w -> at_path w k r k' <-> at_path w' k r k'.
  Proof. intro C. split; apply at_path_cur; congruence. Qed.
  Lemma item_cur_iff w w' k i : cur_db w' = cur_db w -> item_at w k i <-> item_at w' k i.
  Proof. intro C. split; apply item_cur; congruence. Qed.

  (** *** The whole *)
  Lemma kept_false ex dbl p l n : kept ex dbl (path_push p n) (l ++ [n]) = true <-> ~ excluded ex dbl p l [n].
  Proof. rewrite push_below. apply kept_excluded. Qed.
  Lemma excluded_dec ex dbl p l r : excluded ex dbl p l r \/ ~ excluded ex dbl p l r.
  Proof.
    destruct (kept ex dbl (below p r) (l ++ r)) eqn:K; [right; apply kept_excluded, K|]. left.
    destruct (names_prefix dbl (l ++ r)) eqn:P; [left; apply names_prefix_iff, P|]. right.
    unfold kept in K. rewrite P in K. cbn in K. apply negb_false_iff in K. apply existsb_exists in K as (g & I & G). rewrite normalise_undotted in G. eauto.
  Qed.
  Lemma name_stored_iff names n : Forall entry_name names -> name_stored names n = true <-> In n names.
  Proof.
    intro F. unfold name_stored. rewrite existsb_exists. rewrite Forall_forall in F. split.
    - intros (m & I & H). rewrite (parse_name m (F m I)) in H. unfold path_eqb in H. cbn in H. rewrite andb_true_r in H.
      apply bytes_eqb_true in H. subst m. exact I.
    - intro I. exists n. split; [exact I|]. rewrite (parse_name n (F n I)). unfold path_eqb. cbn. rewrite bytes_eqb_refl. reflexivity.
  Qed.

  Lemma create_done p w l w' : fs_create p w = (Done l, w') ->
    fs_only w w' /\ resolve (w_fs w) (w_cwd w) p = Some l /\ (lookup (w_fs w) l = None \/ exists c st, lookup (w_fs w) l = Some (EFile c st)) /\
    exists st, w_fs w' = fs_set (w_fs w) l (EFile [] st).
  Proof.
    intro H. apply fs_change_done in H as (O & t & H). split; [exact O|]. unfold create_eff in H.
    destruct (resolve (w_fs w) (w_cwd w) p) as [m|]; [|discriminate]. destruct (p_slash p); [discriminate|].
    destruct (lookup (w_fs w) m) as [[|c st| |]|] eqn:L; inv H; (split; [reflexivity|]); (split; [|eauto]); eauto.
  Qed.
  Lemma resolve_last f cwd p l : resolve f cwd p = Some l -> lookup f l = None -> ~ In ParentDir (p_comps p) ->
    exists l' n, l = l' ++ [n] /\ lookup f l' = Some EDir.
  Proof.
    intros R L N. destruct p as [a cs sl]. unfold resolve, is_empty_path in R. cbn [p_abs p_comps] in *.
    destruct cs as [|c cs _] using rev_ind.
    - destruct a; cbn in R; inv R. discriminate.
    - replace (negb a && match cs ++ [c] with [] => true | _ => false end) with false in R by (destruct cs, a; reflexivity).
      rewrite walk_app in R. destruct (walk_comps f (if a then [] else cwd) cs) as [m|]; [|discriminate]. cbn in R.
      destruct (is_dir f m) eqn:D; [|discriminate]. apply is_dir_iff in D. destruct c as [| |n]; inv R.
      + congruence.
      + exfalso. apply N, in_or_app. right. left. reflexivity.
      + eauto.
  Qed.
  Lemma closed_set f l c st : closed f -> l <> [] -> (lookup f l = None /\ exists l' n, l = l' ++ [n] /\ lookup f l' = Some EDir) \/ (exists c st, lookup f l = Some (EFile c st)) ->
    forall f', (forall x, x <> l -> lookup f' x = lookup f x) -> lookup f' l = Some (EFile c st) -> closed f'.
  Proof.
    intros C N H f' O L x n e K. destruct (loc_eq_dec (x ++ [n]) l) as [Q|Q].
    - assert (x <> l) by (intros ->; apply (f_equal (@length name)) in Q; rewrite app_length in Q; cbn in Q; lia). rewrite O by assumption.
      destruct H as [(_ & l' & m & -> & D)|(c' & st' & H)]; [apply app_inj_tail in Q as [-> _]; exact D|]. subst l. eapply C, H.
    - rewrite O in K by exact Q. apply C in K. destruct (loc_eq_dec x l) as [->|Q']; [|rewrite O by exact Q'; exact K].
      destruct H as [(H & _)|(c' & st' & H)]; congruence.
  Qed.
  Lemma mkdir_noop p w w' l : resolve (w_fs w) (w_cwd w) p = Some l -> lookup (w_fs w) l = Some EDir ->
    fs_create_dir_all p w = (Done tt, w') -> fs_only w w' /\ w_fs w' = w_fs w.
  Proof.
    intros R L H. apply mkdir_done in H as [O [[Em _]|[Em M]]]; (split; [exact O|]).
    - unfold resolve in R. rewrite Em in R. discriminate.
    - unfold resolve in R. rewrite Em in R. fold (base_loc (w_cwd w) p) in R. rewrite (mkdirs_walked _ _ _ _ R L) in M. congruence.
  Qed.

  Context (ex : list bytes) (db : path).
  Notation flt := (filter_fn ex db).
  Lemma checkout_done g : forall k p w w', regular w k -> closed (w_fs w) -> ~ In ParentDir (p_comps p) ->
    checkout_fs_item ds g k p flt w = (Done tt, w') ->
    let l := locate (w_cwd w) p in
    fs_only w w' /\ closed (w_fs w') /\ (forall x, ~ under l x -> lookup (w_fs w') x = lookup (w_fs w) x) /\
    forall r, outcome_at ex (locate (w_cwd w) db) (w_fs w) (w_fs w') w k p l r.
  Proof.
    induction g as [|g IH]; intros k p w w' Rg Cl NP H l; [discriminate|]. rewrite checkout_eq in H.
    apply bind_done in H as (i & w1 & G & H). pose proof (get_fsitem_item _ _ _ _ G) as It. apply db_item_iff in It.
    apply get_fsitem_done in G as (T1 & _). destruct (ticked_fs _ _ T1) as [F1 C1]. pose proof (ticked_only _ _ T1) as O1.
    destruct (fi_type i) eqn:Ty.
    - (* directory *)
      apply bind_done in H as ([names err] & w2 & H2 & H). apply read_dir_done in H2 as (T2 & x & S2 & R2).
      rewrite F1, C1 in S2. pose proof S2 as S2'. apply stat_locate in S2' as (-> & Ld & Rs). fold l in S2, R2, Ld, Rs.
      destruct (ticked_fs _ _ T2) as [F2 C2]. rewrite F1 in F2. rewrite C1 in C2. rewrite F1 in R2.
      apply bind_done in H as (items & w3 & H3 & H). apply bind_done in H as ([] & w4 & H4 & H). destruct err; [discriminate|].
      apply ret_done in H4 as [_ ->]. destruct R2 as [R2|[n R2]]; inv R2.
      apply (filter_names_done ex db p l) in H3 as (T3 & ->); [|rewrite F2, C2; exact S2|rewrite F2; intros n I; apply child_lookup, I].
      destruct (ticked_fs _ _ T3) as [F3 C3]. rewrite F2 in F3. rewrite C2 in C3. rewrite C2 in H.
      apply bind_done in H as ([] & w5 & H5 & H).
      set (L := filter (fun n => negb (name_stored (fi_names i) n)) (filter (fun n => kept ex (locate (w_cwd w) db) (path_push p n) (l ++ [n])) (children (w_fs w) l))) in *.
      apply (remove_done p l) in H5 as (O5 & Rm); [|exact NP|rewrite F3, C3; exact Rs|rewrite F3; exact Ld].
      rewrite F3 in Rm.
      assert (O15 : fs_only w w5).
      { eapply fs_only_trans; [exact O1|]. eapply fs_only_trans; [apply ticked_only, T2|]. eapply fs_only_trans; [apply ticked_only, T3|exact O5]. }
      destruct (Rg k i (eo_refl w k) It Ty) as (Pn & Nd & Len).
      assert (InL : forall n, In n L <-> (exists e, lookup (w_fs w) (l ++ [n]) = Some e) /\ ~ excluded ex (locate (w_cwd w) db) p l [n] /\ ~ In n (fi_names i)).
      { intro n. unfold L. rewrite !filter_In, negb_true_iff, kept_false.
        assert (X : name_stored (fi_names i) n = false <-> ~ In n (fi_names i)).
        { rewrite <- (name_stored_iff _ n Pn). destruct (name_stored (fi_names i) n); split; congruence. }
        rewrite X. split.
        - intros [[A B] D]. split; [apply child_lookup, A|auto].
        - intros [[e A] [B D]]. split; [split; [eapply lookup_child, A|exact B]|exact D]. }
      pose proof Rm as (Rm1 & Rm2 & Rm3).
      (* the children *)
      assert (Each : forall cs w5 w', (forall c n, In (c, n) cs -> In (c, n) (combine (fi_children i) (fi_names i))) -> NoDup (map snd cs) ->
        fs_only w w5 -> closed (w_fs w5) -> (forall x, ~ under l x -> lookup (w_fs w5) x = lookup (w_fs w) x) -> lookup (w_fs w5) l = Some EDir ->
        (forall c n r, In (c, n) cs -> lookup (w_fs w5) (l ++ n :: r) = lookup (w_fs w) (l ++ n :: r)) ->
        co_each g p flt cs w5 = (Done tt, w') ->
        fs_only w w' /\ closed (w_fs w') /\ (forall x, ~ under l x -> lookup (w_fs w') x = lookup (w_fs w) x) /\ lookup (w_fs w') l = Some EDir /\
        (forall n r, ~ In n (map snd cs) -> lookup (w_fs w') (l ++ n :: r) = lookup (w_fs w5) (l ++ n :: r)) /\
        (forall c n r, In (c, n) cs -> outcome_at ex (locate (w_cwd w) db) (w_fs w) (w_fs w') w c (path_push p n) (l ++ [n]) r)).
      { clear - IH Rg Cl NP It Ty Pn Nd Len Rs Ld. induction cs as [|[c n] cs IHc]; intros w5 w' Sub Ndc O5 Cl5 Out5 Ld5 Kid5 H; cbn [co_each] in H.
        - apply ret_done in H as [_ ->]. split; [exact O5|]. split; [exact Cl5|]. split; [exact Out5|]. split; [exact Ld5|]. split; [reflexivity|intros ? ? ? []].
        - apply bind_done in H as ([] & w6 & H6 & H). apply bind_done in H as ([] & w7 & H7 & H8).
          assert (R5 : resolve (w_fs w5) (w_cwd w5) p = Some l).
          { rewrite (only_cwd _ _ O5). apply (resolve_keep (w_fs w)); auto. congruence. }
          destruct (mkdir_noop _ _ _ _ R5 Ld5 H6) as [O6 F6].
          assert (I0 : In (c, n) (combine (fi_children i) (fi_names i))) by (apply Sub; left; reflexivity).
          assert (En : entry_name n) by (rewrite Forall_forall in Pn; apply Pn; eapply in_combine_r, I0).
          rewrite join_plain in H7 by exact En. pose proof (fs_only_trans _ _ _ O5 O6) as O06.
          apply IH in H7 as (O7 & Cl7 & Out7 & D7).
          2:{ apply (regular_cur w); [apply only_cur, O06|]. eapply regular_child; eauto. eapply in_combine_l, I0. }
          2:{ rewrite F6. exact Cl5. }
          2:{ cbn [path_push p_comps]. intro I. apply in_app_or in I as [I|[I|[]]]; [exact (NP I)|discriminate]. }
          rewrite (only_cwd _ _ O06), locate_push in Out7, D7. fold l in Out7, D7. rewrite F6 in Out7, D7.
          cbn [map snd] in Ndc. apply NoDup_cons_iff in Ndc as [Nn Ndc].
          assert (Oth : forall x, ~ under (l ++ [n]) x -> lookup (w_fs w7) x = lookup (w_fs w5) x) by exact Out7.
          assert (Ul : ~ under (l ++ [n]) l). { intros [r Hr]. apply (f_equal (@length name)) in Hr. rewrite !app_length in Hr. cbn in Hr. lia. }
          pose proof (fs_only_trans _ _ _ O06 O7) as O07.
          destruct (IHc w7 w') as (A1 & A2 & A3 & A4 & A5 & A6); auto.
          { intros c' n' I. apply Sub. right. exact I. }
          { intros x U. rewrite Oth by (intro U'; apply U; eapply under_down, U'). apply Out5, U. }
          { rewrite Oth by exact Ul. exact Ld5. }
          { intros c' n' r I. rewrite Oth; [apply (Kid5 c' n' r); right; exact I|]. intro U. apply under_kids in U. subst n'.
            apply Nn. apply in_map_iff. exists (c', n). auto. }
          split; [exact A1|]. split; [exact A2|]. split; [exact A3|]. split; [exact A4|]. split.
          + intros m r Nm. cbn [map snd In] in Nm. rewrite A5 by tauto. apply Oth. intro U. apply under_kids in U. subst m. tauto.
          + intros c' m r [I|I]; [|apply A6, I]. inv I. specialize (D7 r).
            assert (D7' : outcome_at ex (locate (w_cwd w) db) (w_fs w5) (w_fs w7) w c' (path_push p m) (l ++ [m]) r).
            { pose proof (only_cur _ _ O06) as Cu.
              assert (Da : forall r, dir_at w c' r <-> dir_at w6 c' r) by (intro r0; unfold dir_at; split; intros (k' & i' & X & Y & Z); exists k', i'; (split; [apply (at_cur_iff w w6); assumption|]); (split; [apply (item_cur_iff w w6); assumption|exact Z])).
              assert (Ab : forall r, absent w c' r <-> absent w6 c' r) by (intro r0; unfold absent; split; intros X k' Y; apply (X k'); apply (at_cur_iff w w6); assumption).
              assert (Sp : spared ex (locate (w_cwd w) db) (w_fs w5) w c' (path_push p m) (l ++ [m]) r <-> spared ex (locate (w_cwd w) db) (w_fs w5) w6 c' (path_push p m) (l ++ [m]) r).
              { unfold spared. split; intros (r1 & n1 & r2 & X1 & X2 & X3 & X4); exists r1, n1, r2; (split; [exact X1|]); (split; [apply Da, X2|]); (split; [apply Ab, X3|exact X4]). }
              unfold outcome_at in *. rewrite Da, Ab, Sp. destruct D7 as [D7|[(b & (k' & i' & h & rest & X1 & X2 & X3 & X4 & X5) & D7)|D7]]; [left; exact D7| |right; right; exact D7].
              right. left. exists b. split; [|exact D7]. exists k', i', h, rest. split; [apply (at_cur_iff w w6); assumption|]. split; [apply (item_cur_iff w w6); assumption|].
              split; [exact X3|]. split; [exact X4|]. apply (yields_cur w6); [congruence|exact X5]. }
            eapply outcome_ext; [| |exact D7'].
            * intros x [r' ->]. rewrite <- app_assoc. symmetry. apply (Kid5 c' m r'). left. reflexivity.
            * intros x [r' ->]. rewrite <- app_assoc. cbn [app]. apply A5. exact Nn. }
      destruct (Each _ w5 w' (fun c n I => I)) as (A1 & A2 & A3 & A4 & A5 & A6); auto.
      { rewrite combine_snd by (rewrite Len; reflexivity). exact Nd. }
      { eapply removes_closed; eassumption. }
      { intros x U. apply Rm3. intros n I _ U'. apply U. eapply under_down, U'. }
      { rewrite Rm3; [exact Ld|]. intros n I _ [r Hr]. apply (f_equal (@length name)) in Hr. rewrite !app_length in Hr. cbn in Hr. lia. }
      { intros c n r I. apply Rm3. intros m J _ U. apply under_kids in U. subst m. apply InL in J as (_ & _ & J). apply J. eapply in_combine_r, I. }
      split; [exact A1|]. split; [exact A2|]. split; [exact A3|]. intros [|n r].
      + left. rewrite app_nil_r. split; [exists k, i; split; [constructor|auto]|]. auto.
      + destruct (in_dec (list_eq_dec ascii_dec) n (fi_names i)) as [I|I].
        * assert (J : exists c, In (c, n) (combine (fi_children i) (fi_names i))).
          { rewrite <- (combine_snd (fi_children i) (fi_names i)) in I by (rewrite Len; reflexivity). apply in_map_iff in I as ([c n'] & <- & I). exists c. exact I. }
          destruct J as [c J]. eapply outcome_child; eauto.
        * specialize (A5 n r). rewrite combine_snd in A5 by (rewrite Len; reflexivity). specialize (A5 I).
          pose proof (at_off w k i It n r Ty I) as Ab.
          assert (Sp := spared_off w k i It ex (locate (w_cwd w) db) (w_fs w) p l n r Ty I).
          destruct (excluded_dec ex (locate (w_cwd w) db) p l [n]) as [X|X].
          -- right. right. left. split; [exact Ab|]. split; [apply Sp; auto|]. etransitivity; [exact A5|]. apply Rm3. intros m J _ U. apply under_kids in U. subst m. apply InL in J. tauto.
          -- destruct (lookup (w_fs w) (l ++ [n])) as [e|] eqn:Le.
             ++ assert (J : In n L) by (apply InL; eauto). destruct (Rm1 n J) as (e' & Le' & Nd').
                destruct (match e with ESpecial => true | _ => false end) eqn:Es.
                ** destruct e; try discriminate. right. right. left. split; [exact Ab|]. split; [apply Sp; auto|]. etransitivity; [exact A5|]. apply Rm3.
                   intros m J' S' U. apply under_kids in U. subst m. congruence.
                ** right. right. right. split; [exact Ab|]. split; [intro Q; apply Sp in Q; destruct Q as [Y|Y]; [exact (X Y)|]; assert (Z : Some e = Some ESpecial) by first [exact Y|exact (eq_trans (eq_sym Le) Y)]; inv Z; discriminate|].
                   etransitivity; [exact A5|]. apply Rm2; [exact J|]. intro Y. assert (Z : Some e = Some ESpecial) by first [exact Y|exact (eq_trans (eq_sym Le) Y)]. inv Z. discriminate.
             ++ right. right. right. split; [exact Ab|]. split; [intro Q; apply Sp in Q; destruct Q as [Y|Y]; [exact (X Y)|]; assert (Z : None = Some ESpecial) by first [exact Y|exact (eq_trans (eq_sym Le) Y)]; discriminate Z|].
                etransitivity; [exact A5|]. etransitivity; [apply Rm3|].
                2:{ destruct r as [|m r]; [exact Le|]. change (n :: m :: r) with ([n] ++ m :: r). rewrite app_assoc.
                   apply closed_none; [exact Cl| |discriminate]. rewrite Le. discriminate. }
                intros m J _ U. apply under_kids in U. subst m. apply InL in J as ((e & J) & _). congruence.
    - (* file *)
      apply bind_done in H as (x & w2 & H2 & H). apply create_done in H2 as (O2 & Rs & Lk & st & F2). rewrite F1, C1 in Rs. rewrite F1 in Lk, F2.
      pose proof (resolve_locate _ _ _ _ Rs) as Hx. fold l in Hx. subst x.
      apply bind_done in H as ([] & w3 & H3 & H). destruct (starts_with p blessed); [|discriminate]. apply ret_done in H3 as [_ ->].
      unfold write_item_data in H. destruct (fi_children i) as [|h rest] eqn:Ch; [discriminate|].
      assert (Nl : l <> []) by (intros Q; rewrite Q in Lk; destruct Lk as [Lk|(? & ? & Lk)]; discriminate).
      apply (read_file l g h w2 w' [] st) in H as (bs & O3 & [(st' & W) W'] & K); [|exact Nl|rewrite F2; apply lookup_set_same, Nl].
      assert (O : fs_only w w') by (eapply fs_only_trans; [exact O1|]; eapply fs_only_trans; eassumption).
      assert (Out : forall x, x <> l -> lookup (w_fs w') x = lookup (w_fs w) x) by (intros x Hx; rewrite W' by exact Hx; rewrite F2, lookup_set_other by assumption; reflexivity).
      cbn [app] in W.
      assert (Cl' : closed (w_fs w')).
      { eapply (closed_set (w_fs w) l); eauto. destruct Lk as [Lk|Lk]; [left; split; [exact Lk|]; eapply resolve_last; eassumption|right; exact Lk]. }
      split; [exact O|]. split; [exact Cl'|]. split; [intros x U; apply Out; intros ->; apply U; exists []; rewrite app_nil_r; reflexivity|].
      intros [|n r].
      + right. left. exists bs. rewrite app_nil_r. split; [|unfold content; rewrite W; reflexivity].
        exists k, i, h, rest. split; [constructor|]. split; [exact It|]. split; [exact Ty|]. split; [exact Ch|].
        exists g. intros fuel Lf. destruct (K (set_faults w []) fuel []) as (w3 & R3 & _); auto.
        { change (cur_db (set_faults w [])) with (cur_db w). rewrite (only_cur _ _ O2), (only_cur _ _ O1). reflexivity. }
        rewrite R3. reflexivity.
      + right. right. right. split; [apply (at_file w k i It); [exact Ty|discriminate]|]. split.
        * intros (r1 & m & r2 & _ & D & _). destruct D as (k' & i' & D1 & D2 & D3). destruct r1 as [|m1 r1].
          -- apply at_inv in D1. subst k'. pose proof (item_fun _ _ _ _ It D2). congruence.
          -- apply (at_file w k i It (m1 :: r1) Ty ltac:(discriminate) k' D1).
        * apply closed_none; [exact Cl'| |discriminate]. rewrite W. discriminate.
  Qed.
  (** *** Outside the directory the assertions ask for *)
  Definition same_fs (w w' : world) : Prop := w_fs w' = w_fs w /\ w_cwd w' = w_cwd w.
  Instance same_fs_pre : PreOrder same_fs.
  Proof. split; [intro w; split; reflexivity|]. intros a b c [A1 A2] [B1 B2]. split; congruence. Qed.
  Lemma op_same_fs {B} (eff : fault -> M B) : (forall fl, rel same_fs (eff fl)) -> rel same_fs (op eff).
  Proof.
    intros H w. destruct (op_case eff w) as (fl & w1 & E1 & T). rewrite E1. destruct (ticked_fs _ _ T) as [F C]. destruct (H fl w1) as [A B1].
    split; congruence.
  Qed.
  Instance same_fs_rd : RdPrims same_fs.
  Proof.
    split; try exact _; intros.
    - apply op_same_fs. intros [| | |] w; split; reflexivity.
    - apply op_same_fs. intros [| | |] w; split; reflexivity.
    - apply op_same_fs. intros [| | |] w; split; reflexivity.
    - apply op_same_fs. intros fl w. destruct fl; try (split; reflexivity). destruct (q (w_fs w) (w_cwd w)); split; reflexivity.
    - apply op_same_fs. intros fl w. destruct (stat (w_fs w) (w_cwd w) p) as [[? [| | |]]|]; destruct fl as [|[|]| |]; split; reflexivity.
    - apply op_same_fs. intros fl w. destruct (stat (w_fs w) (w_cwd w) p) as [[? [| | |]]|]; destruct fl as [|[|]| |]; split; reflexivity.
  Qed.
  Lemma mkdirs_walked_any a b : forall f cur m, walk_comps f cur a = Some m -> lookup f m = Some EDir -> mkdirs b f cur a = Some f.
  Proof.
    induction a as [|c a IH]; cbn [walk_comps mkdirs]; intros f cur m H D.
    - inv H. apply is_dir_iff in D. rewrite D. reflexivity.
    - destruct (is_dir f cur) eqn:Dc; [|discriminate]. destruct c as [| |n]; cbn in H; try (eapply IH; eassumption).
      assert (L : lookup f (cur ++ [n]) = Some EDir).
      { destruct a as [|c a]; cbn in H; [congruence|]. apply is_dir_iff. destruct (is_dir f (cur ++ [n])); [reflexivity|discriminate]. }
      rewrite L. eapply IH; eassumption.
  Qed.
  Lemma mkdir_same p w l : resolve (w_fs w) (w_cwd w) p = Some l -> lookup (w_fs w) l = Some EDir -> same_fs w (snd (fs_create_dir_all p w)).
  Proof.
    intros R L. unfold resolve in R. unfold fs_create_dir_all. destruct (is_empty_path p); [discriminate|]. fold (base_loc (w_cwd w) p) in R.
    unfold fs_change. match goal with |- context [op ?e ?x] => destruct (op_case e x) as (fl & w1 & E1 & T) end. rewrite E1.
    destruct (ticked_fs _ _ T) as [F C]. rewrite F, C. rewrite (mkdirs_walked_any _ None _ _ _ R L). cbn.
    destruct fl; cbn; (split; [|exact C]); cbn; try exact F; try (rewrite (mkdirs_walked_any _ _ _ _ _ R L)); reflexivity.
  Qed.
  Lemma emptied_up f f' l n : one_emptied f f' (l ++ [n]) -> one_emptied f f' l.
  Proof. intros [H|(x & st & U & H)]; [left; exact H|]. right. exists x, st. split; [eapply under_down, U|exact H]. Qed.
  Lemma create_emptied p w : let l := locate (w_cwd w) p in let r := fs_create p w in
    w_cwd (snd r) = w_cwd w /\ one_emptied (w_fs w) (w_fs (snd r)) l.
  Proof.
    cbv zeta. unfold fs_create, fs_change.
    match goal with |- context [op ?e ?x] => destruct (op_case e x) as (fl & w1 & E1 & T) end. rewrite E1. clear E1.
    destruct (ticked_fs _ _ T) as [F C]. rewrite F, C.
    assert (K : forall x f', create_eff p (w_fs w) (w_cwd w) (w_tick w1) = Some (x, f') -> one_emptied (w_fs w) f' (locate (w_cwd w) p)).
    { intros x f' H. unfold create_eff in H. destruct (resolve (w_fs w) (w_cwd w) p) as [l|] eqn:R; [|discriminate]. destruct (p_slash p); [discriminate|].
      right. exists l. rewrite <- (resolve_locate _ _ _ _ R). destruct (lookup (w_fs w) l) as [[|c st| |]|] eqn:L; inv H; eexists; (split; [exists []; rewrite app_nil_r; reflexivity|]); (split; [eauto|]).
      - assert (x <> []) by (intros ->; discriminate). split; [apply lookup_set_same; assumption|]. intros y Hy. apply lookup_set_other; assumption.
      - assert (x <> []) by (intros ->; discriminate). split; [apply lookup_set_same; assumption|]. intros y Hy. apply lookup_set_other; assumption. }
    destruct (create_eff p (w_fs w) (w_cwd w) (w_tick w1)) as [[x f']|] eqn:Q.
    - specialize (K x f' eq_refl). destruct fl as [|[|]| |[|]]; cbn; try rewrite Q; (split; [exact C|]); cbn; try exact K; left; congruence.
    - destruct fl; cbn; (split; [exact C|left; exact F]).
  Qed.
  Lemma blessed_below p r : (forall r, starts_with (below p r) blessed = false) -> starts_with p blessed = false /\ starts_with (below p r) blessed = false.
  Proof. intro H. split; [|apply H]. specialize (H []). unfold below in H. cbn [map] in H. rewrite app_nil_r in H. exact H. Qed.
  Definition harmless (w : world) (l : loc) (r : outcome unit * world) : Prop :=
    w_cwd (snd r) = w_cwd w /\ one_emptied (w_fs w) (w_fs (snd r)) l /\ (fst r = Done tt -> w_fs (snd r) = w_fs w /\ cur_db (snd r) = cur_db w).
  Lemma checkout_unblessed g : forall k p w, proper_names w k -> (forall r, starts_with (below p r) blessed = false) ->
    harmless w (locate (w_cwd w) p) (checkout_fs_item ds g k p flt w).
  Proof.
    induction g as [|g IH]; intros k p w Pn Nb; [split; [reflexivity|]; split; [left; reflexivity|discriminate]|]. rewrite checkout_eq.
    destruct (blessed_below p [] Nb) as [Nb0 _].
    assert (Stop : forall (o : outcome unit) w1, same_fs w w1 -> o <> Done tt -> harmless w (locate (w_cwd w) p) (o, w1)).
    { intros o w1 [F C] N. split; [exact C|]. split; [left; exact F|]. intro; contradiction. }
    pose proof (rel_get_fsitem same_fs k w) as S1. unfold bind at 1. destruct (get_fsitem ds k w) as [o w1] eqn:G. cbn [snd] in S1.
    destruct o as [i| | | |]; try (apply Stop; [exact S1|discriminate]).
    pose proof (get_fsitem_item _ _ _ _ G) as It. apply db_item_iff in It. apply get_fsitem_done in G as (T1 & _).
    destruct (ticked_fs _ _ T1) as [F1 C1]. pose proof (cur_ticked _ _ T1) as D1. destruct (fi_type i) eqn:Ty.
    - pose proof (rp_readdir (R := same_fs) p w1) as S2. unfold bind at 1. destruct (fs_read_dir p w1) as [o w2] eqn:Rd. cbn [snd] in S2.
      assert (S02 : same_fs w w2) by (etransitivity; eassumption). destruct o as [[names err]| | | |]; try (apply Stop; [exact S02|discriminate]).
      apply read_dir_done in Rd as (T2 & x & St & R2). rewrite F1, C1 in St. pose proof St as St'. apply stat_locate in St' as (-> & Ld & Rs).
      set (l := locate (w_cwd w) p) in *. rewrite F1 in R2. destruct (ticked_fs _ _ T2) as [F2 C2]. pose proof (cur_ticked _ _ T2) as D2. rewrite F1 in F2. rewrite C1 in C2.
      assert (Kids : forall n, In n names -> exists e, lookup (w_fs w2) (l ++ [n]) = Some e).
      { intros n I. rewrite F2. apply child_lookup. destruct R2 as [R2|[m R2]]; inv R2; [exact I|]. rewrite <- (firstn_skipn m). apply in_or_app. left. exact I. }
      pose proof (rel_filter_names same_fs p flt (fun q => rel_filter_fn same_fs ex db q) names w2) as S3. unfold bind at 1. destruct (filter_names p flt names w2) as [o w3] eqn:Fn. cbn [snd] in S3.
      assert (S03 : same_fs w w3) by (etransitivity; eassumption). destruct o as [items| | | |]; try (apply Stop; [exact S03|discriminate]).
      apply (filter_names_done ex db p l) in Fn as (T3 & _); [|rewrite F2, C2; exact St|exact Kids].
      destruct (ticked_fs _ _ T3) as [F3 C3]. pose proof (cur_ticked _ _ T3) as D3. rewrite F2 in F3. rewrite C2 in C3.
      unfold bind at 1. destruct err; [apply Stop; [exact S03|discriminate]|]. unfold ret at 1.
      destruct (filter (fun n => negb (name_stored (fi_names i) n)) items) as [|n0 L0]; cbn [remove_extra]; unfold bind at 1.
      2:{ rewrite Nb0. apply Stop; [exact S03|discriminate]. }
      unfold ret at 1.
      assert (Names : forall c n, In (c, n) (combine (fi_children i) (fi_names i)) -> entry_name n /\ proper_names w c).
      { intros c n I. pose proof It as (o & Ro & Fo). split.
        - pose proof (Pn k o i (eo_refl w k) Ro Fo Ty) as Q. rewrite Forall_forall in Q. apply Q. eapply in_combine_r, I.
        - intros k' o' i' En. apply (Pn k' o' i'). eapply eo_child; eauto. eapply in_combine_l, I. }
      assert (Each : forall cs w3, (forall c n, In (c, n) cs -> entry_name n /\ proper_names w c) -> w_fs w3 = w_fs w -> w_cwd w3 = w_cwd w -> cur_db w3 = cur_db w ->
        harmless w l (co_each g p flt cs w3)).
      { clear - IH Nb Rs Ld Stop. induction cs as [|[c n] cs IHc]; intros w3 Names F3 C3 D3; cbn [co_each].
        - cbn. split; [exact C3|]. split; [left; exact F3|auto].
        - assert (S4 : same_fs w (snd (fs_create_dir_all p w3))).
          { destruct (mkdir_same p w3 l) as [A B]; [rewrite F3, C3; exact Rs|rewrite F3; exact Ld|]. split; congruence. }
          unfold bind at 1. destruct (fs_create_dir_all p w3) as [o w4] eqn:Mk. cbn [snd] in S4. destruct o as [[]| | | |]; try (apply Stop; [exact S4|discriminate]).
          apply mkdir_done in Mk as (O4 & _). pose proof (only_cur _ _ O4) as D4. destruct S4 as [F4 C4]. destruct (Names c n (or_introl eq_refl)) as [En Pc].
          rewrite D3 in D4. rewrite (join_plain p n En).
          specialize (IH c (path_push p n) w4). unfold harmless in IH. rewrite C4, F4, locate_push in IH. fold l in IH. destruct IH as (A1 & A2 & A3).
          { intros k' o' i' En' Ro. apply (Pc k' o' i'); [eapply entries_cur; [|exact En']; congruence|eapply reads_cur; [|exact Ro]; congruence]. }
          { intro r. rewrite push_below, below_app. apply Nb. }
          unfold bind at 1. destruct (checkout_fs_item ds g c (path_push p n) flt w4) as [o w5] eqn:Co. cbn [fst snd] in A1, A2, A3.
          destruct o as [[]| | | |]; try (split; [exact A1|]; split; [eapply emptied_up, A2|discriminate]).
          destruct (A3 eq_refl) as [F5 D5]. apply IHc; [intros c' n' I; apply Names; right; exact I|congruence|congruence|congruence]. }
      apply (Each _ w3 Names); [exact F3|exact C3|congruence].
    - pose proof (create_emptied p w1) as (A1 & A2). rewrite C1 in A1, A2. rewrite F1 in A2. unfold bind at 1. destruct (fs_create p w1) as [o w2]. cbn [snd] in A1, A2.
      rewrite Nb0. destruct o as [x| | | |]; (split; [exact A1|]); (split; [exact A2|]); discriminate.
  Qed.
End CheckoutFacts.
