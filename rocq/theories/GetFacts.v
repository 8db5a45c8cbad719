(** Facts about fetching stored directories. *)
From Verif Require Import Base BaseFacts Key Cbor CborFacts Object ObjectFacts Path World WorldFacts Store File Filter Dir SpecStore StoreCalls SpecRun SpecFile SpecDir
  Frame DbRel Integrity ObjStoreFacts FilePlan FileFacts ChunkFacts FileRun FsFacts DirPlan DirFacts.
From Coq Require Import RelationClasses.

Section GetFacts.
  Context {E : Env}.
  Notation ds := sqlite_ds.

  (** Only the file system, the clock and the schedule differ. *)
  Definition fs_only (w w' : world) : Prop := exists t r f, w' = set_fs (set_faults (set_tick w t) r) f.
  Lemma fs_only_refl w : fs_only w w.
  Proof. exists (w_tick w), (w_faults w), (w_fs w). destruct w; reflexivity. Qed.
  Lemma fs_only_trans a b c : fs_only a b -> fs_only b c -> fs_only a c.
  Proof. intros (t & r & f & ->) (t' & r' & f' & ->). exists t', r', f'. reflexivity. Qed.
  Lemma ticked_only w w' : ticked w w' -> fs_only w w'.
  Proof. intros (t & r & ->). exists t, r, (w_fs w). destruct w; reflexivity. Qed.
  Lemma only_holds w w' o : fs_only w w' -> holds w o -> holds w' o.
  Proof. intros (t & r & f & ->) [F H]. split; [exact F|exact H]. Qed.
  Lemma only_cur w w' : fs_only w w' -> cur_db w' = cur_db w.
  Proof. intros (t & r & f & ->). reflexivity. Qed.
  Lemma only_cwd w w' : fs_only w w' -> w_cwd w' = w_cwd w.
  Proof. intros (t & r & f & ->). reflexivity. Qed.
  Lemma only_set w w' f : fs_only w w' -> fs_only w (set_fs w' f).
  Proof. intros (t & r & f0 & ->). exists t, r, f. reflexivity. Qed.

  (** *** What the calls do when they succeed *)
  Lemma fs_change_done {A} (full : fs -> loc -> nat -> option (A * fs)) part w a w' : fs_change full part w = (Done a, w') ->
    fs_only w w' /\ exists t, full (w_fs w) (w_cwd w) t = Some (a, w_fs w').
  Proof.
    unfold fs_change. intro H. match type of H with op ?e ?x = _ => destruct (op_case e x) as (fl & w1 & E1 & T) end.
    rewrite E1 in H. destruct (ticked_fs _ _ T) as [F C]. rewrite F, C in H.
    destruct (full (w_fs w) (w_cwd w) (w_tick w1)) as [[a0 f']|] eqn:Q; destruct fl; inv H. split; [|eauto].
    apply only_set, ticked_only, T.
  Qed.
  Lemma mkdir_done p w w' : fs_create_dir_all p w = (Done tt, w') ->
    fs_only w w' /\ ((is_empty_path p = true /\ w_fs w' = w_fs w) \/
      (is_empty_path p = false /\ mkdirs None (w_fs w) (base_loc (w_cwd w) p) (p_comps p) = Some (w_fs w'))).
  Proof.
    unfold fs_create_dir_all. destruct (is_empty_path p) eqn:Em.
    - intro H. inv H. split; [apply fs_only_refl|auto].
    - intro H. apply fs_change_done in H as (O & t & H). split; [exact O|]. right. split; [reflexivity|].
      destruct (mkdirs None (w_fs w) (base_loc (w_cwd w) p) (p_comps p)); inv H. reflexivity.
  Qed.
  Lemma create_new_done p w l w' : fs_create_new p w = (Done l, w') ->
    fs_only w w' /\ resolve (w_fs w) (w_cwd w) p = Some l /\ p_slash p = false /\ lookup (w_fs w) l = None /\
    exists st, w_fs w' = fs_set (w_fs w) l (EFile [] st).
  Proof.
    intro H. apply fs_change_done in H as (O & t & H). split; [exact O|]. unfold create_new_eff in H.
    destruct (resolve (w_fs w) (w_cwd w) p) as [m|]; [|discriminate]. destruct (p_slash p); [discriminate|].
    destruct (lookup (w_fs w) m) eqn:L; inv H. eauto 6.
  Qed.
  Lemma write_done l d w u w' : fs_write l d w = (Done u, w') -> fs_only w w' /\ exists t, w_fs w' = append l d (w_fs w) t.
  Proof. intro H. apply fs_change_done in H as (O & t & H). split; [exact O|]. exists t. congruence. Qed.
  Lemma lookup_append l d f t : l <> [] ->
    (forall c st, lookup f l = Some (EFile c st) -> exists st', lookup (append l d f t) l = Some (EFile (c ++ d) st')) /\
    (forall x, x <> l -> lookup (append l d f t) x = lookup f x).
  Proof.
    intro N. unfold append. split.
    - intros c st H. rewrite H. eexists. apply lookup_set_same, N.
    - intros x Hx. destruct (lookup f l) as [[| c st| |]|]; try reflexivity. apply lookup_set_other; assumption.
  Qed.

  (** Writing data into a file. *)
  Definition written (f1 : fs) (l : loc) (acc : bytes) (f : fs) : Prop :=
    (exists st, lookup f l = Some (EFile acc st)) /\ forall x, x <> l -> lookup f x = lookup f1 x.
  Lemma read_into objs n k bs fuel l w u w' : l <> [] -> (exists st, lookup (w_fs w) l = Some (EFile [] st)) ->
    (forall o, In o objs -> holds w o) -> den objs n k bs ->
    read_data ds (file_write l) fuel k tt w = (Done u, w') -> fs_only w w' /\ written (w_fs w) l bs (w_fs w').
  Proof.
    intros N L H D R.
    apply (read_den (file_write l) (fun _ acc w1 => fs_only w w1 /\ written (w_fs w) l acc (w_fs w1)) objs) with (acc := []) (n := n) (bs := bs) in R; auto.
    - intros s acc w1 [O _] o Ho. eapply only_holds; eauto.
    - intros s acc w1 w2 [O W] T. split; [eapply fs_only_trans; [exact O|apply ticked_only, T]|]. destruct (ticked_fs _ _ T) as [-> _]. exact W.
    - intros s acc w1 d s' w2 [O [[st W1] W2]] Hw. apply write_done in Hw as (O2 & t & F2). split; [eapply fs_only_trans; eassumption|].
      rewrite F2. destruct (lookup_append l d (w_fs w1) t N) as [A B]. split; [eapply A, W1|]. intros x Hx. rewrite B by exact Hx. auto.
    - split; [apply fs_only_refl|]. split; [exact L|auto].
  Qed.
  (** A file made at the end of the components [cs] from [b]. *)
  Definition made (f f' : fs) (b : loc) (cs : list comp) (c : bytes) : Prop :=
    let x := fold_left step_comp cs b in
    lookup f x = None /\ (exists st, lookup f' x = Some (EFile c st)) /\
    (forall y, y <> x -> lookup f' y = lookup f y \/
       (lookup f y = None /\ lookup f' y = Some EDir /\ exists a r, cs = a ++ r /\ r <> [] /\ y = fold_left step_comp a b)) /\
    (forall a r, cs = a ++ r -> r <> [] -> lookup f' (fold_left step_comp a b) = Some EDir).

  Lemma walk_dirs f cs : forall cur l a r, walk_comps f cur cs = Some l -> cs = a ++ r -> r <> [] -> lookup f (fold_left step_comp a cur) = Some EDir.
  Proof.
    intros cur l a r W -> N. rewrite walk_app in W. destruct (walk_comps f cur a) as [m|] eqn:Wa; [|discriminate].
    apply walk_locate in Wa. subst m. destruct r as [|c r]; [congruence|]. cbn in W. apply is_dir_iff.
    destruct (is_dir f (fold_left step_comp a cur)); [reflexivity|discriminate].
  Qed.
  (** src/dir.rs:247-258 *)
  Definition make_file (fuel : nat) (i : fsitem) (p : path) : M unit :=
    match parent p with
    | Some d => fs_create_dir_all d
    | None => ret tt
    end ;;;
    l <- fs_create_new p ;;
    write_item_data ds fuel i l.
  Lemma make_file_done objs n h size fuel p w bs w' :
    (forall o, In o objs -> holds w o) -> den objs n h bs ->
    make_file fuel (file_item size h) p w = (Done tt, w') ->
    fs_only w w' /\ made (w_fs w) (w_fs w') (base_loc (w_cwd w) p) (p_comps p) bs.
  Proof.
    intros Ho D H. unfold make_file in H. apply bind_done in H as ([] & w1 & H1 & H). apply bind_done in H as (l & w2 & H2 & H3).
    apply create_new_done in H2 as (O2 & R2 & _ & L2 & st & F2). cbn [write_item_data file_item fi_children] in H3.
    assert (P1 : fs_only w w1 /\ forall x, lookup (w_fs w1) x = lookup (w_fs w) x \/
      (lookup (w_fs w) x = None /\ lookup (w_fs w1) x = Some EDir /\ exists a r, p_comps p = a ++ r /\ r <> [] /\ x = fold_left step_comp a (base_loc (w_cwd w) p))).
    { unfold parent in H1. destruct (p_comps p) as [|c0 cs0] eqn:Ec; [inv H1; split; [apply fs_only_refl|auto]|].
      apply mkdir_done in H1 as [O1 H1]. split; [exact O1|]. destruct H1 as [[_ ->]|[_ M]]; [auto|].
      intro x. apply mkdirs_adds in M. destruct (M x) as [M1|(M1 & M2 & a & r & M3 & M4)]; [auto|]. right. split; [exact M1|]. split; [exact M2|].
      exists a, (r ++ [last (c0 :: cs0) c0]). cbn [p_comps p_abs] in *. split; [|split; [destruct r; discriminate|exact M4]].
      rewrite app_assoc, <- M3. apply app_removelast_last. discriminate. }
    destruct P1 as [O1 P1].
    assert (Nl : l <> []) by (intros ->; discriminate).
    assert (R2' := R2). unfold resolve in R2'. destruct (is_empty_path p) eqn:Em; [discriminate|].
    change (if p_abs p then [] else w_cwd w1) with (base_loc (w_cwd w1) p) in R2'. rewrite (only_cwd _ _ O1) in R2'.
    pose proof (walk_locate _ _ _ _ R2') as Hl.
    apply (read_into objs n h bs) in H3 as [O3 [[st' W3] W3']]; auto.
    3:{ intros o Hin. eapply only_holds; [exact O2|]. eapply only_holds; [exact O1|]. auto. }
    2:{ exists st. rewrite F2. apply lookup_set_same, Nl. }
    split; [eapply fs_only_trans; [|exact O3]; eapply fs_only_trans; [exact O1|exact O2]|].
    unfold made. unfold base_loc in *. rewrite <- Hl. cbv zeta. split; [|split; [eauto|split]].
    - destruct (P1 l) as [P|(P & _)]; congruence.
    - intros y Hy. rewrite W3' by exact Hy. rewrite F2, lookup_set_other by assumption. apply P1.
    - intros a r Ha Hr. pose proof (walk_dirs _ _ _ _ _ _ R2' Ha Hr) as Dd.
      assert (fold_left step_comp a (if p_abs p then [] else w_cwd w) <> l) by congruence.
      rewrite W3' by assumption. rewrite F2, lookup_set_other by assumption. exact Dd.
  Qed.

  (** *** Fetching a tree *)
  (** The files of a tree. *)
  Fixpoint files (t : rtree) : list (loc * bytes) :=
    match t with
    | RFile _ reads => [([], fst (stream reads))]
    | RDir kids => (fix go (l : list (name * rtree)) : list (loc * bytes) :=
        match l with [] => [] | (n, t) :: r => map (fun '(x, c) => (n :: x, c)) (files t) ++ go r end) kids
    end.
  Definition files_of : list (name * rtree) -> list (loc * bytes) :=
    fix go (l : list (name * rtree)) : list (loc * bytes) :=
        match l with [] => [] | (n, t) :: r => map (fun '(x, c) => (n :: x, c)) (files t) ++ go r end.
  Lemma files_in kids r c : In (r, c) (files (RDir kids)) <-> exists n t x, In (n, t) kids /\ r = n :: x /\ In (x, c) (files t).
  Proof.
    change (files (RDir kids)) with (files_of kids). induction kids as [|[n t] l IH]; cbn [files_of].
    - split; [intros []|intros (? & ? & ? & [] & _)].
    - rewrite in_app_iff, in_map_iff, IH. split.
      + intros [([x c'] & H & I)|(n' & t' & x & I & H)].
        * inv H. exists n, t, x. cbn. auto.
        * exists n', t', x. cbn. tauto.
      + intros (n' & t' & x & [I|I] & -> & Hx).
        * inv I. left. exists (x, c). auto.
        * right. eauto 6.
  Qed.
  (** All of [fl] (relative to components [cs] from [b]) made. *)
  Definition made_all (f f' : fs) (b : loc) (cs : list comp) (fl : list (loc * bytes)) : Prop :=
    grows f f' /\
    (forall r c, In (r, c) fl -> lookup f (fold_left step_comp cs b ++ r) = None /\
       (exists st, lookup f' (fold_left step_comp cs b ++ r) = Some (EFile c st)) /\
       (forall x y, cs ++ map Normal r = x ++ y -> y <> [] -> lookup f' (fold_left step_comp x b) = Some EDir)) /\
    (forall y, lookup f' y = lookup f y \/
       (lookup f y = None /\
        ((exists r c, In (r, c) fl /\ y = fold_left step_comp cs b ++ r) \/
         (lookup f' y = Some EDir /\ exists r c x z, In (r, c) fl /\ cs ++ map Normal r = x ++ z /\ z <> [] /\ y = fold_left step_comp x b)))).
  Lemma made_grows f f' b cs c : made f f' b cs c -> grows f f'.
  Proof.
    intros (H1 & (st & H2) & H3 & _) x e L. destruct (loc_eq_dec x (fold_left step_comp cs b)) as [->|N]; [congruence|].
    destruct (H3 x N) as [->|(L' & _)]; [exact L|congruence].
  Qed.
  Lemma made_one f f' b cs c : made f f' b cs c -> made_all f f' b cs [([], c)].
  Proof.
    intro M. pose proof (made_grows _ _ _ _ _ M) as G. destruct M as (H1 & H2 & H3 & H4). split; [exact G|]. split.
    - intros r c' [X|[]]. inv X. rewrite app_nil_r. split; [exact H1|]. split; [exact H2|]. cbn [map]. rewrite app_nil_r. exact H4.
    - intro y. destruct (loc_eq_dec y (fold_left step_comp cs b)) as [->|N].
      + right. split; [exact H1|]. left. exists [], c. rewrite app_nil_r. cbn. auto.
      + destruct (H3 y N) as [->|(A & B & a & r & C)]; [auto|]. right. split; [exact A|]. right. split; [exact B|].
        exists [], c, a, r. cbn [map]. rewrite app_nil_r. cbn. tauto.
  Qed.
  Lemma made_all_app f f1 f' b cs fl1 fl2 : made_all f f1 b cs fl1 -> made_all f1 f' b cs fl2 -> made_all f f' b cs (fl1 ++ fl2).
  Proof.
    intros (G1 & A1 & B1) (G2 & A2 & B2). split; [eapply grows_trans; eassumption|]. split.
    - intros r c I. apply in_app_or in I as [I|I].
      + destruct (A1 _ _ I) as (P & (st & Q) & R). split; [exact P|]. split; [exists st; apply G2, Q|]. intros x y Hx Hy. eapply G2, R; eauto.
      + destruct (A2 _ _ I) as (P & Q & R). split; [|auto]. destruct (lookup f (fold_left step_comp cs b ++ r)) eqn:L; [|reflexivity].
        apply G1 in L. congruence.
    - intro y. destruct (B2 y) as [H2|(N2 & H2)].
      + destruct (B1 y) as [H1|(N1 & H1)]; [left; congruence|]. right. split; [exact N1|]. rewrite H2.
        destruct H1 as [(r & c & I & ->)|(D & r & c & x & z & I & H)]; [left; exists r, c|right; split; [exact D|]; exists r, c, x, z];
          (split; [apply in_or_app; auto|auto]).
      + right. split; [destruct (lookup f y) eqn:L; [apply G1 in L; congruence|reflexivity]|].
        destruct H2 as [(r & c & I & ->)|(D & r & c & x & z & I & H)]; [left; exists r, c|right; split; [exact D|]; exists r, c, x, z];
          (split; [apply in_or_app; auto|auto]).
  Qed.
  Lemma made_all_nil f b cs : made_all f f b cs [].
  Proof. split; [apply grows_refl|]. split; [intros r c []|auto]. Qed.
  Lemma fold_normal r : forall b, fold_left step_comp (map Normal r) b = b ++ r.
  Proof. induction r as [|n r IH]; intro b; cbn; [rewrite app_nil_r; reflexivity|]. rewrite IH, <- app_assoc. reflexivity. Qed.
  Lemma made_all_child f f' b cs n fl : made_all f f' b (cs ++ [Normal n]) fl -> made_all f f' b cs (map (fun '(x, c) => (n :: x, c)) fl).
  Proof.
    intros (G & A & B). split; [exact G|]. rewrite fold_left_app in A, B. cbn in A, B.
    split.
    - intros r c I. apply in_map_iff in I as ([x c'] & H & I). inv H. destruct (A _ _ I) as (P & Q & R).
      rewrite <- app_assoc in P, Q. split; [exact P|]. split; [exact Q|]. cbn [map]. intros u v Hu Hv. apply (R u v); [|exact Hv].
      rewrite <- app_assoc. exact Hu.
    - intro y. destruct (B y) as [H|(N & H)]; [auto|]. right. split; [exact N|].
      destruct H as [(r & c & I & ->)|(D & r & c & x & z & I & Hc & Hz & Hy)].
      + left. exists (n :: r), c. rewrite <- app_assoc. split; [|reflexivity]. apply in_map_iff. exists (r, c). auto.
      + right. split; [exact D|]. exists (n :: r), c, x, z. split; [apply in_map_iff; exists (r, c); auto|]. rewrite <- app_assoc in Hc. auto.
  Qed.

  Definition get_each (g : nat) (p : path) : list (key * name) -> M unit :=
    fix each (l : list (key * name)) : M unit :=
      match l with
      | [] => ret tt
      | (c, n) :: r => get_fs_item ds g c (join_name p n) ;;; each r
      end.
  Lemma get_fsitem_done k w i w' : get_fsitem ds k w = (Done i, w') ->
    ticked w w' /\ exists o, fsitem_of_object o = Some i /\
      exists v, assoc (as_db_key k) (d_data (cur_db w)) = Some v /\ decode_object v = Some o.
  Proof.
    intro H. apply bind_done in H as (o & w1 & H1 & H2). apply of_option_done in H2 as [H2 ->]. apply get_obj_done in H1 as (T & v & H1).
    split; [exact T|]. eauto.
  Qed.
  Lemma get_item_holds i o w i' w' : object_of_fsitem i = Some o -> obj_fits o = true -> (fi_size i < 2 ^ 64)%N -> holds w o ->
    get_fsitem ds (obj_key o) w = (Done i', w') -> i' = i /\ ticked w w'.
  Proof.
    intros H1 F Sz H G. apply bind_done in G as (o' & w1 & G1 & G2). apply of_option_done in G2 as [G2 ->].
    pose proof (get_holds_done _ _ _ _ H G1) as ->. rewrite (fsitem_object i o) in G2 by assumption. inv G2.
    apply get_obj_done in G1 as [T _]. auto.
  Qed.
  Fixpoint proper_tree (t : rtree) : Prop :=
    match t with
    | RFile _ _ => True
    | RDir kids => (fix go (l : list (name * rtree)) : Prop :=
        match l with [] => True | (n, t) :: r => (entry_name n /\ proper_tree t) /\ go r end) kids
    end.
  Lemma proper_dir kids : proper_tree (RDir kids) <-> Forall (fun x => entry_name (fst x) /\ proper_tree (snd x)) kids.
  Proof. cbn [proper_tree]. induction kids as [|[n t] l IH]; [split; constructor|]. rewrite Forall_cons_iff, <- IH. cbn. tauto. Qed.

  Lemma get_fs_item_eq g k p w : get_fs_item ds (S g) k p w =
    (item <- get_fsitem ds k ;;
     match fi_type item with
     | ItDir => get_each g p (combine (fi_children item) (fi_names item))
     | ItFile => make_file g item p
     end) w.
  Proof. reflexivity. Qed.

  Lemma get_done objs t : forall fuel k p w w', proper_tree t ->
    (forall o, In o objs -> holds w o) ->
    stored objs (fun reads h => den objs 5 h (fst (stream reads))) t k ->
    get_fs_item ds fuel k p w = (Done tt, w') ->
    fs_only w w' /\ made_all (w_fs w) (w_fs w') (base_loc (w_cwd w) p) (p_comps p) (files t).
  Proof.
    induction t as [size reads|kids IH] using rtree_ind'; intros fuel k p w w' Pt Ho S H; (destruct fuel as [|g]; [discriminate|]);
      rewrite get_fs_item_eq in H; apply bind_done in H as (i & w1 & H1 & H).
    - destruct S as (h & o & S1 & S2 & S3 & S4 & -> & S6). apply (get_item_holds (file_item size h)) in H1 as [-> T]; auto.
      cbn [fi_type file_item] in H. pose proof (ticked_only _ _ T) as O1. apply (make_file_done objs 5 h size g p w1 (fst (stream reads))) in H as [O M]; auto.
      2:{ intros x Hx. eapply only_holds; eauto. }
      split; [eapply fs_only_trans; eassumption|]. destruct (ticked_fs _ _ T) as [F C]. rewrite F, C in M. apply made_one, M.
    - apply stored_dir in S as (ks & o & S1 & S2 & S3 & -> & S5). apply (get_item_holds (dir_item (map fst kids) ks)) in H1 as [-> T]; auto.
      2:{ apply wrap64_lt. }
      cbn [fi_type fi_children fi_names dir_item] in H. change (files (RDir kids)) with (files_of kids).
      pose proof (ticked_only _ _ T) as O1. destruct (ticked_fs _ _ T) as [F C]. rewrite <- F, <- C.
      cut (fs_only w1 w' /\ made_all (w_fs w1) (w_fs w') (base_loc (w_cwd w1) p) (p_comps p) (files_of kids)).
      { intros [X1 X2]. split; [eapply fs_only_trans; eassumption|exact X2]. }
      assert (Ho1 : forall o, In o objs -> holds w1 o) by (intros x Hx; eapply only_holds; eauto).
      apply proper_dir in Pt. clear S1 S2 S3 o O1 T F C Ho. revert w1 ks S5 H Ho1. induction IH as [|[n t] l Ht Hl IHl]; intros w1 ks S5 H Ho1.
      + destruct ks as [|k ks]; [|destruct S5]. inv H. split; [apply fs_only_refl|apply made_all_nil].
      + destruct ks as [|k ks]; [destruct S5|]. destruct S5 as [S5 S6]. cbn [map fst combine get_each] in H.
        apply bind_done in H as ([] & w2 & H1 & H2). inv Pt. destruct H3 as [En Pt]. cbn [fst snd] in *. rewrite join_plain in H1 by exact En.
        destruct (Ht _ _ _ _ _ Pt Ho1 S5 H1) as [O1 M1].
        destruct (IHl H4 w2 ks S6 H2) as [O2 M2]. { intros x Hx. eapply only_holds; eauto. }
        split; [eapply fs_only_trans; eassumption|]. cbn [files_of]. rewrite (only_cwd _ _ O1) in M2.
        eapply made_all_app; [|exact M2]. apply made_all_child. exact M1.
  Qed.

  (** *** Source side: the files of the tree shown by a file system *)
  Definition kept_all (keep : path -> loc -> bool) (p : path) (l : loc) (r : loc) : Prop :=
    forall r1 n r2, r = r1 ++ n :: r2 -> keep (below p (r1 ++ [n])) (l ++ r1 ++ [n]) = true.
  Lemma push_below p n : path_push p n = below p [n].
  Proof. reflexivity. Qed.
  Lemma below_app p a b : below (below p a) b = below p (a ++ b).
  Proof. unfold below. cbn. rewrite map_app, app_assoc. reflexivity. Qed.
  Lemma shows_dir_inv f keep p l kids : shows f keep p l (RDir kids) -> lookup f l = Some EDir /\
      map fst kids = filter (fun n => keep (path_push p n) (l ++ [n])) (children f l) /\
      (forall n t, In (n, t) kids -> shows f keep (path_push p n) (l ++ [n]) t).
  Proof. intro H. inversion H. auto. Qed.
  Lemma shows_file_inv f keep p l size reads : shows f keep p l (RFile size reads) -> exists c st t, lookup f l = Some (EFile c st) /\
    size = wrap64 (lenN c) /\ reads = segment (read_sizes t c) c.
  Proof. intro H. inversion H. eauto 6. Qed.
  Lemma shows_files f keep t : fs_ok f -> forall p l, shows f keep p l t ->
    forall r c, In (r, c) (files t) <-> content f (l ++ r) = Some c /\ kept_all keep p l r.
  Proof.
    intro O. induction t as [size reads|kids IH] using rtree_ind'; intros p l Sh r c;
      [apply shows_file_inv in Sh as (c0 & st & t0 & H2 & -> & ->)|apply shows_dir_inv in Sh as (H1 & H3 & H4)].
    - cbn [files In]. rewrite stream_segment. cbn [fst]. split.
      + intros [X|[]]. inv X. rewrite app_nil_r. unfold content. rewrite H2. split; [reflexivity|]. intros r1 n r2 X. destruct r1; discriminate.
      + intros [X _]. destruct r as [|n r].
        * left. rewrite app_nil_r in X. unfold content in X. rewrite H2 in X. inv X. reflexivity.
        * unfold content in X. destruct (lookup f (l ++ n :: r)) eqn:L; [|discriminate].
          eapply fs_ok_parent in L; [|exact O|discriminate]. congruence.
    - rewrite files_in. rewrite Forall_forall in IH. split.
      + intros (n & t & x & I & -> & Hx). specialize (H4 _ _ I). apply (IH _ I _ _ H4) in Hx as [Hc Hk].
        rewrite <- app_assoc in Hc. cbn [app] in Hc. split; [exact Hc|]. intros r1 m r2 Hr. destruct r1 as [|n' r1].
        * inv Hr. cbn [app]. assert (In m (map fst kids)) by (apply in_map_iff; exists (m, t); auto). rewrite H3 in H. apply filter_In in H as [_ H]. exact H.
        * inv Hr. specialize (Hk r1 m r2 eq_refl). rewrite push_below, below_app in Hk. rewrite <- app_assoc in Hk. exact Hk.
      + intros [Hc Hk]. destruct r as [|n r].
        { rewrite app_nil_r in Hc. unfold content in Hc. rewrite H1 in Hc. discriminate. }
        assert (In n (map fst kids)) as I.
        { rewrite H3. apply filter_In. split; [|apply (Hk [] n r eq_refl)].
          unfold content in Hc. destruct (lookup f (l ++ n :: r)) as [e|] eqn:L; [|discriminate].
          replace (l ++ n :: r) with ((l ++ [n]) ++ r) in L by (rewrite <- app_assoc; reflexivity).
          destruct r as [|m r]; [rewrite app_nil_r in L; eapply lookup_child, L|].
          eapply fs_ok_parent in L; [|exact O|discriminate]. eapply lookup_child, L. }
        apply in_map_iff in I as ([n' t] & X & I). cbn in X. subst n'. exists n, t, r. split; [exact I|]. split; [reflexivity|].
        apply (IH _ I _ _ (H4 _ _ I)). split; [rewrite <- app_assoc; exact Hc|].
        intros r1 m r2 ->. rewrite push_below, below_app, <- app_assoc. apply (Hk (n :: r1) m r2). reflexivity.
  Qed.
  Lemma shows_proper f keep t : fs_ok f -> forall p l, shows f keep p l t -> proper_tree t.
  Proof.
    intro O. induction t as [size reads|kids IH] using rtree_ind'; intros p l Sh; [exact I|]. apply shows_dir_inv in Sh as (H1 & H3 & H4).
    apply proper_dir, Forall_forall. intros [n t] I. rewrite Forall_forall in IH. cbn [fst snd]. split; [|eapply (IH _ I); eauto].
    assert (In n (map fst kids)) as J by (apply in_map_iff; exists (n, t); auto). rewrite H3 in J. apply filter_In in J as [J _].
    apply child_lookup in J as [e J]. destruct (fs_ok_entry _ _ _ O J (snoc_not_nil _ _)) as [F _].
    apply Forall_app in F as [_ F]. inv F. assumption.
  Qed.
End GetFacts.
