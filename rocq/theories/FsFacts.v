(** Facts about the file system of World.v: paths, locations, changes. *)
From Verif Require Import Base BaseFacts Key Object Path World WorldFacts Store File Dir SpecRun SpecFile SpecDir.

(** *** Names *)
Lemma bytes_eqb_true a b : bytes_eqb a b = true -> a = b.
Proof. apply bytes_eqb_eq. Qed.
Lemma names_prefix_iff a : forall b, names_prefix a b = true <-> exists r, b = a ++ r.
Proof.
  induction a as [|x a IH]; intro b; cbn.
  - split; eauto.
  - destruct b as [|y b]; [split; [discriminate|intros (r & H); discriminate]|].
    rewrite andb_true_iff, bytes_eqb_eq, IH. split.
    + intros [-> (r & ->)]. exists r. reflexivity.
    + intros (r & H). inversion H. eauto.
Qed.
Lemma names_prefix_app a r : names_prefix a (a ++ r) = true.
Proof. apply names_prefix_iff. eauto. Qed.
Lemma app_inv_prefix {A} (a b x y : list A) : a ++ x = b ++ y -> length a = length b -> a = b /\ x = y.
Proof.
  revert b. induction a as [|u a IH]; destruct b as [|v b]; cbn; intros H L; try discriminate; auto.
  inversion H. subst. destruct (IH b) as [-> ->]; auto.
Qed.
Lemma child_name_iff l k n : child_name l k = Some n <-> k = l ++ [n].
Proof.
  unfold child_name. destruct (names_prefix l k) eqn:P.
  - apply names_prefix_iff in P as (r & ->). rewrite skipn_app, skipn_all, Nat.sub_diag. cbn [app skipn].
    destruct r as [|m [|? r]]; split; intro H; try discriminate.
    + apply app_inv_head in H. discriminate.
    + inversion H. reflexivity.
    + apply app_inv_head in H. inversion H. reflexivity.
    + apply app_inv_head in H. discriminate.
  - split; [discriminate|]. intros ->. rewrite names_prefix_app in P. discriminate.
Qed.
Lemma filter_some_in {A} (l : list (option A)) a : In a (filter_some l) <-> In (Some a) l.
Proof.
  induction l as [|[x|] l IH]; cbn; [reflexivity| |].
  - rewrite IH. split; intros [H|H]; try (left; congruence); auto.
  - rewrite IH. split; [auto|]. intros [H|H]; [discriminate|auto].
Qed.
Lemma children_iff f l n : In n (children f l) <-> exists e, In (l ++ [n], e) f.
Proof.
  unfold children. rewrite filter_some_in, in_map_iff. split.
  - intros ([k e] & H & I). apply child_name_iff in H. subst. eauto.
  - intros (e & I). exists (l ++ [n], e). split; [apply child_name_iff; reflexivity|exact I].
Qed.
Lemma children_nodup f l : NoDup (map fst f) -> NoDup (children f l).
Proof.
  unfold children. induction f as [|[k e] f IH]; cbn; intro H; [constructor|].
  apply NoDup_cons_iff in H as [H1 H2]. destruct (child_name l k) as [n|] eqn:C; [|auto].
  constructor; [|auto]. rewrite filter_some_in, in_map_iff. intros ([k' e'] & H & I).
  apply child_name_iff in C, H. subst. apply H1, in_map_iff. exists (l ++ [n], e'). auto.
Qed.

(** *** Looking up *)
Lemma assoc_loc_in {A} l (f : list (loc * A)) e : assoc_loc l f = Some e -> In (l, e) f.
Proof.
  induction f as [|[k x] f IH]; cbn; [discriminate|]. destruct (names_eqb k l) eqn:Q.
  - apply names_eqb_eq in Q. intro H. inv H. auto.
  - auto.
Qed.
Lemma assoc_loc_nodup {A} l (f : list (loc * A)) e : NoDup (map fst f) -> In (l, e) f -> assoc_loc l f = Some e.
Proof.
  induction f as [|[k x] f IH]; cbn; intros N I; [destruct I|]. apply NoDup_cons_iff in N as [N1 N2].
  destruct I as [I|I].
  - inv I. rewrite names_eqb_refl. reflexivity.
  - destruct (names_eqb k l) eqn:Q; [|auto]. apply names_eqb_eq in Q. subst. exfalso. apply N1, in_map_iff. exists (l, e). auto.
Qed.
Lemma assoc_loc_none {A} l (f : list (loc * A)) : assoc_loc l f = None -> forall e, ~ In (l, e) f.
Proof.
  induction f as [|[k x] f IH]; cbn; intros H e I; [destruct I|]. destruct (names_eqb k l) eqn:Q; [discriminate|].
  destruct I as [I|I]; [inv I; rewrite names_eqb_refl in Q; discriminate|]. eapply IH; eauto.
Qed.
Lemma snoc_not_nil {A} (l : list A) x : l ++ [x] <> [].
Proof. destruct l; discriminate. Qed.
Lemma lookup_snoc f l n : lookup f (l ++ [n]) = assoc_loc (l ++ [n]) f.
Proof. destruct l; reflexivity. Qed.
Lemma lookup_cons f l : l <> [] -> lookup f l = assoc_loc l f.
Proof. destruct l; [congruence|reflexivity]. Qed.
Lemma lookup_set f l e x : l <> [] -> lookup (fs_set f l e) x = if names_eqb l x then Some e else lookup f x.
Proof.
  intro N. unfold fs_set. destruct x as [|y x]; cbn [lookup].
  - destruct l; [congruence|reflexivity].
  - apply assoc_set_get.
Qed.
Lemma lookup_set_same f l e : l <> [] -> lookup (fs_set f l e) l = Some e.
Proof. intro N. rewrite lookup_set, names_eqb_refl by exact N. reflexivity. Qed.
Lemma lookup_set_other f l e x : l <> [] -> x <> l -> lookup (fs_set f l e) x = lookup f x.
Proof. intros N D. rewrite lookup_set by exact N. destruct (names_eqb l x) eqn:Q; [apply names_eqb_eq in Q; congruence|reflexivity]. Qed.
Lemma is_dir_iff f l : is_dir f l = true <-> lookup f l = Some EDir.
Proof. unfold is_dir. destruct (lookup f l) as [[| | |]|]; split; intro H; try discriminate; reflexivity. Qed.
Lemma child_lookup f l n : In n (children f l) -> exists e, lookup f (l ++ [n]) = Some e.
Proof.
  rewrite children_iff. intros (e & I). rewrite lookup_snoc. destruct (assoc_loc (l ++ [n]) f) eqn:A; [eauto|].
  exfalso. eapply assoc_loc_none; eauto.
Qed.
Lemma lookup_child f l n e : lookup f (l ++ [n]) = Some e -> In n (children f l).
Proof. rewrite lookup_snoc. intro H. apply children_iff. exists e. apply assoc_loc_in, H. Qed.

(** *** Well-formed file systems *)
Lemma fs_ok_entry f l e : fs_ok f -> lookup f l = Some e -> l <> [] -> Forall entry_name l /\ is_dir f (removelast l) = true.
Proof.
  intros [_ H] L N. rewrite lookup_cons in L by exact N. apply assoc_loc_in in L. apply H in L. tauto.
Qed.
Lemma fs_ok_parent f l r e : fs_ok f -> lookup f (l ++ r) = Some e -> r <> [] -> lookup f l = Some EDir.
Proof.
  intros O. revert e. induction r as [|n r IH] using rev_ind; intros e H N; [congruence|].
  rewrite app_assoc in H. destruct (fs_ok_entry _ _ _ O H (snoc_not_nil _ _)) as [_ D]. rewrite removelast_last in D.
  apply is_dir_iff in D. destruct r as [|m r]; [rewrite app_nil_r in D; exact D|]. eapply IH; [exact D|discriminate].
Qed.
Lemma fs_ok_free f l : fs_ok f -> lookup f l = None -> free f l.
Proof.
  intros O H r. destruct r as [|n r]; [rewrite app_nil_r; exact H|]. destruct (lookup f (l ++ n :: r)) eqn:Q; [|reflexivity].
  eapply fs_ok_parent in Q; eauto; [congruence|discriminate].
Qed.

(** *** Paths *)
Lemma walk_locate f cs : forall cur l, walk_comps f cur cs = Some l -> l = fold_left step_comp cs cur.
Proof.
  induction cs as [|c cs IH]; cbn; intros cur l H; [congruence|]. destruct (is_dir f cur); [|discriminate]. apply IH in H. exact H.
Qed.
Lemma walk_app f a : forall cur b, walk_comps f cur (a ++ b) =
  match walk_comps f cur a with Some m => walk_comps f m b | None => None end.
Proof. induction a as [|c a IH]; cbn; intros cur b; [reflexivity|]. destruct (is_dir f cur); auto. Qed.
Lemma resolve_locate f cwd p l : resolve f cwd p = Some l -> l = locate cwd p.
Proof. unfold resolve. destruct (is_empty_path p); [discriminate|]. apply walk_locate. Qed.
Lemma stat_locate f cwd p l e : stat f cwd p = Some (l, e) -> l = locate cwd p /\ lookup f l = Some e /\ resolve f cwd p = Some l.
Proof.
  unfold stat. destruct (resolve f cwd p) as [m|] eqn:R; [|discriminate]. apply resolve_locate in R as L.
  destruct (lookup f m) as [[| | |]|] eqn:Q; try (destruct (p_slash p)); intro H; inv H; auto.
Qed.
Lemma push_not_empty p n : is_empty_path (path_push p n) = false.
Proof. unfold is_empty_path, path_push. cbn. destruct (p_comps p); cbn; apply andb_false_r. Qed.
Lemma locate_push cwd p n : locate cwd (path_push p n) = locate cwd p ++ [n].
Proof. unfold locate, path_push. cbn. rewrite fold_left_app. reflexivity. Qed.
Lemma resolve_push f cwd p l n : resolve f cwd p = Some l -> is_dir f l = true -> resolve f cwd (path_push p n) = Some (l ++ [n]).
Proof.
  unfold resolve. destruct (is_empty_path p); [discriminate|]. rewrite push_not_empty. cbn [p_abs p_comps path_push].
  intros H D. rewrite walk_app, H. cbn. rewrite D. reflexivity.
Qed.
Lemma stat_push f cwd p l n e : stat f cwd p = Some (l, EDir) -> lookup f (l ++ [n]) = Some e -> stat f cwd (path_push p n) = Some (l ++ [n], e).
Proof.
  intros S L. apply stat_locate in S as (_ & D & R). unfold stat. rewrite (resolve_push _ _ _ _ n R) by (apply is_dir_iff, D).
  rewrite L. destruct e; reflexivity.
Qed.

(** The components of a proper name. *)
Lemma split_plain s : forall cur, ~ In "/"%char s -> split_slash cur s = [rev cur ++ s].
Proof.
  induction s as [|b s IH]; intros cur H; cbn [split_slash]; [rewrite app_nil_r; reflexivity|].
  destruct (byte_eqb b "/"%char) eqn:Q; [apply byte_eqb_eq in Q; subst; exfalso; apply H; left; reflexivity|].
  rewrite IH by (intro I; apply H; right; exact I). cbn [rev]. rewrite <- app_assoc. reflexivity.
Qed.
Lemma parse_name n : entry_name n -> parse_path n = Path false [Normal n] false.
Proof.
  intros (N & S & D & DD). unfold parse_path. rewrite split_plain by exact S. cbn [rev app map filter_some].
  unfold comp_of_segment. destruct n as [|b n]; [congruence|].
  destruct (bytes_eqb (b :: n) (str ".")) eqn:Q1; [apply bytes_eqb_true in Q1; congruence|].
  destruct (bytes_eqb (b :: n) (str "..")) eqn:Q2; [apply bytes_eqb_true in Q2; congruence|].
  cbn [filter_some rev app]. destruct (byte_eqb b "/"%char) eqn:Q3; [apply byte_eqb_eq in Q3; subst; exfalso; apply S; left; reflexivity|].
  reflexivity.
Qed.
Lemma join_plain p n : entry_name n -> join_name p n = path_push p n.
Proof.
  intro H. unfold join_name. rewrite parse_name by exact H. unfold join, path_push. cbn [p_abs p_comps p_slash drop_curdir filter].
  destruct (is_empty_path p) eqn:Q; [|reflexivity]. unfold is_empty_path in Q. destruct p as [a c s]. cbn in *.
  destruct a; [discriminate|]. destruct c; [reflexivity|discriminate].
Qed.

(** *** Creating directories *)
Definition grows (f f' : fs) : Prop := forall x e, lookup f x = Some e -> lookup f' x = Some e.
Lemma grows_refl f : grows f f.
Proof. intros x e H. exact H. Qed.
Lemma grows_trans f g h : grows f g -> grows g h -> grows f h.
Proof. intros A B x e H. auto. Qed.
(** [f'] has some of the directories along [cs] from [cur] in addition. *)
Definition adds_dirs (f f' : fs) (cur : loc) (cs : list comp) : Prop :=
  forall x, lookup f' x = lookup f x \/
    (lookup f x = None /\ lookup f' x = Some EDir /\ exists a b, cs = a ++ b /\ x = fold_left step_comp a cur).
Lemma adds_grows f f' cur cs : adds_dirs f f' cur cs -> grows f f'.
Proof. intros H x e L. destruct (H x) as [->|(N & _)]; [exact L|congruence]. Qed.
Lemma adds_refl f cur cs : adds_dirs f f cur cs.
Proof. intro x. left. reflexivity. Qed.
Lemma mkdirs_adds cs : forall b f cur f', mkdirs b f cur cs = Some f' -> adds_dirs f f' cur cs.
Proof.
  induction cs as [|c cs IH]; intros b f cur f' H; cbn [mkdirs] in H.
  - destruct (is_dir f cur); inv H. apply adds_refl.
  - destruct (is_dir f cur) eqn:D; [|discriminate].
    assert (K : forall b0 f0 nxt, nxt = step_comp cur c -> mkdirs b0 f0 nxt cs = Some f' ->
      (forall x, lookup f0 x = lookup f x \/ (lookup f x = None /\ lookup f0 x = Some EDir /\ x = nxt)) -> adds_dirs f f' cur (c :: cs)).
    { intros b0 f0 nxt -> M Q x. apply IH in M. destruct (M x) as [H1|(H1 & H2 & a & b1 & H3 & H4)].
      - destruct (Q x) as [H2|(H2 & H3 & ->)]; [left; congruence|]. right. split; [exact H2|]. split; [congruence|].
        exists [c], cs. split; reflexivity.
      - destruct (Q x) as [H5|(H5 & H6 & _)]; [|congruence]. right. split; [congruence|]. split; [exact H2|].
        exists (c :: a), b1. split; [cbn; congruence|exact H4]. }
    destruct c as [| |n].
    + apply (K b f cur); auto.
    + apply (K b f (removelast cur)); auto.
    + destruct (lookup f (cur ++ [n])) as [[| | |]|] eqn:L; try discriminate.
      * apply (K b f (cur ++ [n])); auto.
      * destruct b as [[|b]|].
        -- inv H. apply adds_refl.
        -- apply (K (Some b) (fs_set f (cur ++ [n]) EDir) (cur ++ [n])); auto. intro x.
           rewrite lookup_set by apply snoc_not_nil. destruct (names_eqb (cur ++ [n]) x) eqn:Q; [|auto].
           apply names_eqb_eq in Q. subst. auto.
        -- apply (K None (fs_set f (cur ++ [n]) EDir) (cur ++ [n])); auto. intro x.
           rewrite lookup_set by apply snoc_not_nil. destruct (names_eqb (cur ++ [n]) x) eqn:Q; [|auto].
           apply names_eqb_eq in Q. subst. auto.
Qed.
Lemma mkdirs_walk cs : forall f cur f', mkdirs None f cur cs = Some f' ->
  walk_comps f' cur cs = Some (fold_left step_comp cs cur) /\ lookup f' (fold_left step_comp cs cur) = Some EDir.
Proof.
  induction cs as [|c cs IH]; intros f cur f' H.
  - cbn [mkdirs] in H. destruct (is_dir f cur) eqn:D; inv H. cbn. apply is_dir_iff in D. auto.
  - assert (G : grows f f') by (eapply adds_grows, mkdirs_adds, H).
    cbn [mkdirs] in H. destruct (is_dir f cur) eqn:D; [|discriminate]. apply is_dir_iff, G, is_dir_iff in D.
    cbn [walk_comps fold_left]. rewrite D. destruct c as [| |n]; cbn [step_comp].
    + eapply IH, H.
    + eapply IH, H.
    + destruct (lookup f (cur ++ [n])) as [[| | |]|]; try discriminate; eapply IH, H.
Qed.
(** It works if the existing ones among them are directories. *)
Lemma mkdirs_some r : forall f cur, lookup f cur = Some EDir ->
  (forall a b, r = a ++ b -> lookup f (cur ++ a) = None \/ lookup f (cur ++ a) = Some EDir) ->
  exists f', mkdirs None f cur (map Normal r) = Some f'.
Proof.
  induction r as [|n r IH]; intros f cur D H; cbn [map mkdirs]; apply is_dir_iff in D as D'; rewrite D'; [eauto|].
  destruct (H [n] r eq_refl) as [L|L]; rewrite L.
  - apply IH.
    + apply lookup_set_same, snoc_not_nil.
    + intros a b ->. rewrite lookup_set by apply snoc_not_nil. destruct (names_eqb (cur ++ [n]) ((cur ++ [n]) ++ a)); [auto|].
      rewrite <- app_assoc. apply (H (n :: a) b). reflexivity.
  - apply IH; [exact L|]. intros a b ->. rewrite <- app_assoc. apply (H (n :: a) b). reflexivity.
Qed.
Lemma mkdirs_app a : forall f cur f' b, mkdirs None f cur a = Some f' ->
  mkdirs None f cur (a ++ b) = mkdirs None f' (fold_left step_comp a cur) b.
Proof.
  induction a as [|c a IH]; intros f cur f' b H; cbn [mkdirs app fold_left] in *.
  - destruct (is_dir f cur); inv H. reflexivity.
  - destruct (is_dir f cur); [|discriminate]. destruct c as [| |n]; auto.
    cbn [step_comp]. destruct (lookup f (cur ++ [n])) as [[| | |]|]; try discriminate; auto.
Qed.
(** Along a path whose containing directory exists. *)
Lemma mkdirs_walked a : forall f cur m, walk_comps f cur a = Some m -> lookup f m = Some EDir -> mkdirs None f cur a = Some f.
Proof.
  induction a as [|c a IH]; cbn [walk_comps mkdirs]; intros f cur m H D.
  - inv H. apply is_dir_iff in D. rewrite D. reflexivity.
  - destruct (is_dir f cur) eqn:Dc; [|discriminate]. destruct c as [| |n]; cbn in H; try (eapply IH; eassumption).
    assert (L : lookup f (cur ++ [n]) = Some EDir).
    { destruct a as [|c a]; cbn in H; [congruence|]. apply is_dir_iff. destruct (is_dir f (cur ++ [n])); [reflexivity|discriminate]. }
    rewrite L. eapply IH; eassumption.
Qed.
Lemma mkdirs_missing a n : forall f cur m, walk_comps f cur (a ++ [Normal n]) = Some m -> lookup f m = None ->
  mkdirs None f cur (a ++ [Normal n]) = Some (fs_set f m EDir).
Proof.
  intros f cur m H N. rewrite walk_app in H. destruct (walk_comps f cur a) as [m0|] eqn:W; [|discriminate].
  cbn in H. destruct (is_dir f m0) eqn:D; [|discriminate]. inv H. apply is_dir_iff in D as D'.
  pose proof (mkdirs_walked _ _ _ _ W D') as M. rewrite (mkdirs_app _ _ _ _ _ M), <- (walk_locate _ _ _ _ W).
  cbn [mkdirs]. rewrite D, N. unfold is_dir. rewrite lookup_set_same by apply snoc_not_nil. reflexivity.
Qed.
