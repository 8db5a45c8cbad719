(** When fetching succeeds, and what it makes. *)
From Coq Require Import RelationClasses.
From Verif Require Import Base BaseFacts TableFacts Key KeyFacts Keyish Cbor CborFacts Object ObjectFacts Path World WorldFacts Store File Filter Dir Diff Commit Main SpecStore StoreCalls SpecRun SpecProc SpecCmd SpecFile SpecDir SpecCache SpecDiff SpecShape SpecLive
  SpecClosure Closure Frame DbRel Integrity StoreFacts ProcFacts InitFacts ObjStoreFacts SessionFacts FilePlan FileFacts ChunkFacts FileRun FsFacts DirPlan DirFacts GetFacts DirTrip FetchSafe DirTree DirWalk WalkFacts DirLive CacheFacts HashFacts CompareFacts DiffFacts CheckoutFacts
  Reader SpecPatch SpecShow SpecOut SpecText CmdFacts OutFacts SnapFacts ShowFacts ShapeFacts ShapeTop Ends SpecCheckout LiveFacts LiveDiff LiveCmd LiveStart LiveCheckout LiveStory SpecFetch.

Section LiveFetch.
  Context {E : Env}.
  Notation ds := sqlite_ds.

  Lemma plain_push a d n : path_push (plain_path a d) n = plain_path a (d ++ [n]).
  Proof. unfold path_push, plain_path. cbn [p_abs p_comps]. rewrite map_app. reflexivity. Qed.
  Lemma plain_base w a d : base_loc (w_cwd w) (plain_path a d) = start_of w a.
  Proof. reflexivity. Qed.
  Lemma plain_parent a d n : parent (plain_path a (d ++ [n])) = Some (plain_path a d).
  Proof.
    unfold parent, plain_path. cbn [p_abs p_comps]. rewrite map_app. cbn [map]. rewrite removelast_last. destruct (map Normal d); reflexivity.
  Qed.
  Lemma room_grows f f' b r : grows f f' -> room f' b r -> room f b r.
  Proof.
    intros G [H1 H2]. split.
    - intros x y Q N. destruct (lookup f (b ++ x)) as [e|] eqn:L; [|auto]. apply G in L. destruct (H1 x y Q N) as [K|K]; rewrite K in L; inv L. auto.
    - destruct (lookup f (b ++ r)) as [e|] eqn:L; [|reflexivity]. apply G in L. congruence.
  Qed.

  (** *** One file *)
  (** The new entries are on the way to the file, or the file. *)
  Definition made_one (f f' : fs) (b : loc) (d : list name) (c : bytes) : Prop :=
    content f' (b ++ d) = Some c /\ (forall x y, d = x ++ y -> y <> [] -> lookup f' (b ++ x) = Some EDir) /\
    (forall z, lookup f' z = lookup f z \/ (lookup f z = None /\ exists x y, d = x ++ y /\ z = b ++ x /\ (y <> [] -> lookup f' z = Some EDir))).
  Lemma plain_walk f w a d l : resolve f (w_cwd w) (plain_path a d) = Some l -> l = start_of w a ++ d /\ forall x y, d = x ++ y -> y <> [] -> lookup f (start_of w a ++ x) = Some EDir.
  Proof.
    unfold resolve. intro R. destruct (is_empty_path _); [discriminate|]. cbn [p_comps plain_path] in R. change (if p_abs (plain_path a d) then [] else w_cwd w) with (start_of w a) in R.
    split; [|eapply walk_dirs, R]. apply walk_locate in R. rewrite fold_normal in R. exact R.
  Qed.
  Lemma file_done g i a d w w' : make_file g i (plain_path a d) w = (Done tt, w') ->
    let b := start_of w a in fs_only w w' /\ room (w_fs w) b d /\
    exists h rest c, fi_children i = h :: rest /\ yields w h c /\ made_one (w_fs w) (w_fs w') b d c.
  Proof.
    intros H b. unfold make_file in H. apply bind_done in H as ([] & w1 & H1 & H). apply bind_done in H as (l & w2 & H2 & H3).
    apply create_new_done in H2 as (O2 & R2 & _ & L2 & st & F2).
    assert (P1 : fs_only w w1 /\ forall x, lookup (w_fs w1) x = lookup (w_fs w) x \/
      (lookup (w_fs w) x = None /\ lookup (w_fs w1) x = Some EDir /\ exists y z, d = y ++ z /\ z <> [] /\ x = b ++ y)).
    { destruct d as [|n0 d0] using rev_ind; [cbn in H1; inv H1; split; [apply fs_only_refl|auto]|]. clear IHd0. rewrite plain_parent in H1.
      apply mkdir_done in H1 as [O1 H1]. split; [exact O1|]. destruct H1 as [[_ ->]|[_ M]]; [auto|]. rewrite plain_base in M. fold b in M. intro x. apply mkdirs_adds in M.
      destruct (M x) as [M1|(M1 & M2 & u & r & M3 & M4)]; [auto|]. right. split; [exact M1|]. split; [exact M2|]. cbn [p_comps plain_path] in M3.
      apply map_eq_app in M3 as (y & z & -> & <- & <-). rewrite fold_normal in M4. exists y, (z ++ [n0]). split; [rewrite app_assoc; reflexivity|]. split; [apply snoc_not_nil|exact M4]. }
    destruct P1 as [O1 P1]. assert (B1 : start_of w1 a = b) by (unfold start_of, b; destruct a; [reflexivity|apply only_cwd, O1]).
    apply plain_walk in R2 as [-> D2]. rewrite B1 in *.
    assert (Nl : b ++ d <> []) by (intro Q; rewrite Q in L2; discriminate).
    unfold write_item_data in H3. destruct (fi_children i) as [|h rest] eqn:Ci; [discriminate|].
    apply (read_file (b ++ d) g h w2 w' [] st) in H3 as (bs & O3 & [[st' W3] W3'] & Y); [|exact Nl|rewrite F2; apply lookup_set_same, Nl].
    assert (Dif : forall x y, d = x ++ y -> y <> [] -> b ++ x <> b ++ d).
    { intros x y -> N Q. apply app_inv_head in Q. apply N. rewrite <- (app_nil_r x) in Q at 1. apply app_inv_head in Q. congruence. }
    split; [eapply fs_only_trans; [|exact O3]; eapply fs_only_trans; [exact O1|exact O2]|]. split; [split|].
    - intros x y Q N. destruct (P1 (b ++ x)) as [K|(K & _)]; [|auto]. right. rewrite <- K. apply (D2 x y Q N).
    - destruct (P1 (b ++ d)) as [K|(K & _)]; congruence.
    - exists h, rest, bs. split; [reflexivity|]. split; [|split; [|split]].
      + exists g. intros fuel Lf. destruct (Y (set_faults w []) fuel []) as (w3 & Q & _); [|reflexivity|exact Lf|rewrite Q; reflexivity].
        change (cur_db (set_faults w [])) with (cur_db w). symmetry. apply only_cur. eapply fs_only_trans; eassumption.
      + unfold content. rewrite W3. reflexivity.
      + intros x y Q N. rewrite W3' by (eapply Dif; eassumption). rewrite F2, lookup_set_other; [apply (D2 x y Q N)|exact Nl|eapply Dif; eassumption].
      + intro z. destruct (list_eq_dec (list_eq_dec ascii_dec) z (b ++ d)) as [->|Nz].
        * right. split; [destruct (P1 (b ++ d)) as [K|(K & _)]; congruence|]. exists d, []. split; [rewrite app_nil_r; reflexivity|]. split; [reflexivity|congruence].
        * rewrite W3' by exact Nz. rewrite F2, lookup_set_other by assumption. destruct (P1 z) as [K|(K1 & K2 & x & y & K3 & K4 & K5)]; [auto|]. right. split; [exact K1|]. exists x, y. auto.
  Qed.

  (** *** A tree *)
  Definition fits (W : world) (f : fs) (k : key) (b : loc) (d : list name) : Prop := forall r, leaf_at W k r -> room f b (d ++ r).
  Definition made_tree (W : world) (f f' : fs) (k : key) (b : loc) (d : list name) : Prop :=
    (forall r, leaf_at W k r -> exists c, file_at W k r c /\ content f' (b ++ d ++ r) = Some c) /\
    (forall r x y, leaf_at W k r -> d ++ r = x ++ y -> y <> [] -> lookup f' (b ++ x) = Some EDir) /\
    (forall z, lookup f' z = lookup f z \/ (lookup f z = None /\ exists r x y, leaf_at W k r /\ d ++ r = x ++ y /\ z = b ++ x /\ (y <> [] -> lookup f' z = Some EDir))).
  Lemma made_tree_grows W f f' k b d : made_tree W f f' k b d -> grows f f'.
  Proof. intros (_ & _ & H) x e L. destruct (H x) as [->|(K & _)]; [exact L|congruence]. Qed.
  Lemma grows_content f f' x c : grows f f' -> content f x = Some c -> content f' x = Some c.
  Proof. intros G. unfold content. destruct (lookup f x) as [e|] eqn:L; [|discriminate]. rewrite (G _ _ L). auto. Qed.
  Lemma leaf_split W k i n r : regular W k -> item_at W k i -> fi_type i = ItDir -> leaf_at W k (n :: r) -> exists c, In (c, n) (combine (fi_children i) (fi_names i)) /\ leaf_at W c r.
  Proof.
    intros Rg It T (k' & i' & X & Y). apply at_inv in X as (i0 & c & H1 & _ & H3 & H4). pose proof (item_fun _ _ _ _ It H1). subst i0. exists c. split; [exact H3|]. exists k', i'. auto.
  Qed.
  Lemma leaf_dir W k i : item_at W k i -> fi_type i = ItDir -> ~ leaf_at W k [].
  Proof. intros It T (k' & i' & X & Y & Z). apply at_inv in X. subst k'. pose proof (item_fun _ _ _ _ It Y). congruence. Qed.
  Lemma leaf_file W k i r : item_at W k i -> fi_type i = ItFile -> leaf_at W k r -> r = [].
  Proof. intros It T (k' & i' & X & _). destruct r as [|n r]; [reflexivity|]. exfalso. apply (at_file W k i It (n :: r) T ltac:(discriminate) k' X). Qed.
  Lemma file_child W k i c n r bs : regular W k -> item_at W k i -> fi_type i = ItDir -> In (c, n) (combine (fi_children i) (fi_names i)) -> file_at W c r bs -> file_at W k (n :: r) bs.
  Proof. intros Rg It T I (k' & i' & h & rest & H1 & H2). exists k', i', h, rest. split; [eapply at_child; eassumption|exact H2]. Qed.
  (** The part of a directory's files that belongs to these entries. *)
  Definition made_kids (W : world) (f f' : fs) (l : list (key * name)) (b : loc) (d : list name) : Prop :=
    (forall c n, In (c, n) l -> fits W f c b (d ++ [n])) /\
    (forall c n r, In (c, n) l -> leaf_at W c r -> exists bs, file_at W c r bs /\ content f' (b ++ d ++ n :: r) = Some bs) /\
    (forall c n r x y, In (c, n) l -> leaf_at W c r -> d ++ n :: r = x ++ y -> y <> [] -> lookup f' (b ++ x) = Some EDir) /\
    (forall z, lookup f' z = lookup f z \/ (lookup f z = None /\ exists c n r x y, In (c, n) l /\ leaf_at W c r /\ d ++ n :: r = x ++ y /\ z = b ++ x /\ (y <> [] -> lookup f' z = Some EDir))).
  Lemma kids_grow W f f' l b d : made_kids W f f' l b d -> grows f f'.
  Proof. intros (_ & _ & _ & H) x e L. destruct (H x) as [->|(K & _)]; [exact L|congruence]. Qed.
  Lemma kids_tree W f f' k i b d : regular W k -> item_at W k i -> fi_type i = ItDir -> made_kids W f f' (combine (fi_children i) (fi_names i)) b d -> fits W f k b d /\ made_tree W f f' k b d.
  Proof.
    intros Rg It T (A & B & C & D). split; [|split; [|split]].
    - intros [|n r] L; [destruct (leaf_dir _ _ _ It T L)|]. destruct (leaf_split _ _ _ _ _ Rg It T L) as (c & I & L'). pose proof (A c n I r L') as X. rewrite <- app_assoc in X. exact X.
    - intros [|n r] L; [destruct (leaf_dir _ _ _ It T L)|]. destruct (leaf_split _ _ _ _ _ Rg It T L) as (c & I & L'). destruct (B c n r I L') as (bs & F & Q). exists bs. split; [eapply file_child; eassumption|exact Q].
    - intros [|n r] x y L; [destruct (leaf_dir _ _ _ It T L)|]. destruct (leaf_split _ _ _ _ _ Rg It T L) as (c & I & L'). apply (C c n r x y I L').
    - intro z. destruct (D z) as [K|(K & c & n & r & x & y & I & L & Q)]; [auto|]. right. split; [exact K|]. exists (n :: r), x, y. split; [|exact Q]. apply (leaf_child W k i c n r Rg It T I), L.
  Qed.
  Lemma tree_kids W f f1 f' c n l b d : fits W f c b (d ++ [n]) -> made_tree W f f1 c b (d ++ [n]) -> made_kids W f1 f' l b d -> made_kids W f f' ((c, n) :: l) b d.
  Proof.
    intros Fi Mt Mk. pose proof (made_tree_grows _ _ _ _ _ _ Mt) as G1. pose proof (kids_grow _ _ _ _ _ _ Mk) as G2. destruct Mt as (A1 & B1 & C1), Mk as (A2 & B2 & C2 & D2). split; [|split; [|split]].
    - intros c' m [Q|I]; [inv Q; exact Fi|]. intros r L. eapply room_grows; [exact G1|]. exact (A2 c' m I r L).
    - intros c' m r [Q|I] L; [|apply (B2 c' m r I L)]. inv Q. destruct (A1 r L) as (bs & F & Q). exists bs. split; [exact F|]. rewrite <- app_assoc in Q. eapply grows_content; eassumption.
    - intros c' m r x y [Q|I] L Q' N; [|eapply C2; eassumption]. inv Q. apply G2. apply (B1 r x y L); [rewrite <- app_assoc; exact Q'|exact N].
    - intro z. destruct (D2 z) as [K|(K & c' & m & r & x & y & I & L & Q & Z & Y)].
      + rewrite K. destruct (C1 z) as [K1|(K1 & r & x & y & L & Q & Z & Y)]; [auto|]. right. split; [exact K1|]. exists c, n, r, x, y. split; [left; reflexivity|]. split; [exact L|]. rewrite <- app_assoc in Q. auto.
      + right. split; [destruct (C1 z) as [K1|(K1 & _)]; congruence|]. exists c', m, r, x, y. split; [right; exact I|auto].
  Qed.
  Lemma fetch_done W g : forall k a d w w', regular W k -> cur_db w = cur_db W -> get_fs_item ds g k (plain_path a d) w = (Done tt, w') ->
    let b := start_of w a in fs_only w w' /\ fits W (w_fs w) k b d /\ made_tree W (w_fs w) (w_fs w') k b d.
  Proof.
    induction g as [|g IH]; intros k a d w w' Rg Cu H b; [discriminate|]. rewrite get_fs_item_eq in H. apply bind_done in H as (i & w1 & G & H).
    pose proof (get_fsitem_item _ _ _ _ G) as It. apply db_item_iff in It. apply (item_cur w W) in It; [|congruence]. apply get_fsitem_done in G as (T1 & _). destruct (ticked_fs _ _ T1) as [F1 C1]. pose proof (ticked_only _ _ T1) as O1.
    assert (B1 : start_of w1 a = b) by (unfold start_of, b; destruct a; [reflexivity|exact C1]). pose proof (only_cur _ _ O1) as Cu1. rewrite Cu in Cu1.
    destruct (fi_type i) eqn:T.
    - assert (X : fs_only w1 w' /\ made_kids W (w_fs w1) (w_fs w') (combine (fi_children i) (fi_names i)) b d).
      { destruct (Rg k i (eo_refl W k) It T) as (Pn & _). assert (Sub : forall c n, In (c, n) (combine (fi_children i) (fi_names i)) -> entry_name n /\ regular W c).
        { intros c n I. split; [rewrite Forall_forall in Pn; apply Pn; eapply in_combine_r, I|]. eapply regular_child; eauto. eapply in_combine_l, I. }
        clear It T T1 F1 C1 O1 Cu Pn. revert w1 H B1 Cu1 Sub. generalize (combine (fi_children i) (fi_names i)) as l. induction l as [|[c n] l IHl]; intros w1 H B1 Cu1 Sub.
        - inv H. split; [apply fs_only_refl|]. split; [intros ? ? []|]. split; [intros ? ? ? []|]. split; [intros ? ? ? ? ? []|auto].
        - cbn [get_each] in H. apply bind_done in H as ([] & w2 & H1 & H2). destruct (Sub c n (or_introl eq_refl)) as [En Rc]. rewrite join_plain, plain_push in H1 by exact En.
          destruct (IH c a (d ++ [n]) w1 w2 Rc Cu1 H1) as (O2 & Fi & Mt). rewrite B1 in Fi, Mt.
          destruct (IHl w2 H2) as (O3 & Mk); [unfold start_of in *; destruct a; [exact B1|rewrite (only_cwd _ _ O2); exact B1]|rewrite (only_cur _ _ O2); exact Cu1|intros c' n' I; apply Sub; right; exact I|].
          split; [eapply fs_only_trans; eassumption|]. eapply tree_kids; eassumption. }
      destruct X as [O2 Mk]. split; [eapply fs_only_trans; eassumption|]. rewrite <- F1. eapply kids_tree; eassumption.
    - apply file_done in H as (O2 & Ro & h & rest & c & Ch & Y & M1 & M2 & M3). rewrite B1, F1 in *. split; [eapply fs_only_trans; eassumption|].
      assert (Lf : forall r, leaf_at W k r -> r = []) by (intros r L; eapply leaf_file; eassumption). assert (L0 : leaf_at W k []) by (exists k, i; split; [constructor|auto]).
      split; [|split; [|split]].
      + intros r L. rewrite (Lf r L), app_nil_r. exact Ro.
      + intros r L. rewrite (Lf r L), app_nil_r. exists c. split; [|exact M1]. exists k, i, h, rest. split; [constructor|]. repeat (split; [assumption|]). eapply yields_cur; [|exact Y]. congruence.
      + intros r x y L. rewrite (Lf r L), app_nil_r. apply M2.
      + intro z. destruct (M3 z) as [K|(K & x & y & Q)]; [auto|]. right. split; [exact K|]. exists [], x, y. rewrite app_nil_r. auto.
  Qed.

  (** *** It is enough *)
  Lemma fwrite_done l b w : w_faults w = [] -> exists w', fs_write l b w = (Done tt, w') /\ w_faults w' = [] /\ fs_only w w'.
  Proof.
    intros F. unfold fs_write. match goal with |- context [fs_change ?a ?b w] => destruct (LiveCheckout.change_live a b w F) as ([] & f' & t & w' & H & Q & F' & Fl & O) end; [eauto|].
    exists w'. auto.
  Qed.
  Lemma read_lives (wr : unit -> bytes -> M unit) d : (forall b w, w_faults w = [] -> cur_db w = d -> exists w', wr tt b w = (Done tt, w') /\ w_faults w' = [] /\ cur_db w' = d) ->
    forall n, shp d -> forall k, complete d n (as_db_key k) -> holds_bytes d k -> forall w, w_faults w = [] -> cur_db w = d ->
    exists w', read_data ds wr n k tt w = (Done tt, w') /\ w_faults w' = [] /\ cur_db w' = d.
  Proof.
    intros Wr n S. induction n as [|n IH]; intros k C (o & O & T) w F Cu; [inversion C|]. subst d.
    pose proof (complete_keys (cur_db w) n (as_db_key k) o C O) as K. pose proof (formed _ _ _ S O) as Wf. unfold well_formed in Wf. unfold of_role in T.
    destruct (object_get w k o F O) as (w1 & G & F1 & C1).
    cbn [read_data]. unfold bind at 1. rewrite G. clear G. destruct (o_type o) eqn:To; try (exfalso; intuition discriminate).
    - destruct Wf as [_ Wf]. revert w1 F1 C1. clear -IH K Wf. induction (o_keys o) as [|c r IHr]; intros w1 F1 C1.
      + exists w1. auto.
      + inversion Wf as [|? ? (o' & O' & T') Wf']; subst. destruct (IH c (K c (or_introl eq_refl)) ltac:(exists o'; auto) w1 F1 C1) as (w2 & R2 & F2 & C2).
        unfold bind at 1. rewrite R2. apply (IHr (fun x X => K x (or_intror X)) Wf' w2 F2 C2).
    - apply Wr; assumption.
    - destruct Wf as (size & c & Ks & (o' & O' & T') & _). rewrite Ks. apply IH; auto. apply K. rewrite Ks. left. reflexivity. exists o'. auto.
  Qed.
  Lemma read_live d n l : shp d -> forall k, complete d n (as_db_key k) -> holds_bytes d k -> forall w, w_faults w = [] -> cur_db w = d ->
    exists w', read_data ds (file_write l) n k tt w = (Done tt, w') /\ w_faults w' = [] /\ cur_db w' = d.
  Proof.
    intros S. apply read_lives; [|exact S]. intros b w F Cu. destruct (fwrite_done l b w F) as (w2 & H & F2 & O2). exists w2. split; [exact H|]. split; [exact F2|]. rewrite (only_cur _ _ O2). exact Cu.
  Qed.
  Lemma way_live w a d : w_faults w = [] -> lookup (w_fs w) (start_of w a) = Some EDir -> clear_way (w_fs w) (start_of w a) d ->
    exists w', fs_create_dir_all (plain_path a d) w = (Done tt, w') /\ w_faults w' = [] /\ fs_only w w' /\ (forall x y, d = x ++ y -> lookup (w_fs w') (start_of w a ++ x) = Some EDir) /\
      (forall z, (forall x y, d = x ++ y -> z <> start_of w a ++ x) -> lookup (w_fs w') z = lookup (w_fs w) z).
  Proof.
    intros F Db Cw. unfold fs_create_dir_all. destruct (is_empty_path (plain_path a d)) eqn:Em.
    - exists w. split; [reflexivity|]. split; [exact F|]. split; [apply fs_only_refl|]. unfold is_empty_path, plain_path in Em. cbn in Em. destruct a; [discriminate|]. destruct d; [|discriminate].
      split; [|auto]. intros x y Q. destruct x; [|discriminate]. rewrite app_nil_r. exact Db.
    - destruct (make_way _ _ _ Db Cw) as (f' & M & D & Ch).
      match goal with |- context [fs_change ?u ?v w] => destruct (LiveCheckout.change_live u v w F) as ([] & f2 & t & w' & H & Q & F' & Fl & O) end.
      { intro t. rewrite plain_base. cbn [plain_path p_comps]. rewrite M. cbn. eauto. }
      rewrite plain_base in Q. cbn [plain_path p_comps] in Q. rewrite M in Q. cbn in Q. injection Q as Qf. rewrite <- Qf in F'. clear Qf f2. exists w'. split; [exact H|]. split; [exact Fl|]. split; [exact O|].
      rewrite F'. split; [exact D|]. intros z Nz. destruct (entry_eq (lookup f' z) (lookup (w_fs w) z)) as [Q|Q]; [exact Q|].
      destruct (Ch z Q) as (_ & _ & x & y & Qd & Qz). destruct (Nz x y Qd Qz).
  Qed.
  Lemma resolve_plain f w a d : d <> [] -> (forall x y, d = x ++ y -> y <> [] -> lookup f (start_of w a ++ x) = Some EDir) -> resolve f (w_cwd w) (plain_path a d) = Some (start_of w a ++ d).
  Proof.
    intros N H. unfold resolve. replace (is_empty_path (plain_path a d)) with false by (unfold is_empty_path, plain_path; cbn; destruct d; [congruence|]; destruct a; reflexivity).
    change (if p_abs (plain_path a d) then [] else w_cwd w) with (start_of w a). apply walk_normals, H.
  Qed.
  Lemma file_live D g i a d w h rest : shp D -> cur_db w = D -> fi_children i = h :: rest -> complete D g (as_db_key h) -> holds_bytes D h -> w_faults w = [] ->
    lookup (w_fs w) (start_of w a) = Some EDir -> room (w_fs w) (start_of w a) d -> exists w', make_file g i (plain_path a d) w = (Done tt, w') /\ w_faults w' = [].
  Proof.
    intros S Cu Ci Co Ho F Db [R1 R2]. set (b := start_of w a) in *. destruct d as [|n d] using rev_ind; [rewrite app_nil_r in R2; congruence|]. clear IHd.
    destruct (way_live w a d F Db) as (w1 & H1 & F1 & O1 & D1 & N1).
    { intros x y Q. apply (R1 x (y ++ [n])); [rewrite Q, <- app_assoc; reflexivity|apply snoc_not_nil]. }
    fold b in D1, N1. assert (B1 : start_of w1 a = b) by (unfold start_of, b; destruct a; [reflexivity|apply only_cwd, O1]).
    unfold make_file. rewrite plain_parent. rewrite (run_bind _ _ _ _ _ H1). unfold fs_create_new.
    assert (Rs : resolve (w_fs w1) (w_cwd w1) (plain_path a (d ++ [n])) = Some (b ++ d ++ [n])).
    { rewrite resolve_plain; [rewrite B1; reflexivity|apply snoc_not_nil|]. intros x y Q N. rewrite B1. destruct y as [|m y] using rev_ind; [congruence|]. clear IHy. rewrite app_assoc in Q. apply app_inj_tail in Q as [Q _]. apply (D1 x y Q). }
    assert (Ln : lookup (w_fs w1) (b ++ d ++ [n]) = None).
    { rewrite N1; [exact R2|]. intros x y Q Z. apply app_inv_head in Z. apply (f_equal (@length name)) in Z. rewrite Q, !app_length in Z. cbn in Z. lia. }
    match goal with |- context [fs_change ?u ?v] => destruct (LiveCheckout.change_live u v w1 F1) as (l & f2 & t & w2 & H2 & Q2 & Ff & F2 & O2) end.
    { intro t. unfold create_new_eff. rewrite Rs, Ln. cbn. eauto. }
    rewrite (run_bind _ _ _ _ _ H2). unfold write_item_data. rewrite Ci.
    destruct (read_live D g l S h Co Ho w2 F2) as (w3 & H3 & F3 & _); [rewrite (only_cur _ _ O2), (only_cur _ _ O1); exact Cu|]. exists w3. auto.
  Qed.
  Lemma kid_room W f f1 c n b d m r : made_tree W f f1 c b (d ++ [n]) -> n <> m -> room f b (d ++ m :: r) -> room f1 b (d ++ m :: r).
  Proof.
    intros (_ & _ & Ch) Nm [R1 R2].
    assert (Cut : forall x y u v r0, d ++ m :: r = x ++ y -> (d ++ [n]) ++ r0 = u ++ v -> b ++ x = b ++ u -> v <> [] /\ y <> []).
    { intros x y u v r0 Q1 Q2 Q3. apply app_inv_head in Q3. subst u. rewrite <- app_assoc in Q2. cbn [app] in Q2.
      assert (Ln : forall (z t : list name), x = d ++ z ++ t -> z = [m] -> False).
      { intros z t -> ->. rewrite <- !app_assoc in Q2. apply app_inv_head in Q2. cbn in Q2. congruence. }
      split.
      - intros ->. rewrite app_nil_r in Q2. subst x. rewrite <- app_assoc in Q1. apply app_inv_head in Q1. cbn in Q1. congruence.
      - intros ->. rewrite app_nil_r in Q1. subst x. rewrite <- app_assoc in Q2. apply app_inv_head in Q2. cbn in Q2. congruence. }
    split.
    - intros x y Q N. destruct (Ch (b ++ x)) as [K|(_ & r0 & u & v & _ & Q' & Z & Y)]; [rewrite K; apply (R1 x y Q N)|]. right. apply Y. apply (Cut x y u v r0 Q Q' Z).
    - destruct (Ch (b ++ d ++ m :: r)) as [K|(_ & r0 & u & v & _ & Q' & Z & Y)]; [rewrite K; exact R2|]. exfalso. destruct (Cut (d ++ m :: r) [] u v r0) as [_ X]; [rewrite app_nil_r; reflexivity|exact Q'|exact Z|exact (X eq_refl)].
  Qed.
  Lemma fetch_lives W g : shp (cur_db W) -> forall k a d w, complete (cur_db W) g (as_db_key k) -> points (cur_db W) Item k -> w_faults w = [] -> cur_db w = cur_db W ->
    lookup (w_fs w) (start_of w a) = Some EDir -> fits W (w_fs w) k (start_of w a) d -> exists w', get_fs_item ds g k (plain_path a d) w = (Done tt, w') /\ w_faults w' = [].
  Proof.
    intro Sh. induction g as [|g IH]; intros k a d w C Pt F Cu Db Fi; [inversion C|]. pose proof (item_regular W k Sh Pt) as Rg. destruct Pt as (o & O & T).
    pose proof (complete_keys _ g (as_db_key k) o C O) as K. pose proof (formed _ _ _ Sh O) as Wf. unfold well_formed in Wf. unfold of_role in T.
    assert (Ow := O). rewrite <- Cu in Ow. destruct (object_get w k o F Ow) as (w1 & G & F1 & C1). pose proof (get_obj_done _ _ _ _ G) as (T1 & _). destruct (ticked_fs _ _ T1) as [Fs1 Cw1]. rewrite get_fs_item_eq.
    assert (Gi : forall i, fsitem_of_object o = Some i -> get_fsitem ds k w = (Done i, w1)) by (intros i D; unfold get_fsitem; unfold bind at 1; rewrite G, D; reflexivity).
    assert (Ii : forall i, fsitem_of_object o = Some i -> item_at W k i) by (intros i D; exists o; split; [apply reads_object, O|exact D]).
    set (b := start_of w a) in *. assert (B1 : start_of w1 a = b) by (unfold start_of, b; destruct a; [reflexivity|exact Cw1]). rewrite Cu in C1.
    destruct T as [T|T]; rewrite T in Wf.
    - destruct Wf as (size & c & Ks & Pc & D). rewrite (run_bind _ _ _ _ _ (Gi _ D)). cbn [fi_type].
      apply (file_live (cur_db W) g _ a d w1 c []); [exact Sh|exact C1|reflexivity|apply K; rewrite Ks; left; reflexivity| |exact F1|rewrite B1, Fs1; exact Db|].
      + destruct Pc as (o' & O' & T'). exists o'. split; [exact O'|]. left; exact T'.
      + rewrite B1, Fs1. specialize (Fi []). rewrite app_nil_r in Fi. apply Fi. eexists k, _. split; [constructor|]. split; [apply (Ii _ D)|reflexivity].
    - destruct Wf as (names & ks & Ks & Pk & D & _). pose proof (Ii _ D) as It. rewrite (run_bind _ _ _ _ _ (Gi _ D)). cbn [fi_type fi_children fi_names].
      destruct (Rg k _ (eo_refl W k) It eq_refl) as (Pn & Nd & Len). cbn [fi_names fi_children] in Pn, Nd, Len.
      assert (Sub : forall c n, In (c, n) (combine ks names) -> entry_name n /\ points (cur_db W) Item c /\ complete (cur_db W) g (as_db_key c)).
      { intros c n I. split; [rewrite Forall_forall in Pn; apply Pn; eapply in_combine_r, I|]. split; [rewrite Forall_forall in Pk; apply Pk; eapply in_combine_l, I|]. apply K. rewrite Ks. eapply in_combine_l, I. }
      assert (Kf : forall c n, In (c, n) (combine ks names) -> fits W (w_fs w1) c b (d ++ [n])).
      { intros c n I r L. rewrite Fs1, <- app_assoc. apply Fi. apply (leaf_child W k _ c n r Rg It eq_refl I), L. }
      assert (Ndc : NoDup (map snd (combine ks names))) by (rewrite combine_snd by (symmetry; exact Len); exact Nd).
      assert (Db1 : lookup (w_fs w1) b = Some EDir) by (rewrite Fs1; exact Db).
      clear Gi Ii It Fi Rg K Len Nd Pn Pk G T1 Fs1 Cw1 F Cu Ow Db. revert w1 F1 C1 B1 Sub Kf Ndc Db1. generalize (combine ks names) as l. induction l as [|[c n] l IHl]; intros w1 F1 C1 B1 Sub Kf Ndc Db1; cbn [get_each].
      + exists w1. auto.
      + destruct (Sub c n (or_introl eq_refl)) as (En & Pc & Cc). rewrite join_plain, plain_push by exact En.
        destruct (IH c a (d ++ [n]) w1 Cc Pc F1 C1) as (w2 & H2 & F2); [rewrite B1; exact Db1|rewrite B1; apply Kf; left; reflexivity|].
        rewrite (run_bind _ _ _ _ _ H2). destruct (fetch_done W g c a (d ++ [n]) w1 w2 (item_regular W c Sh Pc) C1 H2) as (O2 & _ & Mt). rewrite B1 in Mt.
        cbn [map snd] in Ndc. apply NoDup_cons_iff in Ndc as [Nn Ndc]. apply IHl; auto.
        * rewrite (only_cur _ _ O2). exact C1.
        * unfold start_of in *. destruct a; [exact B1|rewrite (only_cwd _ _ O2); exact B1].
        * intros c' m I. apply Sub. right. exact I.
        * intros c' m I r L. rewrite <- app_assoc. eapply kid_room; [exact Mt| |].
          -- intros <-. apply Nn. apply in_map_iff. exists (c', n). auto.
          -- pose proof (Kf c' m (or_intror I) r L) as X. rewrite <- app_assoc in X. exact X.
        * apply (made_tree_grows _ _ _ _ _ _ Mt). exact Db1.
  Qed.
End LiveFetch.
