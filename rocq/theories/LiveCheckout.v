(** When checking out succeeds. *)
From Coq Require Import RelationClasses.
From Verif Require Import Base BaseFacts TableFacts Key KeyFacts Keyish Cbor CborFacts Object ObjectFacts Path World WorldFacts Store File Filter Dir Diff Commit Main SpecStore StoreCalls SpecRun SpecProc SpecCmd SpecFile SpecDir SpecCache SpecDiff SpecShape SpecLive
  SpecClosure Closure Frame DbRel Integrity StoreFacts ProcFacts InitFacts ObjStoreFacts SessionFacts FilePlan FileFacts ChunkFacts FileRun FsFacts DirPlan DirFacts GetFacts DirTrip FetchSafe DirTree DirWalk WalkFacts DirLive CacheFacts HashFacts CompareFacts DiffFacts CheckoutFacts
  Reader SpecPatch SpecShow SpecOut SpecText CmdFacts OutFacts SnapFacts ShowFacts ShapeFacts ShapeTop Ends SpecCheckout LiveFacts LiveDiff LiveCmd LiveStart.

Section LiveCheckout.
  Context {E : Env}.
  Notation ds := sqlite_ds.

  (** *** Single operations *)
  Lemma change_live {A} (full : fs -> loc -> nat -> option (A * fs)) part w : w_faults w = [] -> (forall t, exists a f', full (w_fs w) (w_cwd w) t = Some (a, f')) ->
    exists a f' t w', fs_change full part w = (Done a, w') /\ full (w_fs w) (w_cwd w) t = Some (a, f') /\ w_fs w' = f' /\ w_faults w' = [] /\ fs_only w w'.
  Proof.
    intros F H. unfold fs_change. match goal with |- context [op ?e w] => destruct (op_live e w F) as (w1 & T & F1 & ->) end. destruct T as (t & r & ->). cbn [w_fs w_cwd w_tick set_faults set_tick] in *.
    destruct (H t) as (a & f' & Q). rewrite Q. exists a, f', t. eexists. split; [reflexivity|]. split; [exact Q|]. split; [reflexivity|]. split; [exact F1|]. exists t, r, f'. reflexivity.
  Qed.
  Lemma mkdir_live p w l : w_faults w = [] -> resolve (w_fs w) (w_cwd w) p = Some l -> lookup (w_fs w) l = Some EDir ->
    exists w', fs_create_dir_all p w = (Done tt, w') /\ w_faults w' = [] /\ w_fs w' = w_fs w /\ fs_only w w'.
  Proof.
    intros F R L. unfold fs_create_dir_all. unfold resolve in R. destruct (is_empty_path p); [discriminate|].
    match goal with |- context [fs_change ?a ?b w] => destruct (change_live a b w F) as ([] & f' & t & w' & H & Q & F' & Fl & O) end.
    { intro t. exists tt, (w_fs w). fold (base_loc (w_cwd w) p) in R. rewrite (mkdirs_walked _ _ _ _ R L). reflexivity. }
    exists w'. split; [exact H|]. split; [exact Fl|]. split; [|exact O]. fold (base_loc (w_cwd w) p) in R. rewrite (mkdirs_walked _ _ _ _ R L) in Q. cbn in Q. congruence.
  Qed.
  Lemma nodup_set (f : fs) l e : NoDup (map fst f) -> NoDup (map fst (fs_set f l e)).
  Proof.
    unfold fs_set. intro N. assert (K : forall x, In x (map fst (assoc_set l e f)) -> x = l \/ In x (map fst f)).
    { clear. induction f as [|[k v] r IH]; cbn; intros x H; [destruct H as [H|[]]; auto|]. destruct (names_eqb k l); cbn in *; destruct H as [H|H]; auto. destruct (IH x H); auto. }
    induction f as [|[k v] r IH]; cbn; [constructor; [intros []|constructor]|]. inversion N as [|? ? Nk Nr]; subst. destruct (names_eqb k l) eqn:Q; cbn; constructor.
    - exact Nk.
    - exact Nr.
    - intro I. assert (X : k = l \/ In k (map fst r)).
      { clear -I. induction r as [|[k' v'] r IH]; cbn in *; [destruct I as [I|[]]; auto|]. destruct (names_eqb k' l); cbn in *; destruct I as [I|I]; auto. destruct (IH I); auto. }
      destruct X as [->|X]; [rewrite names_eqb_refl in Q; discriminate|exact (Nk X)].
    - apply IH; [exact Nr|]. intros x H. clear -H. induction r as [|[k' v'] r IH]; cbn in *; [destruct H as [H|[]]; auto|]. destruct (names_eqb k' l); cbn in *; destruct H as [H|H]; auto. destruct (IH H); auto.
  Qed.
  Lemma nodup_remove (f : fs) l : NoDup (map fst f) -> NoDup (map fst (fs_remove_tree f l)).
  Proof.
    unfold fs_remove_tree. induction f as [|[k v] r IH]; cbn; intro N; [constructor|]. inversion N as [|? ? Nk Nr]; subst. destruct (names_prefix l k); cbn; [apply IH, Nr|].
    constructor; [|apply IH, Nr]. intro I. apply Nk. apply in_map_iff in I as ([x e] & Q & I). cbn in Q. subst x. apply filter_In in I as [I _]. apply in_map_iff. exists (k, e). auto.
  Qed.
  Lemma create_live p w l : w_faults w = [] -> p_slash p = false -> resolve (w_fs w) (w_cwd w) p = Some l -> (lookup (w_fs w) l = None \/ exists c st, lookup (w_fs w) l = Some (EFile c st)) ->
    NoDup (map fst (w_fs w)) -> exists w', fs_create p w = (Done l, w') /\ w_faults w' = [] /\ NoDup (map fst (w_fs w')) /\ fs_only w w'.
  Proof.
    intros F Sl R L N. unfold fs_create.
    match goal with |- context [fs_change ?a ?b w] => destruct (change_live a b w F) as (x & f' & t & w' & H & Q & F' & Fl & O) end.
    { intro t. unfold create_eff. rewrite R, Sl. destruct L as [->|(c & st & ->)]; eauto. }
    unfold create_eff in Q. rewrite R, Sl in Q. exists w'.
    assert (x = l /\ exists e, f' = fs_set (w_fs w) l e) as [-> [e ->]] by (destruct L as [L|(c & st & L)]; rewrite L in Q; inv Q; eauto).
    split; [exact H|]. split; [exact Fl|]. split; [rewrite F'; apply nodup_set, N|exact O].
  Qed.
  Lemma fwrite_live l b w : w_faults w = [] -> NoDup (map fst (w_fs w)) -> exists w', fs_write l b w = (Done tt, w') /\ w_faults w' = [] /\ NoDup (map fst (w_fs w')) /\ fs_only w w'.
  Proof.
    intros F N. unfold fs_write. match goal with |- context [fs_change ?a ?b w] => destruct (change_live a b w F) as ([] & f' & t & w' & H & Q & F' & Fl & O) end; [eauto|].
    exists w'. split; [exact H|]. split; [exact Fl|]. split; [|exact O]. inv Q. match goal with H : append _ _ _ _ = w_fs w' |- _ => rewrite <- H end. unfold append. destruct (lookup (w_fs w) l) as [[| | |]|]; try exact N. apply nodup_set, N.
  Qed.

  (** *** Writing a stored file *)
  Lemma read_file_live d n l : shp d -> forall k, complete d n (as_db_key k) -> holds_bytes d k -> forall w, w_faults w = [] -> cur_db w = d -> NoDup (map fst (w_fs w)) ->
    exists w', read_data ds (file_write l) n k tt w = (Done tt, w') /\ w_faults w' = [] /\ cur_db w' = d /\ NoDup (map fst (w_fs w')).
  Proof.
    intro S. induction n as [|n IH]; intros k C (o & O & T) w F Cu N; [inversion C|]. subst d.
    pose proof (complete_keys (cur_db w) n (as_db_key k) o C O) as K. pose proof (formed _ _ _ S O) as Wf. unfold well_formed in Wf. unfold of_role in T.
    destruct (object_get w k o F O) as (w1 & G & F1 & C1). pose proof (get_obj_done _ _ _ _ G) as (T1 & _). destruct (ticked_fs _ _ T1) as [Fs1 _]. rewrite <- Fs1 in N. clear T1 Fs1.
    cbn [read_data]. unfold bind at 1. rewrite G. clear G. destruct (o_type o) eqn:To; try (exfalso; intuition discriminate).
    - destruct Wf as [_ Wf]. revert w1 F1 C1 N. clear -IH K Wf. induction (o_keys o) as [|c r IHr]; intros w1 F1 C1 N.
      + exists w1. auto.
      + inversion Wf as [|? ? (o' & O' & T') Wf']; subst. destruct (IH c (K c (or_introl eq_refl)) ltac:(exists o'; auto) w1 F1 C1 N) as (w2 & R2 & F2 & C2 & N2).
        unfold bind at 1. rewrite R2. apply (IHr (fun x X => K x (or_intror X)) Wf' w2 F2 C2 N2).
    - destruct (fwrite_live l (o_data o) w1 F1 N) as (w2 & H & F2 & N2 & O2). exists w2. split; [exact H|]. split; [exact F2|]. split; [rewrite (only_cur _ _ O2); exact C1|exact N2].
    - destruct Wf as (size & c & Ks & (o' & O' & T') & _). rewrite Ks. apply IH; auto. apply K. rewrite Ks. left. reflexivity. exists o'. auto.
  Qed.

  (** *** Removing *)
  Lemma remove_live p l L : forall w, w_faults w = [] -> ~ In ParentDir (p_comps p) -> resolve (w_fs w) (w_cwd w) p = Some l -> lookup (w_fs w) l = Some EDir -> NoDup (map fst (w_fs w)) ->
    NoDup L -> (L <> [] -> starts_with p blessed = true) -> (forall n, In n L -> exists e, lookup (w_fs w) (l ++ [n]) = Some e /\ e <> EDangling) ->
    exists w', remove_extra p L w = (Done tt, w') /\ w_faults w' = [] /\ NoDup (map fst (w_fs w')).
  Proof.
    induction L as [|n L IH]; intros w F NP R Ld N NL B H; cbn [remove_extra]; [exists w; auto|]. rewrite B by discriminate.
    destruct (H n (or_introl eq_refl)) as (e & Le & Ne).
    assert (Sn : stat (w_fs w) (w_cwd w) (path_push p n) = Some (l ++ [n], e)).
    { unfold stat. rewrite (resolve_push _ _ _ _ _ R (proj2 (is_dir_iff _ _) Ld)), Le. destruct e; reflexivity. }
    assert (exists mt, meta_of e = Some mt) as [mt Mt] by (destruct e; cbn; eauto; congruence).
    unfold fs_metadata. match goal with |- context [bind (fs_query ?q)] => destruct (query_live q w mt F) as (w1 & T1 & F1 & Q) end; [rewrite Sn; exact Mt|].
    rewrite (run_bind _ _ _ _ _ Q). clear Q. destruct (ticked_fs _ _ T1) as [Fs1 C1].
    assert (Step : exists w2, match mt with MDir => fs_remove_dir_all (path_push p n) | MFile _ _ => fs_remove_file (path_push p n) | MOther => ret tt end w1 = (Done tt, w2) /\
      w_faults w2 = [] /\ w_cwd w2 = w_cwd w /\ (w_fs w2 = w_fs w \/ w_fs w2 = fs_remove_tree (w_fs w) (l ++ [n]))).
    { destruct e; cbn in Mt; inv Mt.
      - unfold fs_remove_dir_all. match goal with |- context [fs_change ?a ?b w1] => destruct (change_live a b w1 F1) as ([] & f' & t & w' & A1 & A2 & A3 & A4 & A5) end.
        { intro t. rewrite Fs1, C1, Sn. destruct (l ++ [n]) eqn:Z; [destruct l; discriminate|]. eauto. }
        rewrite Fs1, C1, Sn in A2. destruct (l ++ [n]) eqn:Z; [destruct l; discriminate|]. inv A2. exists w'. split; [exact A1|]. split; [exact A4|]. split; [rewrite (only_cwd _ _ A5); exact C1|]. right. congruence.
      - unfold fs_remove_file. match goal with |- context [fs_change ?a ?b w1] => destruct (change_live a b w1 F1) as ([] & f' & t & w' & A1 & A2 & A3 & A4 & A5) end.
        { intro t. rewrite Fs1, C1, Sn. eauto. }
        rewrite Fs1, C1, Sn in A2. inv A2. exists w'. split; [exact A1|]. split; [exact A4|]. split; [rewrite (only_cwd _ _ A5); exact C1|]. right. congruence.
      - exists w1. split; [reflexivity|]. auto. }
    destruct Step as (w2 & H2 & F2 & C2 & Fs2). rewrite (run_bind _ _ _ _ _ H2). clear H2. inversion NL as [|? ? Nn NL']; subst.
    assert (Out : forall x, ~ under (l ++ [n]) x -> lookup (w_fs w2) x = lookup (w_fs w) x).
    { intros x U. destruct Fs2 as [->| ->]; [reflexivity|]. rewrite lookup_remove by apply snoc_not_nil. destruct (names_prefix (l ++ [n]) x) eqn:P; [|reflexivity]. exfalso. apply U, names_prefix_iff, P. }
    assert (Ul : ~ under (l ++ [n]) l) by (intros [r Hr]; apply (f_equal (@length name)) in Hr; rewrite !app_length in Hr; cbn in Hr; lia).
    apply IH; auto.
    - rewrite C2. apply (resolve_keep (w_fs w)); auto. intros x U. apply Out. intro U'. apply U. eapply under_down, U'.
    - rewrite Out by exact Ul. exact Ld.
    - destruct Fs2 as [->| ->]; [exact N|apply nodup_remove, N].
    - intros _. apply B. discriminate.
    - intros m I. rewrite Out; [apply H; right; exact I|]. intro U. apply under_kids in U. subst m. exact (Nn I).
  Qed.

  (** *** What must be there *)
  Section Ready.
  Context (ex : list bytes) (dbl : loc).
  Definition ready (f : fs) (w : world) (k : key) (p : path) (l : loc) : Prop :=
    (forall r, dir_at w k r -> lookup f (l ++ r) = Some EDir) /\
    (forall r n, dir_at w k r -> lookup f (l ++ r ++ [n]) <> Some EDangling) /\
    (forall r, leaf_at w k r -> (lookup f (l ++ r) = None \/ exists c st, lookup f (l ++ r) = Some (EFile c st)) /\ starts_with (below p r) blessed = true) /\
    (forall r n e, dir_at w k r -> absent w k (r ++ [n]) -> lookup f (l ++ r ++ [n]) = Some e -> ~ excluded ex dbl p l (r ++ [n]) -> starts_with (below p r) blessed = true).
  Lemma starts_nil p : starts_with (below p []) blessed = starts_with p blessed.
  Proof. unfold starts_with, below. cbn [p_abs p_comps map]. rewrite app_nil_r. reflexivity. Qed.
  Lemma leaf_child w k i c n r : regular w k -> item_at w k i -> fi_type i = ItDir -> In (c, n) (combine (fi_children i) (fi_names i)) -> leaf_at w k (n :: r) <-> leaf_at w c r.
  Proof. intros R It T I. split; intros (k' & i' & H1 & H2); exists k', i'; (split; [eapply at_child; eassumption|exact H2]). Qed.
  Lemma ready_ext f f' w w' k p l : cur_db w' = cur_db w -> (forall x, under l x -> lookup f' x = lookup f x) -> ready f w k p l -> ready f' w' k p l.
  Proof.
    intros Cu F (A & B & C & D).
    assert (Dr : forall r, dir_at w' k r -> dir_at w k r) by (intros r (k' & i & X & Y & Z); exists k', i; split; [apply (at_cur_iff w w' k r k' Cu), X|split; [apply (item_cur_iff w w' k' i Cu), Y|exact Z]]).
    split; [|split; [|split]].
    - intros r H. rewrite F by (eexists; reflexivity). apply A, Dr, H.
    - intros r n H. rewrite F by (eexists; reflexivity). apply B, Dr, H.
    - intros r (k' & i & X & Y & Z). rewrite F by (eexists; reflexivity). apply C. exists k', i; split; [apply (at_cur_iff w w' k r k' Cu), X|split; [apply (item_cur_iff w w' k' i Cu), Y|exact Z]].
    - intros r n e H Ab L Ne. rewrite F in L by (eexists; reflexivity). apply (D r n e); auto. intros k' X. apply (Ab k'), (at_cur_iff w w' k _ k' Cu), X.
  Qed.
  Section ReadyItem.
    Context (w : world) (k : key) (i : fsitem) (Rg : regular w k) (It : item_at w k i).
    Lemma ready_file f p l : fi_type i = ItFile -> ready f w k p l <-> (lookup f l = None \/ exists c st, lookup f l = Some (EFile c st)) /\ starts_with p blessed = true.
    Proof.
      intro T. assert (Nd : forall r, ~ dir_at w k r).
      { intros [|n r] (k' & i' & X & Y & Z); [apply at_inv in X; subst k'; pose proof (item_fun _ _ _ _ It Y); congruence|]. apply (at_file w k i It (n :: r) T ltac:(discriminate) k' X). }
      split.
      - intros (_ & _ & C & _). specialize (C []). rewrite app_nil_r, starts_nil in C. apply C. exists k, i. split; [constructor|auto].
      - intros [A B]. split; [intros r H; destruct (Nd _ H)|]. split; [intros r n H; destruct (Nd _ H)|]. split; [|intros r n e H; destruct (Nd _ H)].
        intros [|n r] (k' & i' & X & Y & Z); [rewrite app_nil_r, starts_nil; auto|]. destruct (at_file w k i It (n :: r) T ltac:(discriminate) k' X).
    Qed.
    Lemma ready_dir f p l : fi_type i = ItDir -> ready f w k p l <->
      lookup f l = Some EDir /\ (forall n, lookup f (l ++ [n]) <> Some EDangling) /\
      (forall n e, ~ In n (fi_names i) -> lookup f (l ++ [n]) = Some e -> ~ excluded ex dbl p l [n] -> starts_with p blessed = true) /\
      (forall c n, In (c, n) (combine (fi_children i) (fi_names i)) -> ready f w c (path_push p n) (l ++ [n])).
    Proof.
      intro T. destruct (Rg k i (eo_refl w k) It T) as (_ & _ & Len).
      assert (Here : dir_at w k []) by (exists k, i; split; [constructor|auto]).
      assert (Cut : forall n, In n (fi_names i) -> exists c, In (c, n) (combine (fi_children i) (fi_names i))).
      { intros n I. rewrite <- (combine_snd (fi_children i) (fi_names i)) in I by (rewrite Len; reflexivity). apply in_map_iff in I as ([c n'] & <- & I). exists c. exact I. }
      split.
      - intros (A & B & C & D). split; [specialize (A [] Here); rewrite app_nil_r in A; exact A|]. split; [intro n; apply (B [] n Here)|]. split.
        + intros n e N L Ne. rewrite <- starts_nil. apply (D [] n e Here); auto. apply at_off with (i := i); auto.
        + intros c n I. split; [|split; [|split]].
          * intros r H. rewrite <- app_assoc. apply A. apply (dir_child w k i Rg It c n r T I), H.
          * intros r m H. rewrite <- app_assoc. apply (B (n :: r)). apply (dir_child w k i Rg It c n r T I), H.
          * intros r H. rewrite <- app_assoc, push_below, below_app. apply C. apply (leaf_child w k i c n r Rg It T I), H.
          * intros r m e H Ab L Ne. rewrite push_below, below_app. apply (D (n :: r) m e).
            -- apply (dir_child w k i Rg It c n r T I), H.
            -- intros k' X. apply (Ab k'). apply (at_child w k i Rg It c n (r ++ [m]) k' T I), X.
            -- rewrite <- app_assoc in L. exact L.
            -- intro X. apply Ne, excluded_down, X.
      - intros (A & B & C & D).
        assert (Split : forall n r k', at_path w k (n :: r) k' -> exists c, In (c, n) (combine (fi_children i) (fi_names i))).
        { intros n r k' H. destruct (in_dec (list_eq_dec ascii_dec) n (fi_names i)) as [I|I]; [apply Cut, I|]. destruct (at_off w k i It n r T I k' H). }
        split; [|split; [|split]].
        + intros [|n r] H; [rewrite app_nil_r; exact A|]. pose proof H as (k' & i' & X & _). destruct (Split _ _ _ X) as [c I]. destruct (D c n I) as (A' & _). specialize (A' r). rewrite <- app_assoc in A'. apply A'. apply (dir_child w k i Rg It c n r T I), H.
        + intros [|n r] m H; [apply B|]. pose proof H as (k' & i' & X & _). destruct (Split _ _ _ X) as [c I]. destruct (D c n I) as (_ & B' & _). specialize (B' r m). rewrite <- app_assoc in B'. apply B'. apply (dir_child w k i Rg It c n r T I), H.
        + intros [|n r] H.
          * destruct H as (k' & i' & X & Y & Z). apply at_inv in X. subst k'. pose proof (item_fun _ _ _ _ It Y). congruence.
          * pose proof H as (k' & i' & X & _). destruct (Split _ _ _ X) as [c I]. destruct (D c n I) as (_ & _ & C' & _). specialize (C' r). rewrite <- app_assoc, push_below, below_app in C'. apply C'. apply (leaf_child w k i c n r Rg It T I), H.
        + intros [|n r] m e H Ab L Ne.
          * rewrite starts_nil. apply (C m e); auto. intro I. destruct (Cut _ I) as [c I']. apply (Ab c). cbn [app]. apply (at_child w k i Rg It c m [] c T I'). constructor.
          * pose proof H as (k' & i' & X & _). destruct (Split _ _ _ X) as [c I]. destruct (D c n I) as (_ & _ & _ & D'). specialize (D' r m e). rewrite <- app_assoc, push_below, below_app in D'. apply D'; auto.
            -- apply (dir_child w k i Rg It c n r T I), H.
            -- intros k2 X2. apply (Ab k2). apply (at_child w k i Rg It c n (r ++ [m]) k2 T I), X2.
            -- intro X2. apply Ne, excluded_down, X2.
    Qed.
  End ReadyItem.

  (** *** The folder of the database stays *)
  Definition db_there (f : fs) : Prop := forall a b, dbl = a ++ b -> lookup f a = Some EDir.
  Lemma db_stat f cwd : db_there f -> stat f cwd (abs_path dbl) = Some (dbl, EDir).
  Proof. intro H. rewrite stat_abs by (intros a b Q _; exact (H a b Q)). rewrite (H dbl []) by (rewrite app_nil_r; reflexivity). reflexivity. Qed.
  Lemma db_locate cwd : locate cwd (abs_path dbl) = dbl.
  Proof.
    unfold locate, abs_path. cbn [p_abs p_comps]. change dbl with ([] ++ dbl) at 2. generalize (@nil name) as b. induction dbl as [|n r IH]; intro b; cbn [map fold_left]; [rewrite app_nil_r; reflexivity|].
    rewrite IH. cbn [step_comp]. rewrite <- app_assoc. reflexivity.
  Qed.
  Notation flt := (filter_fn ex (abs_path dbl)).

  Lemma filters_live p l names : forall w, w_faults w = [] -> stat (w_fs w) (w_cwd w) p = Some (l, EDir) -> db_there (w_fs w) ->
    (forall n, In n names -> exists e, lookup (w_fs w) (l ++ [n]) = Some e /\ e <> EDangling) ->
    exists w1, ticked w w1 /\ w_faults w1 = [] /\ filter_names p flt names w = (Done (filter (fun n => kept ex dbl (path_push p n) (l ++ [n])) names), w1).
  Proof.
    induction names as [|n names IH]; intros w F S Db H; cbn [filter_names filter]; [exists w; split; [apply ticked_refl|auto]|].
    destruct (H n (or_introl eq_refl)) as (e & L & Ne).
    destruct (filter_live ex (abs_path dbl) (w_fs w) (w_cwd w) (path_push p n) w (l ++ [n]) e F (here_self w) (stat_push _ _ _ _ _ _ S L) Ne) as (w1 & T1 & F1 & R1).
    { exists dbl, EDir. split; [apply db_stat, Db|discriminate]. }
    rewrite db_locate in R1. destruct (ticked_fs _ _ T1) as [Q1 C1].
    destruct (IH w1 F1) as (w2 & T2 & F2 & R2); [rewrite Q1, C1; exact S|rewrite Q1; exact Db|rewrite Q1; intros m I; apply H; right; exact I|].
    exists w2. split; [eapply ticked_trans; eassumption|]. split; [exact F2|]. unfold bind at 1. rewrite R1. unfold bind at 1. rewrite R2. destruct (kept _ _ _ _); reflexivity.
  Qed.
  Lemma filters_need p l names : forall w r w', stat (w_fs w) (w_cwd w) p = Some (l, EDir) -> filter_names p flt names w = (Done r, w') ->
    forall n, In n names -> lookup (w_fs w) (l ++ [n]) <> Some EDangling.
  Proof.
    induction names as [|m names IH]; intros w r w' S H n I; [destruct I|]. cbn [filter_names] in H. apply bind_done in H as (b & w1 & H1 & H). apply bind_done in H as (rest & w2 & H2 & _).
    unfold filter_fn in H1. apply bind_done in H1 as (c & v1 & A1 & H1). apply bind_done in H1 as (d & v2 & A2 & H1).
    apply unwrap_done, DirPlan.canon_done in A1 as (T1 & e1 & S1 & N1). apply unwrap_done, DirPlan.canon_done in A2 as (T2 & _).
    assert (T3 : v2 = w1) by (destruct (names_prefix d c); apply ret_done in H1 as [_ ->]; reflexivity). subst v2.
    destruct I as [->|I].
    - intro L. rewrite (stat_push _ _ _ _ _ _ S L) in S1. inv S1. congruence.
    - destruct (ticked_fs _ _ (ticked_trans _ _ _ T1 T2)) as [Q C]. rewrite <- Q. eapply (IH w1); [rewrite Q, C; exact S|exact H2|exact I].
  Qed.

  (** *** It is enough *)
  Definition apart (l : loc) : Prop := forall n b, dbl = l ++ n :: b -> b = [].
  Lemma apart_child l n : apart l -> apart (l ++ [n]).
  Proof. intros H m b Q. rewrite <- app_assoc in Q. apply H in Q. discriminate. Qed.
  Lemma len_under l n : ~ under (l ++ [n]) l.
  Proof. intros [r Hr]. apply (f_equal (@length name)) in Hr. rewrite !app_length in Hr. cbn in Hr. lia. Qed.
  Lemma checkout_lives d g : shp d -> forall k p l w, complete d g (as_db_key k) -> points d Item k -> w_faults w = [] -> cur_db w = d -> regular w k -> closed (w_fs w) -> NoDup (map fst (w_fs w)) ->
    ~ In ParentDir (p_comps p) -> p_slash p = false -> resolve (w_fs w) (w_cwd w) p = Some l -> db_there (w_fs w) -> apart l -> ready (w_fs w) w k p l ->
    exists w', checkout_fs_item ds g k p flt w = (Done tt, w') /\ w_faults w' = [] /\ NoDup (map fst (w_fs w')) /\ db_there (w_fs w').
  Proof.
    intro Sh. induction g as [|g IH]; intros k p l w C (o & O & T) F Cu Rg Cl N NP Sl Rs Db Ap Re; [inversion C|]. subst d.
    pose proof (complete_keys (cur_db w) g (as_db_key k) o C O) as K. pose proof (formed _ _ _ Sh O) as Wf. unfold well_formed in Wf. unfold of_role in T.
    destruct (object_get w k o F O) as (w1 & G & F1 & C1). pose proof (get_obj_done _ _ _ _ G) as (T1 & _). destruct (ticked_fs _ _ T1) as [Fs1 Cw1]. rewrite checkout_eq.
    assert (Gi : forall i, fsitem_of_object o = Some i -> get_fsitem ds k w = (Done i, w1)) by (intros i D; unfold get_fsitem; unfold bind at 1; rewrite G, D; reflexivity).
    assert (Ii : forall i, fsitem_of_object o = Some i -> item_at w k i) by (intros i D; exists o; split; [apply reads_object, O|exact D]).
    destruct T as [T|T]; rewrite T in Wf.
    - destruct Wf as (size & c & Ks & Pc & D). rewrite (run_bind _ _ _ _ _ (Gi _ D)). cbn [fi_type].
      apply (ready_file w k _ (Ii _ D)) in Re as [Lk Bl]; [|reflexivity].
      destruct (create_live p w1 l) as (w2 & H2 & F2 & N2 & O2); [exact F1|exact Sl|rewrite Fs1, Cw1; exact Rs|rewrite Fs1; exact Lk|rewrite Fs1; exact N|].
      rewrite (run_bind _ _ _ _ _ H2), Bl. rewrite (run_bind _ _ _ _ _ (eq_refl : ret tt w2 = (Done tt, w2))). unfold write_item_data. cbn [fi_children].
      destruct (read_file_live (cur_db w) g l Sh c) with (w := w2) as (w3 & H3 & F3 & C3 & N3); [apply K; rewrite Ks; left; reflexivity| |exact F2|rewrite (only_cur _ _ O2); exact C1|exact N2|].
      { destruct Pc as (o' & O' & T'). exists o'. split; [exact O'|]. left; exact T'. }
      exists w3. split; [exact H3|]. split; [exact F3|]. split; [exact N3|].
      apply create_done in H2 as (_ & Rl & Lk' & st & Q2). assert (Nl : l <> []) by (intros ->; destruct Lk as [Lk|(? & ? & Lk)]; discriminate).
      apply (read_file l g c w2 w3 [] st) in H3 as (bs & _ & [_ W'] & _); [|exact Nl|rewrite Q2; apply lookup_set_same, Nl].
      intros a b Q. assert (a <> l) by (intros ->; rewrite (Db l b Q) in Lk; destruct Lk as [Lk|(? & ? & Lk)]; discriminate).
      rewrite W', Q2, lookup_set_other by assumption. rewrite Fs1. apply (Db a b Q).
    - destruct Wf as (names & ks & Ks & Pk & D & _). pose proof (Ii _ D) as It. rewrite (run_bind _ _ _ _ _ (Gi _ D)). cbn [fi_type fi_children fi_names].
      destruct (Rg k _ (eo_refl w k) It eq_refl) as (Pn & Nd & Len). cbn [fi_names fi_children] in Pn, Nd, Len.
      apply (ready_dir w k _ Rg It) in Re as (Ld & Dg & Xb & Kids); [|reflexivity]. cbn [fi_children fi_names] in Xb, Kids.
      assert (St : stat (w_fs w) (w_cwd w) p = Some (l, EDir)) by (unfold stat; rewrite Rs, Ld; reflexivity).
      destruct (read_dir_live p w1 l F1) as (w2 & T2 & F2 & R2); [rewrite Fs1, Cw1; exact St|]. rewrite Fs1 in R2. rewrite (run_bind _ _ _ _ _ R2).
      destruct (ticked_fs _ _ T2) as [Fs2 Cw2]. rewrite Fs1 in Fs2. rewrite Cw1 in Cw2.
      destruct (filters_live p l (children (w_fs w) l) w2 F2) as (w3 & T3 & F3 & R3); [rewrite Fs2, Cw2; exact St|rewrite Fs2; exact Db| |].
      { rewrite Fs2. intros n I. apply child_lookup in I as [e L]. exists e. split; [exact L|]. intros ->. exact (Dg n L). }
      cbn iota beta. rewrite (run_bind _ _ _ _ _ R3). rewrite (run_bind _ _ _ _ _ (eq_refl : ret tt w3 = (Done tt, w3))).
      destruct (ticked_fs _ _ T3) as [Fs3 Cw3]. rewrite Fs2 in Fs3. rewrite Cw2 in Cw3.
      set (L := filter (fun n => negb (name_stored names n)) (filter (fun n => kept ex dbl (path_push p n) (l ++ [n])) (children (w_fs w) l))).
      assert (InL : forall n, In n L <-> (exists e, lookup (w_fs w) (l ++ [n]) = Some e) /\ ~ excluded ex dbl p l [n] /\ ~ In n names).
      { intro n. unfold L. rewrite !filter_In, negb_true_iff, kept_false.
        assert (X : name_stored names n = false <-> ~ In n names) by (rewrite <- (name_stored_iff _ n Pn); destruct (name_stored names n); split; congruence).
        rewrite X. split; [intros [[A B] Z]; split; [apply child_lookup, A|auto]|intros [[e A] [B Z]]; split; [split; [eapply lookup_child, A|exact B]|exact Z]]. }
      destruct (remove_live p l L w3 F3 NP) as (w4 & R4 & F4 & N4).
      { rewrite Fs3, Cw3. exact Rs. }
      { rewrite Fs3. exact Ld. }
      { rewrite Fs3. exact N. }
      { unfold L. apply NoDup_filter, NoDup_filter, children_nodup, N. }
      { intro Ne. destruct L as [|n L'] eqn:QL; [congruence|]. destruct (proj1 (InL n) (or_introl eq_refl)) as ((e & Le) & Nx & Ni). exact (Xb n e Ni Le Nx). }
      { intros n I. rewrite Fs3. apply InL in I as ((e & Le) & _). exists e. split; [exact Le|]. intros ->. exact (Dg n Le). }
      fold L. rewrite (run_bind _ _ _ _ _ R4). pose proof R4 as R4'. apply (remove_done p l) in R4' as (O4 & Rm); [|exact NP|rewrite Fs3, Cw3; exact Rs|rewrite Fs3; exact Ld]. rewrite Fs3 in Rm.
      assert (O14 : fs_only w w4).
      { eapply fs_only_trans; [apply ticked_only, T1|]. eapply fs_only_trans; [apply ticked_only, T2|]. eapply fs_only_trans; [apply ticked_only, T3|exact O4]. }
      pose proof Rm as (Rm1 & Rm2 & Rm3).
      assert (Db4 : db_there (w_fs w4)).
      { intros a b Q. rewrite Rm3; [apply (Db a b Q)|]. intros n I _ [r ->]. rewrite <- !app_assoc in Q. cbn [app] in Q. pose proof (Ap n _ Q) as Z. apply app_eq_nil in Z as [-> ->].
        apply InL in I as (_ & Nx & _). apply Nx. left. exists []. rewrite app_nil_r. symmetry. exact Q. }
      assert (Cl4 : closed (w_fs w4)) by (eapply removes_closed; eassumption).
      assert (Ul := len_under l).
      assert (Ld4 : lookup (w_fs w4) l = Some EDir) by (rewrite Rm3; [exact Ld|intros n _ _; apply Ul]).
      assert (Out4 : forall x, ~ under l x -> lookup (w_fs w4) x = lookup (w_fs w) x) by (intros x U; apply Rm3; intros n _ _ U'; apply U; eapply under_down, U').
      assert (Kid4 : forall c n r, In (c, n) (combine ks names) -> lookup (w_fs w4) (l ++ n :: r) = lookup (w_fs w) (l ++ n :: r)).
      { intros c n r I. apply Rm3. intros m J _ U. apply under_kids in U. subst m. apply InL in J as (_ & _ & J). apply J. eapply in_combine_r, I. }
      assert (Sub : forall c n, In (c, n) (combine ks names) -> In (c, n) (combine ks names)) by auto.
      assert (Ndc : NoDup (map snd (combine ks names))) by (rewrite combine_snd by (symmetry; exact Len); exact Nd).
      rewrite Ks in K. clear R2 R3 R4 T1 T2 T3 G O4 Rm Rm1 Rm2 Rm3 InL Xb. clearbody L.
      revert w4 F4 N4 O14 Db4 Cl4 Ld4 Out4 Kid4 Sub Ndc. generalize (combine ks names) at 1 2 4 5 as cs. induction cs as [|[c n] cs IHc]; intros w4 F4 N4 O14 Db4 Cl4 Ld4 Out4 Kid4 Sub Ndc; cbn [co_each].
      + exists w4. auto.
      + assert (R4 : resolve (w_fs w4) (w_cwd w4) p = Some l).
        { rewrite (only_cwd _ _ O14). apply (resolve_keep (w_fs w)); auto. congruence. }
        destruct (mkdir_live p w4 l F4 R4 Ld4) as (w5 & R5 & F5 & Fs5 & O5). rewrite (run_bind _ _ _ _ _ R5). pose proof (fs_only_trans _ _ _ O14 O5) as O15.
        assert (I0 := Sub c n (or_introl eq_refl)).
        assert (En : entry_name n) by (rewrite Forall_forall in Pn; apply Pn; eapply in_combine_r, I0).
        rewrite join_plain by exact En.
        assert (R5' : resolve (w_fs w5) (w_cwd w5) (path_push p n) = Some (l ++ [n])).
        { rewrite Fs5, (only_cwd _ _ O5). apply resolve_push; [exact R4|apply is_dir_iff, Ld4]. }
        assert (NPn : ~ In ParentDir (p_comps (path_push p n))) by (cbn [path_push p_comps]; intro I; apply in_app_or in I as [I|[I|[]]]; [exact (NP I)|discriminate]).
        assert (Rg5 : regular w5 c) by (apply (regular_cur w); [apply only_cur, O15|]; eapply regular_child; eauto; eapply in_combine_l, I0).
        destruct (IH c (path_push p n) (l ++ [n]) w5) as (w6 & R6 & F6 & N6 & Db6); auto.
        { apply K. eapply in_combine_l, I0. }
        { rewrite Forall_forall in Pk. apply Pk. eapply in_combine_l, I0. }
        { apply only_cur, O15. }
        { rewrite Fs5. exact Cl4. }
        { rewrite Fs5. exact N4. }
        { rewrite Fs5. exact Db4. }
        { apply apart_child, Ap. }
        { apply (ready_ext (w_fs w) (w_fs w5) w w5); [apply only_cur, O15| |apply Kids, I0]. intros x [r ->]. rewrite Fs5, <- app_assoc. apply (Kid4 c n r). left. reflexivity. }
        rewrite (run_bind _ _ _ _ _ R6). apply checkout_done in R6 as (O6 & Cl6 & Out6 & _); [|exact Rg5|rewrite Fs5; exact Cl4|exact NPn].
        rewrite <- (resolve_locate _ _ _ _ R5'), Fs5 in Out6. cbn [map snd] in Ndc. apply NoDup_cons_iff in Ndc as [Nn Ndc].
        apply IHc; auto.
        * eapply fs_only_trans; eassumption.
        * rewrite Out6 by apply Ul. exact Ld4.
        * intros x U. rewrite Out6; [apply Out4, U|]. intro U'. apply U. eapply under_down, U'.
        * intros c' m r I. rewrite Out6; [apply (Kid4 c' m r); right; exact I|]. intro U. apply under_kids in U. subst m. apply Nn. apply in_map_iff. exists (c', n). auto.
        * intros c' m I. apply Sub. right. exact I.
  Qed.

  (** *** It is needed *)
  Lemma checkout_needs g : forall k p w w', regular w k -> closed (w_fs w) -> ~ In ParentDir (p_comps p) ->
    checkout_fs_item ds g k p flt w = (Done tt, w') -> ready (w_fs w) w k p (locate (w_cwd w) p).
  Proof.
    induction g as [|g IH]; intros k p w w' Rg Cl NP H; [discriminate|]. set (l := locate (w_cwd w) p). rewrite checkout_eq in H.
    apply bind_done in H as (i & w1 & G & H). pose proof (get_fsitem_item _ _ _ _ G) as It. apply db_item_iff in It.
    apply get_fsitem_done in G as (T1 & _). destruct (ticked_fs _ _ T1) as [F1 C1]. pose proof (ticked_only _ _ T1) as O1.
    destruct (fi_type i) eqn:Ty.
    - apply bind_done in H as ([names err] & w2 & H2 & H). apply read_dir_done in H2 as (T2 & x & S2 & R2).
      rewrite F1, C1 in S2. pose proof S2 as S2'. apply stat_locate in S2' as (-> & Ld & Rs). fold l in S2, R2, Ld, Rs.
      destruct (ticked_fs _ _ T2) as [F2 C2]. rewrite F1 in F2. rewrite C1 in C2. rewrite F1 in R2.
      apply bind_done in H as (items & w3 & H3 & H). apply bind_done in H as ([] & w4 & H4 & H). destruct err; [discriminate|].
      apply ret_done in H4 as [_ ->]. destruct R2 as [R2|[n R2]]; inv R2.
      assert (Dg : forall n, lookup (w_fs w) (l ++ [n]) <> Some EDangling).
      { intros n Q. rewrite <- F2 in S2. rewrite <- C2 in S2. refine (filters_need p l _ _ _ _ S2 H3 n _ _); [eapply lookup_child, Q|rewrite F2; exact Q]. }
      apply (filter_names_done ex (abs_path dbl) p l) in H3 as (T3 & ->); [|rewrite F2, C2; exact S2|rewrite F2; intros n I; apply child_lookup, I].
      destruct (ticked_fs _ _ T3) as [F3 C3]. rewrite F2 in F3. rewrite C2 in C3. rewrite db_locate in H.
      apply bind_done in H as ([] & w5 & H5 & H).
      set (L := filter (fun n => negb (name_stored (fi_names i) n)) (filter (fun n => kept ex dbl (path_push p n) (l ++ [n])) (children (w_fs w) l))) in *.
      destruct (Rg k i (eo_refl w k) It Ty) as (Pn & Nd & Len).
      assert (InL : forall n, In n L <-> (exists e, lookup (w_fs w) (l ++ [n]) = Some e) /\ ~ excluded ex dbl p l [n] /\ ~ In n (fi_names i)).
      { intro n. unfold L. rewrite !filter_In, negb_true_iff, kept_false.
        assert (X : name_stored (fi_names i) n = false <-> ~ In n (fi_names i)) by (rewrite <- (name_stored_iff _ n Pn); destruct (name_stored (fi_names i) n); split; congruence).
        rewrite X. split; [intros [[A B] Z]; split; [apply child_lookup, A|auto]|intros [[e A] [B Z]]; split; [split; [eapply lookup_child, A|exact B]|exact Z]]. }
      assert (Xb : forall n e, ~ In n (fi_names i) -> lookup (w_fs w) (l ++ [n]) = Some e -> ~ excluded ex dbl p l [n] -> starts_with p blessed = true).
      { intros n e N Le Nx. assert (J : In n L) by (apply InL; eauto). destruct L as [|m L']; [destruct J|]. cbn [remove_extra] in H5. destruct (starts_with p blessed); [reflexivity|discriminate]. }
      apply (remove_done p l) in H5 as (O5 & Rm); [|exact NP|rewrite F3, C3; exact Rs|rewrite F3; exact Ld].
      rewrite F3 in Rm. pose proof Rm as (Rm1 & Rm2 & Rm3).
      assert (O15 : fs_only w w5).
      { eapply fs_only_trans; [exact O1|]. eapply fs_only_trans; [apply ticked_only, T2|]. eapply fs_only_trans; [apply ticked_only, T3|exact O5]. }
      apply (ready_dir w k i Rg It); [exact Ty|]. split; [exact Ld|]. split; [exact Dg|]. split; [exact Xb|].
      assert (Ul := len_under l).
      assert (Cl5 : closed (w_fs w5)) by (eapply removes_closed; eassumption).
      assert (Ld5 : lookup (w_fs w5) l = Some EDir) by (rewrite Rm3; [exact Ld|intros n _ _; apply Ul]).
      assert (Out5 : forall x, ~ under l x -> lookup (w_fs w5) x = lookup (w_fs w) x) by (intros x U; apply Rm3; intros n _ _ U'; apply U; eapply under_down, U').
      assert (Kid5 : forall c n r, In (c, n) (combine (fi_children i) (fi_names i)) -> lookup (w_fs w5) (l ++ n :: r) = lookup (w_fs w) (l ++ n :: r)).
      { intros c n r I. apply Rm3. intros m J _ U. apply under_kids in U. subst m. apply InL in J as (_ & _ & J). apply J. eapply in_combine_r, I. }
      assert (Sub : forall c n, In (c, n) (combine (fi_children i) (fi_names i)) -> In (c, n) (combine (fi_children i) (fi_names i))) by auto.
      assert (Ndc : NoDup (map snd (combine (fi_children i) (fi_names i)))) by (rewrite combine_snd by (symmetry; exact Len); exact Nd).
      clear Rm1 Rm2 Rm3 Rm InL Xb Dg. clearbody L.
      revert w5 H O15 Cl5 Ld5 Out5 Kid5 Sub Ndc O5. generalize (combine (fi_children i) (fi_names i)) at 1 2 3 5 6 as cs. induction cs as [|[c n] cs IHc]; intros w5 H O15 Cl5 Ld5 Out5 Kid5 Sub Ndc O5; cbn [co_each] in H; [intros ? ? []|].
      apply bind_done in H as ([] & w6 & H6 & H). apply bind_done in H as ([] & w7 & H7 & H8).
      assert (R5 : resolve (w_fs w5) (w_cwd w5) p = Some l).
      { rewrite (only_cwd _ _ O15). apply (resolve_keep (w_fs w)); auto. congruence. }
      destruct (mkdir_noop _ _ _ _ R5 Ld5 H6) as [O6 Fs6]. pose proof (fs_only_trans _ _ _ O15 O6) as O16.
      assert (I0 := Sub c n (or_introl eq_refl)).
      assert (En : entry_name n) by (rewrite Forall_forall in Pn; apply Pn; eapply in_combine_r, I0).
      rewrite join_plain in H7 by exact En.
      assert (NPn : ~ In ParentDir (p_comps (path_push p n))) by (cbn [path_push p_comps]; intro I; apply in_app_or in I as [I|[I|[]]]; [exact (NP I)|discriminate]).
      assert (Rg6 : regular w6 c) by (apply (regular_cur w); [apply only_cur, O16|]; eapply regular_child; eauto; eapply in_combine_l, I0).
      assert (Cl6 : closed (w_fs w6)) by (rewrite Fs6; exact Cl5).
      pose proof (IH c (path_push p n) w6 w7 Rg6 Cl6 NPn H7) as Re. apply checkout_done in H7 as (O7 & Cl7 & Out7 & _); [|exact Rg6|exact Cl6|exact NPn].
      rewrite (only_cwd _ _ O16), locate_push in Re, Out7. fold l in Re, Out7. rewrite Fs6 in Re, Out7.
      cbn [map snd] in Ndc. apply NoDup_cons_iff in Ndc as [Nn Ndc].
      intros c' m [I|I].
      + inv I. apply (ready_ext (w_fs w5) (w_fs w) w6 w); [symmetry; apply only_cur, O16| |exact Re]. intros x [r ->]. rewrite <- app_assoc. symmetry. apply (Kid5 c' m r). left. reflexivity.
      + apply (IHc w7 H8); auto.
        * eapply fs_only_trans; eassumption.
        * rewrite Out7 by apply Ul. exact Ld5.
        * intros x U. rewrite Out7; [apply Out5, U|]. intro U'. apply U. eapply under_down, U'.
        * intros c0 m0 r I'. rewrite Out7; [apply (Kid5 c0 m0 r); right; exact I'|]. intro U. apply under_kids in U. subst m0. apply Nn. apply in_map_iff. exists (c0, n). auto.
        * intros c0 m0 I'. apply Sub. right. exact I'.
        * eapply fs_only_trans; [exact O5|]. eapply fs_only_trans; eassumption.
    - apply bind_done in H as (x & w2 & H2 & H). apply create_done in H2 as (O2 & Rs & Lk & st & F2). rewrite F1, C1 in Rs. rewrite F1 in Lk, F2.
      pose proof (resolve_locate _ _ _ _ Rs) as Hx. fold l in Hx. subst x.
      apply bind_done in H as ([] & w3 & H3 & H). apply (ready_file w k i It); [exact Ty|]. split; [exact Lk|]. destruct (starts_with p blessed); [reflexivity|discriminate].
  Qed.
  End Ready.
End LiveCheckout.
