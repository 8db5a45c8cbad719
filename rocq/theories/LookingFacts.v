(** How comparing files with a tree ends. *)
From Coq Require Import RelationClasses.
From Verif Require Import Base BaseFacts TableFacts Key KeyFacts Keyish Cbor CborFacts Object ObjectFacts Path World WorldFacts Store File Filter Dir Diff Commit Main SpecStore StoreCalls SpecRun SpecProc SpecCmd SpecFile SpecDir SpecCache SpecDiff SpecShape SpecLive SpecStoring SpecLooking
  SpecClosure Closure Frame DbRel Integrity StoreFacts ProcFacts InitFacts ObjStoreFacts SessionFacts FilePlan FileFacts ChunkFacts FileRun FsFacts DirPlan DirFacts GetFacts DirTrip FetchSafe DirTree DirWalk WalkFacts DirLive CacheFacts HashFacts CompareFacts DiffFacts CheckoutFacts
  Reader SpecPatch SpecShow SpecOut SpecText CmdFacts OutFacts SnapFacts ShowFacts ShapeFacts ShapeTop LiveFacts LiveDiff LiveCmd LiveStart FatalFacts FatalCmd SparedFacts PanicFacts StoringFacts.

Section LookingFacts.
  Context {E : Env}.
  Notation ds := sqlite_ds.

  Section Walk.
    Context (ex : list bytes) (db : path) (f : fs) (cwd : loc) (base : path).
    Hypothesis Db : exists l e', stat f cwd db = Some (l, e') /\ e' <> EDangling.
    Notation dbl := (locate cwd db).
    Definition warns (p : path) (l : loc) (fuel : nat) {A} (x : outcome A * world) : Prop :=
      match x with
      | (Done a, w') => w_faults w' = [] /\ here f cwd w'
      | (Error _, _) => strange ex dbl f p l
      | (Panicked _, _) => nowhere ex dbl f p l
      | (Diverged, _) => exists r e, lookup f (l ++ r) = Some e /\ fuel <= length r
      | (Crashed, _) => False
      end.
    Lemma warns_child p l n g {A} (x : outcome A * world) : ~ excluded ex dbl p l [n] -> warns (path_push p n) (l ++ [n]) g x -> warns p l (S g) x.
    Proof.
      intros X H. destruct x as [[a|e|pa| |] w']; cbn in *; try exact H.
      - destruct H as (r & L & I). exists (n :: r). rewrite <- app_assoc in L. split; [exact L|apply included_down; assumption].
      - destruct H as (r & L & I). exists (n :: r). rewrite <- app_assoc in L. split; [exact L|apply reached_down; assumption].
      - destruct H as (r & e & L & Le). exists (n :: r), e. rewrite <- app_assoc in L. split; [exact L|]. cbn. lia.
    Qed.
    Lemma walk_warns : forall fuel r w l e pp, w_faults w = [] -> here f cwd w ->
      p_abs pp = p_abs base -> p_comps pp = p_comps base ++ map Normal r ->
      stat f cwd (join base (rel_path r)) = Some (l, e) -> e <> EDangling ->
      warns pp l fuel (internal_walk_real_fs_items fuel base (rel_path r) (filter_fn ex db) w).
    Proof using Db.
      induction fuel as [|g IH]; intros r w l e pp F Hw Ea Ec S Ne; destruct (stat_locate _ _ _ _ _ S) as (_ & L & _).
      { cbn. exists [], e. rewrite app_nil_r. split; [exact L|cbn; lia]. }
      cbn [internal_walk_real_fs_items]. unfold fs_metadata at 1.
      assert (exists mt, meta_of e = Some mt) as [mt Mt] by (destruct e; cbn; eauto; congruence).
      match goal with |- context [bind (fs_query ?q)] => destruct (query_live q w mt F) as (w1 & T1 & F1 & Qm) end.
      { destruct Hw as [-> ->]. rewrite S. exact Mt. }
      rewrite (run_bind _ _ _ _ _ Qm). clear Qm.
      pose proof (here_ticked _ _ _ _ Hw T1) as Hw1. destruct e as [|c st| |]; inv Mt.
      - destruct (read_dir_live (join base (rel_path r)) w1 l F1) as (w2 & T2 & F2 & Qr); [destruct Hw1 as [-> ->]; exact S|].
        rewrite (run_bind _ _ _ _ _ Qr). clear Qr. rewrite (proj1 Hw1). pose proof (here_ticked _ _ _ _ Hw1 T2) as Hw2.
        match goal with |- context [bind ?a _] => change a with (real_each g base (rel_path r) (filter_fn ex db) (children f l) (if is_empty_path (rel_path r) then [] else [(rel_path r, true)])) end.
        destruct (join_rel base r) as [Ja Jc].
        assert (K : forall names acc w2, incl names (children f l) -> w_faults w2 = [] -> here f cwd w2 ->
          warns pp l (Datatypes.S g) (real_each g base (rel_path r) (filter_fn ex db) names acc w2)).
        { clear -IH S Db Ja Jc Ea Ec. induction names as [|n names IHn]; intros acc w2 I2 F2 Hw2; cbn [real_each].
          - cbn. auto.
          - destruct (child_lookup f l n) as [e Le]; [apply I2; left; reflexivity|]. pose proof (stat_push _ _ _ _ _ _ S Le) as Sn.
            assert (Dk : e = EDangling \/ e <> EDangling) by (destruct e; [right; discriminate|right; discriminate|right; discriminate|left; reflexivity]). destruct Dk as [->|Ne].
            { destruct (filter_dangling ex db f cwd _ _ _ F2 Hw2 Sn) as (pa & w' & Q). unfold bind. rewrite Q. cbn. exists [n]. split; [exact Le|apply reached_one]. }
            destruct (filter_live ex db f cwd (path_push (join base (rel_path r)) n) w2 _ _ F2 Hw2 Sn Ne Db) as (u & T & Fu & Q). rewrite (run_bind _ _ _ _ _ Q).
            pose proof (here_ticked _ _ _ _ Hw2 T) as Hu. assert (In' : incl names (children f l)) by (intros x Hx; apply I2; right; exact Hx).
            assert (Pp : path_push (join base (rel_path r)) n = path_push pp n) by (apply push_same; congruence).
            destruct (kept ex dbl (path_push (join base (rel_path r)) n) (l ++ [n])) eqn:Kp; [|apply IHn; auto].
            rewrite Pp in Kp. apply kept_false in Kp.
            assert (Er : path_push (rel_path r) n = rel_path (r ++ [n])) by (unfold path_push, rel_path; cbn; rewrite map_app; reflexivity). rewrite Er.
            assert (Sj : stat f cwd (join base (rel_path (r ++ [n]))) = Some (l ++ [n], e)) by (rewrite <- Sn; f_equal; apply join_push).
            assert (Ec' : p_comps (path_push pp n) = p_comps base ++ map Normal (r ++ [n])) by (cbn; rewrite Ec, map_app, app_assoc; reflexivity).
            pose proof (warns_child pp l n g _ Kp (IH (r ++ [n]) u _ _ (path_push pp n) Fu Hu Ea Ec' Sj Ne)) as X. unfold bind at 1.
            destruct (internal_walk_real_fs_items g base (rel_path (r ++ [n])) (filter_fn ex db) u) as [[k|e0|pa| |] u1]; try exact X. cbn in X. destruct X as (Fu1 & Hu1). apply IHn; auto. }
        specialize (K (children f l) (if is_empty_path (rel_path r) then [] else [(rel_path r, true)]) w2 (incl_refl _) F2 Hw2). unfold bind at 1.
        destruct (real_each g base (rel_path r) (filter_fn ex db) (children f l) (if is_empty_path (rel_path r) then [] else [(rel_path r, true)]) w2) as [[m|e0|pa| |] w3]; exact K.
      - cbn. auto.
      - cbn. exists []. rewrite app_nil_r. split; [exact L|apply included_nil].
    Qed.
  End Walk.

  (** *** The rest *)
  Lemma mapM_ends {A B} (Inv : world -> Prop) (Q : Prop) (f : A -> M B) : forall l,
    (forall x u, In x l -> Inv u -> (exists y u', f x u = (Done y, u') /\ Inv u') \/ (exists p u', f x u = (Panicked p, u')) /\ Q) ->
    forall u, Inv u -> (exists ys u', mapM f l u = (Done ys, u') /\ Inv u') \/ (exists p u', mapM f l u = (Panicked p, u')) /\ Q.
  Proof.
    induction l as [|x l IH]; intros Step u I; cbn [mapM]; [left; eexists _, _; split; [reflexivity|exact I]|].
    destruct (Step x u (or_introl eq_refl) I) as [(y & u1 & Q1 & I1)|[(p & u1 & Q1) H]]; [|right; split; [unfold bind; rewrite Q1; eauto|exact H]]. rewrite (run_bind _ _ _ _ _ Q1).
    destruct (IH (fun x u H => Step x u (or_intror H)) u1 I1) as [(ys & u2 & Q2 & I2)|[(p & u2 & Q2) H]]; [rewrite (run_bind _ _ _ _ _ Q2); left; eexists _, _; split; [reflexivity|exact I2]|].
    right. split; [unfold bind; rewrite Q2; eauto|exact H].
  Qed.
  Lemma hash_misses p u f cwd : w_faults u = [] -> here f cwd u -> (forall l c st, stat f cwd p <> Some (l, EFile c st)) -> exists e u', hash_fs_item ds p u = (Error e, u').
  Proof.
    intros F [Hf Hc] N. unfold hash_fs_item, bind, fs_metadata, fs_query. match goal with |- context [op ?e u] => destruct (op_live e u F) as (w1 & T & F1 & ->) end.
    destruct (ticked_fs _ _ T) as [-> ->]. rewrite Hf, Hc. destruct (stat f cwd p) as [[l e]|] eqn:S; [|eexists _, _; reflexivity]. destruct e as [|c st| |]; cbn; try (eexists _, _; reflexivity). destruct (N l c st eq_refl).
  Qed.
  Lemma tail_ends p ex fo w to src to_map u : fs_lists ex fo p w src -> lists w to to_map -> moderate (w_fs w) -> fs_ok (w_fs w) ->
    calm_at (w_fs w) (w_cwd w) u -> directory w p -> listable ex (locate (w_cwd w) fo) (w_fs w) p (locate (w_cwd w) p) stack ->
    (exists r u', compare_tail (inl (p, src)) to_map u = (Done r, u')) \/
    (exists pa u', compare_tail (inl (p, src)) to_map u = (Panicked pa, u')) /\ (lost ex fo p w to \/ astray ex fo p w to).
  Proof.
    intros L L' Mo O Cu (l & S) Li. pose proof (locate_found _ _ _ _ _ S) as El.
    assert (Kind : forall x e, on_disk ex fo p w x e -> e = EDir \/ exists c st, e = EFile c st).
    { intros x e (N & Lk & I). destruct (Li _ _ Lk) as [_ K]; [intros r1 r2 Q N1 _; eapply I; eassumption|]. apply K, I. }
    unfold compare_tail. cbn [src_keys].
    destruct (mapM_ends (calm_at (w_fs w) (w_cwd w)) (astray ex fo p w to) (f_added (inl (p, src))) (filter (fun x => negb (pmem (map fst to_map) x)) (map fst src))) with (u := u) as [(added & u1 & Q1 & C1)|[(pa & u1 & Q1) H]]; [|exact Cu| |].
    { intros q v I Cv. apply filter_In in I as [I Nm]. apply negb_true_iff in Nm. apply (fs_keys _ _ _ _ _ _ L) in I as (x & e & -> & D).
      unfold f_added, pm_index. rewrite (fs_listed _ _ _ _ _ _ _ L D).
      rewrite (run_bind _ _ _ _ _ (eq_refl : ret _ v = (Done _, v))). destruct (Kind _ _ D) as [->|(c & st & ->)]; pose proof D as (N & Lk & _).
      - assert (is_dir (w_fs w) (locate (w_cwd w) p ++ x) = true) as -> by (unfold is_dir; rewrite Lk; reflexivity). left. eexists _, _. split; [reflexivity|exact Cv].
      - assert (is_dir (w_fs w) (locate (w_cwd w) p ++ x) = false) as -> by (unfold is_dir; rewrite Lk; reflexivity).
        assert (Dc : found_here w x \/ forall l c st, stat (w_fs w) (w_cwd w) (named x) <> Some (l, EFile c st)).
        { unfold found_here. destruct (stat (w_fs w) (w_cwd w) (named x)) as [[l1 e1]|]; [|right; discriminate]. destruct e1 as [|c1 st1| |]; [right; intros; discriminate|left; eauto|right; intros; discriminate|right; intros; discriminate]. }
        destruct Dc as [(l1 & c1 & st1 & S1)|No].
        + destruct (hash_live _ _ _ _ _ _ _ Cv Mo S1) as (k & v1 & Q & C1). unfold try. unfold bind at 1. rewrite Q. left. eexists _, _. split; [reflexivity|exact C1].
        + destruct Cv as (Fv & Hv & _). destruct (hash_misses _ _ _ _ Fv Hv No) as (e & v1 & Q). right. split; [unfold try, bind; rewrite Q; eexists _, _; reflexivity|].
          exists x, c, st. split; [exact D|]. split; [apply (lists_nomem _ _ _ _ L'), Nm|]. intros (l1 & c1 & st1 & S1). exact (No _ _ _ S1). }
    2:{ right. split; [unfold bind; rewrite Q1; eauto|right; exact H]. }
    rewrite !(run_bind _ _ _ _ _ Q1). change (filter (fun x => negb (pmem (map fst src) x)) (map fst to_map)) with (gone (inl (p, src)) to_map).
    pose proof (gone_panics (inl (p, src)) to_map u1) as Gp. destruct (gone (inl (p, src)) to_map) as [|q qs] eqn:Gone.
    2:{ right. split; [unfold bind; rewrite Gp; eauto|]. left. assert (I : In q (gone (inl (p, src)) to_map)) by (rewrite Gone; left; reflexivity). apply filter_In in I as [I Nm].
        apply (lists_keys _ _ _ _ L') in I as (x & k & d & -> & T). exists x, k, d. split; [exact T|]. intros e D. cbn [src_keys] in Nm. rewrite pmem_in in Nm; [discriminate|]. apply (fs_keys _ _ _ _ _ _ L). eauto. }
    rewrite !(run_bind _ _ _ _ _ Gp).
    destruct (mapM_live (calm_at (w_fs w) (w_cwd w)) (f_modified (inl (p, src)) to_map) (filter (pmem (map fst to_map)) (map fst src))) with (u := u1) as (mods & u2 & Q2 & C2); [|exact C1|].
    { intros q v I Cv. apply filter_In in I as [I Nm]. apply (fs_keys _ _ _ _ _ _ L) in I as (x & e & -> & D).
      unfold f_modified, pm_index. rewrite (fs_listed _ _ _ _ _ _ _ L D).
      apply (lists_mem _ _ _ _ L') in Nm as (k & d & T). apply (lists_get _ _ _ _ _ _ L') in T. rewrite T.
      destruct (Kind _ _ D) as [->|(c & st & ->)]; pose proof D as (N & Lk & _).
      - assert (is_dir (w_fs w) (locate (w_cwd w) p ++ x) = true) as -> by (unfold is_dir; rewrite Lk; reflexivity). eexists _, _. split; [reflexivity|exact Cv].
      - assert (is_dir (w_fs w) (locate (w_cwd w) p ++ x) = false) as -> by (unfold is_dir; rewrite Lk; reflexivity).
        subst l. pose proof (stat_below_disk _ _ _ _ _ _ S (fs_ok_closed _ O) N Lk) as S1.
        destruct (hash_live _ _ _ _ _ _ _ Cv Mo S1) as (h & v1 & Q & C2). unfold bind, ret. rewrite Q. destruct (key_eqb h (fst (k, d))); eexists _, _; (split; [reflexivity|exact C2]). }
    left. rewrite (run_bind _ _ _ _ _ Q2). eexists _, _. reflexivity.
  Qed.
  (** How [compare] ends, for a directory. *)
  Definition ends_so (ex : list bytes) (fo p : path) (w : world) (to : option key) {A} (x : outcome A * world) : Prop :=
    match x with
    | (Done _, w') => True
    | (Error _, _) => strange ex (locate (w_cwd w) fo) (w_fs w) p (locate (w_cwd w) p)
    | (Panicked _, _) => nowhere ex (locate (w_cwd w) fo) (w_fs w) p (locate (w_cwd w) p) \/ lost ex fo p w to \/ astray ex fo p w to
    | _ => False
    end.
  Lemma compare_ends p ex fo to w : at_rest w -> is_there w fo -> forallb glob_valid ex = true -> tidy_of w to -> walkable_of w to -> directory w p -> shallow (w_fs w) (locate (w_cwd w) p) ->
    ends_so ex fo p w to (compare ds (TFileSystem p ex fo) to w).
  Proof.
    intros [(F & O & Mo) Cr] Th G Tt Wt Di Sw. rewrite compare_eq. pose proof Di as (l & S). pose proof (locate_found _ _ _ _ _ S) as ->.
    assert (Sb : stat (w_fs w) (w_cwd w) (join p (rel_path [])) = Some (locate (w_cwd w) p, EDir)) by (change (rel_path []) with path_empty; rewrite stat_base, S; reflexivity).
    pose proof (walk_warns ex fo (w_fs w) (w_cwd w) p (there_db _ _ Th) stack [] w _ EDir p F (here_self w) eq_refl (proj2 (walk_base p)) Sb ltac:(discriminate)) as Wn.
    assert (Q : compare_src (TFileSystem p ex fo) w = match internal_walk_real_fs_items stack p (rel_path []) (filter_fn ex fo) w with (Done m, w1) => (Done (inl (p, m)), w1) | (Error e, w1) => (Error e, w1) | (Panicked pa, w1) => (Panicked pa, w1) | (Crashed, w1) => (Crashed, w1) | (Diverged, w1) => (Diverged, w1) end).
    { cbn [compare_src]. unfold make_filter_fn. rewrite G. unfold bind, ret, walk_real_fs_items. change path_empty with (rel_path []). destruct (internal_walk_real_fs_items stack p (rel_path []) (filter_fn ex fo) w) as [[m|e|pa| |] w1]; reflexivity. }
    destruct (internal_walk_real_fs_items stack p (rel_path []) (filter_fn ex fo) w) as [[m0|e|pa| |] w1] eqn:Wk; cbn in Wn.
    - destruct Wn as [F1 _]. destruct (src_needs _ _ _ _ _ _ O Q) as (_ & _ & Li). destruct (src_lists _ _ _ _ _ _ O Q) as (T1 & m & Eq & L). injection Eq as ->.
      assert (exists m' w2, compare_to to w1 = (Done m', w2) /\ w_faults w2 = []) as (m' & w2 & H2 & F2).
      { destruct to as [k|]; [|eexists _, _; split; [reflexivity|exact F1]]. destruct (walkable_gives _ _ Wt) as (m' & Gv).
        destruct Gv as (o & Gv). destruct (Gv w1 F1 (cur_ticked _ _ T1)) as (w2 & Q2 & _ & F2). eexists _, _. split; [exact Q2|exact F2]. }
      destruct (to_lists w to w1 m' w2 (cur_ticked _ _ T1) Tt H2) as [T2 L'].
      assert (Cu : calm_at (w_fs w) (w_cwd w) w2).
      { apply (LiveDiff.calm_ticked _ _ w); [|eapply ticked_trans; eassumption|exact F2]. split; [exact F|]. split; [apply here_self|exact Cr]. }
      rewrite (run_bind _ _ _ _ _ Q), (run_bind _ _ _ _ _ H2).
      destruct (tail_ends _ _ _ _ _ _ _ _ L L' Mo O Cu Di Li) as [(r & u' & ->)|[(pa & u' & ->) H]]; cbn; auto.
    - unfold bind. rewrite Q. exact Wn.
    - unfold bind. rewrite Q. cbn. auto.
    - contradiction.
    - destruct Wn as (r & e & Lk & Le). specialize (Sw _ _ Lk). lia.
  Qed.
  Lemma compare_misses p ex fo to w g : w_faults w = [] -> forallb glob_valid ex = true -> stack = S g -> ~ directory w p -> exists e w', compare ds (TFileSystem p ex fo) to w = (Error e, w').
  Proof.
    intros F G Sg N. rewrite compare_eq. cbn [compare_src]. unfold make_filter_fn. rewrite G. unfold walk_real_fs_items. rewrite Sg. cbn [internal_walk_real_fs_items]. unfold bind, ret, fs_metadata, fs_query.
    match goal with |- context [op ?e w] => destruct (op_live e w F) as (w1 & T & F1 & ->) end. destruct (ticked_fs _ _ T) as [-> ->].
    rewrite stat_base. destruct (stat (w_fs w) (w_cwd w) p) as [[l [| | |]]|] eqn:S; try (eexists _, _; reflexivity). destruct N. exists l. exact S.
  Qed.
  Lemma ends_alike ex fo p w v to {A} (x : outcome A * world) : cur_db v = cur_db w -> w_fs v = w_fs w -> w_cwd v = w_cwd w -> ends_so ex fo p v to x -> ends_so ex fo p w to x.
  Proof.
    intros C F W. unfold ends_so, lost, astray, found_here. rewrite F, W.
    assert (O : forall x e, on_disk ex fo p v x e <-> on_disk ex fo p w x e) by (intros y e; unfold on_disk; rewrite F, W; reflexivity).
    destruct x as [[a|e|pa| |] u]; auto. intros [H|[(x & k & d & T & N)|(x & c & st & D & N & Nf)]]; [auto|right; left|right; right].
    - exists x, k, d. split; [eapply tree_cur; [symmetry|]; eassumption|]. intros e D. apply (N e), O, D.
    - exists x, c, st. split; [apply O, D|]. split; [|exact Nf]. intros k d T. apply (N k d). eapply tree_cur; eassumption.
  Qed.

  (** *** Commands *)
  Section Commands.
    Context (cm : common) (w : world) (s : ds_state) (w1 : world).
    Hypothesis U : well_used w.
    Hypothesis S : starts cm w (Some s) w1.
    Hypothesis NC : no_coll (w_hashed w1).
    Hypothesis De : deep_enough w1.
    Hypothesis Ar : at_rest w1.
    Notation ex := (cm_exclude cm).
    Notation fo := (ds_folder s).
    Let W : world_ok w1 := proj1 (used_started _ _ _ _ U S).
    Let Sh : shp (cur_db w1) := typed_cur _ (proj2 (used_started _ _ _ _ U S)) NC.
    Let Fu : full (cur_db w1) := started_full _ _ _ _ (used_reachable _ U) S.
    Let Th : is_there w1 fo := starts_there _ _ _ _ S.
    Let F : w_faults w1 = [] := proj1 (proj1 Ar).
    Lemma looks_run c q to : looks_at s w1 c q to -> exists v K, alike w1 v /\ w_faults v = [] /\ match to with Some t => points (cur_db w1) Item t | None => True end /\
      run_command cm (Some s) c w1 = bind (compare ds (TFileSystem q ex fo) to) K v /\ forall r u, w_faults u = [] -> exists u', K r u = (Done tt, u').
    Proof using U S NC Ar.
      intro H. destruct c as [| | | | | | | | | | | | | |p k st| | | | |]; try contradiction; cbn [looks_at] in H; cbn [run_command with_ds].
      - destruct st; [contradiction|]. destruct H as (-> & Hh & Nm & t & -> & Ct). unfold cmd_compare. fold (tree_arg k).
        destruct (arg_live cm w s w1 U S NC Ar k t Nm Hh Ct) as (v & T & Fv & P & Q). rewrite (run_bind _ _ _ _ _ Q). cbv zeta. eexists v, _. split; [apply alike_ticked, T|]. split; [exact Fv|]. split; [exact P|]. split; [reflexivity|].
        intros r u Fr. destruct (report_live r u Fr) as (u' & X & _). eauto.
      - destruct H as (-> & (n & B & Ut) & Nn & Ht). destruct to as [t|]; [|congruence]. unfold cmd_status. destruct (branch_live None w1 n F B (fun _ => Ut)) as (v1 & H1 & T1 & F1). cbn [refname_or_head] in H1. rewrite (run_bind _ _ _ _ _ H1).
        destruct (newest_try n v1 (ok_ticked _ _ T1 W) F1) as (v2 & H2 & T2 & F2). rewrite (run_bind _ _ _ _ _ H2), (cur_ticked _ _ T1).
        destruct (history n None (repo_of (cur_db w1))) as [|k l] eqn:Hi; [destruct Ht as (n' & B' & k & l & c & Hi' & _); congruence|].
        destruct (newest_commit _ _ _ _ _ W Sh Hi) as [c Ic]. pose proof (head_tree_fun _ _ _ (head_tree_of w1 n k l c B Hi Ic) Ht) as X. injection X as ->.
        destruct (print_live "HEAD:" [n; firstn 8 (as_user_key k)] v2 F2) as (v3 & H3 & F3). rewrite (run_bind _ _ _ _ _ H3).
        apply printed in H3 as [A3 _]. pose proof (alike_trans _ _ _ (alike_ticked _ _ (ticked_trans _ _ _ T1 T2)) A3) as A.
        destruct (commit_get k c v3 F3 (is_commit_cur _ _ _ _ (alike_cur _ _ A) Ic)) as (v4 & H4 & T4 & F4). rewrite (run_bind _ _ _ _ _ H4).
        eexists v4, _. split; [exact (alike_trans _ _ _ A (alike_ticked _ _ T4))|]. split; [exact F4|]. split; [eapply commit_formed; eassumption|]. split; [reflexivity|].
        intros r u Fr. destruct (report_live r u Fr) as (u' & X & _). eauto.
      - destruct H as (-> & (n & B & Ut) & Ht). unfold cmd_checkout_head. destruct (branch_live None w1 n F B (fun _ => Ut)) as (v1 & H1 & T1 & F1). cbn [refname_or_head] in H1. rewrite (run_bind _ _ _ _ _ H1).
        destruct (newest_try n v1 (ok_ticked _ _ T1 W) F1) as (v2 & H2 & T2 & F2). rewrite (run_bind _ _ _ _ _ H2), (cur_ticked _ _ T1).
        assert (exists v3, match to with Some t => points (cur_db w1) Item t | None => True end /\ ticked w1 v3 /\ w_faults v3 = [] /\
          match (match history n None (repo_of (cur_db w1)) with k :: _ => Ok k | [] => Err ERefNotFound end) with Ok k => c <- commit_from_key ds k ;; ret (Some (c_tree c)) | Err _ => ret None end v2 = (Done to, v3)) as (v3 & P & T3 & F3 & H3).
        { pose proof (ticked_trans _ _ _ T1 T2) as T. destruct (history n None (repo_of (cur_db w1))) as [|k l] eqn:Hi.
          - assert (to = None) as -> by (apply (head_tree_fun w1 None to); [exists n; auto|exact Ht]). exists v2. auto.
          - destruct (newest_commit _ _ _ _ _ W Sh Hi) as [c Ic]. rewrite (head_tree_fun _ _ _ (head_tree_of w1 n k l c B Hi Ic) Ht).
            destruct (commit_get k c v2 F2 (is_commit_cur _ _ _ _ (cur_ticked _ _ T) Ic)) as (v3 & H3 & T3 & F3).
            exists v3. split; [eapply commit_formed; eassumption|]. split; [eapply ticked_trans; eassumption|]. split; [exact F3|]. rewrite (run_bind _ _ _ _ _ H3). reflexivity. }
        rewrite (run_bind _ _ _ _ _ H3). eexists v3, _. split; [apply alike_ticked, T3|]. split; [exact F3|]. split; [exact P|]. split; [reflexivity|].
        intros r u Fr. cbv beta. destruct (diff_result_empty r).
        + unfold put_head. cbn [raw_put_state ds]. unfold sqlite_raw_put_state. edestruct write_live as (v6 & H6 & F6); [exact Fr|]. rewrite (run_bind _ _ _ _ _ H6). destruct (print_live "Ok, new head." [] v6 F6) as (v7 & H7 & _). eauto.
        + destruct (print_live "Cannot checkout: working directory is not clean" [] u Fr) as (v6 & H6 & F6). rewrite (run_bind _ _ _ _ _ H6). destruct (report_live r v6 F6) as (v7 & H7 & _). eauto.
    Qed.
    Theorem looking_ends c q to : w_faults w = [] -> looks_at s w1 c q to ->
      let dbl := locate (w_cwd w1) fo in let l := locate (w_cwd w1) q in
      (~ globs_ok cm -> exists w', run_process cm c w = (Some 101%N, w')) /\
      (globs_ok cm ->
        (0 < stack -> ~ directory w1 q -> says_fatal cm c (Some s) w w1) /\
        (directory w1 q -> shallow (w_fs w1) l ->
          does_it cm c (Some s) w w1 /\ comparable ex fo q w1 to \/
          says_fatal cm c (Some s) w w1 /\ strange ex dbl (w_fs w1) q l \/
          (exists w', run_process cm c w = (Some 101%N, w')) /\ (nowhere ex dbl (w_fs w1) q l \/ lost ex fo q w1 to \/ astray ex fo q w1 to))).
    Proof using U S NC De Ar.
      intros Fw H dbl l. destruct (looks_run c q to H) as (v & K & A & Fv & P & R & Kl). pose proof (alike_cur _ _ A) as C. pose proof A as (Fs & Cw & _).
      assert (Er : forall e w2, run_command cm (Some s) c w1 = (Error e, w2) -> says_fatal cm c (Some s) w w1).
      { intros e w2 X. destruct (calm_setup _ _ _ _ S Fw) as [_ C1]. pose proof (calm_command cm (Some s) c w1 F) as [F2 C2]. rewrite X in F2, C2. cbn [snd] in F2, C2. specialize (C2 C1).
        destruct (finish_fatal (Some s) e w2 F2 C2) as (w3 & Fi & F3 & O3 & _). exists w2, (close_all w3), e. split; [exact X|]. split; [|exact O3].
        unfold run_process. rewrite main_split. pose proof S as S'. unfold starts in S'. rewrite (run_bind _ _ _ _ _ S'). unfold bind, try. rewrite X, Fi. reflexivity. }
      assert (Pa : forall pa w2, run_command cm (Some s) c w1 = (Panicked pa, w2) -> exists w', run_process cm c w = (Some 101%N, w')) by (intros pa w2 X; eexists; eapply process_panics; eassumption).
      unfold bind in R. split.
      - intro G. assert (X : forallb glob_valid ex = false) by (unfold globs_ok in G; destruct (forallb glob_valid ex); congruence).
        apply (Pa (PUnwrap None) v). rewrite R, compare_eq. cbn [compare_src]. unfold bind, make_filter_fn. rewrite X. reflexivity.
      - intro G. split.
        + intros Ps N. assert (exists g, stack = Datatypes.S g) as [g Sg] by (destruct stack as [|g]; [lia|eauto]).
          destruct (compare_misses q ex fo to v g Fv G Sg) as (e & u & X); [unfold directory; rewrite Fs, Cw; exact N|]. rewrite X in R. eapply Er, R.
        + intros Di Sw. pose proof (rest_alike _ _ A Fv Ar) as Arv. pose proof (there_alike _ _ _ A Th) as Thv.
          assert (Tt : tidy_of v to) by (destruct to as [t|]; [apply item_tidy; rewrite C; assumption|exact I]).
          assert (Wt : walkable_of v to) by (destruct to as [t|]; [apply tree_walkable; unfold deep_enough; rewrite C; assumption|exact I]).
          pose proof (compare_ends q ex fo to v Arv Thv G Tt Wt) as En. unfold directory in En. rewrite Fs, Cw in En. specialize (En Di Sw). apply (ends_alike ex fo q w1 v to _ C Fs Cw) in En.
          destruct (compare ds (TFileSystem q ex fo) to v) as [[r|e|pa| |] u] eqn:X; cbn in En.
          * left. destruct (compare_here q ex fo to w1 v A Fv Ar Th Sh Fu De P) as [Ne Li]. destruct Ne as [_ Co]; [eauto|]. split; [|exact Co].
            destruct (Li (conj G Co)) as (r' & u' & X' & Fu'). rewrite X in X'. injection X' as <- <-. destruct (Kl r u Fu') as (w2 & Q). rewrite Q in R.
            destruct (process_live cm c w (Some s) w1 w2 Fw S R) as (w' & Pp & Rest). exists w2, w'. split; [exact R|]. split; [exact Pp|apply Rest].
          * right. left. split; [eapply Er, R|exact En].
          * right. right. split; [eapply Pa, R|exact En].
          * contradiction.
          * contradiction.
    Qed.
  End Commands.
End LookingFacts.
