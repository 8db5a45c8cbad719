(** How [debug walk-fs-tree] ends. *)
From Coq Require Import RelationClasses.
From Verif Require Import Base BaseFacts TableFacts Key KeyFacts Keyish Cbor CborFacts Object ObjectFacts Path World WorldFacts Store File Filter Dir Diff Commit Main SpecStore StoreCalls SpecRun SpecProc SpecCmd SpecFile SpecDir SpecCache SpecDiff SpecShape SpecLive SpecStoring SpecLooking SpecFetch
  SpecClosure Closure Frame DbRel Integrity StoreFacts ProcFacts InitFacts ObjStoreFacts SessionFacts FilePlan FileFacts ChunkFacts FileRun FsFacts DirPlan DirFacts GetFacts DirTrip FetchSafe DirTree DirWalk WalkFacts DirLive CacheFacts HashFacts CompareFacts DiffFacts CheckoutFacts
  Reader SpecPatch SpecShow SpecOut SpecText CmdFacts OutFacts SnapFacts ShowFacts ShapeFacts ShapeTop LiveFacts LiveDiff LiveCmd LiveStart LiveRead FatalFacts FatalCmd SparedFacts PanicFacts StoringFacts Ends.

Section WalkEnds.
  Context {E : Env}.
  (** What a walk from [l] tells about the files. *)
  Definition tells (f : fs) (cwd l : loc) (fuel : nat) {A} (x : outcome A * world) : Prop :=
    match x with
    | (Done _, w) => w_faults w = [] /\ here f cwd w
    | (Error _, _) => exists r e, lookup f (l ++ r) = Some e /\ (e = ESpecial \/ e = EDangling)
    | (Diverged, _) => exists r e, lookup f (l ++ r) = Some e /\ fuel <= length r
    | _ => False
    end.
  Lemma tells_child {A} f cwd l n g (x : outcome A * world) : tells f cwd (l ++ [n]) g x -> tells f cwd l (S g) x.
  Proof.
    destruct x as [[a|e|p| |] w]; cbn; try exact (fun H => H); intros (r & e' & L & X); exists (n :: r), e'; rewrite <- app_assoc in L; (split; [exact L|]); [exact X|cbn [length]; lia].
  Qed.
  Lemma all_tells f cwd base : forall fuel r w l e, w_faults w = [] -> here f cwd w -> stat f cwd (join base (rel_path r)) = Some (l, e) ->
    tells f cwd l fuel (internal_walk_real_fs_items fuel base (rel_path r) all w).
  Proof.
    induction fuel as [|g IH]; intros r w l e F Hw S; destruct (stat_locate _ _ _ _ _ S) as (_ & L & _); [exists [], e; rewrite app_nil_r; split; [exact L|cbn; lia]|].
    cbn [internal_walk_real_fs_items]. unfold fs_metadata at 1.
    assert (D : exists w1, ticked w w1 /\ w_faults w1 = [] /\ fs_query (fun f cwd => match stat f cwd (join base (rel_path r)) with Some (_, e) => meta_of e | None => None end) w =
      (match meta_of e with Some mt => Done mt | None => Error EIo end, w1)).
    { unfold fs_query. match goal with |- context [op ?e w] => destruct (op_live e w F) as (w1 & T & F1 & ->) end. exists w1. split; [exact T|]. split; [exact F1|]. destruct (ticked_fs _ _ T) as [-> ->]. destruct Hw as [-> ->]. rewrite S. destruct (meta_of e); reflexivity. }
    destruct D as (w1 & T1 & F1 & Q). unfold bind at 1. rewrite Q. clear Q. pose proof (here_ticked _ _ _ _ Hw T1) as Hw1.
    destruct e as [|c st| |]; cbn [meta_of]; [|cbn; auto|exists [], ESpecial; rewrite app_nil_r; auto|exists [], EDangling; rewrite app_nil_r; auto].
    destruct (read_dir_live (join base (rel_path r)) w1 l F1) as (w2 & T2 & F2 & Qr); [destruct Hw1 as [-> ->]; exact S|].
    rewrite (run_bind _ _ _ _ _ Qr). clear Qr. rewrite (proj1 Hw1). pose proof (here_ticked _ _ _ _ Hw1 T2) as Hw2.
    match goal with |- context [bind ?a _] => change a with (real_each g base (rel_path r) all (children f l) (if is_empty_path (rel_path r) then [] else [(rel_path r, true)])) end.
    assert (K : forall names acc w2, incl names (children f l) -> w_faults w2 = [] -> here f cwd w2 -> tells f cwd l (Datatypes.S g) (real_each g base (rel_path r) all names acc w2)).
    { clear -IH S. induction names as [|n names IHn]; intros acc w2 I2 F2 Hw2; cbn [real_each]; [cbn; auto|].
      destruct (child_lookup f l n) as [e Le]; [apply I2; left; reflexivity|]. pose proof (stat_push _ _ _ _ _ _ S Le) as Sn.
      unfold bind at 1. cbn [all ret]. assert (Er : path_push (rel_path r) n = rel_path (r ++ [n])) by (unfold path_push, rel_path; cbn; rewrite map_app; reflexivity). rewrite Er.
      assert (X : tells f cwd (l ++ [n]) g (internal_walk_real_fs_items g base (rel_path (r ++ [n])) all w2)) by (eapply IH; [exact F2|exact Hw2|rewrite join_push; exact Sn]).
      apply tells_child in X. unfold bind at 1. destruct (internal_walk_real_fs_items g base (rel_path (r ++ [n])) all w2) as [[sb|e0|p| |] u1]; try exact X. destruct X as [Fu Hu]. apply IHn; auto. intros x Hx; apply I2; right; exact Hx. }
    specialize (K (children f l) (if is_empty_path (rel_path r) then [] else [(rel_path r, true)]) w2 (incl_refl _) F2 Hw2).
    unfold bind at 1. destruct (real_each _ _ _ _ _ _ _) as [[m|e0|p| |] w3]; exact K.
  Qed.
  Theorem walk_ends cm st w w1 p : w_faults w = [] -> starts cm w st w1 -> fs_ok (w_fs w1) -> let c := CWalkFsTree p in
    (0 < stack -> ~ directory w1 p -> says_fatal cm c st w w1) /\
    (forall l, stat (w_fs w1) (w_cwd w1) p = Some (l, EDir) ->
      does_it cm c st w w1 /\ walkable_at (w_fs w1) l stack \/
      says_fatal cm c st w w1 /\ (exists r e, lookup (w_fs w1) (l ++ r) = Some e /\ (e = ESpecial \/ e = EDangling)) \/
      (exists w', run_process cm c w = (None, w')) /\ exists r e, lookup (w_fs w1) (l ++ r) = Some e /\ stack <= length r).
  Proof.
    intros Fw S O c. destruct (calm_setup _ _ _ _ S Fw) as [F1 C1].
    assert (Er : forall e w2, run_command cm st c w1 = (Error e, w2) -> says_fatal cm c st w w1).
    { intros x u X. pose proof (calm_command cm st c w1 F1) as [F2 C2]. rewrite X in F2, C2. cbn [snd] in F2, C2. specialize (C2 C1).
      destruct (finish_fatal st x u F2 C2) as (w3 & Fi & F3 & O3 & _). exists u, (close_all w3), x. split; [exact X|]. split; [|exact O3].
      unfold run_process. rewrite main_split. pose proof S as S'. unfold starts in S'. rewrite (run_bind _ _ _ _ _ S'). unfold bind, try. rewrite X, Fi. reflexivity. }
    assert (R : run_command cm st c w1 = bind (internal_walk_real_fs_items stack p (rel_path []) all) print_fs_tree w1) by reflexivity. split.
    - intros Ps N. assert (exists g, stack = Datatypes.S g) as [g Sg] by (destruct stack as [|g]; [lia|eauto]). rewrite Sg in R. cbn [internal_walk_real_fs_items] in R. change (rel_path []) with path_empty in R.
      assert (No : stat (w_fs w1) (w_cwd w1) (join p path_empty) = None).
      { rewrite stat_base. unfold directory in N. destruct (stat (w_fs w1) (w_cwd w1) p) as [[l [| | |]]|] eqn:Q; try reflexivity. destruct N. exists l. reflexivity. }
      unfold bind at 1 2 in R. unfold fs_metadata, fs_query in R. match type of R with context [op ?e w1] => destruct (op_live e w1 F1) as (v & T & Fv & Q) end. rewrite Q in R. destruct (ticked_fs _ _ T) as [Fs Cw]. rewrite Fs, Cw, No in R. eapply Er, R.
    - intros l Sl. pose proof (all_tells (w_fs w1) (w_cwd w1) p stack [] w1 l EDir F1 (here_self _)) as X. change (rel_path []) with path_empty in X at 1. rewrite stat_base, Sl in X. specialize (X eq_refl).
      unfold bind in R. destruct (internal_walk_real_fs_items stack p (rel_path []) all w1) as [[m|x|pa| |] v]; cbn [tells] in X; try contradiction.
      + left. destruct X as [Fv _]. destruct (print_fs_tree_live m v Fv) as [w2 Pr]. rewrite Pr in R. split.
        * destruct (process_live cm c w st w1 w2 Fw S R) as (w' & Pp & Rest). exists w2, w'. split; [exact R|]. split; [exact Pp|apply Rest].
        * destruct (proj1 (walk_fs_exactly cm st w1 p O F1)) as (l' & Sl' & Wk); [exists w2; exact R|]. rewrite Sl in Sl'. injection Sl' as <-. exact Wk.
      + right. left. split; [eapply Er, R|exact X].
      + right. right. split; [|exact X]. eexists. unfold run_process. rewrite main_split. pose proof S as S'. unfold starts in S'. rewrite (run_bind _ _ _ _ _ S'). unfold bind, try. rewrite R. reflexivity.
  Qed.
End WalkEnds.
