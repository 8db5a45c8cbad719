(** How storing files ends. *)
From Coq Require Import RelationClasses.
From Verif Require Import Base BaseFacts TableFacts Key KeyFacts Keyish Cbor CborFacts Object ObjectFacts Path World WorldFacts Store File Filter Dir Diff Commit Main SpecStore StoreCalls SpecRun SpecProc SpecCmd SpecFile SpecDir SpecCache SpecDiff SpecShape SpecLive SpecStoring
  SpecClosure Closure Frame DbRel Integrity StoreFacts ProcFacts InitFacts ObjStoreFacts SessionFacts FilePlan FileFacts ChunkFacts FileRun FsFacts DirPlan DirFacts GetFacts DirTrip FetchSafe DirTree DirWalk WalkFacts DirLive CacheFacts HashFacts CompareFacts DiffFacts CheckoutFacts
  Reader SpecPatch SpecShow SpecOut SpecText CmdFacts OutFacts SnapFacts ShowFacts ShapeFacts ShapeTop LiveFacts LiveDiff LiveCmd LiveStart FatalFacts FatalCmd SparedFacts PanicFacts.

Section StoringFacts.
  Context {E : Env}.
  Notation ds := sqlite_ds.

  Section Put.
    Context (ex : list bytes) (db : path) (f : fs) (cwd : loc).
    Hypothesis Db : exists l e', stat f cwd db = Some (l, e') /\ e' <> EDangling.
    Hypothesis Mo : moderate f.
    Hypothesis Cl : closed f.
    Notation dbl := (locate cwd db).
    (** What the outcome says about the files below [l]. *)
    Definition tells (p : path) (l : loc) (fuel : nat) {A} (P : A -> Prop) (x : outcome A * world) : Prop :=
      match x with
      | (Done a, w') => w_faults w' = [] /\ here f cwd w' /\ P a
      | (Error _, _) => odd_name ex dbl f p l
      | (Panicked _, _) => oddity ex dbl f p l
      | (Diverged, _) => exists r e, lookup f (l ++ r) = Some e /\ fuel <= length r
      | (Crashed, _) => False
      end.
    Lemma filter_dangling q w x : w_faults w = [] -> here f cwd w -> stat f cwd q = Some (x, EDangling) -> exists pa w', filter_fn ex db q w = (Panicked pa, w').
    Proof.
      intros F [Hf Hc] S. unfold filter_fn, bind, unwrap, fs_canonicalize, fs_query. match goal with |- context [op ?e w] => destruct (op_live e w F) as (w1 & T & F1 & ->) end.
      destruct (ticked_fs _ _ T) as [-> ->]. rewrite Hf, Hc, S. eexists _, _. reflexivity.
    Qed.
    Lemma tells_child p l n g {A} (P Q : A -> Prop) x : ~ excluded ex dbl p l [n] -> tells (path_push p n) (l ++ [n]) g P x -> (forall a, P a -> Q a) -> tells p l (S g) Q x.
    Proof.
      intros X H PQ. destruct x as [[a|e|pa| |] w']; cbn in *.
      - destruct H as (H1 & H2 & H3). auto.
      - destruct H as (r & m & e0 & L & I & U). exists (n :: r), m, e0. cbn [app]. rewrite <- app_assoc in L. split; [exact L|]. split; [exact (included_down _ _ _ _ _ (r ++ [m]) X I)|exact U].
      - destruct H as (r & [[L R]|[L I]]); exists (n :: r); rewrite <- app_assoc in L; [left; split; [exact L|apply reached_down; assumption]|right; split; [exact L|apply included_down; assumption]].
      - exact H.
      - destruct H as (r & e & L & Le). exists (n :: r), e. rewrite <- app_assoc in L. split; [exact L|]. cbn. lia.
    Qed.
    Lemma put_tells : forall fuel p l e w, w_faults w = [] -> here f cwd w -> stat f cwd p = Some (l, e) -> e <> EDangling ->
      tells p l fuel (fun _ => True) (put_fs_item ds fuel p (filter_fn ex db) w).
    Proof using Db Mo.
      clear Cl. induction fuel as [|g IH]; intros p l e w F Hw S Ne; destruct (stat_locate _ _ _ _ _ S) as (_ & L & _).
      { cbn. exists [], e. rewrite app_nil_r. split; [exact L|cbn; lia]. }
      cbn [put_fs_item]. unfold fs_metadata at 1.
      assert (exists mt, meta_of e = Some mt) as [mt Mt] by (destruct e; cbn; eauto; congruence).
      match goal with |- context [bind (fs_query ?q)] => destruct (query_live q w mt F) as (w1 & T1 & F1 & Qm) end.
      { destruct Hw as [-> ->]. rewrite S. exact Mt. }
      rewrite (run_bind _ _ _ _ _ Qm). clear Qm.
      pose proof (here_ticked _ _ _ _ Hw T1) as Hw1. destruct e as [|c st| |]; inv Mt.
      - destruct (read_dir_live p w1 l F1) as (w2 & T2 & F2 & Qr); [destruct Hw1 as [-> ->]; exact S|].
        rewrite (run_bind _ _ _ _ _ Qr). clear Qr. rewrite (proj1 Hw1). pose proof (here_ticked _ _ _ _ Hw1 T2) as Hw2.
        change (fix each (l0 : list name) : M (list (name * key)) := _) with (put_each ds (filter_fn ex db) g p).
        assert (K : forall names w2, incl names (children f l) -> w_faults w2 = [] -> here f cwd w2 ->
          tells p l (Datatypes.S g) (fun kids => map fst kids = filter (fun n => kept ex dbl (path_push p n) (l ++ [n])) names) (put_each ds (filter_fn ex db) g p names w2)).
        { clear -IH S Db. induction names as [|n names IHn]; intros w2 I2 F2 Hw2; cbn [put_each filter].
          - cbn. auto.
          - destruct (child_lookup f l n) as [e Le]; [apply I2; left; reflexivity|]. pose proof (stat_push _ _ _ _ _ _ S Le) as Sn.
            assert (Dk : e = EDangling \/ e <> EDangling) by (destruct e; [right; discriminate|right; discriminate|right; discriminate|left; reflexivity]). destruct Dk as [->|Ne].
            { destruct (filter_dangling _ _ _ F2 Hw2 Sn) as (pa & w' & Q). unfold bind. rewrite Q. cbn. exists [n]. left. split; [exact Le|apply reached_one]. }
            destruct (filter_live ex db f cwd (path_push p n) w2 _ _ F2 Hw2 Sn Ne Db) as (u & T & Fu & Q). rewrite (run_bind _ _ _ _ _ Q).
            pose proof (here_ticked _ _ _ _ Hw2 T) as Hu. assert (In' : incl names (children f l)) by (intros x Hx; apply I2; right; exact Hx).
            destruct (kept ex dbl (path_push p n) (l ++ [n])) eqn:Kp; [|apply IHn; auto].
            apply kept_false in Kp. pose proof (tells_child p l n g _ (fun _ => True) _ Kp (IH _ _ _ u Fu Hu Sn Ne) (fun _ _ => I)) as X. unfold bind at 1.
            destruct (put_fs_item ds g (path_push p n) (filter_fn ex db) u) as [[k|e0|pa| |] u1]; try exact X. cbn in X. destruct X as (Fu1 & Hu1 & _).
            specialize (IHn u1 In' Fu1 Hu1). unfold bind. destruct (put_each ds (filter_fn ex db) g p names u1) as [[kids|e0|pa| |] u2]; try exact IHn. cbn in IHn |- *. destruct IHn as (A1 & A2 & A3). split; [exact A1|]. split; [exact A2|]. rewrite A3. reflexivity. }
        specialize (K _ w2 (incl_refl _) F2 Hw2). unfold bind at 1. destruct (put_each ds (filter_fn ex db) g p (children f l) w2) as [[kids|e0|pa| |] w3]; try exact K. cbn in K. destruct K as (F3 & Hw3 & M).
        destruct (forallb utf8_valid (map fst kids)) eqn:U.
        + destruct (put_item_live (dir_item (map fst kids) (map snd kids)) w3 f cwd F3 Hw3) as (k & w4 & -> & F4 & H4); [|cbn; auto].
          eapply dir_object'; [exact M|exact (Mo _ _ L)|]. intros n I Kp. rewrite forallb_forall in U. apply U. rewrite M. apply filter_In. auto.
        + unfold put_item, bind, object_of_fsitem. cbn [fi_names dir_item]. rewrite U. cbn.
          assert (exists n, In n (map fst kids) /\ utf8_valid n = false) as (n & I & V).
          { clear -U. induction (map fst kids) as [|x r IHr]; [discriminate U|]. cbn in U. apply andb_false_iff in U as [U|U]; [exists x; split; [left; reflexivity|exact U]|]. destruct (IHr U) as (n & I & V). exists n. split; [right; exact I|exact V]. }
          rewrite M in I. apply filter_In in I as [I Kp]. apply kept_false in Kp. destruct (child_lookup f l n I) as [e Le]. exists [], n, e. split; [exact Le|]. split; [|exact V].
          intros r1 r2 Q0 N0. destruct r1 as [|a [|b r1]]; [congruence| |discriminate]. cbn in Q0. inv Q0. exact Kp.
      - destruct (open_live p w1 l c st F1) as (w2 & t & T2 & F2 & Qr); [destruct Hw1 as [-> ->]; exact S|].
        rewrite (run_bind _ _ _ _ _ Qr). clear Qr.
        pose proof (here_ticked _ _ _ _ Hw1 T2) as Hw2.
        destruct (put_data_live (segment (read_sizes t c) c) w2 F2) as (h & w3 & Q & F3); [rewrite stream_segment; reflexivity|rewrite stream_segment; exact (Mo _ _ L)|].
        cbn beta iota. rewrite (run_bind _ _ _ _ _ Q). apply put_data_done in Q as (objs & _ & X). apply exec_puts in X. pose proof (here_puts _ quiet_sqlite _ _ _ _ _ Hw2 X) as Hw3.
        destruct (put_item_live (file_item (wrap64 (lenN c)) h) w3 f cwd F3 Hw3 (file_object _ _)) as (k & w4 & -> & F4 & H4). cbn. auto.
      - cbn. exists []. right. rewrite app_nil_r. split; [exact L|apply included_nil].
    Qed.
    Lemma put_missing g p w : w_faults w = [] -> here f cwd w -> (forall l e, stat f cwd p = Some (l, e) -> e = EDangling) -> exists e w', put_fs_item ds (S g) p (filter_fn ex db) w = (Error e, w').
    Proof.
      intros F [Hf Hc] N. cbn [put_fs_item]. unfold bind, fs_metadata, fs_query. match goal with |- context [op ?e w] => destruct (op_live e w F) as (w1 & T & F1 & ->) end.
      destruct (ticked_fs _ _ T) as [-> ->]. rewrite Hf, Hc. destruct (stat f cwd p) as [[l e]|] eqn:S; [rewrite (N l e eq_refl)|]; eexists _, _; reflexivity.
    Qed.
  End Put.

  (** *** Commands *)
  Lemma runs_put cm w s w1 c q : reachable w -> starts cm w (Some s) w1 -> quiet_disk w1 -> stores_path s w1 c q ->
    (~ globs_ok cm -> exists pa, run_command cm (Some s) c w1 = (Panicked pa, w1)) /\
    (globs_ok cm -> exists v, here (w_fs w1) (w_cwd w1) v /\ w_faults v = [] /\
      match put_fs_item ds stack q (filter_fn (cm_exclude cm) (ds_folder s)) v with
      | (Done _, _) => exists w2, run_command cm (Some s) c w1 = (Done tt, w2)
      | (Error e, w2) => run_command cm (Some s) c w1 = (Error e, w2)
      | (Panicked pa, w2) => run_command cm (Some s) c w1 = (Panicked pa, w2)
      | (Diverged, w2) => run_command cm (Some s) c w1 = (Diverged, w2)
      | (Crashed, _) => True
      end).
  Proof.
    intros R S (F & O & Mo) St. pose proof (starts_there _ _ _ _ S) as Th. pose proof (started_ok _ _ _ _ R S) as W. split.
    - intro G. assert (X : forallb glob_valid (cm_exclude cm) = false) by (unfold globs_ok in G; destruct (forallb glob_valid (cm_exclude cm)); congruence).
      destruct c; try contradiction; cbn [run_command with_ds]; unfold cmd_insert, cmd_commit, make_filter_fn, bind; rewrite X; eexists; reflexivity.
    - intro G. destruct c as [p|p m r| | | | | | | | | | | | | | | | | |]; try contradiction; cbn [stores_path] in St; cbn [run_command with_ds].
      + subst q. exists w1. split; [apply here_self|]. split; [exact F|]. unfold cmd_insert. rewrite (run_bind _ _ _ _ _ (filter_run _ (ds_folder s) w1 G)). unfold bind.
        pose proof (spared_put stack p (filter_fn (cm_exclude cm) (ds_folder s)) (fun q0 => spared_filter _ _ q0) w1 F) as [_ F2].
        destruct (put_fs_item ds stack p (filter_fn (cm_exclude cm) (ds_folder s)) w1) as [[k|e|pa| |] w2] eqn:Q; try reflexivity; try exact I. cbn [snd] in F2.
        destruct (print_live "inserted hash" [as_user_key k] w2 F2) as (w3 & P & _). eauto.
      + destruct St as (Qp & Lm & Hd). unfold cmd_commit. cbv zeta. rewrite <- Qp. rewrite (run_bind _ _ _ _ _ (filter_run _ (ds_folder s) w1 G)).
        assert (exists n, branch_of r (repo_of (cur_db w1)) n /\ (r = None -> utf8_valid n = true)) as (n & B & Ut).
        { destruct r as [b|]; [exists b; split; [reflexivity|discriminate]|]. destruct (Hd eq_refl) as (n & B & U). exists n. auto. }
        destruct (branch_live r w1 n F B Ut) as (v1 & H1 & T1 & F1). rewrite (run_bind _ _ _ _ _ H1).
        destruct (newest_try n v1 (ok_ticked _ _ T1 W) F1) as (v2 & H2 & T2 & F2). rewrite (run_bind _ _ _ _ _ H2).
        assert (exists ps, length ps <= 1 /\ match (match history n None (repo_of (cur_db v1)) with k :: _ => Ok k | [] => Err ERefNotFound end) with Ok k => ret [k] | Err ERefNotFound => ret [] | Err e => fail e end v2 = (Done ps, v2)) as (ps & Lp & H3).
        { destruct (history n None _) as [|k l]; [exists []; split; [cbn; lia|reflexivity]|exists [k]; split; [cbn; lia|reflexivity]]. }
        rewrite (run_bind _ _ _ _ _ H3). exists v2. split; [apply (here_ticked _ _ w1); [apply here_self|eapply ticked_trans; eassumption]|]. split; [exact F2|].
        pose proof (spared_put stack q (filter_fn (cm_exclude cm) (ds_folder s)) (fun q0 => spared_filter _ _ q0) v2 F2) as [_ F3].
        destruct (put_fs_item ds stack q (filter_fn (cm_exclude cm) (ds_folder s)) v2) as [[t|e|pa| |] v3] eqn:Q; try exact I; try (unfold bind; rewrite Q; reflexivity). cbn [snd] in F3. rewrite (run_bind _ _ _ _ _ Q).
        unfold commit_tree. destruct (put_obj_nofault (object_of_commit (Commit t (sort key_cmp ps) (Attrs m []))) v3 F3) as (v4 & H5 & F4).
        { apply commit_fits; [exact Lm|]. destruct ps as [|a [|b ps]]; cbn in *; lia. }
        rewrite (run_bind _ _ _ _ _ H5). cbn [reflog_push ds]. unfold sqlite_reflog_push. edestruct write_live as (v5 & H6 & _); [exact F4|]. eauto.
  Qed.
  Lemma odd_listable ex dbl f p l : oddity ex dbl f p l -> ~ listable ex dbl f p l stack.
  Proof.
    intros (r & [[L R]|[L I]]) Li.
    - destruct (Li _ _ L R) as [N _]. exact (N eq_refl).
    - assert (R : reached ex dbl p l r) by (intros r1 r2 Q N1 _; exact (I r1 r2 Q N1)). destruct (Li _ _ L R) as [_ K]. destruct (K I) as [_ [K'|(c & st & K')]]; discriminate K'.
  Qed.
  Lemma name_text ex dbl f p l : odd_name ex dbl f p l -> ~ text_names ex dbl f p l.
  Proof. intros (r & n & e & L & I & U) T. rewrite (T _ _ _ L I) in U. discriminate U. Qed.
  Theorem storing_ends cm w s w1 c q : reachable w -> w_faults w = [] -> starts cm w (Some s) w1 -> quiet_disk w1 -> stores_path s w1 c q ->
    let dbl := locate (w_cwd w1) (ds_folder s) in
    (~ globs_ok cm -> exists w', run_process cm c w = (Some 101%N, w')) /\
    (globs_ok cm ->
      (0 < stack -> (forall l, ~ something_at w1 q l) -> says_fatal cm c (Some s) w w1) /\
      (forall l, something_at w1 q l -> shallow (w_fs w1) l ->
        does_it cm c (Some s) w w1 /\ ~ oddity (cm_exclude cm) dbl (w_fs w1) q l /\ ~ odd_name (cm_exclude cm) dbl (w_fs w1) q l \/
        says_fatal cm c (Some s) w w1 /\ odd_name (cm_exclude cm) dbl (w_fs w1) q l \/
        (exists w', run_process cm c w = (Some 101%N, w')) /\ oddity (cm_exclude cm) dbl (w_fs w1) q l)).
  Proof.
    intros R F S Q St dbl. destruct (runs_put cm w s w1 c q R S Q St) as [Bad Good]. pose proof Q as (F1 & O & Mo). pose proof (starts_there _ _ _ _ S) as Th.
    assert (Er : forall e w2, run_command cm (Some s) c w1 = (Error e, w2) -> says_fatal cm c (Some s) w w1).
    { intros e w2 X. destruct (calm_setup _ _ _ _ S F) as [_ C1]. pose proof (calm_command cm (Some s) c w1 F1) as [F2 C2]. rewrite X in F2, C2. cbn [snd] in F2, C2. specialize (C2 C1).
      destruct (finish_fatal (Some s) e w2 F2 C2) as (w3 & Fi & F3 & O3 & _). exists w2, (close_all w3), e. split; [exact X|]. split; [|exact O3].
      unfold run_process. rewrite main_split. pose proof S as S'. unfold starts in S'. rewrite (run_bind _ _ _ _ _ S'). unfold bind, try. rewrite X, Fi. reflexivity. }
    split.
    - intro G. destruct (Bad G) as (pa & X). eexists. eapply process_panics; eassumption.
    - intro G. destruct (Good G) as (v & Hv & Fv & X). clear Good Bad. split.
      + intros Ps N. assert (exists g, stack = Datatypes.S g) as [g Sg] by (destruct stack as [|g]; [lia|eauto]).
        destruct (put_missing (cm_exclude cm) (ds_folder s) (w_fs w1) (w_cwd w1) g q v Fv Hv) as (e & v' & Y).
        { intros l e Sq. destruct e; try reflexivity; exfalso; apply (N l); eexists; (split; [exact Sq|discriminate]). }
        rewrite <- Sg in Y. rewrite Y in X. eapply Er, X.
      + intros l (e & Sq & Ne) Sh. pose proof (put_tells (cm_exclude cm) (ds_folder s) (w_fs w1) (w_cwd w1) (there_db _ _ Th) Mo stack q l e v Fv Hv Sq Ne) as T. fold dbl in T.
        destruct (put_fs_item ds stack q (filter_fn (cm_exclude cm) (ds_folder s)) v) as [[k|e'|pa| |] v'] eqn:Y; cbn in T.
        * left. destruct X as (w2 & X). destruct (process_live cm c w (Some s) w1 w2 F S X) as (w' & Pp & Rest). split; [exists w2, w'; split; [exact X|]; split; [exact Pp|apply Rest]|].
          destruct (put_needs (cm_exclude cm) (ds_folder s) (w_fs w1) (w_cwd w1) (fs_ok_closed _ O) stack q l e v k v' Hv Sq Y) as [Li Na]. split; intro Z; [exact (odd_listable _ _ _ _ _ Z Li)|exact (name_text _ _ _ _ _ Z Na)].
        * right. left. split; [eapply Er, X|exact T].
        * right. right. split; [eexists; eapply process_panics; eassumption|exact T].
        * contradiction.
        * destruct T as (r & e0 & L & Le). specialize (Sh _ _ L). lia.
  Qed.
End StoringFacts.
