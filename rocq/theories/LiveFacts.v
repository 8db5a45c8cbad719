(** Exactly when storing and listing directories succeed. *)
From Coq Require Import RelationClasses.
From Verif Require Import Base BaseFacts Key KeyFacts Cbor CborFacts Object ObjectFacts Path World WorldFacts Store File Filter Dir Diff SpecStore StoreCalls SpecRun SpecFile SpecDir SpecCache SpecDiff SpecLive
  Frame DbRel Integrity ObjStoreFacts SessionFacts FilePlan FileFacts ChunkFacts FileRun FsFacts DirPlan DirFacts GetFacts DirTrip FetchSafe DirTree DirWalk WalkFacts DirLive CacheFacts HashFacts CompareFacts DiffFacts CheckoutFacts.

Section LiveFacts.
  Context {E : Env}.
  Notation ds := sqlite_ds.

  (** *** Going down one level *)
  Lemma excluded_down ex dbl p l n r : excluded ex dbl (path_push p n) (l ++ [n]) r <-> excluded ex dbl p l (n :: r).
  Proof.
    unfold excluded. rewrite push_below, below_app, <- app_assoc. reflexivity.
  Qed.
  Lemma reached_down ex dbl p l n r : ~ excluded ex dbl p l [n] -> reached ex dbl (path_push p n) (l ++ [n]) r -> reached ex dbl p l (n :: r).
  Proof.
    intros X H r1 r2 Q N1 N2. destruct r1 as [|m r1]; [congruence|]. cbn in Q. inv Q. destruct r1 as [|a r1]; [exact X|].
    rewrite <- excluded_down. eapply H; [reflexivity|discriminate|exact N2].
  Qed.
  Lemma reached_up ex dbl p l n r : reached ex dbl p l (n :: r) -> reached ex dbl (path_push p n) (l ++ [n]) r.
  Proof. intros H r1 r2 -> N1 N2. rewrite excluded_down. eapply H; [reflexivity|discriminate|exact N2]. Qed.
  Lemma included_down ex dbl p l n r : ~ excluded ex dbl p l [n] -> included ex dbl (path_push p n) (l ++ [n]) r -> included ex dbl p l (n :: r).
  Proof.
    intros X H r1 r2 Q N1. destruct r1 as [|m r1]; [congruence|]. cbn in Q. inv Q. destruct r1 as [|a r1]; [exact X|].
    rewrite <- excluded_down. eapply H; [reflexivity|discriminate].
  Qed.
  Lemma included_up ex dbl p l n r : included ex dbl p l (n :: r) -> ~ excluded ex dbl p l [n] /\ included ex dbl (path_push p n) (l ++ [n]) r.
  Proof.
    intros H. split; [eapply (H [n] r); [reflexivity|discriminate]|]. intros r1 r2 -> N1. rewrite excluded_down. eapply H; [reflexivity|discriminate].
  Qed.
  Lemma included_nil ex dbl p l : included ex dbl p l [].
  Proof. intros r1 r2 Q N. destruct r1; [congruence|discriminate]. Qed.
  Lemma reached_nil ex dbl p l : reached ex dbl p l [].
  Proof. intros r1 r2 Q N. destruct r1; [congruence|discriminate]. Qed.
  Lemma reached_one ex dbl p l n : reached ex dbl p l [n].
  Proof. intros r1 r2 Q N N2. destruct r1 as [|a [|b r1]]; [congruence| |discriminate]. cbn in Q. inv Q. congruence. Qed.

  Lemma listable_here ex dbl f p l d e : listable ex dbl f p l d -> lookup f l = Some e -> 0 < d /\ (e = EDir \/ exists c st, e = EFile c st).
  Proof.
    intros H L. rewrite <- (app_nil_r l) in L. destruct (H _ _ L (reached_nil _ _ _ _)) as [_ K]. apply K, included_nil.
  Qed.
  Lemma listable_child ex dbl f p l g n : listable ex dbl f p l (S g) -> ~ excluded ex dbl p l [n] -> listable ex dbl f (path_push p n) (l ++ [n]) g.
  Proof.
    intros H X r e L R. rewrite <- app_assoc in L. destruct (H _ _ L (reached_down _ _ _ _ _ _ X R)) as [H1 H2]. split; [exact H1|].
    intro I. destruct (H2 (included_down _ _ _ _ _ _ X I)) as [H3 H4]. split; [cbn in H3; lia|exact H4].
  Qed.
  Lemma listable_child_ok ex dbl f p l g n e : listable ex dbl f p l g -> lookup f (l ++ [n]) = Some e -> e <> EDangling.
  Proof. intros H L. apply (H _ _ L (reached_one _ _ _ _ _)). Qed.
  Lemma listable_dir ex dbl f p l g : lookup f l = Some EDir ->
    (forall n e, lookup f (l ++ [n]) = Some e -> e <> EDangling /\ (~ excluded ex dbl p l [n] -> listable ex dbl f (path_push p n) (l ++ [n]) g)) ->
    closed f -> listable ex dbl f p l (S g).
  Proof.
    intros D H C r e L R. destruct r as [|n r].
    - rewrite app_nil_r in L. assert (e = EDir) as -> by congruence. split; [discriminate|]. intros _. cbn. split; [lia|auto].
    - change (n :: r) with ([n] ++ r) in L. rewrite app_assoc in L. destruct r as [|a r].
      + rewrite app_nil_r in L. destruct (H _ _ L) as [H1 H2]. split; [exact H1|]. intro I. apply included_up in I as [X I].
        destruct (listable_here _ _ _ _ _ _ _ (H2 X) L) as [H3 H4]. cbn. split; [lia|exact H4].
      + assert (X : ~ excluded ex dbl p l [n]) by (eapply (R [n] (a :: r)); [reflexivity|discriminate|discriminate]).
        pose proof (closed_app _ _ _ _ C L ltac:(discriminate)) as L1. destruct (H _ _ L1) as [_ H2].
        destruct (H2 X _ _ L (reached_up _ _ _ _ _ _ R)) as [H3 H4]. split; [exact H3|]. intro I. apply included_up in I as [_ I].
        destruct (H4 I) as [H5 H6]. cbn in *. split; [lia|exact H6].
  Qed.
  Lemma listable_file ex dbl f p l g c st : lookup f l = Some (EFile c st) -> closed f -> listable ex dbl f p l (S g).
  Proof.
    intros D C r e L R. destruct r as [|n r].
    - rewrite app_nil_r in L. rewrite D in L. inv L. split; [discriminate|]. intros _. cbn. split; [lia|eauto].
    - apply closed_app in L; [congruence|exact C|discriminate].
  Qed.
  Lemma names_child ex dbl f p l n : text_names ex dbl f p l -> ~ excluded ex dbl p l [n] -> text_names ex dbl f (path_push p n) (l ++ [n]).
  Proof.
    intros H X r m e L I. rewrite <- app_assoc in L. apply (H (n :: r) m e L). apply (included_down _ _ _ _ _ _ X I).
  Qed.
  Lemma names_dir ex dbl f p l : closed f ->
    (forall n e, lookup f (l ++ [n]) = Some e -> ~ excluded ex dbl p l [n] -> utf8_valid n = true /\ text_names ex dbl f (path_push p n) (l ++ [n])) ->
    text_names ex dbl f p l.
  Proof.
    intros C H [|a r] m e L I.
    - cbn in L, I. apply included_up in I as [X _]. apply (H _ _ L X).
    - cbn [app] in L, I. apply included_up in I as [X I]. replace (l ++ a :: r ++ [m]) with ((l ++ [a]) ++ r ++ [m]) in L by (rewrite <- app_assoc; reflexivity).
      assert (exists e1, lookup f (l ++ [a]) = Some e1) as [e1 L1].
      { exists EDir. eapply closed_app; [exact C|exact L|destruct r; discriminate]. }
      destruct (H _ _ L1 X) as [_ K]. eapply K; eassumption.
  Qed.
  Lemma names_file ex dbl f p l c st : lookup f l = Some (EFile c st) -> closed f -> text_names ex dbl f p l.
  Proof. intros D C r n e L _. apply closed_app in L; [congruence|exact C|destruct r; discriminate]. Qed.

  Lemma dir_object' kids names (P : name -> bool) : map fst kids = filter P names -> (names_size names + 200 < 2 ^ 62)%N ->
    (forall n, In n names -> P n = true -> utf8_valid n = true) ->
    exists o, object_of_fsitem (dir_item (map fst kids) (map snd kids)) = Some o /\ obj_fits o = true.
  Proof.
    intros M H Hu. apply (dir_object kids (filter P names) (fun _ => true)).
    - rewrite M. clear. induction (filter P names) as [|a l IH]; cbn; congruence.
    - pose proof (names_size_filter P names). lia.
    - apply Forall_forall. intros n I. apply filter_In in I as [I1 I2]. auto.
  Qed.

  (** *** Storing *)
  Section Put.
    Context (ex : list bytes) (db : path) (f : fs) (cwd : loc).
    Hypothesis Db : exists l e', stat f cwd db = Some (l, e') /\ e' <> EDangling.
    Hypothesis Mo : moderate f.
    Hypothesis Cl : closed f.
    Notation dbl := (locate cwd db).
    Lemma put_lives : forall fuel p l e w, w_faults w = [] -> here f cwd w -> stat f cwd p = Some (l, e) ->
      listable ex dbl f p l fuel -> text_names ex dbl f p l ->
      exists k w', put_fs_item ds fuel p (filter_fn ex db) w = (Done k, w') /\ w_faults w' = [] /\ here f cwd w'.
    Proof using Db Mo.
      clear Cl. induction fuel as [|g IH]; intros p l e w F Hw S Li Na;
        (destruct (stat_locate _ _ _ _ _ S) as (_ & L & _); destruct (listable_here _ _ _ _ _ _ _ Li L) as [Pos Kind]; [lia||idtac]).
      cbn [put_fs_item]. unfold fs_metadata at 1.
      assert (exists mt, meta_of e = Some mt) as [mt Mt] by (destruct Kind as [->|(c & st & ->)]; cbn; eauto).
      match goal with |- context [bind (fs_query ?q)] => destruct (query_live q w mt F) as (w1 & T1 & F1 & Qm) end.
      { destruct Hw as [-> ->]. rewrite S. exact Mt. }
      rewrite (run_bind _ _ _ _ _ Qm). clear Qm.
      pose proof (here_ticked _ _ _ _ Hw T1) as Hw1. destruct Kind as [->|(c & st & ->)]; inv Mt.
      - destruct (read_dir_live p w1 l F1) as (w2 & T2 & F2 & Qr); [destruct Hw1 as [-> ->]; exact S|].
        rewrite (run_bind _ _ _ _ _ Qr). clear Qr. rewrite (proj1 Hw1). pose proof (here_ticked _ _ _ _ Hw1 T2) as Hw2.
        change (fix each (l0 : list name) : M (list (name * key)) := _) with (put_each ds (filter_fn ex db) g p).
        assert (K : forall names w2, incl names (children f l) -> w_faults w2 = [] -> here f cwd w2 ->
          exists kids w3, put_each ds (filter_fn ex db) g p names w2 = (Done kids, w3) /\ w_faults w3 = [] /\ here f cwd w3 /\
            map fst kids = filter (fun n => kept ex dbl (path_push p n) (l ++ [n])) names).
        { clear -IH S Li Na Db. induction names as [|n names IHn]; intros w2 I2 F2 Hw2; cbn [put_each filter].
          - eexists _, _. split; [reflexivity|]. auto.
          - destruct (child_lookup f l n) as [e Le]; [apply I2; left; reflexivity|]. pose proof (stat_push _ _ _ _ _ _ S Le) as Sn.
            pose proof (listable_child_ok _ _ _ _ _ _ _ _ Li Le) as Ne.
            destruct (filter_live ex db f cwd (path_push p n) w2 _ _ F2 Hw2 Sn Ne Db) as (u & T & Fu & Q). rewrite (run_bind _ _ _ _ _ Q).
            pose proof (here_ticked _ _ _ _ Hw2 T) as Hu. assert (In' : incl names (children f l)) by (intros x Hx; apply I2; right; exact Hx).
            destruct (kept ex dbl (path_push p n) (l ++ [n])) eqn:Kp.
            + apply kept_false in Kp.
              destruct (IH _ _ _ _ Fu Hu Sn (listable_child _ _ _ _ _ _ _ Li Kp) (names_child _ _ _ _ _ _ Na Kp)) as (k & u1 & Q1 & Fu1 & Hu1). rewrite (run_bind _ _ _ _ _ Q1).
              destruct (IHn _ In' Fu1 Hu1) as (kids & w3 & Q3 & F3 & H3 & M3). rewrite (run_bind _ _ _ _ _ Q3). eexists _, _. split; [reflexivity|].
              split; [exact F3|]. split; [exact H3|]. cbn. congruence.
            + apply IHn; auto. }
        destruct (K _ w2 (incl_refl _) F2 Hw2) as (kids & w3 & Q & F3 & Hw3 & M). rewrite (run_bind _ _ _ _ _ Q).
        apply put_item_live; [exact F3|exact Hw3|]. eapply dir_object'; [exact M|exact (Mo _ _ L)|]. intros n I Kp. apply kept_false in Kp.
        destruct (child_lookup f l n I) as [e Le]. apply (Na [] n e Le). intros r1 r2 Q0 N0. destruct r1 as [|a [|b r1]]; [congruence| |discriminate]. cbn in Q0. inv Q0. exact Kp.
      - destruct (open_live p w1 l c st F1) as (w2 & t & T2 & F2 & Qr); [destruct Hw1 as [-> ->]; exact S|].
        rewrite (run_bind _ _ _ _ _ Qr). clear Qr.
        pose proof (here_ticked _ _ _ _ Hw1 T2) as Hw2.
        destruct (put_data_live (segment (read_sizes t c) c) w2 F2) as (h & w3 & Q & F3); [rewrite stream_segment; reflexivity|rewrite stream_segment; exact (Mo _ _ L)|].
        cbn beta iota. rewrite (run_bind _ _ _ _ _ Q). apply put_data_done in Q as (objs & _ & X). apply exec_puts in X. pose proof (here_puts _ quiet_sqlite _ _ _ _ _ Hw2 X) as Hw3.
        apply put_item_live; [exact F3|exact Hw3|apply file_object].
    Qed.
    Lemma filter_needs q w b w' x e : here f cwd w -> filter_fn ex db q w = (Done b, w') -> stat f cwd q = Some (x, e) -> e <> EDangling /\ ticked w w' /\ b = kept ex dbl q x.
    Proof using.
      clear. intros Hw H S. destruct (filter_answers ex db f cwd q w b w' (proj1 Hw) (proj2 Hw) H) as [T B]. split; [|split; [exact T|eapply B, S]].
      unfold filter_fn in H. apply bind_done in H as (c & w1 & H1 & H).
      apply unwrap_done, canon_done in H1 as (_ & e1 & S1 & Ne). destruct Hw as [Hf Hc]. rewrite Hf, Hc, S in S1. inv S1. exact Ne.
    Qed.
    Lemma put_needs : forall fuel p l e w k w', here f cwd w -> stat f cwd p = Some (l, e) ->
      put_fs_item ds fuel p (filter_fn ex db) w = (Done k, w') -> listable ex dbl f p l fuel /\ text_names ex dbl f p l.
    Proof using Cl.
      clear Db Mo. induction fuel as [|g IH]; intros p l e w k w' Hw S H; [discriminate|]. cbn [put_fs_item] in H.
      destruct (stat_locate _ _ _ _ _ S) as (_ & L & _).
      apply bind_done in H as (m & w1 & H1 & H). apply metadata_done in H1 as (T1 & l0 & e0 & S1 & M1).
      rewrite (here_stat f cwd) in S1 by exact Hw. rewrite S in S1. inv S1. pose proof (here_ticked _ _ _ _ Hw T1) as Hw1.
      destruct m as [|size st|]; [| |discriminate].
      - apply bind_done in H as ([names err] & w2 & H2 & H). apply read_dir_done in H2 as (T2 & l' & S2 & R2).
        rewrite (here_stat f cwd), S in S2 by exact Hw1. inv S2. rewrite (proj1 Hw1) in R2. pose proof (here_ticked _ _ _ _ Hw1 T2) as Hw2.
        change (fix each (l : list name) : M (list (name * key)) := _) with (put_each ds (filter_fn ex db) g p) in H.
        apply bind_done in H as (kids & w3 & H3 & H). destruct err; [discriminate|]. destruct R2 as [R2|[n R2]]; inv R2.
        assert (K : forall names w2 kids w3, incl names (children f l') -> here f cwd w2 -> put_each ds (filter_fn ex db) g p names w2 = (Done kids, w3) ->
          map fst kids = filter (fun n => kept ex dbl (path_push p n) (l' ++ [n])) names /\
          forall n e, In n names -> lookup f (l' ++ [n]) = Some e -> e <> EDangling /\
            (~ excluded ex dbl p l' [n] -> listable ex dbl f (path_push p n) (l' ++ [n]) g /\ text_names ex dbl f (path_push p n) (l' ++ [n]))).
        { clear -IH S. induction names as [|n names IHn]; intros w2 kids w3 I2 Hw2 H; cbn [put_each] in H.
          - inv H. split; [reflexivity|]. intros n e [].
          - apply bind_done in H as (b & u & H1 & H).
            destruct (child_lookup f l' n) as [e Le]; [apply I2; left; reflexivity|]. pose proof (stat_push _ _ _ _ _ _ S Le) as Sn.
            destruct (filter_needs _ _ _ _ _ _ Hw2 H1 Sn) as (Ne & T & ->). pose proof (here_ticked _ _ _ _ Hw2 T) as Hu. cbn [filter].
            assert (In' : incl names (children f l')) by (intros x Hx; apply I2; right; exact Hx).
            destruct (kept ex dbl (path_push p n) (l' ++ [n])) eqn:Kp.
            + apply bind_done in H as (k & u1 & H2 & H). apply bind_done in H as (rest & u2 & H3 & H). inv H.
              destruct (put_fs_item_done ds quiet_sqlite (filter_fn ex db) f cwd _ (filter_answers ex db f cwd) _ _ _ _ _ Hu H2) as (_ & _ & _ & _ & _ & objs & _ & U).
              destruct (IHn u1 rest w3 In' (here_puts _ quiet_sqlite _ _ _ _ _ Hu U) H3) as [E1 E2]. split; [cbn; congruence|].
              intros m e' [<-|I] Lm; [|eapply E2; eassumption]. assert (e' = e) as -> by congruence. split; [exact Ne|]. intros _. eapply IH; [exact Hu|exact Sn|exact H2].
            + destruct (IHn u kids w3 In' Hu H) as [E1 E2]. split; [exact E1|]. intros m e' [<-|I] Lm; [|eapply E2; eassumption].
              assert (e' = e) as -> by congruence. split; [exact Ne|]. intro X. apply kept_false in X. congruence. }
        destruct (K _ _ _ _ (incl_refl _) Hw2 H3) as [E1 E2].
        split.
        + apply listable_dir; [exact L| |exact Cl]. intros n e Le. destruct (E2 n e (lookup_child _ _ _ _ Le) Le) as [X Y]. split; [exact X|]. intro Z. apply Y, Z.
        + apply names_dir; [exact Cl|]. intros n e Le X. destruct (E2 n e (lookup_child _ _ _ _ Le) Le) as [_ Y]. split; [|apply Y, X].
          unfold put_item in H. apply bind_done in H as (o & w4 & H4 & _). unfold object_of_fsitem in H4. cbn [fi_names dir_item] in H4.
          destruct (forallb utf8_valid (map fst kids)) eqn:U; [|discriminate]. rewrite forallb_forall in U. apply U. rewrite E1. apply filter_In.
          split; [eapply lookup_child, Le|apply kept_false, X].
      - destruct e0 as [|c st0| |]; inv M1. split; [eapply listable_file; eauto|eapply names_file; eauto].
    Qed.
  End Put.

  (** *** Listing *)
  Lemma join_push base r n : join base (rel_path (r ++ [n])) = path_push (join base (rel_path r)) n.
  Proof.
    destruct (join_rel base (r ++ [n])) as [Ja' Jc'], (join_rel base r) as [Ja Jc].
    assert (Es : p_slash (join base (rel_path (r ++ [n]))) = false).
    { unfold join. cbn [rel_path p_abs p_slash p_comps]. destruct (is_empty_path base); [reflexivity|]. rewrite drop_normals, map_app. destruct (map Normal r); reflexivity. }
    unfold path_push. rewrite Ja, Jc. rewrite map_app, app_assoc in Jc'. cbn [map] in Jc'. destruct (join base (rel_path (r ++ [n]))) as [a b c]. cbn in *. congruence.
  Qed.
  Section List.
    Context (ex : list bytes) (db : path) (f : fs) (cwd : loc) (base : path).
    Hypothesis Db : exists l e', stat f cwd db = Some (l, e') /\ e' <> EDangling.
    Hypothesis Cl : closed f.
    Notation dbl := (locate cwd db).
    Lemma push_same p q n : p_abs p = p_abs q -> p_comps p = p_comps q -> path_push p n = path_push q n.
    Proof using. unfold path_push. intros -> ->. reflexivity. Qed.
    Lemma list_lives : forall fuel r w l e pp, w_faults w = [] -> here f cwd w ->
      p_abs pp = p_abs base -> p_comps pp = p_comps base ++ map Normal r ->
      stat f cwd (join base (rel_path r)) = Some (l, e) ->
      listable ex dbl f pp l fuel ->
      exists m w', internal_walk_real_fs_items fuel base (rel_path r) (filter_fn ex db) w = (Done m, w') /\ w_faults w' = [] /\ here f cwd w'.
    Proof using Db.
      clear Cl. induction fuel as [|g IH]; intros r w l e pp F Hw Ea Ec S Li;
        (destruct (stat_locate _ _ _ _ _ S) as (_ & L & _); destruct (listable_here _ _ _ _ _ _ _ Li L) as [Pos Kind]; [lia||idtac]).
      cbn [internal_walk_real_fs_items]. unfold fs_metadata at 1.
      assert (exists mt, meta_of e = Some mt) as [mt Mt] by (destruct Kind as [->|(c & st & ->)]; cbn; eauto).
      match goal with |- context [bind (fs_query ?q)] => destruct (query_live q w mt F) as (w1 & T1 & F1 & Qm) end.
      { destruct Hw as [-> ->]. rewrite S. exact Mt. }
      rewrite (run_bind _ _ _ _ _ Qm). clear Qm.
      pose proof (here_ticked _ _ _ _ Hw T1) as Hw1. destruct Kind as [->|(c & st & ->)]; inv Mt; [|eexists _, _; split; [reflexivity|]; auto].
      destruct (read_dir_live (join base (rel_path r)) w1 l F1) as (w2 & T2 & F2 & Qr); [destruct Hw1 as [-> ->]; exact S|].
      rewrite (run_bind _ _ _ _ _ Qr). clear Qr. rewrite (proj1 Hw1). pose proof (here_ticked _ _ _ _ Hw1 T2) as Hw2.
      match goal with |- context [bind ?a _] => change a with (real_each g base (rel_path r) (filter_fn ex db) (children f l) (if is_empty_path (rel_path r) then [] else [(rel_path r, true)])) end.
      destruct (join_rel base r) as [Ja Jc].
      assert (K : forall names acc w2, incl names (children f l) -> w_faults w2 = [] -> here f cwd w2 ->
        exists m w3, real_each g base (rel_path r) (filter_fn ex db) names acc w2 = (Done m, w3) /\ w_faults w3 = [] /\ here f cwd w3).
      { clear -IH S Li Db Ja Jc Ea Ec. induction names as [|n names IHn]; intros acc w2 I2 F2 Hw2; cbn [real_each].
        - eexists _, _. split; [reflexivity|]. auto.
        - destruct (child_lookup f l n) as [e Le]; [apply I2; left; reflexivity|]. pose proof (stat_push _ _ _ _ _ _ S Le) as Sn.
          pose proof (listable_child_ok _ _ _ _ _ _ _ _ Li Le) as Ne.
          destruct (filter_live ex db f cwd (path_push (join base (rel_path r)) n) w2 _ _ F2 Hw2 Sn Ne Db) as (u & T & Fu & Q). rewrite (run_bind _ _ _ _ _ Q).
          pose proof (here_ticked _ _ _ _ Hw2 T) as Hu. assert (In' : incl names (children f l)) by (intros x Hx; apply I2; right; exact Hx).
          assert (Pp : path_push (join base (rel_path r)) n = path_push pp n) by (apply push_same; congruence).
          destruct (kept ex dbl (path_push (join base (rel_path r)) n) (l ++ [n])) eqn:Kp.
          + rewrite Pp in Kp. apply kept_false in Kp.
            assert (Er : path_push (rel_path r) n = rel_path (r ++ [n])) by (unfold path_push, rel_path; cbn; rewrite map_app; reflexivity). rewrite Er.
            assert (Sj : exists e', stat f cwd (join base (rel_path (r ++ [n]))) = Some (l ++ [n], e')).
            { exists e. rewrite <- Sn. f_equal. apply join_push. }
            destruct Sj as [e' Sj].
            assert (Ec' : p_comps (path_push pp n) = p_comps base ++ map Normal (r ++ [n])) by (cbn; rewrite Ec, map_app, app_assoc; reflexivity).
            destruct (IH (r ++ [n]) u _ _ (path_push pp n) Fu Hu Ea Ec' Sj (listable_child _ _ _ _ _ _ _ Li Kp)) as (sb & u1 & Q1 & Fu1 & Hu1).
            rewrite (run_bind _ _ _ _ _ Q1). apply IHn; auto.
          + apply IHn; auto. }
      destruct (K (children f l) (if is_empty_path (rel_path r) then [] else [(rel_path r, true)]) w2 (incl_refl _) F2 Hw2) as (m & w3 & Q & F3 & Hw3). rewrite (run_bind _ _ _ _ _ Q).
      eexists _, _. split; [reflexivity|]. auto.
    Qed.
    Lemma list_needs : forall fuel r w m w' pp, here f cwd w ->
      p_abs pp = p_abs base -> p_comps pp = p_comps base ++ map Normal r ->
      internal_walk_real_fs_items fuel base (rel_path r) (filter_fn ex db) w = (Done m, w') ->
      exists l e, stat f cwd (join base (rel_path r)) = Some (l, e) /\ listable ex dbl f pp l fuel.
    Proof using Cl.
      clear Db. induction fuel as [|g IH]; intros r w m w' pp Hw Ea Ec H; [discriminate|]. cbn [internal_walk_real_fs_items] in H.
      apply bind_done in H as (mt & w1 & H1 & H). apply metadata_done in H1 as (T1 & l & e & S & M1).
      rewrite (here_stat f cwd) in S by exact Hw. pose proof (here_ticked _ _ _ _ Hw T1) as Hw1. exists l, e. split; [exact S|].
      destruct (stat_locate _ _ _ _ _ S) as (_ & L & _). destruct mt as [|size st|]; [| |discriminate].
      - apply bind_done in H as ([names err] & w2 & H2 & H). apply read_dir_done in H2 as (T2 & l' & S2 & R2).
        rewrite (here_stat f cwd), S in S2 by exact Hw1. inv S2. rewrite (proj1 Hw1) in R2. pose proof (here_ticked _ _ _ _ Hw1 T2) as Hw2.
        apply bind_done in H as (x & w3 & H3 & H). destruct err; [discriminate|]. apply ret_done in H as [-> ->]. destruct R2 as [R2|[? R2]]; inv R2.
        match type of H3 with ?a w2 = _ => change a with (real_each g base (rel_path r) (filter_fn ex db) (children f l') (if is_empty_path (rel_path r) then [] else [(rel_path r, true)])) in H3 end.
        destruct (join_rel base r) as [Ja Jc].
        assert (K : forall names acc w2 x w3, incl names (children f l') -> here f cwd w2 -> real_each g base (rel_path r) (filter_fn ex db) names acc w2 = (Done x, w3) ->
          forall n e, In n names -> lookup f (l' ++ [n]) = Some e -> e <> EDangling /\ (~ excluded ex dbl pp l' [n] -> listable ex dbl f (path_push pp n) (l' ++ [n]) g)).
        { clear -IH S Ja Jc Ea Ec. induction names as [|n names IHn]; intros acc w2 x w3 I2 Hw2 H; cbn [real_each] in H.
          - intros n e [].
          - apply bind_done in H as (b & u & H1 & H).
            destruct (child_lookup f l' n) as [e Le]; [apply I2; left; reflexivity|]. pose proof (stat_push _ _ _ _ _ _ S Le) as Sn.
            destruct (filter_needs _ _ _ _ _ _ _ _ _ _ Hw2 H1 Sn) as (Ne & T & ->). pose proof (here_ticked _ _ _ _ Hw2 T) as Hu.
            assert (In' : incl names (children f l')) by (intros y Hx; apply I2; right; exact Hx).
            assert (Pp : path_push (join base (rel_path r)) n = path_push pp n) by (apply push_same; congruence).
            destruct (kept ex dbl (path_push (join base (rel_path r)) n) (l' ++ [n])) eqn:Kp; rewrite Pp in Kp.
            + apply bind_done in H as (sb & u1 & H2 & H).
              pose proof (real_ticked f cwd _ _ (filter_answers ex db f cwd) base _ _ _ _ _ Hu H2) as T2.
              intros m' e' [<-|I] Lm; [|eapply (IHn _ _ _ _ In' (here_ticked _ _ _ _ Hu T2) H); eassumption].
              assert (e' = e) as -> by congruence. split; [exact Ne|]. intros _.
              assert (Er : path_push (rel_path r) n = rel_path (r ++ [n])) by (unfold path_push, rel_path; cbn; rewrite map_app; reflexivity). rewrite Er in H2.
              assert (Ec' : p_comps (path_push pp n) = p_comps base ++ map Normal (r ++ [n])) by (cbn; rewrite Ec, map_app, app_assoc; reflexivity).
              destruct (IH _ _ _ _ (path_push pp n) Hu Ea Ec' H2) as (l2 & e2 & S2 & Li).
              assert (l2 = l' ++ [n]) as ->; [|exact Li]. apply stat_locate in S2 as (-> & _). apply stat_locate in Sn as (-> & _).
              destruct (join_rel base (r ++ [n])) as [Ja' Jc']. unfold locate. cbn [path_push p_abs p_comps]. rewrite Ja, Ja', Jc', Jc, map_app, app_assoc. reflexivity.
            + intros m' e' [<-|I] Lm; [|eapply (IHn _ _ _ _ In' Hu H); eassumption].
              assert (e' = e) as -> by congruence. split; [exact Ne|]. intro X. apply kept_false in X. congruence. }
        apply listable_dir; [exact L| |exact Cl]. intros n e Le. eapply K; [apply incl_refl|exact Hw2|exact H3|eapply lookup_child, Le|exact Le].
      - destruct e as [|c st0| |]; inv M1. eapply listable_file; eauto.
    Qed.
  End List.
  (** A directory that is listed is given as a directory. *)
  Lemma stat_base f cwd base : stat f cwd (join base path_empty) = match stat f cwd base with Some (l, EDir) => Some (l, EDir) | _ => None end.
  Proof.
    destruct (is_empty_path base) eqn:Em.
    - unfold join. cbn [p_abs path_empty]. rewrite Em. unfold stat, resolve. rewrite Em. reflexivity.
    - assert (join base path_empty = Path (p_abs base) (p_comps base) true) as -> by (unfold join; cbn [p_abs path_empty]; rewrite Em; reflexivity).
      unfold stat, resolve. change (is_empty_path (Path (p_abs base) (p_comps base) true)) with (is_empty_path base). rewrite Em. cbn [p_abs p_comps p_slash].
      destruct (walk_comps f _ (p_comps base)) as [l|]; [|reflexivity]. destruct (lookup f l) as [[| | |]|]; try reflexivity; destruct (p_slash base); reflexivity.
  Qed.
End LiveFacts.
