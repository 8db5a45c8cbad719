(** Commits and the files they were made of. *)
From Coq Require Import RelationClasses Sorted Permutation.
From Verif Require Import Base BaseFacts TableFacts Key KeyFacts Keyish Cbor CborFacts Object ObjectFacts Path World WorldFacts Store File Filter Dir Diff Commit Main SpecStore StoreCalls SpecRun SpecProc SpecFile SpecDir SpecClosure
  SpecCache SpecDiff SpecPatch SpecShow SpecOut SpecCmd SpecText SpecShape SpecFetch SpecCheckout SpecLive SpecHonest SpecRestore SpecAgain SpecHistory Screen SpecScreen Frame DbRel Integrity ObjStoreFacts SessionFacts FilePlan FileFacts ChunkFacts FileRun FsFacts DirPlan DirFacts GetFacts DirTrip DirTree DirWalk
  WalkFacts DirLive CacheFacts HashFacts SortFacts CompareFacts DiffFacts LineFacts CheckoutFacts ProcFacts CmdFacts InitFacts Reader OutFacts SnapFacts ShowFacts TextFacts Closure ShapeFacts ShapeTop LiveFacts LiveDiff LiveCmd LiveStart LiveStat LiveCache LiveRead LiveStory ScreenFacts HonestFacts RestoreFacts AgainFacts.

Section History.
  Context {E : Env}.
  Local Notation ds := sqlite_ds.

  (** *** Equal subtrees have equal keys *)
  Definition fixed_data (reads : list readres) (h : key) : Prop := exists objs, pdata reads = (objs, Done h).
  Lemma stored_fun objs objs' t : forall k k', DirFacts.stored objs fixed_data t k -> DirFacts.stored objs' fixed_data t k' -> k = k'.
  Proof.
    induction t as [size reads|kids IH] using rtree_ind'; intros k k' S S'.
    - destruct S as (h & o & A1 & _ & _ & _ & -> & [x A2]). destruct S' as (h' & o' & B1 & _ & _ & _ & -> & [y B2]). rewrite A2 in B2. injection B2 as _ <-. rewrite A1 in B1. injection B1 as <-. reflexivity.
    - apply stored_dir in S as (ks & o & A1 & _ & _ & -> & A2). apply stored_dir in S' as (ks' & o' & B1 & _ & _ & -> & B2).
      assert (ks = ks') as <-; [|rewrite A1 in B1; injection B1 as <-; reflexivity]. clear A1 B1 o o'. rewrite Forall_forall in IH.
      revert ks ks' A2 B2. induction kids as [|[n t] l IHl]; intros [|k ks] [|k' ks'] A B; cbn in A, B; try tauto.
      destruct A as [A1 A2]. destruct B as [B1 B2]. f_equal; [exact (IH (n, t) (or_introl eq_refl) k k' A1 B1)|]. apply IHl; [|exact A2|exact B2]. intros x I. apply IH. right. exact I.
  Qed.
  Lemma sub_shows_at f keep p l t r t' : DirTree.sub t r t' -> forall r0, DirPlan.shows f keep (below p r0) (l ++ r0) t -> DirPlan.shows f keep (below p (r0 ++ r)) (l ++ r0 ++ r) t'.
  Proof.
    induction 1 as [t|kids n t r t' I H IH]; intros r0 Sh; [rewrite !app_nil_r; exact Sh|].
    apply shows_dir_inv in Sh as (_ & _ & Sh). specialize (Sh _ _ I). rewrite push_below, below_app, <- app_assoc in Sh. specialize (IH _ Sh). rewrite <- app_assoc in IH. exact IH.
  Qed.
  Lemma below_nil l : below (abs_path l) [] = abs_path l.
  Proof. unfold below, abs_path. cbn. rewrite app_nil_r. reflexivity. Qed.
  Lemma same_deeper ex dbl l f g x n : same_below ex dbl l f g x -> same_below ex dbl l f g (x ++ [n]).
  Proof.
    intros (A & B & C). split; [|split]; intro r; rewrite <- app_assoc; [apply A|apply B|apply C].
  Qed.
  Lemma shows_below ex dbl l f g t : steady_reads -> forall r t', same_below ex dbl l f g r -> included ex dbl (abs_path l) l r ->
    DirPlan.shows f (DirPlan.kept ex dbl) (below (abs_path l) r) (l ++ r) t -> DirPlan.shows g (DirPlan.kept ex dbl) (below (abs_path l) r) (l ++ r) t' -> t = t'.
  Proof.
    intro RS. induction t as [size reads|kids IH] using rtree_ind'; intros r t' SB In Sh Sh'; pose proof SB as (SD & SF & SL); specialize (SD []); specialize (SF []); specialize (SL []); rewrite app_nil_r in SD, SF, SL.
    - apply shows_file_inv in Sh as (c & st & tk & X & -> & ->).
      destruct (proj1 (SF c)) as (st' & X' & _); [exists st; split; assumption|].
      inversion Sh' as [? ? c' st2 tk' X2 | ? ? ? X2]; subst; rewrite X' in X2; [|discriminate]. injection X2 as <- <-. rewrite (RS tk tk'). reflexivity.
    - apply shows_dir_inv in Sh as (H1 & H2 & H3). assert (C : committed ex dbl l f r EDir) by (split; assumption). pose proof (proj1 SD C) as [H0 _].
      destruct t' as [size reads|kids'].
      + apply shows_file_inv in Sh' as (c & st & tk & X & _). congruence.
      + apply shows_dir_inv in Sh' as (H1' & H2' & H3'). f_equal. rewrite Forall_forall in IH.
        assert (K : forall n, DirPlan.kept ex dbl (path_push (below (abs_path l) r) n) ((l ++ r) ++ [n]) = true <-> included ex dbl (abs_path l) l (r ++ [n])).
        { intro n. rewrite push_below, below_app, <- app_assoc, kept_excluded. symmetry. apply included_snoc, In. }
        apply map_fst_eq.
        * rewrite H2, H2'. apply (SL (fun n => DirPlan.kept ex dbl (path_push (below (abs_path l) r) n) ((l ++ r) ++ [n])) C K).
        * intros n t t' I I'. pose proof (H3 _ _ I) as S1. pose proof (H3' _ _ I') as S2. rewrite push_below, below_app, <- app_assoc in S1, S2.
          apply (IH _ I (r ++ [n])); [apply same_deeper, SB| |exact S1|exact S2]. apply K. apply (in_map fst) in I. rewrite H2 in I. apply filter_In in I. apply I.
  Qed.
  Lemma snap_sub w0 ex dbl l k w : no_coll (w_hashed w) -> snapshot w0 ex (abs_path dbl) (abs_path l) k w -> exists objs, (forall o, In o objs -> holds w o) /\
    forall (D : list readres -> key -> Prop), (forall objs' reads h, incl objs' objs -> pdata reads = (objs', Done h) -> D reads h) ->
    forall x k', at_path w k x k' -> exists t, DirFacts.stored objs D t k' /\ DirPlan.shows (w_fs w0) (DirPlan.kept ex dbl) (below (abs_path l) x) (l ++ x) t /\ included ex dbl (abs_path l) l x.
  Proof.
    intros NC (fuel & w1 & S & O & P & R & I). apply working_ok in S. assert (NC1 : no_coll (w_hashed w1)) by (eapply no_coll_incl; eauto).
    apply put_dir in P as (e & t & objs & St & Sh & Pt & _ & Ho & _); auto. rewrite !locate_abs in Sh.
    assert (Ho2 : forall o, In o objs -> holds w o) by (intros o Io; eapply still_holds; eauto). exists objs. split; [exact Ho2|].
    intros D HD x k' A. apply (ptr_stored D) in Pt; [|eapply shows_sized; eauto|exact HD]. destruct (at_sub _ _ _ _ _ _ _ Ho2 Pt A) as (t' & Sb & Sd). exists t'. split; [exact Sd|].
    destruct (sub_shows _ _ _ _ _ O Sb _ _ Sh) as (_ & K & _). split; [|apply kept_included, K].
    apply (sub_shows_at _ _ (abs_path l) l _ _ _ Sb []). rewrite below_nil, app_nil_r. exact Sh.
  Qed.
  Lemma same_keys w0 w0' ex dbl l kf kg w x k k' : steady_reads -> no_coll (w_hashed w) -> snapshot w0 ex (abs_path dbl) (abs_path l) kf w -> snapshot w0' ex (abs_path dbl) (abs_path l) kg w ->
    same_below ex dbl l (w_fs w0) (w_fs w0') x -> at_path w kf x k -> at_path w kg x k' -> k = k'.
  Proof.
    intros St NC Sf Sg SB A A'. destruct (snap_sub _ _ _ _ _ _ NC Sf) as (objs & _ & F). destruct (snap_sub _ _ _ _ _ _ NC Sg) as (objs' & _ & G).
    destruct (F fixed_data) with (x := x) (k' := k) as (t & S1 & S2 & S3); [intros o r h _ P; exists o; exact P|exact A|].
    destruct (G fixed_data) with (x := x) (k' := k') as (t' & S1' & S2' & _); [intros o r h _ P; exists o; exact P|exact A'|].
    pose proof (shows_below _ _ _ _ _ _ St _ _ SB S3 S2 S2') as <-. eapply stored_fun; eassumption.
  Qed.
  Lemma snap_bytes w0 ex dbl l k w x k' c st : 6 < stack -> no_coll (w_hashed w) -> snapshot w0 ex (abs_path dbl) (abs_path l) k w -> at_path w k x k' ->
    lookup (w_fs w0) (l ++ x) = Some (EFile c st) -> keeps_data c -> stored_bytes w k' c.
  Proof.
    intros L NC Sn A Lk KD. destruct (snap_sub _ _ _ _ _ _ NC Sn) as (objs & Ho & F).
    destruct (F (fun reads h => lossless reads -> den objs 5 h (fst (stream reads)))) with (x := x) (k' := k') as (t & Sd & Sh & _); [|exact A|].
    - intros objs' reads h I P Ls. eapply den_mono; [apply le_n|exact I|]. apply lossless_den; assumption.
    - destruct t as [size reads|kids]; [|apply shows_dir_inv in Sh as (Sh & _); congruence].
      apply shows_file_inv in Sh as (c' & st' & tk & X & -> & ->). rewrite Lk in X. injection X as <- <-.
      destruct Sd as (h' & o & S1 & S2 & S3 & S4 & -> & D). specialize (D (KD tk)). rewrite stream_segment in D. cbn [fst] in D.
      unfold object_of_fsitem in S1. destruct (forallb utf8_valid _); [|discriminate]. injection S1 as <-.
      eapply ShowFacts.file_bytes; [exact L|exact Ho|apply Ho, S4|reflexivity|reflexivity|exact D].
  Qed.

  (** *** From trees to files *)
  Definition snap_old (ex : list bytes) (dbl l : loc) (old : option fs) (to : option key) (w : world) : Prop :=
    match old, to with
    | None, None => True
    | Some f, Some k => lossless_below f l /\ lookup f l = Some EDir /\ exists w0, w_fs w0 = f /\ snapshot w0 ex (abs_path dbl) (abs_path l) k w
    | _, _ => False
    end.
  Lemma bytes_fun w k a b : stored_bytes w k a -> stored_bytes w k b -> a = b.
  Proof. rewrite !stored_gives. intros A B. pose proof (gives_fun _ _ _ _ A B) as Q. congruence. Qed.
  Lemma snap_places f ex dbl l k w : steady_reads -> 6 < stack -> no_coll (w_hashed w) -> snap_old ex dbl l (Some f) (Some k) w ->
    (forall x k' d, in_tree w k x k' d -> x <> [] /\
       ((d = true /\ committed ex dbl l f x EDir) \/ exists c st, d = false /\ committed ex dbl l f x (EFile c st) /\ hashed_as (w_hashed w) c k' /\ stored_bytes w k' c /\ keeps_data c)) /\
    (forall x e, x <> [] -> committed ex dbl l f x e -> exists k' d, in_tree w k x k' d).
  Proof.
    intros St L NC (Ls & Ld & w0 & <- & Sn). destruct (snapshot_tree _ _ _ _ _ _ St NC Sn) as (_ & A & B). unfold snapped in A, B. rewrite !locate_abs in A, B. split.
    - intros x k' d T. destruct (A x k' d T) as (e & [Lk In] & Lf). destruct T as (T & i & _ & _ & Z). destruct Lf as [(-> & -> & _)|(c & st & -> & -> & H)].
      + split; [intro Q; specialize (Z Q); discriminate|]. left. split; [reflexivity|split; assumption].
      + split; [intros ->; rewrite app_nil_r in Lk; congruence|]. right. exists c, st. assert (KD : keeps_data c) by (intro tk; apply (Ls x); unfold content; rewrite Lk; reflexivity).
        split; [reflexivity|]. split; [split; assumption|]. split; [exact H|]. split; [|exact KD]. eapply snap_bytes; eassumption.
    - intros x e N [Lk In]. apply (B x e); [split; assumption|]. intro Q. congruence.
  Qed.
  Lemma files_presented ex dbl l old to g k w kd : steady_reads -> 6 < stack -> no_coll (w_hashed w) -> snap_old ex dbl l old to w -> snap_old ex dbl l (Some g) (Some k) w ->
    keeps_shape ex dbl l old g -> (kd = KPatch -> forall x c, new_at ex dbl l old g x c -> utf8_valid c = true) -> presentable w kd k to.
  Proof.
    intros St L NC So Sg Pr Tx. destruct (snap_places _ _ _ _ _ _ St L NC Sg) as [A B].
    assert (New : forall x k', in_tree w k x k' false -> (forall h d, ~ tree_of w to x h d) -> exists c, new_at ex dbl l old g x c /\ stored_bytes w k' c).
    { intros x k' T N. destruct (A _ _ _ T) as (Nx & [[Q _]|(c & st & _ & Cm & _ & Sb & _)]); [discriminate|]. exists c. split; [|exact Sb]. split; [exists st; split; assumption|].
      intros e Ce. destruct old as [f|], to as [kf|]; try (destruct So; fail); try (destruct Ce; fail). destruct (snap_places _ _ _ _ _ _ St L NC So) as [_ B']. destruct (B' x e Nx Ce) as (h & d & X). exact (N h d X). }
    split; [|split].
    - intros x h d T. destruct to as [kf|]; [|destruct T]. destruct old as [f|]; [|destruct So]. destruct Pr as [Pf Pd]. destruct (snap_places _ _ _ _ _ _ St L NC So) as [A' _].
      destruct (A' x h d T) as (Nx & [[_ C]|(c & st & _ & C & _)]); [|destruct (Pf _ _ _ C) as (c' & st' & C'); exact (B x _ Nx C')].
      destruct (Pd x Nx C) as (SD & _). apply (B x EDir Nx). rewrite <- (app_nil_r x). apply SD. rewrite app_nil_r. exact C.
    - intros x h d h' d' T T' N. destruct to as [kf|]; [|destruct T']. destruct old as [f|]; [|destruct So]. destruct Pr as [Pf Pd]. destruct (snap_places _ _ _ _ _ _ St L NC So) as [A' _].
      destruct (A' x h' d' T') as (Nx & [[_ C]|(c & st & -> & C & _)]).
      + destruct N. destruct So as (_ & _ & w0 & <- & Sf). destruct Sg as (_ & _ & w0' & <- & Sg). destruct T as [T _]. destruct T' as [T' _].
        symmetry. exact (same_keys _ _ _ _ _ _ _ _ _ _ _ St NC Sf Sg (Pd x Nx C) T' T).
      + split; [|reflexivity]. destruct (Pf _ _ _ C) as (c' & st' & [C' _]). destruct (A x h d T) as (_ & [[_ [X _]]|(c2 & st2 & Q & _)]); [congruence|exact Q].
    - intros Qk x h bs T N Sb. destruct (New x h T N) as (c & Nw & Sc). rewrite (bytes_fun _ _ _ _ Sb Sc). exact (Tx Qk x c Nw).
  Qed.
  Lemma listed_impl {A} (D D' : loc -> Prop) (P P' : loc -> A -> Prop) l : (forall x, D x <-> D' x) -> (forall x a, P x a -> P' x a) -> listed D P l -> listed D' P' l.
  Proof. intros HD HP (S & I & J). split; [exact S|]. split; [intro x; rewrite I; apply HD|auto]. Qed.
  Lemma files_changes ex dbl l old to g k w : steady_reads -> 6 < stack -> no_coll (w_hashed w) -> snap_old ex dbl l old to w -> snap_old ex dbl l (Some g) (Some k) w ->
    keeps_shape ex dbl l old g ->
    (forall x h, new_file w k to x h -> exists c, new_at ex dbl l old g x c /\ stored_bytes w h c) /\ (forall x c, new_at ex dbl l old g x c -> exists h, new_file w k to x h) /\
    (forall x h h', changed_file w k to x h h' -> exists b a, changed_at ex dbl l old g x b a /\ stored_bytes w h' b /\ stored_bytes w h a) /\
    (forall x b a, changed_at ex dbl l old g x b a -> exists h h', changed_file w k to x h h').
  Proof.
    intros St L NC So Sg Pr. destruct (files_presented _ _ _ _ _ _ _ _ KStat St L NC So Sg Pr ltac:(discriminate)) as (_ & Both & _). destruct (snap_places _ _ _ _ _ _ St L NC Sg) as [A B].
    assert (Old : forall x e, x <> [] -> committed_before ex dbl l old x e -> exists h d, tree_of w to x h d).
    { intros x e Nx Ce. destruct old as [f|], to as [kf|]; try (destruct So; fail); try (destruct Ce; fail). destruct (snap_places _ _ _ _ _ _ St L NC So) as [_ B']. exact (B' x e Nx Ce). }
    assert (Was : forall x h d, tree_of w to x h d -> (d = true /\ committed_before ex dbl l old x EDir) \/
        exists c st, d = false /\ committed_before ex dbl l old x (EFile c st) /\ hashed_as (w_hashed w) c h /\ stored_bytes w h c /\ keeps_data c).
    { intros x h d T. destruct old as [f|], to as [kf|]; try (destruct So; fail); try (destruct T; fail). destruct (snap_places _ _ _ _ _ _ St L NC So) as [A' _]. exact (proj2 (A' x h d T)). }
    assert (New : forall x h, new_file w k to x h -> exists c, new_at ex dbl l old g x c /\ stored_bytes w h c).
    { intros x h [T N]. destruct (A _ _ _ T) as (Nx & [[Q _]|(c & st & _ & Cm & _ & Sb & _)]); [discriminate|]. exists c. split; [|exact Sb]. split; [exists st; split; assumption|].
      intros e Ce. destruct (Old x e Nx Ce) as (h' & d' & X). exact (N h' d' X). }
    assert (New' : forall x c, new_at ex dbl l old g x c -> exists h, new_file w k to x h).
    { intros x c [(st & Nx & Cm) N]. destruct (B x _ Nx Cm) as (h & d & T). exists h. destruct (A x h d T) as (_ & [[-> [X _]]|(c2 & st2 & -> & _)]); [destruct Cm; congruence|]. split; [exact T|].
      intros h' d' T'. destruct (Was _ _ _ T') as [[_ X]|(c3 & st3 & _ & X & _)]; exact (N _ X). }
    assert (Ch : forall x h h', changed_file w k to x h h' -> exists b a, changed_at ex dbl l old g x b a /\ stored_bytes w h' b /\ stored_bytes w h a).
    { intros x h h' (d & d' & T & T' & N). destruct (Both _ _ _ _ _ T T' N) as [-> ->]. destruct (A _ _ _ T) as (Nx & [[Q _]|(a & st & _ & Cm & Ha & Sa & _)]); [discriminate|].
      destruct (Was _ _ _ T') as [[Q _]|(b & st' & _ & Cb & Hb & Sb & _)]; [discriminate|]. exists b, a. split; [|split; assumption]. split; [exists st; split; assumption|]. split; [exists st'; exact Cb|].
      intros ->. destruct N. eapply hashed_fun; eassumption. }
    assert (Ch' : forall x b a, changed_at ex dbl l old g x b a -> exists h h', changed_file w k to x h h').
    { intros x b a ((st & Nx & Cm) & (st' & Cb) & N). destruct (B x _ Nx Cm) as (h & d & T). destruct (Old x _ Nx Cb) as (h' & d' & T'). exists h, h', d, d'. split; [exact T|]. split; [exact T'|]. intros <-. destruct N.
      destruct (A _ _ _ T) as (_ & [[_ [X _]]|(a' & st2 & _ & [X _] & Ha & _ & Ka)]); [destruct Cm; congruence|].
      destruct Cm as [Cm _]. rewrite Cm in X. injection X as <- _.
      assert (Cb' : exists e0, e0 = EFile b st' /\ committed_before ex dbl l old x e0) by eauto. destruct Cb' as (e0 & Qe & Cb').
      destruct (Was _ _ _ T') as [[_ X]|(b' & st3 & _ & X & Hb & _ & Kb)]; (destruct old as [f|]; [|destruct X]); destruct X as [X _]; destruct Cb as [Cb _]; rewrite Cb in X; [discriminate|]. injection X as <- _.
      exact (hashed_inj _ _ _ _ NC Kb Ka Hb Ha). }
    auto.
  Qed.
  Lemma files_text ex dbl l old to g k w t : steady_reads -> 6 < stack -> no_coll (w_hashed w) -> snap_old ex dbl l old to w -> snap_old ex dbl l (Some g) (Some k) w ->
    presents ex dbl l old g -> tree_text w KPatch k to t -> edits_text ex dbl l old g t.
  Proof.
    intros St L NC So Sg [_ Pr] (A0 & M0 & LA & LM & ->). destruct (files_changes _ _ _ _ _ _ _ _ St L NC So Sg Pr) as (New & New' & Ch & Ch').
    exists A0, M0. split; [|split; [|reflexivity]].
    - refine (listed_impl _ _ _ _ _ _ _ LA).
      + intro x. split; [intros [h N]; destruct (New x h N) as (c & N' & _); eauto|intros [c N]; eauto].
      + intros x p (h & bs & N & Sb & _ & Tx). destruct (New x h N) as (c & N' & Sc). rewrite <- (bytes_fun _ _ _ _ Sb Sc) in N'. eauto.
    - refine (listed_impl _ _ _ _ _ _ _ LM).
      + intro x. split; [intros (h & h' & N); destruct (Ch x h h' N) as (b & a & N' & _); eauto|intros (b & a & N); eauto].
      + intros x p (h & h' & b & a & N & Sb & Sa & Tx). destruct (Ch x h h' N) as (b' & a' & N' & Sb' & Sa'). rewrite <- (bytes_fun _ _ _ _ Sb Sb'), <- (bytes_fun _ _ _ _ Sa Sa') in N'. eauto.
  Qed.

  Lemma files_counted ex dbl l old to g k w t : steady_reads -> 6 < stack -> no_coll (w_hashed w) -> snap_old ex dbl l old to w -> snap_old ex dbl l (Some g) (Some k) w ->
    keeps_shape ex dbl l old g -> tree_text w KStat k to t -> counts_text ex dbl l old g t.
  Proof.
    intros St L NC So Sg Pr (S0 & LS & ->). destruct (files_changes _ _ _ _ _ _ _ _ St L NC So Sg Pr) as (New & New' & Ch & Ch'). exists S0. split; [|reflexivity]. refine (listed_impl _ _ _ _ _ _ _ LS).
    - intro x. split.
      + intros [[h N]|(h & h' & N)]; [left; destruct (New x h N) as (c & N' & _); eauto|right; destruct (Ch x h h' N) as (b & a & N' & _); eauto].
      + intros [[c N]|(b & a & N)]; [left; eauto|right; eauto].
    - intros x s [(h & bs & N & Sb & ->)|(h & h' & b & a & N & Sb & Sa & ->)].
      + left. destruct (New x h N) as (c & N' & Sc). rewrite <- (bytes_fun _ _ _ _ Sb Sc) in N'. eauto.
      + right. destruct (Ch x h h' N) as (b' & a' & N' & Sb' & Sa'). rewrite <- (bytes_fun _ _ _ _ Sb Sb'), <- (bytes_fun _ _ _ _ Sa Sa') in N'. eauto.
  Qed.

  (** *** Showing a commit *)
  Lemma snapshot_show cm u e d db ki k c g old : well_used u -> steady_reads -> stands_in cm u e d db -> no_coll (w_hashed u) -> length (d_data db) < stack -> 6 < stack -> taken_for cm u ki k ->
    let l := e ++ removelast d in let dbl := e ++ d in let ex := cm_exclude cm in
    presents ex dbl l old g ->
    (forall u1, cur_db u1 = db -> w_hashed u1 = w_hashed u -> is_commit u1 k c /\ snap_old ex dbl l (Some g) (Some (c_tree c)) u1 /\ exists to, base_tree u1 c to /\ snap_old ex dbl l old to u1) ->
    exists u' t, run_process cm (CShow (Some ki)) u = (Some 0%N, u') /\ w_fs u' = w_fs u /\ edits_text ex dbl l old g t /\
      w_out u' = rev (Printed "commit" [as_user_key k] :: Printed "" [] :: Printed "message" [at_message (c_attrs c)] :: Printed "" [] :: t) ++ w_out u.
  Proof.
    intros Uu St Su NC De L6 Tk l dbl ex Pr K. pose proof Su as (F & Ct & O & Rp).
    destruct (start_found cm u e d db F (there_place _ Ct) Rp) as (u1 & S & F1 & C1 & D1 & O1 & Cn1 & Cu1 & H1 & Fs1). specialize (Fs1 Ct). fold l dbl in S. set (s := DsState (abs_path dbl) (abs_path l)) in *.
    destruct (K u1 Cu1 H1) as (Ic & Sg & to & Bt & So). assert (NC1 : no_coll (w_hashed u1)) by (rewrite H1; exact NC).
    pose proof (files_presented _ _ _ _ _ _ _ _ KPatch St L6 NC1 So Sg (proj2 Pr) (fun _ => proj1 Pr)) as Pb. pose proof (Tk _ _ S) as Dn.
    destruct (proj2 (show_exactly_all cm u s u1 (Some ki) Uu S NC1 ltac:(rewrite Cu1; exact De) F1)) as [u2 R2].
    { split; [discriminate|]. exists k. split; [exact Dn|]. right. right. exists c, to. auto. }
    destruct (show_text cm u s u1 (Some ki) u2 Uu S NC1 R2) as (k' & t & A & X & Sy & (_ & Fx & _ & _)). cbn in A. assert (k' = k) by (pose proof (denotes_fun _ _ _ _ Dn A); congruence). subst k'.
    destruct (process_live cm _ u (Some s) u1 u2 F S R2) as (u' & P & Ow & _ & Fw & _).
    assert (exists t', edits_text ex dbl l old g t' /\ t = Printed "commit" [as_user_key k] :: Printed "" [] :: Printed "message" [at_message (c_attrs c)] :: Printed "" [] :: t') as (t' & Et & ->).
    { destruct Ic as (o & Ro & Ty & Co). assert (Oth : forall o', reads_as u1 k (Done o') -> o_type o' = TCommit) by (intros o' Ro'; unfold reads_as in Ro, Ro'; congruence).
      inversion X as [k0 c' t0 Ic' Ctx|k0 o' Ro' To|k0 o' ? t0 Ro' To|k0 o' ? Ro' To]; subst k0; try (specialize (Oth _ Ro'); destruct To; congruence); try (specialize (Oth _ Ro'); congruence).
      assert (Ic : is_commit u1 k c) by (exists o; auto). pose proof (is_commit_fun _ _ _ _ Ic Ic') as ->. destruct Ctx as (to' & body & Bt' & Tt & Qt).
      pose proof (base_fun _ _ _ _ Bt Bt') as <-. exists body. split; [|congruence]. eapply files_text; eassumption. }
    exists u', t'. split; [exact P|]. split; [congruence|]. split; [exact Et|]. rewrite Ow, Sy. f_equal. exact O1.
  Qed.

  Lemma later_trans l w v u : later l w v -> later l v u -> later l w u.
  Proof. intros A B. induction B as [v|v u cm c _ IH Th|v u u' _ IH O]; [exact A|apply later_process; auto|apply (later_outside _ _ u); auto]. Qed.
  Lemma root_dir cm w e d db : repository_at cm w e d db -> lookup (w_fs w) (e ++ removelast d) = Some EDir.
  Proof.
    intros (_ & Nd & Di & _). apply (Di (e ++ removelast d) [last d []]). rewrite <- app_assoc. f_equal. apply app_removelast_last, Nd.
  Qed.
  (** C86 *)
  Theorem shown_history cm w e d db n m : well_used w -> steady_reads -> 6 < stack -> quiet_disk w -> stands_in cm w e d db -> head_named db n -> globs_ok cm ->
    let l := e ++ removelast d in let dbl := e ++ d in let ex := cm_exclude cm in
    let shows_later w' k m old g := forall u db2 ki, later (db_file e d) w' u -> well_used u -> stands_in cm u e d db2 -> no_coll (w_hashed u) -> length (d_data db2) < stack -> taken_for cm u ki k ->
      exists u' t, run_process cm (CShow (Some ki)) u = (Some 0%N, u') /\ w_fs u' = w_fs u /\ edits_text ex dbl l old g t /\
        w_out u' = rev (Printed "commit" [as_user_key k] :: Printed "" [] :: Printed "message" [m] :: Printed "" [] :: t) ++ w_out u in
    can_store ex (abs_path dbl) (abs_path l) w -> lossless_below (w_fs w) l -> (lenN m < 2 ^ 62)%N -> utf8_valid m = true ->
    exists w', run_process cm (CCommit None m None) w = (Some 0%N, w') /\
      (no_coll (w_hashed w') -> exists k, history n None (repo_of (db_at (w_dbs w') (db_file e d))) = k :: history n None (repo_of db) /\
         (history n None (repo_of db) = [] -> presents ex dbl l None (w_fs w) -> shows_later w' k m None (w_fs w)) /\
         forall v db1 n1 m1 r, later (db_file e d) w' v -> well_used v -> quiet_disk v -> stands_in cm v e d db1 -> head_named db1 n1 -> history n1 None (repo_of db1) = k :: r ->
           can_store ex (abs_path dbl) (abs_path l) v -> lossless_below (w_fs v) l -> (lenN m1 < 2 ^ 62)%N -> utf8_valid m1 = true ->
           exists v', run_process cm (CCommit None m1 None) v = (Some 0%N, v') /\
             (no_coll (w_hashed v') -> exists k1, history n1 None (repo_of (db_at (w_dbs v') (db_file e d))) = k1 :: k :: r /\
                (presents ex dbl l (Some (w_fs w)) (w_fs v) -> shows_later v' k1 m1 (Some (w_fs w)) (w_fs v)))).
  Proof.
    intros U St L6 Qd Std Hn G l dbl ex shows_later Cs Ls Lm Um.
    destruct (commit_stays cm w e d db n m U Qd Std Hn G Cs Lm Um) as (w' & P & Ow & Sw & Uw & K). fold l dbl ex in K. exists w'. split; [exact P|].
    intro NC. destruct (K NC) as (w0 & k & tree & F0 & Hi & _ & Stay). exists k. split; [exact Hi|].
    assert (Dw : lookup (w_fs w) l = Some EDir) by (destruct Std as (_ & _ & _ & Rp); exact (root_dir _ _ _ _ _ Rp)). split.
    - intros Q0 Pr u db2 ki La Uu Su NCu De Tk. pose proof Su as (_ & _ & _ & Rpu). pose proof (at_file _ _ _ _ _ Rpu) as Af.
      apply (snapshot_show cm u e d db2 ki k (Commit tree (firstn 1 (history n None (repo_of db))) (Attrs m [])) (w_fs w) None Uu St Su NCu De L6 Tk Pr).
      intros u1 Cu Hu. destruct (Stay u u1 La ltac:(congruence) Hu) as [Sn Ic]. split; [exact Ic|]. split.
      + split; [exact Ls|]. split; [exact Dw|]. exists w0. split; [exact F0|exact Sn].
      + exists None. split; [|exact I]. unfold base_tree. cbn [c_parents]. rewrite Q0. reflexivity.
    - intros v db1 n1 m1 r La Uv Qv Sv Hn1 Hr Cv Lv Lm1 Um1.
      destruct (commit_stays cm v e d db1 n1 m1 Uv Qv Sv Hn1 G Cv Lm1 Um1) as (v' & Pv & _ & _ & _ & Kv). fold l dbl ex in Kv. exists v'. split; [exact Pv|].
      intro NCv. destruct (Kv NCv) as (v0 & k1 & tree1 & Fv0 & Hiv & _ & Stay1). rewrite Hr in Hiv, Stay1. exists k1. split; [exact Hiv|].
      intros Pr u db2 ki La1 Uu Su NCu De Tk. pose proof Su as (_ & _ & _ & Rpu). pose proof (at_file _ _ _ _ _ Rpu) as Af.
      assert (Dv : lookup (w_fs v) l = Some EDir) by (destruct Sv as (_ & _ & _ & Rp); exact (root_dir _ _ _ _ _ Rp)).
      assert (Th : there v (db_file e d)) by (destruct Sv as (_ & _ & _ & (_ & _ & _ & _ & _ & X & _)); exact X).
      assert (La2 : later (db_file e d) w' u).
      { apply (later_trans _ _ v'); [|exact La1]. replace v' with (snd (run_process cm (CCommit None m1 None) v)) by (rewrite Pv; reflexivity). apply later_process; [exact La|exact Th]. }
      apply (snapshot_show cm u e d db2 ki k1 (Commit tree1 (firstn 1 (k :: r)) (Attrs m1 [])) (w_fs v) (Some (w_fs w)) Uu St Su NCu De L6 Tk Pr).
      intros u1 Cu Hu. destruct (Stay u u1 La2 ltac:(congruence) Hu) as [Sn Ic]. destruct (Stay1 u u1 La1 ltac:(congruence) Hu) as [Sn1 Ic1]. split; [exact Ic1|]. split.
      + split; [exact Lv|]. split; [exact Dv|]. exists v0. split; [exact Fv0|exact Sn1].
      + exists (Some tree). split; [eexists; split; [exact (commit_reads _ _ _ Ic)|reflexivity]|]. split; [exact Ls|]. split; [exact Dw|]. exists w0. split; [exact F0|exact Sn].
  Qed.
End History.
