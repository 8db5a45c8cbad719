(** The commits of a branch, and what [log] says about them. *)
From Coq Require Import RelationClasses Sorted Permutation.
From Verif Require Import Base BaseFacts TableFacts Key KeyFacts Keyish Cbor CborFacts Object ObjectFacts Path World WorldFacts Store File Filter Dir Diff Commit Main SpecStore StoreCalls SpecRun SpecProc SpecFile SpecDir SpecClosure
  SpecCache SpecDiff SpecPatch SpecShow SpecOut SpecCmd SpecText SpecShape SpecFetch SpecCheckout SpecLive SpecHonest SpecRestore SpecAgain SpecHistory SpecChronicle Screen SpecScreen Frame DbRel Integrity ObjStoreFacts SessionFacts FilePlan FileFacts ChunkFacts FileRun FsFacts DirPlan DirFacts GetFacts DirTrip DirTree DirWalk
  WalkFacts DirLive CacheFacts HashFacts SortFacts CompareFacts DiffFacts LineFacts CheckoutFacts ProcFacts CmdFacts InitFacts Reader OutFacts SnapFacts ShowFacts TextFacts Closure ShapeFacts ShapeTop LiveFacts LiveDiff LiveCmd LiveStart LiveStat LiveCache LiveRead LiveStory ScreenFacts HonestFacts RestoreFacts AgainFacts HistoryFacts.

Section Chronicle.
  Context {E : Env}.
  Local Notation ds := sqlite_ds.

  (** *** What a database says about the commits *)
  Section Kept.
    Variables (ex : list bytes) (dbl l : loc).
    Fixpoint kept_in (u : world) (L : list told) : Prop :=
      match L with
      | [] => True
      | t :: r => (exists tree to, is_commit u (t_key t) (Commit tree (firstn 1 (map t_key r)) (Attrs (t_message t) [])) /\
                     snap_old ex dbl l (Some (t_files t)) (Some tree) u /\
                     base_tree u (Commit tree (firstn 1 (map t_key r)) (Attrs (t_message t) [])) to /\ snap_old ex dbl l (newest_files r) to u /\ keeps_shape ex dbl l (newest_files r) (t_files t)) /\
                  kept_in u r
      end.
  End Kept.
  Lemma commit_made cm e d w n m b k w' : globs_ok cm -> commits_here cm e d w n m b k w' ->
    lossless_below (w_fs w) (e ++ removelast d) /\ lookup (w_fs w) (e ++ removelast d) = Some EDir /\ there w (db_file e d) /\
    run_process cm (CCommit None m None) w = (Some 0%N, w') /\
    exists w0 tree, w_fs w0 = w_fs w /\ forall u u1, later (db_file e d) w' u -> cur_db u1 = db_at (w_dbs u) (db_file e d) -> w_hashed u1 = w_hashed u ->
      snapshot w0 (cm_exclude cm) (abs_path (e ++ d)) (abs_path (e ++ removelast d)) tree u1 /\ is_commit u1 k (Commit tree (firstn 1 b) (Attrs m [])).
  Proof.
    intros G (db & U & Qd & Std & Hn & Hb & Cs & Ls & Lm & Um & P & NC & Hk). split; [exact Ls|].
    split; [destruct Std as (_ & _ & _ & Rp); exact (root_dir _ _ _ _ _ Rp)|]. split; [destruct Std as (_ & _ & _ & (_ & _ & _ & _ & _ & X & _)); exact X|]. split; [exact P|].
    destruct (commit_stays cm w e d db n m U Qd Std Hn G Cs Lm Um) as (w2 & P2 & _ & _ & _ & K). rewrite P in P2. injection P2 as <-.
    destruct (K NC) as (w0 & k0 & tree & F0 & Hi & _ & Stay). rewrite Hi in Hk. injection Hk as <-. rewrite Hb in Stay. eauto.
  Qed.
  Lemma chronicle_kept cm e d w L : globs_ok cm -> chronicle cm e d w L -> forall u u1, later (db_file e d) w u -> cur_db u1 = db_at (w_dbs u) (db_file e d) -> w_hashed u1 = w_hashed u ->
    kept_in (cm_exclude cm) (e ++ d) (e ++ removelast d) u1 L.
  Proof.
    intros G. induction 1 as [w n m k w' C|w v n m k v' t L r C IH La Cn Sh]; intros u u1 Lu Cu Hu.
    - destruct (commit_made _ _ _ _ _ _ _ _ _ G C) as (Ls & Dw & _ & _ & w0 & tree & F0 & Stay). destruct (Stay u u1 Lu Cu Hu) as [Sn Ic]. split; [|exact I].
      exists tree, None. split; [exact Ic|]. split; [split; [exact Ls|]; split; [exact Dw|]; exists w0; auto|]. split; [reflexivity|]. split; exact I.
    - destruct (commit_made _ _ _ _ _ _ _ _ _ G Cn) as (Ls & Dw & Th & P & w0 & tree & F0 & Stay). destruct (Stay u u1 Lu Cu Hu) as [Sn Ic].
      assert (La2 : later (db_file e d) w u).
      { apply (later_trans _ _ v'); [|exact Lu]. replace v' with (snd (run_process cm (CCommit None m None) v)) by (rewrite P; reflexivity). apply later_process; [exact La|exact Th]. }
      specialize (IH u u1 La2 Cu Hu). split; [|exact IH]. destruct IH as ((tr & to & Ic' & So & _) & _).
      exists tree, (Some tr). split; [exact Ic|]. split; [split; [exact Ls|]; split; [exact Dw|]; exists w0; auto|].
      split; [eexists; split; [exact (commit_reads _ _ _ Ic')|reflexivity]|]. split; [exact So|exact Sh].
  Qed.
  Lemma kept_lineage ex dbl l u L : kept_in ex dbl l u L -> forall t r, L = t :: r -> lineage u (t_key t) (map t_key L).
  Proof.
    induction L as [|t L IH]; intros K t0 r0 Q; [discriminate|]. injection Q as <- <-. destruct K as ((tree & to & Ic & _) & K). apply commit_reads in Ic. destruct L as [|t1 L].
    - eapply lin_root; [exact Ic|reflexivity].
    - eapply lin_step; [exact Ic|reflexivity|]. exact (IH K t1 L eq_refl).
  Qed.
  Lemma kept_presents ex dbl l u L : steady_reads -> 6 < stack -> no_coll (w_hashed u) -> kept_in ex dbl l u L ->
    forall k c to, In k (map t_key L) -> is_commit u k c -> base_tree u c to -> presentable u KStat (c_tree c) to.
  Proof.
    intros St L6 NC. induction L as [|t L IH]; intros K k c to I Ic B; [destruct I|]. destruct K as ((tree & to' & Ic' & Sg & B' & So & Sh) & K). destruct I as [<-|I]; [|eapply IH; eassumption].
    pose proof (is_commit_fun _ _ _ _ Ic Ic') as Qc. subst c. pose proof (base_fun _ _ _ _ B B') as Qt. subst to'. cbn [c_tree]. eapply files_presented; try eassumption. discriminate.
  Qed.
  Lemma kept_text ex dbl l u L : steady_reads -> 6 < stack -> no_coll (w_hashed u) -> kept_in ex dbl l u L ->
    forall text, commits_text u KStat (map t_key L) text -> chronicle_text ex dbl l L text.
  Proof.
    intros St L6 NC. induction L as [|t L IH]; intros K text (ls & F & ->).
    - inversion F; subst. constructor.
    - cbn [map] in F. inversion F as [|? x ? ls' X F']; subst. destruct K as ((tree & to' & Ic' & Sg & B' & So & Sh) & K). destruct X as (c & Ic & to & body & B & Tt & ->).
      pose proof (is_commit_fun _ _ _ _ Ic Ic') as Qc. subst c. pose proof (base_fun _ _ _ _ B B') as Qt. subst to'. cbn [c_tree c_attrs at_message] in *.
      cbn [map concat app]. rewrite <- !app_assoc. apply cht_commit; [eapply files_counted; eassumption|]. apply IH; [exact K|]. exists ls'. auto.
  Qed.

  (** C87 *)
  Theorem logged_history cm e d w t L u db arg : globs_ok cm -> steady_reads -> 6 < stack -> chronicle cm e d w (t :: L) ->
    later (db_file e d) w u -> well_used u -> stands_in cm u e d db -> no_coll (w_hashed u) -> length (d_data db) < stack -> length (d_data db) <= loop_bound -> means cm u db arg (t_key t) ->
    exists u' text, run_process cm (CLog arg) u = (Some 0%N, u') /\ w_fs u' = w_fs u /\ chronicle_text (cm_exclude cm) (e ++ d) (e ++ removelast d) (t :: L) text /\ w_out u' = rev text ++ w_out u.
  Proof.
    intros G St L6 C La Uu Su NC De Lb Mn. pose proof Su as (F & Ct & O & Rp).
    destruct (start_found cm u e d db F (there_place _ Ct) Rp) as (u1 & S & F1 & C1 & D1 & O1 & Cn1 & Cu1 & H1 & Fs1). specialize (Fs1 Ct). set (s := DsState _ _) in *.
    pose proof (at_file _ _ _ _ _ Rp) as Af. pose proof (chronicle_kept _ _ _ _ _ G C u u1 La ltac:(congruence) H1) as K. assert (NC1 : no_coll (w_hashed u1)) by (rewrite H1; exact NC).
    pose proof (kept_lineage _ _ _ _ _ K _ _ eq_refl) as Li. pose proof K as [(tree & to & Ic & _) _]. pose proof Ic as (o & Ro & Ty & _).
    assert (A : asked_for u1 arg (t_key t)).
    { destruct arg as [ki|]; cbn in Mn |- *; [exact (Mn _ _ S)|]. destruct Mn as (n & r & [Hn _] & Hr). exists n, r. rewrite Cu1. auto. }
    assert (Ca : can_ask u1 arg).
    { split; [exact F1|]. destruct arg as [ki|]; cbn in Mn; [intro; discriminate|]. destruct Mn as (n & r & [Hn Un] & Hr). rewrite Cu1. intros _ n' Hn'. rewrite Hn in Hn'. injection Hn' as <-. exact Un. }
    destruct (log_command cm u s u1 arg (t_key t) Uu S NC1 ltac:(unfold deep_enough; rewrite Cu1; apply Nat.lt_le_incl, De) ltac:(rewrite Cu1; exact Lb) Ca A) as (l & Li' & _ & Iff).
    { exists o. split; [apply reads_object, Ro|exact Ty]. }
    pose proof (lineage_fun _ _ _ Li _ Li') as Ql. subst l. destruct (proj2 Iff) as [u2 R2]; [intros k' c to' I Ick B; eapply kept_presents; eassumption|].
    destruct (log_prints_all cm u s u1 arg u2 Uu S NC1 R2) as (k' & l2 & text & A' & Li2 & Tx & Sy & (_ & Fx & _ & _)).
    assert (k' = t_key t).
    { destruct arg as [ki|]; cbn [asked_for] in A, A'; [pose proof (denotes_fun _ _ _ _ A A'); congruence|]. destruct A as (n & l1 & B1 & B2), A' as (n' & l3 & B3 & B4). rewrite B1 in B3. injection B3 as <-. rewrite B2 in B4. congruence. }
    subst k'. pose proof (lineage_fun _ _ _ Li _ Li2) as Ql2. subst l2.
    destruct (process_live cm _ u (Some s) u1 u2 F S R2) as (u' & P & Ow & _ & Fw & _).
    exists u', text. split; [exact P|]. split; [congruence|]. split; [eapply kept_text; eassumption|]. rewrite Ow, Sy. f_equal. exact O1.
  Qed.
End Chronicle.
