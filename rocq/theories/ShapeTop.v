(** Stored objects of machines that were used sensibly (for [PropsShape.v], [PropsText.v]). *)
From Verif Require Import Base BaseFacts TableFacts Key Keyish Cbor Object ObjectFacts Path World Store File Dir Diff Commit Main WorldFacts StoreFacts ObjStoreFacts SpecStore SpecRun SpecProc Frame DbRel FileRun DirTree Reader Integrity SpecDir SpecClosure Closure ProcFacts SpecDiff SpecPatch SpecShow SpecOut OutFacts SnapFacts ShowFacts Ends SpecText TextFacts SpecShape ShapeFacts.

Section ShapeTop.
  Context {E : Env}.
  Notation ds := sqlite_ds.
  Lemma used_reachable w : well_used w -> reachable w.
  Proof. induction 1; [apply reach_start|apply reach_process|eapply reach_outside]; eassumption. Qed.
  Lemma used_inv w : well_used w -> inv (close_all w).
  Proof.
    intro U. split.
    - split; [exact (reachable_ok w (used_reachable w U))|exact I].
    - induction U as [w H|w cm c U IH H|w w' U IH [H1 H2]].
      + intros _. split; [|exact I]. intro l. cbn. rewrite H. apply shp_empty.
      + assert (W : world_ok (close_all w)) by (split; [exact (reachable_ok w (used_reachable w U))|exact I]).
        pose proof (process_inv cm c w (conj W IH) H) as [_ T]. intro NC. destruct (T NC) as [T1 _]. split; [exact T1|exact I].
      + intro NC. cbn in NC. rewrite H2 in NC. destruct (IH NC) as [X _]. split; [|exact I]. intro l. cbn. rewrite H1. apply X.
  Qed.
  Lemma used_started cm w st w1 : well_used w -> starts cm w st w1 -> inv w1.
  Proof. intros U S. pose proof (rel_setup' cm _ (used_inv _ U)) as X. unfold starts in S. rewrite S in X. exact X. Qed.
  Lemma shp_shaped log d : db_ok log d -> shp d -> well_shaped d.
  Proof.
    intros D [S R]. split; [|exact R]. intros k v H. assert (A : assoc k (d_data d) = Some v) by (apply In_assoc; [apply D|exact H]).
    destruct (S k v A) as (o & O & F). exists o. split; [unfold object_at; rewrite A; exact O|exact F].
  Qed.
  Lemma used_shaped w l : well_used w -> no_coll (w_hashed w) -> well_shaped (db_at (w_dbs w) l).
  Proof.
    intros U NC. destruct (used_inv w U) as [[W _] T]. destruct (T NC) as [S _]. eapply shp_shaped; [apply W|apply S].
  Qed.
  Lemma started_shaped cm w st w1 : well_used w -> starts cm w st w1 -> no_coll (w_hashed w1) -> well_shaped (cur_db w1).
  Proof.
    intros U S NC. destruct (used_started _ _ _ _ U S) as [W T]. eapply shp_shaped; [apply world_ok_cur, W|apply typed_cur; assumption].
  Qed.

  (** ** Reading *)
  Lemma reads_object w k o : reads_as w k (Done o) <-> object_at (cur_db w) (as_db_key k) = Some o.
  Proof.
    split.
    - intro H. unfold reads_as in H. destruct (get_obj ds k (set_faults w [])) as [r w1] eqn:G. cbn in H. subst r.
      apply get_obj_done in G as (_ & v & V & D). unfold object_at. change (cur_db (set_faults w [])) with (cur_db w) in V. rewrite V. exact D.
    - intro O. unfold object_at in O. destruct (assoc (as_db_key k) (d_data (cur_db w))) as [v|] eqn:V; [|discriminate].
      unfold reads_as. destruct (db_read_nofault (fun d => assoc (as_db_key k) (d_data d)) (set_faults w []) eq_refl) as (w1 & T & NF & R).
      rewrite get_obj_eq. unfold bind. rewrite R. change (cur_db (set_faults w [])) with (cur_db w). rewrite V. cbn. rewrite O. reflexivity.
  Qed.
  Lemma object_get w k o : w_faults w = [] -> object_at (cur_db w) (as_db_key k) = Some o -> exists w', get_obj ds k w = (Done o, w') /\ w_faults w' = [] /\ cur_db w' = cur_db w.
  Proof.
    intros F O. unfold object_at in O. destruct (assoc (as_db_key k) (d_data (cur_db w))) as [v|] eqn:V; [|discriminate].
    destruct (db_read_nofault (fun d => assoc (as_db_key k) (d_data d)) w F) as (w1 & T & NF & R).
    exists w1. split; [|split; [exact NF|apply cur_ticked, T]]. rewrite get_obj_eq. unfold bind. rewrite R, V. cbn. rewrite O. reflexivity.
  Qed.
  Lemma formed d k o : shp d -> object_at d k = Some o -> well_formed d o.
  Proof.
    intros [S _] O. unfold object_at in O. destruct (assoc k (d_data d)) as [v|] eqn:V; [|discriminate]. destruct (S k v V) as (o' & D & F). congruence.
  Qed.
  (** Data and files. *)
  Lemma read_works d n : shp d -> forall k, complete d n (as_db_key k) -> holds_bytes d k ->
    exists bs, forall s w, w_faults w = [] -> cur_db w = d -> exists w', read_data ds vec_write n k s w = (Done (s ++ bs), w') /\ w_faults w' = [] /\ cur_db w' = d.
  Proof.
    intro S. induction n as [|n IH]; intros k C (o & O & T); [inversion C|].
    pose proof (complete_keys d n (as_db_key k) o C O) as K. pose proof (formed _ _ _ S O) as Wf. unfold well_formed in Wf. unfold of_role in T.
    assert (Enter : forall (m : object -> M bytes) (bs : bytes) s, (forall w, w_faults w = [] -> cur_db w = d -> exists w', m o w = (Done (s ++ bs), w') /\ w_faults w' = [] /\ cur_db w' = d) ->
      forall w, w_faults w = [] -> cur_db w = d -> exists w', bind (get_obj ds k) m w = (Done (s ++ bs), w') /\ w_faults w' = [] /\ cur_db w' = d).
    { intros m bs s H w F <-. destruct (object_get w k o F O) as (w1 & G & F1 & C1). unfold bind. rewrite G. apply H; assumption. }
    destruct (o_type o) eqn:To; try (exfalso; intuition discriminate).
    - destruct Wf as [_ Wf].
      assert (X : exists bs, forall s w, w_faults w = [] -> cur_db w = d -> exists w', (fix each (l : list key) (s : bytes) : M bytes := match l with [] => ret s | k' :: r => s' <- read_data ds vec_write n k' s ;; each r s' end) (o_keys o) s w = (Done (s ++ bs), w') /\ w_faults w' = [] /\ cur_db w' = d).
      { clear -IH K Wf. induction (o_keys o) as [|c r IHr].
        - exists []. intros s w F Q. exists w. rewrite app_nil_r. auto.
        - inversion Wf as [|? ? (o' & O' & T') Wf']; subst.
          destruct (IH c) as (bs & R); [apply K; left; reflexivity|exists o'; auto|].
          destruct (IHr (fun x X => K x (or_intror X)) Wf') as (bs' & R'). exists (bs ++ bs'). intros s w F Q. destruct (R s w F Q) as (w2 & R2 & F2 & C2).
          destruct (R' (s ++ bs) w2 F2 C2) as (w3 & R3 & F3 & C3). exists w3. split; [|auto]. unfold bind at 1. rewrite R2, app_assoc. exact R3. }
      destruct X as [bs X]. exists bs. intro s. cbn [read_data]. apply Enter. rewrite To. apply X.
    - exists (o_data o). intro s. cbn [read_data]. apply Enter. rewrite To. intros w F Q. exists w. auto.
    - destruct Wf as (size & c & Ks & (o' & O' & T') & _). destruct (IH c) as (bs & R); [apply K; rewrite Ks; left; reflexivity|exists o'; auto|].
      exists bs. intro s. cbn [read_data]. apply Enter. rewrite To, Ks. apply R.
  Qed.
  Lemma complete_stack w k o : full (cur_db w) -> deep_enough w -> object_at (cur_db w) k = Some o -> complete (cur_db w) stack k.
  Proof. intros F L O. eapply complete_le; [eapply object_complete; eassumption|exact L]. Qed.
  Lemma bytes_stored w k : shp (cur_db w) -> full (cur_db w) -> deep_enough w -> holds_bytes (cur_db w) k -> exists bs, stored_bytes w k bs.
  Proof.
    intros S F L H. pose proof H as (o & O & _). pose proof (complete_stack _ _ _ F L O) as C.
    destruct (read_works (cur_db w) stack S k C H) as (bs & R). exists bs. intros v Fv Cv. destruct (R [] v Fv Cv) as (v' & R' & _). rewrite R'. reflexivity.
  Qed.
  (** Trees. *)
  Lemma walk_works d n : shp d -> forall k p w, complete d n (as_db_key k) -> points d Item k -> w_faults w = [] -> cur_db w = d ->
    exists m w', internal_walk_fs_items ds n k p w = (Done m, w') /\ w_faults w' = [] /\ cur_db w' = d.
  Proof.
    intro S. induction n as [|n IH]; intros k p w C (o & O & T) F <-; [inversion C|].
    pose proof (complete_keys (cur_db w) n (as_db_key k) o C O) as K. pose proof (formed _ _ _ S O) as Wf. unfold well_formed in Wf. unfold of_role in T.
    destruct (object_get w k o F O) as (w1 & G & F1 & C1). cbn [internal_walk_fs_items]. unfold get_fsitem. unfold bind at 1. unfold bind at 1. rewrite G.
    destruct T as [T|T]; rewrite T in Wf.
    - destruct Wf as (size & c & Ks & Pc & D). rewrite D. cbn [of_option ret fi_type]. eexists _, w1. split; [reflexivity|auto].
    - destruct Wf as (names & ks & Ks & Pk & D & _). rewrite D. cbn [of_option ret fi_type fi_children fi_names].
      rewrite Ks in K. generalize (if is_empty_path p then [] else [(p, (k, true))]) as acc.
      assert (X : forall x, In x (combine ks names) -> complete (cur_db w) n (as_db_key (fst x)) /\ points (cur_db w) Item (fst x)).
      { intros [c nm] I. apply in_combine_l in I. split; [apply K, I|]. rewrite Forall_forall in Pk. apply Pk, I. }
      revert w1 F1 C1 G X. generalize (combine ks names). intros l w1 F1 C1 _ X. revert w1 F1 C1. induction l as [|[c nm] l IHl]; intros w1 F1 C1 acc.
      + exists acc, w1. auto.
      + destruct (X (c, nm) (or_introl eq_refl)) as [X1 X2]. cbn [fst] in X1, X2. destruct (IH c (join_name p nm) w1 X1 X2 F1 C1) as (m & w2 & R & F2 & C2).
        unfold bind at 1. rewrite R. apply IHl; [intros x Ix; apply X; right; exact Ix|exact F2|exact C2].
  Qed.
  Lemma tree_walkable w k : shp (cur_db w) -> full (cur_db w) -> deep_enough w -> points (cur_db w) Item k -> walkable w k.
  Proof.
    intros S F L P. pose proof P as (o & O & _). destruct (walk_works (cur_db w) stack S k path_empty (set_faults w []) (complete_stack _ _ _ F L O) P eq_refl eq_refl) as (m & w' & R & _).
    exists m. unfold walk_fs_items. rewrite R. reflexivity.
  Qed.
  (** What is found when an item is read. *)
  Lemma item_formed w k o i : shp (cur_db w) -> points (cur_db w) Item k -> reads_as w k (Done o) -> fsitem_of_object o = Some i ->
    (fi_type i = ItFile /\ holds_bytes (cur_db w) k /\ o_type o = FSItemFile) \/ (fi_type i = ItDir /\ o_type o = FSItemDir /\ Forall (points (cur_db w) Item) (fi_children i) /\ Forall entry_name (fi_names i) /\ NoDup (fi_names i)).
  Proof.
    intros S (o' & O & T) R D. apply reads_object in R. assert (o' = o) as -> by congruence. pose proof (formed _ _ _ S O) as Wf. unfold well_formed in Wf. unfold of_role in T.
    destruct T as [T|T]; rewrite T in Wf.
    - destruct Wf as (size & c & _ & _ & D'). assert (i = FSItem size ItFile [] [c]) as -> by congruence. left. split; [reflexivity|]. split; [|exact T]. exists o. auto.
    - destruct Wf as (names & ks & _ & Pk & D' & _ & N1 & N2). assert (i = FSItem (lenN ks) ItDir names ks) as -> by congruence. right. auto 10.
  Qed.
  Lemma entries_item w k k' : shp (cur_db w) -> entries_of w k k' -> points (cur_db w) Item k -> points (cur_db w) Item k'.
  Proof.
    intros S H. induction H as [k|k o i k' k'' R D T I H IH]; intro P; [exact P|]. apply IH. destruct (item_formed _ _ _ _ S P R D) as [(T' & _)|(_ & _ & Fa & _)]; [congruence|].
    rewrite Forall_forall in Fa. apply Fa, I.
  Qed.
  Lemma item_tidy w k : shp (cur_db w) -> points (cur_db w) Item k -> tidy w k.
  Proof.
    intros S P k' o i H R D T. apply (entries_item _ _ _ S H) in P. destruct (item_formed _ _ _ _ S P R D) as [(T' & _)|(_ & _ & _ & N)]; [congruence|exact N].
  Qed.
  (** ** Commits *)
  Lemma commit_formed w k c : shp (cur_db w) -> is_commit w k c -> points (cur_db w) Item (c_tree c) /\ Forall (points (cur_db w) Version) (c_parents c).
  Proof.
    intros S (o & R & T & C). apply reads_object in R. pose proof (formed _ _ _ S R) as Wf. unfold well_formed in Wf. rewrite T in Wf. destruct Wf as (t & ps & a & _ & P1 & P2 & D).
    specialize (C w). rewrite D in C. injection C as <-. auto.
  Qed.
  Lemma version_commit w k : shp (cur_db w) -> points (cur_db w) Version k -> exists c, is_commit w k c.
  Proof.
    intros S (o & O & T). pose proof (formed _ _ _ S O) as Wf. cbn in T. unfold well_formed in Wf. rewrite T in Wf. destruct Wf as (t & ps & a & _ & _ & _ & D).
    exists (Commit t ps a), o. split; [apply reads_object, O|auto].
  Qed.
  Lemma reads_is w k c c' : is_commit w k c -> reads_commit w k c' -> c' = c.
  Proof. intros (o & R & _ & C) (o' & R' & C'). apply reads_object in R, R'. assert (o' = o) as -> by congruence. specialize (C w). rewrite C' in C. injection C. auto. Qed.
  Lemma base_item w k c to : shp (cur_db w) -> is_commit w k c -> base_tree w c to -> match to with Some t => points (cur_db w) Item t | None => True end.
  Proof.
    intros S Ic B. destruct (commit_formed _ _ _ S Ic) as [_ P]. unfold base_tree in B. destruct (c_parents c) as [|p ps]; [subst; exact I|].
    destruct B as (pc & R & ->). inversion P as [|? ? Pv _]; subst. destruct (version_commit _ _ S Pv) as (pc' & Ip). rewrite (reads_is _ _ _ _ Ip R). eapply commit_formed; eassumption.
  Qed.
  Lemma commit_tidy w k c : shp (cur_db w) -> is_commit w k c -> tidy_commit w c.
  Proof.
    intros S Ic. split; [apply item_tidy; [exact S|]; eapply commit_formed; eassumption|]. intros to B. pose proof (base_item _ _ _ _ S Ic B) as P. destruct to as [t|]; [apply item_tidy; assumption|exact I].
  Qed.
  Lemma has_base w k c : shp (cur_db w) -> is_commit w k c -> exists to, base_tree w c to.
  Proof.
    intros S Ic. destruct (commit_formed _ _ _ S Ic) as [_ P]. unfold base_tree. destruct (c_parents c) as [|p ps]; [exists None; reflexivity|].
    inversion P as [|? ? Pv _]; subst. destruct (version_commit _ _ S Pv) as (pc & o & R & _ & C). exists (Some (c_tree pc)), pc. split; [exists o; auto|reflexivity].
  Qed.
  Lemma commit_lineage w n : shp (cur_db w) -> forall k, complete (cur_db w) n (as_db_key k) -> points (cur_db w) Version k ->
    exists l, lineage w k l /\ length l <= n /\ forall k', In k' l -> points (cur_db w) Version k'.
  Proof.
    intro S. induction n as [|n IH]; intros k C P; [inversion C|]. destruct (version_commit _ _ S P) as (c & Ic). destruct (commit_formed _ _ _ S Ic) as [_ Pp].
    assert (Rc : reads_commit w k c) by (destruct Ic as (o & R & _ & D); exists o; auto).
    destruct (c_parents c) as [|p ps] eqn:Cp.
    - exists [k]. split; [eapply lin_root; eassumption|]. split; [cbn; lia|]. intros k' [<-|[]]. exact P.
    - inversion Pp as [|? ? Pv _]; subst. destruct Ic as (o & R & T & D). pose proof R as O. apply reads_object in O.
      destruct (IH p) as (l & Li & Ll & Al); [|exact Pv|].
      + eapply complete_keys; [exact C|exact O|]. pose proof (formed _ _ _ S O) as Wf. unfold well_formed in Wf. rewrite T in Wf. destruct Wf as (t & ps' & a & Ks & _ & _ & D').
        specialize (D w). rewrite D' in D. injection D as <-. cbn in Cp. rewrite Ks, Cp. right. left. reflexivity.
      + exists (k :: l). split; [eapply lin_step; eassumption|]. split; [cbn; lia|]. intros k' [<-|I]; [exact P|apply Al, I].
  Qed.

  (** ** Showing *)
  Lemma at_entries w k r k' : at_path w k r k' -> entries_of w k k'.
  Proof. induction 1 as [k|k o i n k' r k'' R D T I H IH]; [apply eo_refl|]. eapply eo_child; [exact R|exact D|exact T|eapply in_combine_l; exact I|exact IH]. Qed.
  Lemma tree_kind w k x k' d : shp (cur_db w) -> points (cur_db w) Item k -> in_tree w k x k' d ->
    points (cur_db w) Item k' /\ if d then exists o, reads_as w k' (Done o) /\ o_type o = FSItemDir else holds_bytes (cur_db w) k'.
  Proof.
    intros S P [A (i & (o & R & D) & -> & _)]. pose proof (entries_item _ _ _ S (at_entries _ _ _ _ A) P) as P'. split; [exact P'|].
    destruct (item_formed _ _ _ _ S P' R D) as [(T & H & _)|(T & H & _)]; rewrite T; [exact H|exists o; auto].
  Qed.
  Lemma showable_shaped w kd new old : shp (cur_db w) -> full (cur_db w) -> deep_enough w -> points (cur_db w) Item new ->
    match old with Some t => points (cur_db w) Item t | None => True end -> showable w kd new old <-> presentable w kd new old.
  Proof.
    intros S F L Pn Po. unfold showable, presentable.
    assert (Old : forall x k d, tree_of w old x k d -> if d then exists o, reads_as w k (Done o) /\ o_type o = FSItemDir else holds_bytes (cur_db w) k).
    { intros x k d T. destruct old as [t|]; [|destruct T]. eapply tree_kind; [exact S|exact Po|exact T]. }
    split; intros (A & B & C); (split; [exact A|]; split).
    - intros x k d k' d' T T' N. destruct (C _ _ _ _ _ T T' N) as [[bs Sb] [bs' Sb']]. pose proof (proj2 (tree_kind _ _ _ _ _ S Pn T)) as Kn. pose proof (Old _ _ _ T') as Ko. split.
      + destruct d; [|reflexivity]. destruct Kn as (o & R & To). destruct (dir_no_bytes _ _ _ _ R To Sb).
      + destruct d'; [|reflexivity]. destruct Ko as (o & R & To). destruct (dir_no_bytes _ _ _ _ R To Sb').
    - intros Kd x k bs T N Sb. destruct (B x k T N) as (bs' & Sb' & U). assert (bs' = bs) as <- by (specialize (Sb (set_faults w []) eq_refl eq_refl); rewrite (Sb' (set_faults w []) eq_refl eq_refl) in Sb; injection Sb; auto). apply U, Kd.
    - intros x k T N. destruct (bytes_stored w k S F L (proj2 (tree_kind _ _ _ _ _ S Pn T))) as (bs & Sb). exists bs. split; [exact Sb|]. intro Kd. exact (C Kd x k bs T N Sb).
    - intros x k d k' d' T T' N. destruct (B _ _ _ _ _ T T' N) as [-> ->]. split; apply bytes_stored; try assumption; [exact (proj2 (tree_kind _ _ _ _ _ S Pn T))|exact (Old _ _ _ T')].
  Qed.
  Lemma show_shaped f w k c kd to : shp (cur_db w) -> full (cur_db w) -> deep_enough w -> is_commit w k c -> base_tree w c to ->
    fst (display_obj ds (S f) k kd (set_faults w [])) = Done tt <-> presentable w kd (c_tree c) to.
  Proof.
    intros S F L Ic B. destruct (commit_formed _ _ _ S Ic) as [Pt _]. pose proof (base_item _ _ _ _ S Ic B) as Pb. pose proof (commit_tidy _ _ _ S Ic) as [T1 T2].
    etransitivity; [|apply showable_shaped; eassumption]. apply show_exactly; [exact Ic|exact B|exact T1|apply T2, B|apply tree_walkable; assumption|].
    intros t ->. apply tree_walkable; assumption.
  Qed.

  (** ** Started processes *)
  Lemma started_full cm w st w1 : reachable w -> starts cm w st w1 -> full (cur_db w1).
  Proof.
    intros R S. assert (X : sound (snd (setup cm (close_all w)))).
    { assert (G : rel snd_rel (setup cm)).
      { unfold setup. apply rel_bind; [exact _|apply rel_open_repo; exact _|intro]. apply rel_bind; [exact _|apply rel_open_cache; exact _|intros _].
        apply rel_bind; [exact _|apply rel_ignore_on; [exact _|apply pc_begin]|intros _]. apply rel_bind; [exact _|apply pc_cache_begin|intros _]. apply rel_ret; exact _. }
      apply G. split; [exact (reachable_full w R)|exact I]. }
    unfold starts in S. rewrite S in X. cbn [snd] in X. apply sound_cur, X.
  Qed.

  (** The key that is asked for is found. *)
  Lemma asked_live w k key : world_ok w -> w_faults w = [] -> (k = None -> forall n, rp_head (repo_of (cur_db w)) = Some n -> utf8_valid n = true) -> asked_for w k key ->
    exists w', key_or_head k w = (Done key, w') /\ ticked w w' /\ w_faults w' = [].
  Proof.
    intros W F U A. destruct k as [ki|]; cbn [key_or_head asked_for] in *; [apply canon_live; assumption|]. destruct A as (n & l & H & L).
    destruct (branch_live None w n F H (fun _ => U eq_refl n H)) as (w1 & H1 & T1 & F1). cbn [refname_or_head] in H1.
    destruct (newest_live n None w1 key l) as (w2 & H2 & T2 & F2); [eapply ok_ticked; eassumption|exact F1|rewrite (cur_ticked _ _ T1); exact L|].
    exists w2. unfold get_head_key, bind. rewrite H1. split; [exact H2|]. split; [eapply ticked_trans; eassumption|exact F2].
  Qed.
  Lemma ticked_set w w' : ticked w w' -> w_faults w' = [] -> exists t, w' = set_faults (set_tick w t) [].
  Proof. intros (t & r & ->) F. exists t. cbn in F. subst r. reflexivity. Qed.
  Lemma calm_ticked (m : M unit) w w' : reader anything m -> w_faults w' = [] -> cur_db w' = cur_db w ->
    (exists w2, m w' = (Done tt, w2)) <-> fst (m (set_faults w [])) = Done tt.
  Proof.
    intros R F C. destruct (rd_calm _ m R (cur_db w)) as (r & o & X & _). destruct (X w' F C) as (w2 & H & _). destruct (X (set_faults w []) eq_refl eq_refl) as (w3 & H3 & _).
    rewrite H, H3. cbn [fst]. split; [intros (w4 & Y); injection Y as -> _; reflexivity|intros ->; eauto].
  Qed.
  Lemma stack_pos w k o : deep_enough w -> object_at (cur_db w) k = Some o -> exists f, stack = S f.
  Proof.
    unfold deep_enough, object_at. destruct (d_data (cur_db w)) as [|x l]; [discriminate|]. cbn [length]. intros L _. destruct stack; [lia|eauto].
  Qed.
  Lemma show_command cm w s w1 k key c to : well_used w -> starts cm w (Some s) w1 -> no_coll (w_hashed w1) -> deep_enough w1 -> can_ask w1 k ->
    asked_for w1 k key -> is_commit w1 key c -> base_tree w1 c to ->
    (exists w2, run_command cm (Some s) (CShow k) w1 = (Done tt, w2)) <-> presentable w1 KPatch (c_tree c) to.
  Proof.
    intros U St NC L [F Hu] A Ic B. destruct (used_started _ _ _ _ U St) as [W T]. pose proof (typed_cur _ T NC) as Sh. pose proof (started_full _ _ _ _ (used_reachable _ U) St) as Fu.
    destruct (asked_live w1 k key W F Hu A) as (w1' & H1 & Tk & F1). pose proof Ic as (o & R & _). apply reads_object in R. destruct (stack_pos _ _ _ L R) as [f Sf].
    rewrite <- (show_shaped f w1 key c KPatch to Sh Fu L Ic B). rewrite <- Sf.
    rewrite <- (calm_ticked (display_obj ds stack key KPatch) w1 w1' (rd_display anything (fun _ => I) (fun _ => I) (fun _ => I) stack key KPatch) F1 (cur_ticked _ _ Tk)).
    cbn [run_command with_ds]. unfold cmd_show, bind. rewrite H1. reflexivity.
  Qed.
  (** Histories. *)
  Lemma lineage_fun w k l : lineage w k l -> forall l', lineage w k l' -> l' = l.
  Proof.
    assert (Rf : forall k c c', reads_commit w k c -> reads_commit w k c' -> c' = c).
    { intros k0 c c' (o & R & C) (o' & R' & C'). apply reads_object in R, R'. assert (o' = o) as -> by congruence. specialize (C w). rewrite C' in C. injection C. auto. }
    induction 1 as [k c R P|k c p ps l R P _ IH]; intros l' H; inversion H as [k1 c1 R1 P1|k1 c1 p1 ps1 l1 R1 P1 L1]; subst; rewrite (Rf _ _ _ R R1) in P1; rewrite P in P1; try discriminate; [reflexivity|].
    injection P1 as -> ->. f_equal. apply IH, L1.
  Qed.
  Lemma done_works (m : M unit) w w' : reader anything m -> m w = (Done tt, w') -> forall v, cur_db v = cur_db w -> fst (m (set_faults v [])) = Done tt.
  Proof.
    intros R H v C. destruct (rd_done _ m R _ _ _ H) as (o & _ & X & _). destruct (X (set_faults v []) eq_refl C) as (v' & -> & _). reflexivity.
  Qed.
  Lemma loop_shows w kd k l : lineage w k l -> forall fuel c w0 w', reads_commit w k c -> cur_db w0 = cur_db w ->
    log_loop ds fuel c kd w0 = (Done tt, w') -> length (tl l) <= fuel /\ forall k', In k' (tl l) -> shows_well w kd k'.
  Proof.
    intro Li. induction Li as [k c Rc Pc|k c p ps l Rc Pc Li IH]; intros fuel c' w0 w' Rc' Q H; [split; [cbn; lia|intros ? []]|].
    assert (c' = c) as -> by (destruct Rc as (o & R1 & C1), Rc' as (o' & R2 & C2); rewrite (reads_fun _ _ _ _ R2 R1) in C2; specialize (C1 w); rewrite C2 in C1; injection C1; auto).
    destruct fuel as [|f]; cbn [log_loop] in H; rewrite Pc in H; [discriminate H|].
    apply bind_done in H as ([] & w1 & H1 & H). pose proof (done_works _ _ _ (rd_display anything (fun _ => I) (fun _ => I) (fun _ => I) stack p kd) H1 w (eq_sym Q)) as Sp.
    pose proof (rdr_db _ _ _ _ (rd_display anything (fun _ => I) (fun _ => I) (fun _ => I) stack p kd) H1) as D1.
    apply bind_done in H as ([] & w2 & H2 & H). apply print_says in H2 as [_ D2]. apply bind_done in H as ([] & w3 & H3 & H). apply print_says in H3 as [_ D3].
    apply bind_done in H as (o & w4 & H4 & H). pose proof (get_reads _ _ _ _ H4) as R4. apply silent_says in H4 as [_ D4]; [|apply rd_unwrap, rd_get_obj].
    apply bind_done in H as (c2 & w5 & H5 & H). apply unwrap_done, commit_done in H5 as [-> Co].
    assert (R2 : reads_commit w p c2) by (exists o; split; [eapply reads_db; [|exact R4]; congruence|exact Co]).
    destruct (IH f c2 w4 w' R2) as [L Al]; [congruence|exact H|]. cbn [tl]. assert (Ip : exists r, l = p :: r) by (destruct Li; eauto). destruct Ip as [r ->].
    split; [cbn [tl length] in *; lia|]. intros k' [<-|Ik]; [exact Sp|apply Al, Ik].
  Qed.
  Lemma log_shows w kd k l w0 w' : cur_db w0 = cur_db w -> lineage w k l -> log_obj ds k kd w0 = (Done tt, w') -> length l <= S loop_bound /\ forall k', In k' l -> shows_well w kd k'.
  Proof.
    intros Q Li H. unfold log_obj in H. apply bind_done in H as (o & w1 & H1 & H). apply silent_says in H1 as [_ D1]; [|apply rd_unwrap, rd_get_obj].
    destruct (o_type o); try discriminate H.
    apply bind_done in H as ([] & w2 & H2 & H). assert (Q1 : cur_db w1 = cur_db w) by congruence. pose proof (done_works _ _ _ (rd_display anything (fun _ => I) (fun _ => I) (fun _ => I) stack k kd) H2 w (eq_sym Q1)) as Sp.
    pose proof (rdr_db _ _ _ _ (rd_display anything (fun _ => I) (fun _ => I) (fun _ => I) stack k kd) H2) as D2.
    apply bind_done in H as ([] & w3 & H3 & H). apply print_says in H3 as [_ D3]. apply bind_done in H as ([] & w4 & H4 & H). apply print_says in H4 as [_ D4].
    apply bind_done in H as (o2 & w5 & H5 & H). pose proof (get_reads _ _ _ _ H5) as R5. apply silent_says in H5 as [_ D5]; [|apply rd_unwrap, rd_get_obj].
    apply bind_done in H as (c2 & w6 & H6 & H). apply unwrap_done, commit_done in H6 as [-> Co].
    assert (R2 : reads_commit w k c2) by (exists o2; split; [eapply reads_db; [|exact R5]; congruence|exact Co]).
    destruct (loop_shows w kd k l Li loop_bound c2 w5 w' R2) as [L Al]; [congruence|exact H|].
    assert (Ip : exists r, l = k :: r) by (destruct Li; eauto). destruct Ip as [r ->]. split; [cbn [tl length] in *; lia|]. intros k' [<-|Ik]; [exact Sp|apply Al, Ik].
  Qed.
  Lemma log_command cm w s w1 k key : well_used w -> starts cm w (Some s) w1 -> no_coll (w_hashed w1) -> deep_enough w1 -> length (d_data (cur_db w1)) <= loop_bound -> can_ask w1 k ->
    asked_for w1 k key -> points (cur_db w1) Version key -> exists l, lineage w1 key l /\ (forall k', In k' l -> exists c, is_commit w1 k' c) /\
    ((exists w2, run_command cm (Some s) (CLog k) w1 = (Done tt, w2)) <->
     forall k' c to, In k' l -> is_commit w1 k' c -> base_tree w1 c to -> presentable w1 KStat (c_tree c) to).
  Proof.
    intros U St NC L Lb [F Hu] A P. destruct (used_started _ _ _ _ U St) as [W T]. pose proof (typed_cur _ T NC) as Sh. pose proof (started_full _ _ _ _ (used_reachable _ U) St) as Fu.
    destruct (asked_live w1 k key W F Hu A) as (w1' & H1 & Tk & F1). pose proof P as (o & O & _). destruct (stack_pos _ _ _ L O) as [f Sf].
    destruct (commit_lineage w1 _ Sh key (object_complete _ _ _ Fu O) P) as (l & Li & Ll & Al).
    assert (Al' : forall k', In k' l -> exists c, is_commit w1 k' c) by (intros k' Ik; apply version_commit; [exact Sh|apply Al, Ik]).
    exists l. split; [exact Li|]. split; [exact Al'|].
    assert (Eq : (exists w2, run_command cm (Some s) (CLog k) w1 = (Done tt, w2)) <-> fst (log_obj ds key KStat (set_faults w1 [])) = Done tt).
    { rewrite <- (calm_ticked (log_obj ds key KStat) w1 w1' (rd_log anything (fun _ => I) (fun _ => I) (fun _ => I) key KStat) F1 (cur_ticked _ _ Tk)).
      cbn [run_command with_ds]. unfold cmd_log, bind. rewrite H1. reflexivity. }
    rewrite Eq. clear Eq. split.
    - intros H k' c to Ik Ic B. destruct (log_obj ds key KStat (set_faults w1 [])) as [r w2] eqn:Hl. cbn in H. subst r.
      destruct (log_shows w1 KStat key l (set_faults w1 []) w2 eq_refl Li Hl) as [_ Sw]. apply (show_shaped f w1 k' c KStat to Sh Fu L Ic B). rewrite <- Sf. apply Sw, Ik.
    - intro H. destruct (version_commit _ _ Sh P) as [c Ic]. apply (log_works w1 KStat key l c Ic Li); [|lia].
      intros k' Ik. destruct (Al' k' Ik) as [c' Ic']. destruct (has_base _ _ _ Sh Ic') as [to B]. unfold shows_well. rewrite Sf. apply (show_shaped f w1 k' c' KStat to Sh Fu L Ic' B). eapply H; eassumption.
  Qed.

  (** ** What is printed *)
  Lemma show_text cm w s w1 k w2 : well_used w -> starts cm w (Some s) w1 -> no_coll (w_hashed w1) -> run_command cm (Some s) (CShow k) w1 = (Done tt, w2) ->
    exists key l, asked_for w1 k key /\ object_text w1 KPatch key l /\ says w1 w2 l /\ untouched w1 w2.
  Proof.
    intros U St NC. destruct (used_started _ _ _ _ U St) as [W T]. apply show_prints with (w := w); [apply used_reachable, U|exact St|]. intros k' c Ic. eapply commit_tidy; [apply typed_cur; assumption|exact Ic].
  Qed.
  Lemma log_prints_all cm w s w1 k w2 : well_used w -> starts cm w (Some s) w1 -> no_coll (w_hashed w1) -> run_command cm (Some s) (CLog k) w1 = (Done tt, w2) ->
    exists key l t, asked_for w1 k key /\ lineage w1 key l /\ commits_text w1 KStat l t /\ says w1 w2 t /\ untouched w1 w2.
  Proof.
    intros U St NC H. destruct (used_started _ _ _ _ U St) as [W T]. pose proof (typed_cur _ T NC) as Sh.
    pose proof H as H0. cbn [run_command with_ds] in H0. unfold cmd_log in H0. apply bind_done in H0 as (key0 & v & Hk & Hl). apply asked in Hk as [Tk A0]; [|exact W]. apply log_done in Hl as [(c & Ic) _].
    apply (is_commit_db _ w1) in Ic; [|apply cur_ticked, Tk].
    destruct (log_prints cm w s w1 k w2 (used_reachable _ U) St (fun k' c' Ic' => commit_tidy _ _ _ Sh Ic') H) as (key & l & A & Li & Un & X).
    assert (key0 = key) as ->.
    { destruct k as [ki|]; cbn [asked_for] in A, A0; [eapply denotes_fun; eassumption|]. destruct A as (n & l1 & B1 & B2), A0 as (n' & l2 & B3 & B4). rewrite B1 in B3. injection B3 as <-. rewrite B2 in B4. injection B4 as -> _. reflexivity. }
    destruct Ic as (o & R & To & _). apply reads_object in R. destruct (commit_lineage w1 _ Sh key (object_complete _ _ _ (started_full _ _ _ _ (used_reachable _ U) St) R) (ex_intro _ o (conj R To))) as (l' & Li' & _ & Al).
    rewrite (lineage_fun _ _ _ Li _ Li') in Al. destruct X as (t & S & Ct); [intros k' Ik; apply version_commit; [exact Sh|apply Al, Ik]|]. exists key, l, t. auto 10.
  Qed.

  (** ** Everything in a repository that was used sensibly can be read *)
  Lemma used_readable cm w s w1 k : well_used w -> starts cm w (Some s) w1 -> no_coll (w_hashed w1) -> deep_enough w1 ->
    (holds_bytes (cur_db w1) k -> exists bs, stored_bytes w1 k bs) /\
    (points (cur_db w1) Item k -> tidy w1 k /\ walkable w1 k) /\
    (points (cur_db w1) Version k -> exists c l, is_commit w1 k c /\ tidy_commit w1 c /\ points (cur_db w1) Item (c_tree c) /\ lineage w1 k l /\ forall k', In k' l -> points (cur_db w1) Version k').
  Proof.
    intros U St NC L. destruct (used_started _ _ _ _ U St) as [W T]. pose proof (typed_cur _ T NC) as Sh. pose proof (started_full _ _ _ _ (used_reachable _ U) St) as Fu.
    split; [|split].
    - intro H. apply bytes_stored; assumption.
    - intro P. split; [apply item_tidy; assumption|apply tree_walkable; assumption].
    - intro P. destruct (version_commit _ _ Sh P) as [c Ic]. pose proof P as (o & O & _). destruct (commit_lineage w1 _ Sh k (object_complete _ _ _ Fu O) P) as (l & Li & _ & Al).
      exists c, l. split; [exact Ic|]. split; [eapply commit_tidy; eassumption|]. split; [eapply commit_formed; eassumption|]. auto.
  Qed.
End ShapeTop.
