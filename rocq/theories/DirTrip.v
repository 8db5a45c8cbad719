(** Storing a directory and fetching it again. *)
From Verif Require Import Base BaseFacts Key Cbor CborFacts Object ObjectFacts Path World WorldFacts Store File Filter Dir SpecStore StoreCalls SpecRun SpecFile SpecDir
  Frame DbRel Integrity ObjStoreFacts SessionFacts FilePlan FileFacts ChunkFacts FileRun FsFacts DirPlan DirFacts GetFacts.

Section DirTrip.
  Context {E : Env}.
  Notation ds := sqlite_ds.

  Lemma lossless_den reads l k : lossless reads -> pdata reads = (l, Done k) -> den l 5 k (fst (stream reads)).
  Proof.
    intros L P. pose proof (data_den _ _ _ P) as (l1 & l2 & st & P1 & _ & _ & _ & D & _). apply D. intros [N4 N3].
    set (w := World [] [] [] [] NoTxn [] None [] [] [] 0).
    assert (F : fitting (ploop (reads_weight reads) pd_init reads)) by apply fitting_loop. unfold fitting in F. rewrite P1 in F. cbn [fst] in F.
    destruct (exec_nofault l1 w eq_refl F) as (w' & X & _).
    assert (H : pd_loop ds (reads_weight reads) pd_init reads w = (Done st, w')).
    { eapply follows_intro; [|exact X]. rewrite <- P1. apply follows_loop. }
    apply L in H. destruct H; congruence.
  Qed.
  Lemma normalise_undotted p : normalise p = undotted p.
  Proof. destruct p as [[|] [|[]] s]; reflexivity. Qed.
  Lemma kept_excluded ex dbl p l r : kept ex dbl (below p r) (l ++ r) = true <-> ~ excluded ex dbl p l r.
  Proof.
    unfold kept, excluded. rewrite andb_true_iff, !negb_true_iff, normalise_undotted. split.
    - intros [H1 H2] [H|(g & I & H)].
      + apply names_prefix_iff in H. congruence.
      + assert (existsb (fun g => glob_match g (undotted (below p r))) ex = true) by (apply existsb_exists; eauto). congruence.
    - intro H. split.
      + destruct (names_prefix dbl (l ++ r)) eqn:N; [|reflexivity]. exfalso. apply H. left. apply names_prefix_iff, N.
      + destruct (existsb _ _) eqn:X; [|reflexivity]. exfalso. apply H. right. apply existsb_exists in X. exact X.
  Qed.
  Lemma kept_included ex dbl p l r : kept_all (kept ex dbl) p l r <-> included ex dbl p l r.
  Proof.
    unfold kept_all, included. split.
    - intros H r1 r2 -> N. destruct r1 as [|n r1] using rev_ind; [congruence|]. clear IHr1 N. apply kept_excluded. apply H with r2.
      rewrite <- app_assoc. reflexivity.
    - intros H r1 n r2 ->. apply kept_excluded. apply H with r2; [rewrite <- app_assoc; reflexivity|apply snoc_not_nil].
  Qed.

  (** What a successful insertion did. *)
  Lemma put_dir fuel p ex db w k w1 : world_ok w ->
    put_fs_item ds fuel p (filter_fn ex db) w = (Done k, w1) -> no_coll (w_hashed w1) ->
    exists e t objs, stat (w_fs w) (w_cwd w) p = Some (locate (w_cwd w) p, e) /\
      shows (w_fs w) (kept ex (locate (w_cwd w) db)) p (locate (w_cwd w) p) t /\
      ptr t = (objs, Done k) /\ world_ok w1 /\ (forall o, In o objs -> holds w1 o) /\ (forall o, holds w o -> holds w1 o) /\
      w_fs w1 = w_fs w /\ w_cwd w1 = w_cwd w.
  Proof.
    intros W H NC.
    destruct (put_fs_item_done ds quiet_sqlite (filter_fn ex db) (w_fs w) (w_cwd w) _ (filter_answers ex db (w_fs w) (w_cwd w)) fuel p w k w1) as (l & e & t & S & Sh & objs & P & U); [split; reflexivity|exact H|].
    pose proof (proj1 (stat_locate _ _ _ _ _ S)) as ->. exists e, t, objs. destruct (puts_holds _ _ _ U W NC) as (A & _ & C & D).
    destruct (puts_fs _ _ _ _ quiet_sqlite U) as [F1 F2]. exact (conj S (conj Sh (conj P (conj A (conj D (conj C (conj F1 F2))))))).
  Qed.
  Lemma shows_lossless f keep t : forall p l objs k, lossless_below f l -> shows f keep p l t ->
    stored objs (fun reads h => lossless reads -> den objs 5 h (fst (stream reads))) t k ->
    stored objs (fun reads h => den objs 5 h (fst (stream reads))) t k.
  Proof.
    induction t as [size reads|kids IH] using rtree_ind'; intros p l objs k L Sh S.
    - destruct S as (h & o & S1 & S2 & S3 & S4 & S5 & S6). exists h, o. repeat split; auto. apply S6.
      apply shows_file_inv in Sh as (c & st & t & X1 & X2 & ->). apply (L []). rewrite app_nil_r. unfold content. rewrite X1. reflexivity.
    - apply stored_dir in S as (ks & o & S1 & S2 & S3 & S4 & S5). apply stored_dir. exists ks, o. repeat split; auto.
      apply shows_dir_inv in Sh as (_ & _ & Sh). clear S1. revert ks S5. induction IH as [|[n t] r Ht Hr IHr]; intros [|k0 ks] S5; cbn in *; try tauto.
      destruct S5. split.
      + eapply Ht; [|apply Sh; left; reflexivity|eassumption]. intros x c tt Hc. rewrite <- app_assoc in Hc. eapply L, Hc.
      + apply IHr; auto.
  Qed.
  Lemma put_stored t objs k : sized t -> ptr t = (objs, Done k) ->
    stored objs (fun reads h => lossless reads -> den objs 5 h (fst (stream reads))) t k.
  Proof.
    intros S P. eapply ptr_stored; eauto. intros objs' reads h I H L. eapply den_mono; [apply le_n|exact I|]. apply lossless_den; assumption.
  Qed.
  Lemma still_holds w w' o : still_stored w w' -> holds w o -> holds w' o.
  Proof. intros S [F H]. split; [exact F|]. apply S, H. Qed.

  (** C24 *)
  Lemma insert_fetch fuel p ex db w k w1 w2 fuel' q w3 : world_ok w -> fs_ok (w_fs w) ->
    put_fs_item ds fuel p (filter_fn ex db) w = (Done k, w1) -> no_coll (w_hashed w1) ->
    lossless_below (w_fs w) (locate (w_cwd w) p) ->
    still_stored w1 w2 -> get_fs_item ds fuel' k q w2 = (Done tt, w3) ->
    exists fl, made_all (w_fs w2) (w_fs w3) (base_loc (w_cwd w2) q) (p_comps q) fl /\
      forall r c, In (r, c) fl <-> content (w_fs w) (locate (w_cwd w) p ++ r) = Some c /\ included ex (locate (w_cwd w) db) p (locate (w_cwd w) p) r.
  Proof.
    intros W O H NC L R G. apply put_dir in H as (e & t & objs & S & Sh & P & _ & Ho & _); auto.
    exists (files t). split.
    - apply (get_done objs t fuel' k q w2 w3); auto.
      + eapply shows_proper; eauto.
      + intros o I. eapply still_holds; eauto.
      + eapply shows_lossless; eauto. apply put_stored; [eapply shows_sized; eauto|exact P].
    - intros r c. rewrite <- kept_included. apply shows_files; assumption.
  Qed.
  Lemma round_files f0 l0 inc f2 f3 b cs fl : (forall r c, In (r, c) fl <-> content f0 (l0 ++ r) = Some c /\ inc r) ->
    made_all f2 f3 b cs fl -> free f2 (fold_left step_comp cs b) ->
    (forall r c, content f3 (fold_left step_comp cs b ++ r) = Some c <-> content f0 (l0 ++ r) = Some c /\ inc r) /\
    (forall x e, lookup f2 x = Some e -> lookup f3 x = Some e) /\
    (forall x, lookup f2 x = None -> lookup f3 x <> None -> (exists r, x = fold_left step_comp cs b ++ r) \/
       (lookup f3 x = Some EDir /\ exists a z, cs = a ++ z /\ x = fold_left step_comp a b)).
  Proof.
    intros HF (G & A & B) Fr. set (m := fold_left step_comp cs b) in *. split; [|split; [exact G|]].
    - intros r c. rewrite <- HF. split.
      + intro H. unfold content in H. destruct (B (m ++ r)) as [X|(N & [(r' & c' & I & Hr)|(D & _)])].
        * rewrite X, Fr in H. discriminate.
        * apply app_inv_head in Hr. subst r'. destruct (A _ _ I) as (_ & (st & X) & _). rewrite X in H. inv H. exact I.
        * rewrite D in H. discriminate.
      + intro I. apply A in I as (_ & (st & X) & _). unfold content. rewrite X. reflexivity.
    - intros x N H. destruct (B x) as [X|(_ & [(r & c & I & ->)|(D & r & c & a & z & I & Hc & Hz & ->)])]; [congruence|left; eauto|].
      apply app_eq_app in Hc as (y & [[Hc ->]|[Hc Hz']]).
      + right. split; [exact D|]. eauto.
      + left. subst a. rewrite fold_left_app. apply map_eq_app in Hz' as (r1 & r2 & -> & <- & <-). rewrite fold_normal. exists r1. reflexivity.
  Qed.
  (** C25, what holds *)
  Lemma round_dirs fl f2 f3 b cs : made_all f2 f3 b cs fl -> free f2 (fold_left step_comp cs b) -> ~ In ParentDir cs ->
    forall r, lookup f3 (fold_left step_comp cs b ++ r) = Some EDir <-> exists n r' c, In (r ++ n :: r', c) fl.
  Proof.
    intros (G & A & B) Fr NP r. set (m := fold_left step_comp cs b) in *. split.
    - intro H. destruct (B (m ++ r)) as [X|(N & [(r' & c' & I & Hr)|(D & r' & c & a & z & I & Hc & Hz & Ha)])].
      + rewrite X, Fr in H. discriminate.
      + rewrite Hr in H. apply A in I as (_ & (st & X) & _). congruence.
      + apply app_eq_app in Hc as (y & [[Hc Hy]|[Hc Hz']]).
        * assert (E1 : exists y', m = fold_left step_comp a b ++ y').
          { subst m cs. rewrite fold_left_app. clear -NP. assert (NP' : ~ In ParentDir y) by (intro I; apply NP, in_or_app; auto). clear NP.
            generalize (fold_left step_comp a b) as u. induction y as [|d y IH]; intro u; [exists []; cbn; rewrite app_nil_r; reflexivity|].
            cbn [fold_left]. destruct (IH (fun I => NP' (or_intror I)) (step_comp u d)) as [y' Hy]. rewrite Hy.
            destruct d as [| |n]; cbn [step_comp]; [eauto|exfalso; apply NP'; left; reflexivity|]. rewrite <- app_assoc. eauto. }
          destruct E1 as [y' E1]. rewrite <- Ha in E1. rewrite <- app_assoc in E1.
          assert (r = []) as ->. { rewrite <- (app_nil_r m) in E1 at 1. apply app_inv_head in E1. destruct r; [reflexivity|discriminate]. }
          destruct r' as [|n r'].
          { apply A in I as (_ & (st & X) & _). congruence. }
          exists n, r', c. exact I.
        * subst a. rewrite fold_left_app in Ha. apply map_eq_app in Hz' as (r1 & r2 & -> & <- & <-). rewrite fold_normal in Ha. apply app_inv_head in Ha. subst r1.
          destruct r2 as [|n r2]; [destruct Hz; reflexivity|]. eauto.
    - intros (n & r' & c & I). apply A in I as (_ & _ & D). rewrite map_app, app_assoc in D. specialize (D (cs ++ map Normal r) (map Normal (n :: r')) eq_refl).
      rewrite fold_left_app, fold_normal in D. apply D. discriminate.
  Qed.
End DirTrip.
