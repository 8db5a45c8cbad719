(** Committing the same files again stores nothing but the commit. *)
From Coq Require Import RelationClasses Sorted Permutation.
From Verif Require Import Base BaseFacts TableFacts Key KeyFacts Keyish Cbor CborFacts Object ObjectFacts Path World WorldFacts Store File Filter Dir Diff Commit Main SpecStore StoreCalls SpecRun SpecProc SpecFile SpecDir SpecClosure
  SpecCache SpecDiff SpecPatch SpecShow SpecOut SpecCmd SpecText SpecShape SpecCheckout SpecLive SpecHonest SpecRestore SpecAgain Screen SpecScreen Frame DbRel Integrity ObjStoreFacts SessionFacts FilePlan FileFacts ChunkFacts FileRun FsFacts DirPlan DirFacts GetFacts DirTrip DirTree DirWalk
  WalkFacts DirLive CacheFacts HashFacts SortFacts CompareFacts DiffFacts LineFacts CheckoutFacts ProcFacts CmdFacts InitFacts Reader OutFacts SnapFacts ShowFacts Closure ShapeFacts ShapeTop LiveFacts LiveDiff LiveCmd LiveStart LiveStat LiveCache LiveStory ScreenFacts HonestFacts RestoreFacts.

Section Again.
  Context {E : Env}.
  Local Notation ds := sqlite_ds.

  Lemma included_snoc ex dbl p l r n : included ex dbl p l r -> included ex dbl p l (r ++ [n]) <-> ~ excluded ex dbl p l (r ++ [n]).
  Proof.
    intro I. split; [intro H; apply (H (r ++ [n]) []); [rewrite app_nil_r; reflexivity|apply snoc_not_nil]|].
    intros N r1 r2 Q N1. destruct r2 as [|x r2] using rev_ind; [rewrite app_nil_r in Q; subst r1; exact N|]. clear IHr2.
    rewrite app_assoc in Q. apply app_inj_tail in Q as [Q _]. exact (I r1 r2 Q N1).
  Qed.
  Lemma included_nil ex dbl p l : included ex dbl p l [].
  Proof. intros [|? ?] r2 Q N; [congruence|discriminate]. Qed.

  (** What is shown depends on nothing but what is included. *)
  Lemma shows_same ex dbl l f g t : steady_reads -> same_committed ex dbl l f g -> same_listing ex dbl l f g ->
    forall r t', included ex dbl (abs_path l) l r -> DirPlan.shows f (DirPlan.kept ex dbl) (below (abs_path l) r) (l ++ r) t -> DirPlan.shows g (DirPlan.kept ex dbl) (below (abs_path l) r) (l ++ r) t' -> t = t'.
  Proof.
    intros RS [SD SF] SL. induction t as [size reads|kids IH] using rtree_ind'; intros r t' In Sh Sh'.
    - apply shows_file_inv in Sh as (c & st & tk & X & -> & ->).
      destruct (proj1 (SF r c)) as (st' & X' & _); [exists st; split; assumption|].
      inversion Sh' as [? ? c' st2 tk' X2 | ? ? ? X2]; subst; rewrite X' in X2; [|discriminate]. injection X2 as <- <-. rewrite (RS tk tk'). reflexivity.
    - apply shows_dir_inv in Sh as (H1 & H2 & H3). assert (C : committed ex dbl l f r EDir) by (split; assumption). pose proof (proj1 (SD r) C) as [H0 _].
      destruct t' as [size reads|kids'].
      + apply shows_file_inv in Sh' as (c & st & tk & X & _). congruence.
      + apply shows_dir_inv in Sh' as (H1' & H2' & H3'). f_equal. rewrite Forall_forall in IH.
        assert (K : forall n, DirPlan.kept ex dbl (path_push (below (abs_path l) r) n) ((l ++ r) ++ [n]) = true <-> included ex dbl (abs_path l) l (r ++ [n])).
        { intro n. rewrite push_below, below_app, <- app_assoc, kept_excluded. symmetry. apply included_snoc, In. }
        apply map_fst_eq.
        * rewrite H2, H2'. apply (SL r (fun n => DirPlan.kept ex dbl (path_push (below (abs_path l) r) n) ((l ++ r) ++ [n])) C K).
        * intros n t t' I I'. pose proof (H3 _ _ I) as S1. pose proof (H3' _ _ I') as S2. rewrite push_below, below_app, <- app_assoc in S1, S2.
          apply (IH _ I (r ++ [n])); [|exact S1|exact S2]. apply K. apply (in_map fst) in I. rewrite H2 in I. apply filter_In in I. apply I.
  Qed.

  (** What is stored again is there already. *)
  Definition has_row (w : world) (o : object) : Prop := exists v, assoc (as_db_key (obj_key o)) (d_data (cur_db w)) = Some v.
  Lemma row_still w w' o : still_stored w w' -> has_row w o -> has_row w' o.
  Proof. intros S [v H]. exists v. apply S, H. Qed.
  Lemma put_row o w k w1 : put_obj ds o w = (Done k, w1) -> still_stored w w1 /\ has_row w1 o.
  Proof.
    intro H. split; [exact (stores_still _ _ (stores_put _ _ _ _ H))|]. destruct (put_obj_key _ _ _ _ _ H) as [-> _].
    apply put_obj_put, put_done in H as (_ & C & _). unfold has_row. rewrite C. cbn. rewrite assoc_ignore, bytes_eqb_refl.
    destruct (assoc (as_db_key (obj_key o)) (d_data (cur_db w))) eqn:A; unfold obj_key in *; rewrite ?A; eauto.
  Qed.
  Lemma puts_rows w l w' : puts ds w l w' -> still_stored w w' /\ forall o, In o l -> has_row w' o.
  Proof.
    intro P. induction P as [w|w w1 l w' T P IH|w o w1 l w' H P IH].
    - split; [intros ? ? X; exact X|intros o []].
    - destruct IH as [S R]. split; [|exact R]. intros x v X. apply S. rewrite (cur_ticked _ _ T). exact X.
    - destruct IH as [S R]. destruct (put_row _ _ _ _ H) as [S1 R1]. split; [intros x v X; apply S, S1, X|].
      intros x [<-|I]; [exact (row_still _ _ _ S R1)|apply R, I].
  Qed.
  Lemma puts_again w l w' : puts ds w l w' -> (forall o, In o l -> has_row w o) -> cur_db w' = cur_db w.
  Proof.
    intro P. induction P as [w|w w1 l w' T P IH|w o w1 l w' H P IH]; intro R; [reflexivity| |].
    - rewrite <- (cur_ticked _ _ T). apply IH. intros o I. unfold has_row. rewrite (cur_ticked _ _ T). apply R, I.
    - destruct (R o (or_introl eq_refl)) as [v A]. destruct (put_obj_key _ _ _ _ _ H) as [_ Ft]. destruct (put_again w o v Ft A) as [_ X]. rewrite H in X. destruct X as [_ X].
      rewrite IH; [exact X|]. intros x I. apply (row_still w); [exact (proj1 (put_row _ _ _ _ H))|]. apply R. right. exact I.
  Qed.
  Lemma put_item_again ex dbl l w k w1 v k' v1 : steady_reads -> same_committed ex dbl l (w_fs w) (w_fs v) -> same_listing ex dbl l (w_fs w) (w_fs v) ->
    put_fs_item ds stack (abs_path l) (filter_fn ex (abs_path dbl)) w = (Done k, w1) -> put_fs_item ds stack (abs_path l) (filter_fn ex (abs_path dbl)) v = (Done k', v1) ->
    k' = k /\ (still_stored w1 v -> cur_db v1 = cur_db v).
  Proof.
    intros St SC SL H H'.
    destruct (put_fs_item_done ds quiet_sqlite (filter_fn ex (abs_path dbl)) (w_fs w) (w_cwd w) _ (filter_answers ex (abs_path dbl) (w_fs w) (w_cwd w)) stack (abs_path l) w k w1) as (m & e & t & S & Sh & objs & P & Pu); [split; reflexivity|exact H|].
    destruct (put_fs_item_done ds quiet_sqlite (filter_fn ex (abs_path dbl)) (w_fs v) (w_cwd v) _ (filter_answers ex (abs_path dbl) (w_fs v) (w_cwd v)) stack (abs_path l) v k' v1) as (m' & e' & t' & S' & Sh' & objs' & P' & Pu'); [split; reflexivity|exact H'|].
    apply stat_locate in S as (-> & _). apply stat_locate in S' as (-> & _). rewrite !locate_abs in *.
    assert (t = t').
    { refine (shows_same ex dbl l (w_fs w) (w_fs v) t St SC SL [] t' (included_nil _ _ _ _) _ _); rewrite app_nil_r; [replace (below (abs_path l) []) with (abs_path l); [exact Sh|]|replace (below (abs_path l) []) with (abs_path l); [exact Sh'|]];
        unfold below, abs_path; cbn; rewrite app_nil_r; reflexivity. }
    subst t'. rewrite P in P'. injection P' as <- <-. split; [reflexivity|]. intro SS. apply (puts_again _ _ _ Pu').
    intros o I. apply (row_still w1); [exact SS|]. exact (proj2 (puts_rows _ _ _ Pu) o I).
  Qed.

  (** A commit adds its objects, then itself. *)
  Lemma ins_perm k v l : Permutation (ins_row k v l) ((k, v) :: l).
  Proof. induction l as [|[a b] l IH]; cbn; [reflexivity|]. destruct (bytes_ltb k a); [reflexivity|]. rewrite IH. apply perm_swap. Qed.
  Lemma commit_rows cm s m w w' : world_ok w -> cmd_commit cm s None m None w = (Done tt, w') ->
    exists name tree k w0 w1, rp_head (repo_of (cur_db w)) = Some name /\ ticked w w0 /\ put_fs_item ds stack (ds_repo s) (filter_fn (cm_exclude cm) (ds_folder s)) w0 = (Done tree, w1) /\
      still_stored w1 w' /\ one_more k (cur_db w1) (cur_db w') /\ history name None (repo_of (cur_db w')) = k :: history name None (repo_of (cur_db w)) /\ w_conn w' = w_conn w.
  Proof.
    intros W H. unfold cmd_commit in H. apply bind_done in H as (f & v1 & H1 & H). apply filter_done in H1 as [-> ->].
    apply bind_done in H as (name & v2 & H2 & H). cbn [refname_or_head] in H2. apply head_done in H2 as [T2 N].
    apply bind_done in H as (got & v3 & H3 & H). apply bind_done in H as (parents & v4 & H4 & H).
    assert (W2 : world_ok v2) by (exact (dr_ticked ok_rel w v2 T2 W)).
    assert (T4 : ticked v2 v4).
    { apply try_done in H3 as [(k0 & -> & H3)|(e & -> & H3)].
      - apply ret_done in H4 as [-> ->]. exact (proj1 (latest_done _ _ _ _ W2 H3)).
      - destruct e; try discriminate H4. apply ret_done in H4 as [-> ->]. exact (proj1 (latest_none _ _ _ W2 H3)). }
    pose proof (ticked_trans _ _ _ T2 T4) as T24. apply bind_done in H as (tree & v5 & H5 & H). apply bind_done in H as (k & v6 & H6 & H).
    pose proof (stores_item _ _ _ _ _ _ _ H5) as S5. rewrite commit_tree_eq in H6. pose proof (stores_put _ _ _ _ H6) as S6.
    cbn [reflog_push ds] in H. unfold sqlite_reflog_push in H. apply db_write_done in H as (v7 & T7 & -> & C7). cbn [rl_name rl_remote rl_key] in *.
    set (d7 := upd_reflog _ (cur_db v6)) in *. assert (C : cur_db (put_db d7 v7) = d7) by apply cur_put.
    exists name, tree, k, v4, v5. split; [exact N|]. split; [exact T24|]. split; [exact H5|]. rewrite C.
    split; [intros x v X; rewrite C; apply (stores_still _ _ S6), X|]. split.
    - destruct (put_obj_key _ _ _ _ _ H6) as [Kq _]. apply put_obj_put, put_done in H6 as (_ & C6 & _). unfold one_more. cbn [d7 upd_reflog d_data]. rewrite C6. cbn [upd_data d_data].
      unfold insert_or_ignore. destruct (assoc _ _); [left; reflexivity|right]. eexists. apply ins_perm.
    - split; [|destruct S5 as (_ & _ & _ & _ & N5); destruct S6 as (_ & _ & _ & _ & N6); transitivity (w_conn v6); [unfold put_db; destruct T7 as (t & q & ->); cbn; destruct (w_txn v6); reflexivity|destruct T24 as (t & q & ->); cbn in *; congruence]].
      assert (L : rp_log (repo_of d7) = Push name None k :: rp_log (repo_of (cur_db w))).
      { replace (repo_of d7) with (Repo (rp_objects (repo_of (cur_db v6))) (rp_head (repo_of (cur_db v6))) (Push name None k :: rp_log (repo_of (cur_db v6)))) by (symmetry; apply push_log_cur). cbn [rp_log].
        destruct S5 as ((S5l & _) & _). destruct S6 as ((S6l & _) & _). rewrite <- (cur_ticked _ _ T24). unfold repo_of. cbn [rp_log]. rewrite S6l, S5l. reflexivity. }
      rewrite (pushed_history _ _ _ _ _ L). unfold pushed_under. cbn. rewrite bytes_eqb_refl. reflexivity.
  Qed.

  Lemma same_itself ex dbl l f : same_committed ex dbl l f f /\ same_listing ex dbl l f f.
  Proof. split; [split; intros; reflexivity|]. intros r keep _ _. reflexivity. Qed.

  (** C85 *)
  Theorem commit_again cm w e d db n m : reachable w -> steady_reads -> quiet_disk w -> stands_in cm w e d db -> head_named db n -> globs_ok cm ->
    let l := e ++ removelast d in let dbl := e ++ d in let ex := cm_exclude cm in
    can_store ex (abs_path dbl) (abs_path l) w -> (lenN m < 2 ^ 62)%N -> utf8_valid m = true ->
    exists w' k0, run_process cm (CCommit None m None) w = (Some 0%N, w') /\ history n None (repo_of (db_at (w_dbs w') (db_file e d))) = k0 :: history n None (repo_of db) /\
      forall v db1 n1 m1, later (db_file e d) w' v -> reachable v -> quiet_disk v -> stands_in cm v e d db1 -> head_named db1 n1 ->
        can_store ex (abs_path dbl) (abs_path l) v -> (lenN m1 < 2 ^ 62)%N -> utf8_valid m1 = true ->
        same_committed ex dbl l (w_fs w) (w_fs v) -> same_listing ex dbl l (w_fs w) (w_fs v) ->
        exists v' k, run_process cm (CCommit None m1 None) v = (Some 0%N, v') /\
          let db2 := db_at (w_dbs v') (db_file e d) in
          one_more k db1 db2 /\ history n1 None (repo_of db2) = k :: history n1 None (repo_of db1) /\
          (no_coll (w_hashed v') -> exists t, commit_tree_at db2 k0 t /\ commit_tree_at db2 k t).
  Proof.
    intros U St Qd Std Hn G l dbl ex Cs Lm Um.
    assert (Run : forall u db0 n0 m0, reachable u -> quiet_disk u -> stands_in cm u e d db0 -> head_named db0 n0 -> can_store ex (abs_path dbl) (abs_path l) u -> (lenN m0 < 2 ^ 62)%N -> utf8_valid m0 = true ->
      exists u' u0 tree u1 u2 k, run_process cm (CCommit None m0 None) u = (Some 0%N, u') /\ w_fs u0 = w_fs u /\ cur_db u0 = db0 /\ put_fs_item ds stack (abs_path l) (filter_fn ex (abs_path dbl)) u0 = (Done tree, u1) /\
        still_stored u1 u2 /\ cur_db u2 = db_at (w_dbs u') (db_file e d) /\ one_more k (cur_db u1) (cur_db u2) /\ history n0 None (repo_of (cur_db u2)) = k :: history n0 None (repo_of db0) /\
        w_hashed u' = w_hashed u2 /\ (no_coll (w_hashed u2) -> commit_tree_at (cur_db u2) k tree)).
    { clear U Qd Std Hn Cs Lm Um. intros u db0 n0 m0 U Qd (F & Ct & O & Rp) (Hn & Un) Cs Lm Um. pose proof Rp as (Cp & Nd & _).
      destruct (start_found cm u e d db0 F (there_place _ Ct) Rp) as (u1 & S & F1 & C1 & D1 & O1 & Cn1 & Cu1 & H1 & Fs1). specialize (Fs1 Ct). fold l dbl in S. set (s := DsState (abs_path dbl) (abs_path l)) in *.
      destruct (proj2 (commit_exactly cm u s u1 None m0 None U S ltac:(unfold quiet_disk; rewrite Fs1; auto; destruct Qd as (_ & _ & Mo); auto) Lm)) as [u2 R2].
      { split; [exact G|]. split; [intros _; exists n0; rewrite Cu1; auto|]. unfold can_store in *. cbn [ds_folder ds_repo s]. rewrite Fs1, C1. exact Cs. }
      destruct (process_live cm _ u (Some s) u1 u2 F S R2) as (u' & P & _ & _ & _ & _ & Hw & _ & Dw). specialize (Dw s eq_refl).
      pose proof (working_ok _ (wk_start _ _ _ _ U S)) as W1. pose proof R2 as R2'. cbn [run_command with_ds] in R2'.
      destruct (commit_rows cm s m0 u1 u2 W1 R2') as (name & tree & k & u0 & u3 & N & T0 & Pt & SS & One & Hi & Cn2). rewrite Cu1 in N, Hi. assert (name = n0) as -> by congruence.
      rewrite Cn2, Cn1 in Dw. change (e ++ d ++ [str "snapcd.db"]) with (db_file e d) in Dw.
      assert (F0 : w_fs u0 = w_fs u1) by (destruct T0 as (? & ? & ->); reflexivity). 
      exists u', u0, tree, u3, u2, k. split; [exact P|]. split; [congruence|]. split; [rewrite (cur_ticked _ _ T0); exact Cu1|]. split; [exact Pt|]. split; [exact SS|]. split; [symmetry; exact Dw|]. split; [exact One|]. split; [exact Hi|]. split; [exact Hw|].
      intro NC. assert (AF : attrs_fits (Attrs m0 [])).
      { split; [eapply N.lt_trans; [exact Lm|reflexivity]|]. split; [exact Um|]. apply wf_map. split; [reflexivity|constructor]. }
      destruct (commit_command cm s None m0 None u1 u2 W1 R2' NC AF) as (n' & tree' & k' & u0' & u3' & N' & T0' & Pt' & _ & _ & (o & Ro & Ty & Co) & L' & _).
      rewrite Cu1 in N', L'. assert (n' = n0) as -> by congruence. rewrite (pushed_history _ _ _ _ _ L') in Hi. unfold pushed_under in Hi. cbn in Hi. rewrite bytes_eqb_refl in Hi. injection Hi as ->.
      assert (F0' : w_fs u0' = w_fs u0) by (rewrite F0; destruct T0' as (? & ? & ->); reflexivity).
      cbn [ds_folder ds_repo s] in Pt, Pt'. fold ex in Pt, Pt'. destruct (same_itself ex dbl l (w_fs u0)) as [Sc Sl].
      destruct (put_item_again ex dbl l u0 tree u3 u0' tree' u3' St ltac:(rewrite F0'; exact Sc) ltac:(rewrite F0'; exact Sl) Pt Pt') as [-> _].
      exists o. eexists. split; [apply reads_object, Ro|]. split; [exact Ty|]. split; [exact Co|reflexivity]. }
    destruct (Run w db n m U Qd Std Hn Cs Lm Um) as (w' & w0 & tree & w1 & w2 & k0 & P & F0 & D0 & Pt & SS & Dw & One & Hi & Hh & Ct).
    exists w', k0. split; [exact P|]. split; [rewrite <- Dw; exact Hi|].
    intros v db1 n1 m1 La Uv Qv Sv Hn1 Csv Lm1 Um1 SC SL.
    destruct (Run v db1 n1 m1 Uv Qv Sv Hn1 Csv Lm1 Um1) as (v' & v0 & tree' & v1 & v2 & k & Pv & Fv0 & Dv0 & Ptv & SSv & Dv & Onev & Hiv & Hhv & Ctv).
    exists v', k. split; [exact Pv|]. rewrite <- Dv. pose proof Sv as (_ & _ & _ & Rpv). pose proof (at_file _ _ _ _ _ Rpv) as Af.
    pose proof (proj1 (later_grows _ _ _ La)) as Gr. rewrite <- Dw, Af in Gr.
    assert (S2 : still_stored w1 v0) by (intros h x X; rewrite Dv0; apply Gr, SS, X).
    destruct (put_item_again ex dbl l w0 tree w1 v0 tree' v1 St ltac:(rewrite F0, Fv0; exact SC) ltac:(rewrite F0, Fv0; exact SL) Pt Ptv) as [-> Q]. specialize (Q S2). rewrite Q, Dv0 in Onev.
    split; [exact Onev|]. split; [exact Hiv|]. rewrite Hhv. intro NC. exists tree. split; [|apply Ctv, NC].
    assert (NC0 : no_coll (w_hashed w2)).
    { eapply no_coll_incl; [|exact NC]. rewrite <- Hh, <- Hhv. eapply incl_tran; [exact (later_hashed _ _ _ La)|]. pose proof (hx_process cm (CCommit None m1 None) v) as X. rewrite Pv in X. exact X. }
    destruct (Ct NC0) as (o & c & Oa & Ty & Cc & Tc). exists o, c. split; [|auto].
    unfold object_at in *. destruct (assoc (as_db_key k0) (d_data (cur_db w2))) as [x|] eqn:A; [|discriminate]. rewrite (SSv (as_db_key k0) x); [exact Oa|]. rewrite Q, Dv0. apply Gr, A.
  Qed.
End Again.
