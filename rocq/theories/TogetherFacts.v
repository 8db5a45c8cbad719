(** Commits made at the same time. *)
From Coq Require Import RelationClasses.
From Verif Require Import Base Key Keyish Cbor Object Path World Store File Filter Dir Diff Commit Main
  BaseFacts KeyFacts CborFacts ObjectFacts WorldFacts TableFacts SpecStore SpecResolve ResolveFacts StoreFacts ObjStoreFacts
  Frame DbRel SpecRun SpecProc SpecDir Integrity SpecClosure Closure SortFacts FsFacts DirPlan DirFacts ProcFacts SpecDiff SpecShow SpecText SpecCmd SpecOut FileRun ShowFacts
  OutFacts SpecShape ShapeFacts ShapeTop CmdFacts SpecBranch BranchFacts Lock SpecLock LockFacts ScriptFacts PlayFacts LockRun LiveCache InitFacts.

(** What more objects do not change. *)
Class Mono (P : db -> list key -> Prop) : Prop := mono d d' h : le d d' -> P d h -> P d' h.

Section Together.
  Context {E : Env}.
  Local Notation ds := sqlite_ds.
  Context (n : bytes) (L : list bytes) (NC : no_coll L).
  Section Predicate.
  Context (P : db -> list key -> Prop) {mono_P : Mono P}.

  Definition good (d : db) : Prop := db_ok L d /\ P d (history n None (repo_of d)).
  Definition sound (w : world) : Prop := good (disk w) /\ match w_txn w with TxnDirty d => good d | _ => True end.
  Definition tg (w w' : world) : Prop := incl (w_hashed w) (w_hashed w') /\ (incl (w_hashed w') L -> sound w -> sound w').

  Lemma good_state k v d : good d -> good (upd_state (insert_or_replace k v) d).
  Proof. intros [H1 H2]. split; [apply db_ok_state, H1|]. exact (mono d (upd_state _ d) _ (fun _ _ H => H) H2). Qed.
  Lemma good_put v d : In v L -> good d -> good (upd_data (insert_or_ignore (as_db_key (Blake3B (blake3 v))) v) d).
  Proof. intros I [H1 H2]. split; [apply db_ok_put; assumption|]. exact (mono d (upd_data _ d) _ (le_put _ v d) H2). Qed.
  Lemma good_other d m r k : m <> n \/ r <> None -> good d -> good (pushed d m r k).
  Proof.
    intros N [H1 H2]. split; [apply db_ok_push, H1|]. rewrite (pushed_history n None _ _ _ (pushed_log d m r k)).
    replace (pushed_under n None (Push m r k)) with false.
    - exact (mono d (pushed d m r k) _ (fun _ _ H => H) H2).
    - unfold pushed_under. cbn [ph_name ph_remote]. destruct N as [N|N].
      + destruct (bytes_eqb m n) eqn:Q; [apply bytes_eqb_eq in Q; congruence|reflexivity].
      + destruct r; [destruct (bytes_eqb m n); reflexivity|congruence].
  Qed.
  Lemma sound_cur w : sound w -> good (cur_db w).
  Proof. intros [H1 H2]. unfold cur_db. destruct (w_txn w); [exact H1|exact H1|exact H2]. Qed.
  Lemma sound_put w d : sound w -> good d -> sound (put_db d w).
  Proof.
    intros [H1 H2] G. unfold put_db, sound. destruct (w_txn w) eqn:T; cbn; try rewrite T; try (split; [exact H1|exact G]).
    split; [|exact I]. unfold disk. cbn. rewrite db_at_set, names_eqb_refl. exact G.
  Qed.
  #[export] Instance tg_DbRel : DbRel tg.
  Proof.
    constructor.
    - intros a b c [I1 H1] [I2 H2]. split; [eapply incl_tran; eauto|]. intros I S. apply H2; [exact I|]. apply H1; [eapply incl_tran; eauto|exact S].
    - intros w w' (H1 & H2 & H3 & H4) _. split; [rewrite H4; apply incl_refl|]. intros _ [S1 S2]. unfold sound, disk. rewrite H1, H2, H3. split; assumption.
    - intros w. split; [apply incl_refl|]. intros _ [S1 S2]. split; [exact S1|exact I].
  Qed.
  #[export] Instance tg_DbOnly : DbOnly tg.
  Proof. constructor. intros w w' (H1 & H2 & H3 & H4). split; [rewrite H4; apply incl_refl|]. intros _ [S1 S2]. unfold sound, disk. rewrite H1, H2, H3. split; assumption. Qed.
  #[export] Instance tg_DbProc : DbProc tg.
  Proof.
    constructor.
    - intros w _. split; [apply incl_refl|]. intros _ [S1 S2]. split; [exact S1|exact I].
    - intros w. split; [unfold commit_now; destruct (w_txn w); apply incl_refl|]. intros _ S. pose proof (sound_cur w S) as C. destruct S as [S1 S2]. unfold commit_now, cur_db, sound in *.
      destruct (w_txn w); (split; [|exact I]); auto. unfold disk. cbn. rewrite db_at_set, names_eqb_refl. exact C.
  Qed.
  Lemma tg_hash w d : tg w (set_hashed w (d :: w_hashed w)).
  Proof. split; [cbn; apply incl_tl, incl_refl|]. intros _ S. exact S. Qed.
  #[export] Instance tg_DbPut : DbPut tg.
  Proof.
    constructor; [intros; apply tg_hash|]. intros w d. assert (Hh : w_hashed (put_db (upd_data (insert_or_ignore (as_db_key (Blake3B (blake3 d))) d) (cur_db w)) (set_hashed w (d :: w_hashed w))) = d :: w_hashed w)
      by (unfold put_db; cbn; destruct (w_txn w); reflexivity).
    unfold tg. rewrite Hh. split; [apply incl_tl, incl_refl|]. intros I S. apply sound_put; [exact S|]. apply good_put; [apply I; left; reflexivity|apply sound_cur, S].
  Qed.
  Lemma tg_write (u : db -> db) w : (incl (w_hashed w) L -> sound w -> good (u (cur_db w))) -> tg w (snd (db_write u w)).
  Proof.
    intro H. unfold db_write. match goal with |- context [op ?e ?x] => destruct (op_case e x) as (f & w1 & Q & T) end. rewrite Q. clear Q.
    assert (K : tg w (put_db (u (cur_db w1)) w1)).
    { assert (Hh : w_hashed (put_db (u (cur_db w1)) w1) = w_hashed w1) by (unfold put_db; destruct (w_txn w1); reflexivity).
      destruct T as (t & r & ->). unfold tg. rewrite Hh. split; [apply incl_refl|]. intros I S. apply sound_put; [exact S|]. apply H; [exact I|exact S]. }
    destruct f as [|m| |[|m]]; try exact K; try (apply (dr_ticked tg), T). apply (dr_ticked_lost tg), T.
  Qed.
  Lemma tg_head h : rel tg (put_head ds h).
  Proof. intro w. apply tg_write. intros _ S. apply good_state, sound_cur, S. Qed.
  Lemma tg_push m k r w : m <> n \/ r <> None -> tg w (snd (reflog_push ds (Reflog m k r) w)).
  Proof. intros N. apply tg_write. intros _ S. apply (good_other (cur_db w) m r k N), sound_cur, S. Qed.

  Lemma hashed_write (u : db -> db) w : w_hashed (snd (db_write u w)) = w_hashed w.
  Proof.
    unfold db_write. match goal with |- context [op ?e ?x] => destruct (op_case e x) as (f & w1 & Q & t & r & T) end. rewrite Q. subst w1.
    destruct f as [|m| |[|m]]; cbn; try reflexivity; unfold put_db; cbn; destruct (w_txn w); reflexivity.
  Qed.
  Lemma tg_checkout_head cm s m : rel tg (cmd_checkout_head cm s m).
  Proof.
    unfold cmd_checkout_head. apply rel_bind; [exact _|apply rel_head_or_fail; exact _|]. intro name.
    apply rel_bind; [exact _|apply rel_try, rel_reflog_get; exact _|]. intro got.
    apply rel_bind; [exact _| |].
    { destruct got; [|apply rel_ret; exact _]. apply rel_bind; [exact _|apply rel_commit_from_key; exact _|]. intro. apply rel_ret; exact _. }
    intro t. apply rel_bind; [exact _|apply rel_compare; exact _|]. intro r. destruct (diff_result_empty r).
    - apply rel_bind; [exact _|apply tg_head|]. intro. apply rp_print.
    - apply rel_bind; [exact _|apply rp_print|]. intro. apply rel_print_diff_result; exact _.
  Qed.
  Lemma tg_command cm s c : c <> CInit -> hands_off n c -> (forall p m r, c <> CCommit p m r) -> rel tg (run_command cm s c).
  Proof.
    intros NI HO NCm. destruct s as [s|]; [|destruct c; cbn [run_command with_ds]; try (apply rel_fail; exact _); [apply rel_cmd_walk_fs_tree; exact _|destruct NI; reflexivity]].
    destruct c; cbn [run_command with_ds hands_off] in *.
    - eapply rel_cmd_insert; exact _.
    - exfalso. eapply NCm. reflexivity.
    - apply rel_cmd_fetch; exact _.
    - apply rel_cmd_pretty_print; exact _.
    - apply rel_cmd_commit_tree; exact _.
    - apply rel_cmd_reflog_get; exact _.
    - unfold cmd_reflog_push. apply rel_bind; [exact _|apply rel_canonicalize; exact _|]. intros key0 w. apply tg_push. destruct remote; [right; discriminate|left; exact HO].
    - apply rel_cmd_walk_tree; exact _.
    - apply rel_cmd_walk_fs_tree; exact _.
    - apply tg_head.
    - apply rel_cmd_get_head; exact _.
    - destruct NI. reflexivity.
    - apply rel_cmd_show; exact _.
    - apply rel_cmd_log; exact _.
    - apply rel_cmd_compare; exact _.
    - apply rel_cmd_status; exact _.
    - apply rel_cmd_checkout; exact _.
    - apply tg_checkout_head.
    - apply rel_cmd_ref_log; exact _.
    - destruct refname as [n'|]; [|destruct HO]. unfold cmd_ref_update. apply rel_bind; [exact _|apply rel_canonicalize; exact _|]. intros key0 w. apply tg_push. left. exact HO.
  Qed.
  Lemma tg_finish st r : rel tg (finish st r).
  Proof.
    unfold finish. destruct r; repeat (apply rel_bind; [exact _| |intros _]).
    - apply rel_ignore_on; [exact _|apply pc_commit].
    - apply pc_cache_commit.
    - apply rp_print.
    - apply rel_ignore_on; [exact _|apply pc_rollback].
    - apply pc_cache_rollback.
  Qed.
  Definition setup_rest (st : option ds_state) : M unit := open_cache ;;; ignore_on st db_begin ;;; cache_begin.
  Lemma tg_setup st : rel tg (setup_rest st).
  Proof.
    unfold setup_rest. apply rel_bind; [exact _|apply rel_open_cache; exact _|intros _].
    apply rel_bind; [exact _|apply rel_ignore_on; [exact _|apply pc_begin]|intros _]. apply pc_cache_begin.
  Qed.
  End Predicate.
  Lemma rest_split cm st c w : main_rest cm st c w = bind (setup_rest st) (fun _ => bind (try (run_command cm st c)) (finish st)) w.
  Proof.
    unfold main_rest, setup_rest. rewrite bind_assoc. apply bind_ext. intros _ w2. rewrite bind_assoc. apply bind_ext. intros _ w3. apply bind_ext. intros _ w4.
    transitivity (bind (try (run_command cm st c)) (finish st) w4); [|reflexivity]. apply bind_ext. intros [x|e] w5; reflexivity.
  Qed.

  (** Reading the newest entry and storing the commit. *)
  Lemma latest_of w m k w' : db_ok L (cur_db w) -> reflog_get ds m None w = (Done k, w') -> ticked w w' /\ exists l, history m None (repo_of (cur_db w)) = k :: l.
  Proof.
    intros W H. cbn [reflog_get ds] in H. unfold sqlite_reflog_get in H. apply bind_done in H as (r & w1 & H1 & H). apply db_read_done in H1 as [T Q].
    rewrite (select_history _ _ _ _ (repo_of_abs _ _ W)) in Q. destruct (history m None (repo_of (cur_db w))) as [|k0 l]; cbn in Q; subst r; [discriminate H|].
    rewrite from_as_db_key in H. cbn in H. apply ret_done in H as [-> ->]. split; [exact T|]. eauto.
  Qed.
  Lemma latest_no w m w' : db_ok L (cur_db w) -> reflog_get ds m None w = (Error ERefNotFound, w') -> ticked w w' /\ history m None (repo_of (cur_db w)) = [].
  Proof.
    intros W H. cbn [reflog_get ds] in H. unfold sqlite_reflog_get, bind in H. destruct (db_read _ w) as [o w1] eqn:Ed.
    destruct (db_read_cases (fun d => hd_error (select_reflog m None (d_reflog d))) w) as (w2 & T & Q). rewrite Ed in Q.
    destruct o as [r|e| | |]; try discriminate H.
    - apply db_read_done in Ed as [T1 ->]. rewrite (select_history _ _ _ _ (repo_of_abs _ _ W)) in H. destruct (history m None (repo_of (cur_db w))) as [|k0 l]; cbn [map hd_error] in H; [inversion H; subst; auto|].
      rewrite from_as_db_key in H. discriminate H.
    - destruct Q as [Q|[_ [Q|[Q|Q]]]]; inversion Q; subst; discriminate H.
  Qed.
  Lemma commit_stored t ps m w k w' : utf8_valid m = true -> db_ok L (cur_db w) -> incl (w_hashed w') L -> commit_tree ds t (firstn 1 ps) (Attrs m []) w = (Done k, w') ->
    commit_at (cur_db w') k (Commit t (firstn 1 ps) (Attrs m [])).
  Proof.
    intros U D I H. rewrite commit_tree_eq, sort_short in H by (rewrite firstn_length; lia).
    destruct (put_obj_key _ _ _ _ _ H) as [Qk F]. apply put_obj_put in H. apply put_done in H as (Qk' & C & Hh & _).
    remember (object_of_commit (Commit t (firstn 1 ps) (Attrs m []))) as o eqn:Ho. destruct (commit_decodes _ _ _ _ U Ho F) as (T & _ & Dc).
    exists o. split; [|split; [exact T|exact Dc]]. unfold object_at.
    assert (A : assoc (as_db_key k) (d_data (cur_db w')) = Some (encode_object o)).
    { rewrite C. cbn. rewrite assoc_ignore. destruct (assoc (as_db_key k) (d_data (cur_db w))) as [v|] eqn:Ea; [|rewrite bytes_eqb_refl; reflexivity].
      f_equal. apply assoc_In in Ea. destruct D as [_ _ _ DH _]. destruct (DH _ _ Ea) as [K1 K2]. rewrite Qk' in K1. apply blake_key_inj in K1.
      rewrite Hh in I. symmetry. apply NC; [apply I; left; reflexivity|exact K2|exact K1]. }
    rewrite A. apply decode_encode, F.
  Qed.

  (** ** Before and after *)
  Section Step.
  Context (h0 : list key) (d1 : db) (c : command).
  Definition same_branch (d : db) (h : list key) : Prop := (linked d h /\ le d1 d) /\ h = h0.
  Definition one_more (d : db) (h : list key) : Prop := (linked d h /\ le d1 d) /\ (h = h0 \/ exists k, h = k :: h0 /\ made_by d c k).
  #[local] Instance same_branch_mono : Mono same_branch.
  Proof. intros d d' h Le [[H1 H0] H2]. split; [split; [eapply linked_le; eauto|intros k v A; apply Le, H0, A]|exact H2]. Qed.
  #[local] Instance one_more_mono : Mono one_more.
  Proof.
    intros d d' h Le [[H1 H0] H2]. split; [split; [eapply linked_le; eauto|intros k v A; apply Le, H0, A]|]. destruct H2 as [H2|(k & H2 & p & m & r & t & ps & H3 & H4)]; [left; exact H2|].
    right. exists k. split; [exact H2|]. exists p, m, r, t, ps. split; [exact H3|]. eapply commit_at_le; eauto.
  Qed.
  Lemma good_more d : good same_branch d -> good one_more d.
  Proof. intros [H1 [H2 H3]]. split; [exact H1|]. split; [exact H2|left; exact H3]. Qed.
  Lemma sound_more w : sound same_branch w -> sound one_more w.
  Proof. intros [H1 H2]. split; [apply good_more, H1|]. destruct (w_txn w); auto. apply good_more, H2. Qed.
  Lemma push_more d k t m p r : c = CCommit p m r -> good same_branch d -> commit_at d k (Commit t (firstn 1 (history n None (repo_of d))) (Attrs m [])) ->
    good one_more (pushed d n None k).
  Proof.
    intros Qc [H1 [[H2 H0] H3]] C. split; [apply db_ok_push, H1|]. rewrite (pushed_history n None _ _ _ (pushed_log d n None k)).
    replace (pushed_under n None (Push n None k)) with true by (unfold pushed_under; cbn [ph_name ph_remote]; rewrite bytes_eqb_refl; reflexivity).
    split; [split; [|exact H0]|].
    - apply (linked_le d (pushed d n None k) _ (fun _ _ H => H)). eapply linked_cons; [exact C|reflexivity|exact H2].
    - right. exists k. cbn [ph_key]. split; [rewrite <- H3; reflexivity|]. exists p, m, r, t, (firstn 1 (history n None (repo_of d))). split; [exact Qc|]. exact (commit_at_le d (pushed d n None k) _ _ (fun _ _ H => H) C).
  Qed.
  Local Notation R := (tg same_branch).
  Definition goes (r : outcome unit * world) : Prop := incl (w_hashed (snd r)) L -> sound one_more (snd r).
  Lemma sound_ticked P w w' : ticked w w' -> sound P w -> sound P w'.
  Proof. intros (t & q & ->) S. exact S. Qed.
  Lemma goes_same r w : sound same_branch w -> tg same_branch w (snd r) -> goes r.
  Proof. intros T [_ H] I. apply sound_more, H; [exact I|exact T]. Qed.
  Lemma commit_more cm s p m r w : c = CCommit p m r -> utf8_valid m = true -> sound same_branch w -> goes (cmd_commit cm s p m r w).
  Proof.
    intros Qc U T.
    unfold cmd_commit, make_filter_fn. destruct (forallb glob_valid (cm_exclude cm)); [|apply (goes_same _ w T); apply (dr_ticked R), ticked_refl].
    unfold bind at 1, ret at 1. cbv beta iota zeta. set (path0 := match p with Some q => q | None => ds_repo s end). set (f := filter_fn (cm_exclude cm) (ds_folder s)).
    unfold bind at 1. pose proof (rel_refname_or_head R r w) as T1. destruct (refname_or_head r w) as [[name| | | |] w1] eqn:H1; try (apply (goes_same _ w T), T1).
    assert (Tk1 : ticked w w1) by (apply branch_done in H1 as [X _]; exact X).
    apply (sound_ticked _ _ _ Tk1) in T. clear T1 H1 Tk1.
    unfold bind at 1. pose proof (rel_try R _ (rel_reflog_get R name None) w1) as T2. destruct (try (reflog_get ds name None) w1) as [[got| | | |] w2] eqn:H2;
      try (apply (goes_same _ w1 T), T2).
    unfold bind at 1. destruct (match got with Ok k => ret [k] | Err ERefNotFound => ret [] | Err e => fail e end w2) as [[parents| | | |] w3] eqn:H3;
      try (destruct got as [|[]]; inv H3; apply (goes_same _ w1 T), T2).
    assert (Ok1 : db_ok L (cur_db w1)) by exact (proj1 (sound_cur _ _ T)).
    assert (X : ticked w1 w3 /\ parents = firstn 1 (history name None (repo_of (cur_db w1)))).
    { apply try_done in H2 as [(k0 & -> & H2)|(e & -> & H2)].
      - apply ret_done in H3 as [-> ->]. apply latest_of in H2 as [X (l & ->)]; [|exact Ok1]. auto.
      - destruct e; try discriminate H3. apply ret_done in H3 as [-> ->]. apply latest_no in H2 as [X ->]; [|exact Ok1]. auto. }
    destruct X as [Tk3 ->]. apply (sound_ticked _ _ _ Tk3) in T.
    rewrite <- (cur_ticked _ _ Tk3). clear H2 H3 Tk3 T2 Ok1 got w2.
    unfold bind at 1. pose proof (rel_put_fs_item R stack f (fun x => rel_filter_fn R _ _ x) path0 w3) as T4.
    destruct (put_fs_item ds stack path0 f w3) as [[tree| | | |] w4] eqn:H4; try (apply (goes_same _ w3 T), T4).
    unfold bind. pose proof (rel_commit_tree R tree (firstn 1 (history name None (repo_of (cur_db w3)))) (Attrs m []) w4) as T5.
    destruct (commit_tree ds tree (firstn 1 (history name None (repo_of (cur_db w3)))) (Attrs m []) w4) as [[k| | | |] w5] eqn:H5; try (apply (goes_same _ w3 T); exact (transitivity (R := R) T4 T5)).
    cbn [snd] in T4, T5. pose proof (transitivity (R := R) T4 T5) as T35.
    destruct (bytes_eqb name n) eqn:Q; [apply bytes_eqb_eq in Q; subst name|apply (goes_same _ w3 T); refine (transitivity (R := R) T35 _); apply tg_push; [exact _|left; intros ->; rewrite bytes_eqb_refl in Q; discriminate]].
    intro I. unfold reflog_push, sqlite_ds, sqlite_reflog_push in *. cbn [rl_name rl_remote rl_key] in *. rewrite hashed_write in I.
    assert (I4 : incl (w_hashed w4) L) by (eapply incl_tran; [exact (proj1 T5)|exact I]).
    pose proof (proj2 T4 I4 T) as S4. pose proof (proj2 T35 I T) as S5.
    pose proof (stores_item _ _ _ _ _ _ _ H4) as ((D4 & _) & _). pose proof H5 as H5'. rewrite commit_tree_eq in H5'. pose proof (stores_put _ _ _ _ H5') as ((D5 & _) & _).
    pose proof (commit_stored _ _ _ _ _ _ U (proj1 (sound_cur _ _ S4)) I H5) as C.
    assert (Qh : history n None (repo_of (cur_db w3)) = history n None (repo_of (cur_db w5))) by (unfold history, repo_of; cbn [rp_log]; rewrite D5, D4; reflexivity).
    rewrite Qh in C.
    eapply (tg_write one_more _ w5); [|rewrite hashed_write; exact I|apply sound_more, S5].
    intros _ _. exact (push_more _ _ _ _ _ _ Qc (sound_cur _ _ S5) C).
  Qed.
  (** One process. *)
  #[local] Existing Instances hx_pre hx_Rd hx_Put hx_Ref hx_Fs hx_Del hx_Cache hx_Open hx_Proc.
  Lemma step_more cm st w : c <> CInit -> hands_off n c -> text_message c -> sound same_branch w -> goes (main_rest cm st c w).
  Proof.
    intros NI HO X T. rewrite rest_split. unfold bind at 1. pose proof (tg_setup same_branch st w) as T1. destruct (setup_rest st w) as [[[]| | | |] w1]; try (apply (goes_same _ w T), T1). cbn [snd] in T1.
    intro I.
    assert (I2 : incl (w_hashed (snd (try (run_command cm st c) w1))) L).
    { eapply incl_tran; [|exact I]. unfold bind. destruct (try (run_command cm st c) w1) as [[r| | | |] w2]; try apply incl_refl. apply (tg_finish one_more st r w2). }
    assert (I1 : incl (w_hashed w1) L) by (eapply incl_tran; [|exact I2]; exact (rel_try hx _ (rel_run_command hx cm st c) w1)).
    pose proof (proj2 T1 I1 T) as S1.
    assert (Sn : snd (try (run_command cm st c) w1) = snd (run_command cm st c w1)) by (unfold try; destruct (run_command cm st c w1) as [[| | | |] w2]; reflexivity).
    assert (S2 : sound one_more (snd (try (run_command cm st c) w1))).
    { rewrite Sn in I2 |- *. assert (D : (exists p m r, c = CCommit p m r) \/ forall p m r, c <> CCommit p m r) by (destruct c; (left; eauto; fail) || (right; discriminate)). destruct D as [(p & m & r & Q)|D].
      - rewrite Q in I2 |- *. destruct st as [s|]; [|apply sound_more, S1]. apply (commit_more cm s p m r w1 Q); [rewrite Q in X; exact X|exact S1|exact I2].
      - apply (goes_same _ w1 S1); [|exact I2]. apply tg_command; try exact _; assumption. }
    unfold bind in I |- *. destruct (try (run_command cm st c) w1) as [[r| | | |] w2]; try exact S2. apply (tg_finish one_more st r w2); [exact I|exact S2].
  Qed.

  (** *** When nothing fails *)
  #[local] Existing Instances calm_pre calm_Rd calm_Put calm_Ref calm_Fs calm_Del calm_Cache calm_Open.
  Lemma calm_rest st w w1 : setup_rest st w = (Done tt, w1) -> w_faults w = [] -> w_faults w1 = [].
  Proof.
    intros S F. unfold setup_rest in S. apply bind_done in S as ([] & v2 & H2 & S). apply bind_done in S as ([] & v3 & H3 & H4).
    assert (K : forall A (m : M A), rel calm m -> forall v a v', m v = (Done a, v') -> w_faults v = [] -> w_faults v' = []).
    { intros A m R v a v' H Fv. specialize (R v). rewrite H in R. apply R, Fv. }
    assert (F2 : w_faults v2 = []).
    { eapply (K _ open_cache); [|exact H2|exact F]. unfold open_cache. destruct cache_dir; (apply rel_bind; [exact _| |intros _]); try apply calm_cache_new; [apply fp_mkdir|intros w' F'; auto]. }
    assert (F3 : w_faults v3 = []) by (eapply (K _ (ignore_on st db_begin)); [apply rel_ignore_on; [exact _|apply calm_begin]|exact H3|exact F2]).
    unfold cache_begin, op in H4. cbn zeta in H4. cbn [w_faults set_tick] in H4. rewrite F3 in H4. cbn in H4. destruct (w_ctxn v3); [discriminate|]. inversion H4; subst. exact F3.
  Qed.
  Lemma finish_ok s x w w' : w_faults w = [] -> finish (Some s) (Ok x) w = (Done tt, w') -> disk w' = cur_db w.
  Proof.
    intros F H. cbn [finish ignore_on] in H. apply bind_done in H as ([] & v & H1 & H). apply bind_done in H1 as (r & v1 & H1 & H2). apply ret_done in H2 as [_ ->].
    assert (X : disk v1 = cur_db w /\ w_faults v1 = []).
    { unfold try, db_commit, op in H1. cbn zeta in H1. cbn [w_faults set_tick] in H1. rewrite F in H1. cbn in H1. unfold cur_db, commit_now in *. cbn in H1. destruct (w_txn w) eqn:Tx; cbn in H1; inversion H1; subst; cbn; (split; [|exact F]); try reflexivity.
      unfold disk. cbn. rewrite db_at_set, names_eqb_refl. reflexivity. }
    destruct X as [X Fv]. rewrite <- X. unfold cache_commit, op in H. cbn zeta in H. cbn [w_faults set_tick] in H. rewrite Fv in H. cbn in H. destruct (w_ctxn v1) eqn:Cx; [|discriminate H].
    inversion H; subst. unfold cache_commit_now. cbn. rewrite Cx. reflexivity.
  Qed.
  Lemma finish_err s e w w' : w_faults w = [] -> finish (Some s) (Err e) w = (Done tt, w') -> complained w'.
  Proof.
    intros F H. cbn [finish ignore_on] in H. apply bind_done in H as ([] & v & H1 & H). unfold print, op in H1. cbn zeta in H1. cbn [w_faults set_tick] in H1. rewrite F in H1. cbn in H1. inversion H1; subst v. clear H1.
    apply bind_done in H as ([] & v & H1 & H). apply bind_done in H1 as (r & v1 & H1 & H2). apply ret_done in H2 as [_ ->].
    exists (error_message e). revert H1 H. match goal with |- try _ ?x = _ -> _ => set (v0 := x) end. intros H1 H.
    assert (X : w_out v1 = w_out v0 /\ w_faults v1 = []).
    { unfold try, db_rollback, op in H1. cbn zeta in H1. cbn [w_faults set_tick] in H1. replace (w_faults v0) with (@nil fault) in H1 by (symmetry; exact F). cbn in H1. destruct (w_txn w); inversion H1; subst; (split; [reflexivity|exact F]). }
    destruct X as [X Fv]. unfold cache_rollback, op in H. cbn zeta in H. cbn [w_faults set_tick] in H. rewrite Fv in H. cbn in H. destruct (w_ctxn v1); [|discriminate H]. inversion H; subst. cbn. rewrite X. reflexivity.
  Qed.
  Lemma commit_grows cm s p m w w' : db_ok L (cur_db w) -> cmd_commit cm s p m (Some n) w = (Done tt, w') -> exists k, history n None (repo_of (cur_db w')) = k :: history n None (repo_of (cur_db w)).
  Proof.
    intros W H. unfold cmd_commit in H. apply bind_done in H as (f & v1 & H1 & H). apply filter_done in H1 as [-> ->].
    apply bind_done in H as (name & v2 & H2 & H). cbn [refname_or_head] in H2. apply ret_done in H2 as [-> ->].
    apply bind_done in H as (got & v3 & H3 & H). apply bind_done in H as (parents & v4 & H4 & H).
    assert (T4 : ticked w v4).
    { apply try_done in H3 as [(k0 & -> & H3)|(e & -> & H3)].
      - apply ret_done in H4 as [-> ->]. apply latest_of in H3 as [T _]; [exact T|exact W].
      - destruct e; try discriminate H4. apply ret_done in H4 as [-> ->]. apply latest_no in H3 as [T _]; [exact T|exact W]. }
    apply bind_done in H as (tree & v5 & H5 & H). apply bind_done in H as (k & v6 & H6 & H).
    pose proof (stores_item _ _ _ _ _ _ _ H5) as ((D5 & _) & _). rewrite commit_tree_eq in H6. pose proof (stores_put _ _ _ _ H6) as ((D6 & _) & _).
    cbn [reflog_push ds] in H. unfold sqlite_reflog_push in H. apply db_write_done in H as (v7 & T7 & -> & C7). cbn [rl_name rl_remote rl_key] in *.
    exists k. rewrite cur_put. change (upd_reflog _ (cur_db v6)) with (pushed (cur_db v6) n None k). rewrite (pushed_history n None _ _ _ (pushed_log _ n None k)).
    replace (pushed_under n None (Push n None k)) with true by (unfold pushed_under; cbn [ph_name ph_remote]; rewrite bytes_eqb_refl; reflexivity). cbn [ph_key app]. f_equal.
    unfold history, repo_of. cbn [rp_log]. rewrite D6, D5, (cur_ticked _ _ T4). reflexivity.
  Qed.
  Lemma kept_step cm s p m w w' : c = CCommit p m (Some n) -> utf8_valid m = true -> sound same_branch w -> w_faults w = [] -> incl (w_hashed w') L ->
    main_rest cm (Some s) c w = (Done tt, w') -> ~ complained w' -> exists k, history n None (repo_of (disk w')) = k :: h0 /\ made_by (disk w') c k.
  Proof.
    intros Qc U T F I H NCo.
    assert (G : sound one_more w').
    { pose proof (step_more cm (Some s) w) as G. rewrite H in G. apply G; try exact I; try exact T; rewrite Qc; [discriminate|exact Logic.I|exact U]. }
    destruct G as [[_ [_ [G|G]]] _]; [exfalso|exact G].
    pose proof H as H'. rewrite rest_split in H. apply bind_done in H as ([] & w1 & H1 & H). apply bind_done in H as (r & w2 & H2 & H).
    assert (F1 : w_faults w1 = []) by (eapply calm_rest; eauto).
    assert (F2 : w_faults w2 = []).
    { pose proof (rel_try calm _ (calm_command cm (Some s) c) w1 F1) as [X _]. rewrite H2 in X. exact X. }
    destruct r as [[]|e]; [|apply NCo; eapply finish_err; eauto]. apply try_done in H2 as [(x & Q & H2)|(e & Q & _)]; [|discriminate Q]. clear Q.
    assert (I1 : incl (w_hashed w1) L).
    { eapply incl_tran; [|exact I]. pose proof (rel_run_command hx cm (Some s) c w1) as X. rewrite H2 in X. eapply incl_tran; [exact X|]. pose proof (tg_finish one_more (Some s) (Ok tt) w2) as Y. rewrite H in Y. exact (proj1 Y). }
    pose proof (tg_setup same_branch (Some s) w) as T1. rewrite H1 in T1. pose proof (proj2 T1 I1 T) as S1. cbn [snd] in S1. pose proof (sound_cur _ _ S1) as [Ok1 [_ Q1]].
    rewrite (finish_ok _ _ _ _ F2 H) in G. rewrite Qc in H2. cbn [run_command with_ds] in H2. destruct x. apply commit_grows in H2 as (k & H2); [|exact Ok1]. rewrite G, Q1 in H2.
    apply (f_equal (@length key)) in H2. cbn in H2. lia.
  Qed.
  End Step.
End Together.

(** ** Many processes *)
Section Many.
  Context {E : Env} (cms : nat -> common) (sts : nat -> option ds_state) (cs : nat -> command) (NI : forall i, cs i <> CInit).
  Variables (ws : nat -> world) (d0 : db) (s : system).
  Hypothesis NT : forall i, w_txn (ws i) = NoTxn.
  Let jobs i := command_job (cms i) (sts i) (cs i) (NI i) (ws i).
  Hypothesis ST : steps (System d0 (fun i => start (jobs i))) s.
  Hypothesis ALL : forall i, ended (sy_procs s i) \/ pr_phase (sy_procs s i) <> Over.
  Variables (n : bytes) (L : list bytes).
  Hypothesis NC : no_coll L.
  Hypothesis HO : forall i, hands_off n (cs i).
  Hypothesis TX : forall i, text_message (cs i).
  Hypothesis HL : forall i, incl (w_hashed (pr_world (sy_procs s i))) L.
  Hypothesis D0 : db_ok L d0.
  Hypothesis K0 : linked d0 (history n None (repo_of d0)).
  (** The process has made a commit on the branch, and said so by saying nothing. *)
  Definition committed (i : nat) : Prop := (exists p m, cs i = CCommit p m (Some n)) /\ sts i <> None /\ w_faults (ws i) = [] /\
    pr_left (sy_procs s i) = Ended (Done tt) /\ ~ complained (pr_world (sy_procs s i)).

  Lemma made_le d d' c k : le d d' -> made_by d c k -> made_by d' c k.
  Proof. intros Le (p & m & r & t & ps & H1 & H2). exists p, m, r, t, ps. split; [exact H1|]. eapply commit_at_le; eauto. Qed.
  Lemma start_sound i d : db_ok L d -> linked d (history n None (repo_of d)) -> sound n L (same_branch (history n None (repo_of d)) d) (with_db d (ws i)).
  Proof.
    intros H1 H2. assert (Q : disk (with_db d (ws i)) = d) by apply disk_with_db. split.
    - rewrite Q. split; [exact H1|]. split; [split; [exact H2|intros k v A; exact A]|reflexivity].
    - cbn. rewrite NT. exact I.
  Qed.
  (** What a process does at its place. *)
  Lemma place_more i d : db_ok L d -> linked d (history n None (repo_of d)) -> incl (w_hashed (snd (alone (jobs i) d))) L ->
    let d' := disk (snd (alone (jobs i) d)) in
    db_ok L d' /\ linked d' (history n None (repo_of d')) /\ le d d' /\
    (history n None (repo_of d') = history n None (repo_of d) \/
     exists k, history n None (repo_of d') = k :: history n None (repo_of d) /\ made_by d' (cs i) k).
  Proof.
    intros H1 H2 I. pose proof (step_more n L NC (history n None (repo_of d)) d (cs i) (cms i) (sts i) (with_db d (ws i)) (NI i) (HO i) (TX i) (start_sound i d H1 H2) I) as [[G1 [[G2 G3] G4]] _].
    auto.
  Qed.
  Lemma place_kept i d : db_ok L d -> linked d (history n None (repo_of d)) -> committed i -> ended_like (sy_procs s i) (alone (jobs i) d) ->
    let d' := disk (snd (alone (jobs i) d)) in
    exists k, history n None (repo_of d') = k :: history n None (repo_of d) /\ made_by d' (cs i) k.
  Proof.
    intros H1 H2 ((p & m & Qc) & Q1 & Q2 & Q3 & Q4) [E1 E2].
    assert (Hh : w_hashed (pr_world (sy_procs s i)) = w_hashed (snd (alone (jobs i) d))) by exact (f_equal w_hashed E2).
    assert (Ho : w_out (pr_world (sy_procs s i)) = w_out (snd (alone (jobs i) d))) by exact (f_equal w_out E2).
    destruct (sts i) as [st|] eqn:Qs; [|congruence]. cbv zeta.
    assert (A : alone (jobs i) d = main_rest (cms i) (Some st) (cs i) (with_db d (ws i))) by (unfold alone, jobs, command_job; cbn [j_run j_world]; rewrite Qs; reflexivity).
    destruct (alone (jobs i) d) as [o w'] eqn:Al. cbn [fst snd] in *. rewrite E1 in Q3. injection Q3 as Q3. subst o.
    eapply (kept_step n L NC _ d (cs i) (cms i) st p m (with_db d (ws i))); [exact Qc| |apply start_sound; assumption|exact Q2|rewrite <- Hh; apply HL|symmetry; exact A|].
    - pose proof (TX i) as X. rewrite Qc in X. exact X.
    - intros (a & C). apply Q4. exists a. rewrite Ho. exact C.
  Qed.
  Lemma all_kept : let d := sy_db s in
    linked d (history n None (repo_of d)) /\
    exists made, NoDup (map fst made) /\ history n None (repo_of d) = map snd made ++ history n None (repo_of d0) /\
      (forall i k, In (i, k) made -> ended (sy_procs s i) /\ made_by d (cs i) k) /\ (forall i, committed i -> In i (map fst made)).
  Proof.
    destruct (all_ok cms sts cs NI ws d0 s NT ST) as (h & OK). pose proof OK as (ND & DB & OKS).
    assert (PL : forall i a d b, h = a ++ (i, d) :: b -> ended (sy_procs s i) /\ ended_like (sy_procs s i) (alone (jobs i) (last_db d0 a)) /\ disk (snd (alone (jobs i) (last_db d0 a))) = d).
    { intros i a d b H. assert (I : In i (map fst h)) by (rewrite H, map_app, in_app_iff; cbn; auto).
      assert (EN : ended (sy_procs s i)).
      { destruct (ALL i) as [EN|NO]; [exact EN|]. destruct (committed_over _ _ _ _ _ _ _ h OK i I) as [EN|OV]; [exact EN|contradiction]. }
      split; [exact EN|]. destruct EN as [o EN]. specialize (OKS i). unfold proc_ok in OKS. rewrite EN in OKS.
      destruct OKS as [(a1 & da & a2 & H' & A)|(N & _)]; [|contradiction].
      rewrite H in H', ND. destruct (same_place _ _ _ _ _ _ _ ND H') as [-> ->]. eapply ended_as; eauto. }
    assert (GO : forall a b, h = a ++ b -> let d := last_db d0 a in db_ok L d /\ linked d (history n None (repo_of d)) /\
      exists made, NoDup (map fst made) /\ incl (map fst made) (map fst a) /\ history n None (repo_of d) = map snd made ++ history n None (repo_of d0) /\
        (forall i k, In (i, k) made -> ended (sy_procs s i) /\ made_by d (cs i) k) /\ (forall i, committed i -> In i (map fst a) -> In i (map fst made))).
    { intro a. induction a as [|[i d'] a IH] using rev_ind; intros b H.
      - cbn. split; [exact D0|]. split; [exact K0|]. exists []. cbn. split; [constructor|]. split; [intros x []|]. split; [reflexivity|]. split; [intros i k []|intros i _ []].
      - rewrite <- app_assoc in H. cbn [app] in H. destruct (IH _ H) as (O1 & K1 & made & N1 & I1 & Q1 & M1 & C1). destruct (PL _ _ _ _ H) as (EN & EL & DI). cbv zeta.
        replace (last_db d0 (a ++ [(i, d')])) with d' by (symmetry; apply last_db_app).
        assert (IL : incl (w_hashed (snd (alone (jobs i) (last_db d0 a)))) L) by (destruct EL as [_ E2]; pose proof (HL i) as X; replace (w_hashed (pr_world (sy_procs s i))) with (w_hashed (snd (alone (jobs i) (last_db d0 a)))) in X by (symmetry; exact (f_equal w_hashed E2)); exact X).
        destruct (place_more i _ O1 K1 IL) as (O2 & K2 & Le & Ch). rewrite DI in *. split; [exact O2|]. split; [exact K2|].
        assert (NI' : ~ In i (map fst made)).
        { intro X. apply I1 in X. rewrite H, map_app in ND. cbn [map fst] in ND. apply NoDup_remove_2 in ND. apply ND. apply in_app_iff. auto. }
        assert (Old : forall j k, In (j, k) made -> ended (sy_procs s j) /\ made_by d' (cs j) k) by (intros j k X; destruct (M1 j k X) as [Y1 Y2]; split; [exact Y1|eapply made_le; eauto]).
        destruct Ch as [Ch|(k & Ch & Mk)].
        + exists made. split; [exact N1|]. split; [rewrite map_app; intros x X; apply in_app_iff; left; apply I1, X|]. split; [congruence|]. split; [exact Old|].
          intros j Cj Ij. rewrite map_app in Ij. apply in_app_iff in Ij as [Ij|[<-|[]]]; [apply C1; assumption|]. exfalso. cbn [fst] in *.
          destruct (place_kept i _ O1 K1 Cj EL) as (k & Q & _). rewrite DI, Ch in Q. apply (f_equal (@length key)) in Q. cbn in Q. lia.
        + exists ((i, k) :: made). cbn [map fst snd]. split; [constructor; assumption|]. split; [rewrite map_app; intros x [<-|X]; apply in_app_iff; [right; left; reflexivity|left; apply I1, X]|].
          split; [rewrite Ch, Q1; reflexivity|]. split.
          * intros j k' [X|X]; [inversion X; subst; split; [exact EN|exact Mk]|apply Old, X].
          * intros j Cj Ij. rewrite map_app in Ij. apply in_app_iff in Ij as [Ij|[<-|[]]]; [right; apply C1; assumption|left; reflexivity]. }
    cbv zeta. destruct (GO h [] ltac:(rewrite app_nil_r; reflexivity)) as (_ & K1 & made & N1 & I1 & Q1 & M1 & C1). rewrite <- DB in *. split; [exact K1|]. exists made. split; [exact N1|]. split; [exact Q1|]. split; [exact M1|].
    intros i Ci. apply C1; [exact Ci|]. destruct Ci as (Ci1 & Ci2 & Ci3 & Ci4 & Ci5). specialize (OKS i). unfold proc_ok in OKS. rewrite Ci4 in OKS.
    destruct OKS as [(a & d & b & H & A)|(N & a & b & H & A)]; [rewrite H, map_app, in_app_iff; right; left; reflexivity|].
    exfalso. destruct (GO a b H) as (O2 & K2 & _). destruct (ended_as _ _ _ _ _ Ci4 A) as [EL DI].
    destruct (place_kept i _ O2 K2 (conj Ci1 (conj Ci2 (conj Ci3 (conj Ci4 Ci5)))) EL) as (k & Q & _). change (disk (snd (alone (jobs i) (last_db d0 a))) = last_db d0 a) in DI. rewrite DI in Q. apply (f_equal (@length key)) in Q. cbn in Q. lia.
  Qed.
End Many.

(** A process that runs from its start to its end while no other one has begun. *)
Lemma runs_whole {E : Env} cm st c (NI : c <> CInit) i f d w w1 w2 w3 w4 w5 w6 :
  f i = start (command_job cm (Some st) c NI w) -> w_txn w = NoTxn -> (forall j, ~ has_shared (f j) /\ ~ has_reserved (f j)) ->
  open_cache (with_db d w) = (Done tt, w1) -> try db_begin (with_db d w1) = (Done (Ok tt), w2) -> cache_begin (with_db d w2) = (Done tt, w3) ->
  try (run_command cm (Some st) c) (with_db d w3) = (Done (Ok tt), w4) -> w_txn w4 <> NoTxn ->
  try db_commit (with_db d w4) = (Done (Ok tt), w5) -> cache_commit (with_db (disk w5) w5) = (Done tt, w6) ->
  exists ph, steps (System d f) (System (disk w5) (at_proc f i (Proc (Ended (Done tt)) w6 ph))).
Proof.
  intros FI NT NO E1 E2 E3 E4 T4 E5 E6.
  assert (NR : ~ reserved_by_others f i) by (intros (j & _ & H); exact (proj2 (NO j) H)).
  destruct (reach_end_of_command cm st c NI i f d w _ _ _ _ _ FI NT NR E1 E2 E3 E4 T4) as (b & CO & S1).
  set (p := Proc (Rest (finish (Some st) (Ok tt)) (script_finish (Some st) (Ok tt))) w4 (Opened b)).
  specialize (S1 (at_proc f i p) (at_same _ _ _) (fun j J => at_other _ _ _ j J)).
  exists (phase_after SCommit (Opened b) w4 w5). apply (steps_trans _ _ _ S1).
  eapply reach_exit; [apply at_same|exact CO| |exact E5|exact E6|apply at_same|].
  - intros _ _ (j & J & H). rewrite at_other in H by exact J. exact (proj1 (NO j) H).
  - intros j J. rewrite !at_other by exact J. reflexivity.
Qed.
