(** Discovery of the repository, [init], and the exit status. *)
From Coq Require Import RelationClasses.
From Verif Require Import Base BaseFacts Key Keyish Object Path World WorldFacts Store File Filter Dir Diff Commit Main SpecStore StoreCalls SpecRun SpecProc
  Frame DbRel Integrity ObjStoreFacts SessionFacts FsFacts SnapFacts ProcFacts TableFacts QueryFacts.

Section InitFacts.
  Context {E : Env}.

  (** *** Discovery *)
  Lemma ancestors_rev_in r d : In d (ancestors_rev r) <-> exists r', rev r = d ++ r'.
  Proof.
    induction r as [|n r IH]; cbn [ancestors_rev].
    - split; [intros [<-|[]]; exists []; reflexivity|]. intros [r' H]. left. destruct d; [reflexivity|discriminate].
    - cbn [In]. rewrite IH. cbn [rev]. split.
      + intros [<-|(r' & ->)]; [exists []; symmetry; apply app_nil_r|exists (r' ++ [n]); rewrite app_assoc; reflexivity].
      + intros [r' H]. destruct (rev r') as [|m r''] eqn:Er.
        * left. apply (f_equal (@rev _)) in Er. rewrite rev_involutive in Er. subst. rewrite app_nil_r in H. exact H.
        * right. apply (f_equal (@rev _)) in Er. rewrite rev_involutive in Er. cbn in Er. subst. rewrite app_assoc in H. apply app_inj_tail in H as [-> _]. eauto.
  Qed.
  (** The list goes from long to short. *)
  Lemma ancestors_rev_len r d l : ancestors_rev r = d :: l -> d = rev r /\ forall e, In e l -> length e < length d.
  Proof.
    destruct r as [|n r]; cbn [ancestors_rev]; intro H; inversion H; subst; clear H; [split; [reflexivity|intros e []]|].
    split; [reflexivity|]. intros e I. apply ancestors_rev_in in I as [r' Q]. cbn [rev]. rewrite app_length. rewrite Q, app_length. cbn. lia.
  Qed.
  Lemma quiet_exists p w : w_faults w = [] -> fs_exists p w = (Done (match stat (w_fs w) (w_cwd w) p with Some (_, e) => match meta_of e with Some _ => true | None => false end | None => false end), set_tick w (S (w_tick w))).
  Proof.
    intro F. unfold fs_exists, bind, try, fs_metadata, fs_query, op. cbn zeta. cbn [w_faults set_tick]. rewrite F. cbn.
    destruct (stat _ _ p) as [[l e]|]; [|reflexivity]. destruct (meta_of e); reflexivity.
  Qed.
  Lemma find_in_spec name : forall l w r w', w_faults w = [] -> find_in name l w = (Done r, w') ->
    match r with
    | Some p => exists pre d post, l = pre ++ d :: post /\ p = join (abs_path d) name /\ is_there w p /\ forall e, In e pre -> ~ is_there w (join (abs_path e) name)
    | None => forall d, In d l -> ~ is_there w (join (abs_path d) name)
    end.
  Proof.
    induction l as [|d l IH]; intros w r w' F H; cbn [find_in] in H.
    - apply ret_done in H as [-> _]. intros d [].
    - unfold bind at 1 in H. rewrite quiet_exists in H by exact F. set (p := join (abs_path d) name) in *.
      assert (X : is_there w p <-> match stat (w_fs w) (w_cwd w) p with Some (_, e) => match meta_of e with Some _ => true | None => false end | None => false end = true).
      { unfold is_there. destruct (stat _ _ p) as [[l0 e]|]; [|split; [intros (? & ? & ? & ? & _); discriminate|discriminate]].
        destruct (meta_of e) eqn:Me; [split; [reflexivity|intros _; eauto]|]. split; [|discriminate]. intros (l1 & e1 & m & Q & Me'). inversion Q; subst. congruence. }
      destruct (match stat _ _ p with Some _ => _ | None => false end) eqn:B.
      + apply ret_done in H as [-> _]. exists [], d, l. split; [reflexivity|]. split; [reflexivity|]. split; [apply X; reflexivity|intros e []].
      + assert (N : ~ is_there w p) by (intro T; apply X in T; discriminate).
        apply IH in H; [|exact F]. destruct r as [p'|].
        * destruct H as (pre & d' & post & -> & -> & T & Z). exists (d :: pre), d', post. split; [reflexivity|]. split; [reflexivity|]. split; [exact T|]. intros e [<-|I]; [exact N|exact (Z e I)].
        * intros e [<-|I]; [exact N|exact (H e I)].
  Qed.
  Lemma sorted_ancestors r pre d post : ancestors_rev r = pre ++ d :: post -> forall e, In e (ancestors_rev r) -> length d < length e -> In e pre.
  Proof.
    revert pre. induction r as [|n r IH]; intros pre H e I L.
    - cbn in *. destruct pre as [|x [|y pre]]; cbn in H; inversion H; subst. destruct I as [<-|[]]. cbn in L. lia.
    - destruct pre as [|x pre].
      + cbn [ancestors_rev] in *. inversion H as [[Hd Hp]]. rewrite <- Hd in L. destruct I as [<-|I]; [exfalso; exact (Nat.lt_irrefl _ L)|].
        apply ancestors_rev_in in I as [r' Q]. exfalso. apply (f_equal (@length _)) in Q. rewrite !app_length in *. cbn in *. try rewrite !app_length in L. cbn in L. lia.
      + cbn [ancestors_rev] in *. inversion H; subst. destruct I as [<-|I]; [left; reflexivity|right]. eapply IH; eauto.
  Qed.
  Theorem nearest name w r w' : w_faults w = [] -> find_db_folder name w = (Done r, w') ->
    match r with
    | Some p => exists d, above (w_cwd w) d /\ p = join (abs_path d) name /\ is_there w p /\
                  forall e, above (w_cwd w) e -> length d < length e -> ~ is_there w (join (abs_path e) name)
    | None => forall d, above (w_cwd w) d -> ~ is_there w (join (abs_path d) name)
    end.
  Proof.
    intros F H. unfold find_db_folder in H. apply bind_done in H as (cwd & w1 & C & H).
    assert (w1 = set_tick w (S (w_tick w)) /\ cwd = w_cwd w) as [-> ->].
    { unfold fs_current_dir, fs_query, op in C. cbn zeta in C. cbn [w_faults set_tick] in C. rewrite F in C. cbn in C. inversion C. auto. }
    assert (A : forall d, In d (ancestors (w_cwd w)) <-> above (w_cwd w) d).
    { intro d. unfold ancestors. rewrite ancestors_rev_in, rev_involutive. reflexivity. }
    apply find_in_spec in H; [|exact F]. destruct r as [p|].
    - destruct H as (pre & d & post & L & Q & T & Z). exists d. split; [apply A; rewrite L; apply in_or_app; right; left; reflexivity|]. split; [exact Q|]. split; [exact T|].
      intros e U Le. apply Z. eapply sorted_ancestors; [exact L|apply A, U|exact Le].
    - intros d U. apply H, A, U.
  Qed.
  Theorem nearest_absolute name w r w' : w_faults w = [] -> p_abs name = true -> find_db_folder name w = (Done r, w') ->
    match r with Some p => p = name /\ is_there w name | None => ~ is_there w name end.
  Proof.
    intros F A H. apply nearest in H; [|exact F]. assert (J : forall x, join x name = name) by (intro x; unfold join; rewrite A; reflexivity).
    destruct r as [p|]; [destruct H as (d & _ & -> & T & _); rewrite J in *; split; [reflexivity|exact T]|]. specialize (H (w_cwd w)). rewrite J in H. apply H. exists []. rewrite app_nil_r. reflexivity.
  Qed.
  Lemma nearest_total name w : w_faults w = [] -> exists r w', find_db_folder name w = (Done r, w').
  Proof.
    intro F. unfold find_db_folder, fs_current_dir, fs_query, bind, op. cbn zeta. cbn [w_faults set_tick]. rewrite F. cbn.
    assert (X : forall l v, w_faults v = [] -> exists r w', find_in name l v = (Done r, w')).
    { induction l as [|d l IH]; intros v Fv; cbn [find_in]; [eexists _, _; reflexivity|]. unfold bind. rewrite quiet_exists by exact Fv.
      destruct (match stat _ _ _ with Some _ => _ | None => false end); [eexists _, _; reflexivity|]. apply IH. exact Fv. }
    apply X. exact F.
  Qed.

  (** *** init *)
  Definition txn_same (w w' : world) : Prop := w_txn w' = w_txn w.
  Lemma init_command cm w o w' : cmd_init cm w = (o, w') ->
    w_txn w' = w_txn w /\ forall l, there w l -> only_head (db_at (w_dbs w) l) (db_at (w_dbs w') l).
  Proof.
    assert (TS : PreOrder txn_same) by (split; [intro; reflexivity|intros a b c X Y; unfold txn_same in *; congruence]).
    assert (OR : forall d, only_head d d) by (intro d; split; [reflexivity|]; split; [reflexivity|]; auto).
    intro H. unfold cmd_init in H. unfold bind at 1 in H.
    pose proof (before_mkdir (cm_db_path cm) w) as (_ & _ & G1 & D1).
    assert (T1 : rel txn_same (fs_create_dir_all (cm_db_path cm))).
    { unfold fs_create_dir_all. destruct (is_empty_path _); [intro; reflexivity|]. apply rel_fs_change; intros v v1; intros; match goal with H : ticked _ _ |- _ => destruct H as (t & r & ->) end; reflexivity. }
    specialize (T1 w). destruct (fs_create_dir_all (cm_db_path cm) w) as [o1 w1]. unfold txn_same in T1. cbn [snd] in *.
    assert (L1 : forall l, there w l -> there w1 l) by (intros l (c & st & P); exists c, st; apply G1, P).
    destruct o1 as [[]| | | |]; try (inversion H; subst; split; [exact T1|]; intros l P; rewrite D1 by exact P; apply OR).
    unfold bind at 1 in H. pose proof (before_open (join_name (cm_db_path cm) snapcd_db) w1) as (_ & _ & G2 & D2).
    assert (T2 : rel txn_same (sqlite_open (join_name (cm_db_path cm) snapcd_db))).
    { apply rel_op. intros f v v1 (t & r & ->). assert (X : forall l v', open_db_eff (join_name (cm_db_path cm) snapcd_db) (set_faults (set_tick v t) r) = Some (l, v') -> w_txn v' = w_txn v).
      { unfold open_db_eff. intros l v' Eo. destruct (resolve _ _ _) as [l0|]; [|discriminate]. destruct (p_slash _); [discriminate|].
        destruct (lookup _ l0) as [[|c st| |]|] eqn:El; try discriminate; [|inv Eo; reflexivity]. destruct (assoc_loc l0 _); [inv Eo; reflexivity|]. destruct c; inv Eo. reflexivity. }
      destruct (open_db_eff _ _) as [[l v']|] eqn:Eo; [specialize (X _ _ eq_refl)|]; destruct f as [|[|]| |[|]]; cbn; auto; reflexivity. }
    specialize (T2 w1). destruct (sqlite_open (join_name (cm_db_path cm) snapcd_db) w1) as [o2 w2]. unfold txn_same in T2. cbn [snd] in *.
    destruct o2 as [l2| | | |]; try (inversion H; subst; split; [congruence|]; intros l P; rewrite D2 by (apply L1, P); rewrite D1 by exact P; apply OR).
    unfold db_write_at in H. match type of H with op ?x ?y = _ => destruct (op_case x y) as (f & v & Eo & (t & r & ->)) end. rewrite Eo in H. clear Eo.
    assert (S : forall l, there w l -> only_head (db_at (w_dbs w) l) (db_at (assoc_set l2 (upd_state (insert_or_replace (str "HEAD") (str "master")) (db_at (w_dbs w2) l2)) (w_dbs w2)) l)).
    { intros l P. rewrite db_at_set. destruct (names_eqb l2 l) eqn:En.
      - apply names_eqb_eq in En. subst. rewrite D2 by (apply L1, P). rewrite D1 by exact P. split; [reflexivity|]. split; [reflexivity|]. intros k N. apply assoc_replace_other, N.
      - rewrite D2 by (apply L1, P). rewrite D1 by exact P. apply OR. }
    destruct f as [|n| |[|n]]; inversion H; subst; (split; [cbn; congruence|]); intros l P; try (apply (S l P)); cbn [w_dbs set_faults set_tick]; rewrite D2 by (apply L1, P); rewrite D1 by exact P; apply OR.
  Qed.
  #[export] Instance only_head_pre : PreOrder only_head.
  Proof. split; [intro d; split; [reflexivity|]; split; [reflexivity|]; auto|]. intros a b c (A & B & C) (A' & B' & C'). split; [congruence|]. split; [congruence|]. intros k N. rewrite C', C; auto. Qed.
  Theorem init_keeps cm w l : there w l -> only_head (db_at (w_dbs w) l) (db_at (w_dbs (snd (run_process cm CInit w))) l).
  Proof.
    intros TH. unfold run_process. rewrite main_split. unfold bind at 1. destruct (setup cm (close_all w)) as [os w1] eqn:Es.
    pose proof (before_setup cm (close_all w)) as X. rewrite Es in X. cbn [snd] in X. destruct X as (_ & _ & G & D). specialize (D l TH).
    assert (TH1 : there w1 l) by (destruct TH as (c & st & P); exists c, st; apply G, P).
    change (w_dbs (close_all w)) with (w_dbs w) in D. rewrite <- D. destruct os as [st| | | |]; try (cbn; reflexivity).
    unfold bind at 1. unfold try. destruct (run_command cm st CInit w1) as [oc w2] eqn:Er.
    change (run_command cm st CInit w1) with (cmd_init cm w1) in Er. apply init_command in Er as [T2 O]. specialize (O l TH1).
    assert (N : txn_by only_head w2).
    { unfold txn_by. rewrite T2. destruct (w_txn w1) eqn:Tx; auto. destruct (setup_txn _ _ _ _ Es) as [_ N]. destruct (N _ Tx). }
    assert (R : forall r, rel (by_rel only_head) (finish st r)) by (intro r; apply by_finish; exact _).
    destruct oc as [[]|e| | |]; try exact O.
    - destruct (R (Ok tt) w2 N) as [_ L]. destruct (finish st (Ok tt) w2) as [o3 w3]. etransitivity; [exact O|apply L].
    - destruct (R (Err e) w2 N) as [_ L]. destruct (finish st (Err e) w2) as [o3 w3]. etransitivity; [exact O|apply L].
  Qed.

  (** *** Without faults *)
  Definition calm (w w' : world) : Prop := w_faults w = [] -> w_faults w' = [] /\ (w_ctxn w <> None -> w_ctxn w' <> None).
  #[local] Instance calm_pre : PreOrder calm.
  Proof. split; [intros w F; auto|]. intros a b c H K F. destruct (H F) as [F1 H1]. destruct (K F1) as [F2 H2]. auto. Qed.
  Lemma calm_op {A} (eff : fault -> M A) : (forall w, w_faults (snd (eff FOk w)) = w_faults w /\ (w_ctxn w <> None -> w_ctxn (snd (eff FOk w)) <> None)) -> rel calm (op eff).
  Proof.
    intros H w F. unfold op. cbn zeta. cbn [w_faults set_tick]. rewrite F. destruct (H (set_tick w (S (w_tick w)))) as [A1 B1]. split; [rewrite A1; exact F|exact B1].
  Qed.
  Ltac co := apply calm_op; intro; split; [reflexivity|intro; cbn; assumption].
  #[local] Instance calm_Rd : RdPrims calm.
  Proof.
    constructor; [exact _|..].
    - intros A q. co.
    - intros t a. co.
    - intros d. co.
    - intros A q. apply calm_op; intro w. destruct (q _ _); cbn; auto.
    - intros p. apply calm_op. intros w. destruct (stat _ _ p) as [[l [| | |]]|]; cbn; auto.
    - intros p. apply calm_op. intros w. destruct (stat _ _ p) as [[l [| | |]]|]; cbn; auto.
  Qed.
  Lemma put_db_calm d w : w_faults (put_db d w) = w_faults w /\ (w_ctxn w <> None -> w_ctxn (put_db d w) <> None).
  Proof. unfold put_db. destruct (w_txn w); cbn; auto. Qed.
  Lemma calm_write u : rel calm (db_write u).
  Proof. apply calm_op. intro w. apply put_db_calm. Qed.
  #[local] Instance calm_Put : PutPrims calm.
  Proof.
    constructor. intro d. unfold put. apply rel_bind; [exact _| |intro k].
    - intros w F. split; [exact F|auto].
    - apply rel_bind; [exact _|apply calm_write|intros _; apply rel_ret; exact _].
  Qed.
  #[local] Instance calm_Ref : RefPrims calm.
  Proof. constructor; intros; apply calm_write. Qed.
  Lemma calm_change {A} (full : fs -> loc -> nat -> option (A * fs)) partial : rel calm (fs_change full partial).
  Proof. apply calm_op. intros w. destruct (full _ _ _) as [[a f']|]; cbn; auto. Qed.
  #[local] Instance calm_Fs : FsPrims calm.
  Proof. constructor; intros; try apply calm_change. unfold fs_create_dir_all. destruct (is_empty_path p); [apply rel_ret; exact _|apply calm_change]. Qed.
  #[local] Instance calm_Del : DelPrims calm.
  Proof. constructor; intros; apply calm_change. Qed.
  #[local] Instance calm_Cache : CachePrims calm.
  Proof.
    constructor.
    - intros A q. co.
    - intros c k. apply calm_op. intro w. unfold put_cache. cbn. destruct (w_ctxn w) eqn:C; cbn; split; auto; intro; congruence.
  Qed.
  Lemma calm_open p : rel calm (sqlite_open p).
  Proof.
    apply calm_op. intros w. assert (X : forall l w', open_db_eff p w = Some (l, w') -> w_faults w' = w_faults w /\ w_ctxn w' = w_ctxn w).
    { unfold open_db_eff. intros l w' Eo. destruct (resolve _ _ p) as [l0|]; [|discriminate]. destruct (p_slash p); [discriminate|].
      destruct (lookup (w_fs w) l0) as [[|c st| |]|] eqn:El; try discriminate; [|inv Eo; auto]. destruct (assoc_loc l0 (w_dbs w)); [inv Eo; auto|]. destruct c; inv Eo. auto. }
    destruct (open_db_eff p w) as [[l w']|] eqn:Eo; [destruct (X _ _ eq_refl) as [A B]|]; cbn; auto. rewrite B. auto.
  Qed.
  #[local] Instance calm_Open : OpenPrims calm.
  Proof.
    constructor; intros; (apply rel_bind; [exact _|apply calm_open|intro l]).
    - intros w F. auto.
    - co.
  Qed.
  Lemma calm_command cm st c : rel calm (run_command cm st c).
  Proof.
    assert (D : c = CInit \/ c <> CInit) by (destruct c; (left; reflexivity) || (right; discriminate)). destruct D as [->|N].
    - cbn [run_command]. unfold cmd_init. apply rel_bind; [exact _|apply fp_mkdir|intros _; apply pc_open_init].
    - destruct st as [s|]; [apply rel_repo_command; try exact _; exact N|]. destruct c; cbn [run_command with_ds]; try (apply rel_fail; exact _); [apply rel_cmd_walk_fs_tree; exact _|destruct N; reflexivity].
  Qed.
  Lemma calm_begin : rel calm db_begin.
  Proof. apply calm_op. intro w. destruct (w_txn w); cbn; auto. Qed.
  Lemma calm_cache_new : rel calm cache_new.
  Proof. co. Qed.
  Lemma calm_setup cm w st w1 : starts cm w st w1 -> w_faults w = [] -> w_faults w1 = [] /\ w_ctxn w1 <> None.
  Proof.
    intros S F. unfold starts, setup in S. apply bind_done in S as (st' & v1 & H1 & S). apply bind_done in S as ([] & v2 & H2 & S). apply bind_done in S as ([] & v3 & H3 & S). apply bind_done in S as ([] & v4 & H4 & S). apply ret_done in S as [-> ->].
    assert (K : forall A (m : M A), rel calm m -> forall v a v', m v = (Done a, v') -> w_faults v = [] -> w_faults v' = []).
    { intros A m R v a v' H Fv. specialize (R v). rewrite H in R. apply R, Fv. }
    assert (F1 : w_faults v1 = []).
    { eapply (K _ (open_repo cm)); [|exact H1|exact F]. unfold open_repo. apply rel_bind; [exact _|apply rel_find_db_folder; exact _|intros [p|]; [|apply rel_ret; exact _]].
      destruct (parent p) as [p0|]; [|apply rel_panic; exact _]. apply rel_bind; [exact _|apply calm_open|intro l]. apply rel_bind; [exact _|intros x Fx; auto|intros _; apply rel_ret; exact _]. }
    assert (F2 : w_faults v2 = []).
    { eapply (K _ open_cache); [|exact H2|exact F1]. unfold open_cache. destruct cache_dir; (apply rel_bind; [exact _| |intros _]); try apply calm_cache_new; [apply fp_mkdir|intros w' F'; auto]. }
    assert (F3 : w_faults v3 = []) by (eapply (K _ (ignore_on st' db_begin)); [apply rel_ignore_on; [exact _|apply calm_begin]|exact H3|exact F2]).
    unfold cache_begin, op in H4. cbn zeta in H4. cbn [w_faults set_tick] in H4. rewrite F3 in H4. cbn in H4. destruct (w_ctxn v3); [discriminate|]. inversion H4; subst. cbn. split; [exact F3|discriminate].
  Qed.
  Lemma quiet_ctxn st m w : (forall v, w_faults v = [] -> exists o v', m v = (o, v') /\ (o = Done tt \/ exists e, o = Error e) /\ w_faults v' = [] /\ w_ctxn v' = w_ctxn v) ->
    w_faults w = [] -> exists w', ignore_on st m w = (Done tt, w') /\ w_faults w' = [] /\ w_ctxn w' = w_ctxn w.
  Proof.
    intros H F. destruct st as [s|]; cbn [ignore_on]; [|exists w; auto]. destruct (H w F) as (o & v' & Em & O & F' & C'). unfold bind, try. rewrite Em.
    destruct O as [->|(e & ->)]; exists v'; auto.
  Qed.
  Theorem failure_exits_zero cm c w st w1 e w2 : w_faults w = [] -> starts cm w st w1 -> run_command cm st c w1 = (Error e, w2) ->
    exists w', run_process cm c w = (Some 0%N, w') /\ w_out w' = Printed "fatal:" (error_message e) :: w_out w2.
  Proof.
    intros F S R. destruct (calm_setup _ _ _ _ S F) as [F1 C1]. pose proof (calm_command cm st c w1 F1) as [F2 C2]. rewrite R in F2, C2. cbn [snd] in F2, C2. specialize (C2 C1).
    assert (X : exists w3, finish st (Err e) w2 = (Done tt, w3)).
    { cbn [finish]. unfold bind at 1. unfold print, op at 1. cbn zeta. cbn [w_faults set_tick]. rewrite F2. cbn [w_out set_tick].
      set (v := set_out _ _). assert (Fv : w_faults v = []) by exact F2. assert (Cv : w_ctxn v <> None) by exact C2.
      unfold bind. destruct (quiet_ctxn st db_rollback v) as (v' & Q & Fv' & Cv'); [|exact Fv|].
      - intros x Fx. unfold db_rollback, op. cbn zeta. cbn [w_faults set_tick]. rewrite Fx. cbn. destruct (w_txn x); eexists _, _; (split; [reflexivity|]); eauto.
      - rewrite Q. unfold cache_rollback, op. cbn zeta. cbn [w_faults set_tick]. rewrite Fv'. cbn. rewrite Cv'. destruct (w_ctxn v); [|destruct Cv; reflexivity]. eexists. reflexivity. }
    destruct X as [w3 X]. assert (P : run_process cm c w = (Some 0%N, close_all w3)).
    { unfold run_process. rewrite main_split. unfold bind at 1. unfold starts in S. rewrite S. unfold bind at 1. unfold try. rewrite R, X. reflexivity. }
    eexists. split; [exact P|]. apply exit_zero in P as (st' & v1 & v2 & S' & P). unfold starts in S, S'. rewrite S in S'. inversion S'; subst.
    destruct P as [[P _]|(e' & P & O)]; rewrite R in P; [discriminate|]. inversion P; subst. exact O.
  Qed.
End InitFacts.
