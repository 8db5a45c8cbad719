(** Commands that never panic. *)
From Coq Require Import Sorted RelationClasses.
From Verif Require Import Base BaseFacts TableFacts Key KeyFacts Keyish Cbor Object Path World WorldFacts Store File Filter Dir Diff Commit Pretty Main SpecKey SpecResolve SpecStore StoreCalls SpecRun SpecProc SpecCmd SpecFile SpecDir SpecCache SpecDiff SpecPatch SpecShow SpecOut SpecClosure SpecShape SpecLive SpecFatal SpecFetch SpecPanic SpecScreen SpecText Screen SpecText ShowFacts
  Frame DbRel Closure Integrity StoreFacts ProcFacts InitFacts ObjStoreFacts SessionFacts FilePlan FileFacts FsFacts DirPlan DirFacts CmdFacts FileRun DirLive Ends ResolveFacts QueryFacts OutFacts ShapeFacts ShapeTop LiveCmd LiveFetch LiveRead LiveStart FatalFacts FatalCmd SparedFacts.

Section PanicFacts.
  Context {E : Env}.
  Notation ds := sqlite_ds.

  (** The call succeeds or reports an error (or, if [dv], needs a deeper stack). *)
  Definition fine (dv : Prop) (I J : world -> Prop) {A} (P : A -> Prop) (m : M A) : Prop :=
    forall w, I w -> match m w with (Done a, w') => J w' /\ P a | (Error _, w') => J w' | (Diverged, _) => dv | _ => False end.
  Definition any {A} (_ : A) : Prop := True.
  Definition calmly (w : world) : Prop := w_faults w = [].
  Definition at_db (d : db) (w : world) : Prop := w_faults w = [] /\ cur_db w = d.

  Section Rules.
    Context {dv : Prop}.
    Lemma fine_ret (I : world -> Prop) {A} (P : A -> Prop) a : P a -> fine dv I I P (ret a).
    Proof. intros H w Hw. cbn. auto. Qed.
    Lemma fine_fail (I : world -> Prop) {A} (P : A -> Prop) e : fine dv I I P (@fail A e).
    Proof. intros w Hw. cbn. auto. Qed.
    Lemma fine_diverge (I J : world -> Prop) {A} (P : A -> Prop) : dv -> fine dv I J P (@diverge A).
    Proof. intros H w Hw. cbn. auto. Qed.
    Lemma fine_option (I : world -> Prop) {A} e (o : option A) : fine dv I I any (of_option e o).
    Proof. destruct o; [apply fine_ret; exact Logic.I|apply fine_fail]. Qed.
    Lemma fine_lift (I : world -> Prop) {A X} (f : X -> error) (r : result A X) : fine dv I I any (lift_result f r).
    Proof. destruct r; [apply fine_ret; exact Logic.I|apply fine_fail]. Qed.
    Lemma fine_bind (I J K : world -> Prop) {A B} (P : A -> Prop) (Q : B -> Prop) (m : M A) (k : A -> M B) : fine dv I J P m -> (forall a, P a -> fine dv J K Q (k a)) -> (forall w, J w -> K w) -> fine dv I K Q (bind m k).
    Proof. intros H G S w Hw. specialize (H w Hw). unfold bind. destruct (m w) as [[a|e| | |] w1]; try assumption; [destruct H as [H1 H2]; exact (G a H2 w1 H1)|exact (S _ H)]. Qed.
    Lemma fine_seq (I : world -> Prop) {A B} (P : A -> Prop) (Q : B -> Prop) (m : M A) (k : A -> M B) : fine dv I I P m -> (forall a, P a -> fine dv I I Q (k a)) -> fine dv I I Q (bind m k).
    Proof. intros H G. eapply fine_bind; [exact H|exact G|auto]. Qed.
    Lemma fine_try (I J : world -> Prop) {A} (P : A -> Prop) (m : M A) : fine dv I J P m -> fine dv I J any (try m).
    Proof. intros H w Hw. specialize (H w Hw). unfold try. destruct (m w) as [[a|e| | |] w1]; try assumption; split; try exact Logic.I; [apply H|exact H]. Qed.
    Lemma fine_weaken (I I' J J' : world -> Prop) {A} (P : A -> Prop) (m : M A) : fine dv I J P m -> (forall w, I' w -> I w) -> (forall w, J w -> J' w) -> fine dv I' J' any m.
    Proof. intros H A1 A2 w Hw. specialize (H w (A1 _ Hw)). destruct (m w) as [[a|e| | |] w1]; auto. split; [apply A2, H|exact Logic.I]. Qed.
    Lemma fine_op (I J : world -> Prop) {A} (P : A -> Prop) (eff : fault -> M A) : (forall w w1, ticked w w1 -> I w -> I w1) -> (forall w, I w -> w_faults w = []) -> fine dv I J P (eff FOk) -> fine dv I J P (op eff).
    Proof. intros T F H w Hw. destruct (op_live eff w (F _ Hw)) as (w1 & Tk & F1 & ->). apply H. exact (T _ _ Tk Hw). Qed.
  End Rules.
  Lemma at_ticked d w w1 : ticked w w1 -> w_faults w1 = [] -> at_db d w -> at_db d w1.
  Proof. intros T F [_ C]. split; [exact F|]. rewrite (cur_ticked _ _ T). exact C. Qed.

  (** *** Operations, with the database as it is *)
  Section Steady.
    Context {dv : Prop} (d : db).
    Notation I := (at_db d).
    Lemma at_op {A} (P : A -> Prop) (eff : fault -> M A) : fine dv I I P (eff FOk) -> fine dv I I P (op eff).
    Proof. intros H w [F C]. destruct (op_live eff w F) as (w1 & Tk & F1 & ->). apply H. split; [exact F1|]. rewrite (cur_ticked _ _ Tk). exact C. Qed.
    Lemma at_read {A} (q : db -> A) : fine dv I I (fun x => x = q d) (db_read q).
    Proof. apply at_op. intros w [F C]. cbn. split; [split; assumption|]. rewrite C. reflexivity. Qed.
    Lemma at_print t a : fine dv I I any (print t a).
    Proof. apply at_op. intros w [F C]. cbn. repeat split; assumption. Qed.
    Lemma at_stdout b : fine dv I I any (write_stdout b).
    Proof. apply at_op. intros w [F C]. cbn. repeat split; assumption. Qed.
    Lemma at_query {A} (q : fs -> loc -> option A) : fine dv I I any (fs_query q).
    Proof. apply at_op. intros w [F C]. cbn. destruct (q _ _); [repeat split|split]; assumption. Qed.
    Lemma at_change {A} (full : fs -> loc -> nat -> option (A * fs)) partial : fine dv I I any (fs_change full partial).
    Proof. apply at_op. intros w [F C]. cbn. destruct (full _ _ _) as [[a f']|]; [repeat split|split]; assumption. Qed.
    Lemma at_canon ki : partly ki -> fine dv I I (fun k => forall w, world_ok w -> at_db d w -> denotes w ki k) (canonicalize ds ki).
    Proof.
      intro P.
      assert (X : fine dv I I any (canonicalize ds ki)).
      { destruct ki as [s a b|s k|orig rm n]; [|destruct P|].
        - cbn [canonicalize raw_between ds]. unfold sqlite_raw_between. apply (fine_seq I any).
          + intros w Hw. pose proof (at_read (fun x => select_between a b (d_data x)) w Hw) as Q. unfold unwrap. destruct Hw as [F C]. destruct (db_read_nofault (fun x => select_between a b (d_data x)) w F) as (w1 & T & F1 & E1).
            rewrite E1 in Q |- *. split; [apply Q|exact Logic.I].
          + intros l _. unfold resolve_results. destruct l as [|x [|y l]]; [apply fine_fail|apply fine_lift|]. eapply fine_seq; [apply fine_lift|intros; apply fine_fail].
        - cbn [canonicalize reflog_get ds]. unfold sqlite_reflog_get. eapply fine_seq.
          + eapply fine_try. eapply (fine_seq I any); [eapply fine_weaken; [apply at_read|auto|auto]|]. intros [k|] _; [apply fine_lift|apply fine_fail].
          + intros [k|e] _; [apply fine_ret; exact Logic.I|]. destruct e; apply fine_fail. }
      intros w Hw. pose proof (X w Hw) as Q. destruct (canonicalize ds ki w) as [[k|e| | |] w1] eqn:H; try assumption. split; [apply Q|]. clear X Q.
      intros v Wv [Fv Cv]. destruct Hw as [F C].
      (* The answer depends on nothing but the database. *)
      assert (Y : exists v1, canonicalize ds ki v = (Done k, v1)).
      { destruct ki as [s a b|s x|orig rm n]; [|destruct P|].
        - cbn [canonicalize raw_between ds] in *. unfold sqlite_raw_between, unwrap, bind in *.
          destruct (db_read_nofault (fun x => select_between a b (d_data x)) w F) as (w2 & _ & _ & E1). destruct (db_read_nofault (fun x => select_between a b (d_data x)) v Fv) as (v2 & _ & _ & E2).
          rewrite E1 in H. rewrite E2. rewrite Cv. rewrite C in H. unfold resolve_results in *. destruct (select_between a b (d_data d)) as [|x [|y l]]; [discriminate H| |].
          + destruct (from_db_key x); [|discriminate H]. apply ret_done in H as [-> _]. eexists. reflexivity.
          + exfalso. apply bind_done in H as (ks & w3 & _ & H). discriminate H.
        - cbn [canonicalize reflog_get ds] in *. unfold sqlite_reflog_get, try, bind in *.
          destruct (db_read_nofault (fun x => hd_error (select_reflog n rm (d_reflog x))) w F) as (w2 & _ & _ & E1). destruct (db_read_nofault (fun x => hd_error (select_reflog n rm (d_reflog x))) v Fv) as (v2 & _ & _ & E2).
          rewrite E1 in H. rewrite E2. rewrite Cv. rewrite C in H. destruct (hd_error _) as [x|]; [|discriminate H]. destruct (from_db_key x); [|discriminate H]. cbn in H |- *. inversion H. eexists. reflexivity. }
      destruct Y as [v1 Y]. apply OutFacts.canon_done in Y as [_ Y]; [exact Y|exact Wv].
    Qed.
    Lemma at_mkdir p : fine dv I I any (fs_create_dir_all p).
    Proof. unfold fs_create_dir_all. destruct (is_empty_path p); [apply fine_ret; exact Logic.I|apply at_change]. Qed.
    Lemma at_head : fine dv I I any (get_head ds).
    Proof.
      unfold get_head. cbn [raw_get_state ds]. unfold sqlite_raw_get_state. eapply fine_seq; [apply at_read|]. intros [b|] _; [|apply fine_ret; exact Logic.I]. destruct (utf8_valid b); [apply fine_ret; exact Logic.I|apply fine_fail].
    Qed.
    Lemma at_branch r : fine dv I I any (refname_or_head r).
    Proof. destruct r; [apply fine_ret; exact Logic.I|]. cbn [refname_or_head]. unfold head_or_fail. eapply fine_seq; [apply at_head|]. intros a _. apply fine_option. Qed.
    Lemma at_newest n rm : fine dv I I any (reflog_get ds n rm).
    Proof. cbn [reflog_get ds]. unfold sqlite_reflog_get. eapply fine_seq; [apply at_read|]. intros [k|] _; [apply fine_lift|apply fine_fail]. Qed.
    Lemma at_history n rm : fine dv I I any (reflog_walk ds n rm).
    Proof.
      cbn [reflog_walk ds]. unfold sqlite_reflog_walk. eapply fine_seq; [apply at_read|intros _ _]. eapply (fine_seq I any); [|intros a _; apply fine_lift].
      intros w [F C]. unfold unwrap. destruct (db_read_nofault (fun x => select_reflog n rm (d_reflog x)) w F) as (w1 & T & F1 & ->). repeat split; [exact F1|]. rewrite (cur_ticked _ _ T). exact C.
    Qed.
    Lemma at_object k : fine dv I I (fun o => object_at d (as_db_key k) = Some o) (get_obj ds k).
    Proof.
      intros w [F C]. rewrite get_obj_eq. unfold bind. destruct (db_read_nofault (fun x => assoc (as_db_key k) (d_data x)) w F) as (w1 & T & F1 & ->). rewrite C.
      assert (I w1) by (split; [exact F1|rewrite (cur_ticked _ _ T); exact C]). unfold object_at. destruct (assoc (as_db_key k) (d_data d)) as [v|]; [|assumption]. cbn.
      destruct (decode_object v); cbn; auto.
    Qed.
    Lemma at_entries l : forall n, fine dv I I any (print_entries n l).
    Proof. induction l as [|k l IH]; intro n; cbn [print_entries]; [apply fine_ret; exact Logic.I|]. eapply fine_seq; [apply at_print|intros _ _; apply IH]. Qed.
    Lemma at_tree l : fine dv I I any (print_tree l).
    Proof. induction l as [|[p [k b]] l IH]; cbn [print_tree]; [apply fine_ret; exact Logic.I|]. eapply fine_seq; [apply at_print|intros _ _; exact IH]. Qed.
    Lemma at_line b : fine dv I I any (writeln b).
    Proof. apply at_stdout. Qed.
    Lemma at_lines l : fine dv I I any (each_line l).
    Proof. induction l as [|x l IH]; cbn [each_line]; [apply fine_ret; exact Logic.I|]. eapply fine_seq; [apply at_line|intros _ _; exact IH]. Qed.
    Lemma at_keys l : fine dv I I any (pretty_keys l).
    Proof. induction l as [|x l IH]; cbn [pretty_keys]; [apply fine_ret; exact Logic.I|]. do 3 (eapply fine_seq; [apply at_line|intros _ _]). exact IH. Qed.
    Lemma at_pretty o : fine dv I I any (pretty_print o).
    Proof.
      unfold pretty_print. do 2 (eapply fine_seq; [apply at_line|intros _ _]). eapply fine_seq; [apply at_keys|intros _ _]. do 2 (eapply fine_seq; [apply at_line|intros _ _]).
      eapply fine_seq; [apply at_lines|intros _ _]. do 2 (eapply fine_seq; [apply at_line|intros _ _]). eapply fine_seq; [|intros _ _; apply at_line].
      instantiate (1 := any). destruct (debug_cbor _); [apply at_line|]. eapply fine_seq; [apply at_line|intros _ _; apply at_line].
    Qed.
    Lemma at_canons l : Forall partly l -> fine dv I I (fun ks => length ks = length l) (mapM (canonicalize ds) l).
    Proof.
      induction 1 as [|x l P H IH]; cbn [mapM]; [apply fine_ret; reflexivity|]. eapply fine_seq; [apply at_canon, P|]. intros k _. eapply fine_seq; [exact IH|]. intros ks L. apply fine_ret. cbn. rewrite L. reflexivity.
    Qed.
    (** A write is the last thing that a command does to the database. *)
    Lemma at_write u : fine dv I calmly any (db_write u).
    Proof.
      intros w [F C]. unfold db_write. match goal with |- context [op ?e w] => destruct (op_live e w F) as (w1 & T & F1 & ->) end. cbn. split; [|exact Logic.I].
      unfold calmly, put_db. destruct (w_txn w1); exact F1.
    Qed.

    (** *** Trees *)
    Context (Sh : shp d).
    Lemma at_item k : points d Item k -> fine dv I I (fun i => (exists size c, i = FSItem size ItFile [] [c] /\ points d Data c) \/ (exists size names ks, i = FSItem size ItDir names ks /\ Forall (points d Item) ks)) (get_fsitem ds k).
    Proof.
      intros (o & O & R). unfold get_fsitem. eapply fine_seq; [apply at_object|]. cbv beta. intros o' O'. assert (o' = o) as -> by congruence. clear O'.
      pose proof (formed _ _ _ Sh O) as W. unfold well_formed in W. destruct R as [R|R]; rewrite R in W.
      - destruct W as (size & c & Ks & P & ->). apply fine_ret. left. eauto.
      - destruct W as (names & ks & Ks & P & -> & _). apply fine_ret. right. exists (lenN ks), names, ks. auto.
    Qed.
  End Steady.
  Section Trees.
    Context (d : db) (Sh : shp d).
    Notation I := (at_db d).
    Lemma at_data l n : forall k, points d Data k -> fine True I I any (read_data ds (file_write l) n k tt).
    Proof.
      induction n as [|n IH]; intros k P; cbn [read_data]; [apply fine_diverge; exact Logic.I|]. destruct P as (o & O & R). eapply fine_seq; [apply at_object|]. cbv beta. intros o' O'. assert (o' = o) as -> by congruence. clear O'.
      pose proof (formed _ _ _ Sh O) as W. unfold well_formed in W. destruct R as [R|R]; rewrite R in *.
      - apply at_change.
      - destruct W as [_ W]. induction W as [|c ks P W IHk]; [apply fine_ret; exact Logic.I|]. eapply fine_seq; [apply IH, P|intros [] _; exact IHk].
    Qed.
    Lemma at_fetch n : forall k p, points d Item k -> fine True I I any (get_fs_item ds n k p).
    Proof.
      induction n as [|n IH]; intros k p P; cbn [get_fs_item]; [apply fine_diverge; exact Logic.I|]. eapply fine_seq; [apply (at_item d Sh), P|]. cbv beta. intros i [(size & c & -> & Pc)|(size & names & ks & -> & Pk)]; cbn [fi_type fi_children fi_names].
      - eapply fine_seq; [|intros _ _; eapply fine_seq; [apply at_change|intros l _]].
        + instantiate (1 := any). destruct (parent p); [apply at_mkdir|apply fine_ret; exact Logic.I].
        + unfold write_item_data. cbn [fi_children]. apply at_data, Pc.
      - assert (F : Forall (fun x : key * name => points d Item (fst x)) (combine ks names)).
        { apply Forall_forall. intros [c m] X. apply in_combine_l in X. cbn. rewrite Forall_forall in Pk. auto. }
        induction F as [|[c m] l Pc F IHl]; [apply fine_ret; exact Logic.I|]. eapply fine_seq; [apply IH, Pc|intros _ _; exact IHl].
    Qed.
    Lemma at_walk n : forall k p, points d Item k -> fine True I I any (internal_walk_fs_items ds n k p).
    Proof.
      induction n as [|n IH]; intros k p P; cbn [internal_walk_fs_items]; [apply fine_diverge; exact Logic.I|]. eapply fine_seq; [apply (at_item d Sh), P|]. cbv beta. intros i [(size & c & -> & Pc)|(size & names & ks & -> & Pk)]; cbn [fi_type fi_children fi_names].
      - apply fine_ret; exact Logic.I.
      - cbv zeta. assert (F : Forall (fun x : key * name => points d Item (fst x)) (combine ks names)).
        { apply Forall_forall. intros [c m] X. apply in_combine_l in X. cbn. rewrite Forall_forall in Pk. auto. }
        generalize (if is_empty_path p then [] else [(p, (k, true))]). induction F as [|[c m] l Pc F IHl]; intro acc; [apply fine_ret; exact Logic.I|]. eapply fine_seq; [apply IH, Pc|intros s _; apply IHl].
    Qed.
  End Trees.

  (** *** Commands *)
  Lemma calm_op {dv : Prop} {A} (P : A -> Prop) (eff : fault -> M A) : fine dv calmly calmly P (eff FOk) -> fine dv calmly calmly P (op eff).
  Proof. intros H w F. destruct (op_live eff w F) as (w1 & Tk & F1 & ->). apply H. exact F1. Qed.
  Lemma calm_query {dv : Prop} {A} (q : fs -> loc -> option A) : fine dv calmly calmly any (fs_query q).
  Proof. apply calm_op. intros w F. cbn. destruct (q _ _); [split; [exact F|exact I]|exact F]. Qed.
  Lemma calm_change {dv : Prop} {A} (full : fs -> loc -> nat -> option (A * fs)) partial : fine dv calmly calmly any (fs_change full partial).
  Proof. apply calm_op. intros w F. cbn. destruct (full _ _ _) as [[a f']|]; [split; [exact F|exact I]|exact F]. Qed.
  Lemma calm_mkdir {dv : Prop} p : fine dv calmly calmly any (fs_create_dir_all p).
  Proof. unfold fs_create_dir_all. destruct (is_empty_path p); [apply fine_ret; exact I|apply calm_change]. Qed.
  Lemma calm_open {dv : Prop} p : fine dv calmly calmly any (sqlite_open p).
  Proof.
    apply calm_op. intros w F. cbn. destruct (open_db_eff p w) as [[l w']|] eqn:O; [|exact F]. split; [|exact I]. unfold open_db_eff in O.
    repeat match type of O with context [match ?x with _ => _ end] => destruct x end; inversion O; subst; exact F.
  Qed.
  Lemma calm_begin {dv : Prop} : fine dv calmly calmly any db_begin.
  Proof. apply calm_op. intros w F. cbn. destruct (w_txn w); [split; [exact F|exact I]|exact F|exact F]. Qed.
  Lemma calm_cbegin {dv : Prop} : fine dv calmly calmly any cache_begin.
  Proof. apply calm_op. intros w F. cbn. destruct (w_ctxn w); [exact F|split; [exact F|exact I]]. Qed.
  Lemma calm_cache {dv : Prop} : fine dv calmly calmly any open_cache.
  Proof.
    assert (C : fine dv calmly calmly any cache_new) by (apply calm_op; intros w F; cbn; split; [exact F|exact I]). unfold open_cache. destruct cache_dir.
    - eapply fine_seq; [apply calm_mkdir|intros _ _; exact C].
    - eapply fine_seq; [exact C|intros _ _]. intros w F. cbn. split; [exact F|exact I].
  Qed.
  Lemma calm_find {dv : Prop} d l : d <> [] -> fine dv calmly calmly (fun r => forall x, r = Some x -> parent x <> None) (find_in (named d) l).
  Proof.
    intro N. induction l as [|e l IH]; cbn [find_in]; [apply fine_ret; discriminate|]. cbv zeta. eapply fine_seq.
    - instantiate (1 := any). unfold fs_exists. eapply fine_seq; [eapply fine_try, calm_query|]. intros [m|x] _; apply fine_ret; exact I.
    - intros [|] _; [|exact IH]. apply fine_ret. intros x Q. inversion Q; subst. rewrite join_abs by exact N. unfold parent, abs_path. cbn [p_comps p_abs]. destruct (exists_last N) as (d' & n & ->).
      rewrite app_assoc, map_app. cbn [map]. destruct (map Normal (e ++ d') ++ [Normal n]) eqn:Z; [apply snoc_not_nil in Z; destruct Z|]. discriminate.
  Qed.
  Lemma calm_repo {dv : Prop} cm : plain_folder cm -> fine dv calmly calmly any (open_repo cm).
  Proof.
    intros (d & N & C). unfold open_repo, find_db_folder. rewrite C. eapply fine_seq; [eapply fine_seq; [apply calm_query|intros cwd _; apply calm_find, N]|]. cbv beta. intros [x|] P; [|apply fine_ret; exact I].
    specialize (P x eq_refl). destruct (parent x) as [r|]; [|destruct (P eq_refl)]. eapply fine_seq; [apply calm_open|intros l _]. eapply (fine_seq calmly any); [|intros _ _; apply fine_ret; exact I].
    intros w F. cbn. split; [exact F|exact I].
  Qed.
  Lemma calm_setup_fine cm : plain_folder cm -> fine False calmly calmly any (setup cm).
  Proof.
    intro P. unfold setup. eapply fine_seq; [apply calm_repo, P|intros st _]. eapply fine_seq; [apply calm_cache|intros _ _]. eapply (fine_seq calmly any).
    - destruct st; cbn [ignore_on]; [|apply fine_ret; exact I]. eapply fine_seq; [eapply fine_try, calm_begin|intros; apply fine_ret; exact I].
    - intros _ _. eapply fine_seq; [apply calm_cbegin|intros _ _; apply fine_ret; exact I].
  Qed.
  Lemma calm_init {dv : Prop} cm : fine dv calmly calmly any (cmd_init cm).
  Proof.
    unfold cmd_init. eapply fine_seq; [apply calm_mkdir|intros _ _]. eapply fine_seq; [apply calm_open|intros l _]. apply calm_op. intros w F. cbn. split; [exact F|exact I].
  Qed.
  Lemma at_put_obj {dv : Prop} d o : obj_fits o = true -> fine dv (at_db d) calmly any (put_obj ds o).
  Proof. intros Fi w [F C]. destruct (put_obj_nofault o w F Fi) as (v & -> & Fv). split; [exact Fv|exact I]. Qed.
  Lemma calm_print {dv : Prop} t a : fine dv calmly calmly any (print t a).
  Proof. apply calm_op. intros w F. cbn. split; [exact F|exact I]. Qed.
  Lemma at_calm d w : at_db d w -> calmly w.
  Proof. intros [F _]. exact F. Qed.

  Lemma at_weak {dv : Prop} d {A} (m : M A) : fine dv (at_db d) (at_db d) any m -> fine dv (at_db d) calmly any m.
  Proof. intro H. eapply fine_weaken; [exact H|auto|apply at_calm]. Qed.

  Lemma commands cm st c w : world_ok w -> w_faults w = [] -> shp (cur_db w) -> full (cur_db w) -> deep_enough w -> undemanding w c ->
    exists r, try (run_command cm st c) w = (Done r, snd (run_command cm st c w)).
  Proof.
    intros W F Sh Fu L U. set (d := cur_db w). assert (A : at_db d w) by (split; [exact F|reflexivity]).
    assert (X : forall P, fine False (at_db d) calmly P (run_command cm st c) -> exists r, try (run_command cm st c) w = (Done r, snd (run_command cm st c w))).
    { intros P H. specialize (H w A). unfold try. destruct (run_command cm st c w) as [[a|e| | |] w1]; try contradiction; eexists; reflexivity. }
    assert (N : (st = None /\ run_command cm st c w = (Error ENoDb, w)) \/ c = CInit \/ exists s, st = Some s).
    { destruct st as [s|]; [right; right; eauto|]. destruct c; try contradiction; (left; split; [reflexivity|reflexivity]) || (right; left; reflexivity). }
    destruct N as [[_ N]|N]; [unfold try; rewrite N; eexists; reflexivity|].
    assert (Q : c = CInit \/ (exists s, st = Some s)) by exact N. clear N. destruct Q as [->|(s & ->)].
    { apply (X any). cbn [run_command]. eapply fine_weaken; [apply calm_init|apply at_calm|auto]. }
    destruct c as [p|p msg r|k dd|k|t ps|n rm|k n rm|k|p|n| | |k|k|p k b| | |n|r rm|k r]; cbn [undemanding] in U; try contradiction.
    - (* fetch *) destruct U as [P Nm]. cbn [run_command with_ds]. unfold cmd_fetch.
      pose proof (at_canon (dv := False) d k P w A) as H. unfold try, bind. destruct (canonicalize ds k w) as [[x|e| | |] w1] eqn:Hk; try contradiction; [|eexists; reflexivity].
      destruct H as [A1 D]. specialize (D w W A). pose proof (Nm x D) as Pt. pose proof (at_fetch d Sh stack x dd Pt w1 A1) as G. pose proof Pt as (o & O & _).
      destruct (ends_get_within d stack x dd (complete_stack _ _ _ Fu L O) w1 (proj2 A1)) as [G2 _].
      destruct (get_fs_item ds stack x dd w1) as [[y|e| | |] w2]; try contradiction; eexists; reflexivity.
    - (* pretty-print *) apply (X any). cbn [run_command with_ds]. unfold cmd_pretty_print. apply at_weak. eapply fine_seq; [apply at_canon, U|intros x _]. eapply fine_seq; [apply at_object|intros o _]. apply at_pretty.
    - (* commit-tree *) destruct U as (Pt & Ps & Ln). apply (X any). cbn [run_command with_ds]. unfold cmd_commit_tree. eapply fine_bind; [apply at_canon, Pt| |apply at_calm]. intros kt _.
      eapply fine_bind; [apply at_canons, Ps| |apply at_calm]. cbv beta. intros ks Lk. eapply fine_bind; [|intros c _; apply calm_print|auto]. unfold commit_tree. apply at_put_obj.
      unfold obj_fits, object_of_commit. cbn [o_data o_keys c_attrs c_tree c_parents]. apply andb_true_iff. split; [vm_compute; reflexivity|]. apply N.ltb_lt. unfold max_vec, lenN in *. cbn [length]. rewrite sort_length, Lk.
      change (2 ^ 63)%N with (2 * 2 ^ 62)%N. lia.
    - (* reflog get *) apply (X any). cbn [run_command with_ds]. unfold cmd_reflog_get. apply at_weak. eapply fine_seq; [apply at_newest|intros x _; apply at_print].
    - (* reflog push *) apply (X any). cbn [run_command with_ds]. unfold cmd_reflog_push. eapply fine_bind; [apply at_canon, U|intros x _; apply at_write|apply at_calm].
    - (* walk-tree *) destruct U as [P Nm]. cbn [run_command with_ds]. unfold cmd_walk_tree.
      pose proof (at_canon (dv := False) d k P w A) as H. unfold try. unfold bind at 1 3. destruct (canonicalize ds k w) as [[x|e| | |] w1] eqn:Hk; try contradiction; [|eexists; reflexivity].
      destruct H as [A1 D]. specialize (D w W A). pose proof (Nm x D) as Pt. pose proof Pt as (o & O & _). unfold walk_fs_items.
      destruct (walk_works (cur_db w) stack Sh x path_empty w1 (complete_stack _ _ _ Fu L O) Pt (proj1 A1) (proj2 A1)) as (m & w' & R & F' & _).
      rewrite (run_bind _ _ _ _ _ R). destruct (print_tree_live m w' F') as (w2 & ->). eexists. reflexivity.
    - (* set-head *) apply (X any). cbn [run_command with_ds]. apply at_write.
    - (* get-head *) apply (X any). cbn [run_command with_ds]. unfold cmd_get_head. apply at_weak. eapply fine_seq; [apply at_head|intros h _; apply at_print].
    - (* init *) apply (X any). cbn [run_command]. eapply fine_weaken; [apply calm_init|apply at_calm|auto].
    - (* ref log *) apply (X any). cbn [run_command with_ds]. unfold cmd_ref_log. apply at_weak. eapply fine_seq; [apply at_branch|intros nm _]. eapply fine_seq; [apply at_history|intros ks _]. eapply fine_seq; [apply at_print|intros _ _; apply at_entries].
    - (* ref update *) apply (X any). cbn [run_command with_ds]. unfold cmd_ref_update. eapply fine_bind; [apply at_canon, U| |apply at_calm]. intros x _. eapply fine_bind; [apply at_branch|intros nm _; apply at_write|apply at_calm].
  Qed.

  (** *** Histories: whatever goes wrong is a panic *)
  Section Blunt.
    Context (d : db) (Sh : shp d) (Fu : full d) (L : length (d_data d) + 1 < stack).
    Definition blunt {A} (P : A -> Prop) (m : M A) : Prop :=
      forall w, cur_db w = d -> match m w with (Done a, w') => cur_db w' = d /\ P a | (Error _, _) => False | _ => True end.
    Lemma blunt_ret {A} (P : A -> Prop) a : P a -> blunt P (ret a).
    Proof. intros H w Hw. cbn. auto. Qed.
    Lemma blunt_panic {A} (P : A -> Prop) p : blunt P (@panic_with A p).
    Proof. intros w Hw. exact I. Qed.
    Lemma blunt_diverge {A} (P : A -> Prop) : blunt P (@diverge A).
    Proof. intros w Hw. exact I. Qed.
    Lemma blunt_bind {A B} (P : A -> Prop) (Q : B -> Prop) (m : M A) (k : A -> M B) : blunt P m -> (forall a, P a -> blunt Q (k a)) -> blunt Q (bind m k).
    Proof. intros H G w Hw. specialize (H w Hw). unfold bind. destruct (m w) as [[a|e| | |] w1]; try assumption. destruct H as [H1 H2]. exact (G a H2 w1 H1). Qed.
    Lemma blunt_unwrap {A} (m : M A) : ends d m -> blunt any (unwrap m).
    Proof. intros H w Hw. destruct (H w Hw) as [_ K]. unfold unwrap. destruct (m w) as [[a|e| | |] w1]; try exact I. split; [eapply K; reflexivity|exact I]. Qed.
    Lemma blunt_print t a : blunt any (print t a).
    Proof. intros w Hw. unfold print. match goal with |- context [op ?e w] => destruct (op_case e w) as (f & w1 & -> & T) end. destruct f; try exact I. cbn. split; [|exact I]. rewrite <- Hw, <- (cur_ticked _ _ T). reflexivity. Qed.
    Lemma blunt_mapM {A B} (f : A -> M B) l : (forall a, blunt any (f a)) -> blunt any (mapM f l).
    Proof. intro H. induction l as [|x l IH]; cbn [mapM]; [apply blunt_ret; exact I|]. eapply blunt_bind; [apply H|intros y _]. eapply blunt_bind; [exact IH|intros; apply blunt_ret; exact I]. Qed.
    Lemma blunt_object k : blunt (fun o => object_at d (as_db_key k) = Some o) (unwrap (get_obj ds k)).
    Proof.
      intros w Hw. pose proof (blunt_unwrap _ (ends_get_obj d k) w Hw) as H. destruct (unwrap (get_obj ds k) w) as [[o|e| | |] w1] eqn:Q; try assumption. split; [apply H|]. apply unwrap_done, get_obj_done in Q as (_ & v & V & D).
      unfold object_at. rewrite Hw in V. rewrite V. exact D.
    Qed.
    Lemma blunt_version o : (forall w, exists c, commit_of_object o w = (Done c, w)) -> forall P : commit -> Prop, (forall c w, commit_of_object o w = (Done c, w) -> P c) -> blunt P (unwrap (commit_of_object o)).
    Proof. intros H P K w Hw. destruct (H w) as [c Q]. unfold unwrap. rewrite Q. split; [exact Hw|eapply K, Q]. Qed.
    Lemma blunt_vec k : blunt any (Diff.read_vec ds k).
    Proof. apply blunt_unwrap. apply ends_read; [exact Fu|intros s b; apply ends_ret|lia]. Qed.
    Lemma blunt_stat r : blunt any (print_stat_diff_result ds r).
    Proof.
      unfold print_stat_diff_result. eapply (blunt_bind any).
      - unfold line_stat, line_ct. eapply (blunt_bind any); [apply blunt_mapM; intro x; destruct (ad_key x)|intros a _].
        2: apply blunt_ret; exact I. { eapply (blunt_bind any); [eapply (blunt_bind any); [apply blunt_vec|intros; apply blunt_ret; exact I]|intros; apply blunt_ret; exact I]. }
        eapply (blunt_bind any); [apply blunt_mapM; intro x; destruct (dl_key x)|intros b _].
        2: apply blunt_ret; exact I. { eapply (blunt_bind any); [eapply (blunt_bind any); [apply blunt_vec|intros; apply blunt_ret; exact I]|intros; apply blunt_ret; exact I]. }
        eapply (blunt_bind any); [apply blunt_mapM; intro x|intros c _; apply blunt_ret; exact I]. eapply blunt_bind; [apply blunt_vec|intros ? _]. eapply blunt_bind; [apply blunt_vec|intros ? _]. apply blunt_ret. exact I.
      - intros l _. induction (sort filestat_cmp l) as [|x r' IH]; cbn [print_stats]; [apply blunt_ret; exact I|]. eapply blunt_bind; [apply blunt_print|intros _ _; exact IH].
    Qed.
    (** The parents of a commit are commits. *)
    Definition young (c : commit) : Prop := Forall (points d Version) (c_parents c).
    Lemma blunt_commit k : points d Version k -> forall o, object_at d (as_db_key k) = Some o -> o_type o = TCommit /\ blunt young (unwrap (commit_of_object o)).
    Proof.
      intros (o & O & R) o' O'. assert (o' = o) as -> by congruence. split; [exact R|]. pose proof (formed _ _ _ Sh O) as W. unfold well_formed in W. cbn in R. rewrite R in W. destruct W as (t & ps & a & _ & _ & P & C).
      apply blunt_version; [intro w; eauto|]. intros c w Q. rewrite C in Q. inversion Q; subst. exact P.
    Qed.
    Lemma blunt_display n k : points d Version k -> blunt any (display_obj ds n k KStat).
    Proof.
      intro P. destruct n as [|n]; cbn [display_obj]; [apply blunt_diverge|]. eapply blunt_bind; [apply blunt_object|]. cbv beta. intros o O. destruct (blunt_commit k P o O) as [-> C].
      eapply blunt_bind; [apply blunt_print|intros _ _]. eapply blunt_bind; [exact C|intros c Y]. do 3 (eapply blunt_bind; [apply blunt_print|intros _ _]).
      eapply (blunt_bind any).
      - unfold young in Y. destruct (c_parents c) as [|p ps]; [apply blunt_ret; exact I|]. inversion Y as [|? ? Pp _]; subst. eapply blunt_bind; [apply blunt_object|]. cbv beta. intros po Po.
        destruct (blunt_commit p Pp po Po) as [_ C']. eapply blunt_bind; [exact C'|intros; apply blunt_ret; exact I].
      - intros tr _. eapply blunt_bind; [apply blunt_unwrap, ends_compare; [exact Fu|exact L]|intros dr _]. apply blunt_stat.
    Qed.
    Lemma blunt_loop n : forall c, young c -> blunt any (log_loop ds n c KStat).
    Proof.
      induction n as [|n IH]; intros c Y; cbn [log_loop]; unfold young in Y; destruct (c_parents c) as [|p ps]; try (apply blunt_ret; exact I); [apply blunt_diverge|]. inversion Y as [|? ? Pp _]; subst.
      eapply blunt_bind; [apply blunt_display, Pp|intros _ _]. do 2 (eapply blunt_bind; [apply blunt_print|intros _ _]). eapply blunt_bind; [apply blunt_object|]. cbv beta. intros o O.
      destruct (blunt_commit p Pp o O) as [_ C]. eapply blunt_bind; [exact C|intros c' Y']. apply IH, Y'.
    Qed.
    Lemma blunt_log k : blunt any (log_obj ds k KStat).
    Proof.
      unfold log_obj. eapply blunt_bind; [apply blunt_object|]. cbv beta. intros o O. destruct (o_type o) eqn:T; try apply blunt_panic. assert (P : points d Version k) by (exists o; split; [exact O|exact T]).
      eapply blunt_bind; [apply blunt_display, P|intros _ _]. do 2 (eapply blunt_bind; [apply blunt_print|intros _ _]). eapply blunt_bind; [apply blunt_object|]. cbv beta. intros o' O'.
      destruct (blunt_commit k P o' O') as [_ C]. eapply blunt_bind; [exact C|intros c Y]. apply blunt_loop, Y.
    Qed.
  End Blunt.

  (** *** Processes *)
  Theorem exits cm c w : well_used w -> w_faults w = [] -> plain_folder cm ->
    (forall st w1, starts cm w st w1 -> no_coll (w_hashed w1) /\ deep_enough w1 /\ undemanding w1 c) ->
    (exists st w1 w', starts cm w st w1 /\ run_process cm c w = (Some 0%N, w')) \/
    ((forall st w1, ~ starts cm w st w1) /\ exists w', run_process cm c w = (Some 1%N, w')).
  Proof.
    intros U F P H. pose proof (calm_setup_fine cm P (close_all w) F) as G. unfold run_process. rewrite main_split.
    destruct (setup cm (close_all w)) as [[st|e| | |] w1] eqn:S; try contradiction.
    - left. destruct G as [F1 _]. destruct (H st w1 S) as (NC & L & Ud). destruct (used_started _ _ _ _ U S) as [W T]. pose proof (typed_cur _ T NC) as Sh. pose proof (started_full _ _ _ _ (used_reachable _ U) S) as Fu.
      destruct (commands cm st c w1 W F1 Sh Fu L Ud) as (r & R). pose proof (calm_command cm st c w1 F1) as [F2 C2]. destruct (calm_setup _ _ _ _ S F) as [_ C1]. specialize (C2 C1).
      unfold bind. rewrite S, R. exists st, w1. destruct r as [[]|e].
      + destruct (finish_live st _ F2 C2) as (w3 & Fi & _). rewrite Fi. eexists. split; [exact S|reflexivity].
      + destruct (finish_fatal st e _ F2 C2) as (w3 & Fi & _). rewrite Fi. eexists. split; [exact S|reflexivity].
    - right. split; [|unfold bind; rewrite S; eexists; reflexivity]. intros st v X. unfold starts in X. rewrite S in X. discriminate X.
  Qed.

  (** A panic ends the process. *)
  Lemma process_panics cm c w st w1 p w2 : starts cm w st w1 -> run_command cm st c w1 = (Panicked p, w2) -> run_process cm c w = (Some 101%N, close_all w2).
  Proof. intros S R. unfold run_process. rewrite main_split. unfold starts in S. rewrite (run_bind _ _ _ _ _ S). unfold bind, try. rewrite R. reflexivity. Qed.
  Theorem log_exits cm w s w1 k key : well_used w -> w_faults w = [] -> starts cm w (Some s) w1 -> no_coll (w_hashed w1) ->
    length (d_data (cur_db w1)) + 1 < stack -> length (d_data (cur_db w1)) < loop_bound -> can_ask w1 k -> asked_for w1 k key ->
    (loggable w1 key -> exists w', run_process cm (CLog k) w = (Some 0%N, w')) /\
    (~ loggable w1 key -> exists w', run_process cm (CLog k) w = (Some 101%N, w')).
  Proof.
    intros U F St NC L Lb Ca A. destruct (used_started _ _ _ _ U St) as [W T]. pose proof (typed_cur _ T NC) as Sh. pose proof (started_full _ _ _ _ (used_reachable _ U) St) as Fu.
    assert (De : deep_enough w1) by (unfold deep_enough; lia). assert (Lc : length (d_data (cur_db w1)) <= loop_bound) by lia. split.
    - intros (P & l & Li & Pr). destruct (log_command cm w s w1 k key U St NC De Lc Ca A P) as (l' & Li' & _ & _ & H). pose proof (lineage_fun _ _ _ Li _ Li') as ->. destruct (H Pr) as (w2 & R).
      destruct (process_live cm (CLog k) w (Some s) w1 w2 F St R) as (w' & Pp & _). eauto.
    - intro N. destruct (run_command cm (Some s) (CLog k) w1) as [r w2] eqn:R. pose proof R as R0. pose proof (spared_command cm (Some s) (CLog k) w1 (proj1 Ca)) as [Sp _]. rewrite R in Sp. cbn [fst] in Sp.
      cbn [run_command with_ds] in R. unfold cmd_log in R. destruct Ca as [F1 Hu]. destruct (asked_live w1 k key W F1 Hu A) as (v & Hk & Tk & Fv). rewrite (run_bind _ _ _ _ _ Hk) in R. pose proof (cur_ticked _ _ Tk) as Cv.
      pose proof (blunt_log (cur_db w1) Sh Fu L key v Cv) as B. rewrite R in B. destruct (ends_log (cur_db w1) Fu L key KStat Lb v Cv) as [Dv _]. rewrite R in Dv.
      destruct r as [[]|e|p| |]; try contradiction; [exfalso|eexists; eapply process_panics; eassumption].
      apply N. destruct (ShowFacts.log_done _ _ _ _ R) as [(c & o & Ro & To & _) _]. apply reads_object in Ro. rewrite Cv in Ro. assert (P : points (cur_db w1) Version key) by (exists o; split; [exact Ro|exact To]).
      destruct (log_command cm w s w1 k key U St NC De Lc (conj F1 Hu) A P) as (l & Li & _ & H & _). split; [exact P|]. exists l. split; [exact Li|]. apply H. eexists. exact R0.
  Qed.
End PanicFacts.
