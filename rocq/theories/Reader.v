(** Computations that only read the database and print: what they give when
    nothing fails depends on the contents of the database only. *)
From Verif Require Import Base BaseFacts Key Cbor Object Path World WorldFacts Store File Filter Dir Diff Commit SpecStore StoreCalls SpecRun
  ObjStoreFacts DirLive CompareFacts.

Section Reader.
  Context {E : Env}.
  Notation ds := sqlite_ds.

  (** Nothing but output (latest first), clock and faults changed. *)
  Definition shown (o : list event) (w w' : world) : Prop :=
    exists t f, w' = set_out (set_faults (set_tick w t) f) (o ++ w_out w).
  Lemma shown_refl w : shown [] w w.
  Proof. exists (w_tick w), (w_faults w). destruct w; reflexivity. Qed.
  Lemma shown_ticked w w' : ticked w w' -> shown [] w w'.
  Proof. intros (t & f & ->). exists t, f. destruct w; reflexivity. Qed.
  Lemma shown_trans o o' w w1 w2 : shown o w w1 -> shown o' w1 w2 -> shown (o' ++ o) w w2.
  Proof. intros (t & f & ->) (t' & f' & ->). exists t', f'. rewrite <- app_assoc. destruct w; reflexivity. Qed.
  Lemma shown_cur o w w' : shown o w w' -> cur_db w' = cur_db w.
  Proof. intros (t & f & ->). destruct w; reflexivity. Qed.
  Lemma shown_out o w w' : shown o w w' -> w_out w' = o ++ w_out w.
  Proof. intros (t & f & ->). reflexivity. Qed.

  Definition calm {A} (m : M A) (d : db) (r : outcome A) (o : list event) : Prop :=
    forall w, w_faults w = [] -> cur_db w = d -> exists w', m w = (r, w') /\ shown o w w' /\ w_faults w' = [].
  (** A world to compute with. *)
  Lemma calm_fun {A} (m : M A) d r o r' o' : calm m d r o -> calm m d r' o' -> r = r' /\ o = o'.
  Proof.
    intros H H'. set (w := World [] [] [] [] (TxnDirty d) [] None [] [] [] 0).
    destruct (H w eq_refl eq_refl) as (w1 & E1 & S1 & _). destruct (H' w eq_refl eq_refl) as (w2 & E2 & S2 & _). rewrite E1 in E2. injection E2 as -> ->.
    split; [reflexivity|]. apply shown_out in S1, S2. rewrite S1 in S2. cbn in S2. rewrite !app_nil_r in S2. exact S2.
  Qed.
  (** Output is restricted to events satisfying a predicate. *)
  Context (P : event -> Prop).
  Record reader {A} (m : M A) : Prop := Reader {
    rd_calm : forall d, exists r o, calm m d r o /\ Forall P o;
    rd_done : forall w a w', m w = (Done a, w') -> exists o, shown o w w' /\ calm m (cur_db w) (Done a) o /\ Forall P o
  }.
  (** What it gives in a given state. *)
  Lemma reader_now {A} (m : M A) w : reader m -> w_faults w = [] ->
    exists r o w', m w = (r, w') /\ shown o w w' /\ w_faults w' = [] /\ calm m (cur_db w) r o /\ Forall P o.
  Proof. intros R F. destruct (rd_calm m R (cur_db w)) as (r & o & C & Po). destruct (C w F eq_refl) as (w' & H & S & F'). exists r, o, w'. auto. Qed.

  Lemma rd_ret {A} (a : A) : reader (ret a).
  Proof.
    assert (C : forall d, calm (ret a) d (Done a) []) by (intros d w F _; exists w; split; [reflexivity|]; split; [apply shown_refl|exact F]).
    split; [intro d; exists (Done a), []; auto|]. intros w a' w' H. apply ret_done in H as [-> ->]. exists []. split; [apply shown_refl|auto].
  Qed.
  Lemma rd_stop {A} (r : outcome A) : (forall a, r <> Done a) -> reader (fun w => (r, w)).
  Proof.
    intro N. split.
    - intro d. exists r, []. split; [|constructor]. intros w F _. exists w. split; [reflexivity|]. split; [apply shown_refl|exact F].
    - intros w a w' H. injection H as H _. destruct (N a H).
  Qed.
  Lemma calm_bind {A B} (m : M A) (k : A -> M B) d a o r o' : calm m d (Done a) o -> calm (k a) d r o' -> calm (bind m k) d r (o' ++ o).
  Proof.
    intros H K w F C. destruct (H w F C) as (w1 & E1 & S1 & F1). destruct (K w1 F1) as (w2 & E2 & S2 & F2); [rewrite (shown_cur _ _ _ S1); exact C|].
    exists w2. unfold bind. rewrite E1. split; [exact E2|]. split; [eapply shown_trans; eassumption|exact F2].
  Qed.
  Definition stopped {A B} (r : outcome A) : option (outcome B) :=
    match r with Done _ => None | Error e => Some (Error e) | Panicked p => Some (Panicked p) | Crashed => Some Crashed | Diverged => Some Diverged end.
  Lemma calm_bind_stop {A B} (m : M A) (k : A -> M B) d r o r' : calm m d r o -> stopped r = Some r' -> calm (bind m k) d r' o.
  Proof.
    intros H St w F C. destruct (H w F C) as (w1 & E1 & S1 & F1). exists w1. unfold bind. rewrite E1. destruct r; try discriminate St; injection St as <-; auto.
  Qed.
  Lemma rd_bind {A B} (m : M A) (k : A -> M B) : reader m -> (forall a, reader (k a)) -> reader (bind m k).
  Proof.
    intros Hm Hk. split.
    - intro d. destruct (rd_calm m Hm d) as (r & o & C & Po). destruct (stopped (B := B) r) as [r'|] eqn:St; [exists r', o; split; [eapply calm_bind_stop; eauto|exact Po]|].
      destruct r as [a| | | |]; try discriminate St. destruct (rd_calm _ (Hk a) d) as (r' & o' & C' & Po'). exists r', (o' ++ o).
      split; [eapply calm_bind; eassumption|apply Forall_app; auto].
    - intros w b w' H. apply bind_done in H as (a & w1 & H1 & H2). destruct (rd_done m Hm _ _ _ H1) as (o & S1 & C1 & P1). destruct (rd_done _ (Hk a) _ _ _ H2) as (o' & S2 & C2 & P2).
      rewrite (shown_cur _ _ _ S1) in C2. exists (o' ++ o). split; [eapply shown_trans; eassumption|]. split; [eapply calm_bind; eassumption|apply Forall_app; auto].
  Qed.
  Definition unwrapped {A} (r : outcome A) : outcome A := match r with Error e => Panicked (PUnwrap (Some e)) | _ => r end.
  Lemma rd_unwrap {A} (m : M A) : reader m -> reader (unwrap m).
  Proof.
    intro R. assert (C : forall d r o, calm m d r o -> calm (unwrap m) d (unwrapped r) o).
    { intros d r o H w F Cd. destruct (H w F Cd) as (w' & E1 & S & F'). exists w'. unfold unwrap. rewrite E1. split; [destruct r; reflexivity|auto]. }
    split.
    - intro d. destruct (rd_calm m R d) as (r & o & H & Po). exists (unwrapped r), o. split; [apply C, H|exact Po].
    - intros w a w' H. apply unwrap_done in H. destruct (rd_done m R _ _ _ H) as (o & S & H' & Po). exists o. split; [exact S|]. split; [apply (C _ _ _ H')|exact Po].
  Qed.
  Lemma rd_read {A} (q : db -> A) : reader (db_read q).
  Proof.
    assert (C : forall d, calm (db_read q) d (Done (q d)) []).
    { intros d w F Cd. unfold db_read. match goal with |- context [op ?e w] => destruct (op_live e w F) as (w1 & T & F1 & ->) end.
      exists w1. rewrite (cur_ticked _ _ T), Cd. split; [reflexivity|]. split; [apply shown_ticked, T|exact F1]. }
    split; [intro d; exists (Done (q d)), []; auto|]. intros w a w' H. apply db_read_done in H as [T ->]. exists []. split; [apply shown_ticked, T|auto].
  Qed.
  Lemma rd_out (eff : fault -> M unit) ev : P ev -> (forall w, eff FOk w = (Done tt, set_out w (ev :: w_out w))) ->
    (forall f w x w', eff f w = (Done x, w') -> f = FOk) -> reader (op eff).
  Proof.
    intros Pe H1 H2.
    assert (Cn : forall w w1, ticked w w1 -> shown [ev] w (set_out w1 (ev :: w_out w1))).
    { intros w w1 (t & f & ->). exists t, f. destruct w; reflexivity. }
    assert (C : forall d, calm (op eff) d (Done tt) [ev]).
    { intros d w F Cd. destruct (op_live eff w F) as (w1 & T & F1 & ->). rewrite H1. eexists. split; [reflexivity|]. split; [apply Cn, T|exact F1]. }
    split; [intro d; exists (Done tt), [ev]; auto|]. intros w [] w' H. destruct (op_case eff w) as (f & w1 & E1 & T). rewrite E1 in H. pose proof (H2 _ _ _ _ H) as ->. rewrite H1 in H.
    injection H as <-. exists [ev]. split; [apply Cn, T|auto].
  Qed.
  Lemma rd_print t a : P (Printed t a) -> reader (print t a).
  Proof. intro Pe. unfold print. eapply rd_out; [exact Pe|intro w; reflexivity|]. intros [| | |] w x w' H; try discriminate H; reflexivity. Qed.
  Lemma rd_stdout d : P (Printed "raw" [d]) -> reader (write_stdout d).
  Proof. intro Pe. unfold write_stdout. eapply rd_out; [exact Pe|intro w; reflexivity|]. intros [| | |] w x w' H; try discriminate H; reflexivity. Qed.
  Lemma rd_fail {A} e : reader (fail e : M A).
  Proof. apply rd_stop. discriminate. Qed.
  Lemma rd_panic {A} p : reader (panic_with p : M A).
  Proof. apply rd_stop. discriminate. Qed.
  Lemma rd_diverge {A} : reader (diverge : M A).
  Proof. apply rd_stop. discriminate. Qed.
  Lemma rd_of_option {A} e (o : option A) : reader (of_option e o).
  Proof. destruct o; [apply rd_ret|apply rd_fail]. Qed.
  Lemma rd_mapM {A B} (f : A -> M B) l : (forall x, reader (f x)) -> reader (mapM f l).
  Proof.
    intro H. induction l as [|x l IH]; cbn [mapM]; [apply rd_ret|]. apply rd_bind; [apply H|]. intro y. apply rd_bind; [exact IH|]. intro ys. apply rd_ret.
  Qed.
  Lemma rd_ext {A} (m m' : M A) : (forall w, m w = m' w) -> reader m -> reader m'.
  Proof.
    intros Q [C D]. split.
    - intro d. destruct (C d) as (r & o & H & Po). exists r, o. split; [|exact Po]. intros w. rewrite <- Q. apply H.
    - intros w a w' H. rewrite <- Q in H. destruct (D _ _ _ H) as (o & S & H' & Po). exists o. split; [exact S|]. split; [|exact Po]. intros v. rewrite <- Q. apply H'.
  Qed.
  Lemma rd_get_obj k : reader (get_obj ds k).
  Proof.
    eapply rd_ext; [intro w; symmetry; apply get_obj_eq|]. apply rd_bind; [apply rd_read|]. intro r. apply rd_bind; [apply rd_of_option|]. intro v. apply rd_of_option.
  Qed.
  Lemma rd_commit_of o : reader (commit_of_object o).
  Proof. unfold commit_of_object. repeat first [apply rd_ret|apply rd_fail|apply rd_panic|apply rd_of_option|apply rd_bind; [|intro]|match goal with |- context [match ?x with _ => _ end] => destruct x end]. Qed.
  Lemma rd_get_fsitem k : reader (get_fsitem ds k).
  Proof. unfold get_fsitem. repeat first [apply rd_get_obj|apply rd_ret|apply rd_fail|apply rd_panic|apply rd_of_option|apply rd_bind; [|intro]|match goal with |- context [match ?x with _ => _ end] => destruct x end]. Qed.
  Lemma rd_read_data {T} (wr : T -> bytes -> M T) fuel : (forall s d, reader (wr s d)) -> forall k s, reader (read_data ds wr fuel k s).
  Proof.
    intro Hw. induction fuel as [|f IH]; intros k s; cbn [read_data]; [apply rd_diverge|]. apply rd_bind; [apply rd_get_obj|]. intro o.
    destruct (o_type o); try apply rd_panic; try apply Hw.
    - generalize (o_keys o). intro l. revert s. induction l as [|k' l IHl]; intro s; [apply rd_ret|]. apply rd_bind; [apply IH|]. intro s'. apply IHl.
    - destruct (o_keys o) as [|k' [|]]; try apply rd_panic. apply IH.
  Qed.
  Lemma rd_read_vec k : reader (read_vec ds k).
  Proof. apply rd_unwrap, rd_read_data. intros s d. apply rd_ret. Qed.
  Lemma rd_walk fuel : forall k p, reader (internal_walk_fs_items ds fuel k p).
  Proof.
    induction fuel as [|f IH]; intros k p; cbn [internal_walk_fs_items]; [apply rd_diverge|]. apply rd_bind; [apply rd_get_fsitem|]. intro i.
    destruct (fi_type i); [|apply rd_ret]. match goal with |- reader ((fix each l acc {struct l} := _) ?l0 ?a0) => generalize a0; generalize l0 end.
    intro l. induction l as [|[c n] l IHl]; intro acc; [apply rd_ret|]. apply rd_bind; [apply IH|]. intro sub. apply IHl.
  Qed.
  Lemma rd_index {A} (m : pmap A) p : reader (pm_index m p).
  Proof. unfold pm_index. destruct (pm_get m p); [apply rd_ret|apply rd_panic]. Qed.
  Definition compare_body (m m' : pmap (key * bool)) : M diff_result := compare_tail (inr m) m'.
  Lemma compare_db_eq k to w : compare ds (TDatabase k) to w = (m <- walk_fs_items ds k ;; m' <- compare_to to ;; compare_body m m') w.
  Proof.
    rewrite compare_eq. unfold compare_src. rewrite bind_assoc. apply bind_ext. intros m w'. unfold bind at 1, ret. reflexivity.
  Qed.
  Lemma rd_compare_body m m' : reader (compare_body m m').
  Proof.
    unfold compare_body, compare_tail. apply rd_bind; [apply rd_mapM; intro x; unfold f_added; apply rd_bind; [apply rd_index|intro; apply rd_ret]|]. intro a.
    apply rd_bind; [apply rd_mapM; intro x; unfold f_deleted; apply rd_bind; [apply rd_index|intro]; apply rd_bind; [apply rd_bind; [apply rd_index|intro; apply rd_ret]|intro; apply rd_ret]|]. intro d.
    apply rd_bind; [|intro; apply rd_ret]. apply rd_mapM. intro x. unfold f_modified. apply rd_bind; [apply rd_bind; [apply rd_index|intro; apply rd_ret]|]. intros [k|]; [|apply rd_ret].
    apply rd_bind; [apply rd_index|]. intro t. destruct (key_eqb _ _); apply rd_ret.
  Qed.
  Lemma rd_compare_db k to : reader (compare ds (TDatabase k) to).
  Proof.
    eapply rd_ext; [intro w; symmetry; apply compare_db_eq|]. apply rd_bind; [apply rd_walk|]. intro m. apply rd_bind; [destruct to; [apply rd_walk|apply rd_ret]|]. intro m'.
    apply rd_compare_body.
  Qed.
  Lemma rd_line_ct k : reader (line_ct ds k).
  Proof. unfold line_ct. apply rd_bind; [apply rd_read_vec|intro; apply rd_ret]. Qed.
  Lemma rd_line_stat r : reader (line_stat ds r).
  Proof.
    unfold line_stat. apply rd_bind; [apply rd_mapM; intro x; destruct (ad_key x); [apply rd_bind; [apply rd_line_ct|intro]|]; apply rd_ret|]. intro a.
    apply rd_bind; [apply rd_mapM; intro x; destruct (dl_key x); [apply rd_bind; [apply rd_line_ct|intro]|]; apply rd_ret|]. intro d.
    apply rd_bind; [|intro; apply rd_ret]. apply rd_mapM. intro x. apply rd_bind; [apply rd_read_vec|intro]. apply rd_bind; [apply rd_read_vec|intro]. apply rd_ret.
  Qed.
  Context (Pstat : forall a, P (Printed "stat" a)) (Ppatch : forall a, P (Printed "patch" a)).
  Lemma rd_stats l : reader (print_stats l).
  Proof. induction l as [|s l IH]; cbn [print_stats]; [apply rd_ret|]. apply rd_bind; [apply rd_print, Pstat|intro; exact IH]. Qed.
  Lemma rd_print_stat r : reader (print_stat_diff_result ds r).
  Proof. apply rd_bind; [apply rd_line_stat|intro; apply rd_stats]. Qed.
  Lemma rd_whole d p k mk b : reader (whole_file ds d p k mk b).
  Proof.
    unfold whole_file. destruct d; [apply rd_ret|]. destruct k; [|apply rd_ret]. apply rd_bind; [apply rd_read_vec|]. intro x. destruct (utf8_valid x); [apply rd_ret|apply rd_fail].
  Qed.
  Lemma rd_patch_string a b p : reader (patch_from_file_string a b p).
  Proof. unfold patch_from_file_string. destruct (hunks_of _); [apply rd_ret|apply rd_panic]. Qed.
  Lemma rd_patch r : reader (create_diff_patch_result ds r).
  Proof.
    unfold create_diff_patch_result. apply rd_bind; [apply rd_mapM; intro; apply rd_whole|]. intro a. apply rd_bind; [apply rd_mapM; intro; apply rd_whole|]. intro d.
    apply rd_bind; [|intro; apply rd_ret]. apply rd_mapM. intro x. apply rd_bind; [apply rd_read_vec|intro]. apply rd_bind; [apply rd_read_vec|intro]. apply rd_patch_string.
  Qed.
  Lemma rd_print_patch r : reader (print_patch_diff_result ds r).
  Proof. apply rd_bind; [apply rd_patch|intro; apply rd_print, Ppatch]. Qed.
  Context (Pall : forall e, P e).
  Lemma rd_display fuel : forall k kd, reader (display_obj ds fuel k kd).
  Proof.
    induction fuel as [|f IH]; intros k kd; cbn [display_obj]; [apply rd_diverge|]. apply rd_bind; [apply rd_unwrap, rd_get_obj|]. intro o.
    destruct (o_type o); try apply rd_panic; try apply rd_print, Pall; try (apply rd_read_data; intros; apply rd_stdout, Pall).
    - apply rd_bind; [apply rd_print, Pall|intro]. apply rd_bind; [apply rd_unwrap, rd_commit_of|]. intro c. do 3 (apply rd_bind; [apply rd_print, Pall|intro]).
      apply rd_bind.
      + destruct (c_parents c); [apply rd_ret|]. apply rd_bind; [apply rd_unwrap, rd_get_obj|intro]. apply rd_bind; [apply rd_unwrap, rd_commit_of|intro]. apply rd_ret.
      + intro t. apply rd_bind; [apply rd_unwrap, rd_compare_db|]. intro r. destruct kd; [apply rd_print_stat|apply rd_print_patch].
    - destruct (o_keys o) as [|k' [|]]; try apply rd_panic. apply IH.
  Qed.
  Lemma rd_log_loop fuel : forall c kd, reader (log_loop ds fuel c kd).
  Proof.
    induction fuel as [|f IH]; intros c kd; cbn [log_loop]; (destruct (c_parents c) as [|p ?]; [apply rd_ret|]); [apply rd_diverge|].
    apply rd_bind; [apply rd_display|intro]. do 2 (apply rd_bind; [apply rd_print, Pall|intro]). apply rd_bind; [apply rd_unwrap, rd_get_obj|intro].
    apply rd_bind; [apply rd_unwrap, rd_commit_of|intro]. apply IH.
  Qed.
  Lemma rd_log k kd : reader (log_obj ds k kd).
  Proof.
    unfold log_obj. apply rd_bind; [apply rd_unwrap, rd_get_obj|]. intro o. destruct (o_type o); try apply rd_panic.
    apply rd_bind; [apply rd_display|intro]. do 2 (apply rd_bind; [apply rd_print, Pall|intro]). apply rd_bind; [apply rd_unwrap, rd_get_obj|intro].
    apply rd_bind; [apply rd_unwrap, rd_commit_of|intro]. apply rd_log_loop.
  Qed.
End Reader.
