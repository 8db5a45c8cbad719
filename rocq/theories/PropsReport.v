(** Property C92: how [show] ends. *)
From Verif Require Import Base BaseFacts Key Keyish Cbor Object Path World WorldFacts Store File Filter Dir Diff Commit Pretty Screen Main SpecKey SpecResolve SpecStore SpecRun SpecProc SpecFile SpecDir SpecClosure
  SpecCache SpecDiff SpecPatch SpecShow SpecOut SpecCmd SpecText SpecShape SpecLive SpecScreen SpecFetch SpecFatal SpecPanic SpecReport Reader ShowFacts ShapeTop ReportFacts ShapeFacts LiveStart KeyFacts TableFacts DbRel Integrity ResolveFacts OutFacts CmdFacts Checks Toy ToyRepo PropsMain PropsShow PropsCmd PropsShape PropsLive PropsFatal PropsFetch.

(** ** C92 *)
(** If nothing fails, [show] shows what can be shown; it says [fatal:] exactly for a
    commit that lacks nothing of its parent and brings a file that is not text; and in
    all other cases it panics. *)
Theorem C92_show :
  forall (E : Env) cm w s w1 k key, well_used w -> w_faults w = [] -> starts cm w (Some s) w1 -> no_coll (w_hashed w1) ->
  length (d_data (cur_db w1)) + 1 < stack -> can_ask w1 k -> asked_for w1 k key ->
  (viewable w1 key -> exists w2 w', run_command cm (Some s) (CShow k) w1 = (Done tt, w2) /\ run_process cm (CShow k) w = (Some 0%N, w') /\ w_out w' = w_out w2) /\
  (brings_binary w1 key -> exists w2 w' e, run_command cm (Some s) (CShow k) w1 = (Error e, w2) /\ run_process cm (CShow k) w = (Some 0%N, w') /\ w_out w' = Printed "fatal:" [] :: w_out w2) /\
  (~ viewable w1 key -> ~ brings_binary w1 key -> exists w', run_process cm (CShow k) w = (Some 101%N, w')).
Proof. intros E cm w s w1 k key. apply show_exits. Qed.
Print Assumptions C92_show.

(** The example repository with a second commit: one brings a file that is not text, the
    other lacks a file. *)
Definition rp_binary : world := snd (sh_second (sh_fs (str "hello") (str "a") [(in_r (str "x"), EFile [byte_of 255] (Stamp 20 200))])).
Definition rp_gone : world := snd (sh_second sh_gone).
Definition rp_history (w : world) : list key := history (str "master") None (repo_of (cur_db (fa_started w))).
Definition rp_key (w : world) : key := hd ct_tree (rp_history w).
Definition rp_ready (w : world) : Prop :=
  well_used w /\ w_faults w = [] /\ starts toy_cm w (Some pm_s) (fa_started w) /\ no_coll (w_hashed (fa_started w)) /\
  length (d_data (cur_db (fa_started w))) + 1 < stack /\ can_ask (fa_started w) None /\ asked_for (fa_started w) None (rp_key w).
Lemma rp_binary_ready : rp_ready rp_binary.
Proof.
  split; [apply used_step; [exact (used_fs _ _ used_committed)|vm_compute; reflexivity|reflexivity]|]. split; [vm_compute; reflexivity|]. split; [vm_compute; reflexivity|]. split; [apply logb_ok; vm_compute; reflexivity|].
  split; [apply Nat.ltb_lt; vm_compute; reflexivity|]. split; [split; [vm_compute; reflexivity|]|].
  - intros _ n H. assert (X : rp_head (repo_of (cur_db (fa_started rp_binary))) = Some (str "master")) by (vm_compute; reflexivity). rewrite X in H. injection H as <-. reflexivity.
  - exists (str "master"), (tl (rp_history rp_binary)). split; [vm_compute; reflexivity|]. unfold rp_key, rp_history. vm_compute. reflexivity.
Qed.
Lemma rp_gone_ready : rp_ready rp_gone.
Proof.
  split; [apply used_step; [exact (used_fs _ _ used_committed)|vm_compute; reflexivity|reflexivity]|]. split; [vm_compute; reflexivity|]. split; [vm_compute; reflexivity|]. split; [apply logb_ok; vm_compute; reflexivity|].
  split; [apply Nat.ltb_lt; vm_compute; reflexivity|]. split; [split; [vm_compute; reflexivity|]|].
  - intros _ n H. assert (X : rp_head (repo_of (cur_db (fa_started rp_gone))) = Some (str "master")) by (vm_compute; reflexivity). rewrite X in H. injection H as <-. reflexivity.
  - exists (str "master"), (tl (rp_history rp_gone)). split; [vm_compute; reflexivity|]. unfold rp_key, rp_history. vm_compute. reflexivity.
Qed.
Lemma rp_typed w : rp_ready w -> ShapeFacts.shp (cur_db (fa_started w)) /\ Closure.full (cur_db (fa_started w)).
Proof.
  intros (U & _ & S & NC & _). destruct (used_started _ _ _ _ U S) as [_ T]. split; [exact (typed_cur _ T NC)|exact (started_full _ _ _ _ (used_reachable _ U) S)].
Qed.
Lemma rp_version : match object_at (cur_db (fa_started rp_binary)) (as_db_key (rp_key rp_binary)) with Some o => match o_type o with TCommit => true | _ => false end | None => false end = true.
Proof. vm_compute. reflexivity. Qed.
Lemma rp_reports : fst (display_obj sqlite_ds (S 20) (rp_key rp_binary) KPatch (set_faults (fa_started rp_binary) [])) = Error EBinary.
Proof. vm_compute. reflexivity. Qed.
Lemma rp_brings : brings_binary (fa_started rp_binary) (rp_key rp_binary).
Proof.
  destruct (rp_typed _ rp_binary_ready) as [Sh Fu]. destruct rp_binary_ready as (_ & _ & _ & _ & L & _).
  assert (P : points (cur_db (fa_started rp_binary)) Version (rp_key rp_binary)).
  { pose proof rp_version as X. destruct (object_at (cur_db (fa_started rp_binary)) (as_db_key (rp_key rp_binary))) as [o|] eqn:O; [|discriminate X]. exists o. split; [exact O|]. cbn. destruct (o_type o); try discriminate X. reflexivity. }
  destruct (version_commit _ _ Sh P) as [c Ic]. destruct (display_outcome _ Sh Fu L 20 _ c Ic) as [[_ B]|[N _]]; [exact B|]. destruct (N EBinary). apply gives_now; [|exact rp_reports]. apply rd_display; intro; exact I.
Qed.
Lemma rp_panics : fst (run_process toy_cm (CShow None) rp_gone) = Some 101%N.
Proof. vm_compute. reflexivity. Qed.
Lemma rp_neither : ~ viewable (fa_started rp_gone) (rp_key rp_gone) /\ ~ brings_binary (fa_started rp_gone) (rp_key rp_gone).
Proof.
  pose proof rp_panics as X. destruct rp_gone_ready as (U & F & S & NC & L & Ca & A). destruct (C92_show toy_env toy_cm rp_gone pm_s (fa_started rp_gone) None (rp_key rp_gone) U F S NC L Ca A) as (V & B & _).
  split; intro H; [destruct (V H) as (w2 & w' & _ & R & _)|destruct (B H) as (w2 & w' & e & _ & R & _)]; rewrite R in X; discriminate X.
Qed.
Example C92_example :
  (well_used toy_committed /\ w_faults toy_committed = [] /\ starts toy_cm toy_committed (Some pm_s) pm_v1 /\ no_coll (w_hashed pm_v1) /\ length (d_data (cur_db pm_v1)) + 1 < stack /\
   can_ask pm_v1 None /\ asked_for pm_v1 None ps_key /\ viewable pm_v1 ps_key) /\
  (rp_ready rp_binary /\ brings_binary (fa_started rp_binary) (rp_key rp_binary)) /\
  (rp_ready rp_gone /\ ~ viewable (fa_started rp_gone) (rp_key rp_gone) /\ ~ brings_binary (fa_started rp_gone) (rp_key rp_gone)).
Proof.
  split; [|split; [split; [exact rp_binary_ready|exact rp_brings]|split; [exact rp_gone_ready|exact rp_neither]]].
  split; [exact used_committed|]. split; [vm_compute; reflexivity|]. split; [exact pm_starts2|]. split; [exact toy_log_ok|]. split; [apply Nat.ltb_lt; vm_compute; reflexivity|]. split; [exact ps_ask|]. split; [exact ps_asked|].
  right. right. exists ps_commit, None. split; [exact ps_is|]. split; [exact ps_base|].
  apply (C70_show toy_env toy_cm toy_committed pm_s pm_v1 None ps_key ps_commit None used_committed pm_starts2 toy_log_ok (proj1 ps_deep) ps_ask ps_asked ps_is ps_base).
  pose proof ps_runs as H. apply done_of in H as ([] & w & H). exists w. exact H.
Qed.
