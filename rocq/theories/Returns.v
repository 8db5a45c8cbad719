(** Which commands always come to an end, whatever fails. *)
From Coq Require Import RelationClasses.
From Verif Require Import Base BaseFacts TableFacts Key KeyFacts Keyish Cbor CborFacts Object ObjectFacts Path World WorldFacts Store File Filter Dir Diff Commit Pretty Main SpecStore StoreCalls SpecRun SpecProc SpecCmd SpecReturn
  SpecFile SpecDir SpecCache SpecDiff SpecClosure Closure Frame DbRel Integrity StoreFacts ProcFacts InitFacts SessionFacts SpecShow ObjStoreFacts FsFacts FilePlan FileFacts FileRun DirFacts DirPlan DirTree DirTrip HashFacts CacheFacts CompareFacts DiffFacts SnapFacts LineFacts ShowFacts QueryFacts OutFacts CmdFacts ShapeTop Ends.

Section Returns.
  Context {E : Env}.
  Notation ds := sqlite_ds.
  Definition rets {A} (m : M A) : Prop := forall w, fst (m w) <> Diverged.
  Lemma then_ret {A B} (m : M A) (k : A -> M B) w : fst (m w) <> Diverged -> (forall a w', m w = (Done a, w') -> fst (k a w') <> Diverged) -> fst (bind m k w) <> Diverged.
  Proof. intros H K. unfold bind. destruct (m w) as [[a|e|p| |] w1]; cbn in *; try discriminate; [apply (K a w1 eq_refl)|destruct (H eq_refl)]. Qed.
  Lemma rets_bind {A B} (m : M A) (k : A -> M B) : rets m -> (forall a, rets (k a)) -> rets (bind m k).
  Proof. intros H K w. apply then_ret; [apply H|intros a w' _; apply K]. Qed.
  Lemma rets_ret {A} (a : A) : rets (ret a).
  Proof. intros w. discriminate. Qed.
  Lemma rets_fail {A} e : rets (@fail A e).
  Proof. intros w. discriminate. Qed.
  Lemma rets_panic {A} p : rets (@panic_with A p).
  Proof. intros w. discriminate. Qed.
  Lemma rets_try {A} (m : M A) : rets m -> rets (try m).
  Proof. intros H w. specialize (H w). unfold try. destruct (m w) as [[a|e|p| |] w1]; cbn in *; try discriminate. destruct (H eq_refl). Qed.
  Lemma rets_unwrap {A} (m : M A) : rets m -> rets (unwrap m).
  Proof. intros H w. specialize (H w). unfold unwrap. destruct (m w) as [[a|e|p| |] w1]; cbn in *; try discriminate. destruct (H eq_refl). Qed.
  Lemma rets_op {A} (eff : fault -> M A) : (forall f w, fst (eff f w) <> Diverged) -> rets (op eff).
  Proof. intros H w. destruct (op_case eff w) as (f & w1 & -> & _). apply H. Qed.
  Lemma rets_of_option {A} e (o : option A) : rets (of_option e o).
  Proof. destruct o; [apply rets_ret|apply rets_fail]. Qed.
  Lemma rets_lift {A X} (f : X -> error) (r : result A X) : rets (lift_result f r).
  Proof. destruct r; [apply rets_ret|apply rets_fail]. Qed.
  Lemma rets_mapM {A B} (f : A -> M B) l : (forall a, rets (f a)) -> rets (mapM f l).
  Proof. intro H. induction l as [|x l IH]; cbn [mapM]; [apply rets_ret|]. apply rets_bind; [apply H|intro]. apply rets_bind; [exact IH|intro; apply rets_ret]. Qed.
  Ltac op_tac := apply rets_op; intros f w; repeat match goal with |- context [match ?x with _ => _ end] => destruct x end; discriminate.
  Lemma rets_read {A} (q : db -> A) : rets (db_read q).
  Proof. op_tac. Qed.
  Lemma rets_write u : rets (db_write u).
  Proof. op_tac. Qed.
  Lemma rets_write_at l u : rets (db_write_at l u).
  Proof. op_tac. Qed.
  Lemma rets_query {A} (q : fs -> loc -> option A) : rets (fs_query q).
  Proof. op_tac. Qed.
  Lemma rets_change {A} (full : fs -> loc -> nat -> option (A * fs)) partial : rets (fs_change full partial).
  Proof. op_tac. Qed.
  Lemma rets_print t a : rets (print t a).
  Proof. op_tac. Qed.
  Lemma rets_stdout b : rets (write_stdout b).
  Proof. op_tac. Qed.
  Lemma rets_mkdir p : rets (fs_create_dir_all p).
  Proof. unfold fs_create_dir_all. destruct (is_empty_path p); [apply rets_ret|apply rets_change]. Qed.
  Lemma rets_open p : rets (sqlite_open p).
  Proof. op_tac. Qed.
  Lemma rets_hash b : rets (hash b).
  Proof. intro w. discriminate. Qed.
  Ltac rs := repeat first
    [ apply rets_ret | apply rets_fail | apply rets_panic | apply rets_of_option | apply rets_lift | apply rets_read | apply rets_write | apply rets_write_at | apply rets_query | apply rets_change
    | apply rets_print | apply rets_stdout | apply rets_mkdir | apply rets_open | apply rets_hash | apply rets_unwrap | apply rets_try | apply rets_mapM; intro | apply rets_bind; [|intro]
    | match goal with |- rets (match ?x with _ => _ end) => destruct x | |- rets (let _ := _ in _) => cbv zeta end ].
  Lemma rets_reflog_get n r : rets (reflog_get ds n r).
  Proof. cbn [reflog_get sqlite_ds]. unfold sqlite_reflog_get. rs. Qed.
  Lemma rets_canonicalize k : rets (canonicalize ds k).
  Proof.
    destruct k; cbn [canonicalize raw_get raw_between sqlite_ds]; unfold sqlite_raw_get, sqlite_raw_between, resolve_results; rs.
  Qed.
  Lemma rets_head : rets (get_head ds).
  Proof. unfold get_head. cbn [raw_get_state sqlite_ds]. unfold sqlite_raw_get_state. rs. Qed.
  Lemma rets_head_or_fail : rets head_or_fail.
  Proof. unfold head_or_fail. apply rets_bind; [apply rets_head|intro; rs]. Qed.
  Lemma rets_name r : rets (refname_or_head r).
  Proof. destruct r; [apply rets_ret|apply rets_head_or_fail]. Qed.
  Lemma rets_head_key : rets get_head_key.
  Proof. unfold get_head_key. apply rets_bind; [apply rets_head_or_fail|intro; apply rets_reflog_get]. Qed.
  Lemma rets_get_obj k : rets (get_obj ds k).
  Proof. unfold get_obj, get. cbn [raw_get sqlite_ds]. unfold sqlite_raw_get. rs. Qed.
  Lemma rets_put_obj o : rets (put_obj ds o).
  Proof. unfold put_obj, put. cbn [raw_put sqlite_ds]. unfold sqlite_raw_put. rs. Qed.
  Lemma rets_push r : rets (reflog_push ds r).
  Proof. cbn [reflog_push sqlite_ds]. unfold sqlite_reflog_push. rs. Qed.
  Lemma rets_entries n l : rets (print_entries n l).
  Proof. revert n. induction l; intro n; cbn [print_entries]; [apply rets_ret|]. apply rets_bind; [apply rets_print|intro; auto]. Qed.
  Lemma rets_tree l : rets (print_tree l).
  Proof. induction l as [|[p [k b]] l IH]; cbn [print_tree]; [apply rets_ret|]. apply rets_bind; [apply rets_print|intro; auto]. Qed.
  Lemma rets_line b : rets (writeln b).
  Proof. unfold writeln. rs. Qed.
  Lemma rets_lines l : rets (each_line l).
  Proof. induction l; cbn [each_line]; [apply rets_ret|]. apply rets_bind; [apply rets_line|intro; auto]. Qed.
  Lemma rets_keys l : rets (pretty_keys l).
  Proof. induction l; cbn [pretty_keys]; [apply rets_ret|]. repeat (apply rets_bind; [apply rets_line|intro]). assumption. Qed.
  Lemma rets_pretty o : rets (pretty_print o).
  Proof. unfold pretty_print. repeat (apply rets_bind; [first [apply rets_line|apply rets_lines|apply rets_keys|idtac]|intro]); [|apply rets_line]. destruct (debug_cbor (o_data o)); [apply rets_line|]. apply rets_bind; [apply rets_line|intro; apply rets_line]. Qed.

  (** *** checkout *)
  Section Checkout.
    Context (d : db) (Fu : full d).
    Lemma ends_read_dir p : ends d (fs_read_dir p).
    Proof.
      apply ends_op. intros f w. destruct (stat (w_fs w) (w_cwd w) p) as [[l [| | |]]|]; destruct f as [|[|n]| |]; (split; [discriminate|]); intros x w' X; inv X; reflexivity.
    Qed.
    Lemma ends_filter ex fo p : ends d (filter_fn ex fo p).
    Proof. unfold filter_fn. apply ends_bind; [apply ends_unwrap, ends_query|intro]. apply ends_bind; [apply ends_unwrap, ends_query|intro]. apply ends_if; apply ends_ret. Qed.
    Lemma ends_filter_names p flt l : (forall q, ends d (flt q)) -> ends d (filter_names p flt l).
    Proof. intro H. induction l as [|n l IH]; cbn [filter_names]; [apply ends_ret|]. apply ends_bind; [apply H|intro]. apply ends_bind; [exact IH|intro; apply ends_ret]. Qed.
    Lemma ends_remove p l : ends d (remove_extra p l).
    Proof.
      induction l as [|n l IH]; cbn [remove_extra]; [apply ends_ret|]. apply ends_if; [|apply ends_panic]. cbv zeta. apply ends_bind; [apply ends_query|intros [| |]]; (apply ends_bind; [|intro; exact IH]); [apply ends_change|apply ends_change|apply ends_ret].
    Qed.
    Lemma ends_checkout_within flt (Hf : forall q, ends d (flt q)) n : forall k p, complete d n (as_db_key k) -> ends d (checkout_fs_item ds n k p flt).
    Proof.
      induction n as [|n IH]; intros k p C; [inversion C|]. cbn [checkout_fs_item].
      apply ends_get_fsitem_bind. intros o i O I. pose proof (complete_keys _ _ _ _ C O) as K. rewrite <- I in K.
      destruct (fi_type i).
      - apply ends_bind; [apply ends_read_dir|intros [names err]]. apply ends_bind; [apply ends_filter_names, Hf|intro]. apply ends_bind; [destruct err; [apply ends_fail|apply ends_ret]|intro]. apply ends_bind; [apply ends_remove|intro].
        assert (forall x, In x (combine (fi_children i) (fi_names i)) -> complete d n (as_db_key (fst x))) as KK by (intros [x y] X; apply K; eapply in_combine_l, X).
        induction (combine (fi_children i) (fi_names i)) as [|[c m] r IHr]; [apply ends_ret|].
        apply ends_bind; [apply ends_mkdir|intro]. apply ends_bind; [apply IH; apply (KK (c, m)); left; reflexivity|intro]. apply IHr. intros x X. apply KK. right. exact X.
      - apply ends_bind; [apply ends_change|intro]. apply ends_bind; [apply ends_if; [apply ends_ret|apply ends_panic]|intro]. apply ends_write_item, K.
    Qed.
    Lemma ends_checkout flt k p fuel : (forall q, ends d (flt q)) -> length (d_data d) < fuel -> ends d (checkout_fs_item ds fuel k p flt).
    Proof.
      intros Hf L. destruct fuel as [|f]; [lia|]. destruct (object_at d (as_db_key k)) as [o|] eqn:O.
      - apply ends_checkout_within; [exact Hf|]. eapply complete_le; [eapply (deep d Fu), O|lia].
      - cbn [checkout_fs_item]. apply ends_get_fsitem_bind. intros; congruence.
    Qed.
  End Checkout.

  Lemma rets_ignore st m : rets m -> rets (ignore_on st m).
  Proof. intro H. unfold ignore_on. destruct st; [|apply rets_ret]. apply rets_bind; [apply rets_try, H|intro; apply rets_ret]. Qed.
  Lemma rets_find n l : rets (find_in n l).
  Proof. induction l; cbn [find_in]; [apply rets_ret|]. cbv zeta. unfold fs_exists, fs_metadata. apply rets_bind; [rs|intros [|]; [apply rets_ret|assumption]]. Qed.
  Lemma rets_setup cm : rets (setup cm).
  Proof.
    unfold setup. apply rets_bind; [|intro st]. 
    - unfold open_repo. apply rets_bind; [unfold find_db_folder, fs_current_dir; apply rets_bind; [apply rets_query|intro; apply rets_find]|intros [x|]; [|apply rets_ret]]. destruct (parent x); [|apply rets_panic].
      apply rets_bind; [apply rets_open|intro]. apply rets_bind; [intro w; discriminate|intro; apply rets_ret].
    - apply rets_bind; [|intro]. 
      { assert (rets cache_new) by op_tac. unfold open_cache. destruct cache_dir; [apply rets_bind; [apply rets_mkdir|intro; assumption]|apply rets_bind; [assumption|intros _ w; discriminate]]. }
      apply rets_bind; [apply rets_ignore; op_tac|intro]. apply rets_bind; [op_tac|intro; apply rets_ret].
  Qed.
  Lemma rets_finish st r : rets (finish st r).
  Proof.
    destruct r; cbn [finish]; [apply rets_bind; [apply rets_ignore; op_tac|intro; op_tac]|]. apply rets_bind; [apply rets_print|intro]. apply rets_bind; [apply rets_ignore; op_tac|intro; op_tac].
  Qed.
  Lemma started_ok cm w st w1 : reachable w -> starts cm w st w1 -> world_ok w1.
  Proof. intros R S. pose proof (rel_setup ok_rel cm (close_all w)) as Y. unfold starts in S. rewrite S in Y. exact (Y (close_all_world_ok _ (reachable_ok _ R))). Qed.
  Lemma key_cur k w key w' : world_ok w -> key_or_head k w = (Done key, w') -> cur_db w' = cur_db w.
  Proof.
    intros W H. destruct k as [k|]; cbn [key_or_head] in H; [apply canon_done in H as [T _]; [exact (cur_ticked _ _ T)|exact W]|]. unfold get_head_key in H. apply bind_done in H as (n & v & H1 & H2).
    apply head_done in H1 as [T _]. apply reflog_get_done in H2 as [C _]. rewrite C. exact (cur_ticked _ _ T).
  Qed.
  Lemma rets_key k : rets (key_or_head k).
  Proof. destruct k; [apply rets_canonicalize|apply rets_head_key]. Qed.

  Theorem command_returns cm w st w1 c : reachable w -> starts cm w st w1 -> walks_files c = false ->
    (st <> None -> length (d_data (cur_db w1)) + 1 < stack /\ length (d_data (cur_db w1)) < loop_bound) -> fst (run_command cm st c w1) <> Diverged.
  Proof.
    intros R S N L. pose proof (started_full _ _ _ _ R S) as Fu. assert (W : world_ok w1) by (eapply started_ok; eassumption).
    destruct c; try discriminate N; cbn [run_command].
    all: try (destruct st as [s|]; cbn [with_ds]; [destruct (L ltac:(discriminate)) as [L1 L2]; clear L|apply rets_fail]).
    - unfold cmd_fetch. apply then_ret; [apply rets_canonicalize|intros key v H; apply canon_done in H as [T _]; [|exact W]; pose proof (cur_ticked _ _ T) as C]. apply (ends_get (cur_db w1)); first [exact Fu|exact C|lia].
    - unfold cmd_pretty_print. apply rets_bind; [apply rets_canonicalize|intro]. apply rets_bind; [apply rets_get_obj|intro; apply rets_pretty].
    - unfold cmd_commit_tree. apply rets_bind; [apply rets_canonicalize|intro]. apply rets_bind; [apply rets_mapM, rets_canonicalize|intro]. apply rets_bind; [apply rets_put_obj|intro; apply rets_print].
    - unfold cmd_reflog_get. apply rets_bind; [apply rets_reflog_get|intro; apply rets_print].
    - unfold cmd_reflog_push. apply rets_bind; [apply rets_canonicalize|intro; apply rets_push].
    - unfold cmd_walk_tree. apply then_ret; [apply rets_canonicalize|intros key v H; apply canon_done in H as [T _]; [|exact W]; pose proof (cur_ticked _ _ T) as C].
      apply then_ret; [apply (ends_walk (cur_db w1)); [exact Fu|lia|exact C]|intros m u _; apply rets_tree].
    - unfold cmd_set_head, put_head. cbn [raw_put_state sqlite_ds]. apply rets_write.
    - unfold cmd_get_head. apply rets_bind; [apply rets_head|intro; apply rets_print].
    - unfold cmd_init. apply rets_bind; [apply rets_mkdir|intro]. apply rets_bind; [apply rets_open|intro; apply rets_write_at].
    - unfold cmd_show. apply then_ret; [apply rets_key|intros key v H; apply key_cur in H as C; [|exact W]]. apply (ends_display (cur_db w1)); first [exact Fu|exact C|lia].
    - unfold cmd_log. apply then_ret; [apply rets_key|intros key v H; apply key_cur in H as C; [|exact W]]. apply (ends_log (cur_db w1)); first [exact Fu|exact C|lia].
    - unfold cmd_checkout. apply then_ret; [apply rets_head_key|intros key v H; apply (key_cur None) in H as C; [|exact W]].
      unfold make_filter_fn. destruct (forallb glob_valid (cm_exclude cm)); [|apply then_ret; [apply rets_panic|intros ? ? X; discriminate X]]. apply then_ret; [apply rets_ret|intros flt u X; apply ret_done in X as [-> ->]].
      unfold commit_from_key. revert C. clear H. revert v. change (forall v, cur_db v = cur_db w1 -> fst (bind (bind (unwrap (get_obj ds key)) (fun o => unwrap (commit_of_object o))) (fun c => checkout_fs_item ds stack (c_tree c) (ds_repo s) (filter_fn (cm_exclude cm) (ds_folder s))) v) <> Diverged).
      intros v C. apply (ends_bind (cur_db w1)); [| |exact C].
      + apply ends_bind; [apply ends_unwrap, ends_get_obj|intro; apply ends_unwrap, ends_commit_of].
      + intro c. apply ends_checkout; [exact Fu|intro; apply ends_filter|lia].
    - unfold cmd_ref_log. apply rets_bind; [apply rets_name|intro]. apply rets_bind; [cbn [reflog_walk sqlite_ds]; unfold sqlite_reflog_walk; rs|intro]. apply rets_bind; [apply rets_print|intro; apply rets_entries].
    - unfold cmd_ref_update. apply rets_bind; [apply rets_canonicalize|intro]. apply rets_bind; [apply rets_name|intro; apply rets_push].
  Qed.
  Theorem process_returns cm w c : reachable w -> walks_files c = false ->
    (forall s w1, starts cm w (Some s) w1 -> length (d_data (cur_db w1)) + 1 < stack /\ length (d_data (cur_db w1)) < loop_bound) ->
    fst (main cm c (close_all w)) <> Diverged.
  Proof.
    intros R N L. rewrite main_split. apply then_ret; [apply rets_setup|intros st w1 S]. apply then_ret; [|intros r u _; apply rets_finish].
    assert (X : fst (run_command cm st c w1) <> Diverged).
    { eapply command_returns; [exact R|exact S|exact N|]. intro Q. destruct st as [s|]; [|destruct (Q eq_refl)]. eapply L, S. }
    unfold try. destruct (run_command cm st c w1) as [[a|e|p| |] v]; cbn in *; try discriminate. destruct (X eq_refl).
  Qed.
End Returns.
