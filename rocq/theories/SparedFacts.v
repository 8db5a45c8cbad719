(** If nothing fails, no process is killed. *)
From Coq Require Import Sorted RelationClasses.
From Verif Require Import Base BaseFacts TableFacts Key KeyFacts Keyish Cbor Object Path World WorldFacts Store File Filter Dir Diff Commit Pretty Main SpecKey SpecResolve SpecStore StoreCalls SpecRun SpecProc SpecCmd SpecFile SpecDir SpecCache SpecDiff SpecPatch SpecShow SpecOut SpecClosure SpecShape SpecLive SpecFatal Screen
  Frame DbRel Closure Integrity StoreFacts ProcFacts InitFacts ObjStoreFacts SessionFacts FilePlan FileFacts FsFacts DirPlan DirFacts CmdFacts OutFacts LiveCmd LiveStart DirLive.

Section Spared.
  Context {E : Env}.
  Notation ds := sqlite_ds.

  (** If nothing fails, the process is not killed. *)
  Definition spared {A} (m : M A) : Prop := forall w, w_faults w = [] -> fst (m w) <> Crashed /\ w_faults (snd (m w)) = [].
  Lemma spared_ret {A} (a : A) : spared (ret a).
  Proof. intros w F. split; [discriminate|exact F]. Qed.
  Lemma spared_fail {A} e : spared (@fail A e).
  Proof. intros w F. split; [discriminate|exact F]. Qed.
  Lemma spared_panic {A} p : spared (@panic_with A p).
  Proof. intros w F. split; [discriminate|exact F]. Qed.
  Lemma spared_diverge {A} : spared (@diverge A).
  Proof. intros w F. split; [discriminate|exact F]. Qed.
  Lemma spared_bind {A B} (m : M A) (k : A -> M B) : spared m -> (forall a, spared (k a)) -> spared (bind m k).
  Proof.
    intros H K w F. destruct (H w F) as [S1 S2]. unfold bind. destruct (m w) as [[a|e1| | |] w1]; cbn in *; try (split; [discriminate|exact S2]); [exact (K a w1 S2)|]. destruct S1. reflexivity.
  Qed.
  Lemma spared_unwrap {A} (m : M A) : spared m -> spared (unwrap m).
  Proof. intros H w F. destruct (H w F) as [S1 S2]. unfold unwrap. destruct (m w) as [[a|e1| | |] w1]; cbn in *; split; try discriminate; assumption. Qed.
  Lemma spared_try {A} (m : M A) : spared m -> spared (try m).
  Proof. intros H w F. destruct (H w F) as [S1 S2]. unfold try. destruct (m w) as [[a|e1| | |] w1]; cbn in *; split; try discriminate; try assumption. destruct S1. reflexivity. Qed.
  Lemma spared_lift {A X} (f : X -> error) (r : result A X) : spared (lift_result f r).
  Proof. destruct r; [apply spared_ret|apply spared_fail]. Qed.
  Lemma spared_option {A} e (o : option A) : spared (of_option e o).
  Proof. destruct o; [apply spared_ret|apply spared_fail]. Qed.
  Lemma spared_op {A} (eff : fault -> M A) : spared (eff FOk) -> spared (op eff).
  Proof. intros H w F. destruct (op_live eff w F) as (w1 & _ & F1 & ->). exact (H w1 F1). Qed.
  Ltac cases := intros w F; cbn; repeat match goal with |- context [match ?x with _ => _ end] => destruct x end; (split; [discriminate|exact F]).
  Lemma spared_read {A} (q : db -> A) : spared (db_read q).
  Proof. apply spared_op. cases. Qed.
  Lemma spared_write u : spared (db_write u).
  Proof. apply spared_op. intros w F. cbn. unfold put_db. destruct (w_txn w); (split; [discriminate|exact F]). Qed.
  Lemma spared_write_at l u : spared (db_write_at l u).
  Proof. apply spared_op. cases. Qed.
  Lemma spared_cread {A} (q : list (bytes * bytes) -> A) : spared (cache_read q).
  Proof. apply spared_op. cases. Qed.
  Lemma spared_cwrite u : spared (cache_write u).
  Proof. apply spared_op. intros w F. cbn. unfold put_cache. destruct (w_ctxn w); (split; [discriminate|exact F]). Qed.
  Lemma spared_print t a : spared (print t a).
  Proof. apply spared_op. cases. Qed.
  Lemma spared_stdout d : spared (write_stdout d).
  Proof. apply spared_op. cases. Qed.
  Lemma spared_query {A} (q : fs -> loc -> option A) : spared (fs_query q).
  Proof. apply spared_op. cases. Qed.
  Lemma spared_readdir p : spared (fs_read_dir p).
  Proof. apply spared_op. cases. Qed.
  Lemma spared_openread p : spared (fs_open_read p).
  Proof. apply spared_op. cases. Qed.
  Lemma spared_change {A} (full : fs -> loc -> nat -> option (A * fs)) partial : spared (fs_change full partial).
  Proof. apply spared_op. cases. Qed.
  Lemma spared_mapM {A B} (f : A -> M B) l : (forall a, spared (f a)) -> spared (mapM f l).
  Proof. intro H. induction l as [|x l IH]; cbn [mapM]; [apply spared_ret|]. apply spared_bind; [apply H|intro]. apply spared_bind; [exact IH|intro; apply spared_ret]. Qed.

  Ltac tm := repeat first
    [ apply spared_ret | apply spared_panic | apply spared_diverge | apply spared_fail | apply spared_unwrap | apply spared_try | apply spared_option | apply spared_lift
    | apply spared_read | apply spared_write | apply spared_write_at | apply spared_cread | apply spared_cwrite | apply spared_print | apply spared_stdout | apply spared_query | apply spared_readdir | apply spared_openread | apply spared_change
    | solve [auto with spared] | apply spared_mapM; intro | apply spared_bind; [|intro]
    | match goal with |- spared (match ?x with _ => _ end) => destruct x end ].

  Lemma spared_hash d : spared (hash d).
  Proof. intros w F. unfold hash. cbn. split; [discriminate|exact F]. Qed.
  Hint Resolve spared_hash : spared.
  Lemma spared_put_obj o : spared (put_obj ds o).
  Proof. unfold put_obj, put. cbn [raw_put ds]. unfold sqlite_raw_put. tm. Qed.
  Lemma spared_get_obj k : spared (get_obj ds k).
  Proof. unfold get_obj, get. cbn [raw_get ds]. unfold sqlite_raw_get. tm. Qed.
  Hint Resolve spared_put_obj spared_get_obj : spared.
  Lemma spared_cascade l z : forall kb, spared (cascade ds l z kb).
  Proof. induction l as [|o l IH]; intro kb; cbn [cascade]; unfold put_tree; tm. Qed.
  Hint Resolve spared_cascade : spared.
  Lemma spared_cut st b : spared (cut ds st b).
  Proof. unfold cut, put_blob. tm. Qed.
  Hint Resolve spared_cut : spared.
  Lemma spared_loop f : forall st l, spared (pd_loop ds f st l).
  Proof. induction f as [|f IH]; intros st l; cbn [pd_loop]; tm. Qed.
  Lemma spared_fold l : forall kb, spared (fold_levels ds l kb).
  Proof. induction l as [|o l IH]; intro kb; cbn [fold_levels]; unfold put_tree; tm. Qed.
  Hint Resolve spared_loop spared_fold : spared.
  Lemma spared_put_data l : spared (put_data ds l).
  Proof. unfold put_data, pd_finish, put_blob, put_tree. tm. Qed.
  Hint Resolve spared_put_data : spared.
  Lemma spared_read_data {S} (wr : S -> bytes -> M S) : (forall s b, spared (wr s b)) -> forall f k s, spared (read_data ds wr f k s).
  Proof.
    intros H f. induction f as [|f IH]; intros k s; cbn [read_data]; [apply spared_diverge|]. apply spared_bind; [apply spared_get_obj|intro o]. destruct (o_type o); try (tm; fail).
    revert s. induction (o_keys o) as [|x l IHl]; intro s; [apply spared_ret|]. apply spared_bind; [apply IH|intro s'; apply IHl].
  Qed.
  Lemma spared_read_vec f k b : spared (read_data ds vec_write f k b).
  Proof. apply spared_read_data. intros x y. apply spared_ret. Qed.
  Hint Resolve spared_read_vec : spared.
  Lemma spared_put_item i : spared (put_item ds i).
  Proof. unfold put_item. tm. Qed.
  Hint Resolve spared_put_item : spared.
  Lemma spared_filter ex p q : spared (filter_fn ex p q).
  Proof. unfold filter_fn. tm. Qed.
  Hint Resolve spared_filter : spared.
  Lemma spared_make ex p : spared (make_filter_fn ex p).
  Proof. unfold make_filter_fn. tm. Qed.
  Hint Resolve spared_make : spared.
  Lemma make_filter_spared ex p w f w' : make_filter_fn ex p w = (Done f, w') -> (forall q, spared (f q)) /\ w' = w /\ forallb glob_valid ex = true.
  Proof. unfold make_filter_fn. destruct (forallb glob_valid ex); intro H; inversion H; subst. split; [intro q; apply spared_filter|auto]. Qed.
  Lemma spared_filtered {B} ex p (k : (path -> M bool) -> M B) : (forall f, (forall q, spared (f q)) -> spared (k f)) -> spared (bind (make_filter_fn ex p) k).
  Proof.
    intros H w F. unfold bind. destruct (make_filter_fn ex p w) as [r w1] eqn:Q. pose proof (spared_make ex p w F) as S. rewrite Q in S. destruct S as [S1 S2]. cbn in S1, S2.
    destruct r as [f|e1| | |]; cbn; try (split; [discriminate || exact S1|exact S2]).
    - apply make_filter_spared in Q as [T _]. exact (H f T _ S2).
    - destruct S1. reflexivity.
  Qed.
  Lemma spared_put f : forall p flt, (forall q, spared (flt q)) -> spared (put_fs_item ds f p flt).
  Proof.
    induction f as [|f IH]; intros p flt H; cbn [put_fs_item]; [apply spared_diverge|]. apply spared_bind; [unfold fs_metadata; tm|intros [|sz st|]]; [|tm|apply spared_panic].
    apply spared_bind; [apply spared_readdir|intros [names er]]. apply spared_bind; [|intro kids; tm].
    induction names as [|n names IHn]; [apply spared_ret|]. apply spared_bind; [apply H|intros [|]; [|exact IHn]]. apply spared_bind; [apply IH, H|intro]. apply spared_bind; [exact IHn|intro; apply spared_ret].
  Qed.
  Lemma spared_hash_item p : spared (hash_fs_item ds p).
  Proof. unfold hash_fs_item, fs_metadata, cache_get. tm. Qed.
  Lemma spared_get_item k : spared (get_fsitem ds k).
  Proof. unfold get_fsitem. tm. Qed.
  Hint Resolve spared_hash_item spared_get_item : spared.
  Lemma spared_write_item f i l : spared (write_item_data ds f i l).
  Proof. unfold write_item_data. destruct (fi_children i); [apply spared_panic|]. apply spared_read_data. intros s b. unfold file_write, fs_write. tm. Qed.
  Hint Resolve spared_write_item : spared.
  Lemma spared_get f : forall k p, spared (get_fs_item ds f k p).
  Proof.
    induction f as [|f IH]; intros k p; cbn [get_fs_item]; [apply spared_diverge|]. apply spared_bind; [apply spared_get_item|intro i]. destruct (fi_type i); [|unfold fs_create_dir_all, fs_create_new; tm].
    induction (combine (fi_children i) (fi_names i)) as [|[c n] l IHl]; [apply spared_ret|]. apply spared_bind; [apply IH|intro; exact IHl].
  Qed.
  Lemma spared_names p flt l : (forall q, spared (flt q)) -> spared (filter_names p flt l).
  Proof. intro H. induction l as [|n l IH]; cbn [filter_names]; tm. Qed.
  Lemma spared_extra p l : spared (remove_extra p l).
  Proof. induction l as [|n l IH]; cbn [remove_extra]; unfold fs_metadata, fs_remove_dir_all, fs_remove_file; tm. Qed.
  Hint Resolve spared_extra : spared.
  Lemma spared_checkout f : forall k p flt, (forall q, spared (flt q)) -> spared (checkout_fs_item ds f k p flt).
  Proof.
    induction f as [|f IH]; intros k p flt H; cbn [checkout_fs_item]; [apply spared_diverge|]. apply spared_bind; [apply spared_get_item|intro i]. destruct (fi_type i); [|unfold fs_create; tm].
    apply spared_bind; [apply spared_readdir|intros [names er]]. apply spared_bind; [apply spared_names, H|intro]. apply spared_bind; [tm|intro]. apply spared_bind; [apply spared_extra|intro].
    induction (combine (fi_children i) (fi_names i)) as [|[c n] l IHl]; [apply spared_ret|]. apply spared_bind; [unfold fs_create_dir_all; tm|intro]. apply spared_bind; [apply IH, H|intro; exact IHl].
  Qed.
  Lemma spared_walk_in f : forall k p, spared (internal_walk_fs_items ds f k p).
  Proof.
    induction f as [|f IH]; intros k p; cbn [internal_walk_fs_items]; [apply spared_diverge|]. apply spared_bind; [apply spared_get_item|intro i]. destruct (fi_type i); [|apply spared_ret].
    generalize (if is_empty_path p then [] else [(p, (k, true))]). induction (combine (fi_children i) (fi_names i)) as [|[c n] l IHl]; intro acc; [apply spared_ret|]. apply spared_bind; [apply IH|intro; apply IHl].
  Qed.
  Lemma spared_walk k : spared (walk_fs_items ds k).
  Proof. apply spared_walk_in. Qed.
  Hint Resolve spared_walk : spared.
  Lemma spared_real_in f : forall b p flt, (forall q, spared (flt q)) -> spared (internal_walk_real_fs_items f b p flt).
  Proof.
    induction f as [|f IH]; intros b p flt H; cbn [internal_walk_real_fs_items]; [apply spared_diverge|]. apply spared_bind; [unfold fs_metadata; tm|intros [|sz st|]]; [|apply spared_ret|apply spared_fail].
    apply spared_bind; [apply spared_readdir|intros [names er]]. apply spared_bind; [|intro; tm].
    generalize (if is_empty_path p then [] else [(p, true)]). induction names as [|n names IHn]; intro acc; [apply spared_ret|]. apply spared_bind; [apply H|intros [|]; [|apply IHn]]. apply spared_bind; [apply IH, H|intro; apply IHn].
  Qed.
  Lemma spared_index {A} (m : pmap A) p : spared (pm_index m p).
  Proof. unfold pm_index. tm. Qed.
  Hint Resolve @spared_index : spared.
  Lemma spared_compare t k : spared (compare ds t k).
  Proof.
    unfold compare. apply spared_bind; [destruct t as [p ex fo|k']|intro src].
    - apply spared_filtered. intros f H. apply spared_bind; [apply spared_real_in, H|intro; apply spared_ret].
    - tm.
    - tm.
  Qed.
  Hint Resolve spared_compare : spared.
  Lemma spared_keyed b l : spared (print_keyed b l).
  Proof. induction l as [|[p k] l IH]; cbn [print_keyed]; tm. Qed.
  Hint Resolve spared_keyed : spared.
  Lemma spared_diff r : spared (print_diff_result r).
  Proof. unfold print_diff_result, print_section. tm. Qed.
  Lemma spared_stats l : spared (print_stats l).
  Proof. induction l as [|x l IH]; cbn [print_stats]; tm. Qed.
  Hint Resolve spared_diff spared_stats : spared.
  Lemma spared_stat r : spared (print_stat_diff_result ds r).
  Proof. unfold print_stat_diff_result, line_stat, line_ct. tm. Qed.
  Lemma spared_patch r : spared (print_patch_diff_result ds r).
  Proof. unfold print_patch_diff_result, create_diff_patch_result, whole_file, patch_from_file_string. tm. Qed.
  Hint Resolve spared_stat spared_patch : spared.
  Lemma spared_read_out f k : spared (read_data ds stdout_write f k tt).
  Proof. apply spared_read_data. intros s b. apply spared_stdout. Qed.
  Hint Resolve spared_read_out : spared.
  Lemma spared_commit_of o : spared (commit_of_object o).
  Proof. unfold commit_of_object. tm. Qed.
  Hint Resolve spared_commit_of : spared.
  Lemma spared_display f : forall k kd, spared (display_obj ds f k kd).
  Proof. induction f as [|f IH]; intros k kd; cbn [display_obj]; tm. Qed.
  Hint Resolve spared_display : spared.
  Lemma spared_log_loop f : forall c kd, spared (log_loop ds f c kd).
  Proof. induction f as [|f IH]; intros c kd; cbn [log_loop]; tm. Qed.
  Hint Resolve spared_log_loop : spared.
  Lemma spared_log k kd : spared (log_obj ds k kd).
  Proof. unfold log_obj. tm. Qed.
  Hint Resolve spared_log : spared.
  Lemma spared_commit_key k : spared (commit_from_key ds k).
  Proof. unfold commit_from_key. tm. Qed.
  Lemma spared_commit_tree t ps a : spared (commit_tree ds t ps a).
  Proof. apply spared_put_obj. Qed.
  Hint Resolve spared_commit_key spared_commit_tree : spared.
  Lemma spared_lines l : spared (each_line l).
  Proof. induction l; cbn [each_line]; unfold writeln; tm. Qed.
  Lemma spared_keys l : spared (pretty_keys l).
  Proof. induction l; cbn [pretty_keys]; unfold writeln; tm. Qed.
  Hint Resolve spared_lines spared_keys : spared.
  Lemma spared_pretty o : spared (pretty_print o).
  Proof. unfold pretty_print, writeln. tm. Qed.
  Lemma spared_tree l : spared (print_tree l).
  Proof. induction l as [|[p [k d]] l IH]; cbn [print_tree]; tm. Qed.
  Lemma spared_fs_tree l : spared (print_fs_tree l).
  Proof. induction l as [|[p d] l IH]; cbn [print_fs_tree]; tm. Qed.
  Lemma spared_entries l : forall n, spared (print_entries n l).
  Proof. induction l as [|k l IH]; intro n; cbn [print_entries]; tm. Qed.
  Lemma spared_push r : spared (reflog_push ds r).
  Proof. cbn [reflog_push ds]. unfold sqlite_reflog_push. tm. Qed.
  Lemma spared_rwalk n rm : spared (reflog_walk ds n rm).
  Proof. cbn [reflog_walk ds]. unfold sqlite_reflog_walk. tm. Qed.
  Lemma spared_put_head n : spared (put_head ds n).
  Proof. unfold put_head. cbn [raw_put_state ds]. unfold sqlite_raw_put_state. tm. Qed.
  Lemma spared_get_head : spared (get_head ds).
  Proof. unfold get_head. cbn [raw_get_state ds]. unfold sqlite_raw_get_state. tm. Qed.
  Hint Resolve spared_pretty spared_tree spared_fs_tree spared_entries spared_push spared_rwalk spared_put_head spared_get_head : spared.

  Lemma spared_newest n rm : spared (reflog_get ds n rm).
  Proof. cbn [reflog_get ds]. unfold sqlite_reflog_get. tm. Qed.
  Hint Resolve spared_newest : spared.
  Lemma spared_canon k : spared (canonicalize ds k).
  Proof. destruct k; cbn [canonicalize raw_get raw_between ds]; unfold sqlite_raw_get, sqlite_raw_between, resolve_results; tm. Qed.
  Lemma spared_head_key : spared get_head_key.
  Proof. unfold get_head_key, head_or_fail. tm. Qed.
  Lemma spared_branch r : spared (refname_or_head r).
  Proof. unfold refname_or_head, head_or_fail. tm. Qed.
  Hint Resolve spared_canon spared_head_key spared_branch : spared.
  Lemma spared_open p : spared (sqlite_open p).
  Proof.
    apply spared_op. intros w F. destruct (open_db_eff p w) as [[l w']|] eqn:O; (split; [discriminate|]); [|exact F]. cbn. unfold open_db_eff in O.
    repeat match type of O with context [match ?x with _ => _ end] => destruct x end; inversion O; subst; exact F.
  Qed.
  Hint Resolve spared_open : spared.
  Lemma spared_mkdir p : spared (fs_create_dir_all p).
  Proof. unfold fs_create_dir_all. tm. Qed.
  Hint Resolve spared_mkdir : spared.
  Theorem spared_command cm st c : spared (run_command cm st c).
  Proof.
    destruct c as [p|p msg r|k d|k|t ps|n rm|k n rm|k|p|n| | |k|k|p k b| | |n|r rm|k r]; cbn [run_command];
      try (destruct st as [s|]; cbn [with_ds]; [|apply spared_fail]).
    - unfold cmd_insert. apply spared_filtered. intros f H. apply spared_bind; [apply spared_put, H|intro; tm].
    - unfold cmd_commit. apply spared_filtered. intros f H. cbv zeta. apply spared_bind; [tm|intro]. apply spared_bind; [tm|intro]. apply spared_bind; [tm|intro]. apply spared_bind; [apply spared_put, H|intro; tm].
    - unfold cmd_fetch. apply spared_bind; [tm|intro]. apply spared_get.
    - unfold cmd_pretty_print. tm.
    - unfold cmd_commit_tree. tm.
    - unfold cmd_reflog_get. tm.
    - unfold cmd_reflog_push. tm.
    - unfold cmd_walk_tree. tm.
    - unfold cmd_walk_fs_tree, walk_real_fs_items. apply spared_bind; [apply spared_real_in; intro; apply spared_ret|intro; tm].
    - unfold cmd_set_head. tm.
    - unfold cmd_get_head. tm.
    - unfold cmd_init. tm.
    - unfold cmd_show, key_or_head. tm.
    - unfold cmd_log, key_or_head. tm.
    - unfold cmd_compare. tm.
    - unfold cmd_status, head_or_fail. tm.
    - unfold cmd_checkout. apply spared_bind; [tm|intro]. apply spared_filtered. intros f H. apply spared_bind; [tm|intro]. apply spared_checkout, H.
    - unfold cmd_checkout_head, head_or_fail. tm.
    - unfold cmd_ref_log. tm.
    - unfold cmd_ref_update. tm.
  Qed.
  Lemma spared_find n l : spared (find_in n l).
  Proof. induction l as [|d l IH]; cbn [find_in]; unfold fs_exists, fs_metadata; tm. Qed.
  Hint Resolve spared_find : spared.
  Lemma spared_connect l : spared (connect l).
  Proof. intros w F. split; [discriminate|exact F]. Qed.
  Hint Resolve spared_connect : spared.
  Ltac ctl := apply spared_op; intros w F; cbn; repeat match goal with |- context [match ?x with _ => _ end] => destruct x end; (split; [discriminate|exact F]).
  Lemma spared_begin : spared db_begin. Proof. ctl. Qed.
  Lemma spared_commit : spared db_commit.
  Proof. apply spared_op. intros w F. cbn. unfold commit_now. destruct (w_txn w); (split; [discriminate|exact F]). Qed.
  Lemma spared_rollback : spared db_rollback. Proof. ctl. Qed.
  Lemma spared_cbegin : spared cache_begin. Proof. ctl. Qed.
  Lemma spared_ccommit : spared cache_commit.
  Proof. apply spared_op. intros w F. cbn. unfold cache_commit_now. destruct (w_ctxn w); (split; [discriminate|exact F]). Qed.
  Lemma spared_crollback : spared cache_rollback. Proof. ctl. Qed.
  Lemma spared_cnew : spared cache_new. Proof. ctl. Qed.
  Lemma spared_cset : spared (fun w => (Done tt, set_cache w [])).
  Proof. intros w F. split; [discriminate|exact F]. Qed.
  Hint Resolve spared_begin spared_commit spared_rollback spared_cbegin spared_ccommit spared_crollback spared_cnew spared_cset spared_command : spared.
  Theorem spared_main cm c : spared (main cm c).
  Proof. unfold main, open_repo, find_db_folder, fs_current_dir, main_rest, open_cache, ignore_on. tm. Qed.
End Spared.
