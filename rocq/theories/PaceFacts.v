(** Commands that only read files behave the same at any time. *)
From Coq Require Import Sorted RelationClasses.
From Verif Require Import Base BaseFacts TableFacts Key KeyFacts Keyish Cbor Object Path World WorldFacts Store File Filter Dir Diff Commit Pretty Main SpecKey SpecResolve SpecStore StoreCalls SpecRun SpecProc SpecCmd SpecFile SpecDir SpecCache SpecDiff SpecPatch SpecShow SpecOut SpecClosure SpecShape SpecLive SpecFatal Screen
  Frame DbRel Closure Integrity StoreFacts ProcFacts InitFacts ObjStoreFacts SessionFacts FilePlan FileFacts FsFacts DirPlan DirFacts CmdFacts OutFacts LiveCmd LiveStart DirLive.

Section Pace.
  Context {E : Env}.
  Notation ds := sqlite_ds.

  Context (SR : steady_reads).

  (** The number of operations that were done before makes no difference. *)
  Definition paced {A} (m : M A) : Prop := forall w n, exists n', m (set_tick w n) = (fst (m w), set_tick (snd (m w)) n').
  Lemma paced_ret {A} (a : A) : paced (ret a).
  Proof. intros w n. exists n. reflexivity. Qed.
  Lemma paced_fail {A} e : paced (@fail A e).
  Proof. intros w n. exists n. reflexivity. Qed.
  Lemma paced_panic {A} p : paced (@panic_with A p).
  Proof. intros w n. exists n. reflexivity. Qed.
  Lemma paced_diverge {A} : paced (@diverge A).
  Proof. intros w n. exists n. reflexivity. Qed.
  Lemma paced_bind {A B} (m : M A) (k : A -> M B) : paced m -> (forall a, paced (k a)) -> paced (bind m k).
  Proof.
    intros H K w n. destruct (H w n) as [n1 H1]. unfold bind. rewrite H1. destruct (m w) as [[a|e1| | |] w1]; cbn; try (exists n1; reflexivity). exact (K a w1 n1).
  Qed.
  Lemma paced_unwrap {A} (m : M A) : paced m -> paced (unwrap m).
  Proof. intros H w n. destruct (H w n) as [n1 H1]. unfold unwrap. rewrite H1. destruct (m w) as [[a|e1| | |] w1]; exists n1; reflexivity. Qed.
  Lemma paced_try {A} (m : M A) : paced m -> paced (try m).
  Proof. intros H w n. destruct (H w n) as [n1 H1]. unfold try. rewrite H1. destruct (m w) as [[a|e1| | |] w1]; exists n1; reflexivity. Qed.
  Lemma paced_lift {A X} (f : X -> error) (r : result A X) : paced (lift_result f r).
  Proof. destruct r; [apply paced_ret|apply paced_fail]. Qed.
  Lemma paced_option {A} e (o : option A) : paced (of_option e o).
  Proof. destruct o; [apply paced_ret|apply paced_fail]. Qed.
  Lemma paced_both {A} (m : M A) w a b : paced m -> exists n', m (set_tick w a) = (fst (m (set_tick w b)), set_tick (snd (m (set_tick w b))) n').
  Proof. intro H. destruct (H w a) as [x X], (H w b) as [y Y]. rewrite X, Y. exists x. reflexivity. Qed.
  Lemma paced_op {A} (eff : fault -> M A) : (forall f, paced (eff f)) -> paced (op eff).
  Proof.
    intros H w n. unfold op. cbn zeta. cbn [w_tick w_faults set_tick]. destruct (w_faults w) as [|f r] eqn:F.
    - exact (paced_both (eff FOk) w (S n) (S (w_tick w)) (H FOk)).
    - exact (paced_both (eff f) (set_faults w r) (S n) (S (w_tick w)) (H f)).
  Qed.
  Ltac cases := intros fl [f1 c1 d1 l1 t1 a1 b1 g1 o1 h1 i1] n; exists n; destruct fl as [|[|m1]| |[|m1]], t1, b1; cbn; repeat match goal with |- context [match ?x with _ => _ end] => destruct x end; reflexivity.
  Lemma paced_read {A} (q : db -> A) : paced (db_read q).
  Proof. apply paced_op. cases. Qed.
  Lemma paced_write u : paced (db_write u).
  Proof. apply paced_op. cases. Qed.
  Lemma paced_cread {A} (q : list (bytes * bytes) -> A) : paced (cache_read q).
  Proof. apply paced_op. cases. Qed.
  Lemma paced_cwrite u : paced (cache_write u).
  Proof. apply paced_op. cases. Qed.
  Lemma paced_print t a : paced (print t a).
  Proof. apply paced_op. cases. Qed.
  Lemma paced_stdout d : paced (write_stdout d).
  Proof. apply paced_op. cases. Qed.
  Lemma paced_query {A} (q : fs -> loc -> option A) : paced (fs_query q).
  Proof. apply paced_op. cases. Qed.
  Lemma paced_readdir p : paced (fs_read_dir p).
  Proof. apply paced_op. cases. Qed.
  Lemma paced_openread p : paced (fs_open_read p).
  Proof. apply paced_op. intros f w n. exists n. cbn. destruct (stat (w_fs w) (w_cwd w) p) as [[l e]|]; [destruct e as [|c st| |]|]; try (destruct f; reflexivity). rewrite (SR n (w_tick w) c). destruct f as [|[|m]| |]; reflexivity. Qed.
  Lemma paced_mapM {A B} (f : A -> M B) l : (forall a, paced (f a)) -> paced (mapM f l).
  Proof. intro H. induction l as [|x l IH]; cbn [mapM]; [apply paced_ret|]. apply paced_bind; [apply H|intro]. apply paced_bind; [exact IH|intro; apply paced_ret]. Qed.

  Ltac tm := repeat first
    [ apply paced_ret | apply paced_panic | apply paced_diverge | apply paced_fail | apply paced_unwrap | apply paced_try | apply paced_option | apply paced_lift
    | apply paced_read | apply paced_write | apply paced_cread | apply paced_cwrite | apply paced_print | apply paced_stdout | apply paced_query | apply paced_readdir | apply paced_openread
    | solve [auto with paced] | apply paced_mapM; intro | apply paced_bind; [|intro]
    | match goal with |- paced (match ?x with _ => _ end) => destruct x end ].

  Lemma paced_hash d : paced (hash d).
  Proof. intros w n. exists n. reflexivity. Qed.
  Hint Resolve paced_hash : paced.
  Lemma paced_put_obj o : paced (put_obj ds o).
  Proof. unfold put_obj, put. cbn [raw_put ds]. unfold sqlite_raw_put. tm. Qed.
  Lemma paced_get_obj k : paced (get_obj ds k).
  Proof. unfold get_obj, get. cbn [raw_get ds]. unfold sqlite_raw_get. tm. Qed.
  Hint Resolve paced_put_obj paced_get_obj : paced.
  Lemma paced_cascade l z : forall kb, paced (cascade ds l z kb).
  Proof. induction l as [|o l IH]; intro kb; cbn [cascade]; unfold put_tree; tm. Qed.
  Hint Resolve paced_cascade : paced.
  Lemma paced_cut st b : paced (cut ds st b).
  Proof. unfold cut, put_blob. tm. Qed.
  Hint Resolve paced_cut : paced.
  Lemma paced_loop f : forall st l, paced (pd_loop ds f st l).
  Proof. induction f as [|f IH]; intros st l; cbn [pd_loop]; tm. Qed.
  Lemma paced_fold l : forall kb, paced (fold_levels ds l kb).
  Proof. induction l as [|o l IH]; intro kb; cbn [fold_levels]; unfold put_tree; tm. Qed.
  Hint Resolve paced_loop paced_fold : paced.
  Lemma paced_put_data l : paced (put_data ds l).
  Proof. unfold put_data, pd_finish, put_blob, put_tree. tm. Qed.
  Hint Resolve paced_put_data : paced.
  Lemma paced_read_data {S} (wr : S -> bytes -> M S) : (forall s b, paced (wr s b)) -> forall f k s, paced (read_data ds wr f k s).
  Proof.
    intros H f. induction f as [|f IH]; intros k s; cbn [read_data]; [apply paced_diverge|]. apply paced_bind; [apply paced_get_obj|intro o]. destruct (o_type o); try (tm; fail).
    revert s. induction (o_keys o) as [|x l IHl]; intro s; [apply paced_ret|]. apply paced_bind; [apply IH|intro s'; apply IHl].
  Qed.
  Lemma paced_read_vec f k b : paced (read_data ds vec_write f k b).
  Proof. apply paced_read_data. intros x y. apply paced_ret. Qed.
  Hint Resolve paced_read_vec : paced.
  Lemma paced_put_item i : paced (put_item ds i).
  Proof. unfold put_item. tm. Qed.
  Hint Resolve paced_put_item : paced.
  Lemma paced_filter ex p q : paced (filter_fn ex p q).
  Proof. unfold filter_fn. tm. Qed.
  Hint Resolve paced_filter : paced.
  Lemma paced_make ex p : paced (make_filter_fn ex p).
  Proof. unfold make_filter_fn. tm. Qed.
  Hint Resolve paced_make : paced.
  Lemma paced_filtered {B} ex p (k : (path -> M bool) -> M B) : (forall f, (forall q, paced (f q)) -> paced (k f)) -> paced (bind (make_filter_fn ex p) k).
  Proof.
    intro H. unfold make_filter_fn. destruct (forallb glob_valid ex); [|intros w n; exists n; reflexivity]. intros w n. exact (H _ (paced_filter ex p) w n).
  Qed.
  Lemma paced_put f : forall p flt, (forall q, paced (flt q)) -> paced (put_fs_item ds f p flt).
  Proof.
    induction f as [|f IH]; intros p flt H; cbn [put_fs_item]; [apply paced_diverge|]. apply paced_bind; [unfold fs_metadata; tm|intros [|sz st|]]; [|tm|apply paced_panic].
    apply paced_bind; [apply paced_readdir|intros [names er]]. apply paced_bind; [|intro kids; tm].
    induction names as [|n names IHn]; [apply paced_ret|]. apply paced_bind; [apply H|intros [|]; [|exact IHn]]. apply paced_bind; [apply IH, H|intro]. apply paced_bind; [exact IHn|intro; apply paced_ret].
  Qed.
  Lemma paced_hash_item p : paced (hash_fs_item ds p).
  Proof. unfold hash_fs_item, fs_metadata, cache_get. tm. Qed.
  Lemma paced_get_item k : paced (get_fsitem ds k).
  Proof. unfold get_fsitem. tm. Qed.
  Hint Resolve paced_hash_item paced_get_item : paced.
  Lemma paced_walk_in f : forall k p, paced (internal_walk_fs_items ds f k p).
  Proof.
    induction f as [|f IH]; intros k p; cbn [internal_walk_fs_items]; [apply paced_diverge|]. apply paced_bind; [apply paced_get_item|intro i]. destruct (fi_type i); [|apply paced_ret].
    generalize (if is_empty_path p then [] else [(p, (k, true))]). induction (combine (fi_children i) (fi_names i)) as [|[c n] l IHl]; intro acc; [apply paced_ret|]. apply paced_bind; [apply IH|intro; apply IHl].
  Qed.
  Lemma paced_walk k : paced (walk_fs_items ds k).
  Proof. apply paced_walk_in. Qed.
  Hint Resolve paced_walk : paced.
  Lemma paced_real_in f : forall b p flt, (forall q, paced (flt q)) -> paced (internal_walk_real_fs_items f b p flt).
  Proof.
    induction f as [|f IH]; intros b p flt H; cbn [internal_walk_real_fs_items]; [apply paced_diverge|]. apply paced_bind; [unfold fs_metadata; tm|intros [|sz st|]]; [|apply paced_ret|apply paced_fail].
    apply paced_bind; [apply paced_readdir|intros [names er]]. apply paced_bind; [|intro; tm].
    generalize (if is_empty_path p then [] else [(p, true)]). induction names as [|n names IHn]; intro acc; [apply paced_ret|]. apply paced_bind; [apply H|intros [|]; [|apply IHn]]. apply paced_bind; [apply IH, H|intro; apply IHn].
  Qed.
  Lemma paced_index {A} (m : pmap A) p : paced (pm_index m p).
  Proof. unfold pm_index. tm. Qed.
  Hint Resolve @paced_index : paced.
  Lemma paced_compare t k : paced (compare ds t k).
  Proof.
    unfold compare. apply paced_bind; [destruct t as [p ex fo|k']|intro src].
    - apply paced_filtered. intros f H. apply paced_bind; [apply paced_real_in, H|intro; apply paced_ret].
    - tm.
    - tm.
  Qed.
  Hint Resolve paced_compare : paced.
  Lemma paced_keyed b l : paced (print_keyed b l).
  Proof. induction l as [|[p k] l IH]; cbn [print_keyed]; tm. Qed.
  Hint Resolve paced_keyed : paced.
  Lemma paced_diff r : paced (print_diff_result r).
  Proof. unfold print_diff_result, print_section. tm. Qed.
  Lemma paced_stats l : paced (print_stats l).
  Proof. induction l as [|x l IH]; cbn [print_stats]; tm. Qed.
  Hint Resolve paced_diff paced_stats : paced.
  Lemma paced_stat r : paced (print_stat_diff_result ds r).
  Proof. unfold print_stat_diff_result, line_stat, line_ct. tm. Qed.
  Lemma paced_patch r : paced (print_patch_diff_result ds r).
  Proof. unfold print_patch_diff_result, create_diff_patch_result, whole_file, patch_from_file_string. tm. Qed.
  Hint Resolve paced_stat paced_patch : paced.
  Lemma paced_read_out f k : paced (read_data ds stdout_write f k tt).
  Proof. apply paced_read_data. intros s b. apply paced_stdout. Qed.
  Hint Resolve paced_read_out : paced.
  Lemma paced_commit_of o : paced (commit_of_object o).
  Proof. unfold commit_of_object. tm. Qed.
  Hint Resolve paced_commit_of : paced.
  Lemma paced_display f : forall k kd, paced (display_obj ds f k kd).
  Proof. induction f as [|f IH]; intros k kd; cbn [display_obj]; tm. Qed.
  Hint Resolve paced_display : paced.
  Lemma paced_log_loop f : forall c kd, paced (log_loop ds f c kd).
  Proof. induction f as [|f IH]; intros c kd; cbn [log_loop]; tm. Qed.
  Hint Resolve paced_log_loop : paced.
  Lemma paced_log k kd : paced (log_obj ds k kd).
  Proof. unfold log_obj. tm. Qed.
  Hint Resolve paced_log : paced.
  Lemma paced_commit_key k : paced (commit_from_key ds k).
  Proof. unfold commit_from_key. tm. Qed.
  Lemma paced_commit_tree t ps a : paced (commit_tree ds t ps a).
  Proof. apply paced_put_obj. Qed.
  Hint Resolve paced_commit_key paced_commit_tree : paced.
  Lemma paced_lines l : paced (each_line l).
  Proof. induction l; cbn [each_line]; unfold writeln; tm. Qed.
  Lemma paced_keys l : paced (pretty_keys l).
  Proof. induction l; cbn [pretty_keys]; unfold writeln; tm. Qed.
  Hint Resolve paced_lines paced_keys : paced.
  Lemma paced_pretty o : paced (pretty_print o).
  Proof. unfold pretty_print, writeln. tm. Qed.
  Lemma paced_tree l : paced (print_tree l).
  Proof. induction l as [|[p [k d]] l IH]; cbn [print_tree]; tm. Qed.
  Lemma paced_fs_tree l : paced (print_fs_tree l).
  Proof. induction l as [|[p d] l IH]; cbn [print_fs_tree]; tm. Qed.
  Lemma paced_entries l : forall n, paced (print_entries n l).
  Proof. induction l as [|k l IH]; intro n; cbn [print_entries]; tm. Qed.
  Lemma paced_push r : paced (reflog_push ds r).
  Proof. cbn [reflog_push ds]. unfold sqlite_reflog_push. tm. Qed.
  Lemma paced_rwalk n rm : paced (reflog_walk ds n rm).
  Proof. cbn [reflog_walk ds]. unfold sqlite_reflog_walk. tm. Qed.
  Lemma paced_put_head n : paced (put_head ds n).
  Proof. unfold put_head. cbn [raw_put_state ds]. unfold sqlite_raw_put_state. tm. Qed.
  Lemma paced_get_head : paced (get_head ds).
  Proof. unfold get_head. cbn [raw_get_state ds]. unfold sqlite_raw_get_state. tm. Qed.
  Hint Resolve paced_pretty paced_tree paced_fs_tree paced_entries paced_push paced_rwalk paced_put_head paced_get_head : paced.

  Lemma paced_newest n rm : paced (reflog_get ds n rm).
  Proof. cbn [reflog_get ds]. unfold sqlite_reflog_get. tm. Qed.
  Hint Resolve paced_newest : paced.
  Lemma paced_canon k : paced (canonicalize ds k).
  Proof. destruct k; cbn [canonicalize raw_get raw_between ds]; unfold sqlite_raw_get, sqlite_raw_between, resolve_results; tm. Qed.
  Lemma paced_head_key : paced get_head_key.
  Proof. unfold get_head_key, head_or_fail. tm. Qed.
  Lemma paced_branch r : paced (refname_or_head r).
  Proof. unfold refname_or_head, head_or_fail. tm. Qed.
  Hint Resolve paced_canon paced_head_key paced_branch : paced.
  Ltac ctl := apply paced_op; cases.
  Lemma paced_commit : paced db_commit. Proof. ctl. Qed.
  Lemma paced_rollback : paced db_rollback. Proof. ctl. Qed.
  Lemma paced_ccommit : paced cache_commit. Proof. ctl. Qed.
  Lemma paced_crollback : paced cache_rollback. Proof. ctl. Qed.
  Hint Resolve paced_commit paced_rollback paced_ccommit paced_crollback : paced.
  Lemma paced_finish st r : paced (finish st r).
  Proof. unfold finish, ignore_on. tm. Qed.
End Pace.
