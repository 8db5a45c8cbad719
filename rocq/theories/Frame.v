(** Generic preservation: a relation between worlds that every primitive
    operation of a kind respects is respected by every function built from
    operations of that kind. *)
From Verif Require Import Base Key Keyish Object Path World Store File Filter Dir Diff Commit Main WorldFacts Pretty.
From Coq Require Import RelationClasses.

Section Classes.
  Context {E : Env}.
  (** Queries and output. *)
  Class RdPrims (R : world -> world -> Prop) := {
    rp_pre :> PreOrder R;
    rp_read : forall A (q : db -> A), rel R (db_read q);
    rp_print : forall t a, rel R (print t a);
    rp_stdout : forall d, rel R (write_stdout d);
    rp_fsq : forall A (q : fs -> loc -> option A), rel R (fs_query q);
    rp_readdir : forall p, rel R (fs_read_dir p);
    rp_openread : forall p, rel R (fs_open_read p)
  }.
  (** Queries only, output only. *)
  Class QuietPrims (R : world -> world -> Prop) := {
    qp_pre :> PreOrder R;
    qp_read : forall A (q : db -> A), rel R (db_read q);
    qp_fsq : forall A (q : fs -> loc -> option A), rel R (fs_query q);
    qp_readdir : forall p, rel R (fs_read_dir p);
    qp_openread : forall p, rel R (fs_open_read p)
  }.
  Class OutPrims (R : world -> world -> Prop) := {
    op_print : forall t a, rel R (print t a);
    op_stdout : forall d, rel R (write_stdout d)
  }.
  #[export] Instance rd_quiet R {P : RdPrims R} : QuietPrims R.
  Proof. destruct P. constructor; auto. Qed.
  #[export] Instance rd_out R {P : RdPrims R} : OutPrims R.
  Proof. destruct P. constructor; auto. Qed.
  (** Storing objects. *)
  Class PutPrims (R : world -> world -> Prop) := { pp_put : forall d, rel R (put sqlite_ds d) }.
  (** References. *)
  Class RefPrims (R : world -> world -> Prop) := {
    rf_head : forall h, rel R (put_head sqlite_ds h);
    rf_push : forall r, rel R (reflog_push sqlite_ds r)
  }.
  (** The file system. *)
  Class FsPrims (R : world -> world -> Prop) := {
    fp_mkdir : forall p, rel R (fs_create_dir_all p);
    fp_create_new : forall p, rel R (fs_create_new p);
    fp_write : forall l d, rel R (fs_write l d)
  }.
  (** Truncating and removing files. *)
  Class DelPrims (R : world -> world -> Prop) := {
    fp_create : forall p, rel R (fs_create p);
    fp_rmfile : forall p, rel R (fs_remove_file p);
    fp_rmdir : forall p, rel R (fs_remove_dir_all p)
  }.
  (** The hash cache. *)
  Class CachePrims (R : world -> world -> Prop) := {
    cp_read : forall A (q : list (bytes * bytes) -> A), rel R (cache_read q);
    cp_put : forall c k, rel R (cache_put c k)
  }.
  (** Opening databases. *)
  Class OpenPrims (R : world -> world -> Prop) := {
    pc_open : forall p, rel R (l <- sqlite_open p ;; connect l);
    pc_open_init : forall p h, rel R (l <- sqlite_open p ;;
                     db_write_at l (upd_state (insert_or_replace (str "HEAD") h)))
  }.
  (** Start and end of a process. *)
  Class ProcPrims (R : world -> world -> Prop) := {
    pc_mkdir : forall p, rel R (fs_create_dir_all p);
    pc_begin : rel R db_begin;
    pc_commit : rel R db_commit;
    pc_rollback : rel R db_rollback;
    pc_cache_new : rel R cache_new;
    pc_cache_reset : rel R (fun w => (Done tt, set_cache w []));
    pc_cache_begin : rel R cache_begin;
    pc_cache_commit : rel R cache_commit;
    pc_cache_rollback : rel R cache_rollback
  }.
End Classes.

#[export] Hint Resolve qp_read op_print op_stdout qp_fsq qp_readdir qp_openread pp_put rf_head rf_push
  fp_mkdir fp_create_new fp_create fp_write fp_rmfile fp_rmdir cp_read cp_put
  pc_open pc_open_init pc_mkdir pc_begin pc_commit pc_rollback pc_cache_new pc_cache_reset pc_cache_begin
  pc_cache_commit pc_cache_rollback : rel.

Section Frame.
  Context {E : Env} (R : world -> world -> Prop).

  Lemma rel_mapM {PO : PreOrder R} {A B} (f : A -> M B) l : (forall a, rel R (f a)) -> rel R (mapM f l).
  Proof. intro H. induction l as [|x l IH]; cbn; rel_tac. Qed.

  Lemma rel_bind_assoc {A B C} (m : M A) (f : A -> M B) (g : B -> M C) :
    rel R (bind m (fun a => bind (f a) g)) -> rel R (bind (bind m f) g).
  Proof. intros H w. rewrite bind_assoc. apply H. Qed.
  Lemma rel_bind_ret {A B} (a : A) (g : A -> M B) : rel R (g a) -> rel R (bind (ret a) g).
  Proof. intros H w. apply H. Qed.

    Context {PR : QuietPrims R} {PU : OutPrims R}.
    Lemma rel_raw_get k : rel R (raw_get sqlite_ds k).
    Proof. cbn. unfold sqlite_raw_get. rel_tac. Qed.
    Lemma rel_get_obj k : rel R (get_obj sqlite_ds k).
    Proof. unfold get_obj, get. cbn. unfold sqlite_raw_get. rel_tac. Qed.
    Lemma rel_raw_exists k : rel R (raw_exists sqlite_ds k).
    Proof. cbn. unfold sqlite_raw_exists. rel_tac. Qed.
    Lemma rel_reflog_get n r : rel R (reflog_get sqlite_ds n r).
    Proof. cbn. unfold sqlite_reflog_get. rel_tac. Qed.
    Lemma rel_reflog_walk n r : rel R (reflog_walk sqlite_ds n r).
    Proof. cbn. unfold sqlite_reflog_walk. rel_tac. Qed.
    Lemma rel_raw_between s e : rel R (raw_between sqlite_ds s e).
    Proof. cbn. unfold sqlite_raw_between. rel_tac. Qed.
    Lemma rel_get_head : rel R (get_head sqlite_ds).
    Proof. unfold get_head. cbn. unfold sqlite_raw_get_state. rel_tac. Qed.
    Hint Resolve rel_raw_get rel_get_obj rel_reflog_get rel_reflog_walk rel_raw_between rel_get_head : rel.
    Lemma rel_canonicalize k : rel R (canonicalize sqlite_ds k).
    Proof. unfold canonicalize, resolve_results. rel_tac. Qed.
    Hint Resolve rel_canonicalize : rel.
    Lemma rel_read_data {S} (wr : S -> bytes -> M S) (Hwr : forall s d, rel R (wr s d)) fuel :
      forall k s, rel R (read_data sqlite_ds wr fuel k s).
    Proof.
      induction fuel as [|f IH]; intros k s; cbn; rel_tac.
      - generalize s. induction (o_keys a) as [|k' r IH2]; intro s0; rel_tac. 
    Qed.
    Lemma rel_get_fsitem k : rel R (get_fsitem sqlite_ds k).
    Proof. unfold get_fsitem. rel_tac. Qed.
    Hint Resolve rel_get_fsitem : rel.
    Lemma rel_metadata p : rel R (fs_metadata p).
    Proof. unfold fs_metadata. rel_tac. Qed.
    Hint Resolve rel_metadata : rel.
    Lemma rel_exists p : rel R (fs_exists p).
    Proof. unfold fs_exists. rel_tac. Qed.
    Lemma rel_canon p : rel R (fs_canonicalize p).
    Proof. unfold fs_canonicalize. rel_tac. Qed.
    Hint Resolve rel_exists rel_canon : rel.
    Lemma rel_filter_fn ex d p : rel R (filter_fn ex d p).
    Proof. unfold filter_fn. rel_tac. Qed.
    Hint Resolve rel_filter_fn : rel.
    Lemma rel_make_filter_fn {A} ex d (k : (path -> M bool) -> M A) :
      (forall f, (forall p, rel R (f p)) -> rel R (k f)) -> rel R (bind (make_filter_fn ex d) k).
    Proof.
      intro H. unfold make_filter_fn. destruct (forallb glob_valid ex).
      - intro w. unfold bind, ret. apply H. intro. apply rel_filter_fn.
      - intro w. cbn. reflexivity.
    Qed.
    Lemma rel_walk_fs fuel : forall k p, rel R (internal_walk_fs_items sqlite_ds fuel k p).
    Proof.
      induction fuel as [|f IH]; intros k p; cbn; rel_tac.
      generalize (if is_empty_path p then [] else [(p, (k, true))]).
      induction (combine (fi_children a) (fi_names a)) as [|[c n] l IH2]; intro acc; rel_tac. 
    Qed.
    Lemma rel_walk_fs_items k : rel R (walk_fs_items sqlite_ds k).
    Proof. apply rel_walk_fs. Qed.
    Lemma rel_walk_real fuel f (Hf : forall p, rel R (f p)) : forall b p, rel R (internal_walk_real_fs_items fuel b p f).
    Proof.
      induction fuel as [|g IH]; intros b p; cbn; rel_tac.
      generalize (if is_empty_path p then [] else [(p, true)]).
      induction l as [|n l IH2]; intro acc; rel_tac; apply IH2.
    Qed.
    Lemma rel_walk_real_fs_items b f (Hf : forall p, rel R (f p)) : rel R (walk_real_fs_items b f).
    Proof. apply rel_walk_real, Hf. Qed.
    Lemma rel_pm_index {A} (m : pmap A) p : rel R (pm_index m p).
    Proof. unfold pm_index. rel_tac. Qed.
    Hint Resolve rel_walk_fs_items rel_pm_index : rel.
    Lemma rel_compare_db k to : rel R (compare sqlite_ds (TDatabase k) to).
    Proof.
      unfold compare. apply rel_bind_assoc, rel_bind; [exact _|rel_tac|intro m]. apply rel_bind_ret.
      rel_tac; (apply rel_mapM; intro; rel_tac).
    Qed.
    Lemma rel_commit_of_object o : rel R (commit_of_object o).
    Proof. unfold commit_of_object. rel_tac. Qed.
    Hint Resolve rel_commit_of_object rel_compare_db : rel.
    Lemma rel_commit_from_key k : rel R (commit_from_key sqlite_ds k).
    Proof. unfold commit_from_key. rel_tac. Qed.
    Hint Resolve rel_commit_from_key : rel.
    Lemma rel_print_keyed b l : rel R (print_keyed b l).
    Proof. induction l as [|[p k] l IH]; cbn; rel_tac. Qed.
    Hint Resolve rel_print_keyed : rel.
    Lemma rel_print_diff_result r : rel R (print_diff_result r).
    Proof. unfold print_diff_result, print_section. rel_tac. Qed.
    Lemma rel_read_vec k : rel R (read_vec sqlite_ds k).
    Proof.
      unfold read_vec. apply rel_unwrap, rel_read_data. intros s d. unfold vec_write. rel_tac.
    Qed.
    Hint Resolve rel_read_vec rel_print_diff_result : rel.
    Lemma rel_line_ct k : rel R (line_ct sqlite_ds k).
    Proof. unfold line_ct. rel_tac. Qed.
    Hint Resolve rel_line_ct : rel.
    Lemma rel_line_stat r : rel R (line_stat sqlite_ds r).
    Proof. unfold line_stat. rel_tac; (apply rel_mapM; intro; rel_tac). Qed.
    Hint Resolve rel_line_stat : rel.
    Lemma rel_print_stats l : rel R (print_stats l).
    Proof. induction l as [|s l IH]; cbn; rel_tac. Qed.
    Hint Resolve rel_print_stats : rel.
    Lemma rel_print_stat_diff_result r : rel R (print_stat_diff_result sqlite_ds r).
    Proof. unfold print_stat_diff_result. rel_tac. Qed.
    Lemma rel_whole_file d p k mk b : rel R (whole_file sqlite_ds d p k mk b).
    Proof. unfold whole_file. rel_tac. Qed.
    Lemma rel_patch_from b a p : rel R (patch_from_file_string b a p).
    Proof. unfold patch_from_file_string. rel_tac. Qed.
    Hint Resolve rel_whole_file rel_patch_from rel_print_stat_diff_result : rel.
    Lemma rel_create_diff_patch_result r : rel R (create_diff_patch_result sqlite_ds r).
    Proof. unfold create_diff_patch_result. rel_tac; (apply rel_mapM; intro; rel_tac). Qed.
    Hint Resolve rel_create_diff_patch_result : rel.
    Lemma rel_print_patch_diff_result r : rel R (print_patch_diff_result sqlite_ds r).
    Proof. unfold print_patch_diff_result. rel_tac. Qed.
    Hint Resolve rel_print_patch_diff_result : rel.
    Lemma rel_display_obj fuel : forall k kd, rel R (display_obj sqlite_ds fuel k kd).
    Proof.
      induction fuel as [|f IH]; intros k kd; cbn [display_obj]; rel_tac.
      all: apply rel_read_data; intros s d; unfold stdout_write; rel_tac.
    Qed.
    Hint Resolve rel_display_obj : rel.
    Lemma rel_log_loop fuel : forall c kd, rel R (log_loop sqlite_ds fuel c kd).
    Proof. induction fuel as [|f IH]; intros c kd; cbn [log_loop]; rel_tac. Qed.
    Hint Resolve rel_log_loop : rel.
    Lemma rel_log_obj k kd : rel R (log_obj sqlite_ds k kd).
    Proof. unfold log_obj. rel_tac. Qed.
    Lemma rel_print_entries n l : rel R (print_entries n l).
    Proof. revert n. induction l as [|k l IH]; intro n; cbn; rel_tac. Qed.
    Lemma rel_print_tree l : rel R (print_tree l).
    Proof. induction l as [|[p [k d]] l IH]; cbn; rel_tac. Qed.
    Lemma rel_print_fs_tree l : rel R (print_fs_tree l).
    Proof. induction l as [|[p d] l IH]; cbn; rel_tac. Qed.
    Lemma rel_head_or_fail : rel R head_or_fail.
    Proof. unfold head_or_fail. rel_tac. Qed.
    Hint Resolve rel_log_obj rel_print_entries rel_print_tree rel_print_fs_tree rel_head_or_fail : rel.
    Lemma rel_refname_or_head r : rel R (refname_or_head r).
    Proof. unfold refname_or_head. rel_tac. Qed.
    Lemma rel_get_head_key : rel R get_head_key.
    Proof. unfold get_head_key. rel_tac. Qed.
    Hint Resolve rel_refname_or_head rel_get_head_key : rel.
    Lemma rel_key_or_head k : rel R (key_or_head k).
    Proof. unfold key_or_head. rel_tac. Qed.
    Hint Resolve rel_key_or_head : rel.
    Lemma rel_cmd_ref_log n r : rel R (cmd_ref_log n r).
    Proof. unfold cmd_ref_log. rel_tac. Qed.
    Lemma rel_cmd_walk_tree k : rel R (cmd_walk_tree k).
    Proof. unfold cmd_walk_tree. rel_tac. Qed.
    Lemma rel_cmd_walk_fs_tree p : rel R (cmd_walk_fs_tree p).
    Proof. unfold cmd_walk_fs_tree. rel_tac. apply rel_walk_real_fs_items. intro. rel_tac. Qed.
    Lemma rel_each_line l : rel R (each_line l).
    Proof. induction l as [|x l IH]; cbn; unfold writeln; rel_tac. Qed.
    Lemma rel_pretty_keys l : rel R (pretty_keys l).
    Proof. induction l as [|x l IH]; cbn; unfold writeln; rel_tac. Qed.
    Hint Resolve rel_each_line rel_pretty_keys : rel.
    Lemma rel_pretty_print o : rel R (pretty_print o).
    Proof. unfold pretty_print, writeln. rel_tac. Qed.
    Hint Resolve rel_pretty_print : rel.
    Lemma rel_cmd_pretty_print k : rel R (cmd_pretty_print k).
    Proof. unfold cmd_pretty_print. rel_tac. Qed.
    Lemma rel_cmd_reflog_get n r : rel R (cmd_reflog_get n r).
    Proof. unfold cmd_reflog_get. rel_tac. Qed.
    Lemma rel_cmd_get_head : rel R cmd_get_head.
    Proof. unfold cmd_get_head. rel_tac. Qed.
    Lemma rel_cmd_show k : rel R (cmd_show k).
    Proof. unfold cmd_show. rel_tac. Qed.
    Lemma rel_cmd_log k : rel R (cmd_log k).
    Proof. unfold cmd_log. rel_tac. Qed.
    Lemma rel_find_in n l : rel R (find_in n l).
    Proof. induction l as [|d l IH]; cbn; rel_tac. Qed.
    Lemma rel_find_db_folder n : rel R (find_db_folder n).
    Proof. unfold find_db_folder, fs_current_dir. rel_tac. apply rel_find_in. Qed.

    Context {PP : PutPrims R}.
    Hint Resolve rel_get_obj rel_metadata rel_filter_fn rel_reflog_get rel_pm_index rel_walk_fs_items : rel.
    Lemma rel_put_obj o : rel R (put_obj sqlite_ds o).
    Proof. unfold put_obj. rel_tac. Qed.
    Hint Resolve rel_put_obj : rel.
    Lemma rel_put_tree l : rel R (put_tree sqlite_ds l).
    Proof. unfold put_tree. rel_tac. Qed.
    Lemma rel_put_blob l : rel R (put_blob sqlite_ds l).
    Proof. unfold put_blob. rel_tac. Qed.
    Hint Resolve rel_put_tree rel_put_blob : rel.
    Lemma rel_cascade l z : forall kb, rel R (cascade sqlite_ds l z kb).
    Proof. induction l as [|o l IH]; intro kb; cbn [cascade]; rel_tac. Qed.
    Hint Resolve rel_cascade : rel.
    Lemma rel_cut st b : rel R (cut sqlite_ds st b).
    Proof. unfold cut. rel_tac. Qed.
    Hint Resolve rel_cut : rel.
    Lemma rel_pd_loop fuel : forall st r, rel R (pd_loop sqlite_ds fuel st r).
    Proof.
      induction fuel as [|f IH]; intros st r; cbn [pd_loop]; [rel_tac|].
      destruct (next_match _ _ _) as [m h]. cbv zeta. rel_tac.
    Qed.
    Hint Resolve rel_pd_loop : rel.
    Lemma rel_fold_levels l : forall kb, rel R (fold_levels sqlite_ds l kb).
    Proof. induction l as [|o l IH]; intro kb; cbn [fold_levels]; rel_tac. Qed.
    Hint Resolve rel_fold_levels : rel.
    Lemma rel_pd_finish st : rel R (pd_finish sqlite_ds st).
    Proof. unfold pd_finish. rel_tac. Qed.
    Hint Resolve rel_pd_finish : rel.
    Lemma rel_put_data r : rel R (put_data sqlite_ds r).
    Proof. unfold put_data. rel_tac. Qed.
    Hint Resolve rel_put_data : rel.
    Lemma rel_put_item i : rel R (put_item sqlite_ds i).
    Proof. unfold put_item. rel_tac. Qed.
    Hint Resolve rel_put_item : rel.
    Lemma rel_put_fs_item fuel f (Hf : forall p, rel R (f p)) : forall p, rel R (put_fs_item sqlite_ds fuel p f).
    Proof.
      induction fuel as [|g IH]; intro p; cbn [put_fs_item]; rel_tac.
      induction l as [|n l IH2]; rel_tac.
    Qed.
    Lemma rel_commit_tree t ps a : rel R (commit_tree sqlite_ds t ps a).
    Proof. unfold commit_tree. rel_tac. Qed.
    Lemma rel_cmd_insert cm s p : rel R (cmd_insert cm s p).
    Proof.
      unfold cmd_insert. apply rel_make_filter_fn. intros f Hf. rel_tac. apply rel_put_fs_item, Hf.
    Qed.
    Lemma rel_cmd_commit_tree t ps : rel R (cmd_commit_tree t ps).
    Proof.
      unfold cmd_commit_tree. rel_tac.
      all: first [apply rel_canonicalize | apply rel_commit_tree | apply rel_mapM; intro; apply rel_canonicalize].
    Qed.
    Context {RF : RefPrims R}.
    Lemma rel_cmd_commit cm s p m r : rel R (cmd_commit cm s p m r).
    Proof.
      unfold cmd_commit. apply rel_make_filter_fn. intros f Hf. rel_tac.
      all: first [apply rel_refname_or_head | apply rel_put_fs_item, Hf | apply rel_commit_tree].
    Qed.
      Context {PC : CachePrims R}.
      Lemma rel_hash_fs_item p : rel R (hash_fs_item sqlite_ds p).
      Proof. unfold hash_fs_item, cache_get. rel_tac. Qed.
      Hint Resolve rel_hash_fs_item : rel.
      Lemma rel_compare from to : rel R (compare sqlite_ds from to).
      Proof.
        destruct from as [p ex fo|k]; [|apply rel_compare_db].
        unfold compare. apply rel_bind; [exact _| |intro].
        - apply rel_make_filter_fn. intros f Hf. rel_tac. apply rel_walk_real_fs_items, Hf.
        - rel_tac; (apply rel_mapM; intro; rel_tac).
      Qed.
      Hint Resolve rel_compare : rel.
      Lemma rel_cmd_compare cm s p k b : rel R (cmd_compare cm s p k b).
      Proof.
        unfold cmd_compare. rel_tac.
        all: first [apply rel_canonicalize | apply rel_get_head_key | apply rel_commit_from_key
                   | apply rel_print_stat_diff_result | apply rel_print_diff_result].
      Qed.
      Lemma rel_cmd_status cm s : rel R (cmd_status cm s).
      Proof.
        unfold cmd_status. rel_tac.
        all: first [apply rel_head_or_fail | apply rel_commit_from_key | apply rel_print_diff_result].
      Qed.
      Lemma rel_cmd_checkout_head cm s n : rel R (cmd_checkout_head cm s n).
      Proof.
        unfold cmd_checkout_head. rel_tac.
        all: first [apply rel_head_or_fail | apply rel_commit_from_key | apply rel_print_diff_result].
      Qed.

    
    Lemma rel_cmd_ref_update k n : rel R (cmd_ref_update k n).
    Proof. unfold cmd_ref_update. rel_tac; first [apply rel_canonicalize | apply rel_refname_or_head]. Qed.
    Lemma rel_cmd_reflog_push k n r : rel R (cmd_reflog_push k n r).
    Proof. unfold cmd_reflog_push. rel_tac; try apply rel_canonicalize. Qed.
    Lemma rel_cmd_set_head n : rel R (cmd_set_head n).
    Proof. unfold cmd_set_head. rel_tac. Qed.

    Context {PF : FsPrims R}.
    Hint Resolve rel_get_fsitem rel_metadata : rel.
    Lemma rel_write_item_data fuel i l : rel R (write_item_data sqlite_ds fuel i l).
    Proof. unfold write_item_data. rel_tac; try apply rel_read_data. intros s d. unfold file_write. rel_tac. Qed.
    Hint Resolve rel_write_item_data : rel.
    Lemma rel_get_fs_item fuel : forall k p, rel R (get_fs_item sqlite_ds fuel k p).
    Proof.
      induction fuel as [|f IH]; intros k p; cbn [get_fs_item]; rel_tac.
      induction (combine (fi_children a) (fi_names a)) as [|[c n] l IH2]; rel_tac.
    Qed.
    Lemma rel_cmd_fetch k p : rel R (cmd_fetch k p).
    Proof. unfold cmd_fetch. rel_tac; first [apply rel_canonicalize | apply rel_get_fs_item]. Qed.
    Context {PD : DelPrims R}.
    Lemma rel_filter_names p f (Hf : forall q, rel R (f q)) l : rel R (filter_names p f l).
    Proof. induction l as [|n l IH]; cbn; rel_tac. Qed.
    Lemma rel_remove_extra p l : rel R (remove_extra p l).
    Proof. induction l as [|n l IH]; cbn [remove_extra]; rel_tac. Qed.
    Hint Resolve rel_remove_extra : rel.
    Lemma rel_checkout_fs_item fuel f (Hf : forall q, rel R (f q)) : forall k p, rel R (checkout_fs_item sqlite_ds fuel k p f).
    Proof.
      induction fuel as [|g IH]; intros k p; cbn [checkout_fs_item]; rel_tac.
      - apply rel_filter_names, Hf.
      - induction (combine (fi_children a) (fi_names a)) as [|[c n] m IH2]; rel_tac.
    Qed.
    Lemma rel_cmd_checkout cm s : rel R (cmd_checkout cm s).
    Proof.
      unfold cmd_checkout. apply rel_bind; [exact _|rel_tac|intro].
      apply rel_make_filter_fn. intros f Hf. rel_tac; try (apply rel_checkout_fs_item, Hf).
    Qed.

    Context {PX : ProcPrims R} {PN : OpenPrims R}.
    (** Every command but [checkout]. *)
    Lemma rel_run_command_nc cm st c : c <> CCheckout -> rel R (run_command cm st c).
    Proof.
      intro NC. destruct c; cbn [run_command];
        try match goal with |- rel _ (with_ds _ _) => unfold with_ds; destruct st as [s|]; [|rel_tac] end.
      - apply rel_cmd_insert.
      - apply rel_cmd_commit.
      - apply rel_cmd_fetch.
      - apply rel_cmd_pretty_print.
      - apply rel_cmd_commit_tree.
      - apply rel_cmd_reflog_get.
      - apply rel_cmd_reflog_push.
      - apply rel_cmd_walk_tree.
      - apply rel_cmd_walk_fs_tree.
      - apply rel_cmd_set_head.
      - apply rel_cmd_get_head.
      - unfold cmd_init. rel_tac.
      - apply rel_cmd_show.
      - apply rel_cmd_log.
      - apply rel_cmd_compare.
      - apply rel_cmd_status.
      - congruence.
      - apply rel_cmd_checkout_head.
      - apply rel_cmd_ref_log.
      - apply rel_cmd_ref_update.
    Qed.
    Lemma rel_open_repo cm : rel R (open_repo cm).
    Proof.
unfold open_repo. apply rel_bind; [exact _|apply rel_find_db_folder|intros [p|]; [|rel_tac]].
      destruct (parent p) as [p0|]; [|rel_tac].
      intro w. pose proof (rel_bind R _ (fun _ : unit => ret (Some (DsState p p0))) (pc_open (R := R) (join_name p snapcd_db)) ltac:(intro; apply rel_ret; exact _) w) as H.
      rewrite bind_assoc in H. exact H.
    Qed.
    Lemma rel_open_cache : rel R open_cache.
    Proof. unfold open_cache. rel_tac. Qed.
    Lemma rel_ignore_on st m : rel R m -> rel R (ignore_on st m).
    Proof. intro H. unfold ignore_on. rel_tac. Qed.
    Lemma rel_main_rest cm st c : rel R (run_command cm st c) -> rel R (main_rest cm st c).
    Proof.
      intro HC. unfold main_rest.
      apply rel_bind; [exact _|apply rel_open_cache|intros _].
      apply rel_bind; [exact _|apply rel_ignore_on; rel_tac|intros _].
      apply rel_bind; [exact _|rel_tac|intros _].
      apply rel_bind; [exact _|apply rel_try, HC|intros r].
      destruct r; repeat (first [apply rel_bind; [exact _| |intros _] | apply rel_ignore_on | rel_step]).
    Qed.
    Lemma rel_main_of cm c : (forall st, rel R (run_command cm st c)) -> rel R (main cm c).
    Proof.
      intro HC. unfold main. apply rel_bind; [exact _|apply rel_open_repo|intro st]. apply rel_main_rest, HC.
    Qed.
    Lemma rel_run_command cm st c : rel R (run_command cm st c).
    Proof.
      destruct c; try (apply rel_run_command_nc; congruence).
      cbn [run_command]. unfold with_ds. destruct st as [s|]; [|rel_tac]. apply rel_cmd_checkout.
    Qed.
    Lemma rel_main cm c : rel R (main cm c).
    Proof. apply rel_main_of. intro. apply rel_run_command. Qed.
End Frame.
