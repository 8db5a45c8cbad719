(** Every command is a sequence of statements: the program of a process cut into
    the steps of [Lock]. *)
From Verif Require Import Base Key Keyish Object Path World Store File Filter Dir Diff Commit Main WorldFacts Lock SpecLock LockFacts Pretty.

(** ** What does not touch the database *)
Lemma local_ext {A} (m m' : M A) : (forall w, m w = m' w) -> local m -> local m'.
Proof.
  intros H [L1 L2]. split; [intros d w|intro w]; rewrite <- !H; auto.
Qed.
Lemma local_ret {A} (a : A) : local (ret a). Proof. split; intros; cbn; auto. Qed.
Lemma local_fail {A} e : local (@fail A e). Proof. split; intros; cbn; auto. Qed.
Lemma local_panic {A} e : local (@panic_with A e). Proof. split; intros; cbn; auto. Qed.
Lemma local_diverge {A} : local (@diverge A). Proof. split; intros; cbn; auto. Qed.
Lemma local_bind {A B} (m : M A) (f : A -> M B) : local m -> (forall a, local (f a)) -> local (bind m f).
Proof.
  intros [L1 L2] H. split; [intros d w|intro w]; unfold bind.
  - rewrite L1. destruct (m w) as [[a|e|p| |] w1]; cbn; try reflexivity. apply (proj1 (H a)).
  - specialize (L2 w). destruct (m w) as [[a|e|p| |] w1]; cbn in *; auto.
    destruct (proj2 (H a) w1) as (X & Y & Z). destruct L2 as (X1 & Y1 & Z1). rewrite X, Y, Z. auto.
Qed.
Lemma local_try {A} (m : M A) : local m -> local (try m).
Proof.
  intros [L1 L2]. split; [intros d w|intro w]; unfold try.
  - rewrite L1. destruct (m w) as [[a|e|p| |] w1]; reflexivity.
  - specialize (L2 w). destruct (m w) as [[a|e|p| |] w1]; exact L2.
Qed.
Lemma local_unwrap {A} (m : M A) : local m -> local (unwrap m).
Proof.
  intros [L1 L2]. split; [intros d w|intro w]; unfold unwrap.
  - rewrite L1. destruct (m w) as [[a|e|p| |] w1]; reflexivity.
  - specialize (L2 w). destruct (m w) as [[a|e|p| |] w1]; exact L2.
Qed.
Lemma local_op {A} (eff : fault -> M A) : (forall f, local (eff f)) -> local (op eff).
Proof.
  intro H. split; [intros d w|intro w]; rewrite !op_next.
  - rewrite next_with_db, popped_with_db. apply (proj1 (H _)).
  - apply (proj2 (H (next_fault w)) (popped w)).
Qed.

(** ** Putting steps together *)
Definition script_ext c {A} (m m' : M A) (H : forall w, m w = m' w) (s : script c m) : script c m'.
Proof.
  destruct s as [m L|m B s k HC HE HK].
  - apply ScEnd. eapply local_ext; eauto.
  - apply (ScStep c m' B s k); auto. intro w. rewrite <- H. apply HE.
Defined.
Definition script_local c {A} (m : M A) (L : local m) : script c m := ScEnd c m L.
Definition script_stmt c {A} (s : stmt A) (H : is_ctl s = true -> c = true) : script c (exec s).
Proof.
  apply (ScStep c _ A s (fun r => match r with Ok a => ret a | Err e => fail e end)); [exact H| |].
  - intro w. unfold bind, try. destruct (exec s w) as [[a|e|p| |] w1]; reflexivity.
  - intros [a|e]; apply ScEnd; [apply local_ret|apply local_fail].
Defined.
Definition script_bind c {A B} (m : M A) (f : A -> M B) (s : script c m) (H : forall a, script c (f a)) :
  script c (bind m f).
Proof.
  induction s as [m L|m X s k HC HE HK IH].
  - apply (ScStep c _ A (SLocal m L) (fun r => match r with Ok a => f a | Err e => fail e end)); [discriminate| |].
    + intro w. cbn. unfold bind, try. destruct (m w) as [[a|e|p| |] w1]; reflexivity.
    + intros [a|e]; [apply H|apply ScEnd, local_fail].
  - apply (ScStep c _ X s (fun r => bind (k r) f)); [exact HC| |].
    + intro w. unfold bind at 1. rewrite HE. unfold bind. destruct (try (exec s) w) as [[a|e|p| |] w1]; reflexivity.
    + intro r. apply IH.
Defined.
Definition script_try c {A} (m : M A) (s : script c m) : script c (try m).
Proof.
  induction s as [m L|m X s k HC HE HK IH].
  - apply ScEnd, local_try, L.
  - apply (ScStep c _ X s (fun r => try (k r))); [exact HC| |].
    + intro w. unfold try at 1. rewrite HE. unfold bind. destruct (try (exec s) w) as [[a|e|p| |] w1] eqn:T; try reflexivity.
      exfalso. unfold try in T. destruct (exec s w) as [[a'|e'|p'| |] w1']; discriminate.
    + intro r. apply IH.
Defined.
Definition script_unwrap c {A} (m : M A) (s : script c m) : script c (unwrap m).
Proof.
  induction s as [m L|m X s k HC HE HK IH].
  - apply ScEnd, local_unwrap, L.
  - apply (ScStep c _ X s (fun r => unwrap (k r))); [exact HC| |].
    + intro w. unfold unwrap at 1. rewrite HE. unfold bind. destruct (try (exec s) w) as [[a|e|p| |] w1] eqn:T; try reflexivity.
      exfalso. unfold try in T. destruct (exec s w) as [[a'|e'|p'| |] w1']; discriminate.
    + intro r. apply IH.
Defined.
Definition script_ctl {A} (m : M A) (s : script false m) : script true m.
Proof.
  induction s as [m L|m X s k HC HE HK IH]; [apply ScEnd, L|].
  apply (ScStep true _ X s k); auto.
Defined.

Create HintDb script.
Ltac local_step :=
  first
    [ apply local_ret | apply local_fail | apply local_panic | apply local_diverge
    | apply local_bind; [|intro] | apply local_try | apply local_unwrap | apply local_op; intro
    | match goal with
      | |- local (match ?x with _ => _ end) => destruct x
      | |- local (let _ := _ in _) => cbv zeta
      end ].
Ltac script_step :=
  first
    [ assumption
    | solve [eauto 4 with script nocore]
    | apply script_local; first [apply local_ret | apply local_fail | apply local_panic | apply local_diverge
                                | solve [repeat local_step]]
    | apply script_bind; [|intro]
    | apply script_try | apply script_unwrap
    | match goal with
      | |- script _ (match ?x with _ => _ end) => destruct x
      | |- script _ (let _ := _ in _) => cbv zeta
      end ].
Ltac script_tac := repeat script_step.

(** ** The primitives *)
Section Prims.
  Context {E : Env}.
  Ltac prim :=
    apply local_op; intro;
    split; [intros dd w|intro w]; cbn -[with_db stat lookup children segment read_sizes set_fs];
    repeat match goal with |- context [match ?x with _ => _ end] => destruct x end; auto.
  Lemma local_print t a : local (print t a). Proof. prim. Qed.
  Lemma local_stdout d : local (write_stdout d). Proof. prim. Qed.
  Lemma local_fsq A (q : fs -> loc -> option A) : local (fs_query q).
  Proof.
    apply local_op. intro f. split; [intros dd w|intro w].
    - change (w_fs (with_db dd w)) with (w_fs w). change (w_cwd (with_db dd w)) with (w_cwd w).
      destruct f; try reflexivity. destruct (q (w_fs w) (w_cwd w)); reflexivity.
    - destruct f; cbn; auto. destruct (q (w_fs w) (w_cwd w)); cbn; auto.
  Qed.
  Lemma local_readdir p : local (fs_read_dir p).
  Proof.
    apply local_op. intro f. split; [intros dd w|intro w].
    - change (w_fs (with_db dd w)) with (w_fs w). change (w_cwd (with_db dd w)) with (w_cwd w).
      destruct (stat (w_fs w) (w_cwd w) p) as [[l []]|]; destruct f as [|[]| |]; reflexivity.
    - destruct (stat (w_fs w) (w_cwd w) p) as [[l []]|]; destruct f as [|[]| |]; cbn; auto.
  Qed.
  Lemma local_openread p : local (fs_open_read p).
  Proof.
    apply local_op. intro f. split; [intros dd w|intro w].
    - change (w_fs (with_db dd w)) with (w_fs w). change (w_cwd (with_db dd w)) with (w_cwd w).
      change (w_tick (with_db dd w)) with (w_tick w).
      destruct (stat (w_fs w) (w_cwd w) p) as [[l []]|]; destruct f as [|[]| |]; reflexivity.
    - destruct (stat (w_fs w) (w_cwd w) p) as [[l []]|]; destruct f as [|[]| |]; cbn; auto.
  Qed.
  Lemma local_change {A} (full : fs -> loc -> nat -> option (A * fs)) part : local (fs_change full part).
  Proof.
    apply local_op. intro f. split; [intros dd w|intro w].
    - change (w_fs (with_db dd w)) with (w_fs w). change (w_cwd (with_db dd w)) with (w_cwd w).
      change (w_tick (with_db dd w)) with (w_tick w).
      destruct (full (w_fs w) (w_cwd w) (w_tick w)) as [[a f']|]; destruct f as [|[]| |]; reflexivity.
    - destruct (full (w_fs w) (w_cwd w) (w_tick w)) as [[a f']|]; destruct f as [|[]| |]; cbn; auto.
  Qed.
  Lemma local_mkdir p : local (fs_create_dir_all p).
  Proof. unfold fs_create_dir_all. destruct (is_empty_path p); [apply local_ret|apply local_change]. Qed.
  Lemma local_create_new p : local (fs_create_new p). Proof. apply local_change. Qed.
  Lemma local_create p : local (fs_create p). Proof. apply local_change. Qed.
  Lemma local_write l d : local (fs_write l d). Proof. apply local_change. Qed.
  Lemma local_rmfile p : local (fs_remove_file p). Proof. apply local_change. Qed.
  Lemma local_rmdir p : local (fs_remove_dir_all p). Proof. apply local_change. Qed.
  Lemma local_cache_read A (q : list (bytes * bytes) -> A) : local (cache_read q).
  Proof. apply local_op. intro f. split; [intros dd w|intro w]; destruct f; cbn; auto. Qed.
  Lemma local_cache_write u : local (cache_write u).
  Proof.
    apply local_op. intro f. split; [intros dd w|intro w]; destruct f as [| | |[]]; cbn; auto;
      unfold put_cache; cbn; destruct (w_ctxn w); cbn; auto.
  Qed.
  Lemma local_cache_begin : local cache_begin.
  Proof.
    apply local_op. intro f. split; [intros dd w|intro w]; destruct f as [| | |[]]; cbn; auto;
      destruct (w_ctxn w); cbn; auto.
  Qed.
  Lemma local_cache_commit : local cache_commit.
  Proof.
    apply local_op. intro f. split; [intros dd w|intro w]; destruct f as [| | |[]]; cbn; auto;
      unfold cache_commit_now; cbn; destruct (w_ctxn w); cbn; auto.
  Qed.
  Lemma local_cache_rollback : local cache_rollback.
  Proof.
    apply local_op. intro f. split; [intros dd w|intro w]; destruct f as [| | |[]]; cbn; auto;
      destruct (w_ctxn w); cbn; auto.
  Qed.
  Lemma local_cache_new : local cache_new.
  Proof. apply local_op. intro f. split; [intros dd w|intro w]; destruct f; cbn; auto. Qed.
  Lemma local_cache_reset : local (fun w => (Done tt, set_cache w [])).
  Proof. split; [intros dd w|intro w]; cbn; auto. Qed.
  Lemma local_hash d : local (hash d).
  Proof. split; [intros dd w|intro w]; cbn; auto. Qed.
End Prims.

Section Scripts.
  Context {E : Env}.
  Lemma sp_read A (q : db -> A) : script false (db_read q).
  Proof. apply (script_stmt false (SRead q)). discriminate. Qed.
  Lemma sp_write u : script false (db_write u).
  Proof. apply (script_stmt false (SWrite u)). discriminate. Qed.
  Lemma sp_print t a : script false (print t a). Proof. apply script_local, local_print. Qed.
  Lemma sp_stdout d : script false (write_stdout d). Proof. apply script_local, local_stdout. Qed.
  Lemma sp_fsq A (q : fs -> loc -> option A) : script false (fs_query q). Proof. apply script_local, local_fsq. Qed.
  Lemma sp_readdir p : script false (fs_read_dir p). Proof. apply script_local, local_readdir. Qed.
  Lemma sp_openread p : script false (fs_open_read p). Proof. apply script_local, local_openread. Qed.
  Lemma sp_mkdir p : script false (fs_create_dir_all p). Proof. apply script_local, local_mkdir. Qed.
  Lemma sp_create_new p : script false (fs_create_new p). Proof. apply script_local, local_create_new. Qed.
  Lemma sp_create p : script false (fs_create p). Proof. apply script_local, local_create. Qed.
  Lemma sp_fswrite l d : script false (fs_write l d). Proof. apply script_local, local_write. Qed.
  Lemma sp_rmfile p : script false (fs_remove_file p). Proof. apply script_local, local_rmfile. Qed.
  Lemma sp_rmdir p : script false (fs_remove_dir_all p). Proof. apply script_local, local_rmdir. Qed.
  Lemma sp_cache_read A (q : list (bytes * bytes) -> A) : script false (cache_read q).
  Proof. apply script_local, local_cache_read. Qed.
  Lemma sp_cache_put c k : script false (cache_put c k). Proof. apply script_local, local_cache_write. Qed.
  Lemma sp_put d : script false (put sqlite_ds d).
  Proof.
    unfold put. apply script_bind; [apply script_local, local_hash|intro]. apply script_bind; [apply sp_write|intro].
    apply script_local, local_ret.
  Qed.
  Lemma sp_head h : script false (put_head sqlite_ds h). Proof. apply sp_write. Qed.
  Lemma sp_push r : script false (reflog_push sqlite_ds r). Proof. apply sp_write. Qed.
  Hint Resolve sp_read sp_write sp_print sp_stdout sp_fsq sp_readdir sp_openread sp_mkdir sp_create_new sp_create sp_fswrite
    sp_rmfile sp_rmdir sp_cache_read sp_cache_put sp_put sp_head sp_push : script.

  Lemma script_of_option {A} e (o : option A) : script false (of_option e o).
  Proof. apply script_local. destruct o; [apply local_ret|apply local_fail]. Qed.
  Lemma script_lift_result {A X} f (r : result A X) : script false (lift_result f r).
  Proof. apply script_local. destruct r; [apply local_ret|apply local_fail]. Qed.
  Hint Resolve script_of_option script_lift_result : script.
  Lemma script_mapM {A B} (f : A -> M B) l : (forall a, script false (f a)) -> script false (mapM f l).
  Proof. intro H. induction l as [|x l IH]; cbn; script_tac. Qed.
  Lemma script_bind_assoc {A B C} (m : M A) (f : A -> M B) (g : B -> M C) :
    script false (bind m (fun a => bind (f a) g)) -> script false (bind (bind m f) g).
  Proof. apply script_ext. intro w. symmetry. apply bind_assoc. Qed.
  Lemma script_bind_ret {A B} (a : A) (g : A -> M B) : script false (g a) -> script false (bind (ret a) g).
  Proof. apply script_ext. reflexivity. Qed.

    Lemma script_raw_get k : script false (raw_get sqlite_ds k).
    Proof. cbn. unfold sqlite_raw_get. script_tac. Qed.
    Lemma script_get_obj k : script false (get_obj sqlite_ds k).
    Proof. unfold get_obj, get. cbn. unfold sqlite_raw_get. script_tac. Qed.
    Lemma script_raw_exists k : script false (raw_exists sqlite_ds k).
    Proof. cbn. unfold sqlite_raw_exists. script_tac. Qed.
    Lemma script_reflog_get n r : script false (reflog_get sqlite_ds n r).
    Proof. cbn. unfold sqlite_reflog_get. script_tac. Qed.
    Lemma script_reflog_walk n r : script false (reflog_walk sqlite_ds n r).
    Proof. cbn. unfold sqlite_reflog_walk. script_tac. Qed.
    Lemma script_raw_between s e : script false (raw_between sqlite_ds s e).
    Proof. cbn. unfold sqlite_raw_between. script_tac. Qed.
    Lemma script_get_head : script false (get_head sqlite_ds).
    Proof. unfold get_head. cbn. unfold sqlite_raw_get_state. script_tac. Qed.
    Hint Resolve script_raw_get script_get_obj script_reflog_get script_reflog_walk script_raw_between script_get_head : script.
    Lemma script_canonicalize k : script false (canonicalize sqlite_ds k).
    Proof. unfold canonicalize, resolve_results. script_tac. Qed.
    Hint Resolve script_canonicalize : script.
    Lemma script_read_data {S} (wr : S -> bytes -> M S) (Hwr : forall s d, script false (wr s d)) fuel :
      forall k s, script false (read_data sqlite_ds wr fuel k s).
    Proof.
      induction fuel as [|f IH]; intros k s; cbn; script_tac.
      - generalize s. induction (o_keys a) as [|k' r IH2]; intro s0; script_tac. 
    Qed.
    Lemma script_get_fsitem k : script false (get_fsitem sqlite_ds k).
    Proof. unfold get_fsitem. script_tac. Qed.
    Hint Resolve script_get_fsitem : script.
    Lemma script_metadata p : script false (fs_metadata p).
    Proof. unfold fs_metadata. script_tac. Qed.
    Hint Resolve script_metadata : script.
    Lemma script_exists p : script false (fs_exists p).
    Proof. unfold fs_exists. script_tac. Qed.
    Lemma script_canon p : script false (fs_canonicalize p).
    Proof. unfold fs_canonicalize. script_tac. Qed.
    Hint Resolve script_exists script_canon : script.
    Lemma script_filter_fn ex d p : script false (filter_fn ex d p).
    Proof. unfold filter_fn. script_tac. Qed.
    Hint Resolve script_filter_fn : script.
    Lemma script_make_filter_fn {A} ex d (k : (path -> M bool) -> M A) :
      (forall f, (forall p, script false (f p)) -> script false (k f)) -> script false (bind (make_filter_fn ex d) k).
    Proof.
      intro H. unfold make_filter_fn. destruct (forallb glob_valid ex).
      - apply (script_ext false (k (filter_fn ex d))); [reflexivity|]. apply H. intro. apply script_filter_fn.
      - apply script_local. repeat local_step.
    Qed.
    Lemma script_walk_fs fuel : forall k p, script false (internal_walk_fs_items sqlite_ds fuel k p).
    Proof.
      induction fuel as [|f IH]; intros k p; cbn; script_tac.
      generalize (if is_empty_path p then [] else [(p, (k, true))]).
      induction (combine (fi_children a) (fi_names a)) as [|[c n] l IH2]; intro acc; script_tac. 
    Qed.
    Lemma script_walk_fs_items k : script false (walk_fs_items sqlite_ds k).
    Proof. apply script_walk_fs. Qed.
    Lemma script_walk_real fuel f (Hf : forall p, script false (f p)) : forall b p, script false (internal_walk_real_fs_items fuel b p f).
    Proof.
      induction fuel as [|g IH]; intros b p; cbn; script_tac.
      generalize (if is_empty_path p then [] else [(p, true)]).
      induction l as [|n l IH2]; intro acc; script_tac; apply IH2.
    Qed.
    Lemma script_walk_real_fs_items b f (Hf : forall p, script false (f p)) : script false (walk_real_fs_items b f).
    Proof. apply script_walk_real, Hf. Qed.
    Lemma script_pm_index {A} (m : pmap A) p : script false (pm_index m p).
    Proof. unfold pm_index. script_tac. Qed.
    Hint Resolve script_walk_fs_items script_pm_index : script.
    Lemma script_compare_db k to : script false (compare sqlite_ds (TDatabase k) to).
    Proof.
      unfold compare. apply script_bind_assoc, script_bind; [script_tac|intro m]. apply script_bind_ret.
      script_tac; (apply script_mapM; intro; script_tac).
    Qed.
    Lemma script_commit_of_object o : script false (commit_of_object o).
    Proof. unfold commit_of_object. script_tac. Qed.
    Hint Resolve script_commit_of_object script_compare_db : script.
    Lemma script_commit_from_key k : script false (commit_from_key sqlite_ds k).
    Proof. unfold commit_from_key. script_tac. Qed.
    Hint Resolve script_commit_from_key : script.
    Lemma script_print_keyed b l : script false (print_keyed b l).
    Proof. induction l as [|[p k] l IH]; cbn; script_tac. Qed.
    Hint Resolve script_print_keyed : script.
    Lemma script_print_diff_result r : script false (print_diff_result r).
    Proof. unfold print_diff_result, print_section. script_tac. Qed.
    Lemma script_read_vec k : script false (read_vec sqlite_ds k).
    Proof.
      unfold read_vec. apply script_unwrap, script_read_data. intros s d. unfold vec_write. script_tac.
    Qed.
    Hint Resolve script_read_vec script_print_diff_result : script.
    Lemma script_line_ct k : script false (line_ct sqlite_ds k).
    Proof. unfold line_ct. script_tac. Qed.
    Hint Resolve script_line_ct : script.
    Lemma script_line_stat r : script false (line_stat sqlite_ds r).
    Proof. unfold line_stat. script_tac; (apply script_mapM; intro; script_tac). Qed.
    Hint Resolve script_line_stat : script.
    Lemma script_print_stats l : script false (print_stats l).
    Proof. induction l as [|s l IH]; cbn; script_tac. Qed.
    Hint Resolve script_print_stats : script.
    Lemma script_print_stat_diff_result r : script false (print_stat_diff_result sqlite_ds r).
    Proof. unfold print_stat_diff_result. script_tac. Qed.
    Lemma script_whole_file d p k mk b : script false (whole_file sqlite_ds d p k mk b).
    Proof. unfold whole_file. script_tac. Qed.
    Lemma script_patch_from b a p : script false (patch_from_file_string b a p).
    Proof. unfold patch_from_file_string. script_tac. Qed.
    Hint Resolve script_whole_file script_patch_from script_print_stat_diff_result : script.
    Lemma script_create_diff_patch_result r : script false (create_diff_patch_result sqlite_ds r).
    Proof. unfold create_diff_patch_result. script_tac; (apply script_mapM; intro; script_tac). Qed.
    Hint Resolve script_create_diff_patch_result : script.
    Lemma script_print_patch_diff_result r : script false (print_patch_diff_result sqlite_ds r).
    Proof. unfold print_patch_diff_result. script_tac. Qed.
    Hint Resolve script_print_patch_diff_result : script.
    Lemma script_display_obj fuel : forall k kd, script false (display_obj sqlite_ds fuel k kd).
    Proof.
      induction fuel as [|f IH]; intros k kd; cbn [display_obj]; script_tac.
      all: apply script_read_data; intros s d; unfold stdout_write; script_tac.
    Qed.
    Hint Resolve script_display_obj : script.
    Lemma script_log_loop fuel : forall c kd, script false (log_loop sqlite_ds fuel c kd).
    Proof. induction fuel as [|f IH]; intros c kd; cbn [log_loop]; script_tac. Qed.
    Hint Resolve script_log_loop : script.
    Lemma script_log_obj k kd : script false (log_obj sqlite_ds k kd).
    Proof. unfold log_obj. script_tac. Qed.
    Lemma script_print_entries n l : script false (print_entries n l).
    Proof. revert n. induction l as [|k l IH]; intro n; cbn; script_tac. Qed.
    Lemma script_print_tree l : script false (print_tree l).
    Proof. induction l as [|[p [k d]] l IH]; cbn; script_tac. Qed.
    Lemma script_print_fs_tree l : script false (print_fs_tree l).
    Proof. induction l as [|[p d] l IH]; cbn; script_tac. Qed.
    Lemma script_head_or_fail : script false head_or_fail.
    Proof. unfold head_or_fail. script_tac. Qed.
    Hint Resolve script_log_obj script_print_entries script_print_tree script_print_fs_tree script_head_or_fail : script.
    Lemma script_refname_or_head r : script false (refname_or_head r).
    Proof. unfold refname_or_head. script_tac. Qed.
    Lemma script_get_head_key : script false get_head_key.
    Proof. unfold get_head_key. script_tac. Qed.
    Hint Resolve script_refname_or_head script_get_head_key : script.
    Lemma script_key_or_head k : script false (key_or_head k).
    Proof. unfold key_or_head. script_tac. Qed.
    Hint Resolve script_key_or_head : script.
    Lemma script_cmd_ref_log n r : script false (cmd_ref_log n r).
    Proof. unfold cmd_ref_log. script_tac. Qed.
    Lemma script_cmd_walk_tree k : script false (cmd_walk_tree k).
    Proof. unfold cmd_walk_tree. script_tac. Qed.
    Lemma script_cmd_walk_fs_tree p : script false (cmd_walk_fs_tree p).
    Proof. unfold cmd_walk_fs_tree. script_tac. apply script_walk_real_fs_items. intro. script_tac. Qed.
    Lemma script_each_line l : script false (each_line l).
    Proof. induction l as [|x l IH]; cbn; unfold writeln; script_tac. Qed.
    Lemma script_pretty_keys l : script false (pretty_keys l).
    Proof. induction l as [|x l IH]; cbn; unfold writeln; script_tac. Qed.
    Hint Resolve script_each_line script_pretty_keys : script.
    Lemma script_pretty_print o : script false (pretty_print o).
    Proof. unfold pretty_print, writeln. script_tac. Qed.
    Hint Resolve script_pretty_print : script.
    Lemma script_cmd_pretty_print k : script false (cmd_pretty_print k).
    Proof. unfold cmd_pretty_print. script_tac. Qed.
    Lemma script_cmd_reflog_get n r : script false (cmd_reflog_get n r).
    Proof. unfold cmd_reflog_get. script_tac. Qed.
    Lemma script_cmd_get_head : script false cmd_get_head.
    Proof. unfold cmd_get_head. script_tac. Qed.
    Lemma script_cmd_show k : script false (cmd_show k).
    Proof. unfold cmd_show. script_tac. Qed.
    Lemma script_cmd_log k : script false (cmd_log k).
    Proof. unfold cmd_log. script_tac. Qed.
    Lemma script_find_in n l : script false (find_in n l).
    Proof. induction l as [|d l IH]; cbn; script_tac. Qed.
    Lemma script_find_db_folder n : script false (find_db_folder n).
    Proof. unfold find_db_folder, fs_current_dir. script_tac. apply script_find_in. Qed.

    Hint Resolve script_get_obj script_metadata script_filter_fn script_reflog_get script_pm_index script_walk_fs_items : script.
    Lemma script_put_obj o : script false (put_obj sqlite_ds o).
    Proof. unfold put_obj. script_tac. Qed.
    Hint Resolve script_put_obj : script.
    Lemma script_put_tree l : script false (put_tree sqlite_ds l).
    Proof. unfold put_tree. script_tac. Qed.
    Lemma script_put_blob l : script false (put_blob sqlite_ds l).
    Proof. unfold put_blob. script_tac. Qed.
    Hint Resolve script_put_tree script_put_blob : script.
    Lemma script_cascade l z : forall kb, script false (cascade sqlite_ds l z kb).
    Proof. induction l as [|o l IH]; intro kb; cbn [cascade]; script_tac. Qed.
    Hint Resolve script_cascade : script.
    Lemma script_cut st b : script false (cut sqlite_ds st b).
    Proof. unfold cut. script_tac. Qed.
    Hint Resolve script_cut : script.
    Lemma script_pd_loop fuel : forall st r, script false (pd_loop sqlite_ds fuel st r).
    Proof.
      induction fuel as [|f IH]; intros st r; cbn [pd_loop]; [script_tac|].
      destruct (next_match _ _ _) as [m h]. cbv zeta. script_tac.
    Qed.
    Hint Resolve script_pd_loop : script.
    Lemma script_fold_levels l : forall kb, script false (fold_levels sqlite_ds l kb).
    Proof. induction l as [|o l IH]; intro kb; cbn [fold_levels]; script_tac. Qed.
    Hint Resolve script_fold_levels : script.
    Lemma script_pd_finish st : script false (pd_finish sqlite_ds st).
    Proof. unfold pd_finish. script_tac. Qed.
    Hint Resolve script_pd_finish : script.
    Lemma script_put_data r : script false (put_data sqlite_ds r).
    Proof. unfold put_data. script_tac. Qed.
    Hint Resolve script_put_data : script.
    Lemma script_put_item i : script false (put_item sqlite_ds i).
    Proof. unfold put_item. script_tac. Qed.
    Hint Resolve script_put_item : script.
    Lemma script_put_fs_item fuel f (Hf : forall p, script false (f p)) : forall p, script false (put_fs_item sqlite_ds fuel p f).
    Proof.
      induction fuel as [|g IH]; intro p; cbn [put_fs_item]; script_tac.
      induction l as [|n l IH2]; script_tac.
    Qed.
    Lemma script_commit_tree t ps a : script false (commit_tree sqlite_ds t ps a).
    Proof. unfold commit_tree. script_tac. Qed.
    Lemma script_cmd_insert cm s p : script false (cmd_insert cm s p).
    Proof.
      unfold cmd_insert. apply script_make_filter_fn. intros f Hf. script_tac. apply script_put_fs_item, Hf.
    Qed.
    Lemma script_cmd_commit_tree t ps : script false (cmd_commit_tree t ps).
    Proof.
      unfold cmd_commit_tree. script_tac.
      all: first [apply script_canonicalize | apply script_commit_tree | apply script_mapM; intro; apply script_canonicalize].
    Qed.
    Lemma script_cmd_commit cm s p m r : script false (cmd_commit cm s p m r).
    Proof.
      unfold cmd_commit. apply script_make_filter_fn. intros f Hf. script_tac.
      all: first [apply script_refname_or_head | apply script_put_fs_item, Hf | apply script_commit_tree].
    Qed.
      Lemma script_hash_fs_item p : script false (hash_fs_item sqlite_ds p).
      Proof. unfold hash_fs_item, cache_get. script_tac. Qed.
      Hint Resolve script_hash_fs_item : script.
      Lemma script_compare from to : script false (compare sqlite_ds from to).
      Proof.
        destruct from as [p ex fo|k]; [|apply script_compare_db].
        unfold compare. apply script_bind; [|intro].
        - apply script_make_filter_fn. intros f Hf. script_tac. apply script_walk_real_fs_items, Hf.
        - script_tac; (apply script_mapM; intro; script_tac).
      Qed.
      Hint Resolve script_compare : script.
      Lemma script_cmd_compare cm s p k b : script false (cmd_compare cm s p k b).
      Proof.
        unfold cmd_compare. script_tac.
        all: first [apply script_canonicalize | apply script_get_head_key | apply script_commit_from_key
                   | apply script_print_stat_diff_result | apply script_print_diff_result].
      Qed.
      Lemma script_cmd_status cm s : script false (cmd_status cm s).
      Proof.
        unfold cmd_status. script_tac.
        all: first [apply script_head_or_fail | apply script_commit_from_key | apply script_print_diff_result].
      Qed.
      Lemma script_cmd_checkout_head cm s n : script false (cmd_checkout_head cm s n).
      Proof.
        unfold cmd_checkout_head. script_tac.
        all: first [apply script_head_or_fail | apply script_commit_from_key | apply script_print_diff_result].
      Qed.

    
    Lemma script_cmd_ref_update k n : script false (cmd_ref_update k n).
    Proof. unfold cmd_ref_update. script_tac; first [apply script_canonicalize | apply script_refname_or_head]. Qed.
    Lemma script_cmd_reflog_push k n r : script false (cmd_reflog_push k n r).
    Proof. unfold cmd_reflog_push. script_tac; try apply script_canonicalize. Qed.
    Lemma script_cmd_set_head n : script false (cmd_set_head n).
    Proof. unfold cmd_set_head. script_tac. Qed.

    Hint Resolve script_get_fsitem script_metadata : script.
    Lemma script_write_item_data fuel i l : script false (write_item_data sqlite_ds fuel i l).
    Proof. unfold write_item_data. script_tac; try apply script_read_data. intros s d. unfold file_write. script_tac. Qed.
    Hint Resolve script_write_item_data : script.
    Lemma script_get_fs_item fuel : forall k p, script false (get_fs_item sqlite_ds fuel k p).
    Proof.
      induction fuel as [|f IH]; intros k p; cbn [get_fs_item]; script_tac.
      induction (combine (fi_children a) (fi_names a)) as [|[c n] l IH2]; script_tac.
    Qed.
    Lemma script_cmd_fetch k p : script false (cmd_fetch k p).
    Proof. unfold cmd_fetch. script_tac; first [apply script_canonicalize | apply script_get_fs_item]. Qed.
    Lemma script_filter_names p f (Hf : forall q, script false (f q)) l : script false (filter_names p f l).
    Proof. induction l as [|n l IH]; cbn; script_tac. Qed.
    Lemma script_remove_extra p l : script false (remove_extra p l).
    Proof. induction l as [|n l IH]; cbn [remove_extra]; script_tac. Qed.
    Hint Resolve script_remove_extra : script.
    Lemma script_checkout_fs_item fuel f (Hf : forall q, script false (f q)) : forall k p, script false (checkout_fs_item sqlite_ds fuel k p f).
    Proof.
      induction fuel as [|g IH]; intros k p; cbn [checkout_fs_item]; script_tac.
      - apply script_filter_names, Hf.
      - induction (combine (fi_children a) (fi_names a)) as [|[c n] m IH2]; script_tac.
    Qed.
    Lemma script_cmd_checkout cm s : script false (cmd_checkout cm s).
    Proof.
      unfold cmd_checkout. apply script_bind; [script_tac|intro].
      apply script_make_filter_fn. intros f Hf. script_tac; try (apply script_checkout_fs_item, Hf).
    Qed.


    Lemma script_run_command cm st c : c <> CInit -> script false (run_command cm st c).
    Proof.
      intro NI. destruct c; cbn [run_command];
        try match goal with |- script _ (with_ds _ _) => unfold with_ds; destruct st as [s|]; [|script_tac] end.
      - apply script_cmd_insert.
      - apply script_cmd_commit.
      - apply script_cmd_fetch.
      - apply script_cmd_pretty_print.
      - apply script_cmd_commit_tree.
      - apply script_cmd_reflog_get.
      - apply script_cmd_reflog_push.
      - apply script_cmd_walk_tree.
      - apply script_cmd_walk_fs_tree.
      - apply script_cmd_set_head.
      - apply script_cmd_get_head.
      - congruence.
      - apply script_cmd_show.
      - apply script_cmd_log.
      - apply script_cmd_compare.
      - apply script_cmd_status.
      - apply script_cmd_checkout.
      - apply script_cmd_checkout_head.
      - apply script_cmd_ref_log.
      - apply script_cmd_ref_update.
    Qed.
    Lemma local_open_cache : local open_cache.
    Proof. unfold open_cache. repeat first [apply local_mkdir | apply local_cache_new | apply local_cache_reset | local_step]. Qed.
    Definition script_ignore_on c st m (H : script c m) : script c (ignore_on st m) :=
      match st return script c (ignore_on st m) with
      | Some _ => script_bind c (try m) (fun _ => ret tt) (script_try c m H) (fun _ => script_local c _ (local_ret tt))
      | None => script_local c _ (local_ret tt)
      end.
    (** The end of [main]. *)
    Definition finish (st : option ds_state) (r : result unit error) : M unit :=
      match r with
      | Err e => print "fatal:" (error_message e) ;;; ignore_on st db_rollback ;;; cache_rollback
      | Ok _ => ignore_on st db_commit ;;; cache_commit
      end.
    Definition script_begin : script true db_begin := script_stmt true SBegin (fun _ => eq_refl).
    Definition script_commit : script true db_commit := script_stmt true SCommit (fun _ => eq_refl).
    Definition script_rollback : script true db_rollback := script_stmt true SRollback (fun _ => eq_refl).
    Definition script_finish st r : script true (finish st r) :=
      match r return script true (finish st r) with
      | Err _ => script_bind true _ _ (script_local true _ (local_print _ _))
                   (fun _ => script_bind true _ _ (script_ignore_on true st _ script_rollback)
                   (fun _ => script_local true _ local_cache_rollback))
      | Ok _ => script_bind true _ _ (script_ignore_on true st _ script_commit)
                  (fun _ => script_local true _ local_cache_commit)
      end.
    Definition script_main_rest cm st c (NI : c <> CInit) : script true (main_rest cm st c) :=
      script_bind true open_cache _ (script_local true _ local_open_cache)
        (fun _ => script_bind true (ignore_on st db_begin) _ (script_ignore_on true st _ script_begin)
        (fun _ => script_bind true cache_begin _ (script_local true _ local_cache_begin)
        (fun _ => script_bind true (try (run_command cm st c)) (finish st)
                    (script_try true _ (script_ctl _ (script_run_command cm st c NI))) (script_finish st)))).
    (** The process of a command, once the repository is open. *)
    Definition command_job cm st c (NI : c <> CInit) (w : world) : job :=
      Job (main_rest cm st c) (script_main_rest cm st c NI) w.
End Scripts.
