(** Why a command stops, and what it says. *)
From Coq Require Import Sorted RelationClasses.
From Verif Require Import Base BaseFacts TableFacts Key KeyFacts Keyish Cbor Object Path World WorldFacts Store File Filter Dir Diff Commit Pretty Main SpecKey SpecResolve SpecStore StoreCalls SpecRun SpecProc SpecCmd SpecFile SpecDir SpecCache SpecDiff SpecPatch SpecShow SpecOut SpecClosure SpecShape SpecLive SpecFatal Screen
  Frame DbRel Closure Integrity StoreFacts ProcFacts InitFacts ObjStoreFacts SessionFacts FilePlan FileFacts FsFacts DirPlan DirFacts CmdFacts OutFacts LiveCmd LiveStart.

Section FatalFacts.
  Context {E : Env}.
  Notation ds := sqlite_ds.

  (** *** Errors whose text is left open *)
  Definition tame {A} (m : M A) : Prop := forall w e w', m w = (Error e, w') -> error_message e = [].
  Lemma tame_ret {A} (a : A) : tame (ret a).
  Proof. intros w e w' H. discriminate H. Qed.
  Lemma tame_fail {A} e : error_message e = [] -> tame (@fail A e).
  Proof. intros P w e' w' H. inversion H; subst. exact P. Qed.
  Lemma tame_panic {A} p : tame (@panic_with A p).
  Proof. intros w e w' H. discriminate H. Qed.
  Lemma tame_diverge {A} : tame (@diverge A).
  Proof. intros w e w' H. discriminate H. Qed.
  Lemma tame_bind {A B} (m : M A) (k : A -> M B) : tame m -> (forall a, tame (k a)) -> tame (bind m k).
  Proof. intros H K w e w'. unfold bind. destruct (m w) as [[a|e1| | |] w1] eqn:Q; intro X; try discriminate X; [exact (K _ _ _ _ X)|]. inversion X; subst. exact (H _ _ _ Q). Qed.
  Lemma tame_unwrap {A} (m : M A) : tame (unwrap m).
  Proof. intros w e w'. unfold unwrap. destruct (m w) as [[a|e1| | |] w1]; discriminate. Qed.
  Lemma tame_try {A} (m : M A) : tame (try m).
  Proof. intros w e w'. unfold try. destruct (m w) as [[a|e1| | |] w1]; discriminate. Qed.
  Lemma tame_lift {A X} (f : X -> error) (r : result A X) : (forall x, error_message (f x) = []) -> tame (lift_result f r).
  Proof. intro H. destruct r; [apply tame_ret|apply tame_fail, H]. Qed.
  Lemma tame_option {A} e (o : option A) : error_message e = [] -> tame (of_option e o).
  Proof. intro H. destruct o; [apply tame_ret|apply tame_fail, H]. Qed.
  Lemma tame_op {A} (eff : fault -> M A) : (forall f, tame (eff f)) -> tame (op eff).
  Proof. intros H w e w' X. destruct (op_case eff w) as (f & w1 & Q & _). rewrite Q in X. exact (H _ _ _ _ X). Qed.
  Ltac cases := intros w e w' X; cbn in X; repeat match type of X with context [match ?x with _ => _ end] => destruct x end; inversion X; reflexivity.
  Lemma tame_read {A} (q : db -> A) : tame (db_read q).
  Proof. apply tame_op. intros []; cases. Qed.
  Lemma tame_write u : tame (db_write u).
  Proof. apply tame_op. intros [| | |[|]]; cases. Qed.
  Lemma tame_write_at l u : tame (db_write_at l u).
  Proof. apply tame_op. intros [| | |[|]]; cases. Qed.
  Lemma tame_cread {A} (q : list (bytes * bytes) -> A) : tame (cache_read q).
  Proof. apply tame_op. intros []; cases. Qed.
  Lemma tame_cwrite u : tame (cache_write u).
  Proof. apply tame_op. intros [| | |[|]]; cases. Qed.
  Lemma tame_print t a : tame (print t a).
  Proof. apply tame_op. intros []; cases. Qed.
  Lemma tame_stdout d : tame (write_stdout d).
  Proof. apply tame_op. intros []; cases. Qed.
  Lemma tame_query {A} (q : fs -> loc -> option A) : tame (fs_query q).
  Proof. apply tame_op. intros []; cases. Qed.
  Lemma tame_readdir p : tame (fs_read_dir p).
  Proof. apply tame_op. intros f w e w' X. cbn in X. repeat match type of X with context [match ?x with _ => _ end] => destruct x end; inversion X; reflexivity. Qed.
  Lemma tame_openread p : tame (fs_open_read p).
  Proof. apply tame_op. intros f w e w' X. cbn in X. repeat match type of X with context [match ?x with _ => _ end] => destruct x end; inversion X; reflexivity. Qed.
  Lemma tame_change {A} (full : fs -> loc -> nat -> option (A * fs)) partial : tame (fs_change full partial).
  Proof. apply tame_op. intros f w e w' X. cbn in X. repeat match type of X with context [match ?x with _ => _ end] => destruct x end; inversion X; reflexivity. Qed.
  Lemma tame_mapM {A B} (f : A -> M B) l : (forall a, tame (f a)) -> tame (mapM f l).
  Proof. intro H. induction l as [|x l IH]; cbn [mapM]; [apply tame_ret|]. apply tame_bind; [apply H|intro]. apply tame_bind; [exact IH|intro; apply tame_ret]. Qed.

  Ltac tm := repeat first
    [ apply tame_ret | apply tame_panic | apply tame_diverge | apply tame_fail; reflexivity | apply tame_unwrap | apply tame_try | apply tame_option; reflexivity | apply tame_lift; reflexivity
    | apply tame_read | apply tame_write | apply tame_write_at | apply tame_cread | apply tame_cwrite | apply tame_print | apply tame_stdout | apply tame_query | apply tame_readdir | apply tame_openread | apply tame_change
    | solve [auto with tame] | apply tame_mapM; intro | apply tame_bind; [|intro]
    | match goal with |- tame (match ?x with _ => _ end) => destruct x end ].

  Lemma tame_hash d : tame (hash d).
  Proof. unfold hash. intros w e w' X. discriminate X. Qed.
  Hint Resolve tame_hash : tame.
  Lemma tame_put_obj o : tame (put_obj ds o).
  Proof. unfold put_obj, put. cbn [raw_put ds]. unfold sqlite_raw_put. tm. Qed.
  Lemma tame_get_obj k : tame (get_obj ds k).
  Proof. unfold get_obj, get. cbn [raw_get ds]. unfold sqlite_raw_get. tm. Qed.
  Hint Resolve tame_put_obj tame_get_obj : tame.
  Lemma tame_cascade l z : forall kb, tame (cascade ds l z kb).
  Proof. induction l as [|o l IH]; intro kb; cbn [cascade]; unfold put_tree; tm. Qed.
  Hint Resolve tame_cascade : tame.
  Lemma tame_cut st b : tame (cut ds st b).
  Proof. unfold cut, put_blob. tm. Qed.
  Hint Resolve tame_cut : tame.
  Lemma tame_loop f : forall st l, tame (pd_loop ds f st l).
  Proof. induction f as [|f IH]; intros st l; cbn [pd_loop]; tm. Qed.
  Lemma tame_fold l : forall kb, tame (fold_levels ds l kb).
  Proof. induction l as [|o l IH]; intro kb; cbn [fold_levels]; unfold put_tree; tm. Qed.
  Hint Resolve tame_loop tame_fold : tame.
  Lemma tame_put_data l : tame (put_data ds l).
  Proof. unfold put_data, pd_finish, put_blob, put_tree. tm. Qed.
  Hint Resolve tame_put_data : tame.
  Lemma tame_read_data {S} (wr : S -> bytes -> M S) : (forall s b, tame (wr s b)) -> forall f k s, tame (read_data ds wr f k s).
  Proof.
    intros H f. induction f as [|f IH]; intros k s; cbn [read_data]; [apply tame_diverge|]. apply tame_bind; [apply tame_get_obj|intro o]. destruct (o_type o); try (tm; fail).
    revert s. induction (o_keys o) as [|x l IHl]; intro s; [apply tame_ret|]. apply tame_bind; [apply IH|intro s'; apply IHl].
  Qed.
  Lemma tame_put_item i : tame (put_item ds i).
  Proof. unfold put_item. tm. Qed.
  Hint Resolve tame_put_item : tame.
  Lemma tame_filter ex p q : tame (filter_fn ex p q).
  Proof. unfold filter_fn. tm. Qed.
  Hint Resolve tame_filter : tame.
  Lemma tame_make ex p : tame (make_filter_fn ex p).
  Proof. unfold make_filter_fn. tm. Qed.
  Hint Resolve tame_make : tame.
  Lemma make_filter_tame ex p w f w' : make_filter_fn ex p w = (Done f, w') -> (forall q, tame (f q)) /\ w' = w /\ forallb glob_valid ex = true.
  Proof. unfold make_filter_fn. destruct (forallb glob_valid ex); intro H; inversion H; subst. split; [intro q; apply tame_filter|auto]. Qed.
  Lemma tame_filtered {B} ex p (k : (path -> M bool) -> M B) : (forall f, (forall q, tame (f q)) -> tame (k f)) -> tame (bind (make_filter_fn ex p) k).
  Proof.
    intros H w e w' X. unfold bind in X. destruct (make_filter_fn ex p w) as [[f|e1| | |] w1] eqn:Q; try discriminate X.
    - apply make_filter_tame in Q as [T _]. exact (H f T _ _ _ X).
    - inversion X; subst. exact (tame_make _ _ _ _ _ Q).
  Qed.
  Lemma tame_put f : forall p flt, (forall q, tame (flt q)) -> tame (put_fs_item ds f p flt).
  Proof.
    induction f as [|f IH]; intros p flt H; cbn [put_fs_item]; [apply tame_diverge|]. apply tame_bind; [unfold fs_metadata; tm|intros [|sz st|]]; [|tm|apply tame_panic].
    apply tame_bind; [apply tame_readdir|intros [names er]]. apply tame_bind; [|intro kids; tm].
    induction names as [|n names IHn]; [apply tame_ret|]. apply tame_bind; [apply H|intros [|]; [|exact IHn]]. apply tame_bind; [apply IH, H|intro]. apply tame_bind; [exact IHn|intro; apply tame_ret].
  Qed.
  Lemma tame_hash_item p : tame (hash_fs_item ds p).
  Proof. unfold hash_fs_item, fs_metadata, cache_get. tm. Qed.
  Lemma tame_get_item k : tame (get_fsitem ds k).
  Proof. unfold get_fsitem. tm. Qed.
  Hint Resolve tame_hash_item tame_get_item : tame.
  Lemma tame_write_item f i l : tame (write_item_data ds f i l).
  Proof. unfold write_item_data. destruct (fi_children i); [apply tame_panic|]. apply tame_read_data. intros s b. unfold file_write, fs_write. tm. Qed.
  Hint Resolve tame_write_item : tame.
  Lemma tame_get f : forall k p, tame (get_fs_item ds f k p).
  Proof.
    induction f as [|f IH]; intros k p; cbn [get_fs_item]; [apply tame_diverge|]. apply tame_bind; [apply tame_get_item|intro i]. destruct (fi_type i); [|unfold fs_create_dir_all, fs_create_new; tm].
    induction (combine (fi_children i) (fi_names i)) as [|[c n] l IHl]; [apply tame_ret|]. apply tame_bind; [apply IH|intro; exact IHl].
  Qed.
  Lemma tame_names p flt l : (forall q, tame (flt q)) -> tame (filter_names p flt l).
  Proof. intro H. induction l as [|n l IH]; cbn [filter_names]; tm. Qed.
  Lemma tame_extra p l : tame (remove_extra p l).
  Proof. induction l as [|n l IH]; cbn [remove_extra]; unfold fs_metadata, fs_remove_dir_all, fs_remove_file; tm. Qed.
  Hint Resolve tame_extra : tame.
  Lemma tame_checkout f : forall k p flt, (forall q, tame (flt q)) -> tame (checkout_fs_item ds f k p flt).
  Proof.
    induction f as [|f IH]; intros k p flt H; cbn [checkout_fs_item]; [apply tame_diverge|]. apply tame_bind; [apply tame_get_item|intro i]. destruct (fi_type i); [|unfold fs_create; tm].
    apply tame_bind; [apply tame_readdir|intros [names er]]. apply tame_bind; [apply tame_names, H|intro]. apply tame_bind; [tm|intro]. apply tame_bind; [apply tame_extra|intro].
    induction (combine (fi_children i) (fi_names i)) as [|[c n] l IHl]; [apply tame_ret|]. apply tame_bind; [unfold fs_create_dir_all; tm|intro]. apply tame_bind; [apply IH, H|intro; exact IHl].
  Qed.
  Lemma tame_walk_in f : forall k p, tame (internal_walk_fs_items ds f k p).
  Proof.
    induction f as [|f IH]; intros k p; cbn [internal_walk_fs_items]; [apply tame_diverge|]. apply tame_bind; [apply tame_get_item|intro i]. destruct (fi_type i); [|apply tame_ret].
    generalize (if is_empty_path p then [] else [(p, (k, true))]). induction (combine (fi_children i) (fi_names i)) as [|[c n] l IHl]; intro acc; [apply tame_ret|]. apply tame_bind; [apply IH|intro; apply IHl].
  Qed.
  Lemma tame_walk k : tame (walk_fs_items ds k).
  Proof. apply tame_walk_in. Qed.
  Hint Resolve tame_walk : tame.
  Lemma tame_real_in f : forall b p flt, (forall q, tame (flt q)) -> tame (internal_walk_real_fs_items f b p flt).
  Proof.
    induction f as [|f IH]; intros b p flt H; cbn [internal_walk_real_fs_items]; [apply tame_diverge|]. apply tame_bind; [unfold fs_metadata; tm|intros [|sz st|]]; [|apply tame_ret|apply tame_fail; reflexivity].
    apply tame_bind; [apply tame_readdir|intros [names er]]. apply tame_bind; [|intro; tm].
    generalize (if is_empty_path p then [] else [(p, true)]). induction names as [|n names IHn]; intro acc; [apply tame_ret|]. apply tame_bind; [apply H|intros [|]; [|apply IHn]]. apply tame_bind; [apply IH, H|intro; apply IHn].
  Qed.
  Lemma tame_index {A} (m : pmap A) p : tame (pm_index m p).
  Proof. unfold pm_index. tm. Qed.
  Hint Resolve @tame_index : tame.
  Lemma tame_compare t k : tame (compare ds t k).
  Proof.
    unfold compare. apply tame_bind; [destruct t as [p ex fo|k']|intro src].
    - apply tame_filtered. intros f H. apply tame_bind; [apply tame_real_in, H|intro; apply tame_ret].
    - tm.
    - tm.
  Qed.
  Hint Resolve tame_compare : tame.
  Lemma tame_keyed b l : tame (print_keyed b l).
  Proof. induction l as [|[p k] l IH]; cbn [print_keyed]; tm. Qed.
  Hint Resolve tame_keyed : tame.
  Lemma tame_diff r : tame (print_diff_result r).
  Proof. unfold print_diff_result, print_section. tm. Qed.
  Lemma tame_stats l : tame (print_stats l).
  Proof. induction l as [|x l IH]; cbn [print_stats]; tm. Qed.
  Hint Resolve tame_diff tame_stats : tame.
  Lemma tame_stat r : tame (print_stat_diff_result ds r).
  Proof. unfold print_stat_diff_result, line_stat, line_ct, read_vec. tm. Qed.
  Lemma tame_patch r : tame (print_patch_diff_result ds r).
  Proof. unfold print_patch_diff_result, create_diff_patch_result, whole_file, patch_from_file_string, read_vec. tm. Qed.
  Hint Resolve tame_stat tame_patch : tame.
  Lemma tame_read_out f k : tame (read_data ds stdout_write f k tt).
  Proof. apply tame_read_data. intros s b. apply tame_stdout. Qed.
  Hint Resolve tame_read_out : tame.
  Lemma tame_display f : forall k kd, tame (display_obj ds f k kd).
  Proof. induction f as [|f IH]; intros k kd; cbn [display_obj]; tm. Qed.
  Hint Resolve tame_display : tame.
  Lemma tame_log_loop f : forall c kd, tame (log_loop ds f c kd).
  Proof. induction f as [|f IH]; intros c kd; cbn [log_loop]; tm. Qed.
  Hint Resolve tame_log_loop : tame.
  Lemma tame_log k kd : tame (log_obj ds k kd).
  Proof. unfold log_obj. tm. Qed.
  Hint Resolve tame_log : tame.
  Lemma tame_commit_key k : tame (commit_from_key ds k).
  Proof. unfold commit_from_key. tm. Qed.
  Lemma tame_commit_tree t ps a : tame (commit_tree ds t ps a).
  Proof. apply tame_put_obj. Qed.
  Hint Resolve tame_commit_key tame_commit_tree : tame.
  Lemma tame_lines l : tame (each_line l).
  Proof. induction l; cbn [each_line]; unfold writeln; tm. Qed.
  Lemma tame_keys l : tame (pretty_keys l).
  Proof. induction l; cbn [pretty_keys]; unfold writeln; tm. Qed.
  Hint Resolve tame_lines tame_keys : tame.
  Lemma tame_pretty o : tame (pretty_print o).
  Proof. unfold pretty_print, writeln. tm. Qed.
  Lemma tame_tree l : tame (print_tree l).
  Proof. induction l as [|[p [k d]] l IH]; cbn [print_tree]; tm. Qed.
  Lemma tame_fs_tree l : tame (print_fs_tree l).
  Proof. induction l as [|[p d] l IH]; cbn [print_fs_tree]; tm. Qed.
  Lemma tame_entries l : forall n, tame (print_entries n l).
  Proof. induction l as [|k l IH]; intro n; cbn [print_entries]; tm. Qed.
  Lemma tame_push r : tame (reflog_push ds r).
  Proof. cbn [reflog_push ds]. unfold sqlite_reflog_push. tm. Qed.
  Lemma tame_rwalk n rm : tame (reflog_walk ds n rm).
  Proof. cbn [reflog_walk ds]. unfold sqlite_reflog_walk. tm. Qed.
  Lemma tame_put_head n : tame (put_head ds n).
  Proof. unfold put_head. cbn [raw_put_state ds]. unfold sqlite_raw_put_state. tm. Qed.
  Lemma tame_get_head : tame (get_head ds).
  Proof. unfold get_head. cbn [raw_get_state ds]. unfold sqlite_raw_get_state. tm. Qed.
  Hint Resolve tame_pretty tame_tree tame_fs_tree tame_entries tame_push tame_rwalk tame_put_head tame_get_head : tame.
End FatalFacts.
