(** Reading from a complete store comes to an end. *)
From Verif Require Import Base Key Keyish Cbor Object Path World Store File Filter Dir Diff Commit Main
  WorldFacts ObjStoreFacts DbRel SpecRun SpecClosure Closure.

Section Ends.
  Context {E : Env} (d : db).
  Local Notation ds := sqlite_ds.

  (** The call returns, and leaves the database alone as long as it succeeds. *)
  Definition ends {A} (m : M A) : Prop := forall w, cur_db w = d ->
    fst (m w) <> Diverged /\ forall a w', m w = (Done a, w') -> cur_db w' = d.

  Lemma ends_ret {A} (a : A) : ends (ret a).
  Proof. intros w H. split; [discriminate|]. intros x w' X. apply ret_done in X as [_ ->]. exact H. Qed.
  Lemma ends_fail {A} e : ends (@fail A e).
  Proof. intros w H. split; [discriminate|]. intros; discriminate. Qed.
  Lemma ends_panic {A} e : ends (@panic_with A e).
  Proof. intros w H. split; [discriminate|]. intros; discriminate. Qed.
  Lemma ends_of_option {A} e (o : option A) : ends (of_option e o).
  Proof. destruct o; [apply ends_ret|apply ends_fail]. Qed.
  Lemma ends_lift {A X} (f : X -> error) (r : result A X) : ends (lift_result f r).
  Proof. destruct r; [apply ends_ret|apply ends_fail]. Qed.
  Lemma ends_bind {A B} (m : M A) (k : A -> M B) : ends m -> (forall a, ends (k a)) -> ends (bind m k).
  Proof.
    intros H K w C. destruct (H w C) as [H1 H2]. unfold bind. destruct (m w) as [[a| | | |] w1]; cbn in *;
      try (split; [discriminate|intros; discriminate]); [|contradiction]. apply K. apply (H2 a). reflexivity.
  Qed.
  Lemma ends_unwrap {A} (m : M A) : ends m -> ends (unwrap m).
  Proof.
    intros H w C. destruct (H w C) as [H1 H2]. split.
    - unfold unwrap. destruct (m w) as [[a| | | |] w1]; cbn in *; try discriminate. exact H1.
    - intros a w' X. apply unwrap_done in X. eauto.
  Qed.
  Lemma ends_op {A} (eff : fault -> M A) :
    (forall f w, fst (eff f w) <> Diverged /\ forall a w', eff f w = (Done a, w') -> cur_db w' = cur_db w) -> ends (op eff).
  Proof.
    intros H w C. destruct (op_case eff w) as (f & w1 & X & (t & r & ->)). rewrite X. rewrite <- C.
    exact (H f (set_faults (set_tick w t) r)).
  Qed.
  Lemma ends_db_read {A} (q : db -> A) : ends (db_read q).
  Proof. apply ends_op. intros [] w; (split; [discriminate|]); intros a w' X; inv X; reflexivity. Qed.
  Lemma ends_print t a : ends (print t a).
  Proof. apply ends_op. intros [] w; (split; [discriminate|]); intros x w' X; inv X; reflexivity. Qed.
  Lemma ends_stdout x : ends (write_stdout x).
  Proof. apply ends_op. intros [] w; (split; [discriminate|]); intros y w' X; inv X; reflexivity. Qed.
  Lemma ends_query {A} (q : fs -> loc -> option A) : ends (fs_query q).
  Proof.
    apply ends_op. intros [] w; cbn; try (split; [discriminate|]; intros x w' X; inv X; reflexivity).
    destruct (q (w_fs w) (w_cwd w)); (split; [discriminate|]); intros x w' X; inv X; reflexivity.
  Qed.
  Lemma ends_change {A} (full : fs -> loc -> nat -> option (A * fs)) partial : ends (fs_change full partial).
  Proof.
    apply ends_op. intros f w; cbn. destruct (full (w_fs w) (w_cwd w) (w_tick w)) as [[a f']|], f; cbn;
      (split; [discriminate|]); intros x w' X; inv X; reflexivity.
  Qed.
  Lemma ends_if {A} (b : bool) (m n : M A) : ends m -> ends n -> ends (if b then m else n).
  Proof. destruct b; auto. Qed.
  Lemma ends_mapM {A B} (f : A -> M B) l : (forall a, ends (f a)) -> ends (mapM f l).
  Proof.
    intro H. induction l as [|x l IH]; cbn [mapM]; [apply ends_ret|].
    apply ends_bind; [apply H|intro]. apply ends_bind; [exact IH|intro]. apply ends_ret.
  Qed.

  Ltac ends_step := first
    [ assumption
    | apply ends_ret | apply ends_fail | apply ends_panic | apply ends_of_option | apply ends_lift
    | apply ends_db_read | apply ends_print | apply ends_stdout | apply ends_query | apply ends_change
    | apply ends_unwrap
    | apply ends_bind; [|intro]
    | apply ends_mapM; intro
    | match goal with
      | H : forall _, ends _ |- _ => apply H
      | H : forall _ _, ends _ |- _ => apply H
      | |- ends (match ?x with _ => _ end) => destruct x
      | |- ends (let _ := _ in _) => cbv zeta
      end ].
  Ltac ends_tac := repeat ends_step.

  Lemma ends_get_obj k : ends (get_obj ds k).
  Proof. unfold get_obj, get. cbn [raw_get sqlite_ds]. unfold sqlite_raw_get. ends_tac. Qed.
  (** The continuation only has to end on the object that is stored. *)
  Lemma ends_get_obj_bind {B} k (f : object -> M B) :
    (forall o, object_at d (as_db_key k) = Some o -> ends (f o)) -> ends (bind (get_obj ds k) f).
  Proof.
    intros H w C. destruct (ends_get_obj k w C) as [H1 H2]. unfold bind.
    destruct (get_obj ds k w) as [[o| | | |] w1] eqn:G; cbn in *;
      try (split; [discriminate|intros; discriminate]); [|contradiction].
    apply get_obj_done in G as (_ & v & V & D). apply (H o).
    - unfold object_at. rewrite <- C, V. exact D.
    - apply (H2 o). reflexivity.
  Qed.
  Lemma ends_get_obj_unwrap {B} k (f : object -> M B) :
    (forall o, object_at d (as_db_key k) = Some o -> ends (f o)) -> ends (bind (unwrap (get_obj ds k)) f).
  Proof.
    intros H w C. destruct (ends_get_obj k w C) as [H1 H2]. unfold bind, unwrap.
    destruct (get_obj ds k w) as [[o| | | |] w1] eqn:G; cbn in *;
      try (split; [discriminate|intros; discriminate]); [|contradiction].
    apply get_obj_done in G as (_ & v & V & D). apply (H o).
    - unfold object_at. rewrite <- C, V. exact D.
    - apply (H2 o). reflexivity.
  Qed.

  Context (F : full d).
  Local Notation size := (length (d_data d)).
  (** A key that is stored lies at most [size] levels deep. *)
  Lemma deep k o : object_at d k = Some o -> complete d size k.
  Proof.
    intro H. apply (fu_data _ F). unfold has, object_at in *. destruct (assoc k (d_data d)); congruence.
  Qed.
  Lemma complete_keys n k o : complete d (S n) k -> object_at d k = Some o ->
    forall c, In c (o_keys o) -> complete d n (as_db_key c).
  Proof. intros C O c I. inversion C as [n' k' o' O' H]; subst. apply H. congruence. Qed.

  Section Read.
    Context {S : Type} (wr : S -> bytes -> M S) (Hwr : forall s b, ends (wr s b)).
    Lemma ends_read_within n : forall k s, complete d n (as_db_key k) -> ends (read_data ds wr n k s).
    Proof.
      induction n as [|n IH]; intros k s C; [inversion C|]. cbn [read_data].
      apply ends_get_obj_bind. intros o O. pose proof (complete_keys _ _ _ C O) as K.
      destruct (o_type o); try (ends_tac; fail).
      - generalize s. induction (o_keys o) as [|c r IHr]; intro s0; [apply ends_ret|].
        apply ends_bind; [apply IH, K; left; reflexivity|intro]. apply IHr. intros x X. apply K. right. exact X.
      - destruct (o_keys o) as [|c [|]]; try apply ends_panic. apply IH, K. left. reflexivity.
    Qed.
    Lemma ends_read fuel k s : size < fuel -> ends (read_data ds wr fuel k s).
    Proof.
      intro L. destruct fuel as [|f]; [lia|].
      destruct (object_at d (as_db_key k)) as [o|] eqn:O.
      - apply ends_read_within. eapply complete_le; [eapply deep, O|lia].
      - cbn [read_data]. apply ends_get_obj_bind. intros o O'. congruence.
    Qed.
  End Read.

  Lemma ends_get_fsitem_bind {B} k (f : fsitem -> M B) :
    (forall o i, object_at d (as_db_key k) = Some o -> fi_children i = o_keys o -> ends (f i)) ->
    ends (bind (get_fsitem ds k) f).
  Proof.
    intros H. unfold get_fsitem. intros w C. rewrite bind_assoc. revert w C. change (ends (bind (get_obj ds k)
      (fun x => bind (of_option EDecode (fsitem_of_object x)) f))).
    apply ends_get_obj_bind. intros o O. unfold fsitem_of_object.
    destruct (match decode_fsitem_std (o_data o) with Some p => Some p | None => other_fsitem (o_data o) end) as [[[sz ty] ns]|].
    - intros w C. exact (H o (FSItem sz ty ns (o_keys o)) O eq_refl w C).
    - intros w C. split; [discriminate|]. intros; discriminate.
  Qed.
  Lemma ends_get_fsitem k : ends (get_fsitem ds k).
  Proof. unfold get_fsitem. apply ends_bind; [apply ends_get_obj|intro]. apply ends_of_option. Qed.

  Lemma In_combine_fst {A B} (l : list A) (m : list B) a b : In (a, b) (combine l m) -> In a l.
  Proof. apply in_combine_l. Qed.
  Lemma ends_walk_within n : forall k p, complete d n (as_db_key k) -> ends (internal_walk_fs_items ds n k p).
  Proof.
    induction n as [|n IH]; intros k p C; [inversion C|]. cbn [internal_walk_fs_items].
    apply ends_get_fsitem_bind. intros o i O I. pose proof (complete_keys _ _ _ C O) as K. rewrite <- I in K.
    destruct (fi_type i); [cbv zeta|apply ends_ret].
    generalize (if is_empty_path p then [] else [(p, (k, true))]).
    assert (forall x, In x (combine (fi_children i) (fi_names i)) -> complete d n (as_db_key (fst x))) as KK.
    { intros [x y] X. apply K. eapply in_combine_l, X. }
    induction (combine (fi_children i) (fi_names i)) as [|[c m] r IHr]; intro acc; [apply ends_ret|].
    apply ends_bind; [apply IH; apply (KK (c, m)); left; reflexivity|intro].
    apply IHr. intros x X. apply KK. right. exact X.
  Qed.
  Lemma ends_walk fuel k p : size < fuel -> ends (internal_walk_fs_items ds fuel k p).
  Proof.
    intro L. destruct fuel as [|f]; [lia|].
    destruct (object_at d (as_db_key k)) as [o|] eqn:O.
    - apply ends_walk_within. eapply complete_le; [eapply deep, O|lia].
    - cbn [internal_walk_fs_items]. apply ends_get_fsitem_bind. intros; congruence.
  Qed.

  Lemma ends_mkdir p : ends (fs_create_dir_all p).
  Proof. unfold fs_create_dir_all. ends_tac. Qed.
  Lemma ends_write l b : forall s : unit, ends (file_write l s b).
  Proof. intro. apply ends_change. Qed.
  Lemma ends_write_item n i l : (forall c, In c (fi_children i) -> complete d n (as_db_key c)) ->
    ends (write_item_data ds n i l).
  Proof.
    intro K. unfold write_item_data. destruct (fi_children i) as [|c r]; [apply ends_panic|].
    apply ends_read_within; [intros; apply ends_write|]. apply K. left. reflexivity.
  Qed.
  Lemma ends_get_within n : forall k p, complete d n (as_db_key k) -> ends (get_fs_item ds n k p).
  Proof.
    induction n as [|n IH]; intros k p C; [inversion C|]. cbn [get_fs_item].
    apply ends_get_fsitem_bind. intros o i O I. pose proof (complete_keys _ _ _ C O) as K. rewrite <- I in K.
    destruct (fi_type i).
    - assert (forall x, In x (combine (fi_children i) (fi_names i)) -> complete d n (as_db_key (fst x))) as KK.
      { intros [x y] X. apply K. eapply in_combine_l, X. }
      induction (combine (fi_children i) (fi_names i)) as [|[c m] r IHr]; [apply ends_ret|].
      apply ends_bind; [apply IH; apply (KK (c, m)); left; reflexivity|intro].
      apply IHr. intros x X. apply KK. right. exact X.
    - apply ends_bind; [destruct (parent p); [apply ends_mkdir|apply ends_ret]|intro].
      apply ends_bind; [apply ends_change|intro]. apply ends_write_item, K.
  Qed.
  Lemma ends_get fuel k p : size < fuel -> ends (get_fs_item ds fuel k p).
  Proof.
    intro L. destruct fuel as [|f]; [lia|].
    destruct (object_at d (as_db_key k)) as [o|] eqn:O.
    - apply ends_get_within. eapply complete_le; [eapply deep, O|lia].
    - cbn [get_fs_item]. apply ends_get_fsitem_bind. intros; congruence.
  Qed.

  (** ** show and log *)
  Context (L : size + 1 < stack).
  Lemma ends_read_vec k : ends (read_vec ds k).
  Proof.
    unfold read_vec. apply ends_unwrap, ends_read; [|lia]. intros s b. unfold vec_write. apply ends_ret.
  Qed.
  Lemma ends_pm_index {A} (m : pmap A) p : ends (pm_index m p).
  Proof. unfold pm_index. ends_tac. Qed.
  Lemma ends_walk_items k : ends (walk_fs_items ds k).
  Proof. apply ends_walk. lia. Qed.
  Lemma ends_compare k to : ends (compare ds (TDatabase k) to).
  Proof.
    unfold compare. intros w C. rewrite bind_assoc. revert w C.
    change (ends (bind (walk_fs_items ds k) (fun m => bind (ret (inr m)) (fun src : (path * pmap bool) + pmap (key * bool) => 
    to_map <- match to with
              | Some t => walk_fs_items ds t
              | None => ret []
              end ;;
    let from_keys : list path := match src with inl (_, m) => map fst m | inr m => map fst m end in
    let to_keys : list path := map fst to_map in
    let mem (l : list path) (p : path) := existsb (path_eqb p) l in
    added <- mapM (fun x =>
               match src with
               | inl (_, m) =>
                   isdir <- pm_index m x ;;
                   if (isdir : bool) then ret (Added x true None)
                   else
                     r <- try (hash_fs_item ds x) ;;
                     match r with
                     | Ok h => ret (Added x false (Some h))
                     | Err _ => panic_with PExplicit
                     end
               | inr m => e <- pm_index m x ;; ret (Added x (snd e) (Some (fst e)))
               end)
             (List.filter (fun x => negb (mem to_keys x)) from_keys) ;;
    deleted <- mapM (fun x =>
                 e <- pm_index to_map x ;;
                 isdir <- match src with
                          | inl (_, m) => pm_index m x
                          | inr m => e' <- pm_index m x ;; ret (snd e')
                          end ;;
                 ret (Deleted x isdir (Some (fst e))))
               (List.filter (fun x => negb (mem from_keys x)) to_keys) ;;
    modified <- mapM (fun x =>
                  f <- match src with
                       | inl (base, m) =>
                           isdir <- pm_index m x ;;
                           if (isdir : bool) then ret None
                           else h <- hash_fs_item ds (join base x) ;; ret (Some h)
                       | inr m => e <- pm_index m x ;; ret (Some (fst e))
                       end ;;
                  match f with
                  | None => ret []
                  | Some k =>
                      t <- pm_index to_map x ;;
                      if key_eqb k (fst t) then ret []
                      else ret [Modified x (fst t) k]
                  end)
                (List.filter (mem to_keys) from_keys) ;;
    ret (DiffResult (sort_deleted deleted) (sort_added added) (sort_modified (concat modified))))))).
    apply ends_bind; [apply ends_walk_items|intro m]. intros w C. rewrite bind_ret_l. revert w C. 
    match goal with |- forall w, _ -> fst (?x w) <> _ /\ _ => change (ends x) end.
    apply ends_bind; [destruct to; [apply ends_walk_items|apply ends_ret]|intro tm]. cbv zeta.
    repeat (first [apply ends_mapM; intro | apply ends_pm_index | ends_step]).
  Qed.
  Lemma ends_line_ct k : ends (line_ct ds k).
  Proof. unfold line_ct. apply ends_bind; [apply ends_read_vec|intro]. apply ends_ret. Qed.
  Lemma ends_print_stats l : ends (print_stats l).
  Proof. induction l as [|s l IH]; cbn [print_stats]; ends_tac. Qed.
  Lemma ends_print_stat r : ends (print_stat_diff_result ds r).
  Proof.
    unfold print_stat_diff_result, line_stat.
    repeat (first [apply ends_line_ct | apply ends_read_vec | apply ends_print_stats | ends_step]).
  Qed.
  Lemma ends_print_patch r : ends (print_patch_diff_result ds r).
  Proof.
    unfold print_patch_diff_result, create_diff_patch_result, whole_file, patch_from_file_string.
    repeat (first [apply ends_read_vec | ends_step]).
  Qed.
  Lemma ends_commit_of o : ends (commit_of_object o).
  Proof. unfold commit_of_object. ends_tac. Qed.
  Lemma ends_stdout_write s b : ends (stdout_write s b).
  Proof. apply ends_stdout. Qed.
  Lemma ends_display_within n : forall k kd, complete d n (as_db_key k) -> ends (display_obj ds (S n) k kd).
  Proof.
    induction n as [|n IH]; intros k kd C; [inversion C|].
    remember (S n) as m. cbn [display_obj]. apply ends_get_obj_unwrap. intros o O. subst m.
    destruct (o_type o).
    - apply ends_read_within; [intros; apply ends_stdout|exact C].
    - apply ends_read_within; [intros; apply ends_stdout|exact C].
    - repeat (first [apply ends_commit_of | apply ends_get_obj | apply ends_compare | apply ends_print_stat | apply ends_print_patch | ends_step]).
    - ends_tac.
    - pose proof (complete_keys _ _ _ C O) as K. destruct (o_keys o) as [|c [|]]; try apply ends_panic.
      apply IH, K. left. reflexivity.
    - ends_tac.
  Qed.
  Lemma ends_display fuel k kd : size + 1 < fuel -> ends (display_obj ds fuel k kd).
  Proof.
    intro L'. destruct fuel as [|[|f]]; [lia|lia|].
    destruct (object_at d (as_db_key k)) as [o|] eqn:O.
    - apply ends_display_within. eapply complete_le; [eapply deep, O|lia].
    - remember (S f) as g. cbn [display_obj]. apply ends_get_obj_unwrap. intros; congruence.
  Qed.

  Lemma ends_commit_bind {B} o (f : commit -> M B) : (forall c, c_tree c :: c_parents c = o_keys o -> ends (f c)) ->
    ends (bind (unwrap (commit_of_object o)) f).
  Proof.
    intro H. unfold commit_of_object.
    destruct (match decode_attrs_std (o_data o) with Some a => Some a | None => other_attrs (o_data o) end) as [a|].
    - destruct (o_keys o) as [|t ps] eqn:K.
      + intros w C. split; [discriminate|]. intros; discriminate.
      + intros w C. apply H; [reflexivity|exact C].
    - intros w C. split; [discriminate|]. intros; discriminate.
  Qed.
  Lemma ends_log_within n : forall c kd, (forall p, In p (c_parents c) -> object_at d (as_db_key p) = None \/ complete d n (as_db_key p)) ->
    ends (log_loop ds (S n) c kd).
  Proof.
    assert (forall f (c : commit) kd p, object_at d (as_db_key p) = None -> ends (display_obj ds stack p kd ;;;
            print "" [] ;;; print "" [] ;;;
            o <- unwrap (get_obj ds p) ;;
            c' <- unwrap (commit_of_object o) ;;
            log_loop ds f c' kd)) as NN.
    { intros f c kd p N. apply ends_bind; [apply ends_display, L|intros _].
      do 2 (apply ends_bind; [apply ends_print|intros _]). apply ends_get_obj_unwrap. intros; congruence. }
    induction n as [|n IH]; intros c kd K.
    { cbn [log_loop]. destruct (c_parents c) as [|p ps]; [apply ends_ret|].
      destruct (K p (or_introl eq_refl)) as [N|C]; [apply (NN 0), N; exact c|inversion C]. }
    remember (S n) as m. cbn [log_loop]. subst m. destruct (c_parents c) as [|p ps]; [apply ends_ret|].
    destruct (K p (or_introl eq_refl)) as [N|C]; [apply (NN (S n)), N; exact c|].
    apply ends_bind; [apply ends_display, L|intros _]. do 2 (apply ends_bind; [apply ends_print|intros _]).
    apply ends_get_obj_unwrap. intros o O.
    apply ends_commit_bind. intros c' C'. apply IH. intros q Q. right.
    eapply complete_keys; [exact C|exact O|]. rewrite <- C'. right. exact Q.
  Qed.
  Lemma ends_log_loop fuel c kd : size < fuel -> ends (log_loop ds fuel c kd).
  Proof.
    intro Lf. destruct fuel as [|f]; [lia|]. apply ends_log_within. intros p P.
    destruct (object_at d (as_db_key p)) as [o|] eqn:O; [right|left; reflexivity].
    eapply complete_le; [eapply deep, O|lia].
  Qed.
  Lemma ends_log k kd : size < loop_bound -> ends (log_obj ds k kd).
  Proof.
    intro Lb. unfold log_obj.
    repeat (first [apply ends_get_obj | apply ends_display, L | apply ends_log_loop, Lb | apply ends_commit_of | ends_step]).
  Qed.
End Ends.

(** Nothing is missing: no read fails with "no such row". *)
Section Found.
  Context {E : Env} (d : db).
  Local Notation ds := sqlite_ds.
  Definition found {A} (m : M A) : Prop := forall w, cur_db w = d -> w_faults w = [] ->
    fst (m w) <> Error ESql /\ forall a w', m w = (Done a, w') -> cur_db w' = d /\ w_faults w' = [].

  Lemma found_ret {A} (a : A) : found (ret a).
  Proof. intros w H N. split; [discriminate|]. intros x w' X. apply ret_done in X as [_ ->]. auto. Qed.
  Lemma found_panic {A} e : found (@panic_with A e).
  Proof. intros w H N. split; [discriminate|]. intros; discriminate. Qed.
  Lemma found_diverge {A} : found (@diverge A).
  Proof. intros w H N. split; [discriminate|]. intros; discriminate. Qed.
  Lemma found_bind {A B} (m : M A) (k : A -> M B) : found m -> (forall a, found (k a)) -> found (bind m k).
  Proof.
    intros H K w C N. destruct (H w C N) as [H1 H2]. unfold bind. destruct (m w) as [[a| | | |] w1]; cbn in *;
      try (split; [discriminate|intros; discriminate]).
    - destruct (H2 a w1 eq_refl). apply K; assumption.
    - split; [congruence|intros; discriminate].
  Qed.
  Lemma found_get_obj_bind {B} k n (f : object -> M B) : complete d n (as_db_key k) ->
    (forall o, object_at d (as_db_key k) = Some o -> found (f o)) -> found (bind (get_obj ds k) f).
  Proof.
    intros C0 H. apply complete_object in C0 as [o O]. specialize (H o O).
    unfold object_at in O. destruct (assoc (as_db_key k) (d_data d)) as [v|] eqn:V; [|discriminate].
    intros w C N. unfold bind.
    destruct (db_read_nofault (fun d => assoc (as_db_key k) (d_data d)) w N) as (w1 & T & NF & R).
    assert (get_obj ds k w = (Done o, w1)) as G.
    { rewrite get_obj_eq. unfold bind. rewrite R, C, V. cbn. rewrite O. reflexivity. }
    rewrite G. apply H; [|exact NF]. destruct T as (t & r & ->). exact C.
  Qed.
  Lemma found_read {S} (wr : S -> bytes -> M S) (Hwr : forall s b, found (wr s b)) fuel :
    forall n k s, complete d n (as_db_key k) -> found (read_data ds wr fuel k s).
  Proof.
    induction fuel as [|f IH]; intros n k s C; [apply found_diverge|]. cbn [read_data].
    eapply found_get_obj_bind; [exact C|]. intros o O. inversion C as [m x o' O' K]; subst.
    rewrite O in O'. injection O' as <-.
    destruct (o_type o); try apply found_panic; try apply Hwr.
    - generalize s. induction (o_keys o) as [|c r IHr]; intro s0; [apply found_ret|].
      apply found_bind; [eapply IH, K; left; reflexivity|intro]. apply IHr. intros y Y. apply K. right. exact Y.
    - destruct (o_keys o) as [|c [|]]; try apply found_panic. eapply IH, K. left. reflexivity.
  Qed.
  Lemma found_item_bind {B} k n (f : fsitem -> M B) : complete d n (as_db_key k) ->
    (forall o i, object_at d (as_db_key k) = Some o -> fi_children i = o_keys o -> found (f i)) ->
    found (bind (get_fsitem ds k) f).
  Proof.
    intros C H. unfold get_fsitem. intros w X N. rewrite bind_assoc. revert w X N. change (found (bind (get_obj ds k)
      (fun x => bind (of_option EDecode (fsitem_of_object x)) f))).
    eapply found_get_obj_bind; [exact C|]. intros o O. unfold fsitem_of_object.
    destruct (match decode_fsitem_std (o_data o) with Some p => Some p | None => other_fsitem (o_data o) end) as [[[sz ty] ns]|].
    - intros w X N. exact (H o (FSItem sz ty ns (o_keys o)) O eq_refl w X N).
    - intros w X N. split; [discriminate|]. intros; discriminate.
  Qed.
  Lemma found_walk fuel : forall n k p, complete d n (as_db_key k) -> found (internal_walk_fs_items ds fuel k p).
  Proof.
    induction fuel as [|f IH]; intros n k p C; [apply found_diverge|]. cbn [internal_walk_fs_items].
    eapply found_item_bind; [exact C|]. intros o i O I. inversion C as [m x o' O' K]; subst.
    rewrite O in O'. injection O' as <-. rewrite <- I in K.
    destruct (fi_type i); [cbv zeta|apply found_ret].
    generalize (if is_empty_path p then [] else [(p, (k, true))]).
    assert (forall x, In x (combine (fi_children i) (fi_names i)) -> complete d m (as_db_key (fst x))) as KK.
    { intros [x y] X. apply K. eapply in_combine_l, X. }
    induction (combine (fi_children i) (fi_names i)) as [|[c q] r IHr]; intro acc; [apply found_ret|].
    apply found_bind; [eapply IH; apply (KK (c, q)); left; reflexivity|intro].
    apply IHr. intros x X. apply KK. right. exact X.
  Qed.
End Found.

Section Read.
  Context {E : Env}.
  Local Notation ds := sqlite_ds.
  Lemma object_complete d k o : full d -> object_at d k = Some o -> complete d (length (d_data d)) k.
  Proof. intros F O. exact (deep d F k o O). Qed.
  Lemma reads_found w l k o w' : reachable w -> cur_db w' = db_at (w_dbs w) l ->
    object_at (db_at (w_dbs w) l) (as_db_key k) = Some o -> w_faults w' = [] -> forall fuel s p,
    fst (read_data ds vec_write fuel k s w') <> Error ESql /\
    fst (internal_walk_fs_items ds fuel k p w') <> Error ESql.
  Proof.
    intros R C O N fuel s p. pose proof (reachable_full w R l) as F. apply object_complete in O; [|exact F]. split.
    - eapply found_read; [|exact O|exact C|exact N]. intros. apply found_ret.
    - eapply found_walk; [exact O|exact C|exact N].
  Qed.
  Lemma reads_end w l w' : reachable w -> cur_db w' = db_at (w_dbs w) l ->
    forall fuel k, length (d_data (db_at (w_dbs w) l)) < fuel ->
    (forall s, fst (read_data ds vec_write fuel k s w') <> Diverged) /\
    (forall p, fst (internal_walk_fs_items ds fuel k p w') <> Diverged) /\
    (forall p, fst (get_fs_item ds fuel k p w') <> Diverged).
  Proof.
    intros R C fuel k L. pose proof (reachable_full w R l) as F. split; [|split]; intro x.
    - apply (ends_read (db_at (w_dbs w) l)); auto. intros. apply ends_ret.
    - apply (ends_walk (db_at (w_dbs w) l)); auto.
    - apply (ends_get (db_at (w_dbs w) l)); auto.
  Qed.
  Lemma shows_end w l w' : reachable w -> cur_db w' = db_at (w_dbs w) l ->
    length (d_data (db_at (w_dbs w) l)) + 1 < stack ->
    (forall k kd, fst (display_obj ds stack k kd w') <> Diverged) /\
    (length (d_data (db_at (w_dbs w) l)) < loop_bound -> forall k kd, fst (log_obj ds k kd w') <> Diverged).
  Proof.
    intros R C L. pose proof (reachable_full w R l) as F. split; [intros k kd|intros L2 k kd].
    - apply (ends_display (db_at (w_dbs w) l)); auto.
    - apply (ends_log (db_at (w_dbs w) l)); auto.
  Qed.
End Read.
