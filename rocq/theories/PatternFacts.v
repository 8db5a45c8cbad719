(** Exclude patterns that are not globs. *)
From Verif Require Import Base Key Keyish Object Path World Store File Filter Dir Diff Commit Main.

Section Pattern.
  Context {E : Env}.
  Definition never {A} (m : M A) : Prop := forall w a w', m w <> (Done a, w').
  Lemma never_first {A B} (m : M A) (f : A -> M B) : never m -> never (bind m f).
  Proof. intros N w b w'. unfold bind. specialize (N w). destruct (m w) as [[a|e|p| |] v]; try discriminate. destruct (N a v eq_refl). Qed.
  Lemma never_then {A B} (m : M A) (f : A -> M B) : (forall a, never (f a)) -> never (bind m f).
  Proof. intros N w b w'. unfold bind. destruct (m w) as [[a|e|p| |] v]; try discriminate. apply N. Qed.
  Lemma bad_filter ex fo : forallb glob_valid ex = false -> never (make_filter_fn ex fo).
  Proof. intros H w a w'. unfold make_filter_fn. rewrite H. discriminate. Qed.
  Lemma bad_compare p ex fo to : forallb glob_valid ex = false -> never (compare sqlite_ds (TFileSystem p ex fo) to).
  Proof. intros H. unfold compare. apply never_first, never_first, bad_filter, H. Qed.
  Theorem bad_commands cm s : forallb glob_valid (cm_exclude cm) = false ->
    (forall p w, fst (run_command cm (Some s) (CInsert p) w) = Panicked (PUnwrap None)) /\ (forall p m r w, fst (run_command cm (Some s) (CCommit p m r) w) = Panicked (PUnwrap None)) /\
    (forall c w w', run_command cm (Some s) c w = (Done tt, w') ->
       match c with
       | CInsert _ | CCommit _ _ _ | CCompare _ _ _ | CCheckout | CCheckoutHead _ => False
       | CStatus => exists n r, w_out w' = Printed "HEAD (no commits):" [n; n] :: r
       | _ => True
       end).
  Proof.
    intro H. assert (I : forall p w, fst (run_command cm (Some s) (CInsert p) w) = Panicked (PUnwrap None)) by (intros p w; cbn [run_command with_ds]; unfold cmd_insert, make_filter_fn, bind; rewrite H; reflexivity).
    assert (C : forall p m r w, fst (run_command cm (Some s) (CCommit p m r) w) = Panicked (PUnwrap None)) by (intros p m r w; cbn [run_command with_ds]; unfold cmd_commit, make_filter_fn, bind; rewrite H; reflexivity).
    split; [exact I|]. split; [exact C|]. intros c w w' R. destruct c; try exact Logic.I.
    - specialize (I p w). rewrite R in I. discriminate.
    - specialize (C p message refname w). rewrite R in C. discriminate.
    - revert R. cbn [run_command with_ds]. unfold cmd_compare. apply never_then. intro key. apply never_first, bad_compare, H.
    - cbn [run_command with_ds] in R. unfold cmd_status, bind at 1 in R. destruct (head_or_fail w) as [[n|e|p| |] v]; try discriminate. unfold bind at 1 in R. destruct (try (reflog_get sqlite_ds n None) v) as [[[k|e]|e|p| |] v1]; try discriminate.
      + exfalso. revert R. apply never_then. intros _. apply never_then. intro c. apply never_first, bad_compare, H.
      + exists n. unfold print, op in R. cbn in R. destruct (w_faults v1) as [|[] fs]; cbn in R; try discriminate R; inversion R; eexists; reflexivity.
    - revert R. cbn [run_command with_ds]. unfold cmd_checkout. apply never_then. intro k. apply never_first, bad_filter, H.
    - revert R. cbn [run_command with_ds]. unfold cmd_checkout_head. apply never_then. intro n. apply never_then. intro g. apply never_then. intro t. apply never_first, bad_compare, H.
  Qed.
End Pattern.
