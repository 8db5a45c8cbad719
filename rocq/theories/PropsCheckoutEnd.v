(** Property C96: how [checkout] ends. *)
From Verif Require Import Base BaseFacts Key Keyish Cbor Object Path World WorldFacts Store File Filter Dir Diff Commit Main SpecStore SpecRun SpecProc SpecFile SpecDir SpecClosure
  SpecCache SpecDiff SpecPatch SpecShow SpecOut SpecCmd SpecText SpecShape SpecCheckout SpecLive SpecStoring LiveCmd LiveStart LiveStory CheckoutEnds FsFacts CmdFacts ShapeTop Checks Toy ToyRepo
  PropsMain PropsShow PropsCmd PropsShape PropsLive PropsCheckout PropsStory.

(** ** C96 *)
(** If nothing fails, HEAD names a commit, and the repository is below
    "/home/jess/src/snapcd/repo" and has no link that leads nowhere, [checkout] does its
    work if its tree can be checked out (see C72) and says "fatal:" if not.  It panics if
    a pattern is not a glob. *)
Theorem C96_checkout_ends :
  forall (E : Env) cm w s w1 d t, well_used w -> w_faults w = [] -> starts cm w (Some s) w1 -> cm_db_path cm = named d -> d <> [] ->
  no_coll (w_hashed w1) -> deep_enough w1 -> fs_ok (w_fs w1) -> has_head w1 -> head_tree w1 (Some t) ->
  exists e, let dbl := e ++ d in let l := e ++ removelast d in
  above (w_cwd w) e /\ ds_folder s = abs_path dbl /\ ds_repo s = abs_path l /\
  (~ globs_ok cm -> exists w', run_process cm CCheckout w = (Some 101%N, w')) /\
  (globs_ok cm -> in_home l -> (forall r, lookup (w_fs w1) (l ++ r) <> Some EDangling) ->
    does_it cm CCheckout (Some s) w w1 /\ can_checkout (cm_exclude cm) dbl w1 t l \/
    says_fatal cm CCheckout (Some s) w w1 /\ ~ can_checkout (cm_exclude cm) dbl w1 t l).
Proof.
  intros E cm w s w1 d t U F S Cp Nd NC De O Hh Ht. destruct (starts_place cm w s w1 d F S Cp Nd) as (e & Ab & -> & Dirs). exists e. split; [exact Ab|]. split; [reflexivity|]. split; [reflexivity|].
  apply (checkout_ends cm w w1 e d t); assumption.
Qed.
Print Assumptions C96_checkout_ends.

(** The edited repository of C72, which can be checked out, and the one without the
    directory "s", which cannot. *)
#[local] Existing Instance co_env.
Definition ck_dangling (f : fs) : bool := existsb (fun x => match snd x with EDangling => true | _ => false end) f.
Lemma ck_clear f : ck_dangling f = false -> forall l, lookup f l <> Some EDangling.
Proof.
  intros H [|n l] L; [discriminate L|]. apply assoc_loc_in in L. assert (X : ck_dangling f = true); [|congruence]. apply existsb_exists. eexists. split; [exact L|reflexivity].
Qed.
Lemma ck_db : cur_db st_lost1 = cur_db co_v1.
Proof. vm_compute. reflexivity. Qed.
Lemma ck_head {E : Env} w w' t : cur_db w' = cur_db w -> head_tree w t -> head_tree w' t.
Proof.
  intros C (n & B & H). exists n. rewrite C. split; [exact B|]. destruct t as [t|]; [|exact H]. destruct H as (k & l & c & Hi & R & Q). exists k, l, c. split; [exact Hi|]. split; [eapply reads_commit_cur; eassumption|exact Q].
Qed.
Definition ck_ready (w w1 : world) (t : key) : Prop :=
  well_used w /\ w_faults w = [] /\ starts co_cm w (Some co_s) w1 /\ cm_db_path co_cm = named [str ".snapcd"] /\ no_coll (w_hashed w1) /\ deep_enough w1 /\ fs_ok (w_fs w1) /\ has_head w1 /\
  head_tree w1 (Some t) /\ globs_ok co_cm /\ in_home co_home /\ (forall r, lookup (w_fs w1) (co_home ++ r) <> Some EDangling).
Lemma ck_has : has_head co_v1.
Proof. exists (str "master"). split; vm_compute; reflexivity. Qed.
Lemma ck_clear1 : ck_dangling (w_fs co_v1) = false /\ ck_dangling (w_fs st_lost1) = false.
Proof. split; vm_compute; reflexivity. Qed.
Lemma ck_cwd : w_cwd co_lost = co_home /\ w_cwd co_edited = co_home.
Proof. split; vm_compute; reflexivity. Qed.
Lemma ck_edited : exists t, ck_ready co_edited co_v1 t.
Proof.
  destruct C72_checkout_example as (e & t & _ & Ht & _). exists t. destruct st_log2 as (L & De & O). split; [exact (used_fs _ _ st_used2)|]. split; [exact (proj2 st_faults)|]. split; [exact co_starts2|]. split; [reflexivity|].
  split; [exact L|]. split; [exact De|]. split; [exact O|]. split; [exact ck_has|]. split; [exact Ht|]. split; [reflexivity|]. split; [exists []; reflexivity|]. intro r. exact (ck_clear _ (proj1 ck_clear1) _).
Qed.
Lemma ck_lost : exists t, ck_ready co_lost st_lost1 t.
Proof.
  destruct C72_checkout_example as (e & t & _ & Ht & _). exists t. destruct st_lost_log as (L & De & O & Hh). split; [exact (used_fs _ _ st_used2)|]. split; [exact (proj1 st_faults)|]. split; [exact st_starts|]. split; [reflexivity|].
  split; [exact L|]. split; [exact De|]. split; [exact O|]. split; [exact Hh|]. split; [exact (ck_head _ _ _ ck_db Ht)|]. split; [reflexivity|]. split; [exists []; reflexivity|]. intro r. exact (ck_clear _ (proj2 ck_clear1) _).
Qed.
Lemma ck_which : fst (run_command co_cm (Some co_s) CCheckout co_v1) = Done tt /\ match fst (run_command co_cm (Some co_s) CCheckout st_lost1) with Error _ => True | _ => False end.
Proof. split; vm_compute; [reflexivity|exact I]. Qed.
Example C96_example : (exists t, ck_ready co_edited co_v1 t) /\ (exists t, ck_ready co_lost st_lost1 t) /\
  fst (run_command co_cm (Some co_s) CCheckout co_v1) = Done tt /\ match fst (run_command co_cm (Some co_s) CCheckout st_lost1) with Error _ => True | _ => False end.
Proof. split; [exact ck_edited|]. split; [exact ck_lost|exact ck_which]. Qed.
