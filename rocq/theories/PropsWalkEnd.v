(** Property C97: how [debug walk-fs-tree] ends. *)
From Coq Require String.
From Verif Require Import Base BaseFacts Key Keyish Cbor Object Path World WorldFacts Store File Filter Dir Diff Commit Main SpecStore StoreCalls SpecRun SpecProc SpecFile SpecDir SpecCache SpecDiff SpecCmd SpecClosure SpecShape SpecLive SpecStoring SpecFetch WalkEnds
  FsFacts Checks Toy ToyRepo PropsMain PropsShow PropsCmd PropsShape PropsLive PropsFatal PropsStoring.

(** ** C97 *)
(** If nothing fails, [debug walk-fs-tree] says "fatal:" if there is no directory at the
    path.  If there is one, it lists it to the end and everything in it is a file or a
    directory; or it says "fatal:" and something in it is neither; or it is killed and
    something in it is nested too deep for the stack.  It does not panic.  There need not
    be a repository. *)
Theorem C97_walk_ends :
  forall (E : Env) cm st w w1 p, w_faults w = [] -> starts cm w st w1 -> fs_ok (w_fs w1) -> let c := CWalkFsTree p in
  (0 < stack -> ~ directory w1 p -> says_fatal cm c st w w1) /\
  (forall l, stat (w_fs w1) (w_cwd w1) p = Some (l, EDir) ->
    does_it cm c st w w1 /\ walkable_at (w_fs w1) l stack \/
    says_fatal cm c st w w1 /\ (exists r e, lookup (w_fs w1) (l ++ r) = Some e /\ (e = ESpecial \/ e = EDangling)) \/
    (exists w', run_process cm c w = (None, w')) /\ exists r e, lookup (w_fs w1) (l ++ r) = Some e /\ stack <= length r).
Proof. intros E cm st w w1 p. apply walk_ends. Qed.
Print Assumptions C97_walk_ends.

(** The example repository as it is, with a device, with a link that leads nowhere, and
    with directories nested deeper than the stack allows; and a path without a directory. *)
Definition wf_cmd : command := CWalkFsTree sg_path.
Definition wf_deep : world := set_fs toy_committed (w_fs toy_committed ++ map (fun n => (str "r" :: repeat (str "deep") n, EDir)) (seq 1 51)).
Definition wf_opened (w : world) : world := snd (setup toy_cm (close_all w)).
Definition wf_ready (w : world) : Prop :=
  w_faults w = [] /\ starts toy_cm w (Some pm_s) (wf_opened w) /\ fs_ok (w_fs (wf_opened w)) /\ stat (w_fs (wf_opened w)) (w_cwd (wf_opened w)) sg_path = Some ([str "r"], EDir).
Ltac wf_go := split; [vm_compute; reflexivity|split; [vm_compute; reflexivity|split; [apply fs_okb_ok; vm_compute; reflexivity|vm_compute; reflexivity]]].
Lemma wf_plain : wf_ready toy_committed.
Proof. wf_go. Qed.
Lemma wf_device : wf_ready sg_device.
Proof. wf_go. Qed.
Lemma wf_link : wf_ready sg_link.
Proof. wf_go. Qed.
Lemma wf_deeper : wf_ready wf_deep.
Proof. wf_go. Qed.
Lemma wf_ends :
  map (fun w => sg_end (run_process toy_cm wf_cmd w)) [toy_committed; sg_device; sg_link; wf_deep] =
  [(Some 0%N, Some "item"%string); (Some 0%N, Some "fatal:"%string); (Some 0%N, Some "fatal:"%string); (None, sg_last wf_deep)].
Proof. vm_compute. reflexivity. Qed.
Lemma wf_nothing : stat (w_fs (wf_opened toy_committed)) (w_cwd (wf_opened toy_committed)) (parse_path (str "nothing")) = None /\
  sg_end (run_process toy_cm (CWalkFsTree (parse_path (str "nothing"))) toy_committed) = (Some 0%N, Some "fatal:"%string).
Proof. split; vm_compute; reflexivity. Qed.
Example C97_example : wf_ready toy_committed /\ wf_ready sg_device /\ wf_ready sg_link /\ wf_ready wf_deep /\ ~ directory (wf_opened toy_committed) (parse_path (str "nothing")).
Proof.
  split; [exact wf_plain|]. split; [exact wf_device|]. split; [exact wf_link|]. split; [exact wf_deeper|]. intros [l H]. rewrite (proj1 wf_nothing) in H. discriminate H.
Qed.
