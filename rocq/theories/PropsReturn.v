(** Property C98: commands that always come to an end. *)
From Verif Require Import Base BaseFacts Key Keyish Cbor Object Path World WorldFacts Store File Filter Dir Diff Commit Main SpecStore StoreCalls SpecRun SpecProc SpecReturn Returns Toy ToyRepo PropsMain.

(** ** C98 *)
(** Whatever fails, and whatever the files are like, a command that does not walk through
    directories comes to an end, if the stack and the loops allow for a chain of all
    objects. *)
Theorem C98_returns :
  forall (E : Env) cm w st w1 c, reachable w -> starts cm w st w1 -> walks_files c = false ->
  (st <> None -> length (d_data (cur_db w1)) + 1 < stack /\ length (d_data (cur_db w1)) < loop_bound) -> fst (run_command cm st c w1) <> Diverged.
Proof. intros E cm w st w1 c. apply command_returns. Qed.
Print Assumptions C98_returns.
(** The whole process has an exit status, unless it is killed from outside. *)
Theorem C98_process :
  forall (E : Env) cm w c w', reachable w -> walks_files c = false ->
  (forall s w1, starts cm w (Some s) w1 -> length (d_data (cur_db w1)) + 1 < stack /\ length (d_data (cur_db w1)) < loop_bound) ->
  run_process cm c w = (None, w') -> fst (main cm c (close_all w)) = Crashed.
Proof.
  intros E cm w c w' R N L H. pose proof (process_returns cm w c R N L) as X. unfold run_process in H. destruct (main cm c (close_all w)) as [[a|e|p| |] v]; cbn in *; try discriminate H; [reflexivity|destruct (X eq_refl)].
Qed.
Print Assumptions C98_process.

(** The example repository, with statements that fail, and killed while it reads. *)
Definition rt_world : world := set_faults toy_committed (repeat FOk 9 ++ [FErr 0; FOk; FErr 1]).
Definition rt_killed : world := set_faults toy_committed (repeat FOk 9 ++ [FCrash 0]).
Definition rt_sizes (w : world) : bool := let n := length (d_data (cur_db (snd (@setup toy_env toy_cm (close_all w))))) in (n + 1 <? 50) && (n <? 50).
Lemma rt_small w : rt_sizes w = true -> forall s w1, @starts toy_env toy_cm w (Some s) w1 -> length (d_data (cur_db w1)) + 1 < @stack toy_env /\ length (d_data (cur_db w1)) < @loop_bound toy_env.
Proof.
  intros H s w1 S. unfold starts in S. unfold rt_sizes in H. rewrite S in H. cbn [snd] in H. apply andb_prop in H as [A B]. apply Nat.ltb_lt in A, B. split; [exact A|exact B].
Qed.
Lemma rt_faults {E : Env} w f : reachable w -> reachable (set_faults w f).
Proof. intro R. apply (reach_outside w); [exact R|split; reflexivity]. Qed.
Lemma rt_reach f : reachable (set_faults toy_committed f).
Proof. exact (rt_faults _ f toy_committed_reachable). Qed.
Lemma rt_sized : rt_sizes rt_world = true /\ rt_sizes rt_killed = true.
Proof. split; vm_compute; reflexivity. Qed.
Lemma rt_ends : map (fun c => fst (run_process toy_cm c rt_world)) [CCheckout; CLog None; CShow None] = [Some 0%N; Some 101%N; Some 101%N] /\ fst (run_process toy_cm CCheckout rt_killed) = None.
Proof. split; vm_compute; reflexivity. Qed.
Example C98_example : reachable rt_world /\ reachable rt_killed /\
  (forall s w1, starts toy_cm rt_world (Some s) w1 -> length (d_data (cur_db w1)) + 1 < stack /\ length (d_data (cur_db w1)) < loop_bound) /\
  (forall s w1, starts toy_cm rt_killed (Some s) w1 -> length (d_data (cur_db w1)) + 1 < stack /\ length (d_data (cur_db w1)) < loop_bound) /\
  exists w', run_process toy_cm CCheckout rt_killed = (None, w').
Proof.
  split; [exact (rt_reach _)|]. split; [exact (rt_reach _)|]. split; [exact (rt_small _ (proj1 rt_sized))|]. split; [exact (rt_small _ (proj2 rt_sized))|].
  destruct rt_ends as [_ H]. destruct (run_process toy_cm CCheckout rt_killed) as [o w']. cbn [fst] in H. subst o. exists w'. reflexivity.
Qed.
