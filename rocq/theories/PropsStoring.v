(** Property C93: how storing files ends. *)
From Coq Require String.
From Verif Require Import Base BaseFacts Key Keyish Cbor Object Path World WorldFacts Store File Filter Dir Diff Commit Main SpecStore StoreCalls SpecRun SpecProc SpecFile SpecDir SpecCache SpecDiff SpecCmd SpecClosure SpecShape SpecLive SpecStoring StoringFacts
  FsFacts Checks Toy ToyRepo PropsMain PropsShow PropsCmd PropsShape PropsLive PropsFatal.


(** ** C93 *)
(** If nothing fails, [insert] and [commit] panic if a pattern is not a glob; else they say
    [fatal:] if there is nothing at the path; else they do it, and nothing is in the way;
    or they say [fatal:], and some name is not text; or they panic, and a link leads
    nowhere or something is neither file nor directory. *)
Theorem C93_storing :
  forall (E : Env) cm w s w1 c q, reachable w -> w_faults w = [] -> starts cm w (Some s) w1 -> quiet_disk w1 -> stores_path s w1 c q ->
  let dbl := locate (w_cwd w1) (ds_folder s) in
  (~ globs_ok cm -> exists w', run_process cm c w = (Some 101%N, w')) /\
  (globs_ok cm ->
    (0 < stack -> (forall l, ~ something_at w1 q l) -> says_fatal cm c (Some s) w w1) /\
    (forall l, something_at w1 q l -> shallow (w_fs w1) l ->
      does_it cm c (Some s) w w1 /\ ~ oddity (cm_exclude cm) dbl (w_fs w1) q l /\ ~ odd_name (cm_exclude cm) dbl (w_fs w1) q l \/
      says_fatal cm c (Some s) w w1 /\ odd_name (cm_exclude cm) dbl (w_fs w1) q l \/
      (exists w', run_process cm c w = (Some 101%N, w')) /\ oddity (cm_exclude cm) dbl (w_fs w1) q l)).
Proof. intros E cm w s w1 c q. apply storing_ends. Qed.
Print Assumptions C93_storing.

(** The example repository as it is and with one more entry: a name that is not text, a
    link that leads nowhere, a device. *)
Definition sg_with (n : name) (e : entry) : world := set_fs toy_committed (w_fs toy_committed ++ [(in_r n, e)]).
Definition sg_name : world := sg_with [byte_of 255] (EFile (str "x") (Stamp 20 200)).
Definition sg_link : world := sg_with (str "link") EDangling.
Definition sg_device : world := sg_with (str "device") ESpecial.
Definition sg_commit : command := CCommit None (str "second") None.
Definition sg_path : path := ds_repo pm_s.
Definition sg_shallow (f : fs) : bool := forallb (fun x => length (fst x) <? @stack toy_env) f.
Lemma sg_shallow_ok f : sg_shallow f = true -> @shallow toy_env f [str "r"].
Proof.
  intros H r e L. apply assoc_loc_in in L. unfold sg_shallow in H. rewrite forallb_forall in H. apply H in L. apply Nat.ltb_lt in L. cbn [fst] in L. rewrite app_length in L. cbn in L |- *. lia.
Qed.
Definition sg_ready (w : world) : Prop :=
  reachable w /\ w_faults w = [] /\ starts toy_cm w (Some pm_s) (fa_started w) /\ quiet_disk (fa_started w) /\ stores_path pm_s (fa_started w) sg_commit sg_path /\ globs_ok toy_cm /\
  something_at (fa_started w) sg_path [str "r"] /\ shallow (w_fs (fa_started w)) [str "r"].
Ltac sg_go := split; [exact (reach_files _ _ toy_committed_reachable)|split; [vm_compute; reflexivity|split; [vm_compute; reflexivity|split; [apply quietb; vm_compute; reflexivity|split; [split; [reflexivity|split; [vm_compute; reflexivity|intros _; exists (str "master"); split; vm_compute; reflexivity]]|split; [vm_compute; reflexivity|split; [exists EDir; split; [vm_compute; reflexivity|discriminate]|apply sg_shallow_ok; vm_compute; reflexivity]]]]]]].
Lemma sg_plain_ready : sg_ready (set_fs toy_committed (w_fs toy_committed)).
Proof. sg_go. Qed.
Lemma sg_name_ready : sg_ready sg_name.
Proof. sg_go. Qed.
Lemma sg_link_ready : sg_ready sg_link.
Proof. sg_go. Qed.
Lemma sg_device_ready : sg_ready sg_device.
Proof. sg_go. Qed.
(** All four outcomes occur, and so do a path that does not exist and a pattern that is
    not a glob. *)
Definition sg_last (w : world) : option String.string := match w_out w with Printed s _ :: _ => Some s | _ => None end.
Definition sg_end (x : option N * world) : option N * option String.string := (fst x, sg_last (snd x)).
Definition sg_missing : command := CInsert (parse_path (str "nothing")).
Lemma sg_ends :
  map (fun w => sg_end (run_process toy_cm sg_commit w)) [toy_committed; sg_name; sg_link; sg_device] =
    [(Some 0%N, sg_last (snd (run_process toy_cm sg_commit toy_committed))); (Some 0%N, Some "fatal:"%string); (Some 101%N, sg_last sg_link); (Some 101%N, sg_last sg_device)] /\
  sg_last (snd (run_process toy_cm sg_commit toy_committed)) <> Some "fatal:"%string /\ sg_end (run_process toy_cm sg_missing toy_committed) = (Some 0%N, Some "fatal:"%string).
Proof. split; [vm_compute; reflexivity|]. split; [vm_compute; discriminate|vm_compute; reflexivity]. Qed.
Lemma sg_nothing l : ~ something_at (fa_started toy_committed) (parse_path (str "nothing")) l.
Proof. intros (e & H & _). vm_compute in H. discriminate H. Qed.
Definition sg_bad : common := Common (cm_db_path toy_cm) [str "["].
Definition sg_inited : world := snd (@run_process bp_env toy_cm CInit toy_start).
Definition sg_opened : world := snd (@setup bp_env sg_bad (close_all sg_inited)).
Lemma sg_bad_ready : @reachable bp_env sg_inited /\ w_faults sg_inited = [] /\ @starts bp_env sg_bad sg_inited (Some pm_s) sg_opened /\ quiet_disk sg_opened /\ ~ @globs_ok bp_env sg_bad.
Proof.
  split; [apply reach_process, reach_start; reflexivity|]. split; [vm_compute; reflexivity|]. split; [vm_compute; reflexivity|]. split; [apply quietb; vm_compute; reflexivity|]. discriminate.
Qed.
Example C93_example :
  (sg_ready (set_fs toy_committed (w_fs toy_committed)) /\ sg_ready sg_name /\ sg_ready sg_link /\ sg_ready sg_device) /\
  (stores_path pm_s (fa_started toy_committed) sg_missing (parse_path (str "nothing")) /\ 0 < @stack toy_env /\ forall l, ~ something_at (fa_started toy_committed) (parse_path (str "nothing")) l) /\
  (@reachable bp_env sg_inited /\ w_faults sg_inited = [] /\ @starts bp_env sg_bad sg_inited (Some pm_s) sg_opened /\ quiet_disk sg_opened /\ ~ @globs_ok bp_env sg_bad).
Proof.
  split; [exact (conj sg_plain_ready (conj sg_name_ready (conj sg_link_ready sg_device_ready)))|]. split; [|exact sg_bad_ready]. split; [reflexivity|]. split; [apply Nat.ltb_lt; vm_compute; reflexivity|exact sg_nothing].
Qed.
