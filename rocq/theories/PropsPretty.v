(** Property C74: [debug pretty-print]. *)
From Verif Require Import Base Key Keyish Cbor Object Path World Store File Filter Dir Diff Commit Pretty Main SpecStore SpecRun SpecProc SpecOut SpecClosure SpecPretty PrettyFacts
  Toy ToyRepo PropsMain PropsCmd.

(** ** C74 *)
(** [debug pretty-print] shows the object the argument stands for, as it should, and
    changes nothing. *)
Theorem C74_pretty_print :
  forall (E : Env) cm w s w1 ki w2, reachable w -> starts cm w (Some s) w1 -> run_command cm (Some s) (CPrettyPrint ki) w1 = (Done tt, w2) ->
  exists k o ls, denotes w1 ki k /\ object_at (cur_db w1) (as_db_key k) = Some o /\ pictured ls o /\ says w1 w2 (out_lines ls) /\ untouched w1 w2.
Proof. intros E cm w s w1 ki w2. apply pretty_works. Qed.
Print Assumptions C74_pretty_print.
(** If nothing fails, it succeeds exactly when the argument stands for the key of an
    object. *)
Theorem C74_succeeds :
  forall (E : Env) cm w s w1 ki, reachable w -> starts cm w (Some s) w1 -> w_faults w1 = [] ->
  (exists w2, run_command cm (Some s) (CPrettyPrint ki) w1 = (Done tt, w2)) <-> exists k o, denotes w1 ki k /\ object_at (cur_db w1) (as_db_key k) = Some o.
Proof. intros E cm w s w1 ki. apply pretty_exactly. Qed.
Print Assumptions C74_succeeds.
(** The text says everything about the object: type, keys and data can be read off
    it, even when something else is printed after it. *)
Theorem C74_text_determines :
  forall (E : Env) ls o ls' o' r r', pictured ls o -> pictured ls' o' -> text_of_lines ls ++ r = text_of_lines ls' ++ r' -> o = o'.
Proof. intros E ls o ls' o' r r'. apply pictured_inj. Qed.
Print Assumptions C74_text_determines.
(** The commit HEAD names. *)
Definition pp_out : world := snd (run_command toy_cm (Some pm_s) (CPrettyPrint cx_head) pm_v1).
Example C74_example :
  denotes pm_v1 cx_head cx_key /\ run_command toy_cm (Some pm_s) (CPrettyPrint cx_head) pm_v1 = (Done tt, pp_out) /\
  firstn 3 (rev (firstn 16 (w_out pp_out))) = [Printed "raw" [str "--type: Commit--" ++ [newline]]; Printed "raw" [str "--keys--" ++ [newline]]; Printed "raw" [as_user_key ct_tree ++ [newline]]] /\ w_out pm_v1 = [].
Proof. split; [exact cx_denotes|]. split; [vm_compute; reflexivity|]. split; vm_compute; reflexivity. Qed.
(** Twenty-two bytes of data. *)
Definition pp_obj : object := Object (str "0123456789abcdefghij" ++ [byte_of 0; byte_of 255]) [] FileBlob.
Definition pp_lines : list bytes :=
  [str "--type: FileBlob--"; str "--keys--"; str "-/keys--"; str "--data--"; str "303132333435363738396162636465666768696a"; str "00ff"; str "-/data--";
   str "--deserialised data--"; str "error when deserialising!"; []; str "--/deserialised data--"].
Example C74_example_text : pictured pp_lines pp_obj /\ w_out (snd (pretty_print pp_obj toy_world)) = rev (out_lines pp_lines).
Proof.
  split; [|vm_compute; reflexivity]. exists [], [str "303132333435363738396162636465666768696a"; str "00ff"]. split; [constructor|]. split; [|reflexivity].
  assert (X : forall l d, hex_encode d = l -> spelled l d) by (intros l d <-; apply hex_spelled).
  apply (du_line _ (str "0123456789abcdefghij") _ [byte_of 0; byte_of 255]); [apply X; reflexivity|reflexivity|apply du_last; [apply X; reflexivity|cbn; lia]|discriminate].
Qed.
