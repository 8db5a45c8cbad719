(** Property C88: what was inserted can be compared with and fetched, whatever happened since. *)
From Coq Require Import Sorted.
From Verif Require Import Base BaseFacts Key Keyish Cbor Object Path World WorldFacts Store File Filter Dir Diff Commit Screen Main SpecStore SpecRun SpecProc SpecFile SpecDir SpecClosure
  SpecCache SpecDiff SpecPatch SpecShow SpecOut SpecText SpecShape SpecLive SpecScreen SpecHonest SpecRestore SpecInsert FsFacts CmdFacts OutFacts ShapeTop LiveStart LiveStory HonestFacts RestoreFacts InsertFacts Checks Toy ToyRepo
  PropsMain PropsShow PropsCmd PropsShape PropsLive PropsCheckout PropsStory PropsHonest PropsText PropsHistory.

(** ** C88 *)
(** What can be stored is inserted, and its key [k] is printed.  Then anything may happen,
    as long as the database file is there when a process starts.
    At any time after that [compare] of the directory with an argument that stands for [k]
    exits with 0, changes no file and prints exactly the edits since the insert, if what
    was inserted is still there (else the program panics, see C37), what is there can be
    listed, the new files are found from here (see C38), and the files always conformed
    to [T] when a process started.
    And [fetch] of [k] to a place where nothing is exits with 0, prints nothing and makes
    exactly the files that were inserted, with the contents they had, and nothing else. *)
Theorem C88_inserted :
  forall (E : Env) cm w e d db l, well_used w -> quiet_disk w -> steady_reads -> stands_in cm w e d db -> globs_ok cm ->
  let dbl := e ++ d in let ex := cm_exclude cm in
  can_store ex (abs_path dbl) (abs_path l) w -> lossless_below (w_fs w) l ->
  exists w' k, run_process cm (CInsert (abs_path l)) w = (Some 0%N, w') /\ w_out w' = Printed "inserted hash" [as_user_key k] :: w_out w /\ w_fs w' = w_fs w /\ well_used w' /\
    (forall (F : Fmt) T v db1 ki, later (db_file e d) w' v -> honest T v -> agrees T (w_fs v) -> quiet_disk v -> stands_in cm v e d db1 -> no_coll (w_hashed v) -> length (d_data db1) <= stack -> taken_for cm v ki k ->
       lookup (w_fs w) l = Some EDir -> (forall a b, l = a ++ b -> lookup (w_fs v) a = Some EDir) -> lossless_below (w_fs v) l -> listable ex dbl (w_fs v) (abs_path l) l stack ->
       (forall x e0, committed ex dbl l (w_fs w) x e0 -> lookup (w_fs v) (l ++ x) <> None) ->
       (forall x c st, now ex dbl l (w_fs v) x (EFile c st) -> (forall e0, ~ committed ex dbl l (w_fs w) x e0) -> found_here v x) ->
       exists v', run_process cm (CCompare (Some (abs_path l)) (Some ki) false) v = (Some 0%N, v') /\ w_fs v' = w_fs v /\
         (no_coll (w_hashed v') -> exists A M, edits ex dbl l (w_fs w) (w_fs v) A M /\
            writes_lines v v' (report_lines (map entry_text A) (map (fun x => entry_text (x, true)) M)))) /\
    (forall v db1 ki out, later (db_file e d) w' v -> well_used v -> stands_in cm v e d db1 -> no_coll (w_hashed v) -> length (d_data db1) <= stack -> taken_for cm v ki k ->
       out <> [] -> new_place (w_fs v) out ->
       exists v', run_process cm (CFetch ki (abs_path out)) v = (Some 0%N, v') /\ w_out v' = w_out v /\ recreated ex dbl l (w_fs w) (w_fs v) (w_fs v') out).
Proof. intros E cm w e d db l. apply inserted. Qed.
Print Assumptions C88_inserted.

(** Example. *)
#[local] Existing Instance pt_env.
(** The directory "s" of C86 is inserted; then its file "b" is rewritten and a directory
    "e" is made in it, and everything is committed. *)
Definition in_s : loc := hs_at [str "s"].
Definition in_one : world := snd (run_process toy_cm (CInsert (abs_path in_s)) hs_inited).
Definition in_edited : world := set_fs in_one (map (fun x => if names_eqb (fst x) (in_s ++ [str "b"]) then (fst x, EFile (str "new") (Stamp 8 200)) else x) (w_fs in_one) ++ [(in_s ++ [str "e"], EDir)]).
Definition in_two : world := snd (run_process toy_cm (CCommit None (str "later") None) in_edited).
Definition in_key : key := match fst (put_fs_item sqlite_ds stack (abs_path in_s) (filter_fn [] (abs_path (hs_home ++ [str ".snapcd"]))) (snd (setup toy_cm (close_all hs_inited)))) with Done k => k | _ => ct_tree end.
Definition in_ki : keyish := hs_prefix (str "bcf").
Definition in_T (k : cachekey) : bytes :=
  match find (fun x => match snd x with EFile c st => same_triple k (triple c st) | _ => false end) (w_fs hs_inited ++ w_fs in_edited) with
  | Some (_, EFile c _) => c
  | _ => []
  end.
Lemma in_edited_honest : honest in_T in_edited.
Proof.
  apply honest_fs. apply honest_step; [|vm_compute; reflexivity|exact I]. apply honest_step; [apply ho_start; reflexivity|vm_compute; reflexivity|exact I].
Qed.
Lemma in_two_honest : honest in_T in_two.
Proof. apply honest_step; [exact in_edited_honest|vm_compute; reflexivity|reflexivity]. Qed.
Lemma in_later : later (db_file hs_home [str ".snapcd"]) in_one in_two.
Proof. apply later_process; [eapply later_outside; [apply later_refl|exact (outside_fs _ _)]|apply there_ok; vm_compute; reflexivity]. Qed.
Lemma in_taken : taken_for toy_cm in_two in_ki in_key.
Proof.
  assert (X : fst (canonicalize sqlite_ds in_ki (snd (setup toy_cm (close_all in_two)))) = Done in_key) by (vm_compute; reflexivity).
  intros st w1 S. pose proof (proj1 (used_started _ _ _ _ (honest_used _ _ in_two_honest) S)) as W. unfold starts in S. rewrite S in X. cbn [snd] in X.
  destruct (canonicalize sqlite_ds in_ki w1) as [o w2] eqn:Q. cbn [fst] in X. subst o. exact (proj2 (OutFacts.canon_done _ _ _ _ W Q)).
Qed.
(** All files at [l] were there before. *)
Lemma none_new {E : Env} ex dbl l f g w : l <> [] -> forallb (fun x => if names_prefix l (fst x) then match snd x with EFile _ _ => match lookup f (fst x) with Some _ => true | None => false end | _ => true end else true) g = true ->
  forall x c st, now ex dbl l g x (EFile c st) -> (forall e0, ~ committed ex dbl l f x e0) -> found_here w x.
Proof.
  intros N H x c st (_ & L & In) Nc. exfalso. rewrite forallb_forall in H. apply entry_in in L; [|exact N]. apply H in L. cbn [fst snd] in L. rewrite (proj2 (names_prefix_iff _ _)) in L by (exists x; reflexivity).
  destruct (lookup f (l ++ x)) as [e|] eqn:Q; [|discriminate L]. apply (Nc e). split; assumption.
Qed.
Lemma new_ok g out : out <> [] -> forallb (fun x => negb (names_prefix out (fst x))) g && prefixesb g (removelast out) = true -> new_place g out.
Proof.
  intros N H. apply andb_prop in H as [H P]. split.
  - intro r. destruct (lookup g (out ++ r)) as [e|] eqn:L; [|reflexivity]. apply entry_in in L; [|exact N]. rewrite forallb_forall in H. apply H in L. cbn [fst] in L. rewrite (proj2 (names_prefix_iff _ _)) in L by (exists r; reflexivity). discriminate L.
  - intros a b Q Nb. apply (prefixesb_ok _ _ P a (removelast b)). rewrite Q. apply removelast_app, Nb.
Qed.
Definition in_told : world := snd (run_process toy_cm (CCompare (Some (abs_path in_s)) (Some in_ki) false) in_two).
Definition in_out : loc := hs_at [str "copy"].
Definition in_fetched : world := snd (run_process toy_cm (CFetch in_ki (abs_path in_out)) in_two).
Example C88_example :
  well_used hs_inited /\ quiet_disk hs_inited /\ steady_reads /\ stands_in toy_cm hs_inited hs_home [str ".snapcd"] (hs_db hs_inited) /\ globs_ok toy_cm /\
  can_store [] (abs_path (hs_home ++ [str ".snapcd"])) (abs_path in_s) hs_inited /\ lossless_below (w_fs hs_inited) in_s /\
  w_out in_one = Printed "inserted hash" [as_user_key in_key] :: w_out hs_inited /\ lookup (w_fs hs_inited) in_s = Some EDir /\
  later (db_file hs_home [str ".snapcd"]) in_one in_two /\ honest in_T in_two /\ agrees in_T (w_fs in_two) /\ quiet_disk in_two /\ stands_in toy_cm in_two hs_home [str ".snapcd"] (hs_db in_two) /\
  no_coll (w_hashed in_two) /\ length (d_data (hs_db in_two)) <= stack /\ taken_for toy_cm in_two in_ki in_key /\
  (forall a b, in_s = a ++ b -> lookup (w_fs in_two) a = Some EDir) /\ lossless_below (w_fs in_two) in_s /\ listable [] (hs_home ++ [str ".snapcd"]) (w_fs in_two) (abs_path in_s) in_s stack /\
  (forall x e0, committed [] (hs_home ++ [str ".snapcd"]) in_s (w_fs hs_inited) x e0 -> lookup (w_fs in_two) (in_s ++ x) <> None) /\
  (forall x c st, now [] (hs_home ++ [str ".snapcd"]) in_s (w_fs in_two) x (EFile c st) -> (forall e0, ~ committed [] (hs_home ++ [str ".snapcd"]) in_s (w_fs hs_inited) x e0) -> found_here in_two x) /\
  run_process toy_cm (CCompare (Some (abs_path in_s)) (Some in_ki) false) in_two = (Some 0%N, in_told) /\ no_coll (w_hashed in_told) /\
  w_out in_told = rev (report_lists [([str "e"], false)] [[str "b"]]) ++ w_out in_two /\
  new_place (w_fs in_two) in_out /\ run_process toy_cm (CFetch in_ki (abs_path in_out)) in_two = (Some 0%N, in_fetched) /\
  content (w_fs in_fetched) (in_out ++ [str "b"]) = Some (str "bb") /\ content (w_fs in_fetched) (in_s ++ [str "b"]) = Some (str "new").
Proof.
  split; [exact hs_inited_used|]. split; [apply quietb; vm_compute; reflexivity|]. split; [intros i j c; reflexivity|]. split; [apply hs_stands; vm_compute; reflexivity|]. split; [reflexivity|].
  split. { exists in_s, EDir. split; [vm_compute; reflexivity|]. split; [apply listableb_ok; [cbn; lia|vm_compute; reflexivity]|apply names_text; [discriminate|vm_compute; reflexivity]]. }
  split; [apply co_small; vm_compute; reflexivity|]. split; [vm_compute; reflexivity|]. split; [vm_compute; reflexivity|]. split; [exact in_later|]. split; [exact in_two_honest|]. split; [apply agreesb_ok; vm_compute; reflexivity|].
  split; [apply quietb; vm_compute; reflexivity|]. split; [apply hs_stands; vm_compute; reflexivity|]. split; [apply logb_ok; vm_compute; reflexivity|]. split; [apply Nat.leb_le; vm_compute; reflexivity|]. split; [exact in_taken|].
  split; [apply prefixesb_ok; vm_compute; reflexivity|]. split; [apply co_small; vm_compute; reflexivity|]. split; [apply listableb_ok; [cbn; lia|vm_compute; reflexivity]|].
  split; [apply keptallb_ok; [discriminate|vm_compute; reflexivity]|]. split; [apply none_new; [discriminate|vm_compute; reflexivity]|]. split; [vm_compute; reflexivity|]. split; [apply logb_ok; vm_compute; reflexivity|].
  split; [vm_compute; reflexivity|]. split; [apply new_ok; [discriminate|vm_compute; reflexivity]|]. split; [vm_compute; reflexivity|]. split; vm_compute; reflexivity.
Qed.
