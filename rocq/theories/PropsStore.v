(** Properties C07, C08, C12-C17: resolving keys, the object store, HEAD, the
    reflog. *)
From Verif Require Import Base BaseFacts Key Keyish Cbor Object Path World Store Main SpecKey SpecStore StoreCalls SpecTrace
  SpecRun SpecResolve KeyFacts ObjStoreFacts ResolveFacts Integrity SessionFacts Toy.
From Coq Require Import Sorted.

(** A small store used in the examples: two objects put. *)
Definition ex_a : object := Object (str "a") [] FileBlob.
Definition ex_b : object := Object (str "b") [] FileBlob.
Definition ex_store : world :=
  snd (run_calls [CallPut (encode_object ex_a); CallPut (encode_object ex_b)] (set_conn (close_all toy_world) [str "db"])).
Lemma ex_store_session : session ex_store.
Proof. exists toy_world, [str "db"]. eexists. split; [constructor; reflexivity|reflexivity]. Qed.

(** C07: a proper prefix ("b" and fewer than 52 letters of the alphabet) of a
    printed key resolves to the only stored key with that prefix, to "not found",
    or to the sorted list of the stored keys that have it; anything else happens
    only when the storage fails. *)
Theorem C07_prefix_resolution :
  forall (E : Env) (rest : bytes) (w : world),
  session w -> Forall in_alphabet rest -> length rest < 52 ->
  exists ki, parse_keyish ("b"%char :: rest) = Some (Ok ki) /\
    match canonicalize sqlite_ds ki w with
    | (Crashed, _) | (Panicked (PUnwrap (Some ESql)), _) => w_faults w <> []
    | (o, _) =>
        search_result ("b"%char :: rest)
          (fun k => stored w k /\ prefix_of ("b"%char :: map fold_case rest) (as_user_key k)) o
    end.
Proof. intros E rest w S H L. exact (prefix_resolve rest w H L (session_ok w S)). Qed.
Print Assumptions C07_prefix_resolution.
Example C07_example :
  session ex_store /\
  (exists ks, fst (canonicalize sqlite_ds (KRange (str "b") [byte_of 1] (Some [byte_of 2])) ex_store)
     = Error (EAmbiguous (str "b") ks) /\ length ks = 2) /\
  (exists ki, parse_keyish (str "bacsGKzLcovREEyTf") = Some (Ok ki) /\
     fst (canonicalize sqlite_ds ki ex_store) = Done (obj_key ex_a)) /\
  (exists ki, parse_keyish (str "bq") = Some (Ok ki) /\
     fst (canonicalize sqlite_ds ki ex_store) = Error (ENotFoundKey (str "bq"))).
Proof.
  split; [apply ex_store_session|]. split; [|split].
  - eexists. split; [vm_compute; reflexivity|reflexivity].
  - eexists. split; [vm_compute; reflexivity|]. vm_compute. reflexivity.
  - eexists. split; [vm_compute; reflexivity|]. vm_compute. reflexivity.
Qed.

(** Branch references "remote/name" and "/name" resolve to the newest entry. *)
Theorem C07_reference_resolution :
  forall (E : Env) orig remote name (w : world), session w ->
  match canonicalize sqlite_ds (KReflog orig remote name) w with
  | (Done k, _) => hd_error (select_reflog name remote (d_reflog (cur_db w))) = Some (as_db_key k)
  | (Error (ENotFoundKey s), _) => s = orig /\ select_reflog name remote (d_reflog (cur_db w)) = []
  | (Error ESql, _) | (Crashed, _) => w_faults w <> []
  | _ => False
  end.
Proof. intros E orig remote name w S. exact (ref_resolve orig remote name w (session_ok w S)). Qed.
Print Assumptions C07_reference_resolution.
(** Two entries on "m", the newer one last; none on "n". *)
Definition ex_refs : world :=
  snd (run_calls [CallPut (encode_object ex_a); CallPut (encode_object ex_b); CallPush (Push (str "m") None (obj_key ex_a)); CallPush (Push (str "m") None (obj_key ex_b))] (set_conn (close_all toy_world) [str "db"])).
Lemma ex_refs_session : session ex_refs.
Proof. exists toy_world, [str "db"]. eexists. split; [constructor; reflexivity|reflexivity]. Qed.
Example C07_reference_example :
  session ex_refs /\ parse_keyish (str "/m") = Some (Ok (KReflog (str "/m") None (str "m"))) /\
  fst (canonicalize sqlite_ds (KReflog (str "/m") None (str "m")) ex_refs) = Done (obj_key ex_b) /\
  fst (canonicalize sqlite_ds (KReflog (str "/n") None (str "n")) ex_refs) = Error (ENotFoundKey (str "/n")).
Proof. split; [apply ex_refs_session|]. split; [vm_compute; reflexivity|]. split; vm_compute; reflexivity. Qed.

(** C08: the property would be: the printed key of a stored object resolves to
    that key, and the printed key of an object that is not stored is "not found".
    Both halves are false. *)
Theorem C08_full_key_resolves_refuted :
  exists (E : Env) (w : world) (o : object) ki,
    session w /\ w_faults w = [] /\ reads_as w (obj_key o) (Done o) /\
    parse_keyish (as_user_key (obj_key o)) = Some (Ok ki) /\
    fst (canonicalize sqlite_ds ki w) <> Done (obj_key o).
Proof.
  exists toy_env, ex_store, ex_a. eexists. split; [apply ex_store_session|]. split; [reflexivity|].
  split; [vm_compute; reflexivity|]. split; [apply parse_user_key|]. vm_compute. discriminate.
Qed.
Print Assumptions C08_full_key_resolves_refuted.
(** What really happens, always: a stored object's full key is refused with
    "unknown hash id 0xa3" (the first byte of every stored object) ... *)
Theorem C08_full_key_of_stored_object :
  forall (E : Env) (w : world) (o : object),
  w_faults w = [] -> obj_fits o = true ->
  assoc (as_db_key (obj_key o)) (d_data (cur_db w)) = Some (encode_object o) ->
  exists ki, parse_keyish (as_user_key (obj_key o)) = Some (Ok ki) /\
    fst (canonicalize sqlite_ds ki w) = Error (EDbKey (UnknownHashId (byte_of 163))).
Proof.
  intros E w o F Fi H. eexists. split; [apply parse_user_key|]. apply full_key_stored; [exact F|split; assumption].
Qed.
Print Assumptions C08_full_key_of_stored_object.
(** ... and the full key of an absent object panics. *)
Theorem C08_full_key_of_absent_object :
  forall (E : Env) (w : world) (k : key),
  w_faults w = [] -> ~ stored w k ->
  exists ki, parse_keyish (as_user_key k) = Some (Ok ki) /\
    fst (canonicalize sqlite_ds ki w) = Panicked (PUnwrap (Some ESql)).
Proof. intros E w k F H. eexists. split; [apply parse_user_key|]. apply full_key_absent; assumption. Qed.
Print Assumptions C08_full_key_of_absent_object.
Example C08_example :
  w_faults ex_store = [] /\ obj_fits ex_a = true /\
  assoc (as_db_key (obj_key ex_a)) (d_data (cur_db ex_store)) = Some (encode_object ex_a) /\
  ~ stored ex_store (Blake3B (toy_hash [])).
Proof.
  split; [reflexivity|]. split; [reflexivity|]. split; [vm_compute; reflexivity|].
  unfold stored. vm_compute. intro H. apply H. reflexivity.
Qed.

(** C12: after [put_obj] returned [k] in any state of any session, whatever store
    calls follow, with whatever faults: once the write is committed (at once
    outside a transaction, by COMMIT inside one) the key reads as that object,
    now and after a crash; while it is pending it reads as that object in this
    process.  [fate_of] (SpecTrace.v) decides which from what the caller saw. *)
Theorem C12_stored_objects_stay :
  forall (E : Env) (w : world) (o : object) k w1 l t d w2,
  session w -> put_obj sqlite_ds o w = (Done k, w1) -> no_coll (w_hashed w1) ->
  run_calls l w1 = (t, d, w2) ->
  match fate_of (in_txn w1) t with
  | Saved => reads_as w2 k (Done o) /\ reads_as (after_crash w2) k (Done o)
  | Pending => d = None -> reads_as w2 k (Done o)
  | Lost => True
  end.
Proof. exact @put_then_reads. Qed.
Print Assumptions C12_stored_objects_stay.
Example C12_example :
  let w1 := snd (put_obj sqlite_ds ex_a (snd (run_calls [CallBegin] (set_conn (close_all toy_world) [str "db"])))) in
  let l := [CallPut (encode_object ex_b); CallGet (obj_key ex_b); CallCommit; CallBegin; CallPutHead (str "x"); CallRollback] in
  let '(t, d, w2) := run_calls l w1 in
  in_txn w1 = true /\ fate_of true t = Saved /\ d = None /\
  reads_as (after_crash w1) (obj_key ex_a) (Error ESql) /\ reads_as (after_crash w2) (obj_key ex_a) (Done ex_a).
Proof. vm_compute. repeat split. Qed.

(** On the command line: whatever commands are run, with whatever faults and
    crashes, bytes stored under a key in a database file stay as they are as long
    as nobody else deletes the file between processes. *)
Theorem C12_commands_never_change_stored_bytes :
  forall (E : Env) (file : loc) (w w' : world) k v,
  later file w w' -> stored_at w file k = Some v -> stored_at w' file k = Some v.
Proof. intros E file w w' k v H S. exact (proj1 (later_grows file w w' H) k v S). Qed.
Print Assumptions C12_commands_never_change_stored_bytes.

(** C13: putting an object again changes neither what the connection sees nor
    what is on disk, and returns the same key. *)
Theorem C13_put_twice :
  forall (E : Env) (w : world) (o : object) k w1 k' w2,
  put_obj sqlite_ds o w = (Done k, w1) -> put_obj sqlite_ds o w1 = (Done k', w2) ->
  k' = k /\ cur_db w2 = cur_db w1 /\ disk w2 = disk w1.
Proof. exact @put_twice. Qed.
Print Assumptions C13_put_twice.
(** The same when the encoding was stored at any earlier time; then even failing
    and crashing puts leave the disk alone. *)
Theorem C13_put_of_stored_object :
  forall (E : Env) (w : world) (o : object) v,
  obj_fits o = true -> assoc (as_db_key (obj_key o)) (d_data (cur_db w)) = Some v ->
  disk (snd (put_obj sqlite_ds o w)) = disk w /\
  match put_obj sqlite_ds o w with
  | (Done k, w') => k = obj_key o /\ cur_db w' = cur_db w
  | _ => True
  end.
Proof. exact @put_again. Qed.
Print Assumptions C13_put_of_stored_object.
Example C13_example :
  fst (put_obj sqlite_ds ex_a ex_store) = Done (obj_key ex_a) /\
  cur_db (snd (put_obj sqlite_ds ex_a ex_store)) = cur_db ex_store /\
  length (d_data (cur_db ex_store)) = 2.
Proof. vm_compute. repeat split. Qed.

(** C14: in every state reachable on the command line (any commands, faults and
    crashes), in every database file, every value is stored under the hash of its
    own bytes, and no key occurs twice. *)
Theorem C14_store_integrity :
  forall (E : Env) (w : world) (file : loc), reachable w -> rows_intact (db_at (w_dbs w) file).
Proof. exact @reachable_intact. Qed.
Print Assumptions C14_store_integrity.
(** Also inside a process, for committed and uncommitted data. *)
Theorem C14_session_integrity :
  forall (E : Env) (w : world), session w -> rows_intact (cur_db w) /\ rows_intact (disk w).
Proof. exact @session_intact. Qed.
Print Assumptions C14_session_integrity.
Example C14_example :
  session ex_refs /\ map fst (d_data (cur_db ex_refs)) = [as_db_key (obj_key ex_a); as_db_key (obj_key ex_b)] /\
  reachable (snd (run_process (Common (parse_path (str ".snapcd")) []) CInit toy_world)).
Proof. split; [apply ex_refs_session|]. split; [vm_compute; reflexivity|]. apply reach_process, reach_start. reflexivity. Qed.

(** C15, C16, C17 (and the store part of C12): every answer the store gives, in
    any run on a new repository, is the one the specification (SpecStore.v)
    prescribes: objects are a map in which the first write wins, HEAD is a
    register, the reflog is an append-only list per name and remote, and range
    queries are exact.  Faults may turn answers into failures, which may roll the
    transaction back, but never produce a wrong answer later. *)
Theorem C15_C16_C17_store_refines_spec :
  forall (E : Env) (w : world) (l : list call) t d w',
  w_dbs w = [] -> w_txn w = NoTxn -> run_calls l w = (t, d, w') ->
  spec_allows blake3 t (Spec repo_empty None).
Proof. exact @run_empty. Qed.
Print Assumptions C15_C16_C17_store_refines_spec.
(** Without faults every call that has an answer is answered, and the others fail
    without losing the transaction. *)
Theorem C15_C16_C17_store_answers :
  forall (E : Env) (w : world) (l : list call) t d w',
  w_dbs w = [] -> w_txn w = NoTxn -> w_faults w = [] -> run_calls l w = (t, d, w') ->
  d = None /\ map fst t = l /\ spec_answers blake3 t (Spec repo_empty None).
Proof. exact @run_empty_live. Qed.
Print Assumptions C15_C16_C17_store_answers.
Example C15_C16_C17_example :
  let ka := obj_key ex_a in let kb := obj_key ex_b in
  let '(t, d, _) := run_calls
    [CallGetHead; CallPutHead (str "x"); CallBegin; CallPutHead (str "y"); CallRollback; CallGetHead;
     CallPush (Push (str "m") None ka); CallPush (Push (str "m") (Some (str "r")) kb); CallPush (Push (str "m") None kb);
     CallHistory (str "m") None; CallLatest (str "m") (Some (str "r")); CallLatest (str "n") None] toy_world in
  map snd t =
    [Answered (ReplyHead None); Answered ReplyUnit; Answered ReplyUnit; Answered ReplyUnit; Answered ReplyUnit;
     Answered (ReplyHead (Some (str "x"))); Answered ReplyUnit; Answered ReplyUnit; Answered ReplyUnit;
     Answered (ReplyKeys [kb; ka]); Answered (ReplyKey kb); Failed false].
Proof. vm_compute. reflexivity. Qed.

(** C15 spelt out: after any run without rollback from any session, HEAD is the
    last name put, or what it was before; nothing else changes it. *)
Theorem C15_head_is_last_put :
  forall (E : Env) (w : world) (l : list call) t w',
  session w -> run_calls l w = (t, None, w') -> existsb rolls_back t = false ->
  fst (get_head sqlite_ds (set_faults w' [])) =
    match last_head t (assoc (str "HEAD") (d_state (cur_db w))) with
    | Some h => if utf8_valid h then Done (Some h) else Error EUtf8
    | None => Done None
    end.
Proof. exact @head_after. Qed.
Print Assumptions C15_head_is_last_put.

(** C16 spelt out: the history of a name and remote is what was pushed under it,
    newest first, on top of what was there. *)
Theorem C16_history_is_what_was_pushed :
  forall (E : Env) (w : world) (l : list call) t w' n remote old,
  session w -> run_calls l w = (t, None, w') -> existsb rolls_back t = false ->
  fst (reflog_walk sqlite_ds n remote (set_faults w [])) = Done old ->
  fst (reflog_walk sqlite_ds n remote (set_faults w' [])) = Done (pushed_in n remote t old) /\
  fst (reflog_get sqlite_ds n remote (set_faults w' [])) =
    match pushed_in n remote t old with k :: _ => Done k | [] => Error ERefNotFound end.
Proof. exact @history_after. Qed.
Print Assumptions C16_history_is_what_was_pushed.
(** On the command line the reflog of a database only ever grows at its end,
    whatever commands, faults and crashes. *)
Theorem C16_reflog_append_only :
  forall (E : Env) (file : loc) (w w' : world),
  later file w w' ->
  exists rows, d_reflog (db_at (w_dbs w') file) = d_reflog (db_at (w_dbs w) file) ++ rows.
Proof. intros E file w w' H. exact (proj2 (later_grows file w w' H)). Qed.
Print Assumptions C16_reflog_append_only.
Example C16_example :
  let calls := [CallPush (Push (str "m") None (obj_key ex_a)); CallBegin; CallPush (Push (str "m") None (obj_key ex_b)); CallCommit] in
  let '(t, d, w') := run_calls calls ex_store in
  session ex_store /\ d = None /\ existsb rolls_back t = false /\
  fst (reflog_walk sqlite_ds (str "m") None (set_faults ex_store [])) = Done [] /\
  pushed_in (str "m") None t [] = [obj_key ex_b; obj_key ex_a] /\
  last_head t None = None.
Proof.
  cbv beta zeta. match goal with |- context [run_calls ?c ?w] => destruct (run_calls c w) as [[t d] w'] eqn:R end.
  split; [apply ex_store_session|]. vm_compute in R. inversion R. subst. vm_compute. repeat split.
Qed.

(** C17: range queries return exactly the stored keys in the range, in order. *)
Theorem C17_between_exact :
  forall (E : Env) (w : world) start end_ l w',
  session w -> raw_between sqlite_ds start end_ w = (Done l, w') ->
  StronglySorted spec_lt l /\
  forall k, In k l <-> (assoc k (d_data (cur_db w)) <> None /\ in_range start end_ k).
Proof. exact @between_exact. Qed.
Print Assumptions C17_between_exact.
(** [raw_exists] is true exactly when [raw_get] succeeds. *)
Theorem C17_exists_iff_get :
  forall (E : Env) (w : world) (k : bytes), session w ->
  match raw_exists sqlite_ds k (set_faults w []), raw_get sqlite_ds k (set_faults w []) with
  | (Done true, _), (Done _, _) => True
  | (Done false, _), (Error ESql, _) => True
  | _, _ => False
  end.
Proof. exact @exists_exact. Qed.
Print Assumptions C17_exists_iff_get.
(** Its assertion that a key occurs at most once never fails, with any faults. *)
Theorem C17_exists_never_asserts :
  forall (E : Env) (w : world) (k : bytes), session w -> fst (raw_exists sqlite_ds k w) <> Panicked PAssert.
Proof. exact @exists_no_assert. Qed.
Print Assumptions C17_exists_never_asserts.
Example C17_example :
  session ex_store /\
  fst (raw_between sqlite_ds [] None ex_store) = Done [as_db_key (obj_key ex_a); as_db_key (obj_key ex_b)] /\
  fst (raw_between sqlite_ds (as_db_key (obj_key ex_a)) (Some (as_db_key (obj_key ex_b))) ex_store)
    = Done [as_db_key (obj_key ex_a)] /\
  fst (raw_exists sqlite_ds (as_db_key (obj_key ex_a)) ex_store) = Done true.
Proof. split; [apply ex_store_session|]. vm_compute. repeat split. Qed.
