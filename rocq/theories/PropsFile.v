(** Properties C18-C23: storing and reading the contents of files. *)
From Verif Require Import Base BaseFacts Key Object World Store Main SpecStore StoreCalls SpecTrace SpecRun SpecFile
  File ObjStoreFacts FilePlan FileFacts ChunkFacts SessionFacts FileRun ChunkWitness Toy.

(** C18: the property would be: whenever [put_data] returns a key, reading that
    key gives the bytes delivered by the reader.  What holds for every reader,
    rolling-hash table and hash: this is so unless, when the input ends ([st]), the
    top-level key buffer (4) is not empty while the one below it (3) is. *)
Theorem C18_round_trip :
  forall (E : Env) (w : world) reads st w1 k w2,
  session w ->
  (* put_data, in its two halves *)
  pd_loop sqlite_ds (reads_weight reads) pd_init reads w = (Done st, w1) ->
  pd_finish sqlite_ds st w1 = (Done k, w2) ->
  no_coll (w_hashed w2) ->
  ~ (kb_get (pd_kb st) 4 <> [] /\ kb_get (pd_kb st) 3 = []) ->
  reads_data w2 k (fst (stream reads)).
Proof. intros E w reads st w1 k w2 S H1 H2 NC NL. exact (proj1 (proj2 (round_trip reads w st w1 k w2 (session_ok w S) H1 H2 NC)) NL). Qed.
Print Assumptions C18_round_trip.
(** The two halves are [put_data]. *)
Theorem C18_halves :
  forall (E : Env) (w : world) reads k w2,
  put_data sqlite_ds reads w = (Done k, w2) ->
  exists st w1, pd_loop sqlite_ds (reads_weight reads) pd_init reads w = (Done st, w1) /\
    pd_finish sqlite_ds st w1 = (Done k, w2).
Proof. intros E w reads k w2. exact (split_data reads w k w2). Qed.
Print Assumptions C18_halves.
Definition ex_reads : list readres := [RData (str "hello "); RInterrupted; RData (str "world")].
Example C18_example :
  let w := set_conn (close_all toy_world) [str "db"] in
  session w /\
  exists st w1 k w2,
    pd_loop sqlite_ds (reads_weight ex_reads) pd_init ex_reads w = (Done st, w1) /\
    pd_finish sqlite_ds st w1 = (Done k, w2) /\ no_coll (w_hashed w2) /\
    ~ (kb_get (pd_kb st) 4 <> [] /\ kb_get (pd_kb st) 3 = []) /\
    fst (stream ex_reads) = str "hello world".
Proof.
  split; [exists toy_world, [str "db"], []; split; [constructor; reflexivity|reflexivity]|].
  assert (P : snd (pdata ex_reads) = Done (obj_key (Object (str "hello world") [] FileBlob))).
  { pose proof (pdata_total ex_reads) as T. cbn [snd stream ex_reads] in T. destruct T as (l & k & T); [reflexivity|].
    rewrite T. cbn [snd]. f_equal. apply (pdata_small _ _ _ T). pose proof chunk_max_val.
    assert (length (fst (stream ex_reads)) = 11) as -> by reflexivity. lia. }
  pose proof (put_data_nofault ex_reads (set_conn (close_all toy_world) [str "db"]) eq_refl) as Q. rewrite P in Q.
  destruct (put_data sqlite_ds ex_reads (set_conn (close_all toy_world) [str "db"])) as [r w2] eqn:D. cbn [fst] in Q. subst r.
  destruct (split_data _ _ _ _ D) as (st & w1 & H1 & H2).
  pose proof H1 as H0. apply (follows_done _ _ _ _ _ _ (follows_loop sqlite_ds _ _ _)) in H1 as (l1 & P1 & X1).
  pose proof P1 as P0. eapply ploop_small in P1 as [-> [h ->]];
    [|reflexivity|assert (length (pd_cur pd_init ++ pd_buf pd_init ++ fst (stream ex_reads)) = 11) as -> by reflexivity; pose proof chunk_max_val; lia].
  eexists _, w1, _, w2. split; [exact H0|]. split; [exact H2|]. split; [|split; [|reflexivity]].
  - apply (follows_done _ _ _ _ _ _ (follows_finish sqlite_ds _)) in H2 as (l2 & P2 & X2).
    rewrite pfinish_eq in P2 by reflexivity. cbn [pd_kb pd_cur seq forallb empty_at kb_get nth andb kb_empty] in P2.
    apply pput_done in P2 as (-> & _). inversion X1; subst. apply exec_hashed in X2. unfold puts_between in X2. rewrite X2.
    intros a b [<-|[]] [<-|[]] _. reflexivity.
  - intros [N _]. apply N. reflexivity.
Qed.

(** In the exceptional case the key reads as what is left after the part held in
    the top-level buffer, which is stored but not referred to. *)
Theorem C18_lost_part :
  forall (E : Env) (w : world) reads st w1 k w2,
  session w ->
  pd_loop sqlite_ds (reads_weight reads) pd_init reads w = (Done st, w1) ->
  pd_finish sqlite_ds st w1 = (Done k, w2) ->
  no_coll (w_hashed w2) ->
  kb_get (pd_kb st) 4 <> [] -> kb_get (pd_kb st) 3 = [] ->
  exists lost kept, fst (stream reads) = lost ++ kept /\ reads_data w2 k kept /\
    exists parts, Forall2 (reads_data w2) (kb_get (pd_kb st) 4) parts /\ concat parts = lost.
Proof. intros E w reads st w1 k w2 S H1 H2 NC N4 N3. exact (lost_part reads w st w1 k w2 (session_ok w S) H1 H2 NC (conj N4 N3)). Qed.
Print Assumptions C18_lost_part.
(** It does happen: with a table of zeros, 32769 bytes read as one byte. *)
Theorem C18_round_trip_refuted :
  exists (E : Env) (w : world) reads k w2 bs,
    session w /\ put_data sqlite_ds reads w = (Done k, w2) /\ no_coll (w_hashed w2) /\
    snd (stream reads) = false /\ lenN (fst (stream reads)) = 32769%N /\
    reads_data w2 k bs /\ lenN bs = 1%N.
Proof. exact loss_refutes. Qed.
Print Assumptions C18_round_trip_refuted.

(** Reading never gives wrong bytes, whatever faults occur: it gives what it gives
    without faults, or fails. *)
Theorem C18_reading_is_deterministic :
  forall (E : Env) (w : world) k bs fuel f bs' w',
  fst (read_data sqlite_ds vec_write fuel k [] (set_faults w [])) = Done bs ->
  read_data sqlite_ds vec_write fuel k [] (set_faults w f) = (Done bs', w') -> bs' = bs.
Proof. exact @read_deterministic. Qed.
Print Assumptions C18_reading_is_deterministic.

(** C19: the key does not depend on the store, or on what is in it. *)
Theorem C19_key_independent_of_store :
  forall (E : Env) (s s' : datastore) reads w w' k k' w1 w1',
  put_data s reads w = (Done k, w1) -> put_data s' reads w' = (Done k', w1') -> k = k'.
Proof. exact @put_data_any. Qed.
Print Assumptions C19_key_independent_of_store.
(** The null store (used for hashing files without storing them) in particular
    gives the key the real store gives. *)
Theorem C19_null_store :
  forall (E : Env) reads w w' k w1,
  put_data sqlite_ds reads w = (Done k, w1) -> fst (put_data null_ds reads w') = Done k.
Proof. exact @put_data_null. Qed.
Print Assumptions C19_null_store.
Theorem C19_twice :
  forall (E : Env) reads w k w1 k' w2,
  put_data sqlite_ds reads w = (Done k, w1) -> put_data sqlite_ds reads w1 = (Done k', w2) ->
  k' = k /\ cur_db w2 = cur_db w1 /\ disk w2 = disk w1.
Proof. exact @put_data_twice. Qed.
Print Assumptions C19_twice.

Definition ex_w : world := set_conn (close_all toy_world) [str "db"].
Example C19_example :
  exists k w1 w2, put_data sqlite_ds ex_reads ex_w = (Done k, w1) /\ put_data sqlite_ds ex_reads w1 = (Done k, w2) /\
    length (d_data (cur_db w1)) = 1.
Proof. eexists _, _, _. split; [vm_compute; reflexivity|]. split; vm_compute; reflexivity. Qed.

(** C20: the blobs written, in order, are the data, and all but the last have at
    least 32768 bytes ... *)
Theorem C20_blobs :
  forall (E : Env) reads w k w',
  put_data sqlite_ds reads w = (Done k, w') ->
  exists objs, puts_between w w' objs /\
    concat (blobs objs) = fst (stream reads) /\
    exists chunks last, blobs objs = chunks ++ last /\ length last <= 1 /\
      Forall (fun d => 32768 <= lenN d)%N chunks /\
      (full_reads reads -> Forall (fun d => lenN d <= 65536)%N (blobs objs)).
Proof. exact @blob_sizes. Qed.
Print Assumptions C20_blobs.
Example C20_example :
  full_reads [RInterrupted; RData (str "abc"); RData []; RError] /\
  (forall d, full_read d -> full_reads [RData d; RData d; RData (str "abc")]) /\
  exists k w', put_data sqlite_ds [RData (str "abc")] ex_w = (Done k, w') /\
    puts_between ex_w w' [Object (str "abc") [] FileBlob].
Proof.
  split; [cbn; repeat split; auto; discriminate|]. split.
  - intros d H. cbn [full_reads]. rewrite H. repeat split; try (left; exact H); try discriminate. right. reflexivity.
  - eexists _, _. split; [vm_compute; reflexivity|vm_compute; reflexivity].
Qed.
(** ... but with short reads there is no upper bound. *)
Theorem C20_upper_bound_refuted :
  exists E : Env, forall (w : world) (n : nat), w_faults w = [] -> (N.of_nat n * 32768 < 2 ^ 62)%N ->
  exists reads k w' b,
    put_data sqlite_ds reads w = (Done k, w') /\
    Forall (fun r => exists d, r = RData d /\ lenN d = 32768%N) reads /\
    puts_between w w' [Object b [] FileBlob] /\ lenN b = (N.of_nat n * 32768)%N.
Proof. exact unbounded_blobs. Qed.
Print Assumptions C20_upper_bound_refuted.

(** C21: the property would be: the key is a function of the bytes.  It is not. *)
Theorem C21_key_depends_on_read_sizes_refuted :
  exists (E : Env) reads1 reads2 w k1 k2 w1 w2,
    session w /\ stream reads1 = stream reads2 /\
    put_data sqlite_ds reads1 w = (Done k1, w1) /\ put_data sqlite_ds reads2 w = (Done k2, w2) /\ k1 <> k2.
Proof. exact key_depends_on_reads. Qed.
Print Assumptions C21_key_depends_on_read_sizes_refuted.
(** With every table, and every content of more than 32769 bytes: reading one byte
    and then the rest stores other blobs than reading everything at once. *)
Theorem C21_blobs_depend_on_read_sizes :
  forall (E : Env) x d w w' k1 k2 w1 w2,
  (32768 < lenN d)%N ->
  put_data sqlite_ds [RData (x :: d)] w = (Done k1, w1) ->
  put_data sqlite_ds [RData [x]; RData d] w' = (Done k2, w2) ->
  exists objs1 objs2, puts_between w w1 objs1 /\ puts_between w' w2 objs2 /\
    option_map (@lenN byte) (hd_error (blobs objs1)) = Some 32768%N /\ option_map (@lenN byte) (hd_error (blobs objs2)) = Some 32769%N.
Proof. exact @blobs_depend_on_reads. Qed.
Print Assumptions C21_blobs_depend_on_read_sizes.
(** What holds: files below 32768 bytes are one blob, however they are read; and
    equal reads give equal keys (C19). *)
Theorem C21_small_files :
  forall (E : Env) reads w k w',
  put_data sqlite_ds reads w = (Done k, w') -> (lenN (fst (stream reads)) < 32768)%N ->
  k = Blake3B (blake3 (encode_object (Object (fst (stream reads)) [] FileBlob))).
Proof. exact @small_files. Qed.
Print Assumptions C21_small_files.

Example C21_example :
  exists k w', put_data sqlite_ds ex_reads ex_w = (Done k, w') /\ (lenN (fst (stream ex_reads)) < 32768)%N /\
    (* hypotheses of C21_blobs_depend_on_read_sizes: any table gives keys for both readings *)
    forall (E : Env) x d, (32768 < lenN d)%N -> (lenN d < 2 ^ 61)%N ->
      (exists k1 w1, put_data sqlite_ds [RData (x :: d)] ex_w = (Done k1, w1)) /\
      (exists k2 w2, put_data sqlite_ds [RData [x]; RData d] ex_w = (Done k2, w2)).
Proof.
  eexists _, _. split; [vm_compute; reflexivity|]. split; [reflexivity|]. intros E x d L U.
  assert (ND : d <> []) by (intros ->; discriminate).
  split; apply put_data_succeeds; try reflexivity.
  - unfold lenN in *. cbn. rewrite app_nil_r. lia.
  - destruct d; [contradiction|reflexivity].
  - unfold lenN in *. destruct d as [|y d]; [contradiction|]. cbn in *. rewrite app_nil_r. lia.
Qed.

(** C22: whatever the reader does and whatever storage operations fail, [put_data]
    ends with a key, an I/O error, a storage error (or the process is killed) ... *)
Theorem C22_outcomes :
  forall (E : Env) reads w,
  match fst (put_data sqlite_ds reads w) with
  | Done _ | Error EIo | Error ESql | Crashed => True
  (* allocating more than 2^63 bytes *)
  | Panicked PCapacity => (2 ^ 62 <= lenN (fst (stream reads)) + 5)%N
  | _ => False
  end.
Proof. exact @put_data_outcomes. Qed.
Print Assumptions C22_outcomes.
(** ... and with a key if neither the reader nor the storage fails. *)
Theorem C22_succeeds :
  forall (E : Env) reads w,
  w_faults w = [] -> snd (stream reads) = false -> (lenN (fst (stream reads)) + 5 < 2 ^ 62)%N ->
  exists k w', put_data sqlite_ds reads w = (Done k, w').
Proof. exact @put_data_succeeds. Qed.
Print Assumptions C22_succeeds.

Example C22_example :
  fst (put_data sqlite_ds [RData (str "a"); RError] ex_w) = Error EIo /\
  fst (put_data sqlite_ds [RData (str "a")] (set_faults ex_w [FErr 0])) = Error ESql /\
  fst (put_data sqlite_ds [RData (str "a")] (set_faults ex_w [FCrash 0])) = Crashed /\
  (exists k, fst (put_data sqlite_ds [RData (str "a"); RInterrupted] ex_w) = Done k).
Proof. vm_compute. repeat split. eexists. reflexivity. Qed.

(** C23: interrupted reads are invisible, in result and effect ... *)
Theorem C23_interrupts_invisible :
  forall (E : Env) (s : datastore) reads reads' w,
  strip reads = strip reads' -> put_data s reads w = put_data s reads' w.
Proof. exact @interrupts_invisible. Qed.
Print Assumptions C23_interrupts_invisible.
(** ... and a failing read before the end of the input is reported. *)
Theorem C23_read_errors_reported :
  forall (E : Env) reads w,
  snd (stream reads) = true ->
  (forall k, fst (put_data sqlite_ds reads w) <> Done k) /\
  (w_faults w = [] -> (lenN (fst (stream reads)) + 5 < 2 ^ 62)%N -> fst (put_data sqlite_ds reads w) = Error EIo).
Proof. exact @errors_reported. Qed.
Print Assumptions C23_read_errors_reported.
Example C23_example :
  strip [RInterrupted; RData (str "a"); RInterrupted; RError; RInterrupted] = [RData (str "a"); RError] /\
  snd (stream [RInterrupted; RData (str "a"); RInterrupted; RError]) = true /\
  snd (stream [RData (str "a"); RData []; RError]) = false.
Proof. repeat split. Qed.
