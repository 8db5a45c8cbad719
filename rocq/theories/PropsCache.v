(** Properties C33-C35: the cache of file hashes. *)
From Verif Require Import Base BaseFacts Key Cbor Object Path World WorldFacts Store File Filter Dir Diff Main SpecStore StoreCalls SpecRun SpecFile SpecDir SpecCache SpecDiff
  ObjStoreFacts SessionFacts FsFacts DirLive CacheFacts HashFacts DiffFacts SnapFacts Checks Toy DirPlan.

(** C33: distinct triples are encoded differently ... *)
Theorem C33_triples_independent :
  forall a b, triple_ok a -> triple_ok b -> cache_bytes a = cache_bytes b -> a = b.
Proof. exact cache_bytes_inj. Qed.
Print Assumptions C33_triples_independent.
(** ... and after any history of successful puts, the cache answers, for every
    triple, what it answered before if that was something, else the first key put
    for exactly this triple. *)
Theorem C33_first_put_wins :
  forall hist c, triple_ok c -> forall w x w', Forall (fun h => triple_ok (fst h)) hist ->
  put_all hist w = (Done x, w') ->
  looked_up w' c = match looked_up w c with Done None => Done (first_put c hist) | o => o end.
Proof. exact put_all_lookup. Qed.
Print Assumptions C33_first_put_wins.
(** A put that fails changes nothing (except that the whole transaction may be
    rolled back). *)
Theorem C33_failed_put :
  forall c k w o w', cache_put c k w = (o, w') -> o <> Done tt -> o <> Crashed ->
  o = Error ESql /\ w_cache w' = w_cache w /\ (w_ctxn w' = w_ctxn w \/ w_ctxn w' = None).
Proof. exact cache_put_failed. Qed.
Print Assumptions C33_failed_put.
(** Two triples that differ only in the sign of the time, put alternately. *)
Definition ck_a : cachekey := CacheKey 7 (-1) 5.
Definition ck_b : cachekey := CacheKey 7 1 5.
Definition ck_hist : list (cachekey * key) :=
  [(ck_a, Blake3B (toy_hash (str "1"))); (ck_b, Blake3B (toy_hash (str "2"))); (ck_a, Blake3B (toy_hash (str "3")))].
Example C33_example :
  triple_ok ck_a /\ triple_ok ck_b /\ ck_a <> ck_b /\ Forall (fun h => triple_ok (fst h)) ck_hist /\
  fst (put_all ck_hist toy_world) = Done tt /\
  looked_up (snd (put_all ck_hist toy_world)) ck_a = Done (Some (Blake3B (toy_hash (str "1")))) /\
  looked_up (snd (put_all ck_hist toy_world)) ck_b = Done (Some (Blake3B (toy_hash (str "2")))) /\
  fst (cache_put ck_a (Blake3B (toy_hash [])) (set_faults toy_world [FErr 0])) = Error ESql.
Proof.
  assert (A : triple_ok ck_a) by (unfold triple_ok; cbn; lia). assert (B : triple_ok ck_b) by (unfold triple_ok; cbn; lia).
  split; [exact A|]. split; [exact B|]. split; [discriminate|]. split; [repeat (apply Forall_cons; [assumption|]); apply Forall_nil|]. vm_compute. auto.
Qed.

(** C34: when every answer of the cache about a file on disk is right,
    [hash_fs_item] gives the key that any insertion of a file with the same content
    gives, into any store ... *)
Theorem C34_hash_is_insert_key :
  forall (E : Env) p w k w', steady_reads -> cache_right w ->
  hash_fs_item sqlite_ds p w = (Done k, w') ->
  exists l c st, stat (w_fs w) (w_cwd w) p = Some (l, EFile c st) /\
    forall s fuel q ex db u l' st' k' u', (s = sqlite_ds \/ s = null_ds) -> stat (w_fs u) (w_cwd u) q = Some (l', EFile c st') ->
    put_fs_item s fuel q (filter_fn ex db) u = (Done k', u') -> k' = k.
Proof.
  intros E p w k w' St R H. destruct (hash_right p w k w' St R H) as (l & c & st & S & Hh). exists l, c, st. split; [exact S|].
  intros s fuel q ex db u l' st' k' u' Hs Su P. eapply hashed_fun; [exact St| |exact Hh].
  exists s, fuel, q, ex, db, u, l', st', u'. split; [exact Hs|]. split; [exact Su|]. split; [exact P|apply incl_refl].
Qed.
Print Assumptions C34_hash_is_insert_key.
(** ... and the cache stays right, whatever fails; so it does during a whole
    comparison.  An empty cache is right. *)
Theorem C34_cache_stays_right :
  forall (E : Env) p w, steady_reads -> triples_ok (w_fs w) -> cache_right w -> cache_right (snd (hash_fs_item sqlite_ds p w)).
Proof. intros E p w. apply hash_keeps. Qed.
Print Assumptions C34_cache_stays_right.
Theorem C34_compare_keeps_cache_right :
  forall (E : Env) from to w, steady_reads -> triples_ok (w_fs w) -> cache_right w -> cache_right (snd (compare sqlite_ds from to w)).
Proof. intros E from to w St T R. exact (proj2 (rel_compare_gr from to St w (conj T R))). Qed.
Print Assumptions C34_compare_keeps_cache_right.
Theorem C34_empty_cache_right :
  forall (E : Env) w, w_cache w = [] -> w_ctxn w = None \/ w_ctxn w = Some [] -> cache_right w.
Proof. intros E w. apply right_empty. Qed.
Print Assumptions C34_empty_cache_right.

(** A small machine: a database folder, a file "n" and a directory with one file. *)
Definition cx_fs (c : bytes) : fs :=
  [([str "db"], EDir); ([str "n"], EFile (str "other") (Stamp 9 0)); ([str "src"], EDir); ([str "src"; str "a"], EFile c (Stamp 1 0))].
Definition cx_w : world := set_conn (close_all (set_fs toy_world (cx_fs (str "hello")))) [str "db"].
Notation cx_filter := (filter_fn [] (parse_path (str "db"))).
Lemma cx_session : session cx_w.
Proof. exists (set_fs toy_world (cx_fs (str "hello"))), [str "db"], []. split; [constructor; reflexivity|reflexivity]. Qed.
Lemma steady_toy : steady_reads (E := toy_env).
Proof. intros i j c. reflexivity. Qed.
Lemma cx_fs_ok c : fs_ok (cx_fs c).
Proof. apply fs_okb_ok. vm_compute. reflexivity. Qed.
(** Hashing "src/a" twice: the second time the cache answers. *)
Definition cx_hash : outcome key * world := hash_fs_item sqlite_ds (parse_path (str "src/a")) cx_w.
Definition cx_again : outcome key * world := hash_fs_item sqlite_ds (parse_path (str "src/a")) (snd cx_hash).
Example C34_example :
  steady_reads /\ triples_ok (w_fs cx_w) /\ cache_right cx_w /\
  (exists k, fst cx_hash = Done k) /\ length (cur_cache (snd cx_hash)) = 1 /\
  cache_right (snd cx_hash) /\ fst cx_again = fst cx_hash /\ w_hashed (snd cx_again) = w_hashed (snd cx_hash).
Proof.
  assert (R : cache_right cx_w) by (apply right_empty; [reflexivity|left; reflexivity]). pose proof (triples_okb_ok (cx_fs (str "hello")) eq_refl) as T.
  split; [exact steady_toy|]. split; [exact T|]. split; [exact R|].
  split; [eexists; vm_compute; reflexivity|]. split; [vm_compute; reflexivity|]. split; [apply hash_keeps; [exact steady_toy|exact T|exact R]|].
  split; vm_compute; reflexivity.
Qed.

(** C35: comparing a directory with a snapshot taken before, with the cache right:
    a file that both have is listed as modified, with the keys of the old and the
    new content, exactly when the contents differ. *)
Theorem C35_modified_iff_content_differs :
  forall (E : Env) w0 ex0 fo0 p0 k w p ex fo r w',
  steady_reads -> snapshot w0 ex0 fo0 p0 k w -> in_order w ->
  compare sqlite_ds (TFileSystem p ex fo) (Some k) w = (Done r, w') -> no_coll (w_hashed w') ->
  forall x c st c0 st0, on_disk ex fo p w x (EFile c st) -> snapped w0 ex0 fo0 p0 x (EFile c0 st0) -> keeps_data c -> keeps_data c0 ->
  (c <> c0 <-> exists k0 k1, hashed_as (w_hashed w') c0 k0 /\ hashed_as (w_hashed w') c k1 /\ In (Modified (named x) k0 k1) (df_modified r)).
Proof. intros E w0 ex0 fo0 p0 k w p ex fo r w'. apply changed_listed. Qed.
Print Assumptions C35_modified_iff_content_differs.

Definition cx_put : outcome key * world := put_fs_item sqlite_ds 10 (parse_path (str "src")) cx_filter cx_w.
Definition cx_key : key := match fst cx_put with Done k => k | _ => Blake3B (toy_hash []) end.
Definition cx_target : difftarget := TFileSystem (parse_path (str "src")) [] (parse_path (str "db")).
Definition diff_of (o : outcome diff_result) : diff_result := match o with Done r => r | _ => DiffResult [] [] [] end.
Lemma done_of (m : outcome diff_result * world) : (match fst m with Done _ => true | _ => false end) = true -> m = (Done (diff_of (fst m)), snd m).
Proof. destruct m as [[| | | |] ?]; intro H; try discriminate H; reflexivity. Qed.
Lemma cx_put_done : put_fs_item sqlite_ds 10 (parse_path (str "src")) cx_filter cx_w = (Done cx_key, snd cx_put).
Proof. vm_compute. reflexivity. Qed.
(** Changed, with nothing in the cache yet. *)
Definition cx_changed : world := set_fs (snd cx_put) (cx_fs (str "HELLO")).
Definition cx_cmp : outcome diff_result * world := compare sqlite_ds cx_target (Some cx_key) cx_changed.
Lemma cx_cmp_done : compare sqlite_ds cx_target (Some cx_key) cx_changed = (Done (diff_of (fst cx_cmp)), snd cx_cmp).
Proof. vm_compute. reflexivity. Qed.
Lemma keeps_small c : length c = 5 -> keeps_data (E := toy_env) c.
Proof.
  intros L t. apply lossless_small. rewrite stream_segment. apply Nat.lt_trans with 6.
  - cbn [fst]. change (length c < 6). rewrite L. auto with arith.
  - unfold chunk_max. rewrite <- (Nat2N.id 6) at 1. apply Nat.compare_lt_iff. rewrite <- N2Nat.inj_compare. reflexivity.
Qed.
Lemma snapshot_now {E : Env} fuel w0 ex fo p k w1 f : working w0 -> fs_ok (w_fs w0) -> put_fs_item sqlite_ds fuel p (filter_fn ex fo) w0 = (Done k, w1) ->
  snapshot w0 ex fo p k (set_fs w1 f).
Proof. intros S O P. exists fuel, w1. split; [exact S|]. split; [exact O|]. split; [exact P|]. split; [exact (fun k v H => H)|apply incl_refl]. Qed.
Lemma in_order_now {E : Env} w f : fs_okb f = true -> triples_okb f = true -> w_cache w = [] -> w_ctxn w = None -> in_order (set_fs w f).
Proof. intros A B C D. split; [apply fs_okb_ok, A|]. split; [apply triples_okb_ok, B|]. apply right_empty; [exact C|left; exact D]. Qed.
Lemma on_disk_now {E : Env} w f ex fo p x e : w_cwd w = [] -> x <> [] -> lookup f (locate [] p ++ x) = Some e -> included ex (locate [] fo) p (locate [] p) x ->
  on_disk ex fo p (set_fs w f) x e.
Proof. intros C X L I. unfold on_disk. cbn [w_cwd w_fs set_fs]. rewrite C. auto. Qed.
Lemma cx_snapshot f : snapshot cx_w [] (parse_path (str "db")) (parse_path (str "src")) cx_key (set_fs (snd cx_put) f).
Proof. exact (snapshot_now 10 _ _ _ _ _ _ f (wk_session _ cx_session) (cx_fs_ok _) cx_put_done). Qed.
Example C35_example :
  steady_reads /\ snapshot cx_w [] (parse_path (str "db")) (parse_path (str "src")) cx_key cx_changed /\ in_order cx_changed /\
  compare sqlite_ds cx_target (Some cx_key) cx_changed = (Done (diff_of (fst cx_cmp)), snd cx_cmp) /\ no_coll (w_hashed (snd cx_cmp)) /\
  on_disk [] (parse_path (str "db")) (parse_path (str "src")) cx_changed [str "a"] (EFile (str "HELLO") (Stamp 1 0)) /\
  snapped cx_w [] (parse_path (str "db")) (parse_path (str "src")) [str "a"] (EFile (str "hello") (Stamp 1 0)) /\
  keeps_data (str "HELLO") /\ keeps_data (str "hello") /\ length (df_modified (diff_of (fst cx_cmp))) = 1.
Proof.
  split; [exact steady_toy|]. split; [apply cx_snapshot|]. split; [apply in_order_now; vm_compute; reflexivity|].
  split; [exact cx_cmp_done|]. split; [apply logb_ok; vm_compute; reflexivity|].
  assert (J : included (E := toy_env) [] [str "db"] (parse_path (str "src")) [str "src"] [str "a"]).
  { intros r1 r2 _ _ [(r' & Q)|(g & [] & _)]. discriminate Q. }
  split; [apply on_disk_now; [vm_compute; reflexivity|discriminate|reflexivity|exact J]|]. split; [split; [reflexivity|exact J]|].
  split; [apply keeps_small; reflexivity|]. split; [apply keeps_small; reflexivity|]. vm_compute. reflexivity.
Qed.

(** Without "right", false: after a comparison that fills the cache, the file is
    rewritten with other content of the same size in the same second; the next
    comparison finds nothing. *)
Definition cx_first : outcome diff_result * world := compare sqlite_ds cx_target (Some cx_key) (snd cx_put).
Lemma cx_first_done : compare sqlite_ds cx_target (Some cx_key) (snd cx_put) = (Done (diff_of (fst cx_first)), snd cx_first).
Proof. vm_compute. reflexivity. Qed.
Definition cx_rewritten : world := set_fs (snd cx_first) (cx_fs (str "HELLO")).
Definition cx_second : outcome diff_result * world := compare sqlite_ds cx_target (Some cx_key) cx_rewritten.
Lemma cx_second_done : compare sqlite_ds cx_target (Some cx_key) cx_rewritten = (Done (diff_of (fst cx_second)), snd cx_second).
Proof. vm_compute. reflexivity. Qed.
Theorem C35_stale_cache_refuted :
  exists (E : Env) w0 p fo k w1 t r1 w2 f r w' x c st c0,
    steady_reads /\ session w0 /\ fs_ok (w_fs w0) /\ in_order w0 /\
    put_fs_item sqlite_ds 10 p (filter_fn [] fo) w0 = (Done k, w1) /\
    t = TFileSystem p [] fo /\ compare sqlite_ds t (Some k) w1 = (Done r1, w2) /\
    fs_ok f /\ triples_ok f /\ compare sqlite_ds t (Some k) (set_fs w2 f) = (Done r, w') /\ no_coll (w_hashed w') /\
    on_disk [] fo p (set_fs w2 f) x (EFile c st) /\ snapped w0 [] fo p x (EFile c0 st) /\ c <> c0 /\
    df_modified r = [] /\ df_added r = [] /\ df_deleted r = [].
Proof.
  exists toy_env, cx_w, (parse_path (str "src")), (parse_path (str "db")), cx_key, (snd cx_put), cx_target, (diff_of (fst cx_first)), (snd cx_first),
    (cx_fs (str "HELLO")), (diff_of (fst cx_second)), (snd cx_second), [str "a"], (str "HELLO"), (Stamp 1 0), (str "hello").
  assert (J : included (E := toy_env) [] [str "db"] (parse_path (str "src")) [str "src"] [str "a"]).
  { intros r1 r2 _ _ [(r' & Q)|(g & [] & _)]. discriminate Q. }
  split; [exact steady_toy|]. split; [exact cx_session|]. split; [apply cx_fs_ok|].
  split; [split; [apply cx_fs_ok|]; split; [apply triples_okb_ok; reflexivity|apply right_empty; [reflexivity|left; reflexivity]]|].
  split; [exact cx_put_done|]. split; [reflexivity|]. split; [exact cx_first_done|].
  split; [apply cx_fs_ok|]. split; [apply triples_okb_ok; reflexivity|].
  split; [exact cx_second_done|]. split; [apply logb_ok; vm_compute; reflexivity|].
  split; [apply on_disk_now; [vm_compute; reflexivity|discriminate|reflexivity|exact J]|]. split; [split; [reflexivity|exact J]|]. split; [discriminate|].
  vm_compute. auto.
Qed.
Print Assumptions C35_stale_cache_refuted.
