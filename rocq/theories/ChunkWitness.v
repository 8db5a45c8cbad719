(** Concrete runs of the chunking showing what goes wrong.  The data is long, so
    the runs are followed by lemmas, not by computation. *)
From Verif Require Import Base BaseFacts Key KeyFacts Object World Store WorldFacts TableFacts SpecStore StoreCalls SpecTrace
  StoreFacts Frame DbRel Main SpecRun Integrity File ObjStoreFacts SpecFile FilePlan FileFacts ChunkFacts SessionFacts FileRun Toy.

Lemma level_max_val : N.of_nat level_max = 512%N.
Proof. unfold level_max. rewrite N2Nat.id. reflexivity. Qed.

(** *** Steps *)
Section Steps.
  Context {E : Env}.
  Local Opaque chunk_max level_max.

  Lemma fuel_split r n : n <= reads_weight r -> exists f, reads_weight r = n + f.
  Proof. intro H. exists (reads_weight r - n). lia. Qed.
  Lemma boundary_nil h : next_match h [] blob_zero_count_bitmask = (None, h) /\ boundary None [] = None.
  Proof. split; [reflexivity|]. unfold boundary. destruct (Nat.ltb chunk_max (length [])) eqn:Z; [apply Nat.ltb_lt in Z; cbn in Z; lia|reflexivity]. Qed.
  (** Reading when the buffer is empty. *)
  Lemma step_read f kb cur h x d r :
    ploop (S f) (PD kb [] cur h) (RData (x :: d) :: r) = ploop f (PD kb (x :: d) cur h) r.
  Proof.
    rewrite ploop_unfold. cbn [pd_hash pd_buf]. destruct (boundary_nil h) as [-> ->]. cbn [pd_cur pd_kb]. rewrite app_nil_r. reflexivity.
  Qed.
  Lemma step_end f kb cur h : ploop (S f) (PD kb [] cur h) [] = pret (PD kb [] cur h).
  Proof.
    rewrite ploop_unfold. cbn [pd_hash pd_buf]. destruct (boundary_nil h) as [-> ->]. cbn [pd_cur pd_kb]. rewrite app_nil_r. reflexivity.
  Qed.
  (** The forced cut of a long buffer. *)
  Lemma step_forced f kb buf cur h r : chunk_max < length buf -> length cur + chunk_max < 2 * chunk_max + chunk_max ->
    exists h', snd (next_match h buf blob_zero_count_bitmask) = h' /\
    ploop (S f) (PD kb buf cur h) r =
      let c := cur ++ firstn chunk_max buf in
      pbind (pput (Object c [] FileBlob)) (fun k =>
        pbind (pcascade [0; 1; 2; 3] (leading_zeros h') (kb_push kb 0 k)) (fun kb' =>
          ploop f (PD kb' (skipn chunk_max buf) [] h') r)).
  Proof.
    intros L _. destruct (next_match h buf blob_zero_count_bitmask) as [hm h'] eqn:N. exists h'. split; [reflexivity|].
    rewrite ploop_unfold. cbn [pd_hash pd_buf pd_kb pd_cur]. rewrite N. unfold boundary.
    apply Nat.ltb_lt in L. rewrite L. apply Nat.ltb_lt in L. unfold pcut. cbn [pd_hash pd_buf pd_kb pd_cur].
    destruct (Nat.ltb (length buf) chunk_max) eqn:Z; [apply Nat.ltb_lt in Z; lia|]. cbv zeta.
    rewrite Nat.eqb_refl, orb_true_r. cbn [negb].
    destruct (Nat.leb chunk_max (length (cur ++ firstn chunk_max buf))) eqn:Z2.
    2:{ apply Nat.leb_gt in Z2. rewrite app_length, firstn_length in Z2. unfold byte in *. lia. }
    unfold pblob. destruct (pput (Object (cur ++ firstn chunk_max buf) [] FileBlob)) as [l1 [k|e|x| |]]; try reflexivity.
    cbn [pbind]. destruct (pcascade _ _ _) as [l2 [kb'|e|x| |]]; try reflexivity. cbn [pbind pret]. rewrite app_nil_r.
    destruct (ploop f _ r). rewrite app_assoc. reflexivity.
  Qed.
  (** A one-byte cut. *)
  Lemma step_byte f kb x buf cur h r :
    length (x :: buf) <= chunk_max -> length cur + 1 < chunk_max ->
    N.land (gear_step h x) blob_zero_count_bitmask = 0%N ->
    ploop (S f) (PD kb (x :: buf) cur h) r = ploop f (PD kb buf (cur ++ [x]) (gear_step h x)) r.
  Proof.
    intros L C M. rewrite ploop_unfold. cbn [pd_hash pd_buf pd_kb pd_cur next_match]. rewrite M. cbn [N.eqb].
    unfold boundary. destruct (Nat.ltb chunk_max (length (x :: buf))) eqn:Z; [apply Nat.ltb_lt in Z; lia|].
    unfold pcut. cbn [pd_hash pd_buf pd_kb pd_cur]. destruct (Nat.ltb (length (x :: buf)) 1) eqn:Z1; [apply Nat.ltb_lt in Z1; cbn in Z1; lia|].
    cbv zeta. cbn [firstn skipn]. rewrite match_zeros by (try exact M; apply N.mod_lt; discriminate). cbn [orb negb].
    destruct (Nat.leb chunk_max (length (cur ++ [x]))) eqn:Z2; [apply Nat.leb_le in Z2; rewrite app_length in Z2; cbn in Z2; lia|].
    cbn [pret pbind]. destruct (ploop f _ r). reflexivity.
  Qed.
  (** A read without a match is appended to the current chunk. *)
  Lemma step_append f kb buf cur h h' r :
    length buf <= chunk_max -> next_match h buf blob_zero_count_bitmask = (None, h') ->
    ploop (S f) (PD kb buf cur h) r =
      match r with
      | [] => pret (PD kb [] (cur ++ buf) h')
      | RData [] :: _ => pret (PD kb [] (cur ++ buf) h')
      | RData d :: r => ploop f (PD kb d (cur ++ buf) h') r
      | RInterrupted :: r => ploop f (PD kb [] (cur ++ buf) h') r
      | RError :: _ => pstop (Error EIo)
      end.
  Proof.
    intros L N. rewrite ploop_unfold. cbn [pd_hash pd_buf pd_kb pd_cur]. rewrite N. unfold boundary.
    destruct (Nat.ltb chunk_max (length buf)) eqn:Z; [apply Nat.ltb_lt in Z; lia|]. reflexivity.
  Qed.

  (** *** Whatever the table: the first blob depends on the sizes of the reads. *)
  Lemma first_blob x d l k : chunk_max < length (x :: d) -> pdata [RData (x :: d)] = (l, Done k) ->
    exists rest, blobs l = firstn chunk_max (x :: d) :: rest.
  Proof.
    intros L H. apply pbind_done in H as (l1 & st & l2 & H & _ & ->).
    destruct (fuel_split [RData (x :: d)] 2) as [f F]; [cbn; lia|]. rewrite F in H. unfold pd_init in H.
    change (2 + f) with (S (S f)) in H. rewrite step_read in H.
    destruct (step_forced f kb_empty (x :: d) [] 0%N [] L) as (h & _ & S). { pose proof chunk_max_pos. cbn. lia. }
    rewrite S in H. cbv zeta in H. apply pbind_done in H as (l3 & k1 & l4 & P & _ & ->). apply pput_done in P as (-> & _).
    cbn [app]. exists (blobs (l4 ++ l2)). reflexivity.
  Qed.
  Lemma first_blob_late x d l k : chunk_max < length d -> 1 < chunk_max -> pdata [RData [x]; RData d] = (l, Done k) ->
    exists rest, blobs l = (x :: firstn chunk_max d) :: rest.
  Proof.
    intros L C H. apply pbind_done in H as (l1 & st & l2 & H & _ & ->).
    assert (ND : d <> []) by (intros ->; cbn in L; lia).
    destruct (fuel_split [RData [x]; RData d] 5) as [f F].
    { cbn [reads_weight length]. lia. }
    rewrite F in H. unfold pd_init in H. change (5 + f) with (S (S (S (S (S f))))) in H. rewrite step_read in H.
    assert (exists g h, ploop (S (S (S (S f)))) (PD kb_empty [x] [] 0%N) [RData d] = ploop (S g) (PD kb_empty d [x] h) []) as (g & h & G).
    { destruct d as [|y d]; [contradiction|].
      destruct (N.eq_dec (N.land (gear_step 0 x) blob_zero_count_bitmask) 0) as [M|M].
      - rewrite step_byte; [|cbn [length]; lia|cbn [length]; lia|exact M]. rewrite step_read. eauto.
      - rewrite (step_append _ _ _ _ _ (gear_step 0 x)); [eauto|cbn [length]; lia|].
        cbn [next_match]. apply N.eqb_neq in M. rewrite M. reflexivity. }
    rewrite G in H.
    destruct (step_forced g kb_empty d [x] h [] L) as (h' & _ & S). { cbn. lia. }
    rewrite S in H. cbv zeta in H. apply pbind_done in H as (l3 & k1 & l4 & P & _ & ->). apply pput_done in P as (-> & _).
    cbn [app]. exists (blobs (l4 ++ l2)). reflexivity.
  Qed.
End Steps.

Lemma firstn_exact {A} (a b : list A) : firstn (length a) (a ++ b) = a.
Proof. rewrite firstn_app, Nat.sub_diag, firstn_all. apply app_nil_r. Qed.
Lemma skipn_exact {A} (a b : list A) : skipn (length a) (a ++ b) = b.
Proof. rewrite skipn_app, Nat.sub_diag, skipn_all. reflexivity. Qed.

(** *** Environments *)
(** A hash that looks into short strings only. *)
Definition wit_hash (d : bytes) : arr32 :=
  if (lenN d <? 1000)%N then toy_hash d else Arr32 (repeat (byte_of 255) 32) eq_refl.
Definition wit_env (g : N) : Env := {|
  blake3 := wit_hash;
  gear_table := fun _ => g;
  other_object := fun _ => None;
  other_fsitem := fun _ => None;
  other_attrs := fun _ => None;
  read_sizes := fun _ _ => [];
  fresh_inode := N.of_nat;
  clock := Z.of_nat;
  glob_valid := fun _ => true;
  glob_match := fun _ _ => false;
  lossy := fun b => b;
  diff_lines := fun a b => [DLeft a; DRight b];
  changeset := fun a b => [Rem a; World.Add b];
  show_patch := fun _ => [];
  debug_cbor := fun _ => Err [];
  cache_dir := None;
  stack := 50;
  loop_bound := 50
|}.
Lemma long_hash o : (1000 <= lenN (o_data o))%N -> wit_hash (encode_object o) = Arr32 (repeat (byte_of 255) 32) eq_refl.
Proof.
  intro H. unfold wit_hash. destruct (lenN (encode_object o) <? 1000)%N eqn:L; [|reflexivity].
  apply N.ltb_lt in L. exfalso. revert L. apply N.le_ngt. etransitivity; [exact H|].
  unfold encode_object. cbn. unfold lenN. cbn [length]. rewrite ?app_length, ?app_nil_r. cbn [length]. unfold byte. lia.
Qed.

(** *** C18: data lost *)
Section Loss.
  Local Opaque chunk_max level_max.
  #[local] Instance EL : Env := wit_env 0.
  Definition x0 : byte := byte_of 65.
  Definition lost_data : bytes := repeat x0 chunk_max.
  Definition loss_reads : list readres := [RData (repeat x0 (S chunk_max))].
  Lemma loss_stream : stream loss_reads = (lost_data ++ [x0], false).
  Proof. unfold lost_data. rewrite <- repeat_cons. cbn. rewrite app_nil_r. reflexivity. Qed.
  Definition ob : object := Object lost_data [] FileBlob.
  Definition kob : key := Blake3B (Arr32 (repeat (byte_of 255) 32) eq_refl).
  Definition t1 : object := Object [] [kob] FileBlobTree.
  Definition t2 : object := Object [] [obj_key t1] FileBlobTree.
  Definition t3 : object := Object [] [obj_key t2] FileBlobTree.
  Definition t4 : object := Object [] [obj_key t3] FileBlobTree.
  Definition oe : object := Object [x0] [] FileBlob.
  Lemma len_lost : lenN lost_data = 32768%N.
  Proof. unfold lenN, lost_data. rewrite repeat_length. apply chunk_max_val. Qed.
  Lemma kob_key : obj_key ob = kob.
  Proof.
    unfold obj_key, kob. cbn [blake3 EL wit_env]. rewrite long_hash; [reflexivity|]. cbn [ob o_data]. rewrite len_lost. discriminate.
  Qed.
  Lemma gs0 x : gear_step 0 x = 0%N.
  Proof. reflexivity. Qed.
  Lemma loss_plan : pdata loss_reads = ([ob; t1; t2; t3; t4; oe], Done (obj_key oe)).
  Proof.
    assert (FO : obj_fits ob = true).
    { apply fits_small; [|reflexivity]. unfold small. change (N.of_nat (length lost_data)) with (lenN lost_data). rewrite len_lost. reflexivity. }
    unfold pdata. destruct (fuel_split loss_reads 4) as [f F].
    { unfold loss_reads. cbn [reads_weight]. rewrite repeat_length. pose proof chunk_max_val. lia. }
    rewrite F. unfold pd_init. change (4 + f) with (S (S (S (S f)))).
    unfold loss_reads. cbn [repeat]. rewrite step_read.
    destruct (step_forced (S (S f)) kb_empty (x0 :: repeat x0 chunk_max) [] 0%N []) as (h & Hh & S).
    { cbn [length]. rewrite repeat_length. lia. }
    { pose proof chunk_max_pos. cbn. lia. }
    cbn [next_match] in Hh. rewrite gs0 in Hh. cbn in Hh. subst h. rewrite S. cbv zeta. cbn [app].
    assert (SP : x0 :: repeat x0 chunk_max = lost_data ++ [x0]) by (unfold lost_data; rewrite <- (repeat_cons chunk_max); reflexivity).
    assert (LL : length lost_data = chunk_max) by apply repeat_length.
    rewrite SP, <- LL, firstn_exact, skipn_exact. fold ob. rewrite pput_total by exact FO. rewrite kob_key. cbn [pbind].
    change (pcascade [0; 1; 2; 3] (leading_zeros 0) (kb_push kb_empty 0 kob)) with
      ([t1; t2; t3; t4], Done [[]; []; []; []; [obj_key t4]]). cbn [pbind].
    rewrite step_byte; [|cbn [length]; pose proof chunk_max_val; lia|cbn [length]; pose proof chunk_max_val; lia|reflexivity].
    rewrite step_end. cbn [pret]. cbn [app pbind]. rewrite pfinish_eq by reflexivity.
    cbn [pd_kb seq forallb empty_at kb_get nth andb pd_cur]. reflexivity.
  Qed.
  Definition loss_start : world := set_conn (close_all toy_world) [str "db"].
  Lemma loss_session : session loss_start.
  Proof. exists toy_world, [str "db"], []. split; [constructor; reflexivity|reflexivity]. Qed.
  Lemma loss_run : exists w', put_data sqlite_ds loss_reads loss_start = (Done (obj_key oe), w') /\
    no_coll (w_hashed w') /\ reads_data w' (obj_key oe) [x0].
  Proof.
    pose proof (fitting_data loss_reads) as F. unfold fitting in F. rewrite loss_plan in F.
    destruct (exec_nofault _ loss_start eq_refl F) as (w' & X & _). exists w'. cbn [fst] in X.
    pose proof (exec_hashed _ _ _ X) as HH. unfold puts_between in HH.
    assert (NC : no_coll (w_hashed w')).
    { apply no_coll_nodup. rewrite HH. cbn [fst map rev app]. cbn [blake3 EL wit_env].
      change (w_hashed loss_start) with (@nil bytes). cbn [map].
      rewrite (long_hash ob) by (cbn [ob o_data]; rewrite len_lost; discriminate).
      cut (NoDup (map (fun a => map byte_val (arr a)) [wit_hash (encode_object oe); wit_hash (encode_object t4); wit_hash (encode_object t3);
         wit_hash (encode_object t2); wit_hash (encode_object t1); Arr32 (repeat (byte_of 255) 32) eq_refl])).
      { intro Q. apply NoDup_map_inv in Q. exact Q. }
      vm_compute. repeat constructor; cbn; intuition discriminate. }
    split; [|split; [exact NC|]].
    - apply (follows_intro sqlite_ds _ [ob; t1; t2; t3; t4; oe]); [|exact X].
      pose proof (follows_data sqlite_ds loss_reads) as FD. rewrite loss_plan in FD. exact FD.
    - destruct (exec_holds _ _ _ (session_ok _ loss_session) X NC) as [_ HO].
      eapply den_reads; [exact HO|]. apply den_blob. cbn. tauto.
  Qed.
End Loss.

(** *** A table that never matches *)
Section NoMatch.
  Local Opaque chunk_max level_max.
  #[local] Instance EN : Env := wit_env (2 ^ 63).
  Lemma never_matches buf : forall h, (h = 0 \/ h = 2 ^ 63)%N ->
    exists h', next_match h buf blob_zero_count_bitmask = (None, h') /\ (h' = 0 \/ h' = 2 ^ 63)%N.
  Proof.
    induction buf as [|b buf IH]; intros h H; [exists h; auto|]. cbn [next_match].
    assert (G : gear_step h b = (2 ^ 63)%N) by (destruct H as [-> | ->]; reflexivity). rewrite G.
    change (N.land (2 ^ 63) blob_zero_count_bitmask =? 0)%N with false. cbn iota.
    destruct (IH (2 ^ 63)%N (or_intror eq_refl)) as (h' & -> & H'). eauto.
  Qed.
  (** Short reads only ever grow the current chunk. *)
  Lemma short_reads ds : forall f buf cur h, length ds < f -> length buf <= chunk_max -> (h = 0 \/ h = 2 ^ 63)%N ->
    Forall (fun d => 1 <= length d <= chunk_max) ds ->
    exists h', ploop f (PD kb_empty buf cur h) (map RData ds) = ([], Done (PD kb_empty [] (cur ++ buf ++ concat ds) h')).
  Proof.
    induction ds as [|d ds IH]; intros f buf cur h F L H A; (destruct f as [|f]; [cbn in F; lia|]);
      destruct (never_matches buf h H) as (h1 & N & H1); cbn [map concat].
    - rewrite (step_append _ _ _ _ _ _ _ L N). exists h1. rewrite app_nil_r. reflexivity.
    - inversion A as [|d' ds' A1 A2]; subst. rewrite (step_append _ _ _ _ _ _ _ L N). destruct d as [|x d]; [cbn in A1; lia|].
      cbn [length] in F. destruct (IH f (x :: d) (cur ++ buf) h1 ltac:(lia) (proj2 A1) H1 A2) as (h' & R). exists h'. rewrite R.
      rewrite <- !app_assoc. reflexivity.
  Qed.
  Lemma weight_more ds : length ds < reads_weight (map RData ds).
  Proof. induction ds as [|d ds IH]; cbn; lia. Qed.
  Lemma short_plan ds : Forall (fun d => 1 <= length d <= chunk_max) ds -> small (length (concat ds)) ->
    pdata (map RData ds) = ([Object (concat ds) [] FileBlob], Done (obj_key (Object (concat ds) [] FileBlob))).
  Proof.
    intros A S. unfold pdata, pd_init.
    destruct (short_reads ds (reads_weight (map RData ds)) [] [] 0%N (weight_more ds) ltac:(cbn; lia) (or_introl eq_refl) A) as (h & R).
    rewrite R. cbn [pbind]. rewrite pfinish_eq by reflexivity. cbn [pd_kb pd_cur seq forallb empty_at kb_get nth andb kb_empty app].
    unfold pblob. rewrite pput_total; [reflexivity|]. apply fits_small; [exact S|reflexivity].
  Qed.

  (** Two reads of 32768 bytes, or one of 65536. *)
  Definition half : bytes := repeat x0 chunk_max.
  Lemma len_half : lenN half = 32768%N.
  Proof. unfold lenN, half. rewrite repeat_length. apply chunk_max_val. Qed.
  Definition oh : object := Object half [] FileBlob.
  Lemma fits_half : obj_fits oh = true.
  Proof. apply fits_small; [|reflexivity]. unfold small. change (N.of_nat (length half)) with (lenN half). rewrite len_half. reflexivity. Qed.
  Definition ow : object := Object (half ++ half) [] FileBlob.
  Lemma two_plan : pdata [RData half; RData half] = ([ow], Done (obj_key ow)).
  Proof.
    assert (H : length half = chunk_max) by apply repeat_length.
    pose proof (short_plan [half; half]) as P. cbn [map concat] in P. rewrite app_nil_r in P. apply P.
    - pose proof chunk_max_pos. constructor; [lia|]. constructor; [lia|constructor].
    - unfold small. rewrite app_length. pose proof len_half. unfold lenN in *. unfold byte in *. lia.
  Qed.
  Definition th : object := Object [] [obj_key oh; obj_key oh] FileBlobTree.
  Lemma half_cons : exists y, half = x0 :: y.
  Proof. unfold half. pose proof chunk_max_pos. destruct chunk_max; [lia|]. cbn. eauto. Qed.
  Lemma one_plan : exists l, pdata [RData (half ++ half)] = (l, Done (obj_key th)).
  Proof.
    assert (H : length half = chunk_max) by apply repeat_length. pose proof chunk_max_pos as CP.
    unfold pdata. destruct (fuel_split [RData (half ++ half)] 4) as [f F].
    { cbn [reads_weight]. rewrite app_length. pose proof len_half as X. unfold lenN in X. unfold byte in *. lia. }
    rewrite F. unfold pd_init. change (4 + f) with (S (S (S (S f)))). destruct half_cons as [y Hy].
    assert (Hc : half ++ half = x0 :: (y ++ half)) by (rewrite Hy at 1; reflexivity).
    rewrite Hc, step_read, <- Hc.
    destruct (step_forced (S (S f)) kb_empty (half ++ half) [] 0%N []) as (h & Hh & S).
    { rewrite app_length. unfold byte in *. lia. }
    { cbn [length]. lia. }
    destruct (never_matches (half ++ half) 0 (or_introl eq_refl)) as (h1 & N & H1). rewrite N in Hh. cbn in Hh. subst h.
    rewrite S. cbv zeta. cbn [app]. rewrite <- H, firstn_exact, skipn_exact. fold oh. rewrite pput_total by exact fits_half.
    cbn [pbind].
    assert (C : pcascade [0; 1; 2; 3] (leading_zeros h1) (kb_push kb_empty 0 (obj_key oh)) = ([], Done [[obj_key oh]; []; []; []; []])).
    { assert (LM : Nat.leb level_max 1 = false).
      { apply Nat.leb_gt. pose proof level_max_val. lia. }
      cbn [pcascade]. cbn [kb_get kb_push kb_empty nth kb_set length app]. rewrite LM.
      destruct H1 as [-> | ->]; [|reflexivity]. exfalso.
      (* the hash is 2^63 after a byte *) clear -N Hc. rewrite Hc in N. cbn [next_match] in N.
      change (gear_step 0 x0) with (2 ^ 63)%N in N. change (N.land (2 ^ 63) blob_zero_count_bitmask =? 0)%N with false in N. cbn iota in N.
      assert (Q : forall b h2, next_match (2 ^ 63) b blob_zero_count_bitmask = (None, h2) -> h2 = (2 ^ 63)%N).
      { induction b as [|z b IH]; intros h2 B; cbn [next_match] in B; [inv B; reflexivity|].
        change (gear_step (2 ^ 63) z) with (2 ^ 63)%N in B. change (N.land (2 ^ 63) blob_zero_count_bitmask =? 0)%N with false in B. cbn iota in B.
        destruct (next_match (2 ^ 63) b blob_zero_count_bitmask) as [[m|] h3] eqn:B3; inv B. apply IH. reflexivity. }
      destruct (next_match (2 ^ 63) (y ++ half) blob_zero_count_bitmask) as [[m|] h3] eqn:B3; inv N. apply Q in B3. discriminate. }
    rewrite C. cbn [pbind].
    destruct (never_matches half h1 H1) as (h2 & N2 & _).
    rewrite (step_append _ _ _ _ _ h2) by (try exact N2; lia). cbn [app pret pbind].
    rewrite pfinish_eq by reflexivity. cbn [pd_kb pd_cur seq forallb empty_at kb_get nth andb].
    destruct half as [|z zs] eqn:Hz; [discriminate|]. rewrite <- Hz. fold oh. rewrite pput_total by exact fits_half. cbn [pbind pret].
    eexists. cbn. reflexivity.
  Qed.
  Definition kl : key := Blake3B (Arr32 (repeat (byte_of 255) 32) eq_refl).
  Lemma kl_tree : kl <> obj_key (Object [] [kl; kl] FileBlobTree).
  Proof.
    assert (X : bytes_eqb (as_db_key kl) (as_db_key (obj_key (Object [] [kl; kl] FileBlobTree))) = false) by (vm_compute; reflexivity).
    exact (fun H => Bool.diff_true_false (eq_trans (eq_sym (bytes_eqb_refl (as_db_key kl)))
      (eq_trans (f_equal (fun k => bytes_eqb (as_db_key kl) (as_db_key k)) H) X))).
  Qed.
  Lemma long_key d : (1000 <= lenN d)%N -> obj_key (Object d [] FileBlob) = kl.
  Proof. intro H. unfold obj_key, kl. cbn [blake3 EN wit_env]. rewrite long_hash; [reflexivity|exact H]. Qed.
  Lemma two_keys : obj_key ow <> obj_key th.
  Proof.
    assert (LH : (1000 <= lenN half)%N) by (rewrite len_half; discriminate).
    assert (LW : (1000 <= lenN (half ++ half))%N) by (etransitivity; [exact LH|]; unfold lenN; rewrite app_length; lia).
    unfold ow, th, oh. rewrite (long_key half LH), (long_key _ LW). exact kl_tree.
  Qed.

  Lemma half_reads n : concat (repeat half n) = repeat x0 (n * chunk_max).
  Proof. induction n as [|n IH]; [reflexivity|]. cbn [repeat concat Nat.mul]. rewrite IH, repeat_app. reflexivity. Qed.
  Lemma unbounded (w : world) (n : nat) : w_faults w = [] -> (N.of_nat n * 32768 < 2 ^ 62)%N ->
    exists reads k w' b,
      put_data sqlite_ds reads w = (Done k, w') /\
      Forall (fun r => exists d, r = RData d /\ lenN d = 32768%N) reads /\
      puts_between w w' [Object b [] FileBlob] /\ lenN b = (N.of_nat n * 32768)%N.
  Proof.
    intros F L. set (b := concat (repeat half n)).
    assert (LB : lenN b = (N.of_nat n * 32768)%N).
    { unfold b. rewrite half_reads. unfold lenN. rewrite repeat_length, Nat2N.inj_mul, chunk_max_val. reflexivity. }
    assert (P : pdata (map RData (repeat half n)) = ([Object b [] FileBlob], Done (obj_key (Object b [] FileBlob)))).
    { apply short_plan.
      - apply Forall_forall. intros d Hd. apply repeat_spec in Hd. subst d. unfold half. rewrite repeat_length.
        pose proof chunk_max_pos. lia.
      - unfold small. fold b. unfold lenN in LB. rewrite LB. exact L. }
    pose proof (fitting_data (map RData (repeat half n))) as FI. unfold fitting in FI. rewrite P in FI. cbn [fst] in FI.
    destruct (exec_nofault _ w F FI) as (w' & X & _).
    exists (map RData (repeat half n)), (obj_key (Object b [] FileBlob)), w', b. split; [|split; [|split; [|exact LB]]].
    - apply (follows_intro sqlite_ds _ [Object b [] FileBlob]); [|exact X].
      pose proof (follows_data sqlite_ds (map RData (repeat half n))) as FD. rewrite P in FD. exact FD.
    - apply Forall_map, Forall_forall. intros d Hd. apply repeat_spec in Hd. subst d. exists half. split; [reflexivity|apply len_half].
    - apply exec_hashed, X.
  Qed.
  Lemma two_segmentations : exists reads1 reads2 w k1 k2 w1 w2,
    session w /\ stream reads1 = stream reads2 /\
    put_data sqlite_ds reads1 w = (Done k1, w1) /\ put_data sqlite_ds reads2 w = (Done k2, w2) /\ k1 <> k2.
  Proof.
    exists [RData half; RData half], [RData (half ++ half)], (set_conn (close_all toy_world) [str "db"]), (obj_key ow), (obj_key th).
    pose proof two_plan as P1. destruct one_plan as [l P2].
    pose proof (put_data_nofault [RData half; RData half] (set_conn (close_all toy_world) [str "db"]) eq_refl) as Q1.
    pose proof (put_data_nofault [RData (half ++ half)] (set_conn (close_all toy_world) [str "db"]) eq_refl) as Q2.
    rewrite P1 in Q1. rewrite P2 in Q2. cbn [snd] in Q1, Q2.
    destruct (put_data sqlite_ds [RData half; RData half] _) as [r1 w1]. destruct (put_data sqlite_ds [RData (half ++ half)] _) as [r2 w2].
    cbn [fst] in Q1, Q2. subst r1 r2. exists w1, w2.
    split; [exists toy_world, [str "db"], []; split; [constructor; reflexivity|reflexivity]|].
    split; [|split; [reflexivity|split; [reflexivity|exact two_keys]]].
    destruct half_cons as [y Hy]. rewrite Hy. cbn. rewrite !app_nil_r. reflexivity.
  Qed.
End NoMatch.

Lemma unbounded_blobs : exists E : Env, forall (w : world) (n : nat), w_faults w = [] -> (N.of_nat n * 32768 < 2 ^ 62)%N ->
  exists reads k w' b,
    put_data sqlite_ds reads w = (Done k, w') /\
    Forall (fun r => exists d, r = RData d /\ lenN d = 32768%N) reads /\
    puts_between w w' [Object b [] FileBlob] /\ lenN b = (N.of_nat n * 32768)%N.
Proof. exists EN. exact unbounded. Qed.
Lemma key_depends_on_reads : exists (E : Env) reads1 reads2 w k1 k2 w1 w2,
  session w /\ stream reads1 = stream reads2 /\
  put_data sqlite_ds reads1 w = (Done k1, w1) /\ put_data sqlite_ds reads2 w = (Done k2, w2) /\ k1 <> k2.
Proof. exists EN. exact two_segmentations. Qed.
Lemma loss_refutes : exists (E : Env) (w : world) reads k w2 bs,
  session w /\ put_data sqlite_ds reads w = (Done k, w2) /\ no_coll (w_hashed w2) /\
  snd (stream reads) = false /\ lenN (fst (stream reads)) = 32769%N /\ reads_data w2 k bs /\ lenN bs = 1%N.
Proof.
  destruct loss_run as (w' & P & NC & R).
  exists EL, loss_start, loss_reads, (obj_key (E := EL) oe), w', [x0]. split; [exact loss_session|]. split; [exact P|].
  split; [exact NC|]. rewrite loss_stream. split; [reflexivity|]. split; [|split; [exact R|reflexivity]].
  cbn [fst]. unfold lenN. rewrite app_length, Nat2N.inj_add. pose proof len_lost as L. unfold lenN in L. unfold byte in *. rewrite L. reflexivity.
Qed.
Section ReadSizes.
Local Opaque chunk_max level_max.
Lemma blobs_depend_on_reads (E : Env) x d w w' k1 k2 w1 w2 :
  (32768 < lenN d)%N ->
  put_data sqlite_ds [RData (x :: d)] w = (Done k1, w1) ->
  put_data sqlite_ds [RData [x]; RData d] w' = (Done k2, w2) ->
  exists objs1 objs2, puts_between w w1 objs1 /\ puts_between w' w2 objs2 /\
    option_map (@lenN byte) (hd_error (blobs objs1)) = Some 32768%N /\ option_map (@lenN byte) (hd_error (blobs objs2)) = Some 32769%N.
Proof.
  intros L H1 H2. pose proof chunk_max_val as CV. unfold lenN in L.
  apply put_data_done in H1 as (l1 & P1 & X1). apply put_data_done in H2 as (l2 & P2 & X2). exists l1, l2.
  split; [apply exec_hashed, X1|]. split; [apply exec_hashed, X2|].
  destruct (first_blob x d l1 k1) as [r1 ->]; [cbn [length]; lia|exact P1|].
  destruct (first_blob_late x d l2 k2) as [r2 ->]; [unfold byte in *; lia|lia|exact P2|].
  cbn [hd_error option_map]. unfold lenN. cbn [length]. rewrite !firstn_length. cbn [length].
  rewrite !Nat.min_l by (unfold byte in *; lia). split; [rewrite CV; reflexivity|rewrite Nat2N.inj_succ, CV; reflexivity].
Qed.
End ReadSizes.
