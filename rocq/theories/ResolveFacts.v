(** Facts about [canonicalize]: resolving key arguments against the store. *)
From Verif Require Import Base BaseFacts Key Keyish Cbor CborFacts Object ObjectFacts Path World Store WorldFacts
  SpecKey KeyFacts TableFacts SpecStore StoreCalls StoreFacts Main SpecRun SpecResolve Integrity ObjStoreFacts.
From Coq Require Import Sorted RelationClasses.

Section Resolve.
  Context {E : Env}.
  Notation ds := sqlite_ds.

  Lemma stored_rows w x : world_ok w -> In x (map fst (d_data (cur_db w))) <-> exists k, x = as_db_key k /\ stored w k.
  Proof.
    intro W. split.
    - intro H. apply in_map_iff in H as ([k v] & <- & H). pose proof H as H0.
      apply (dk_hash _ _ (world_ok_cur _ W)) in H as [H _]. exists (Blake3B (blake3 v)). split; [exact H|].
      unfold stored. rewrite <- H. rewrite (In_assoc _ _ _ (dk_data _ _ (world_ok_cur _ W)) H0). discriminate.
    - intros (k & -> & H). destruct (in_dec (list_eq_dec ascii_dec) (as_db_key k) (map fst (d_data (cur_db w)))) as [I|I]; [exact I|].
      apply assoc_None in I. contradiction.
  Qed.

  (** Keys in a result list of database keys. *)
  Lemma map_result_keys l : (forall x, In x l -> exists k, x = as_db_key k) ->
    exists ks, l = map as_db_key ks /\ map_result from_db_key l = Ok ks.
  Proof.
    induction l as [|x l IH]; intro H; [exists []; auto|].
    destruct (H x (or_introl eq_refl)) as [k ->]. destruct IH as (ks & -> & R); [intros; apply H; right; assumption|].
    exists (k :: ks). split; [reflexivity|]. cbn [map map_result]. rewrite from_as_db_key, R. reflexivity.
  Qed.

  Lemma resolve_results_spec s l (P : key -> Prop) w :
    (forall x, In x l <-> exists k, x = as_db_key k /\ P k) -> StronglySorted spec_lt l ->
    exists o, resolve_results s l w = (o, w) /\ search_result s P o.
  Proof.
    intros HP HS. destruct (map_result_keys l) as (ks & -> & R).
    { intros x Hx. apply HP in Hx as (k & -> & _). eauto. }
    assert (HK : forall k, In k ks <-> P k).
    { intro k. split; intro H.
      - apply (in_map as_db_key), HP in H as (k' & H1 & H2). apply as_db_key_inj in H1. congruence.
      - assert (X : In (as_db_key k) (map as_db_key ks)) by (apply HP; eauto).
        apply in_map_iff in X as (k' & X1 & X2). apply as_db_key_inj in X1. congruence. }
    destruct ks as [|k1 [|k2 ks]]; cbn [map resolve_results].
    - eexists. split; [reflexivity|]. constructor. intros k H. apply HK in H. destruct H.
    - rewrite from_as_db_key. eexists. split; [reflexivity|]. constructor; [apply HK; left; reflexivity|].
      intros k' H. apply HK in H as [H|[]]. auto.
    - cbn [map] in R. rewrite R. eexists. split; [reflexivity|]. apply found_many; [exact HK| |cbn; lia].
      clear -HS. change (StronglySorted spec_lt (map as_db_key (k1 :: k2 :: ks))) in HS.
      induction (k1 :: k2 :: ks) as [|k l IH]; [constructor|]. cbn in HS. apply StronglySorted_inv in HS as [H1 H2].
      constructor; [auto|]. rewrite Forall_map in H2. exact H2.
  Qed.

  Lemma prefix_resolve rest w :
    Forall in_alphabet rest -> length rest < 52 -> world_ok w ->
    exists ki, parse_keyish ("b"%char :: rest) = Some (Ok ki) /\
      match canonicalize ds ki w with
      | (Crashed, _) | (Panicked (PUnwrap (Some ESql)), _) => w_faults w <> []
      | (o, _) => search_result ("b"%char :: rest)
                    (fun k => stored w k /\ prefix_of ("b"%char :: map fold_case rest) (as_user_key k)) o
      end.
  Proof.
    intros HA HL W. destruct (prefix_parse rest HA HL) as (start & end_ & HP & HR).
    eexists. split; [exact HP|]. cbn [canonicalize raw_between sqlite_ds]. unfold sqlite_raw_between, bind, unwrap.
    destruct (db_read_cases (fun d => select_between start end_ (d_data d)) w) as (w1 & T & [C|[NF [C|[C|C]]]]);
      rewrite C; cbn; auto.
    edestruct (resolve_results_spec ("b"%char :: rest) (select_between start end_ (d_data (cur_db w)))
      (fun k => stored w k /\ prefix_of ("b"%char :: map fold_case rest) (as_user_key k)) w1) as (o & H1 & H2).
    - intro x. rewrite in_select_between, (stored_rows w x W). split.
      + intros ((k & -> & Hk) & Hr). exists k. apply HR in Hr. auto.
      + intros (k & -> & Hk & Hp). split; [eauto|]. apply HR, Hp.
    - pose proof (sorted_select_between start end_ _ (dk_data _ _ (world_ok_cur _ W))) as H. clear -H.
      induction H as [|x l HS IH HF]; constructor; [exact IH|].
      eapply Forall_impl; [|exact HF]. intros a Ha. apply bytes_cmp_lt, Ha.
    - rewrite H1. inversion H2; subst; exact H2.
  Qed.

  (** A branch name resolves to its newest entry. *)
  Lemma ref_resolve orig remote name w : world_ok w ->
    match canonicalize ds (KReflog orig remote name) w with
    | (Done k, _) => hd_error (select_reflog name remote (d_reflog (cur_db w))) = Some (as_db_key k)
    | (Error (ENotFoundKey s), _) => s = orig /\ select_reflog name remote (d_reflog (cur_db w)) = []
    | (Error ESql, _) | (Crashed, _) => w_faults w <> []
    | _ => False
    end.
  Proof.
    intro W. cbn [canonicalize reflog_get sqlite_ds]. unfold sqlite_reflog_get, try, bind.
    destruct (db_read_cases (fun d => hd_error (select_reflog name remote (d_reflog d))) w) as (w1 & T & [C|[NF [C|[C|C]]]]);
      rewrite C; cbn; auto.
    pose proof (spec_of_abs w W) as A. apply abs_cur in A. rewrite (select_history _ _ _ _ A).
    destruct (history name remote (sp_current (spec_of w))) as [|k l]; cbn [map hd_error]; [cbn; auto|].
    rewrite from_as_db_key. cbn. reflexivity.
  Qed.

  (** A full key is looked up, and then the *stored bytes* are parsed as a key. *)
  Lemma full_key_eq s k w : canonicalize ds (KKey s k) w =
    match db_read (fun d => assoc k (d_data d)) w with
    | (Done (Some v), w1) => match from_db_key v with Ok x => (Done x, w1) | Err e => (Error (EDbKey e), w1) end
    | (Done None, w1) => (Panicked (PUnwrap (Some ESql)), w1)
    | (Error e, w1) => (Panicked (PUnwrap (Some e)), w1)
    | (Panicked p, w1) => (Panicked p, w1)
    | (Crashed, w1) => (Crashed, w1)
    | (Diverged, w1) => (Diverged, w1)
    end.
  Proof.
    cbn [canonicalize raw_get sqlite_ds]. unfold sqlite_raw_get, bind, unwrap.
    destruct (db_read (fun d => assoc k (d_data d)) w) as [[[v|]| | | |] w1]; cbn; try reflexivity.
    destruct (from_db_key v); reflexivity.
  Qed.
  Lemma full_key_stored s o w : w_faults w = [] -> holds w o ->
    fst (canonicalize ds (KKey s (as_db_key (obj_key o))) w) = Error (EDbKey (UnknownHashId (byte_of 163))).
  Proof.
    intros NF [F H]. rewrite full_key_eq.
    destruct (db_read_nofault (fun d => assoc (as_db_key (obj_key o)) (d_data d)) w NF) as (w1 & T & _ & C).
    rewrite C, H. destruct (encode_object_first o) as [r ->]. rewrite from_db_key_unknown; [reflexivity|].
    intro X. apply (f_equal byte_val) in X. vm_compute in X. discriminate.
  Qed.
  Lemma full_key_absent s k w : w_faults w = [] -> ~ stored w k ->
    fst (canonicalize ds (KKey s (as_db_key k)) w) = Panicked (PUnwrap (Some ESql)).
  Proof.
    intros NF H. rewrite full_key_eq.
    destruct (db_read_nofault (fun d => assoc (as_db_key k) (d_data d)) w NF) as (w1 & T & _ & C).
    rewrite C. unfold stored in H. destruct (assoc (as_db_key k) (d_data (cur_db w))); [|reflexivity].
    exfalso. apply H. discriminate.
  Qed.
  (** No answer ever given for a full key is the key itself, when the store holds
      objects only. *)
  Lemma full_key_never s k w : (forall v, assoc (as_db_key k) (d_data (cur_db w)) = Some v -> exists o, v = encode_object o) ->
    forall k', fst (canonicalize ds (KKey s (as_db_key k)) w) <> Done k'.
  Proof.
    intros H k'. rewrite full_key_eq.
    destruct (db_read_cases (fun d => assoc (as_db_key k) (d_data d)) w) as (w1 & T & [C|[NF [C|[C|C]]]]);
      rewrite C; try discriminate.
    destruct (assoc (as_db_key k) (d_data (cur_db w))) as [v|]; [|discriminate].
    destruct (H v eq_refl) as [o ->]. destruct (encode_object_first o) as [r ->].
    rewrite from_db_key_unknown; [discriminate|].
    intro X. apply (f_equal byte_val) in X. vm_compute in X. discriminate.
  Qed.
End Resolve.
