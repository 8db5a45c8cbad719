(** What [put_fs_item] stores: the file system determines a tree, the tree
    determines the objects put and the key. *)
From Verif Require Import Base BaseFacts Key Object Path World WorldFacts Store File Filter Dir SpecStore StoreCalls SpecRun SpecFile SpecDir
  Frame DbRel Integrity ObjStoreFacts FilePlan FileFacts ChunkFacts FileRun FsFacts.

(** A tree of files, each with the results its reads give. *)
Inductive rtree := RFile (size : N) (reads : list readres) | RDir (kids : list (name * rtree)).
Section RtreeInd.
  Context (P : rtree -> Prop) (HF : forall s r, P (RFile s r))
    (HD : forall kids, Forall (fun x => P (snd x)) kids -> P (RDir kids)).
  Fixpoint rtree_ind' (t : rtree) : P t :=
    match t with
    | RFile s r => HF s r
    | RDir kids => HD kids ((fix go (l : list (name * rtree)) : Forall (fun x => P (snd x)) l :=
                               match l with
                               | [] => Forall_nil _
                               | x :: r => Forall_cons x (rtree_ind' (snd x)) (go r)
                               end) kids)
    end.
End RtreeInd.

Section DirPlan.
  Context {E : Env}.

  (** *** Plans *)
  Definition pitem (i : fsitem) : plan key :=
    match object_of_fsitem i with Some o => pput o | None => pstop (Error EEncode) end.
  Fixpoint pkids_with (f : rtree -> plan key) (l : list (name * rtree)) : plan (list key) :=
    match l with
    | [] => pret []
    | (_, t) :: r => pbind (f t) (fun k => pbind (pkids_with f r) (fun ks => pret (k :: ks)))
    end.
  Fixpoint ptr (t : rtree) : plan key :=
    match t with
    | RFile size reads => pbind (pdata reads) (fun h => pitem (file_item size h))
    | RDir kids =>
        pbind ((fix go (l : list (name * rtree)) : plan (list key) :=
                  match l with
                  | [] => pret []
                  | (_, t) :: r => pbind (ptr t) (fun k => pbind (go r) (fun ks => pret (k :: ks)))
                  end) kids)
              (fun ks => pitem (dir_item (map fst kids) ks))
    end.
  Lemma ptr_dir kids : ptr (RDir kids) = pbind (pkids_with ptr kids) (fun ks => pitem (dir_item (map fst kids) ks)).
  Proof.
    cbn [ptr]. f_equal. induction kids as [|[n t] l IH]; cbn [pkids_with]; [reflexivity|]. rewrite IH. reflexivity.
  Qed.
  Lemma follows_item s i : follows s (put_item s i) (pitem i).
  Proof.
    unfold put_item, pitem. destruct (object_of_fsitem i) as [o|]; cbn [of_option].
    - intro w. rewrite bind_ret_l. apply follows_put.
    - apply follows_stop. reflexivity.
  Qed.

  (** *** Runs that put objects *)
  Inductive puts (s : datastore) : world -> list object -> world -> Prop :=
  | puts_nil w : puts s w [] w
  | puts_tick w w1 l w' : ticked w w1 -> puts s w1 l w' -> puts s w l w'
  | puts_put w o w1 l w' : put_obj s o w = (Done (obj_key o), w1) -> puts s w1 l w' -> puts s w (o :: l) w'.
  Lemma puts_app s w a w1 b w2 : puts s w a w1 -> puts s w1 b w2 -> puts s w (a ++ b) w2.
  Proof. intros H K. induction H; cbn; eauto using puts_tick, puts_put. Qed.
  Lemma puts_ticked s w w1 : ticked w w1 -> puts s w [] w1.
  Proof. intro T. eapply puts_tick; [exact T|constructor]. Qed.
  Lemma exec_puts s l : forall w w', exec s l w = (Done tt, w') -> puts s w l w'.
  Proof.
    induction l as [|o l IH]; intros w w' H; [inv H; constructor|]. apply exec_cons in H as (w1 & H1 & H2).
    eapply puts_put; eauto.
  Qed.
  Definition quiet (s : datastore) : Prop :=
    forall o w, w_fs (snd (put_obj s o w)) = w_fs w /\ w_cwd (snd (put_obj s o w)) = w_cwd w.
  Lemma puts_fs s w l w' : quiet s -> puts s w l w' -> w_fs w' = w_fs w /\ w_cwd w' = w_cwd w.
  Proof.
    intros Q H. induction H; [auto| |].
    - destruct H as (? & ? & ->). exact IHputs.
    - destruct (Q o w) as [A B]. rewrite H in A, B. cbn [snd] in *. destruct IHputs as [-> ->]. auto.
  Qed.

  (** *** Trees shown by a file system *)
  Inductive shows (f : fs) (keep : path -> loc -> bool) : path -> loc -> rtree -> Prop :=
  | sh_file p l c st t : lookup f l = Some (EFile c st) ->
      shows f keep p l (RFile (wrap64 (lenN c)) (segment (read_sizes t c) c))
  | sh_dir p l kids : lookup f l = Some EDir ->
      map fst kids = filter (fun n => keep (path_push p n) (l ++ [n])) (children f l) ->
      (forall n t, In (n, t) kids -> shows f keep (path_push p n) (l ++ [n]) t) ->
      shows f keep p l (RDir kids).

  (** The filter answers as [keep]. *)
  Definition answers (flt : path -> M bool) (f : fs) (cwd : loc) (keep : path -> loc -> bool) : Prop :=
    forall q w b w', w_fs w = f -> w_cwd w = cwd -> flt q w = (Done b, w') ->
      ticked w w' /\ forall x e, stat f cwd q = Some (x, e) -> b = keep q x.

  Lemma fs_query_done {A} (q : fs -> loc -> option A) w a w' : fs_query q w = (Done a, w') ->
    ticked w w' /\ q (w_fs w) (w_cwd w) = Some a.
  Proof.
    unfold fs_query. intro H. match type of H with op ?e ?x = _ => destruct (op_case e x) as (fl & w1 & E1 & T) end.
    rewrite E1 in H. assert (X : w_fs w1 = w_fs w /\ w_cwd w1 = w_cwd w) by (destruct T as (? & ? & ->); auto). destruct X as [<- <-].
    destruct fl; try discriminate. destruct (q (w_fs w1) (w_cwd w1)) eqn:Q; inv H. auto.
  Qed.
  Lemma metadata_done p w m w' : fs_metadata p w = (Done m, w') ->
    ticked w w' /\ exists l e, stat (w_fs w) (w_cwd w) p = Some (l, e) /\ meta_of e = Some m.
  Proof.
    intro H. apply fs_query_done in H as [T H]. split; [exact T|]. destruct (stat (w_fs w) (w_cwd w) p) as [[l e]|]; [eauto|discriminate].
  Qed.
  Lemma canon_done p w l w' : fs_canonicalize p w = (Done l, w') ->
    ticked w w' /\ exists e, stat (w_fs w) (w_cwd w) p = Some (l, e) /\ e <> EDangling.
  Proof.
    intro H. apply fs_query_done in H as [T H]. split; [exact T|].
    destruct (stat (w_fs w) (w_cwd w) p) as [[x [| | |]]|]; inv H; eexists; split; try reflexivity; discriminate.
  Qed.
  Lemma read_dir_done p w r w' : fs_read_dir p w = (Done r, w') ->
    ticked w w' /\ exists l, stat (w_fs w) (w_cwd w) p = Some (l, EDir) /\
      (r = (children (w_fs w) l, false) \/ exists n, r = (firstn n (children (w_fs w) l), true)).
  Proof.
    unfold fs_read_dir. intro H. match type of H with op ?e ?x = _ => destruct (op_case e x) as (fl & w1 & E1 & T) end.
    rewrite E1 in H. assert (X : w_fs w1 = w_fs w /\ w_cwd w1 = w_cwd w) by (destruct T as (? & ? & ->); auto). destruct X as [<- <-].
    destruct (stat (w_fs w1) (w_cwd w1) p) as [[l [| | |]]|]; try (destruct fl; discriminate).
    destruct fl as [|[|n]| |]; inv H; eauto 6.
  Qed.
  Lemma open_read_done p w r w' : fs_open_read p w = (Done r, w') ->
    ticked w w' /\ exists l c st t, stat (w_fs w) (w_cwd w) p = Some (l, EFile c st) /\
      (r = (st, wrap64 (lenN c), segment (read_sizes t c) c) \/
       exists n, r = (st, wrap64 (lenN c), firstn n (segment (read_sizes t c) c) ++ [RError])).
  Proof.
    unfold fs_open_read. intro H. match type of H with op ?e ?x = _ => destruct (op_case e x) as (fl & w1 & E1 & T) end.
    rewrite E1 in H. assert (X : w_fs w1 = w_fs w /\ w_cwd w1 = w_cwd w) by (destruct T as (? & ? & ->); auto). destruct X as [<- <-].
    destruct (stat (w_fs w1) (w_cwd w1) p) as [[l [| | |]]|]; try (destruct fl; discriminate).
    destruct fl as [|[|n]| |]; inv H; (split; [exact T|]); eexists l, content, st, (w_tick w'); eauto 6.
  Qed.

  (** *** The bytes a file's reads give *)
  Lemma stream_full fuel : forall c, length c <= fuel -> stream (World.full_reads fuel c) = (c, false).
  Proof.
    induction fuel as [|fuel IH]; intros c L; cbn [World.full_reads]; [destruct c; [reflexivity|cbn in L; lia]|].
    destruct c as [|b c]; [reflexivity|]. remember (N.to_nat read_max) as m eqn:Em.
    assert (M : exists m', m = S m') by (destruct m; [exfalso; apply (f_equal N.of_nat) in Em; rewrite N2Nat.id in Em; discriminate|eauto]).
    destruct M as [m' ->]. cbn [firstn skipn stream]. rewrite IH.
    - rewrite <- app_comm_cons, firstn_skipn. reflexivity.
    - rewrite skipn_length. cbn in L. lia.
  Qed.
  Lemma stream_segment sizes : forall c, stream (segment sizes c) = (c, false).
  Proof.
    induction sizes as [|s sizes IH]; intro c; cbn [segment]; [apply stream_full; reflexivity|].
    destruct (s =? 0)%N eqn:Z; [apply IH|]. destruct c as [|b c]; [reflexivity|]. apply N.eqb_neq in Z.
    remember (N.to_nat (N.min s read_max)) as m eqn:Em.
    assert (M : exists m', m = S m').
    { destruct m; [exfalso; apply (f_equal N.of_nat) in Em; rewrite N2Nat.id in Em; cbn in Em; unfold read_max in Em; lia|eauto]. }
    destruct M as [m' ->]. cbn [firstn skipn stream]. rewrite IH, <- app_comm_cons, firstn_skipn. reflexivity.
  Qed.
  Lemma full_nonempty fuel : forall c, Forall (fun r => r <> RData []) (World.full_reads fuel c).
  Proof.
    induction fuel as [|fuel IH]; intro c; cbn [World.full_reads]; [constructor|]. destruct c as [|b c]; [constructor|].
    constructor; [|apply IH]. destruct (N.to_nat read_max) eqn:Q; [apply (f_equal N.of_nat) in Q; rewrite N2Nat.id in Q; discriminate|discriminate].
  Qed.
  Lemma segment_nonempty sizes : forall c, Forall (fun r => r <> RData []) (segment sizes c).
  Proof.
    induction sizes as [|s sizes IH]; intro c; cbn [segment]; [apply full_nonempty|].
    destruct (s =? 0)%N eqn:Z; [constructor; [discriminate|apply IH]|]. destruct c as [|b c]; [constructor|]. apply N.eqb_neq in Z.
    constructor; [|apply IH]. destruct (N.to_nat (N.min s read_max)) eqn:Q; [|discriminate].
    apply (f_equal N.of_nat) in Q; rewrite N2Nat.id in Q; cbn in Q; unfold read_max in Q; lia.
  Qed.
  Lemma stream_error l : Forall (fun r => r <> RData []) l -> snd (stream (l ++ [RError])) = true.
  Proof.
    intro H. induction l as [|x l IH]; [reflexivity|]. inv H. specialize (IH H3). destruct x as [[|b d]| |]; cbn [app stream]; auto; try congruence.
    destruct (stream (l ++ [RError])) as [s e]. exact IH.
  Qed.
  Lemma Forall_firstn' {A} (P : A -> Prop) n : forall l, Forall P l -> Forall P (firstn n l).
  Proof. induction n as [|n IH]; intros l H; [constructor|]. destruct H; cbn; [constructor|]. constructor; auto. Qed.

  (** *** [put_fs_item] *)
  Section Put.
    Context (s : datastore) (Q : quiet s) (flt : path -> M bool) (f : fs) (cwd : loc) (keep : path -> loc -> bool)
      (A : answers flt f cwd keep).
    Definition put_each (g : nat) (p : path) : list name -> M (list (name * key)) :=
      fix each (l : list name) : M (list (name * key)) :=
        match l with
        | [] => ret []
        | n :: r =>
            k0 <- flt (path_push p n) ;;
            if (k0 : bool) then
              k <- put_fs_item s g (path_push p n) flt ;;
              rest <- each r ;;
              ret ((n, k) :: rest)
            else each r
        end.
    Lemma ticked_fs w w1 : ticked w w1 -> w_fs w1 = w_fs w /\ w_cwd w1 = w_cwd w.
    Proof. intros (? & ? & ->). auto. Qed.
    Definition here (w : world) : Prop := w_fs w = f /\ w_cwd w = cwd.
    Lemma here_ticked w w1 : here w -> ticked w w1 -> here w1.
    Proof. intros [H1 H2] T. destruct (ticked_fs _ _ T). split; congruence. Qed.
    Lemma here_puts w l w1 : here w -> puts s w l w1 -> here w1.
    Proof. intros [H1 H2] T. destruct (puts_fs _ _ _ _ Q T). split; congruence. Qed.
    Lemma here_stat w p : here w -> stat (w_fs w) (w_cwd w) p = stat f cwd p.
    Proof. intros [-> ->]. reflexivity. Qed.
    Lemma put_fs_item_done fuel : forall p w k w', here w ->
      put_fs_item s fuel p flt w = (Done k, w') ->
      exists l e t, stat f cwd p = Some (l, e) /\ shows f keep p l t /\
        exists objs, ptr t = (objs, Done k) /\ puts s w objs w'.
    Proof.
      induction fuel as [|g IH]; intros p w k w' Hw H; [discriminate|]. cbn [put_fs_item] in H.
      apply bind_done in H as (m & w1 & H1 & H). apply metadata_done in H1 as (T1 & l & e & S1 & M1).
      rewrite here_stat in S1 by exact Hw. pose proof (here_ticked _ _ Hw T1) as Hw1. exists l, e.
      destruct m as [|size st|]; [| |discriminate].
      - apply bind_done in H as ([names err] & w2 & H2 & H). apply read_dir_done in H2 as (T2 & l' & S2 & R2).
        rewrite here_stat, S1 in S2 by exact Hw1. inv S2. rewrite (proj1 Hw1) in R2. pose proof (here_ticked _ _ Hw1 T2) as Hw2.
        change (fix each (l : list name) : M (list (name * key)) := _) with (put_each g p) in H.
        apply bind_done in H as (kids & w3 & H3 & H).
        assert (K : forall names w2 kids w3, incl names (children f l') -> here w2 -> put_each g p names w2 = (Done kids, w3) ->
          exists ts objs, map fst ts = filter (fun n => keep (path_push p n) (l' ++ [n])) names /\ map fst kids = map fst ts /\
            (forall n t, In (n, t) ts -> shows f keep (path_push p n) (l' ++ [n]) t) /\
            pkids_with ptr ts = (objs, Done (map snd kids)) /\ puts s w2 objs w3).
        { clear -IH S1 A Q. induction names as [|n names IHn]; intros w2 kids w3 I2 Hw2 H; cbn [put_each] in H.
          - inv H. exists [], []. repeat split; auto. { intros n t []. } constructor.
          - apply bind_done in H as (b & u & H1 & H).
            destruct (A _ _ _ _ (proj1 Hw2) (proj2 Hw2) H1) as [T B]. pose proof (here_ticked _ _ Hw2 T) as Hu.
            destruct (child_lookup f l' n) as [e Le]; [apply I2; left; reflexivity|].
            specialize (B _ _ (stat_push _ _ _ _ _ _ S1 Le)). subst b. cbn [filter].
            assert (In' : incl names (children f l')) by (intros x Hx; apply I2; right; exact Hx).
            destruct (keep (path_push p n) (l' ++ [n])).
            + apply bind_done in H as (k & u1 & H2 & H). apply bind_done in H as (rest & u2 & H3 & H). inv H.
              destruct (IH _ _ _ _ Hu H2) as (l0 & e0 & t & S0 & Sh & objs & P & U).
              destruct (IHn u1 rest w3 In' (here_puts _ _ _ Hu U) H3) as (ts & objs' & E1 & E2 & E3 & E4 & E5).
              exists ((n, t) :: ts), (objs ++ objs'). cbn [map fst snd]. split; [congruence|]. split; [congruence|]. split; [|split].
              * intros n0 t0 [X|X]; [inv X|auto]. rewrite (stat_push _ _ _ _ _ _ S1 Le) in S0. inv S0. exact Sh.
              * cbn [pkids_with]. rewrite P, E4. cbn. rewrite app_nil_r. reflexivity.
              * eapply puts_tick; [exact T|]. eapply puts_app; eassumption.
            + destruct (IHn u kids w3 In' Hu H) as (ts & objs' & E1 & E2 & E3 & E4 & E5).
              exists ts, objs'. repeat split; auto. eapply puts_tick; eassumption. }
        destruct (K names w2 kids w3) as (ts & objs & E1 & E2 & E3 & E4 & E5); auto.
        { destruct R2 as [R2|[n R2]]; inv R2; [apply incl_refl|]. intros x Hx. rewrite <- (firstn_skipn n). apply in_or_app. auto. }
        destruct err; [discriminate|]. destruct R2 as [R2|[n R2]]; inv R2.
        apply (follows_done _ _ _ _ _ _ (follows_item _ _)) in H as (lo & P & X).
        exists (RDir ts). split; [exact S1|]. split.
        { apply sh_dir; auto. apply stat_locate in S1. tauto. }
        exists (objs ++ lo). split.
        { rewrite ptr_dir, E4. unfold pbind. rewrite <- E2, P. reflexivity. }
        eapply puts_tick; [exact T1|]. eapply puts_tick; [exact T2|]. eapply puts_app; [exact E5|]. apply exec_puts, X.
      - apply bind_done in H as ([[st' fsize] reads] & w2 & H2 & H). apply open_read_done in H2 as (T2 & l' & c & st0 & t & S2 & R2).
        rewrite here_stat, S1 in S2 by exact Hw1. inv S2. cbn in M1. inv M1.
        apply bind_done in H as (h & w3 & H3 & H). apply put_data_done in H3 as (l1 & P1 & X1).
        assert (R : reads = segment (read_sizes t c) c).
        { destruct R2 as [R2|[n R2]]; inv R2; [reflexivity|].
          apply data_den in P1 as (? & ? & ? & _ & _ & _ & Y & _). rewrite stream_error in Y; [discriminate|].
          apply Forall_firstn', segment_nonempty. }
        apply (follows_done _ _ _ _ _ _ (follows_item _ _)) in H as (lo & P & X). subst reads.
        exists (RFile (wrap64 (lenN c)) (segment (read_sizes t c) c)). split; [exact S1|]. split.
        { eapply sh_file. apply stat_locate in S1. apply S1. }
        exists (l1 ++ lo). split.
        { cbn [ptr]. rewrite P1. unfold pbind. rewrite P. reflexivity. }
        eapply puts_tick; [exact T1|]. eapply puts_tick; [exact T2|]. eapply puts_app; apply exec_puts; eassumption.
    Qed.
  End Put.

  (** *** The filter of the commands *)
  Definition kept (ex : list bytes) (dbl : loc) (q : path) (x : loc) : bool :=
    negb (names_prefix dbl x) && negb (existsb (fun g => glob_match g (normalise q)) ex).
  Lemma filter_answers ex db f cwd : answers (filter_fn ex db) f cwd (kept ex (locate cwd db)).
  Proof.
    intros q w b w' Hf Hc H. unfold filter_fn in H. apply bind_done in H as (c & w1 & H1 & H). apply bind_done in H as (d & w2 & H2 & H).
    apply unwrap_done, canon_done in H1 as (T1 & e1 & S1 & _). apply unwrap_done, canon_done in H2 as (T2 & e2 & S2 & _).
    destruct (ticked_fs _ _ T1) as [F1 C1]. rewrite F1, C1, Hf, Hc in S2. rewrite Hf, Hc in S1. apply stat_locate in S2 as (-> & _).
    unfold kept. destruct (names_prefix (locate cwd db) c) eqn:N; inv H; (split; [eapply ticked_trans; eassumption|]);
      intros x e S; rewrite S in S1; inv S1; rewrite N; reflexivity.
  Qed.
End DirPlan.
