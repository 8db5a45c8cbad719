(** What [status] says of the newest commit, whatever happened since it was made. *)
From Coq Require Import RelationClasses Sorted.
From Verif Require Import Base BaseFacts TableFacts Key KeyFacts Keyish Cbor CborFacts Object ObjectFacts Path World WorldFacts Store File Filter Dir Diff Commit Main SpecStore StoreCalls SpecRun SpecProc SpecFile SpecDir SpecClosure
  SpecCache SpecDiff SpecPatch SpecShow SpecOut SpecCmd SpecText SpecShape SpecCheckout SpecLive SpecHonest SpecRestore Screen SpecScreen Frame DbRel Integrity ObjStoreFacts SessionFacts FilePlan FileFacts ChunkFacts FileRun FsFacts DirPlan DirFacts GetFacts DirTrip DirTree DirWalk
  WalkFacts DirLive CacheFacts HashFacts SortFacts CompareFacts DiffFacts LineFacts CheckoutFacts ProcFacts CmdFacts InitFacts Reader OutFacts SnapFacts ShowFacts Closure ShapeFacts ShapeTop LiveFacts LiveDiff LiveCmd LiveStart LiveStat LiveCache LiveStory ScreenFacts HonestFacts RestoreFacts.

Section Clean.
  Context {E : Env}.
  Variable T : cachekey -> bytes.

  (** A snapshot that is the newest of HEAD's branch is compared with the files. *)
  Lemma snapshot_status {F : Fmt} cm v e d db n k r w0 tree c : honest T v -> steady_reads -> quiet_disk v -> agrees T (w_fs v) -> stands_in cm v e d db -> head_named db n ->
    history n None (repo_of db) = k :: r -> globs_ok cm -> no_coll (w_hashed v) -> length (d_data db) <= stack ->
    let l := e ++ removelast d in let dbl := e ++ d in let ex := cm_exclude cm in
    lossless_below (w_fs w0) l -> lossless_below (w_fs v) l -> listable ex dbl (w_fs v) (abs_path l) l stack ->
    (forall x e0, committed ex dbl l (w_fs w0) x e0 -> lookup (w_fs v) (l ++ x) <> None) ->
    (forall x c st, now ex dbl l (w_fs v) x (EFile c st) -> (forall e0, ~ committed ex dbl l (w_fs w0) x e0) -> found_here v x) ->
    (exists en, lookup (w_fs w0) l = Some en /\ forall b st, en <> EFile b st) ->
    c_tree c = tree -> (forall v1, cur_db v1 = db -> w_hashed v1 = w_hashed v -> snapshot w0 ex (abs_path dbl) (abs_path l) tree v1 /\ is_commit v1 k c) ->
    exists v', run_process cm CStatus v = (Some 0%N, v') /\ w_fs v' = w_fs v /\
      (no_coll (w_hashed v') -> exists A M, edits ex dbl l (w_fs w0) (w_fs v) A M /\
         writes_lines v v' ((str "HEAD: " ++ n ++ str " [" ++ firstn 8 (as_user_key k) ++ str "]") :: report_lines (map entry_text A) (map (fun x => entry_text (x, true)) M))).
  Proof.
    intros Hv St Qv Ag (Fv & Ctv & Ov & Rpv) (Hn & Un) Hi G NC De l dbl ex Ls Lg Li Kp Fo Top Ct Snap. pose proof Rpv as (Cp & Nd & Dirs & _). pose proof (honest_used _ _ Hv) as Uv.
    destruct (start_found cm v e d db Fv (there_place _ Ctv) Rpv) as (v1 & Sv & Fv1 & Cv1 & Dv1 & Ov1 & Cnv1 & Cuv1 & Hv1 & Fsv1). specialize (Fsv1 Ctv). fold l dbl in Sv. set (s := DsState (abs_path dbl) (abs_path l)) in *.
    assert (NC1 : no_coll (w_hashed v1)) by (rewrite Hv1; exact NC). destruct (Snap v1 Cuv1 Hv1) as [Sn1 Ic]. pose proof (commit_reads _ _ _ Ic) as Rc.
    assert (Ht : head_tree v1 (Some tree)).
    { exists n. rewrite Cuv1. split; [exact Hn|]. exists k, r, c. split; [exact Hi|]. split; [exact Rc|congruence]. }
    destruct (snapshot_tree _ _ _ _ _ _ St NC1 Sn1) as (_ & TA & TB).
    assert (Ar : at_rest v1).
    { split; [unfold quiet_disk in *; rewrite Fsv1; tauto|]. eapply honest_readable; [exact Hv|exact St|exact Sv|rewrite Fsv1; exact Ag]. }
    assert (Sd : forall x e, snapped w0 ex (abs_path dbl) (abs_path l) x e <-> committed ex dbl l (w_fs w0) x e) by (intros x y; unfold snapped, committed; rewrite !locate_abs; reflexivity).
    assert (Od : forall x e, on_disk ex (abs_path dbl) (abs_path l) v1 x e <-> now ex dbl l (w_fs v) x e) by (intros x y; unfold on_disk, now, committed; rewrite !locate_abs, Fsv1; reflexivity).
    assert (Up : forall a b, l = a ++ b -> lookup (w_fs v) a = Some EDir).
    { intros a b Q. apply (Dirs a (b ++ [last d []])). rewrite app_assoc, <- Q. unfold l. rewrite <- app_assoc. f_equal. apply app_removelast_last, Nd. }
    destruct (proj2 (status_exactly cm v s v1 Uv Sv NC1 ltac:(unfold deep_enough; rewrite Cuv1; exact De) Ar)) as [v2 Rv2].
    { split; [exists n; rewrite Cuv1; auto|]. intros t Ht'. assert (t = tree) as -> by (pose proof (CheckoutCmd.head_tree_fun _ _ _ Ht' Ht) as Q; congruence).
      split; [exact G|]. cbn [ds_folder ds_repo s]. fold ex. split; [|split; [|split]].
      - exists l. rewrite Fsv1, stat_abs; [|intros a b Q _; eapply Up, Q]. rewrite (Up l []); [reflexivity|rewrite app_nil_r; reflexivity].
      - rewrite !locate_abs, Fsv1. exact Li.
      - intros x k' dd It. destruct (TA _ _ _ It) as (e0 & C & Lf). apply Sd in C. pose proof (Kp _ _ C) as Kx. destruct (lookup (w_fs v) (l ++ x)) as [e1|] eqn:L1; [|congruence]. exists e1. apply Od. split; [|split; [exact L1|apply C]].
        intros ->. destruct It as (_ & i & _ & Q1 & Q2). specialize (Q2 eq_refl). subst dd.
        destruct Lf as [(_ & Q & _)|(b & st & -> & _)]; [congruence|]. destruct C as [C _]. rewrite app_nil_r in C. destruct Top as (en & L & N). rewrite L in C. injection C as ->. exact (N _ _ eq_refl).
      - intros x b st X N1. unfold found_here. rewrite Fsv1, Cv1. apply (Fo x b st); [apply Od, X|]. intros e0 C. apply Sd in C. destruct (TB _ _ C) as (k' & dd & It); [|exact (N1 _ _ It)]. intros ->. destruct X as (X & _). congruence. }
    destruct (process_live cm _ v (Some s) v1 v2 Fv Sv Rv2) as (v' & P' & Ow' & _ & Sw' & _ & Hv' & _). exists v'.
    split; [exact P'|]. pose proof (files_kept cm s CStatus eq_refl v1) as Fk. rewrite Rv2 in Fk. destruct Fk as (Fk & _ & Ik). cbn [snd] in Fk, Ik. split; [congruence|]. rewrite Hv'. intro NC'.
    destruct (honest_status _ cm v s v1 v2 Hv Sv St ltac:(rewrite Fsv1; exact Ov) ltac:(rewrite Fsv1; exact Ag) NC1 Rv2) as (n' & Hn' & [(k' & r' & c' & A & M & Hi' & Rc' & Df & Wr)|[[Hi'|Ne] _]]).
    - rewrite Cuv1 in *. assert (n' = n) as -> by congruence. rewrite Hi in Hi'. injection Hi' as <- <-. pose proof (reads_commit_fun _ _ _ _ Rc Rc') as <-. exists A, M. split.
      + cbn [ds_folder ds_repo s] in Df. rewrite Ct in Df. rewrite <- Fsv1. eapply (diff_edits w0 ex (abs_path dbl) (abs_path l) tree v1 (w_hashed v2)); [exact St|exact Sn1|reflexivity|reflexivity|reflexivity|exact Ik|exact NC'|exact Ls|rewrite Fsv1; exact Lg|exact Df].
      + unfold writes_lines, writes, screen in *. rewrite Ow', <- Ov1. exact Wr.
    - exfalso. rewrite Cuv1 in *. assert (n' = n) as -> by congruence. congruence.
    - exfalso. apply Ne. intros f If. rewrite Fv1 in If. destruct If.
  Qed.

  (** After a checkout nothing is edited. *)
  Lemma restored_unedited ex dbl l f g h n : restored ex dbl l f g h -> listable ex dbl f (abs_path l) l n -> listable ex dbl h (abs_path l) l n ->
    unedited ex dbl l f h /\ forall x e, committed ex dbl l f x e -> lookup h (l ++ x) <> None.
  Proof.
    intros (Rf & Rd & _) Lf Lh.
    assert (Kind : forall k x e, listable ex dbl k (abs_path l) l n -> committed ex dbl l k x e -> e = EDir \/ exists c st, e = EFile c st).
    { intros k x e Lk [L In]. destruct (Lk x e L) as [_ X]; [intros a b Q Na _; exact (In a b Q Na)|]. apply X, In. }
    assert (Apart : forall x, included ex dbl (abs_path l) l x -> ~ left_alone ex dbl l f x).
    { intros x In (r1 & m & r2 & -> & _ & X). apply (In (r1 ++ [m]) r2); [rewrite <- app_assoc; reflexivity|apply snoc_not_nil|exact X]. }
    assert (File : forall x c, included ex dbl (abs_path l) l x -> (content h (l ++ x) = Some c <-> exists st, committed ex dbl l f x (EFile c st))).
    { intros x c In. rewrite Rf. split.
      - intros [[Cf _]|[_ La]]; [|destruct (Apart x In La)]. unfold content in Cf. destruct (lookup f (l ++ x)) as [[|c0 st| |]|] eqn:L; try discriminate. injection Cf as ->. exists st. split; assumption.
      - intros (st & L & _). left. unfold content. rewrite L. auto. }
    split; [split|].
    - intros x e (_ & C). destruct (Kind h x e Lh C) as [->|(c & st & ->)]; destruct C as [L In].
      + apply Rd in L. destruct L as [C|[_ La]]; [eauto|destruct (Apart x In La)].
      + destruct (proj1 (File x c In)) as [st0 C]; [unfold content; rewrite L; reflexivity|eauto].
    - intros x c st (_ & L & In). apply (File x c In). unfold content. rewrite L. reflexivity.
    - intros x e C. destruct (Kind f x e Lf C) as [->|(c & st & ->)]; pose proof (proj2 C) as In.
      + rewrite (proj2 (Rd x) (or_introl C)). discriminate.
      + pose proof (proj2 (File x c In) (ex_intro _ st C)) as X. unfold content in X. destruct (lookup h (l ++ x)); [discriminate|discriminate X].
  Qed.

  (** C84 *)
  Theorem status_since {F : Fmt} cm w e d db n m : honest T w -> steady_reads -> quiet_disk w -> stands_in cm w e d db -> head_named db n -> globs_ok cm ->
    let l := e ++ removelast d in let dbl := e ++ d in let ex := cm_exclude cm in
    can_store ex (abs_path dbl) (abs_path l) w -> lossless_below (w_fs w) l -> (lenN m < 2 ^ 62)%N -> utf8_valid m = true ->
    exists w', run_process cm (CCommit None m None) w = (Some 0%N, w') /\ w_fs w' = w_fs w /\
      (no_coll (w_hashed w') -> exists k, history n None (repo_of (db_at (w_dbs w') (db_file e d))) = k :: history n None (repo_of db) /\
         forall v db1 n1 r, later (db_file e d) w' v -> honest T v -> quiet_disk v -> agrees T (w_fs v) -> stands_in cm v e d db1 -> no_coll (w_hashed v) -> length (d_data db1) <= stack ->
           head_named db1 n1 -> history n1 None (repo_of db1) = k :: r ->
           let head := str "HEAD: " ++ n1 ++ str " [" ++ firstn 8 (as_user_key k) ++ str "]" in
           (lossless_below (w_fs v) l -> listable ex dbl (w_fs v) (abs_path l) l stack ->
            (forall x e0, committed ex dbl l (w_fs w) x e0 -> lookup (w_fs v) (l ++ x) <> None) ->
            (forall x c st, now ex dbl l (w_fs v) x (EFile c st) -> (forall e0, ~ committed ex dbl l (w_fs w) x e0) -> found_here v x) ->
            exists v', run_process cm CStatus v = (Some 0%N, v') /\ w_fs v' = w_fs v /\
              (no_coll (w_hashed v') -> exists A M, edits ex dbl l (w_fs w) (w_fs v) A M /\ writes_lines v v' (head :: report_lines (map entry_text A) (map (fun x => entry_text (x, true)) M)))) /\
           (in_home l -> room_for ex dbl l (w_fs w) (w_fs v) ->
            exists v', run_process cm CCheckout v = (Some 0%N, v') /\ w_out v' = w_out v /\
              forall u db2, outside v' u -> w_fs u = w_fs v' -> w_cache u = w_cache v' \/ w_cache u = [] -> quiet_disk u -> agrees T (w_fs u) -> stands_in cm u e d db2 ->
                lossless_below (w_fs u) l -> listable ex dbl (w_fs u) (abs_path l) l stack ->
                exists u', run_process cm CStatus u = (Some 0%N, u') /\ w_fs u' = w_fs u /\ (no_coll (w_hashed u') -> writes_lines u u' [head]))).
  Proof.
    intros H St Qd Std Hn G l dbl ex Cs Ls Lm Um. pose proof (honest_used _ _ H) as U. pose proof Std as (_ & _ & _ & Rp). pose proof Rp as (_ & Nd & Dirs & _).
    assert (Top : lookup (w_fs w) l = Some EDir).
    { apply (Dirs l [last d []]). unfold l. rewrite <- app_assoc. f_equal. apply app_removelast_last, Nd. }
    destruct (commit_stays cm w e d db n m U Qd Std Hn G Cs Lm Um) as (w' & P & Ow & Sw & Uw & K). exists w'. split; [exact P|]. split; [exact Sw|].
    intro NC. destruct (K NC) as (w0 & k & tree & F0 & Hi & _ & Stay). fold l dbl ex in Stay. exists k. split; [exact Hi|].
    intros v db1 n1 r La Hv Qv Ag Sv NCv De Hn1 Hi1 head. rewrite <- F0 in *. pose proof (honest_used _ _ Hv) as Uv. pose proof Sv as (Fv & Ctv & Ov & Rpv). pose proof (at_file _ _ _ _ _ Rpv) as Af.
    assert (Status : forall u, later (db_file e d) w' u -> honest T u -> quiet_disk u -> agrees T (w_fs u) -> stands_in cm u e d db1 -> no_coll (w_hashed u) ->
      lossless_below (w_fs u) l -> listable ex dbl (w_fs u) (abs_path l) l stack ->
      (forall x e0, committed ex dbl l (w_fs w0) x e0 -> lookup (w_fs u) (l ++ x) <> None) ->
      (forall x c st, now ex dbl l (w_fs u) x (EFile c st) -> (forall e0, ~ committed ex dbl l (w_fs w0) x e0) -> found_here u x) ->
      exists u', run_process cm CStatus u = (Some 0%N, u') /\ w_fs u' = w_fs u /\
        (no_coll (w_hashed u') -> exists A M, edits ex dbl l (w_fs w0) (w_fs u) A M /\ writes_lines u u' (head :: report_lines (map entry_text A) (map (fun x => entry_text (x, true)) M)))).
    { intros u Lu Hu Qu Agu Su NCu Lg Li Kp Fo. pose proof Su as (_ & _ & _ & Rpu). pose proof (at_file _ _ _ _ _ Rpu) as Au.
      apply (snapshot_status cm u e d db1 n1 k r w0 tree (Commit tree (firstn 1 (history n None (repo_of db))) (Attrs m []))); try assumption; try reflexivity.
      - exists EDir. split; [exact Top|discriminate].
      - intros v1 Cv1 Hv1. apply (Stay u v1 Lu); [congruence|exact Hv1]. }
    split; [intros Lg Li Kp Fo; apply Status; assumption|].
    intros Home Room.
    destruct (snapshot_back cm v e d db1 n1 w0 tree Uv Sv Hn1 G NCv De Ls Home Room) as (v' & Pv & Ov' & Rs & Hh & Dbv).
    { intros v1 Cv1 Hv1. destruct (Stay v v1 La ltac:(congruence) Hv1) as [Sn Ic]. split; [exact Sn|]. exists n1. rewrite Cv1. split; [apply Hn1|]. eexists k, r, _. split; [exact Hi1|]. split; [apply commit_reads, Ic|reflexivity]. }
    exists v'. split; [exact Pv|]. split; [exact Ov'|].
    assert (Hv' : honest T v').
    { replace v' with (snd (run_process cm CCheckout v)) by (rewrite Pv; reflexivity). apply ho_process; [exact Hv|].
      destruct (start_found cm v e d db1 Fv (there_place _ Ctv) Rpv) as (v1 & S1 & _ & _ & _ & _ & _ & _ & _ & Fsv1). specialize (Fsv1 Ctv).
      intros st x Sx. unfold starts in S1, Sx. rewrite S1 in Sx. injection Sx as <- <-. rewrite Fsv1. split; [exact Ov|]. split; [exact I|exact Ag]. }
    intros u db2 Ou Fu Cu Qu Agu Su Lg Li. pose proof (ho_outside T _ _ Hv' Ou Cu) as Hu.
    assert (Lu : later (db_file e d) w' u).
    { apply (later_outside _ _ v'); [|exact Ou]. replace v' with (snd (run_process cm CCheckout v)) by (rewrite Pv; reflexivity). apply later_process; [exact La|]. destruct Rpv as (_ & _ & _ & _ & _ & X & _). exact X. }
    assert (NCu : no_coll (w_hashed u)) by (destruct Ou as [_ ->]; rewrite Hh; exact NCv).
    assert (Q2 : db2 = db1) by (pose proof Su as (_ & _ & _ & Rpu); pose proof (at_file _ _ _ _ _ Rpu) as Au; destruct Ou as [Od _]; congruence). subst db2.
    assert (Lw : listable ex dbl (w_fs w0) (abs_path l) l stack).
    { destruct Cs as (l' & e' & Sl & Lw & _). rewrite locate_abs in Lw. rewrite <- ?F0 in Lw, Sl. rewrite stat_abs in Sl.
      - rewrite Top in Sl. injection Sl as <- _. exact Lw.
      - intros a b Q _. apply (Dirs a (b ++ [last d []])). rewrite app_assoc, <- Q. unfold l. rewrite <- app_assoc. f_equal. apply app_removelast_last, Nd. }
    rewrite Fu in Li, Lg. destruct (restored_unedited ex dbl l _ _ _ _ Rs Lw Li) as [Un Kp].
    destruct (Status u Lu Hu Qu Agu Su NCu) as (u' & Pu & Fu' & X); try (rewrite Fu; assumption); try assumption.
    { rewrite Fu. intros x c st N0 Nc. destruct (proj1 Un _ _ N0) as [e0 C0]. destruct (Nc e0 C0). }
    exists u'. split; [exact Pu|]. split; [exact Fu'|]. intro NCu'. destruct (X NCu') as (A & M & Ed & Wr). rewrite Fu in Ed. destruct (proj2 (edits_none _ _ _ _ _ _ _ Ed) Un) as [-> ->]. exact Wr.
  Qed.
End Clean.
