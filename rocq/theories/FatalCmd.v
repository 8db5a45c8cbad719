(** Why a command stops, and what it says: the commands and the process. *)
From Coq Require Import Sorted RelationClasses.
From Verif Require Import Base BaseFacts TableFacts Key KeyFacts Keyish Cbor Object Path World WorldFacts Store File Filter Dir Diff Commit Pretty Main SpecKey SpecResolve SpecStore StoreCalls SpecRun SpecProc SpecCmd SpecFile SpecDir SpecCache SpecDiff SpecPatch SpecShow SpecOut SpecClosure SpecShape SpecLive SpecFatal SpecScreen Screen
  Frame DbRel Closure Integrity StoreFacts ProcFacts InitFacts ObjStoreFacts SessionFacts FilePlan FileFacts FsFacts DirPlan DirFacts CmdFacts FileRun DirLive ResolveFacts QueryFacts OutFacts LiveCmd LiveRead LiveStart FatalFacts.

Section FatalCmd.
  Context {E : Env}.
  Notation ds := sqlite_ds.

  Lemma bind_error {A B} (m : M A) (k : A -> M B) w e w' : bind m k w = (Error e, w') -> m w = (Error e, w') \/ exists a w1, m w = (Done a, w1) /\ k a w1 = (Error e, w').
  Proof. unfold bind. destruct (m w) as [[a|e1| | |] w1]; intro H; try discriminate H; [right; eauto|left; inversion H; reflexivity]. Qed.
  (** The error that came first is the one that is reported. *)
  Lemma run_error {A B} (m : M A) (k : A -> M B) w e w' : m w = (Error e, w') -> bind m k w = (Error e, w').
  Proof. unfold bind. intros ->. reflexivity. Qed.

  (** *** Keys *)
  Lemma typed s ki : parse_keyish s = Some (Ok ki) -> as_typed ki = s.
  Proof.
    unfold parse_keyish. destruct (existsb _ s).
    - unfold parse_from_ref. destruct (position _ s) as [i|]; [|discriminate]. destruct (Nat.eqb i 0); intro H; inversion H; reflexivity.
    - unfold parse_from_base32. intro H. injection H as H. destruct (negb (is_ascii s)); [discriminate|]. destruct s as [|c r]; [discriminate|]. destruct (byte_eqb c _); [|discriminate].
      destruct (Base32.from_base32 r max_len) as [b|]; [|discriminate]. destruct (Nat.eqb (length b) max_len); inversion H; reflexivity.
  Qed.
  Lemma newest_error n rm w e w' : world_ok w -> reflog_get ds n rm w = (Error e, w') ->
    error_message e = [] \/ (e = ERefNotFound /\ history n rm (repo_of (cur_db w)) = []).
  Proof.
    intros W H. cbn [reflog_get ds] in H. unfold sqlite_reflog_get in H. apply bind_error in H as [H|(r & w1 & H1 & H)]; [left; exact (tame_read _ _ _ _ H)|].
    apply db_read_done in H1 as [T Q]. rewrite (select_history _ _ _ _ (repo_of_abs _ _ (world_ok_cur _ W))) in Q.
    destruct (history n rm (repo_of (cur_db w))) as [|k0 l]; cbn in Q; subst r; [right; inversion H; auto|]. rewrite from_as_db_key in H. discriminate H.
  Qed.
  Lemma canon_error ki w e w' : world_ok w -> canonicalize ds ki w = (Error e, w') -> error_message e = [] \/ exists m, error_message e = [m] /\ key_trouble w ki m.
  Proof.
    intros W H. destruct ki as [s a b|s b|orig rm n].
    - cbn [canonicalize raw_between sqlite_ds] in H. unfold sqlite_raw_between in H. apply bind_error in H as [H|(l & w1 & H1 & H)]; [left; exact (tame_unwrap _ _ _ _ H)|].
      apply unwrap_done, db_read_done in H1 as [T ->]. pose proof (resolve_same s (select_between a b (d_data (cur_db w))) w1) as Q. rewrite H in Q. cbn in Q. subst w1.
      apply range_found in H; [|exact W]. right. inversion H as [k P U|N|ks I S L]; subst; cbn [error_message]; eexists; (split; [reflexivity|]).
      + left. split; [|reflexivity]. cbn. intros k A B. apply (N k). auto.
      + right. split; [|reflexivity]. destruct ks as [|k1 [|k2 ks]]; cbn in L; try lia. exists k1, k2. split; [|split; apply I; cbn; auto].
        intros ->. apply StronglySorted_inv in S as [_ S]. inversion S as [|? ? X]. unfold key_lt in X. apply bytes_cmp_lt in X. rewrite bytes_cmp_refl in X. discriminate X.
    - rewrite full_key_eq in H. left. destruct (db_read _ w) as [[[v|]| | | |] w1] eqn:Ed; try discriminate H. destruct (from_db_key v) eqn:Ev; inversion H; reflexivity.
    - cbn [canonicalize] in H. apply bind_error in H as [H|(r & w1 & H1 & H)]; [left; exact (tame_try _ _ _ _ H)|]. apply try_done in H1 as [(k0 & -> & H1)|(x & -> & H1)]; [discriminate H|].
      apply newest_error in H1 as [Q|[-> Hi]]; [|right; inversion H; subst; eexists; split; [reflexivity|]; left; split; [exact Hi|reflexivity]|exact W].
      left. destruct x; try discriminate Q; inversion H; subst; exact Q.
  Qed.
  Lemma canon_stops ki w m : world_ok w -> w_faults w = [] -> key_trouble w ki m ->
    exists e w', canonicalize ds ki w = (Error e, w') /\ error_message e = [m] /\ ticked w w'.
  Proof.
    intros W F T. destruct ki as [s a b|s b|orig rm n].
    - cbn [canonicalize raw_between sqlite_ds]. unfold sqlite_raw_between, unwrap, bind.
      destruct (db_read_nofault (fun d => select_between a b (d_data d)) w F) as (w1 & Tk & F1 & ->).
      destruct (resolve_results s (select_between a b (d_data (cur_db w))) w1) as [o w2] eqn:Er.
      pose proof (resolve_same s (select_between a b (d_data (cur_db w))) w1) as Q. rewrite Er in Q. cbn in Q. subst w2.
      apply range_found in Er; [|exact W]. destruct T as [[N ->]|[(k1 & k2 & Ne & P1 & P2) ->]]; cbn in *.
      + inversion Er as [k P U|N'|ks I S L]; subst.
        * destruct (N k (proj1 P) (proj2 P)).
        * eexists _, w1. split; [reflexivity|]. auto.
        * destruct ks as [|k1 ks]; cbn in L; [lia|]. destruct (I k1) as [I1 _]. destruct (I1 (or_introl eq_refl)) as [A B]. destruct (N k1 A B).
      + inversion Er as [k P U|N'|ks I S L]; subst.
        * destruct Ne. rewrite (U k1 P1), (U k2 P2). reflexivity.
        * destruct (N' k1 P1).
        * eexists _, w1. split; [reflexivity|]. auto.
    - destruct T as [[[] _]|[[] _]].
    - destruct T as [[N ->]|[[] _]]. cbn in N. destruct (newest_missing n rm w W F N) as (w1 & H & Tk & F1). cbn [canonicalize]. unfold bind, try. rewrite H. eexists _, w1. split; [reflexivity|]. auto.
  Qed.
  Lemma key_trouble_cur w v ki m : cur_db v = cur_db w -> key_trouble w ki m -> key_trouble v ki m.
  Proof. intro C. unfold key_trouble, names_nothing, names_several, stored. destruct ki; rewrite ?C; auto. Qed.
  Lemma head_error w e w' : head_or_fail w = (Error e, w') -> error_message e = [] \/ (e = ENoHead /\ no_head w).
  Proof.
    unfold head_or_fail. intro H. apply bind_error in H as [H|(h & w1 & H1 & H)]; [left; exact (tame_get_head _ _ _ H)|]. destruct h as [h|]; [discriminate H|]. right. inversion H; subst. clear H. split; [reflexivity|].
    unfold get_head in H1. apply bind_done in H1 as (r & w2 & H2 & H1). cbn [raw_get_state ds] in H2. unfold sqlite_raw_get_state in H2. apply db_read_done in H2 as [_ Q]. unfold no_head. cbn [repo_of rp_head]. rewrite <- Q.
    destruct r as [b|]; [destruct (utf8_valid b); discriminate H1|reflexivity].
  Qed.
  Lemma head_stops w : w_faults w = [] -> no_head w -> exists w', head_or_fail w = (Error ENoHead, w') /\ ticked w w'.
  Proof.
    intros F N. unfold no_head in N. cbn [repo_of rp_head] in N. unfold head_or_fail, get_head, bind. cbn [raw_get_state ds]. unfold sqlite_raw_get_state.
    destruct (db_read_nofault (fun d => assoc (str "HEAD") (d_state d)) w F) as (w1 & T & F1 & ->). rewrite N. exists w1. split; [reflexivity|exact T].
  Qed.
  Lemma head_key_error w e w' : world_ok w -> get_head_key w = (Error e, w') -> error_message e = [] \/ (e = ENoHead /\ no_head w) \/
    (e = ERefNotFound /\ exists n, rp_head (repo_of (cur_db w)) = Some n /\ utf8_valid n = true /\ history n None (repo_of (cur_db w)) = []).
  Proof.
    intros W H. unfold get_head_key in H. apply bind_error in H as [H|(n & w1 & H1 & H)]; [apply head_error in H as [H|H]; auto|].
    pose proof (head_text _ _ _ H1) as U. apply head_done in H1 as [T Hd]. apply newest_error in H as [H|[-> Hi]]; [auto| |exact (ok_ticked _ _ T W)].
    right. right. split; [reflexivity|]. exists n. rewrite (cur_ticked _ _ T) in Hi. auto.
  Qed.
  Lemma head_key_stops w n : world_ok w -> w_faults w = [] -> rp_head (repo_of (cur_db w)) = Some n -> utf8_valid n = true -> history n None (repo_of (cur_db w)) = [] ->
    exists w', get_head_key w = (Error ERefNotFound, w') /\ ticked w w'.
  Proof.
    intros W F Hd U Hi. unfold get_head_key. destruct (branch_live None w n F Hd (fun _ => U)) as (v & H & T & Fv). rewrite (run_bind _ _ _ _ _ H).
    destruct (newest_missing n None v (ok_ticked _ _ T W) Fv) as (v' & H' & T' & _); [rewrite (cur_ticked _ _ T); exact Hi|]. exists v'. split; [exact H'|eapply ticked_trans; eassumption].
  Qed.

  (** *** Commands *)
  Lemma quiet_error {A} (m : M A) w e w' x : tame m -> m w = (Error e, w') -> error_message e = [x] -> False.
  Proof. intros T H Q. rewrite (T _ _ _ H) in Q. discriminate Q. Qed.
  Ltac tame_by := repeat first [apply tame_ret | apply tame_fail; reflexivity | apply tame_diverge | apply tame_panic | apply tame_unwrap | apply tame_try | apply tame_option; reflexivity | apply tame_lift; reflexivity
    | apply tame_print | apply tame_stdout | apply tame_get | apply tame_get_obj | apply tame_pretty | apply tame_walk | apply tame_tree | apply tame_fs_tree | apply tame_entries | apply tame_push | apply tame_rwalk
    | apply tame_put_head | apply tame_get_head | apply tame_commit_tree | apply tame_commit_key | apply tame_display | apply tame_log | apply tame_compare | apply tame_diff | apply tame_stat | apply tame_patch
    | apply tame_bind; [|intro] | match goal with |- tame (match ?x with _ => _ end) => destruct x end ].
  Section Commands.
    Context (cm : common) (s : ds_state) (w : world) (W : world_ok w).
    Lemma canon_why c ki e w' m : given_key c = Some ki -> canonicalize ds ki w = (Error e, w') -> error_message e = [m] -> trouble cm w c m.
    Proof. intros G H Q. apply canon_error in H as [X|(m' & X & T)]; [congruence| |exact W]. rewrite Q in X. inversion X; subst. eapply trouble_key; eassumption. Qed.
    Lemma head_why c e w' m : asks_head cm c -> head_or_fail w = (Error e, w') -> error_message e = [m] -> trouble cm w c m.
    Proof. intros G H Q. apply head_error in H as [X|[-> N]]; [congruence|]. inversion Q; subst. apply trouble_head; assumption. Qed.
    Lemma head_key_why c e w' m : asks_head cm c -> needs_commit c -> get_head_key w = (Error e, w') -> error_message e = [m] -> trouble cm w c m.
    Proof.
      intros G N H Q. apply head_key_error in H as [X|[[-> X]|[-> (n & Hd & U & Hi)]]]; [congruence| | |exact W]; inversion Q; subst; [apply trouble_head; assumption|].
      eapply trouble_commit; eassumption.
    Qed.
    Lemma canons_why l0 l : forall v t e w' m, ticked w v -> (forall x, In x (t :: l0) -> exists k, denotes w x k) -> mapM (canonicalize ds) l v = (Error e, w') -> error_message e = [m] ->
      trouble cm w (CCommitTree t (l0 ++ l)) m.
    Proof.
      revert l0. induction l as [|ki l IH]; intros l0 v t e w' m T D H Q; [discriminate H|]. cbn [mapM] in H. apply bind_error in H as [H|(k & v1 & H1 & H)].
      - apply canon_error in H as [X|(m' & X & Tr)]; [congruence| |exact (ok_ticked _ _ T W)]. rewrite Q in X. inversion X; subst. apply trouble_parent; [exact D|].
        eapply key_trouble_cur; [symmetry; apply cur_ticked, T|exact Tr].
      - apply OutFacts.canon_done in H1 as [T1 Dk]; [|exact (ok_ticked _ _ T W)]. apply bind_error in H as [H|(ks & v2 & _ & H)]; [|discriminate H].
        replace (l0 ++ ki :: l) with ((l0 ++ [ki]) ++ l) by (rewrite <- app_assoc; reflexivity). eapply (IH _ v1); [eapply ticked_trans; eassumption| |exact H|exact Q].
        intros x [<-|I]; [apply D; left; reflexivity|]. apply in_app_iff in I as [I|[<-|[]]]; [apply D; right; exact I|]. exists k. eapply denotes_cur; [symmetry; apply cur_ticked, T|exact Dk].
    Qed.
    Theorem stops_because c e w' m : run_command cm (Some s) c w = (Error e, w') -> error_message e = [m] -> trouble cm w c m.
    Proof.
      destruct c as [p|p msg r|k d|k|t ps|n rm|k n rm|k|p|n| | |k|k|p k b| | |n|r rm|k r]; cbn [run_command with_ds]; intros H Q.
      - exfalso. unfold cmd_insert in H. eapply quiet_error; [|exact H|exact Q]. apply tame_filtered. intros f Hf. apply tame_bind; [apply tame_put, Hf|intro; tame_by].
      - unfold cmd_commit in H. apply bind_error in H as [H|(f & v & Hf & H)]; [destruct (quiet_error _ _ _ _ _ (tame_make _ _) H Q)|]. apply make_filter_tame in Hf as (Tf & -> & G). cbv zeta in H.
        apply bind_error in H as [H|(n & v1 & H1 & H)].
        + destruct r as [r|]; [discriminate H|]. cbn [refname_or_head] in H. eapply head_why; [exact G|exact H|exact Q].
        + exfalso. apply branch_done in H1 as [T1 _]. apply bind_error in H as [H|(g & v2 & H2 & H)]; [exact (quiet_error _ _ _ _ _ (tame_try _) H Q)|].
          apply bind_error in H as [H|(ps & v3 & H3 & H)].
          * apply try_done in H2 as [(k0 & -> & H2)|(x & -> & H2)]; [discriminate H|]. apply newest_error in H2 as [X|[-> _]]; [|discriminate H|exact (ok_ticked _ _ T1 W)].
            destruct x; try discriminate X; inversion H; subst; discriminate Q.
          * eapply quiet_error; [|exact H|exact Q]. apply tame_bind; [apply tame_put, Tf|intro; tame_by].
      - unfold cmd_fetch in H. apply bind_error in H as [H|(k' & v & _ & H)]; [eapply canon_why; [reflexivity|eassumption..]|]. exfalso. eapply quiet_error; [|exact H|exact Q]. tame_by.
      - unfold cmd_pretty_print in H. apply bind_error in H as [H|(k' & v & _ & H)]; [eapply canon_why; [reflexivity|eassumption..]|]. exfalso. eapply quiet_error; [|exact H|exact Q]. tame_by.
      - unfold cmd_commit_tree in H. apply bind_error in H as [H|(k' & v & Hk & H)]; [eapply canon_why; [reflexivity|eassumption..]|]. apply OutFacts.canon_done in Hk as [Tk D]; [|exact W].
        apply bind_error in H as [H|(ks & v2 & _ & H)]; [|exfalso; eapply quiet_error; [|exact H|exact Q]; tame_by]. apply (canons_why [] ps v t e w' m Tk); [|exact H|exact Q]. intros x [<-|[]]. eauto.
      - unfold cmd_reflog_get in H. apply bind_error in H as [H|(k' & v & _ & H)]; [|exfalso; eapply quiet_error; [|exact H|exact Q]; tame_by].
        apply newest_error in H as [X|[-> Hi]]; [congruence| |exact W]. inversion Q; subst. apply trouble_ref, Hi.
      - unfold cmd_reflog_push in H. apply bind_error in H as [H|(k' & v & _ & H)]; [eapply canon_why; [reflexivity|eassumption..]|]. exfalso. eapply quiet_error; [|exact H|exact Q]. tame_by.
      - unfold cmd_walk_tree in H. apply bind_error in H as [H|(k' & v & _ & H)]; [eapply canon_why; [reflexivity|eassumption..]|]. exfalso. eapply quiet_error; [|exact H|exact Q]. tame_by.
      - exfalso. eapply quiet_error; [|exact H|exact Q]. unfold cmd_walk_fs_tree, walk_real_fs_items. apply tame_bind; [apply tame_real_in; intro; apply tame_ret|intro; tame_by].
      - exfalso. eapply quiet_error; [|exact H|exact Q]. unfold cmd_set_head. tame_by.
      - exfalso. eapply quiet_error; [|exact H|exact Q]. unfold cmd_get_head. tame_by.
      - exfalso. eapply quiet_error; [|exact H|exact Q]. unfold cmd_init. apply tame_bind; [unfold fs_create_dir_all; destruct (is_empty_path _); [apply tame_ret|apply tame_change]|intros _]. apply tame_bind; [|intro; apply tame_write_at].
        unfold sqlite_open. apply tame_op. intros fl v ee v' X. destruct (open_db_eff _ v) as [[? ?]|]; destruct fl as [|[|]| |[|]]; inversion X; reflexivity.
      - unfold cmd_show in H. apply bind_error in H as [H|(k' & v & _ & H)]; [|exfalso; eapply quiet_error; [|exact H|exact Q]; tame_by].
        destruct k as [k|]; cbn [key_or_head] in H; [eapply canon_why; [reflexivity|eassumption..]|]. eapply head_key_why; [exact I|exact I|eassumption..].
      - unfold cmd_log in H. apply bind_error in H as [H|(k' & v & _ & H)]; [|exfalso; eapply quiet_error; [|exact H|exact Q]; tame_by].
        destruct k as [k|]; cbn [key_or_head] in H; [eapply canon_why; [reflexivity|eassumption..]|]. eapply head_key_why; [exact I|exact I|eassumption..].
      - unfold cmd_compare in H. apply bind_error in H as [H|(k' & v & _ & H)]; [|exfalso; eapply quiet_error; [|exact H|exact Q]; tame_by].
        destruct k as [k|]; [eapply canon_why; [reflexivity|eassumption..]|]. apply bind_error in H as [H|(k' & v & _ & H)]; [eapply head_key_why; [exact I|exact I|eassumption..]|].
        exfalso. eapply quiet_error; [|exact H|exact Q]. tame_by.
      - unfold cmd_status in H. apply bind_error in H as [H|(n & v & _ & H)]; [eapply head_why; [exact I|eassumption..]|]. exfalso. eapply quiet_error; [|exact H|exact Q]. tame_by.
      - unfold cmd_checkout in H. apply bind_error in H as [H|(k & v & _ & H)]; [eapply head_key_why; [exact I|exact I|eassumption..]|]. exfalso. eapply quiet_error; [|exact H|exact Q].
        apply tame_filtered. intros f Hf. apply tame_bind; [apply tame_commit_key|intro]. apply tame_checkout, Hf.
      - unfold cmd_checkout_head in H. apply bind_error in H as [H|(k & v & _ & H)]; [eapply head_why; [exact I|eassumption..]|]. exfalso. eapply quiet_error; [|exact H|exact Q]. tame_by.
      - unfold cmd_ref_log in H. apply bind_error in H as [H|(n & v & _ & H)]; [|exfalso; eapply quiet_error; [|exact H|exact Q]; tame_by].
        destruct r as [r|]; [discriminate H|]. eapply head_why; [exact I|exact H|exact Q].
      - unfold cmd_ref_update in H. apply bind_error in H as [H|(k' & v & Hk & H)]; [eapply canon_why; [reflexivity|eassumption..]|]. apply OutFacts.canon_done in Hk as [Tk D]; [|exact W].
        apply bind_error in H as [H|(n & v1 & _ & H)]; [|exfalso; eapply quiet_error; [|exact H|exact Q]; tame_by]. destruct r as [r|]; [discriminate H|]. cbn [refname_or_head] in H.
        apply head_error in H as [X|[-> N]]; [congruence|]. inversion Q; subst. eapply trouble_update; [exact D|]. unfold no_head in *. rewrite (cur_ticked _ _ Tk) in N. exact N.
    Qed.

    Context (F : w_faults w = []).
    Theorem stops c m : trouble cm w c m -> exists e w', run_command cm (Some s) c w = (Error e, w') /\ error_message e = [m] /\ ticked w w'.
    Proof.
      intro T. destruct T as [c ki m G T|t l1 ki l2 m D T|c G N|ki k D N|c n G Hd U Hi|n rm Hi].
      - destruct (canon_stops ki w m W F T) as (e & w' & H & Q & Tk). exists e, w'. split; [|auto].
        destruct c as [p|p msg r|k d|k|t ps|n rm|k n rm|k|p|n| | |[k|]|[k|]|p [k|] b| | |n|r rm|k r]; cbn [given_key] in G; try discriminate G; inversion G; subst;
          cbn [run_command with_ds]; unfold cmd_fetch, cmd_pretty_print, cmd_commit_tree, cmd_reflog_push, cmd_walk_tree, cmd_show, cmd_log, cmd_compare, cmd_ref_update, key_or_head; apply run_error, H.
      - cbn [run_command with_ds]. unfold cmd_commit_tree. destruct (D t (or_introl eq_refl)) as [k Dk]. destruct (canon_live t w k W F Dk) as (v & H & Tk & Fv). rewrite (run_bind _ _ _ _ _ H).
        assert (X : forall l v, ticked w v -> w_faults v = [] -> (forall x, In x l -> exists k, denotes w x k) -> exists e w', mapM (canonicalize ds) (l ++ ki :: l2) v = (Error e, w') /\ error_message e = [m] /\ ticked w w').
        { clear - W T. induction l as [|x l IH]; intros v Tk Fv D; cbn [app mapM].
          - destruct (canon_stops ki v m (ok_ticked _ _ Tk W) Fv) as (e & w' & H & Q & Tk'); [eapply key_trouble_cur; [apply cur_ticked, Tk|exact T]|]. exists e, w'. split; [apply run_error, H|]. split; [exact Q|eapply ticked_trans; eassumption].
          - destruct (D x (or_introl eq_refl)) as [k Dk]. destruct (canon_live x v k (ok_ticked _ _ Tk W) Fv) as (v' & H & Tk' & Fv'); [eapply denotes_cur; [apply cur_ticked, Tk|exact Dk]|]. rewrite (run_bind _ _ _ _ _ H).
            destruct (IH v') as (e & w' & H' & Q & Tk2); [eapply ticked_trans; eassumption|exact Fv'|intros y I; apply D; right; exact I|]. exists e, w'. split; [apply run_error, H'|auto]. }
        destruct (X l1 v Tk Fv) as (e & w' & H' & Q & Tk'); [intros x I; apply D; right; exact I|]. exists e, w'. split; [apply run_error, H'|auto].
      - destruct (head_stops w F N) as (w' & H & Tk). exists ENoHead, w'. split; [|auto].
        destruct c as [p|p msg [r|]|k d|k|t ps|n rm|k n rm|k|p|n| | |[k|]|[k|]|p [k|] b| | |n|[r|] rm|k r]; cbn [asks_head] in G; try contradiction; cbn [run_command with_ds];
          unfold cmd_show, cmd_log, cmd_compare, cmd_status, cmd_checkout, cmd_checkout_head, cmd_ref_log, key_or_head, get_head_key, refname_or_head; try first [exact H|apply run_error, H|apply run_error, run_error, H|apply run_error, run_error, run_error, H].
        unfold cmd_commit. rewrite (run_bind _ _ _ _ _ (filter_run _ (ds_folder s) w G)). cbn [refname_or_head]. apply run_error, H.
      - cbn [run_command with_ds]. unfold cmd_ref_update. destruct (canon_live ki w k W F D) as (v & H & Tk & Fv). rewrite (run_bind _ _ _ _ _ H). cbn [refname_or_head].
        destruct (head_stops v Fv) as (w' & H' & Tk'); [unfold no_head in *; rewrite (cur_ticked _ _ Tk); exact N|]. exists ENoHead, w'. split; [apply run_error, H'|]. split; [reflexivity|eapply ticked_trans; eassumption].
      - destruct (head_key_stops w n W F Hd U Hi) as (w' & H & Tk). exists ERefNotFound, w'. split; [|auto].
        destruct c as [p|p msg [r|]|k d|k|t ps|n' rm|k n' rm|k|p|n'| | |[k|]|[k|]|p [k|] b| | |n'|[r|] rm|k r]; cbn [needs_commit] in G; try contradiction; cbn [run_command with_ds];
          unfold cmd_show, cmd_log, cmd_compare, cmd_checkout, key_or_head; first [apply run_error, H|apply run_error, run_error, H].
      - destruct (newest_missing n rm w W F Hi) as (w' & H & Tk & _). exists ERefNotFound, w'. split; [|auto]. cbn [run_command with_ds]. unfold cmd_reflog_get. apply run_error, H.
    Qed.
  End Commands.

  (** *** Processes *)
  Lemma stops_outside cm c e w w' m : world_ok w -> run_command cm None c w = (Error e, w') -> error_message e = [m] -> needs_repository c /\ m = no_repository_text.
  Proof.
    intros W H Q. assert (X : c = CInit \/ (exists p, c = CWalkFsTree p) \/ needs_repository c /\ run_command cm None c w = (Error ENoDb, w)).
    { destruct c; cbn [needs_repository]; eauto; right; right; (split; [exact I|reflexivity]). }
    destruct X as [->|[(p & ->)|[N X]]].
    - pose proof (stops_because cm (DsState (Path true [] false) (Path true [] false)) w W CInit e w' m H Q) as T. inversion T; subst; contradiction || discriminate.
    - pose proof (stops_because cm (DsState (Path true [] false) (Path true [] false)) w W (CWalkFsTree p) e w' m H Q) as T. inversion T; subst; contradiction || discriminate.
    - split; [exact N|]. rewrite X in H. inversion H; subst. inversion Q. reflexivity.
  Qed.
  Theorem process_why cm c w w' : reachable w -> run_process cm c w = (Some 0%N, w') ->
    exists st w1 w2, starts cm w st w1 /\
    (run_command cm st c w1 = (Done tt, w2) /\ w_out w' = w_out w2 \/
     exists e a, run_command cm st c w1 = (Error e, w2) /\ w_out w' = Printed "fatal:" a :: w_out w2 /\
       (a = [] \/ exists m, a = [m] /\ ((st = None /\ needs_repository c /\ m = no_repository_text) \/ exists s, st = Some s /\ trouble cm w1 c m))).
  Proof.
    intros R RP. apply exit_zero in RP as (st & w1 & w2 & S & [H|(e & H & O)]); exists st, w1, w2; (split; [exact S|]); [left; exact H|right]. pose proof (started_ok _ _ _ _ R S) as W.
    exists e, (error_message e). split; [exact H|]. split; [exact O|]. destruct (error_message e) as [|m l] eqn:Q; [left; reflexivity|right]. assert (l = []) as -> by (destruct e; inversion Q; reflexivity). exists m. split; [reflexivity|].
    destruct st as [s|]; [right; exists s; split; [reflexivity|]; eapply stops_because; eassumption|left; split; [reflexivity|eapply stops_outside; eassumption]].
  Qed.

  Lemma finish_fatal st e w : w_faults w = [] -> w_ctxn w <> None -> exists w', finish st (Err e) w = (Done tt, w') /\ w_faults w' = [] /\ w_out w' = Printed "fatal:" (error_message e) :: w_out w /\ w_fs w' = w_fs w /\ w_cwd w' = w_cwd w /\
    w_dbs w' = w_dbs w.
  Proof.
    intros F C. cbn [finish]. unfold bind at 1, print. match goal with |- context [op ?e w] => destruct (op_live e w F) as (w1 & T & F1 & ->) end. destruct T as (t & r & ->). cbn in F1 |- *. subst r.
    set (v := set_out _ _). assert (A : w_faults v = [] /\ w_ctxn v = w_ctxn w /\ w_out v = Printed "fatal:" (error_message e) :: w_out w /\ w_fs v = w_fs w /\ w_cwd v = w_cwd w /\ w_dbs v = w_dbs w) by (repeat split).
    clearbody v. destruct A as (Fv & Cv & Ov & Sv & Wv & Dv).
    assert (X : exists u, ignore_on st db_rollback v = (Done tt, u) /\ w_faults u = [] /\ w_ctxn u = w_ctxn v /\ w_out u = w_out v /\ w_fs u = w_fs v /\ w_cwd u = w_cwd v /\ w_dbs u = w_dbs v).
    { destruct st as [s|]; cbn [ignore_on]; [|exists v; repeat (split; [reflexivity || exact Fv|]); auto]. unfold bind, try, db_rollback.
      match goal with |- context [op ?e v] => destruct (op_live e v Fv) as (w1 & T & F1 & ->) end. destruct T as (t' & r & ->). cbn in F1 |- *.
      destruct (w_txn v) eqn:Tx; eexists; (split; [reflexivity|]); cbn; repeat (split; [reflexivity || exact F1|]); reflexivity. }
    destruct X as (u & X & Fu & Cu & Ou & Su & Wu & Du). rewrite (run_bind _ _ _ _ _ X). unfold cache_rollback.
    match goal with |- context [op ?e u] => destruct (op_live e u Fu) as (w1 & T & F1 & ->) end. destruct T as (t' & r & ->). cbn in F1 |- *. rewrite Cu, Cv. destruct (w_ctxn w) as [c|] eqn:Cw; [|congruence].
    eexists. split; [reflexivity|]. cbn. repeat split; congruence.
  Qed.
  Lemma starts_out cm w st w1 : starts cm w st w1 -> w_out w1 = w_out w.
  Proof.
    intro S. assert (OP : PreOrder (fun v v' : world => w_out v' = w_out v)) by (split; [intro; reflexivity|intros x y z X Y; congruence]).
    assert (K : forall A (m : M A), rel (fun v v' => w_out v' = w_out v) m -> forall v o v', m v = (o, v') -> w_out v' = w_out v) by (intros A m R v o v' H; pose proof (R v) as Y; rewrite H in Y; exact Y).
    assert (Q : forall A (q : fs -> loc -> option A), rel (fun v v' => w_out v' = w_out v) (fs_query q)).
    { intros A q. apply rel_op. intros [] v v1 (t & r & ->); cbn; try reflexivity. destruct (q _ _); reflexivity. }
    assert (Ch : forall A (full : fs -> loc -> nat -> option (A * fs)) partial, rel (fun v v' => w_out v' = w_out v) (fs_change full partial)).
    { intros A full partial. apply rel_op. intros f v v1 (t & r & ->); cbn. repeat match goal with |- context [match ?x with _ => _ end] => destruct x end; reflexivity. }
    assert (Mk : forall p, rel (fun v v' => w_out v' = w_out v) (fs_create_dir_all p)) by (intro p; unfold fs_create_dir_all; destruct (is_empty_path p); [apply rel_ret; exact OP|apply Ch]).
    assert (Op : forall p, rel (fun v v' => w_out v' = w_out v) (sqlite_open p)).
    { intro p. apply rel_op. intros f v v1 (t & r & ->). destruct (open_db_eff p _) as [[l v2]|] eqn:O; [|destruct f; reflexivity].
      assert (w_out v2 = w_out v). { unfold open_db_eff in O. repeat match type of O with context [match ?x with _ => _ end] => destruct x end; inversion O; reflexivity. }
      destruct f as [|[|]| |[|]]; cbn; assumption || reflexivity. }
    unfold starts, setup in S. apply bind_done in S as (st' & v1 & H1 & S). apply bind_done in S as ([] & v2 & H2 & S). apply bind_done in S as ([] & v3 & H3 & S). apply bind_done in S as ([] & v4 & H4 & S). apply ret_done in S as [-> ->].
    assert (O1 : w_out v1 = w_out w).
    { change (w_out w) with (w_out (close_all w)). refine (K _ (open_repo cm) _ _ _ _ H1). unfold open_repo. apply rel_bind; [exact OP| |intros [p|]; [|apply rel_ret; exact OP]].
      - unfold find_db_folder. apply rel_bind; [exact OP|apply Q|intro cwd]. generalize (ancestors cwd). intro l. induction l as [|d l IH]; cbn [find_in]; [apply rel_ret; exact OP|].
        apply rel_bind; [exact OP| |intros []; [apply rel_ret; exact OP|exact IH]]. unfold fs_exists. apply rel_bind; [exact OP|apply rel_try, Q|intros []; apply rel_ret; exact OP].
      - destruct (parent p); [|apply rel_panic; exact OP]. apply rel_bind; [exact OP|apply Op|intro l]. apply rel_bind; [exact OP|intro; reflexivity|intros _; apply rel_ret; exact OP]. }
    assert (O2 : w_out v2 = w_out v1).
    { refine (K _ open_cache _ _ _ _ H2). assert (Cn : rel (fun v v' => w_out v' = w_out v) cache_new) by (apply rel_op; intros [] v v' (t & r & ->); reflexivity).
      unfold open_cache. destruct cache_dir; (apply rel_bind; [exact OP| |intros _]); try apply Mk; try apply Cn. intro; reflexivity. }
    assert (B : rel (fun v v' => w_out v' = w_out v) db_begin) by (apply rel_op; intros [] v v' (t & r & ->); cbn; try reflexivity; destruct (w_txn v); reflexivity).
    assert (O3 : w_out v3 = w_out v2) by (refine (K _ (ignore_on st' db_begin) _ _ _ _ H3); destruct st' as [s|]; [cbn [ignore_on]; apply rel_bind; [exact OP|apply rel_try, B|intro; apply rel_ret; exact OP]|apply rel_ret; exact OP]).
    assert (O4 : w_out v4 = w_out v3). { refine (K _ cache_begin _ _ _ _ H4). apply rel_op; intros [] v v' (t & r & ->); cbn; try reflexivity; destruct (w_ctxn v); reflexivity. }
    congruence.
  Qed.
  (** The end of a process whose command failed before it did anything. *)
  Lemma process_fatal {Fm : Fmt} cm c w st w1 e m w2 : w_faults w = [] -> starts cm w st w1 -> run_command cm st c w1 = (Error e, w2) -> error_message e = [m] -> ticked w1 w2 ->
    exists w', run_process cm c w = (Some 0%N, w') /\ writes_lines w w' [str "fatal: " ++ m] /\ w_fs w' = w_fs w1 /\ w_cwd w' = w_cwd w /\ w_dbs w' = w_dbs w1 /\ w_faults w' = [].
  Proof.
    intros F S R Q T. destruct (calm_setup _ _ _ _ S F) as [F1 C1]. pose proof (calm_command cm st c w1 F1) as [F2 C2]. rewrite R in F2, C2. cbn [snd] in F2, C2. specialize (C2 C1).
    destruct (finish_fatal st e w2 F2 C2) as (w3 & Fi & F3 & O3 & S3 & W3 & D3). pose proof (setup_before _ _ _ _ S) as (_ & Cw & _ & _). pose proof (starts_out _ _ _ _ S) as Ow.
    exists (close_all w3). split; [unfold run_process; rewrite main_split; unfold starts in S; rewrite (run_bind _ _ _ _ _ S); unfold bind, try; rewrite R, Fi; reflexivity|].
    destruct T as (t & r & ->). cbn in O3, S3, W3, D3. split; [|cbn; repeat split; congruence].
    unfold writes_lines, writes, screen. cbn [close_all w_out set_ctxn set_txn]. rewrite O3, Q, Ow. cbn [rev]. rewrite map_app, concat_app. f_equal. cbn. rewrite ?app_nil_r, <- ?app_assoc. reflexivity.
  Qed.
  Theorem process_stops {Fm : Fmt} cm c w s w1 m : reachable w -> w_faults w = [] -> starts cm w (Some s) w1 -> trouble cm w1 c m ->
    exists w', run_process cm c w = (Some 0%N, w') /\ writes_lines w w' [str "fatal: " ++ m] /\ w_fs w' = w_fs w1 /\ w_cwd w' = w_cwd w /\ w_dbs w' = w_dbs w1 /\ w_faults w' = [].
  Proof.
    intros R F S T. pose proof (started_ok _ _ _ _ R S) as W. destruct (calm_setup _ _ _ _ S F) as [F1 C1]. destruct (stops cm s w1 W F1 c m T) as (e & w2 & H & Q & Tk). eapply process_fatal; eassumption.
  Qed.
  Theorem process_outside {Fm : Fmt} cm c w : w_faults w = [] -> cache_place w -> (forall e, above (w_cwd w) e -> ~ is_there w (join (abs_path e) (cm_db_path cm))) -> needs_repository c ->
    exists w', run_process cm c w = (Some 0%N, w') /\ writes_lines w w' [str "fatal: " ++ no_repository_text] /\ w_dbs w' = w_dbs w /\ w_cwd w' = w_cwd w /\ w_faults w' = [] /\
    forall x, lookup (w_fs w') x <> lookup (w_fs w) x -> lookup (w_fs w) x = None /\ lookup (w_fs w') x = Some EDir /\ exists c a b, cache_dir = Some (abs_path c) /\ c ++ [str "snapcd"] = a ++ b /\ x = a.
  Proof.
    intros F P No N. destruct (start_none cm w F P No) as (w1 & S & F1 & Cw & Db & Ow & Ch & _).
    destruct (process_fatal cm c w None w1 ENoDb no_repository_text w1 F S) as (w' & RP & Wr & Fs & Cw' & Db' & F'); [destruct c; try contradiction; reflexivity|reflexivity|apply ticked_refl|].
    exists w'. split; [exact RP|]. split; [exact Wr|]. split; [congruence|]. split; [exact Cw'|]. split; [exact F'|]. rewrite Fs. exact Ch.
  Qed.

  (** *** For examples *)
  Lemma rows_nothing w s a e : world_ok w -> forallb (fun x => negb (bytes_leb a x)) (map fst (d_data (cur_db w))) = true -> names_nothing w (KRange s a e).
  Proof.
    intros W X. cbn. intros k S [Lo _]. assert (I : In (as_db_key k) (map fst (d_data (cur_db w)))) by (apply (stored_rows _ _ W); eauto). rewrite forallb_forall in X. apply X in I.
    apply bytes_leb_spec in Lo. rewrite Lo in I. discriminate I.
  Qed.
  Lemma rows_several w s a e x y : world_ok w -> (exists l, filter (fun x => bytes_leb a x && bytes_ltb x e) (map fst (d_data (cur_db w))) = x :: y :: l) ->
    bytes_eqb x y = false -> names_several w (KRange s a (Some e)).
  Proof.
    intros W X Ne. assert (K : forall z, In z (filter (fun x => bytes_leb a x && bytes_ltb x e) (map fst (d_data (cur_db w)))) -> exists k, z = as_db_key k /\ stored w k /\ in_range a (Some e) (as_db_key k)).
    { intros z I. apply filter_In in I as [I B]. apply andb_true_iff in B as [B1 B2]. apply (stored_rows _ _ W) in I as (k & -> & S). exists k. split; [reflexivity|]. split; [exact S|]. split; [apply bytes_leb_spec, B1|apply bytes_ltb_spec, B2]. }
    assert (I : In x (filter (fun x => bytes_leb a x && bytes_ltb x e) (map fst (d_data (cur_db w)))) /\ In y (filter (fun x => bytes_leb a x && bytes_ltb x e) (map fst (d_data (cur_db w))))).
    { destruct X as [l ->]. cbn. auto. }
    destruct I as [Ix Iy]. destruct (K x Ix) as (k & -> & P). destruct (K y Iy) as (k' & -> & P'). exists k, k'. split; [|auto]. intros ->. rewrite bytes_eqb_refl in Ne. discriminate Ne.
  Qed.
End FatalCmd.
