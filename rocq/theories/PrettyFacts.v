(** Facts about the text of [debug pretty-print]. *)
From Verif Require Import Base BaseFacts Base32 Base32Facts Key KeyFacts Keyish Cbor Object Path World WorldFacts Store File Dir Commit Pretty Main SpecStore StoreCalls SpecRun SpecOut SpecProc SpecClosure SpecPretty
  ObjStoreFacts DirLive CompareFacts FileRun InitFacts CmdFacts OutFacts ShapeTop Reader.

(** ** Digits *)
Lemma position_some {A} (f : A -> bool) l n : position f l = Some n -> exists x, In x l /\ f x = true.
Proof.
  revert n. induction l as [|x l IH]; cbn; [discriminate|]. intros n. destruct (f x) eqn:Q; [intros _; exists x; auto|].
  destruct (position f l) as [m|] eqn:P; [|discriminate]. intros _. destruct (IH m eq_refl) as (y & I & F). exists y. auto.
Qed.
Lemma hex_in c x : hex_value c = Some x -> In c (str "0123456789abcdef").
Proof.
  unfold hex_value. destruct (position _ _) as [n|] eqn:P; [|discriminate]. intros _. apply position_some in P as (y & I & F). apply byte_eqb_eq in F as ->. exact I.
Qed.
Lemma dec_in c x : dec_value c = Some x -> In c (str "0123456789").
Proof.
  unfold dec_value. destruct (position _ _) as [n|] eqn:P; [|discriminate]. intros _. apply position_some in P as (y & I & F). apply byte_eqb_eq in F as ->. exact I.
Qed.
Lemma below_cases (P : N -> Prop) n : (forall k, k < n -> P (N.of_nat k)) -> forall x, (x < N.of_nat n)%N -> P x.
Proof. intros H x L. rewrite <- (N2Nat.id x). apply H. lia. Qed.
Lemma hex_digit_value x : (x < 16)%N -> hex_value (hex_digit x) = Some x.
Proof. revert x. change 16%N with (N.of_nat 16). apply below_cases. intros k L. do 16 (destruct k as [|k]; [vm_compute; reflexivity|]). lia. Qed.
Lemma digit_value x : (x < 10)%N -> dec_value (digit x) = Some x.
Proof. revert x. change 10%N with (N.of_nat 10). apply below_cases. intros k L. do 10 (destruct k as [|k]; [vm_compute; reflexivity|]). lia. Qed.
Lemma digit_zero x : (x < 10)%N -> digit x = "0"%char -> x = 0%N.
Proof. intros L H. apply digit_value in L. rewrite H in L. injection L as <-. reflexivity. Qed.

(** ** The model writes what it should *)
Lemma hex_spelled d : spelled (hex_encode d) d.
Proof.
  induction d as [|b d IH]; cbn; [constructor|]. pose proof (byte_val_bound b) as B.
  apply (sp_byte _ _ _ _ _ (byte_val b / 16)%N (byte_val b mod 16)%N); [apply hex_digit_value, N.div_lt_upper_bound; lia|apply hex_digit_value, N.mod_lt; lia|apply N.div_mod; lia|exact IH].
Qed.
Lemma chunks_dumped fuel : forall d, length d <= fuel -> dumped (map hex_encode (chunks_of fuel 20 d)) d.
Proof.
  induction fuel as [|f IH]; intros d L; [destruct d; [constructor|cbn in L; lia]|].
  destruct d as [|b d]; [constructor|]. remember (b :: d) as e eqn:Qe. assert (Pe : 1 <= length e) by (rewrite Qe; cbn; lia).
  replace (chunks_of (S f) 20 e) with (firstn 20 e :: chunks_of f 20 (skipn 20 e)) by (rewrite Qe; reflexivity). cbn [map].
  destruct (Nat.le_gt_cases (length e) 20) as [S|S].
  - rewrite (skipn_all2 e) by exact S. rewrite (firstn_all2 e) by exact S. replace (chunks_of f 20 []) with (@nil bytes) by (destruct f; reflexivity). apply du_last; [apply hex_spelled|lia].
  - rewrite <- (firstn_skipn 20 e) at 3. apply du_line; [apply hex_spelled|rewrite firstn_length; lia|apply IH; rewrite skipn_length; lia|].
    intro H. apply (f_equal (@length _)) in H. rewrite skipn_length in H. cbn in H. lia.
Qed.
Lemma decimal_number b : number_text (decimal b) (byte_val b).
Proof.
  unfold decimal. set (n := byte_val b). pose proof (byte_val_bound b : (n < 256)%N) as B. cbv zeta.
  assert (Lm : (n mod 10 < 10)%N) by (apply N.mod_lt; lia).
  assert (Ld : (n / 10 mod 10 < 10)%N) by (apply N.mod_lt; lia).
  assert (Lh : (n / 100 < 10)%N) by (apply N.div_lt_upper_bound; lia).
  pose proof (N.div_mod n 10 ltac:(lia)) as D1. pose proof (N.div_mod (n / 10) 10 ltac:(lia)) as D2.
  assert (D3 : (n / 10 / 10 = n / 100)%N) by (rewrite N.div_div by lia; reflexivity). rewrite D3 in D2.
  clear D3. clearbody n. generalize dependent (n mod 10)%N. generalize dependent (n / 10 mod 10)%N. generalize dependent (n / 100)%N. generalize dependent (n / 10)%N. intros q h Lh d Ld D2 m Lm D1.
  destruct (N.leb_spec 100 n) as [H|H]; [|destruct (N.leb_spec 10 n) as [H1|H1]].
  - destruct (N.leb_spec 10 n) as [H1|H1]; [|lia]. cbn [app]. split; [discriminate|]. split.
    + cbn [number_value]. rewrite !digit_value by assumption. f_equal. lia.
    + intros r Q. injection Q as Q _. apply digit_zero in Q; [|exact Lh]. lia.
  - cbn [app]. split; [discriminate|]. split.
    + cbn [number_value]. rewrite !digit_value by assumption. f_equal. lia.
    + intros r Q. injection Q as Q _. apply digit_zero in Q; [|exact Ld]. lia.
  - cbn [app]. split; [discriminate|]. split.
    + cbn [number_value]. rewrite !digit_value by assumption. f_equal. lia.
    + intros r Q. injection Q as _ Q. symmetry. exact Q.
Qed.
Lemma commas_listed l : listed (comma_separated (map decimal l)) (map byte_val l).
Proof.
  induction l as [|b l IH]; cbn [map comma_separated]; [constructor|]. destruct l as [|c l]; [apply ls_last, decimal_number|].
  cbn [map comma_separated] in *. apply ls_more; [apply decimal_number|exact IH|discriminate].
Qed.

(** ** The text can be read *)
Notation nl := ("010"%char).
Definition no_nl (l : bytes) : Prop := ~ In nl l.
Lemma cut_line l : forall l' r r', no_nl l -> no_nl l' -> l ++ nl :: r = l' ++ nl :: r' -> l = l' /\ r = r'.
Proof.
  induction l as [|c l IH]; intros [|c' l'] r r' N N' H; cbn in H.
  - injection H as H. auto.
  - injection H as H _. destruct N'. left. symmetry. exact H.
  - injection H as H _. destruct N. left. exact H.
  - injection H as -> H. apply IH in H as [-> ->]; auto; intro I; [apply N|apply N']; right; exact I.
Qed.
Lemma no_nl_incl (s : bytes) l : ~ In nl s -> Forall (fun c => In c s) l -> no_nl l.
Proof. intros N F I. rewrite Forall_forall in F. exact (N (F _ I)). Qed.
Lemma letters (s l : bytes) : forallb (fun c => existsb (byte_eqb c) s) l = true -> Forall (fun c => In c s) l.
Proof. intro H. rewrite forallb_forall in H. apply Forall_forall. intros c I. apply H, existsb_exists in I as (x & I & Q). apply byte_eqb_eq in Q as ->. exact I. Qed.
Lemma letters_incl (s s' l : bytes) : forallb (fun c => existsb (byte_eqb c) s') s = true -> Forall (fun c => In c s) l -> Forall (fun c => In c s') l.
Proof. intros H F. apply letters in H. rewrite Forall_forall in H. eapply Forall_impl; [|exact F]. intros c I. apply H, I. Qed.
Ltac not_in := let H := fresh in vm_compute; intro H; repeat (destruct H as [H|H]; [discriminate H|]); exact H.
Lemma spelled_in l d : spelled l d -> Forall (fun c => In c (str "0123456789abcdef")) l.
Proof. induction 1 as [|h c b r d x y H1 H2 H3 H IH]; [constructor|]. constructor; [eapply hex_in, H1|]. constructor; [eapply hex_in, H2|exact IH]. Qed.
Lemma spelled_no_nl l d : spelled l d -> no_nl l.
Proof. intro H. apply (no_nl_incl (str "0123456789abcdef")); [not_in|]. eapply spelled_in, H. Qed.
Lemma spelled_fun l d d' : spelled l d -> spelled l d' -> d = d'.
Proof.
  intro H. revert d'. induction H as [|h c b r d x y H1 H2 H3 H IH]; intros d' H'; inversion H'; subst; [reflexivity|]. f_equal; [|auto].
  apply byte_val_inj. congruence.
Qed.
Lemma dumped_fun ls d d' : dumped ls d -> dumped ls d' -> d = d'.
Proof.
  intro H. revert d'. induction H as [|l d Sp L|l d ls d1 Sp L H IH Ne]; intros d' H'.
  - inversion H'; reflexivity.
  - inversion H' as [|l0 d0 Sp' L' Q1 Q2|l0 d0 ls0 d2 Sp' L' H2 Ne' Q1 Q2]; subst; [eapply spelled_fun; eassumption|]. inversion H2. subst. destruct (Ne' eq_refl).
  - inversion H' as [|l0 d0 Sp' L' Q1 Q2|l0 d0 ls0 d2 Sp' L' H2 Ne' Q1 Q2]; subst; [inversion H; subst; destruct (Ne eq_refl)|].
    rewrite (spelled_fun _ _ _ Sp Sp'), (IH _ H2). reflexivity.
Qed.
Lemma number_in t : forall acc n, number_value acc t = Some n -> Forall (fun c => In c (str "0123456789")) t.
Proof.
  induction t as [|c t IH]; cbn; intros acc n H; [constructor|]. destruct (dec_value c) as [x|] eqn:Q; [|discriminate]. constructor; [eapply dec_in, Q|eapply IH, H].
Qed.
Lemma listed_in t l : listed t l -> Forall (fun c => In c (str "0123456789, ")) t.
Proof.
  assert (K : forall t n, number_text t n -> Forall (fun c => In c (str "0123456789, ")) t).
  { intros t0 n (_ & H & _). apply number_in in H. eapply letters_incl; [|exact H]. reflexivity. }
  induction 1; [constructor|eapply K; eassumption|]. apply Forall_app. split; [eapply K; eassumption|]. apply Forall_app. split; [|assumption].
  apply letters. reflexivity.
Qed.
Lemma user_key_no_nl k : no_nl (as_user_key k).
Proof.
  intro I. destruct k as [h]. unfold as_user_key in I. apply in_app_iff in I as [I|I]; [revert I; not_in|].
  pose proof (to_base32_in_table (hash_bytes (Blake3B h))) as F. rewrite Forall_forall in F. apply F in I. revert I. not_in.
Qed.
Definition line_ok (stop l : bytes) : Prop := no_nl l /\ l <> stop.
Lemma cut_lines stop L1 : forall L2 r1 r2, no_nl stop -> Forall (line_ok stop) L1 -> Forall (line_ok stop) L2 ->
  text_of_lines (L1 ++ [stop]) ++ r1 = text_of_lines (L2 ++ [stop]) ++ r2 -> L1 = L2 /\ r1 = r2.
Proof.
  unfold text_of_lines. intros L2 r1 r2 Ns F1. revert L2. induction F1 as [|a L1 [Na Ka] F1 IH]; intros L2 F2 H.
  - destruct F2 as [|b L2 [Nb Kb] F2]; cbn in H; rewrite <- ?app_assoc in H; cbn in H.
    + apply cut_line in H as [_ H]; auto.
    + apply cut_line in H as [H _]; auto. destruct (Kb (eq_sym H)).
  - destruct F2 as [|b L2 [Nb Kb] F2]; cbn in H; rewrite <- ?app_assoc in H; cbn in H.
    + apply cut_line in H as [H _]; auto. destruct (Ka H).
    + apply cut_line in H as [-> H]; auto. destruct (IH L2 F2 H) as [-> ->]. auto.
Qed.
Lemma keys_lines ls ks : keys_shown ls ks -> Forall (line_ok (str "-/keys--")) ls.
Proof.
  induction 1 as [|k t ls ks L H IH]; [constructor|]. repeat apply Forall_cons; [| | |exact IH]; split.
  - apply user_key_no_nl.
  - destruct k. unfold as_user_key. cbn. discriminate.
  - apply (no_nl_incl (str "Blake3([0123456789, ])")); [not_in|]. apply Forall_app. split; [apply letters; reflexivity|].
    apply Forall_app. split; [|apply letters; reflexivity]. eapply letters_incl; [|eapply listed_in, L]. reflexivity.
  - discriminate.
  - intros [].
  - discriminate.
Qed.
Lemma dump_lines ls d : dumped ls d -> Forall (line_ok (str "-/data--")) ls.
Proof.
  assert (K : forall l d, spelled l d -> line_ok (str "-/data--") l).
  { intros l d0 H. split; [eapply spelled_no_nl, H|]. intros ->. inversion H as [|h c b r d1 x y H1]; subst. vm_compute in H1. discriminate. }
  induction 1; [constructor|repeat constructor; eapply K; eassumption|]. constructor; [eapply K; eassumption|assumption].
Qed.
Lemma keys_fun ls ks ks' : keys_shown ls ks -> keys_shown ls ks' -> ks = ks'.
Proof.
  intro H. revert ks'. induction H as [|k t ls ks L H IH]; intros ks' H'; inversion H'; subst; [reflexivity|]. f_equal; [|auto]. apply as_user_key_inj. congruence.
Qed.
Lemma type_line_inj a b : str "--type: " ++ objtype_name a ++ str "--" = str "--type: " ++ objtype_name b ++ str "--" -> a = b.
Proof. intro H. destruct a, b; try reflexivity; vm_compute in H; discriminate H. Qed.
Lemma type_line_ok a : no_nl (str "--type: " ++ objtype_name a ++ str "--").
Proof. destruct a; not_in. Qed.
Lemma text_app a b : text_of_lines (a ++ b) = text_of_lines a ++ text_of_lines b.
Proof. unfold text_of_lines. rewrite map_app, concat_app. reflexivity. Qed.

Section PrettyFacts.
  Context {E : Env}.
  Notation ds := sqlite_ds.
  Lemma pictured_text ls o : pictured ls o -> exists kl dl, keys_shown kl (o_keys o) /\ dumped dl (o_data o) /\ forall r, exists x,
    text_of_lines ls ++ r = (str "--type: " ++ objtype_name (o_type o) ++ str "--") ++ nl ::
      (str "--keys--" ++ nl :: (text_of_lines (kl ++ [str "-/keys--"]) ++ (str "--data--" ++ nl :: (text_of_lines (dl ++ [str "-/data--"]) ++ x)))).
  Proof.
    intros (kl & dl & K & D & ->). exists kl, dl. split; [exact K|]. split; [exact D|]. intro r.
    exists (text_of_lines ([str "--deserialised data--"] ++ value_lines (o_data o) ++ [str "--/deserialised data--"]) ++ r).
    generalize (value_lines (o_data o) ++ [str "--/deserialised data--"]) as v. intro v. generalize (str "--type: " ++ objtype_name (o_type o) ++ str "--") as t. intro t.
    change ([t; str "--keys--"]) with ([t] ++ [str "--keys--"]). change [str "-/keys--"; str "--data--"] with ([str "-/keys--"] ++ [str "--data--"]).
    change [str "-/data--"; str "--deserialised data--"] with ([str "-/data--"] ++ [str "--deserialised data--"]).
    rewrite !text_app. assert (T1 : forall l, text_of_lines [l] = l ++ [nl]) by (intro l; unfold text_of_lines; cbn; rewrite app_nil_r; reflexivity).
    rewrite !T1, <- !app_assoc. reflexivity.
  Qed.
  Lemma pictured_inj ls o ls' o' r r' : pictured ls o -> pictured ls' o' -> text_of_lines ls ++ r = text_of_lines ls' ++ r' -> o = o'.
  Proof.
    intros P P' H. destruct (pictured_text _ _ P) as (kl & dl & K & D & X). destruct (pictured_text _ _ P') as (kl' & dl' & K' & D' & X').
    destruct (X r) as [x Q]. destruct (X' r') as [x' Q']. rewrite Q, Q' in H. clear Q Q' X X' P P'.
    apply cut_line in H as [Ht H]; [|apply type_line_ok|apply type_line_ok]. apply type_line_inj in Ht. apply app_inv_head in H. injection H as H.
    apply cut_lines in H as [-> H]; [|not_in|eapply keys_lines; eassumption|eapply keys_lines; eassumption]. injection H as H.
    apply cut_lines in H as [-> H]; [|not_in|eapply dump_lines; eassumption|eapply dump_lines; eassumption].
    destruct o, o'. cbn in *. f_equal; [eapply dumped_fun; eassumption|eapply keys_fun; eassumption|exact Ht].
  Qed.
  (** What is printed. *)
  Lemma out_app a b : out_lines (a ++ b) = out_lines a ++ out_lines b.
  Proof. apply map_app. Qed.
  Definition anything (e : event) : Prop := True.
  Lemma calm_line d l : calm (writeln l) d (Done tt) (rev (out_lines [l])).
  Proof.
    intros w F C. unfold writeln, write_stdout. match goal with |- context [op ?e w] => destruct (op_live e w F) as (w1 & T & F1 & ->) end.
    eexists. split; [reflexivity|]. split; [|exact F1]. destruct T as (t & f & ->). exists t, f. destruct w; reflexivity.
  Qed.
  Lemma calm_then (m n : M unit) d a b : calm m d (Done tt) (rev (out_lines a)) -> calm n d (Done tt) (rev (out_lines b)) -> calm (m ;;; n) d (Done tt) (rev (out_lines (a ++ b))).
  Proof. intros H K. rewrite out_app, rev_app_distr. eapply calm_bind; eassumption. Qed.
  Lemma calm_ret_tt d : calm (ret tt) d (Done tt) (rev (out_lines [])).
  Proof. intros w F C. exists w. split; [reflexivity|]. split; [apply shown_refl|exact F]. Qed.
  Lemma calm_each_line d ls : calm (each_line ls) d (Done tt) (rev (out_lines ls)).
  Proof. induction ls as [|l ls IH]; cbn [each_line]; [apply calm_ret_tt|]. change (l :: ls) with ([l] ++ ls). apply calm_then; [apply calm_line|exact IH]. Qed.
  Lemma calm_keys d ks : exists ls, keys_shown ls ks /\ calm (pretty_keys ks) d (Done tt) (rev (out_lines ls)).
  Proof.
    induction ks as [|k ks (ls & K & C)]; cbn [pretty_keys]; [exists []; split; [constructor|apply calm_ret_tt]|].
    exists ([as_user_key k] ++ [debug_key k] ++ [[]] ++ ls). split; [apply ks_key; [apply commas_listed|exact K]|]. repeat (apply calm_then; [apply calm_line|]). exact C.
  Qed.
  Lemma calm_pretty d o : exists ls, pictured ls o /\ calm (pretty_print o) d (Done tt) (rev (out_lines ls)).
  Proof.
    destruct (calm_keys d (o_keys o)) as (kl & K & C). eexists. split.
    - exists kl, (map hex_encode (display_chunks (o_data o))). split; [exact K|]. split; [apply chunks_dumped; lia|reflexivity].
    - unfold pretty_print. cbn [app]. repeat first [exact C|apply calm_line|apply calm_each_line|match goal with |- calm (_ ;;; _) _ _ (rev (out_lines (?a :: ?b))) => change (a :: b) with ([a] ++ b) end; apply calm_then|apply calm_then].
      unfold value_lines. destruct (debug_cbor (o_data o)) as [t|t]; [apply calm_line|]. change [str "error when deserialising!"; t] with ([str "error when deserialising!"] ++ [t]). apply calm_then; apply calm_line.
  Qed.
  Lemma rd_line (P : event -> Prop) l : P (Printed "raw" [l ++ [nl]]) -> reader P (writeln l).
  Proof. intro H. apply rd_stdout, H. Qed.
  Lemma rd_pretty o : reader anything (pretty_print o).
  Proof.
    assert (L : forall l, reader anything (writeln l)) by (intro l; apply rd_line; exact I).
    assert (K : reader anything (pretty_keys (o_keys o))).
    { induction (o_keys o) as [|k ks IH]; cbn [pretty_keys]; [apply rd_ret|]. repeat (apply rd_bind; [apply L|intros _]). exact IH. }
    assert (D : forall ls, reader anything (each_line ls)).
    { induction ls as [|k ks IH]; cbn [each_line]; [apply rd_ret|]. apply rd_bind; [apply L|intros _]. exact IH. }
    unfold pretty_print. repeat first [apply L|exact K|apply D|apply rd_bind; [|intros _]]. destruct (debug_cbor (o_data o)); repeat first [apply L|apply rd_bind; [|intros _]].
  Qed.
  Lemma pretty_works cm w s w1 ki w2 : reachable w -> starts cm w (Some s) w1 -> run_command cm (Some s) (CPrettyPrint ki) w1 = (Done tt, w2) ->
    exists k o ls, denotes w1 ki k /\ object_at (cur_db w1) (as_db_key k) = Some o /\ pictured ls o /\ says w1 w2 (out_lines ls) /\ untouched w1 w2.
  Proof.
    intros R S H. pose proof (started_ok _ _ _ _ R S) as W. cbn [run_command with_ds] in H. unfold cmd_pretty_print in H.
    apply bind_done in H as (k & v1 & H1 & H). apply canon_done in H1 as [T D]; [|exact W]. apply bind_done in H as (o & v2 & H2 & H).
    apply get_obj_done in H2 as (T2 & b & V & Dc). destruct (calm_pretty (cur_db v2) o) as (ls & P & C). destruct (rd_done _ _ (rd_pretty o) _ _ _ H) as (x & Sh & C' & _).
    destruct (calm_fun _ _ _ _ _ _ C C') as [_ <-]. pose proof (ticked_trans _ _ _ T T2) as T3. exists k, o, ls. split; [exact D|]. split; [unfold object_at; rewrite <- (cur_ticked _ _ T), V; exact Dc|].
    split; [exact P|]. split; [unfold says; rewrite (shown_out _ _ _ Sh), (ticked_out _ _ T3); reflexivity|].
    destruct T3 as (t & f & ->). destruct Sh as (t' & f' & ->). unfold untouched. destruct w1; repeat split; reflexivity.
  Qed.
  Lemma pretty_exactly cm w s w1 ki : reachable w -> starts cm w (Some s) w1 -> w_faults w1 = [] ->
    (exists w2, run_command cm (Some s) (CPrettyPrint ki) w1 = (Done tt, w2)) <-> exists k o, denotes w1 ki k /\ object_at (cur_db w1) (as_db_key k) = Some o.
  Proof.
    intros R S F. split; [intros (w2 & H); destruct (pretty_works _ _ _ _ _ _ R S H) as (k & o & _ & D & O & _); eauto|].
    intros (k & o & D & O). pose proof (started_ok _ _ _ _ R S) as W. cbn [run_command with_ds]. unfold cmd_pretty_print.
    destruct (canon_live ki w1 k W F D) as (v1 & H1 & T1 & F1). unfold bind at 1. rewrite H1. rewrite <- (cur_ticked _ _ T1) in O. destruct (object_get v1 k o F1 O) as (v2 & H2 & F2 & _).
    unfold bind. rewrite H2. destruct (calm_pretty (cur_db v2) o) as (ls & _ & C). destruct (C v2 F2 eq_refl) as (w2 & H & _). eauto.
  Qed.
End PrettyFacts.
