(** Facts about World.v: reasoning principles for the monad. *)
From Verif Require Import Base BaseFacts Key Keyish Object Path World.
From Coq Require Import RelationClasses.

Ltac inv H := inversion H; subst; clear H.

(** ** Outcomes *)

(** [rel R m]: whatever happens, the final world is related to the initial one. *)
Definition rel (R : world -> world -> Prop) {A} (m : M A) : Prop := forall w, R w (snd (m w)).
(** [drel R m]: when [m] finishes with a value, the worlds are related. *)
Definition drel (R : world -> world -> Prop) {A} (m : M A) : Prop :=
  forall w a w', m w = (Done a, w') -> R w w'.

Lemma rel_drel R {A} (m : M A) : rel R m -> drel R m.
Proof. intros H w a w' E. specialize (H w). rewrite E in H. exact H. Qed.

Lemma bind_done {A B} (m : M A) (f : A -> M B) w b w' :
  bind m f w = (Done b, w') -> exists a w1, m w = (Done a, w1) /\ f a w1 = (Done b, w').
Proof.
  unfold bind. destruct (m w) as [[a|e|p| |] w1] eqn:E; intro H; try discriminate. eauto.
Qed.
Lemma bind_intro {A B} (m : M A) (f : A -> M B) w a w1 r :
  m w = (Done a, w1) -> f a w1 = r -> bind m f w = r.
Proof. intros H1 H2. unfold bind. rewrite H1. exact H2. Qed.
Lemma bind_assoc {A B C} (m : M A) (f : A -> M B) (g : B -> M C) w :
  bind (bind m f) g w = bind m (fun a => bind (f a) g) w.
Proof. unfold bind. destruct (m w) as [[a|e|p| |] w1]; reflexivity. Qed.
Lemma bind_ext {A B} (m : M A) (f g : A -> M B) w :
  (forall a w', f a w' = g a w') -> bind m f w = bind m g w.
Proof. intro H. unfold bind. destruct (m w) as [[a|e|p| |] w1]; auto. Qed.
Lemma bind_ret_l {A B} (a : A) (f : A -> M B) w : bind (ret a) f w = f a w.
Proof. reflexivity. Qed.
Lemma try_done {A} (m : M A) w r w' :
  try m w = (Done r, w') ->
  (exists a, r = Ok a /\ m w = (Done a, w')) \/ (exists e, r = Err e /\ m w = (Error e, w')).
Proof.
  unfold try. destruct (m w) as [[a|e|p| |] w1] eqn:E; intro H; inv H; eauto.
Qed.
Lemma unwrap_done {A} (m : M A) w a w' : unwrap m w = (Done a, w') -> m w = (Done a, w').
Proof. unfold unwrap. destruct (m w) as [[b|e|p| |] w1] eqn:E; intro H; inv H; auto. Qed.
Lemma ret_done {A} (a b : A) w w' : ret a w = (Done b, w') -> b = a /\ w' = w.
Proof. unfold ret. intro H. inv H. auto. Qed.
Lemma of_option_done {A} e (o : option A) w a w' :
  of_option e o w = (Done a, w') -> o = Some a /\ w' = w.
Proof. destruct o; cbn; intro H; inv H; auto. Qed.
Lemma lift_result_done {A X} (f : X -> error) (r : result A X) w a w' :
  lift_result f r w = (Done a, w') -> r = Ok a /\ w' = w.
Proof. destruct r; cbn; intro H; inv H; auto. Qed.

Section Rel.
  Context (R : world -> world -> Prop) {PO : PreOrder R}.

  Lemma rel_ret {A} (a : A) : rel R (ret a).
  Proof. intro w. cbn. reflexivity. Qed.
  Lemma rel_fail {A} e : rel R (@fail A e).
  Proof. intro w. cbn. reflexivity. Qed.
  Lemma rel_panic {A} p : rel R (@panic_with A p).
  Proof. intro w. cbn. reflexivity. Qed.
  Lemma rel_diverge {A} : rel R (@diverge A).
  Proof. intro w. cbn. reflexivity. Qed.
  Lemma rel_of_option {A} e (o : option A) : rel R (of_option e o).
  Proof. destruct o; [apply rel_ret|apply rel_fail]. Qed.
  Lemma rel_lift_result {A X} f (r : result A X) : rel R (lift_result f r).
  Proof. destruct r; [apply rel_ret|apply rel_fail]. Qed.
  Lemma rel_bind {A B} (m : M A) (f : A -> M B) : rel R m -> (forall a, rel R (f a)) -> rel R (bind m f).
  Proof.
    intros Hm Hf w. specialize (Hm w). unfold bind. destruct (m w) as [[a|e|p| |] w1]; cbn in *; auto.
    specialize (Hf a w1). etransitivity; eauto.
  Qed.
  Lemma rel_try {A} (m : M A) : rel R m -> rel R (try m).
  Proof. intros Hm w. specialize (Hm w). unfold try. destruct (m w) as [[a|e|p| |] w1]; auto. Qed.
  Lemma rel_unwrap {A} (m : M A) : rel R m -> rel R (unwrap m).
  Proof. intros Hm w. specialize (Hm w). unfold unwrap. destruct (m w) as [[a|e|p| |] w1]; auto. Qed.

  Lemma drel_ret {A} (a : A) : drel R (ret a).
  Proof. apply rel_drel, rel_ret. Qed.
  Lemma drel_fail {A} e : drel R (@fail A e).
  Proof. apply rel_drel, rel_fail. Qed.
  Lemma drel_panic {A} p : drel R (@panic_with A p).
  Proof. apply rel_drel, rel_panic. Qed.
  Lemma drel_diverge {A} : drel R (@diverge A).
  Proof. apply rel_drel, rel_diverge. Qed.
  Lemma drel_of_option {A} e (o : option A) : drel R (of_option e o).
  Proof. apply rel_drel, rel_of_option. Qed.
  Lemma drel_lift_result {A X} f (r : result A X) : drel R (lift_result f r).
  Proof. apply rel_drel, rel_lift_result. Qed.
  Lemma drel_bind {A B} (m : M A) (f : A -> M B) : drel R m -> (forall a, drel R (f a)) -> drel R (bind m f).
  Proof.
    intros Hm Hf w b w' H. apply bind_done in H as (a & w1 & H1 & H2).
    etransitivity; [eapply Hm, H1|eapply Hf, H2].
  Qed.
  Lemma drel_unwrap {A} (m : M A) : drel R m -> drel R (unwrap m).
  Proof. intros Hm w a w' H. apply unwrap_done in H. eapply Hm, H. Qed.
  Lemma drel_if {A} (b : bool) (m n : M A) : drel R m -> drel R n -> drel R (if b then m else n).
  Proof. destruct b; auto. Qed.
End Rel.

(** Solves [rel]/[drel] goals by walking over the program; primitive operations
    are looked up in the hint database [rel]. *)
Create HintDb rel.
Ltac rel_step :=
  first
    [ assumption
    | solve [eauto 4 with rel nocore]
    | apply rel_ret; [exact _] | apply rel_fail; [exact _] | apply rel_panic; [exact _]
    | apply rel_diverge; [exact _]
    | apply rel_of_option; [exact _] | apply rel_lift_result; [exact _]
    | apply rel_bind; [exact _| |intro]
    | apply rel_try | apply rel_unwrap
    | apply drel_ret; [exact _] | apply drel_fail; [exact _] | apply drel_panic; [exact _]
    | apply drel_diverge; [exact _]
    | apply drel_of_option; [exact _] | apply drel_lift_result; [exact _]
    | apply drel_bind; [exact _| |intro]
    | apply drel_unwrap
    | match goal with
      | |- rel _ (match ?x with _ => _ end) => destruct x
      | |- drel _ (match ?x with _ => _ end) => destruct x
      | |- rel _ (let _ := _ in _) => cbv zeta
      | |- drel _ (let _ := _ in _) => cbv zeta
      end ].
Ltac rel_tac := repeat rel_step.

(** ** Simplification of the setters *)
Lemma cur_db_set_fs w f : cur_db (set_fs w f) = cur_db w. Proof. reflexivity. Qed.
Lemma cur_db_set_tick w f : cur_db (set_tick w f) = cur_db w. Proof. reflexivity. Qed.
Lemma cur_db_set_faults w f : cur_db (set_faults w f) = cur_db w. Proof. reflexivity. Qed.
Lemma cur_db_set_hashed w f : cur_db (set_hashed w f) = cur_db w. Proof. reflexivity. Qed.

(** ** The fault-free world *)
Definition no_faults (w : world) : Prop := w_faults w = [].

(** ** Location maps *)
Lemma names_eqb_eq a : forall b, names_eqb a b = true <-> a = b.
Proof.
  induction a as [|x a IH]; destruct b as [|y b]; cbn; split; intro H; try congruence; try discriminate.
  - apply andb_true_iff in H as [H1 H2]. apply bytes_eqb_eq in H1. apply IH in H2. congruence.
  - inv H. rewrite bytes_eqb_refl. cbn. apply IH. reflexivity.
Qed.
Lemma names_eqb_refl a : names_eqb a a = true.
Proof. apply names_eqb_eq. reflexivity. Qed.
Lemma names_eqb_neq a b : names_eqb a b = false <-> a <> b.
Proof.
  split; intro H.
  - intro Hab. apply names_eqb_eq in Hab. congruence.
  - destruct (names_eqb a b) eqn:X; [apply names_eqb_eq in X; contradiction|reflexivity].
Qed.
Lemma loc_eq_dec (a b : loc) : {a = b} + {a <> b}.
Proof.
  destruct (names_eqb a b) eqn:E; [left; apply names_eqb_eq, E|right; apply names_eqb_neq, E].
Qed.
Lemma assoc_set_get {A} (f : list (loc * A)) l l' e :
  assoc_loc l' (assoc_set l e f) = if names_eqb l l' then Some e else assoc_loc l' f.
Proof.
  induction f as [|[k x] f IH]; cbn.
  - reflexivity.
  - destruct (names_eqb k l) eqn:E1; cbn.
    + apply names_eqb_eq in E1. subst k. destruct (names_eqb l l') eqn:E2; reflexivity.
    + rewrite IH. destruct (names_eqb k l') eqn:E2; [|reflexivity].
      destruct (names_eqb l l') eqn:E3; [|reflexivity].
      apply names_eqb_eq in E2, E3. subst. rewrite names_eqb_refl in E1. discriminate.
Qed.
Lemma db_at_set dbs l l' d :
  db_at (assoc_set l d dbs) l' = if names_eqb l l' then d else db_at dbs l'.
Proof. unfold db_at. rewrite assoc_set_get. destruct (names_eqb l l'); reflexivity. Qed.
Lemma disk_set_txn w t : disk (set_txn w t) = disk w. Proof. reflexivity. Qed.

(** ** What database statements do *)
Lemma op_unfold {A} (eff : fault -> M A) w :
  exists f r, op eff w = eff f (set_faults (set_tick w (S (w_tick w))) r) /\
    (w_faults w = [] -> f = FOk /\ r = []).
Proof.
  unfold op. cbn. destruct (w_faults w) as [|f r] eqn:E.
  - exists FOk, []. split; auto. f_equal. destruct w; cbn in *. subst. reflexivity.
  - exists f, r. split; auto. discriminate.
Qed.
(** A step of an operation: the worlds differ only in clock and schedule. *)
Definition ticked (w w1 : world) : Prop := exists t r, w1 = set_faults (set_tick w t) r.
Lemma op_case {A} (eff : fault -> M A) w :
  exists f w1, op eff w = eff f w1 /\ ticked w w1.
Proof.
  destruct (op_unfold eff w) as (f & r & H & _). do 2 eexists. split; [exact H|].
  exists (S (w_tick w)), r. reflexivity.
Qed.
Lemma rel_op (R : world -> world -> Prop) {A} (eff : fault -> M A) :
  (forall f w w1, ticked w w1 -> R w (snd (eff f w1))) -> rel R (op eff).
Proof. intros H w. destruct (op_case eff w) as (f & w1 & E & T). rewrite E. apply H, T. Qed.
Lemma drel_op (R : world -> world -> Prop) {A} (eff : fault -> M A) :
  (forall f w w1 a w', ticked w w1 -> eff f w1 = (Done a, w') -> R w w') -> drel R (op eff).
Proof.
  intros H w a w' E. destruct (op_case eff w) as (f & w1 & E2 & T). rewrite E2 in E. eapply H; eauto.
Qed.
