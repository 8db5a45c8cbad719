(** Boolean checks of hypotheses, used by the examples. *)
From Verif Require Import Base BaseFacts Key Cbor Object Path World WorldFacts Store File Filter Dir SpecRun SpecFile SpecDir SpecCache TableFacts ObjStoreFacts FileRun FsFacts.

Definition byte_dec : forall a b : byte, {a = b} + {a <> b} := ascii_dec.
Definition name_dec : forall a b : name, {a = b} + {a <> b} := list_eq_dec byte_dec.
Definition loc_dec : forall a b : loc, {a = b} + {a <> b} := list_eq_dec name_dec.
Fixpoint nodupb {A} (dec : forall a b : A, {a = b} + {a <> b}) (l : list A) : bool :=
  match l with [] => true | x :: r => negb (if in_dec dec x r then true else false) && nodupb dec r end.
Lemma nodupb_ok {A} (dec : forall a b : A, {a = b} + {a <> b}) l : nodupb dec l = true -> NoDup l.
Proof.
  induction l as [|x r IH]; cbn [nodupb]; intro H; constructor; apply andb_prop in H as [H1 H2]; auto.
  destruct (in_dec dec x r); [discriminate|assumption].
Qed.
Definition entry_nameb (n : name) : bool :=
  negb (if name_dec n [] then true else false) && negb (if in_dec byte_dec "/"%char n then true else false) &&
  negb (if name_dec n (str ".") then true else false) && negb (if name_dec n (str "..") then true else false).
Lemma entry_nameb_ok n : entry_nameb n = true -> entry_name n.
Proof.
  unfold entry_nameb, entry_name. destruct (name_dec n []), (in_dec byte_dec "/"%char n), (name_dec n (str ".")), (name_dec n (str "..")); cbn; intro; try discriminate; auto.
Qed.
Definition fs_okb (f : fs) : bool :=
  nodupb loc_dec (map fst f) &&
  forallb (fun x => negb (if loc_dec (fst x) [] then true else false) && forallb entry_nameb (fst x) && is_dir f (removelast (fst x))) f.
Lemma fs_okb_ok f : fs_okb f = true -> fs_ok f.
Proof.
  unfold fs_okb. intro H. apply andb_prop in H as [H1 H2]. split; [eapply nodupb_ok, H1|]. intros l e I. rewrite forallb_forall in H2.
  apply H2 in I. cbn [fst] in I. apply andb_prop in I as [I I3]. apply andb_prop in I as [I1 I2]. split; [destruct (loc_dec l []); [discriminate|assumption]|].
  split; [|exact I3]. apply Forall_forall. intros n J. rewrite forallb_forall in I2. apply entry_nameb_ok, I2, J.
Qed.
(** The log has no collisions. *)
Definition logb {E : Env} (l : list bytes) : bool := nodupb (list_eq_dec byte_dec) (map (fun x => arr (blake3 x)) (nodup (list_eq_dec byte_dec) l)).
Lemma logb_ok {E : Env} l : logb l = true -> no_coll l.
Proof.
  unfold logb. intro H. apply nodupb_ok in H. rewrite <- (map_map blake3 arr) in H. apply NoDup_map_inv in H. apply no_coll_nodup in H.
  intros a b Ia Ib Q. apply H; [apply nodup_In, Ia|apply nodup_In, Ib|exact Q].
Qed.
(** Files have triples that fit, and different ones. *)
Definition tripleb (c : cachekey) : bool :=
  (ck_inode c <? 2 ^ 64)%N && (ck_size c <? 2 ^ 64)%N && (- 2 ^ 63 <=? ck_mtime c)%Z && (ck_mtime c <? 2 ^ 63)%Z.
Lemma tripleb_ok c : tripleb c = true -> triple_ok c.
Proof.
  unfold tripleb, triple_ok. intro H. repeat (apply andb_prop in H as [H ?]). apply N.ltb_lt in H. 
  match goal with X : (ck_size c <? _)%N = true |- _ => apply N.ltb_lt in X end.
  match goal with X : (_ <=? _)%Z = true |- _ => apply Z.leb_le in X end. match goal with X : (_ <? _)%Z = true |- _ => apply Z.ltb_lt in X end. auto.
Qed.
Fixpoint triples (f : fs) : list (cachekey * bytes) :=
  match f with [] => [] | (_, EFile c st) :: r => (triple c st, c) :: triples r | _ :: r => triples r end.
Lemma triples_in f l c st : In (l, EFile c st) f -> In (triple c st, c) (triples f).
Proof.
  induction f as [|[l' e] r IH]; intros H; [destruct H|]. destruct H as [H|H]; [injection H as -> ->; left; reflexivity|]. apply IH in H. destruct e; cbn [triples]; try right; assumption.
Qed.
Definition triples_okb (f : fs) : bool :=
  forallb (fun x => tripleb (fst x)) (triples f) &&
  forallb (fun x => forallb (fun y => negb (same_triple (fst x) (fst y)) || (if list_eq_dec byte_dec (snd x) (snd y) then true else false)) (triples f)) (triples f).
Lemma triples_okb_ok f : triples_okb f = true -> triples_ok f.
Proof.
  unfold triples_okb. intro H. apply andb_prop in H as [H1 H2]. rewrite forallb_forall in H1, H2. split.
  - intros l c st L. destruct l; [discriminate L|]. apply assoc_loc_in, triples_in, H1 in L. apply tripleb_ok, L.
  - intros l c st l' c' st' L L' Q. destruct l; [discriminate L|]. destruct l'; [discriminate L'|]. apply assoc_loc_in, triples_in in L, L'. apply H2 in L. rewrite forallb_forall in L. apply L in L'.
    cbn [fst snd] in L'. rewrite Q in L'. unfold same_triple in L'. rewrite !N.eqb_refl, Z.eqb_refl in L'. cbn [negb andb orb] in L'.
    destruct (list_eq_dec byte_dec c c'); [assumption|discriminate].
Qed.
Definition bytes_dec : forall a b : bytes, {a = b} + {a <> b} := list_eq_dec byte_dec.
Definition keptb (w w' : world) : bool :=
  forallb (fun x => match assoc (fst x) (d_data (cur_db w')) with Some v => if bytes_dec v (snd x) then true else false | None => false end) (d_data (cur_db w)) &&
  forallb (fun x => if in_dec bytes_dec x (w_hashed w') then true else false) (w_hashed w).
Lemma keptb_ok w w' : keptb w w' = true -> still_stored w w' /\ incl (w_hashed w) (w_hashed w').
Proof.
  unfold keptb. intro H. apply andb_prop in H as [H1 H2]. rewrite forallb_forall in H1, H2. split.
  - intros k v A. apply assoc_In in A. apply H1 in A. cbn [fst snd] in A. destruct (assoc k _); [|discriminate]. destruct (bytes_dec _ _) as [->|]; [reflexivity|discriminate].
  - intros x I. apply H2 in I. destruct (in_dec bytes_dec x _); [assumption|discriminate].
Qed.
