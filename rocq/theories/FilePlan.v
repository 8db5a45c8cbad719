(** [put_data] only ever puts objects; its control flow does not depend on the
    store.  This file separates the two: a plan is the list of objects put and the
    outcome. *)
From Verif Require Import Base BaseFacts Key KeyFacts Object World Store WorldFacts File ObjStoreFacts.

Section Plan.
  Context {E : Env}.

  Definition plan (A : Type) : Type := list object * outcome A.
  Definition pret {A} (a : A) : plan A := ([], Done a).
  Definition pbind {A B} (p : plan A) (f : A -> plan B) : plan B :=
    match p with
    | (l, Done a) => let '(l', r) := f a in (l ++ l', r)
    | (l, Error e) => (l, Error e)
    | (l, Panicked x) => (l, Panicked x)
    | (l, Crashed) => (l, Crashed)
    | (l, Diverged) => (l, Diverged)
    end.
  Definition pput (o : object) : plan key :=
    if obj_fits o then ([o], Done (obj_key o)) else ([], Panicked PCapacity).
  Definition pstop {A} (r : outcome A) : plan A := ([], r).

  Fixpoint exec (ds : datastore) (l : list object) : M unit :=
    match l with
    | [] => ret tt
    | o :: r => put_obj ds o ;;; exec ds r
    end.
  Definition out {A} (r : outcome A) : M A := fun w => (r, w).
  (** The computation does what the plan says. *)
  Definition follows (ds : datastore) {A} (m : M A) (p : plan A) : Prop :=
    forall w, m w = bind (exec ds (fst p)) (fun _ => out (snd p)) w.

  Lemma exec_app ds a b w : exec ds (a ++ b) w = bind (exec ds a) (fun _ => exec ds b) w.
  Proof.
    revert w. induction a as [|o a IH]; intro w; cbn [app exec]; [reflexivity|].
    rewrite (bind_assoc (put_obj ds o)). apply bind_ext. intros _ w'. apply IH.
  Qed.
  Lemma follows_ret ds {A} (a : A) : follows ds (ret a) (pret a).
  Proof. intro w. reflexivity. Qed.
  Lemma follows_stop ds {A} (m : M A) r : (forall w, m w = (r, w)) -> follows ds m (pstop r).
  Proof. intros H w. rewrite H. reflexivity. Qed.
  Lemma follows_put ds o : follows ds (put_obj ds o) (pput o).
  Proof.
    intro w. unfold pput. destruct (obj_fits o) eqn:F; cbn [fst snd exec].
    - rewrite bind_assoc. unfold bind at 1. destruct (put_obj ds o w) as [[k| | | |] w1] eqn:P; try reflexivity.
      apply put_obj_key in P as [-> _]. reflexivity.
    - unfold put_obj. rewrite F. reflexivity.
  Qed.
  Lemma follows_bind ds {A B} (m : M A) p (f : A -> M B) g :
    follows ds m p -> (forall a, follows ds (f a) (g a)) -> follows ds (bind m f) (pbind p g).
  Proof.
    intros H K w. unfold bind at 1. rewrite H. destruct p as [l r]. unfold pbind. cbn [fst snd].
    destruct r as [a|e|x| |]; cbn [fst snd];
      try (unfold bind; destruct (exec ds l w) as [[| | | |] w1]; reflexivity).
    pose proof (K a) as Ka. destruct (g a) as [l' r']. cbn [fst snd] in *.
    unfold bind. rewrite exec_app. unfold bind.
    destruct (exec ds l w) as [[| | | |] w1]; try reflexivity. unfold out at 1. rewrite Ka. reflexivity.
  Qed.

  (** *** Plans of the functions of src/file.rs *)
  Definition ptree (keys : list key) : plan key := pput (Object [] keys FileBlobTree).
  Definition pblob (data : bytes) : plan key := pput (Object data [] FileBlob).
  Fixpoint pcascade (offsets : list nat) (zeros : N) (kb : key_bufs) : plan key_bufs :=
    match offsets with
    | [] => pret kb
    | o :: r =>
        if (blob_zero_count + (N.of_nat o + 1) * per_level_count <? zeros)%N || Nat.leb level_max (length (kb_get kb o))
        then pbind (ptree (kb_get kb o)) (fun k => pcascade r zeros (kb_push (kb_set kb o []) (o + 1) k))
        else pret kb
    end.
  Definition pcut (st : pd_state) (boundary : nat) : plan pd_state :=
    if Nat.ltb (length (pd_buf st)) boundary then pstop (Panicked PIndex)
    else
      let cur := pd_cur st ++ firstn boundary (pd_buf st) in
      let buf := skipn boundary (pd_buf st) in
      let zeros := leading_zeros (pd_hash st) in
      if negb ((blob_zero_count <=? zeros)%N || Nat.eqb boundary chunk_max) then pstop (Panicked PAssert)
      else if Nat.leb chunk_max (length cur) then
        pbind (pblob cur) (fun k =>
          pbind (pcascade [0; 1; 2; 3] zeros (kb_push (pd_kb st) 0 k)) (fun kb =>
            pret (PD kb buf [] (pd_hash st))))
      else pret (PD (pd_kb st) buf cur (pd_hash st)).
  Fixpoint ploop (fuel : nat) (st : pd_state) (reads : list readres) : plan pd_state :=
    match fuel with
    | O => pstop Diverged
    | S f =>
        let '(hasher_match, h) := next_match (pd_hash st) (pd_buf st) blob_zero_count_bitmask in
        let st := PD (pd_kb st) (pd_buf st) (pd_cur st) h in
        let m := if Nat.ltb chunk_max (length (pd_buf st)) then Some chunk_max else hasher_match in
        match m with
        | Some boundary => pbind (pcut st boundary) (fun st' => ploop f st' reads)
        | None =>
            let cur := pd_cur st ++ pd_buf st in
            match reads with
            | [] => pret (PD (pd_kb st) [] cur h)
            | RData [] :: _ => pret (PD (pd_kb st) [] cur h)
            | RData d :: r => ploop f (PD (pd_kb st) d cur h) r
            | RInterrupted :: r => ploop f (PD (pd_kb st) [] cur h) r
            | RError :: _ => pstop (Error EIo)
            end
        end
    end.
  Fixpoint pfold (offsets : list nat) (kb : key_bufs) : plan (option key * key_bufs) :=
    match offsets with
    | [] => pret (None, kb)
    | o :: r =>
        pbind (ptree (kb_get kb o)) (fun k =>
          match kb_get kb o with
          | [k0] =>
              if forallb (fun x => match kb_get kb x with [] => true | _ => false end)
                         (seq (1 + o) (4 - (1 + o)))
              then pret (Some k0, kb)
              else pfold r (kb_push kb (o + 1) k)
          | _ => pfold r (kb_push kb (o + 1) k)
          end)
    end.
  Definition pfinish (st : pd_state) : plan key :=
    let cur := pd_cur st ++ pd_buf st in
    if forallb (fun x => match kb_get (pd_kb st) x with [] => true | _ => false end) [0; 1; 2; 3]
    then pblob cur
    else
      pbind (match cur with
             | [] => pret (pd_kb st)
             | _ => pbind (pblob cur) (fun k => pret (kb_push (pd_kb st) 0 k))
             end) (fun kb =>
      pbind (pfold [0; 1; 2; 3] kb) (fun r =>
        match r with
        | (Some k, _) => pret k
        | (None, kb') => ptree (kb_get kb' 4)
        end)).
  Definition pdata (reads : list readres) : plan key :=
    pbind (ploop (reads_weight reads) pd_init reads) pfinish.

  Lemma follows_cascade ds l : forall z kb, follows ds (cascade ds l z kb) (pcascade l z kb).
  Proof.
    induction l as [|o l IH]; intros z kb; cbn [cascade pcascade]; [apply follows_ret|].
    destruct (_ || _); [|apply follows_ret]. apply follows_bind; [apply follows_put|intro; apply IH].
  Qed.
  Lemma follows_cut ds st b : follows ds (cut ds st b) (pcut st b).
  Proof.
    unfold cut, pcut. destruct (Nat.ltb _ _); [apply follows_stop; reflexivity|]. cbv zeta.
    destruct (negb _); [apply follows_stop; reflexivity|]. destruct (Nat.leb _ _); [|apply follows_ret].
    apply follows_bind; [apply follows_put|intro k]. apply follows_bind; [apply follows_cascade|intro]. apply follows_ret.
  Qed.
  Lemma follows_loop ds f : forall st reads, follows ds (pd_loop ds f st reads) (ploop f st reads).
  Proof.
    induction f as [|f IH]; intros st reads; cbn [pd_loop ploop]; [apply follows_stop; reflexivity|].
    destruct (next_match _ _ _) as [hm h]. cbv zeta.
    match goal with |- context [match ?x with Some _ => _ | None => _ end] => destruct x as [b|] end.
    - apply follows_bind; [apply follows_cut|intro; apply IH].
    - destruct reads as [|[[|x d]| |] r]; try apply follows_ret; try apply IH. apply follows_stop. reflexivity.
  Qed.
  Lemma follows_fold ds l : forall kb, follows ds (fold_levels ds l kb) (pfold l kb).
  Proof.
    induction l as [|o l IH]; intro kb; cbn [fold_levels pfold]; [apply follows_ret|].
    apply follows_bind; [apply follows_put|intro k]. destruct (kb_get kb o) as [|k0 [|]]; try apply IH.
    destruct (forallb _ _); [apply follows_ret|apply IH].
  Qed.
  Lemma follows_finish ds st : follows ds (pd_finish ds st) (pfinish st).
  Proof.
    unfold pd_finish, pfinish. cbv zeta. destruct (forallb _ _); [apply follows_put|].
    apply follows_bind.
    - destruct (pd_cur st ++ pd_buf st); [apply follows_ret|]. apply follows_bind; [apply follows_put|intro; apply follows_ret].
    - intro kb. apply follows_bind; [apply follows_fold|]. intros [[k|] kb']; [apply follows_ret|apply follows_put].
  Qed.
  Lemma follows_data ds reads : follows ds (put_data ds reads) (pdata reads).
  Proof. apply follows_bind; [apply follows_loop|intro; apply follows_finish]. Qed.
End Plan.
