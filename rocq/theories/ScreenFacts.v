(** Facts about the text on the screen. *)
From Coq Require Import RelationClasses.
From Verif Require Import Base BaseFacts Base32 Base32Facts Key KeyFacts Keyish Cbor CborFacts Object ObjectFacts Path World WorldFacts Store File Dir Diff Commit Pretty Screen Main SpecStore StoreCalls SpecRun SpecOut SpecCmd SpecProc SpecCache
  SpecClosure SpecDir SpecDiff SpecPatch SpecShow SpecText SpecShape SpecCheckout SpecPretty SpecScreen Integrity Frame ObjStoreFacts TableFacts FsFacts CompareFacts SnapFacts SpecFile FilePlan ChunkFacts DirPlan DirTree DirTrip DirFacts ShowFacts CheckoutFacts CheckoutCmd FileRun FileFacts InitFacts CmdFacts QueryFacts OutFacts TextFacts ShapeTop SortFacts PrettyFacts LiveRead Reader.

(** ** Numbers *)
Lemma number_app t c : forall acc, number_value acc (t ++ [c]) = match number_value acc t, dec_value c with Some v, Some x => Some (10 * v + x)%N | _, _ => None end.
Proof.
  induction t as [|a t IH]; intro acc; cbn [app number_value].
  - destruct (dec_value c); reflexivity.
  - destruct (dec_value a) as [x|]; [apply IH|reflexivity].
Qed.
Lemma digits_number fuel : forall n, (n < N.of_nat fuel)%N -> number_text (digits fuel n) n.
Proof.
  induction fuel as [|f IH]; intros n L; [lia|]. cbn [digits]. pose proof (N.div_mod n 10 ltac:(lia)) as D. pose proof (N.mod_lt n 10 ltac:(lia)) as M.
  change (byte_of (48 + n mod 10)) with (digit (n mod 10)). destruct (N.ltb_spec n 10) as [S|S].
  - rewrite N.mod_small by exact S. split; [discriminate|]. split; [cbn [app number_value]; rewrite digit_value by exact S; f_equal; lia|].
    intros r Q. injection Q as _ <-. reflexivity.
  - assert (Lq : (n / 10 < N.of_nat f)%N). { pose proof (N.div_lt n 10 ltac:(lia) ltac:(lia)). lia. }
    assert (P : (n / 10 <> 0)%N). { intro Z. rewrite Z in D. lia. }
    destruct (IH _ Lq) as (Ne & V & Z). split; [destruct (digits f (n / 10)); discriminate|]. split.
    + rewrite number_app, V, digit_value by exact M. f_equal. lia.
    + intros r Q. destruct (digits f (n / 10)) as [|a t] eqn:X; [contradiction|]. cbn in Q. injection Q as -> _.
      specialize (Z t eq_refl). subst t. cbn in V. injection V as V. lia.
Qed.
Lemma number_right n : number_text (number n) (N.of_nat n).
Proof. apply digits_number. lia. Qed.
Lemma number_fun t n m : number_text t n -> number_text t m -> n = m.
Proof. intros (_ & A & _) (_ & B & _). congruence. Qed.
Lemma number_no_nl t n : number_text t n -> no_nl t.
Proof. intros (_ & A & _). apply number_in in A. apply (no_nl_incl (str "0123456789")); [not_in|exact A]. Qed.

(** ** Lines *)
Lemma text_app a b : text_of_lines (a ++ b) = text_of_lines a ++ text_of_lines b.
Proof. unfold text_of_lines. rewrite map_app, concat_app. reflexivity. Qed.
Lemma text_inj a : forall b, Forall no_nl a -> Forall no_nl b -> text_of_lines a = text_of_lines b -> a = b.
Proof.
  unfold text_of_lines. induction a as [|x a IH]; intros [|y b] Fa Fb H; [reflexivity| | |]; cbn in H; rewrite <- ?app_assoc in H.
  - destruct y; discriminate.
  - destruct x; discriminate.
  - inversion Fa; inversion Fb; subst. cbn in H. apply cut_line in H as [-> H]; auto. f_equal. auto.
Qed.
Lemma no_nl_app a b : no_nl a -> no_nl b -> no_nl (a ++ b).
Proof. intros A B I. apply in_app_iff in I as [I|I]; auto. Qed.
Ltac no_nl_tac := repeat apply no_nl_app; try (unfold no_nl; not_in).

Lemma log_lines_nl ks ls : log_lines ks ls -> Forall no_nl ls.
Proof. induction 1 as [|k ks n ls N H IH]; constructor; [|exact IH]. apply no_nl_app; [eapply number_no_nl, N|]. apply no_nl_app; [unfold no_nl; not_in|apply user_key_no_nl]. Qed.
Lemma app_tail_inj {A} (a b c d : list A) : length c = length d -> a ++ c = b ++ d -> a = b /\ c = d.
Proof.
  intros L H. assert (La : length a = length b) by (apply (f_equal (@length _)) in H; rewrite !app_length in H; lia).
  revert b La H. induction a as [|x a IH]; intros [|y b] La H; try discriminate; [auto|]. cbn in *. injection H as -> H. apply IH in H as [-> ->]; auto.
Qed.
Lemma log_lines_inj ls : forall ks ks', log_lines ks ls -> log_lines ks' ls -> ks = ks'.
Proof.
  induction ls as [|l ls IH]; intros ks ks' H H'; inversion H as [|k r n rs N T Q1 Q2]; inversion H' as [|k' r' n' rs' N' T' Q1' Q2']; subst; [reflexivity|].
  apply app_tail_inj in Q2' as [_ Q]; [|cbn [length app]; rewrite !as_user_key_length; reflexivity].
  injection Q as Q. apply as_user_key_inj in Q as ->. f_equal. auto.
Qed.
Lemma log_text_inj ks ls ks' ls' : log_lines ks ls -> log_lines ks' ls' -> text_of_lines ls = text_of_lines ls' -> ks = ks'.
Proof. intros H H' Q. apply text_inj in Q as ->; eauto using log_lines_nl, log_lines_inj. Qed.

(** ** Names *)
Lemma slashed_text x : path_text (named x) = slashed x.
Proof.
  unfold path_text, named. cbn [p_abs p_comps app]. induction x as [|n x IH]; [reflexivity|]. destruct x as [|m x]; [reflexivity|].
  change (comps_text (map Normal (n :: m :: x))) with (n ++ "/"%char :: comps_text (map Normal (m :: x))). rewrite IH. reflexivity.
Qed.
Lemma display_named {E : Env} x : display (named x) = lossy (slashed x).
Proof. unfold display. rewrite slashed_text. reflexivity. Qed.
Definition led (r : bytes) : Prop := r = [] \/ exists r', r = "/"%char :: r'.
Lemma cut_name n : forall n' r r', ~ In "/"%char n -> ~ In "/"%char n' -> led r -> led r' -> n ++ r = n' ++ r' -> n = n' /\ r = r'.
Proof.
  induction n as [|c n IH]; intros [|c' n'] r r' N N' L L' H; cbn in H.
  - auto.
  - destruct L as [->|(r1 & ->)]; [discriminate|]. injection H as H _. destruct N'. left. symmetry. exact H.
  - destruct L' as [->|(r1 & ->)]; [discriminate|]. injection H as H _. destruct N. left. exact H.
  - injection H as -> H. apply IH in H as [-> ->]; auto; intro I; [apply N|apply N']; right; exact I.
Qed.
Definition tail_text (b : bool) : bytes := if b then [] else str "/".
Definition rest_text (r : loc) (b : bool) : bytes := match r with [] => tail_text b | _ => "/"%char :: slashed r ++ tail_text b end.
Lemma rest_led r b : led (rest_text r b).
Proof. destruct r as [|n r]; [destruct b; [left; reflexivity|right; exists []; reflexivity]|right; eexists; reflexivity]. Qed.
Lemma slashed_cons n r b : slashed (n :: r) ++ tail_text b = n ++ rest_text r b.
Proof. destruct r as [|m r]; [reflexivity|]. change (slashed (n :: m :: r)) with (n ++ "/"%char :: slashed (m :: r)). rewrite <- app_assoc. reflexivity. Qed.
Lemma name_head n r b : entry_name n -> exists c t, c <> "/"%char /\ slashed (n :: r) ++ tail_text b = c :: t.
Proof. intros (Ne & Ns & _). rewrite slashed_cons. destruct n as [|c n]; [contradiction|]. exists c, (n ++ rest_text r b). split; [|reflexivity]. intros ->. apply Ns. left. reflexivity. Qed.
Lemma slashed_inj x : forall x' b b', Forall entry_name x -> Forall entry_name x' -> slashed x ++ tail_text b = slashed x' ++ tail_text b' -> x = x' /\ b = b'.
Proof.
  induction x as [|n x IH]; intros [|n' x'] b b' Fx Fx' H.
  - destruct b, b'; auto; discriminate.
  - inversion Fx'; subst. destruct (name_head n' x' b') as (c & t & Nc & Q); [assumption|]. rewrite Q in H. destruct b; [discriminate|]. injection H as H _. congruence.
  - inversion Fx; subst. destruct (name_head n x b) as (c & t & Nc & Q); [assumption|]. rewrite Q in H. destruct b'; [discriminate|]. injection H as H _. congruence.
  - inversion Fx as [|? ? Hn Hx]; inversion Fx' as [|? ? Hn' Hx']; subst. rewrite !slashed_cons in H. apply cut_name in H as [-> H]; [|apply Hn|apply Hn'|apply rest_led|apply rest_led].
    destruct x as [|m x], x' as [|m' x'].
    + destruct b, b'; auto; discriminate.
    + exfalso. cbn [rest_text] in H. inversion Hx'; subst. destruct (name_head m' x' b') as (c & t & Nc & Q); [assumption|]. rewrite Q in H. destruct b; discriminate.
    + exfalso. cbn [rest_text] in H. inversion Hx; subst. destruct (name_head m x b) as (c & t & Nc & Q); [assumption|]. rewrite Q in H. destruct b'; discriminate.
    + cbn [rest_text] in H. assert (X : slashed (m :: x) ++ tail_text b = slashed (m' :: x') ++ tail_text b') by congruence. apply IH in X as [Q ->]; auto. split; congruence.
Qed.

(** ** Reports *)
Section Reports.
  Context {E : Env}.
  Lemma entry_inj a b : plain_name (fst a) -> plain_name (fst b) -> entry_text a = entry_text b -> a = b.
  Proof.
    destruct a as [x f], b as [x' f']. cbn [fst]. intros (A & B & _) (A' & B' & _) H. unfold entry_text in H. cbn [fst snd] in H. rewrite B, B' in H.
    apply slashed_inj in H as [-> ->]; auto.
  Qed.
  Lemma entry_nl a : plain_name (fst a) -> no_nl (entry_text a).
  Proof. intros (_ & B & N). unfold entry_text. rewrite B. apply no_nl_app; [exact N|]. destruct (snd a); unfold no_nl; [intros []|not_in]. Qed.
  Lemma entries_inj a : forall b, Forall (fun e => plain_name (fst e)) a -> Forall (fun e => plain_name (fst e)) b -> map entry_text a = map entry_text b -> a = b.
  Proof.
    induction a as [|x a IH]; intros [|y b] Fa Fb H; try discriminate; [reflexivity|]. inversion Fa; inversion Fb; subst. injection H as Q1 Q2.
    f_equal; [apply entry_inj; assumption|apply IH; assumption].
  Qed.
  Definition indent (n : bytes) : bytes := str "  " ++ n.
  Definition unindented (r : list bytes) : Prop := forall l r', r = l :: r' -> forall n, l <> indent n.
  Lemma indent_split a : forall b r r', unindented r -> unindented r' -> map indent a ++ r = map indent b ++ r' -> a = b /\ r = r'.
  Proof.
    induction a as [|x a IH]; intros [|y b] r r' U U' H; cbn [map app] in H.
    - auto.
    - destruct (U _ _ H y eq_refl).
    - destruct (U' _ _ (eq_sym H) x eq_refl).
    - injection H as Q H. apply IH in H as [-> ->]; auto. split; congruence.
  Qed.
  Lemma titled_unindented t names : (forall n, t <> indent n) -> unindented (titled t names).
  Proof. intros H l r Q. destruct names; [discriminate|]. injection Q as <- _. exact H. Qed.
  Lemma report_inj a m a' m' : report_lines a m = report_lines a' m' -> a = a' /\ m = m'.
  Proof.
    unfold report_lines. intro H.
    assert (U : forall l, unindented (titled (str "modified:") l)) by (intro l; apply titled_unindented; intros n Q; discriminate Q).
    assert (X : forall l l', titled (str "modified:") l = titled (str "modified:") l' -> l = l').
    { intros [|x l] [|y l'] Q; try discriminate; [reflexivity|]. unfold titled in Q. injection Q as Q1 Q2. f_equal; [exact Q1|].
      destruct (indent_split l l' [] []) as [-> _]; [intros ? ? Q; discriminate|intros ? ? Q; discriminate|rewrite !app_nil_r; exact Q2|reflexivity]. }
    destruct a as [|x a], a' as [|x' a'].
    - split; [reflexivity|]. apply X, H.
    - exfalso. destruct m; discriminate.
    - exfalso. destruct m'; discriminate.
    - apply (f_equal (@tl _)) in H. change (map indent (x :: a) ++ titled (str "modified:") m = map indent (x' :: a') ++ titled (str "modified:") m') in H.
      apply indent_split in H as [Q H]; auto.
  Qed.
  Lemma report_text_inj A M A' M' : Forall (fun e => plain_name (fst e)) (A ++ A') -> Forall plain_name (M ++ M') ->
    text_of_lines (report_lines (map entry_text A) (map (fun x => entry_text (x, true)) M)) = text_of_lines (report_lines (map entry_text A') (map (fun x => entry_text (x, true)) M')) ->
    A = A' /\ M = M'.
  Proof.
    intros Fa Fm H. apply Forall_app in Fa as [Fa Fa']. apply Forall_app in Fm as [Fm Fm'].
    assert (P : forall l, Forall plain_name l -> Forall (fun e : loc * bool => plain_name (fst e)) (map (fun x => (x, true)) l)).
    { intros l Fl. apply Forall_map. exact Fl. }
    assert (Q : forall l, map (fun x => entry_text (x, true)) l = map entry_text (map (fun x => (x, true)) l)) by (intro l; rewrite map_map; reflexivity).
    assert (T : forall t l, no_nl t -> Forall (fun e => plain_name (fst e)) l -> Forall no_nl (titled t (map entry_text l))).
    { intros t [|e l] N Fl; [constructor|]. cbn [map titled]. constructor; [exact N|]. change (Forall no_nl (map indent (map entry_text (e :: l)))). apply Forall_map, Forall_map.
      eapply Forall_impl; [|exact Fl]. intros e' Pe. apply no_nl_app; [unfold no_nl; not_in|apply entry_nl, Pe]. }
    rewrite !Q in H. apply text_inj in H.
    - apply report_inj in H as [H1 H2]. apply entries_inj in H1 as ->; auto. apply entries_inj in H2; auto. split; [reflexivity|].
      apply (f_equal (map fst)) in H2. rewrite !map_map in H2. cbn [fst] in H2. rewrite !map_id in H2. exact H2.
    - apply Forall_app. split; apply T; auto; unfold no_nl; not_in.
    - apply Forall_app. split; apply T; auto; unfold no_nl; not_in.
  Qed.
End Reports.

(** ** What commands show *)
Section Shown.
  Context {E : Env} {F : Fmt}.
  Notation ds := sqlite_ds.
  Lemma shows_says w w' l : says w w' l -> writes w w' (concat (map render l)).
  Proof. unfold says, writes, screen. intros ->. rewrite rev_app_distr, rev_involutive, map_app, concat_app. reflexivity. Qed.
  Lemma shows_line w w' e l : says w w' [e] -> render e = l ++ [lf] -> writes_lines w w' [l].
  Proof. intros S R. apply shows_says in S. unfold writes_lines. cbn in S |- *. rewrite <- R. exact S. Qed.
  Lemma lines_of_events w w' l ls : says w w' l -> concat (map render l) = text_of_lines ls -> writes_lines w w' ls.
  Proof. intros S R. apply shows_says in S. unfold writes_lines. rewrite <- R. exact S. Qed.
  Lemma text_cons l ls : text_of_lines (l :: ls) = l ++ lf :: text_of_lines ls.
  Proof. unfold text_of_lines. cbn. rewrite <- app_assoc. reflexivity. Qed.

  Lemma entries_text ks : exists ls, log_lines ks ls /\ concat (map render (numbered ks)) = text_of_lines ls.
  Proof.
    induction ks as [|k ks (ls & L & Q)]; [exists []; split; [constructor|reflexivity]|].
    exists ((number (S (length ks)) ++ str ": " ++ as_user_key k) :: ls). split; [constructor; [apply number_right|exact L]|].
    replace (numbered (k :: ks)) with ([Printed "entry" [number (S (length ks)); as_user_key k]] ++ numbered ks) by (unfold numbered; cbn [length]; rewrite seq_S, rev_app_distr; reflexivity).
    rewrite map_app, concat_app, Q, text_cons. cbn [map concat].
    change (render (Printed "entry" [number (S (length ks)); as_user_key k])) with (line [number (S (length ks)); str ": "; as_user_key k]). unfold line. cbn [concat].
    rewrite !app_nil_r, <- !app_assoc. reflexivity.
  Qed.
  Theorem ref_log_shows cm w s w1 r rm w2 : reachable w -> starts cm w (Some s) w1 -> run_command cm (Some s) (CRefLog r rm) w1 = (Done tt, w2) ->
    exists name ls, branch_of r (repo_of (cur_db w1)) name /\ log_lines (history name rm (repo_of (cur_db w1))) ls /\
      writes_lines w1 w2 (str "log entries are printed with most recent at top" :: ls).
  Proof.
    intros R S H. destruct (ref_log_works cm w s w1 r rm w2 R S H) as (name & B & _ & Sy). destruct (entries_text (history name rm (repo_of (cur_db w1)))) as (ls & L & Q).
    exists name, ls. split; [exact B|]. split; [exact L|]. eapply lines_of_events; [exact Sy|]. cbn [map concat]. rewrite Q, text_cons. cbn [render render0].
    change (line [str "log entries are printed with most recent at top"] ++ text_of_lines ls = str "log entries are printed with most recent at top" ++ lf :: text_of_lines ls).
    unfold line. cbn [concat]. rewrite app_nil_r, <- app_assoc. reflexivity.
  Qed.
  Theorem insert_shows cm w s w1 p w2 : reachable w -> starts cm w (Some s) w1 -> fs_ok (w_fs w1) -> run_command cm (Some s) (CInsert p) w1 = (Done tt, w2) ->
    exists k, snapshot w1 (cm_exclude cm) (ds_folder s) p k w2 /\ writes_lines w1 w2 [str "inserted hash " ++ as_user_key k].
  Proof.
    intros R S O H. destruct (insert_works cm w s w1 p w2 R S O H) as (k & Sn & Sy & _). exists k. split; [exact Sn|]. eapply shows_line; [exact Sy|].
    cbn [render render1]. change (line [str "inserted hash "; as_user_key k] = (str "inserted hash " ++ as_user_key k) ++ [lf]). unfold line. cbn [concat]. rewrite app_nil_r. reflexivity.
  Qed.
  Theorem reflog_get_shows cm w s w1 n rm w2 : reachable w -> starts cm w (Some s) w1 -> run_command cm (Some s) (CReflogGet n rm) w1 = (Done tt, w2) ->
    exists k l, history n rm (repo_of (cur_db w1)) = k :: l /\ writes_lines w1 w2 [as_user_key k].
  Proof.
    intros R S H. destruct (reflog_get_works cm w s w1 n rm w2 R S H) as (k & l & Hi & _ & Sy). exists k, l. split; [exact Hi|]. eapply shows_line; [exact Sy|].
    change (line [as_user_key k] = as_user_key k ++ [lf]). unfold line. cbn [concat]. rewrite app_nil_r. reflexivity.
  Qed.
  Theorem get_head_shows cm s w1 w2 : run_command cm (Some s) CGetHead w1 = (Done tt, w2) ->
    writes_lines w1 w2 [str "head: " ++ match rp_head (repo_of (cur_db w1)) with Some n => str "Some(" ++ debug_text n ++ str ")" | None => str "None" end].
  Proof.
    intro H. destruct (get_head_works cm s w1 w2 H) as [_ Sy]. eapply shows_line; [exact Sy|]. destruct (rp_head _) as [n|]; [|reflexivity].
    change (line [str "head: Some("; debug_text n; str ")"] = (str "head: " ++ str "Some(" ++ debug_text n ++ str ")") ++ [lf]). unfold line. cbn [concat].
    change (str "head: Some(") with (str "head: " ++ str "Some("). rewrite app_nil_r, <- !app_assoc. reflexivity.
  Qed.
  Theorem pretty_shows cm w s w1 ki w2 : reachable w -> starts cm w (Some s) w1 -> run_command cm (Some s) (CPrettyPrint ki) w1 = (Done tt, w2) ->
    exists k o ls, denotes w1 ki k /\ object_at (cur_db w1) (as_db_key k) = Some o /\ pictured ls o /\ writes_lines w1 w2 ls.
  Proof.
    intros R S H. destruct (pretty_works cm w s w1 ki w2 R S H) as (k & o & ls & D & O & P & Sy & _). exists k, o, ls. repeat (split; [assumption|]). eapply lines_of_events; [exact Sy|].
    unfold out_lines, text_of_lines. rewrite map_map. f_equal.
  Qed.

  (** *** Reports *)
  Lemma listing_text (t : string) (A : list (loc * bool)) : In t ["added:"%string; "modified:"%string] -> concat (map render (listing t (map (fun '(x, file) => (named x, file)) A))) = text_of_lines (titled (str t) (map entry_text A)).
  Proof.
    intro I. destruct A as [|e A]; [reflexivity|].
    assert (X : forall B : list (loc * bool), concat (map render (map (fun '(p, plain) => Printed (if plain : bool then "  "%string else "  /"%string) [display p]) (map (fun '(x, file) => (named x, file)) B))) =
      text_of_lines (map (fun n => str "  " ++ n) (map entry_text B))).
    { induction B as [|[x file] B IH]; [reflexivity|]. cbn [map concat]. rewrite IH, text_cons. cbn [render]. rewrite display_named. unfold entry_text. cbn [fst snd]. destruct file.
      - change (line [str "  "; lossy (slashed x)] ++ text_of_lines (map (fun n => str "  " ++ n) (map entry_text B)) = (str "  " ++ lossy (slashed x) ++ []) ++ lf :: text_of_lines (map (fun n => str "  " ++ n) (map entry_text B))).
        unfold line. cbn [concat]. rewrite <- !app_assoc. reflexivity.
      - change (line [str "  "; lossy (slashed x); str "/"] ++ text_of_lines (map (fun n => str "  " ++ n) (map entry_text B)) = (str "  " ++ lossy (slashed x) ++ str "/") ++ lf :: text_of_lines (map (fun n => str "  " ++ n) (map entry_text B))).
        unfold line. cbn [concat]. rewrite <- !app_assoc. reflexivity. }
    specialize (X (e :: A)). unfold listing. cbn [map] in X |- *. destruct e as [x file]. cbn [map concat] in X |- *. unfold titled. cbn [map].
    rewrite text_cons. cbn [map] in X. rewrite <- X. destruct I as [<-|[<-|[]]]; reflexivity.
  Qed.
  Lemma report_text A M : concat (map render (report_lists A M)) = text_of_lines (report_lines (map entry_text A) (map (fun x => entry_text (x, true)) M)).
  Proof.
    unfold report_lists, report, report_lines. rewrite !map_app, !concat_app, text_app. cbn [map listing concat app]. f_equal; [apply listing_text; left; reflexivity|].
    replace (map (fun x => (named x, true)) M) with (map (fun '(x, file) => (named x, file)) (map (fun x => (x, true)) M)) by (rewrite map_map; reflexivity).
    rewrite listing_text by (right; left; reflexivity). rewrite map_map. reflexivity.
  Qed.
  Theorem status_shows cm w s w1 w2 : reachable w -> starts cm w (Some s) w1 -> steady_reads -> in_order w1 ->
    (forall t, head_tree w1 (Some t) -> tidy w1 t) -> run_command cm (Some s) CStatus w1 = (Done tt, w2) ->
    exists name, rp_head (repo_of (cur_db w1)) = Some name /\
      ((exists k l c A M, history name None (repo_of (cur_db w1)) = k :: l /\ reads_commit w1 k c /\
          differences (cm_exclude cm) (ds_folder s) (ds_repo s) w1 (Some (c_tree c)) (w_hashed w2) A M /\
          writes_lines w1 w2 ((str "HEAD: " ++ name ++ str " [" ++ firstn 8 (as_user_key k) ++ str "]") :: report_lines (map entry_text A) (map (fun x => entry_text (x, true)) M))) \/
       (history name None (repo_of (cur_db w1)) = [] \/ ~ no_errors w1) /\ writes_lines w1 w2 [str "HEAD: " ++ name ++ str " (no commits on " ++ name ++ str ")"]).
  Proof.
    intros R S St O T H. destruct (status_works cm w s w1 w2 R S St O T H) as (name & Hn & [(k & l & c & A & M & Hi & Rc & D & Sy)|[Hi Sy]]); exists name; (split; [exact Hn|]).
    - left. exists k, l, c, A, M. repeat (split; [assumption|]). eapply lines_of_events; [exact Sy|]. cbn [map concat]. rewrite report_text, text_cons.
      change (render (Printed "HEAD:" [name; firstn 8 (as_user_key k)])) with (line [str "HEAD: "; name; str " ["; firstn 8 (as_user_key k); str "]"]). unfold line. cbn [concat]. rewrite <- !app_assoc. reflexivity.
    - right. split; [exact Hi|]. eapply shows_line; [exact Sy|].
      change (render (Printed "HEAD (no commits):" [name; name])) with (line [str "HEAD: "; name; str " (no commits on "; name; str ")"]). unfold line. cbn [concat]. rewrite <- !app_assoc. reflexivity.
  Qed.
  Theorem compare_shows cm w s w1 p k w2 : reachable w -> starts cm w (Some s) w1 -> steady_reads -> in_order w1 ->
    (forall t, compared_to w1 k t -> tidy w1 t) -> run_command cm (Some s) (CCompare p k false) w1 = (Done tt, w2) ->
    exists t A M, compared_to w1 k t /\
      differences (cm_exclude cm) (ds_folder s) (match p with Some q => q | None => ds_repo s end) w1 (Some t) (w_hashed w2) A M /\
      writes_lines w1 w2 (report_lines (map entry_text A) (map (fun x => entry_text (x, true)) M)).
  Proof.
    intros R S St O T H. destruct (compare_works cm w s w1 p k w2 R S St O T H) as (t & A & M & C & D & Sy). exists t, A, M. repeat (split; [assumption|]).
    eapply lines_of_events; [exact Sy|apply report_text].
  Qed.
  Lemma stat_line x a r : exists l, stat_spelt x (N.of_nat a) (N.of_nat r) l /\ render (Printed "stat" [x; number a; number r]) = l ++ [lf].
  Proof.
    exists (x ++ str "  +" ++ number a ++ str " -" ++ number r). split; [exists (number a), (number r); auto using number_right|].
    change (render (Printed "stat" [x; number a; number r])) with (line [x; str "  +"; number a; str " -"; number r]). unfold line. cbn [concat]. rewrite app_nil_r, <- !app_assoc. reflexivity.
  Qed.
  Lemma stat_lines {A} (f : A -> event) (P : A -> bytes -> Prop) l : (forall a, exists t, P a t /\ render (f a) = t ++ [lf]) ->
    exists ls, Forall2 P l ls /\ concat (map render (map f l)) = text_of_lines ls.
  Proof.
    intro H. induction l as [|a l (ls & Fl & Q)]; [exists []; split; [constructor|reflexivity]|]. destruct (H a) as (t & Pt & R). exists (t :: ls). split; [constructor; assumption|].
    cbn [map concat]. rewrite R, Q, text_cons, <- app_assoc. reflexivity.
  Qed.
  Theorem compare_stat_shows cm w s w1 p k w2 : reachable w -> starts cm w (Some s) w1 -> steady_reads -> in_order w1 ->
    (forall t, compared_to w1 k t -> tidy w1 t) -> run_command cm (Some s) (CCompare p k true) w1 = (Done tt, w2) ->
    exists t l ls, compared_to w1 k t /\
      stat_differences (cm_exclude cm) (ds_folder s) (match p with Some q => q | None => ds_repo s end) w1 t w2 l /\
      Forall2 (fun f => stat_spelt (display (st_name f)) (N.of_nat (st_added f)) (N.of_nat (st_removed f))) l ls /\ writes_lines w1 w2 ls.
  Proof.
    intros R S St O T H. destruct (compare_stat_works cm w s w1 p k w2 R S St O T H) as (t & l & C & D & Sy).
    destruct (stat_lines stat_event (fun f => stat_spelt (display (st_name f)) (N.of_nat (st_added f)) (N.of_nat (st_removed f))) l) as (ls & Fl & Q); [intro f; apply stat_line|].
    exists t, l, ls. repeat (split; [assumption|]). eapply lines_of_events; eassumption.
  Qed.

  (** *** Commits *)
  Lemma commit_summary w k c t : is_commit w k c -> commit_text w KStat k c t ->
    exists ls, summary w k ls /\ concat (map render (t ++ [Printed "" []; Printed "" []])) = text_of_lines ls.
  Proof.
    intros Ic (old & body & B & (S & L & Qb) & ->).
    destruct (stat_lines (fun e : loc * (nat * nat) => Printed "stat" [display (named (fst e)); number (fst (snd e)); number (snd (snd e))])
      (fun e => stat_spelt (lossy (slashed (fst e))) (N.of_nat (fst (snd e))) (N.of_nat (snd (snd e)))) S) as (ls & Fl & Q).
    { intros (x & a & r). cbn [fst snd]. rewrite display_named. apply stat_line. }
    eexists. split; [exists c, old, S, ls; repeat (split; [eassumption|]); reflexivity|].
    assert (Qb' : body = map (fun e : loc * (nat * nat) => Printed "stat" [display (named (fst e)); number (fst (snd e)); number (snd (snd e))]) S).
    { rewrite Qb. apply map_ext. intros (x & a & r). reflexivity. }
    rewrite Qb'. cbn [app]. cbn [map concat]. rewrite map_app, concat_app, Q, !text_cons, text_app.
    change (render (Printed "commit" [as_user_key k])) with (line [str "commit: "; as_user_key k]).
    change (render (Printed "" [])) with [lf].
    change (render (Printed "message" [at_message (c_attrs c)])) with (line [at_message (c_attrs c)]). unfold line. cbn [concat map]. change (render (Printed "" [])) with [lf]. rewrite !app_nil_r, <- !app_assoc. reflexivity.
  Qed.
  Theorem log_shows cm w s w1 k w2 : well_used w -> starts cm w (Some s) w1 -> no_coll (w_hashed w1) ->
    run_command cm (Some s) (CLog k) w1 = (Done tt, w2) ->
    exists key l blocks, asked_for w1 k key /\ lineage w1 key l /\ Forall2 (summary w1) l blocks /\ writes_lines w1 w2 (concat blocks).
  Proof.
    intros U S NC H. destruct (log_prints_all cm w s w1 k w2 U S NC H) as (key & l & t & A & L & (ls & Fl & ->) & Sy & _).
    assert (X : exists blocks, Forall2 (summary w1) l blocks /\ concat (map render (concat (map (fun t => t ++ [Printed "" []; Printed "" []]) ls))) = text_of_lines (concat blocks)).
    { clear - Fl. induction Fl as [|k t ks ls (c & Ic & Ct) Fl (bl & Fb & Q)]; [exists []; split; [constructor|reflexivity]|].
      destruct (commit_summary _ _ _ _ Ic Ct) as (b & Sb & Qb). exists (b :: bl). split; [constructor; assumption|].
      cbn [map concat]. rewrite map_app, concat_app, Q, Qb, text_app. reflexivity. }
    destruct X as (bl & Fb & Q). exists key, l, bl. repeat (split; [assumption|]). eapply lines_of_events; eassumption.
  Qed.

  (** *** Bytes *)
  Lemma read_any f1 : forall f2 k s w1 w2 s1 s2 w1' w2', cur_db w1 = cur_db w2 ->
    read_data ds vec_write f1 k s w1 = (Done s1, w1') -> read_data ds vec_write f2 k s w2 = (Done s2, w2') ->
    s1 = s2 /\ cur_db w1' = cur_db w1 /\ cur_db w2' = cur_db w2.
  Proof.
    induction f1 as [|f IH]; intros [|f2] k s w1 w2 s1 s2 w1' w2' C R1 R2; try discriminate. cbn [read_data] in R1, R2.
    apply bind_done in R1 as (o1 & u1 & G1 & R1). apply bind_done in R2 as (o2 & u2 & G2 & R2).
    apply get_obj_done in G1 as (T1 & v1 & A1 & D1). apply get_obj_done in G2 as (T2 & v2 & A2 & D2).
    rewrite C in A1. rewrite A1 in A2. inv A2. rewrite D1 in D2. inv D2.
    apply cur_ticked in T1. apply cur_ticked in T2. rewrite <- T1, <- T2 in C. rewrite <- T1, <- T2. clear T1 T2.
    assert (EA : forall l s u1 u2, cur_db u1 = cur_db u2 -> forall s1 s2 w1' w2', each vec_write f l s u1 = (Done s1, w1') -> each vec_write f2 l s u2 = (Done s2, w2') ->
      s1 = s2 /\ cur_db w1' = cur_db u1 /\ cur_db w2' = cur_db u2).
    { clear -IH. induction l as [|k l IHl]; intros s u1 u2 C s1 s2 w1' w2' R1 R2; cbn [each] in *.
      - apply ret_done in R1 as [-> ->]. apply ret_done in R2 as [-> ->]. auto.
      - apply bind_done in R1 as (a1 & v1 & A1 & R1). apply bind_done in R2 as (a2 & v2 & A2 & R2).
        destruct (IH _ _ _ _ _ _ _ _ _ C A1 A2) as (-> & C1 & C2).
        destruct (IHl a2 v1 v2 ltac:(congruence) _ _ _ _ R1 R2) as (-> & C3 & C4). repeat split; congruence. }
    destruct (o_type o2); try discriminate.
    - eapply EA; eassumption.
    - apply ret_done in R1 as [-> ->]. apply ret_done in R2 as [-> ->]. auto.
    - destruct (o_keys o2) as [|k' [|]]; try discriminate. eapply IH; eassumption.
  Qed.
  Lemma object_bytes w kd k l : object_text w kd k l -> forall fuel c, fst (read_data ds vec_write fuel k [] (set_faults w [])) = Done c -> concat (map render l) = c.
  Proof.
    assert (G : forall k o, reads_as w k (Done o) -> exists u, get_obj ds k (set_faults w []) = (Done o, u) /\ cur_db u = cur_db w /\ w_faults u = []).
    { intros k0 o Ro. apply reads_object in Ro. destruct (object_get (set_faults w []) k0 o eq_refl Ro) as (u & G & Fu & Cu). exists u. auto. }
    induction 1 as [k c0 l (o & Ro & Ty & _) _|k o Ro Ty|k o k' l Ro Ty Ky Ot IH|k o pieces Ro Ty St]; intros fuel c R.
    - exfalso. destruct fuel as [|f]; [discriminate|]. cbn [read_data] in R. destruct (G _ _ Ro) as (u & Gu & _). unfold bind in R. rewrite Gu, Ty in R. discriminate.
    - exfalso. destruct fuel as [|f]; [discriminate|]. cbn [read_data] in R. destruct (G _ _ Ro) as (u & Gu & _). unfold bind in R. rewrite Gu, Ty in R. discriminate.
    - destruct fuel as [|f]; [discriminate|]. cbn [read_data] in R. destruct (G _ _ Ro) as (u & Gu & Cu & Fu). unfold bind in R. rewrite Gu, Ty, Ky in R.
      apply (IH f). destruct (read_sim f k' [] u (set_faults w []) (eq_sym Cu) Fu eq_refl) as (r & v & v2 & R1 & R2 & _). rewrite R1 in R. rewrite R2. exact R.
    - assert (Q : concat (map render (map (fun d => Printed "raw" [d]) pieces)) = concat pieces) by (rewrite map_map; f_equal; apply map_id).
      rewrite Q. specialize (St (set_faults w []) eq_refl eq_refl).
      destruct (read_data ds vec_write stack k [] (set_faults w [])) as [r1 v1] eqn:R1. destruct (read_data ds vec_write fuel k [] (set_faults w [])) as [r2 v2] eqn:R2.
      cbn [fst] in *. subst. refine (proj1 (read_any _ _ _ _ _ _ _ _ _ _ _ R1 R2)). reflexivity.
  Qed.
  Theorem show_file cm w s w1 ki k w2 c : well_used w -> starts cm w (Some s) w1 -> no_coll (w_hashed w1) -> denotes w1 ki k ->
    points (cur_db w1) Item k -> file_at w1 k [] c -> run_command cm (Some s) (CShow (Some ki)) w1 = (Done tt, w2) -> writes w1 w2 c.
  Proof.
    intros U S NC D P Fa H. destruct (show_text cm w s w1 (Some ki) w2 U S NC H) as (k' & l & A & Ot & Sy & _). cbn [asked_for] in A. pose proof (denotes_fun _ _ _ _ A D) as ->.
    apply shows_says in Sy. replace c with (concat (map render l)); [exact Sy|]. destruct Fa as (k1 & i & h & rest & K & It & Ty & Ch & n & Y). assert (k1 = k') as -> by (inversion K; reflexivity).
    destruct P as (o & Oo & Ro). pose proof (started_shaped _ _ _ _ U S NC) as (Sh & _).
    destruct (assoc (as_db_key k') (d_data (cur_db w1))) as [v|] eqn:V; [|unfold object_at in Oo; rewrite V in Oo; discriminate].
    destruct (Sh _ _ (assoc_In _ _ _ V)) as (o' & Oo' & Wf). assert (o' = o) as -> by congruence. apply reads_object in Oo as Rd.
    destruct It as (o1 & R1 & F1). pose proof (reads_fun _ _ _ _ Rd R1) as <-. unfold well_formed in Wf.
    destruct Ro as [Ft|Ft]; rewrite Ft in Wf.
    - destruct Wf as (size & k2 & Ky & _ & Fs). rewrite Fs in F1. injection F1 as <-. cbn in Ch. injection Ch as -> <-.
      eapply (object_bytes _ _ _ _ Ot (Datatypes.S n)). cbn [read_data]. destruct (object_get (set_faults w1 []) k' o eq_refl Oo) as (u & G & Fu & Cu). unfold bind. rewrite G, Ft, Ky.
      destruct (read_sim n h [] u (set_faults w1 []) (eq_sym Cu) Fu eq_refl) as (r & v1 & v2 & Q1 & Q2 & _). rewrite Q1. specialize (Y n (le_n n)). rewrite Q2 in Y. exact Y.
    - destruct Wf as (ns & ks & _ & _ & Fs & _). rewrite Fs in F1. injection F1 as <-. discriminate.
  Qed.
  Lemma snapshot_points w0 ex fo p k w : snapshot w0 ex fo p k w -> no_coll (w_hashed w) -> points (cur_db w) Item k.
  Proof.
    intros (fuel & w1 & S & O & P & R & I) NC. apply working_ok in S. assert (NC1 : no_coll (w_hashed w1)) by (eapply no_coll_incl; eauto).
    apply put_dir in P as (e & t & objs & St & Sh & Pt & _ & Ho & _); auto.
    assert (Ho2 : forall o, In o objs -> holds w o) by (intros o Io; eapply still_holds; eauto).
    apply (ptr_stored (fun reads h => exists bs, den objs 5 h bs)) in Pt; [|eapply shows_sized; eauto|].
    2: { intros objs' reads h Ic Pd. apply pdata_readable in Pd as [bs D]. exists bs. eapply den_mono; [apply le_n|exact Ic|exact D]. }
    destruct t as [size reads|kids].
    - destruct Pt as (h' & o & S1 & S2 & S3 & S4 & -> & _). exists o. split; [apply reads_object, holds_reads, Ho2, S4|]. left. unfold object_of_fsitem in S1. destruct (forallb utf8_valid _); [|discriminate]. injection S1 as <-. reflexivity.
    - apply stored_dir in Pt as (ks' & o & S1 & S2 & S3 & -> & _). exists o. split; [apply reads_object, holds_reads, Ho2, S3|]. right. unfold object_of_fsitem in S1. destruct (forallb utf8_valid _); [|discriminate]. injection S1 as <-. reflexivity.
  Qed.
  Theorem show_stored cm w s w1 ki k w2 w0 ex fo p c : well_used w -> starts cm w (Some s) w1 -> no_coll (w_hashed w1) -> denotes w1 ki k ->
    snapshot w0 ex fo p k w1 -> content (w_fs w0) (locate (w_cwd w0) p) = Some c -> keeps_data c ->
    run_command cm (Some s) (CShow (Some ki)) w1 = (Done tt, w2) -> writes w1 w2 c.
  Proof.
    intros U S NC D Sn C K H. eapply show_file; eauto using snapshot_points.
    pose proof (snapshot_files _ _ _ _ _ _ Sn NC) as X. cbv zeta in X. refine (proj2 (proj2 (X _ []) c) _).
    - intros r c' t Q. destruct r as [|n r]; [rewrite app_nil_r in Q; assert (c' = c) as -> by congruence; apply K|].
      exfalso. destruct Sn as (_ & _ & _ & O & _). unfold content in *. destruct (lookup (w_fs w0) (locate (w_cwd w0) p ++ n :: r)) as [e|] eqn:L2; [|discriminate].
      apply fs_ok_parent in L2; [|exact O|discriminate]. rewrite L2 in C. discriminate.
    - rewrite app_nil_r. split; [exact C|]. intros r1 r2 Q Ne. destruct r1; [contradiction|discriminate].
  Qed.

  (** *** Trees and commits *)
  #[local] Existing Instances silent_pre silent_Quiet silent_Put.
  Theorem walk_tree_writes cm w s w1 ki w2 : reachable w -> starts cm w (Some s) w1 -> (forall k, denotes w1 ki k -> tidy w1 k) ->
    run_command cm (Some s) (CWalkTree ki) w1 = (Done tt, w2) ->
    exists k (m : list (loc * (key * bool))) ls, denotes w1 ki k /\ NoDup (map fst m) /\ (forall x k' d, In (x, (k', d)) m <-> in_tree w1 k x k' d) /\
      Forall2 (fun e => tree_line (fst e) (fst (snd e)) (snd (snd e))) m ls /\ writes_lines w1 w2 ls.
  Proof.
    intros R S T H. destruct (walk_tree_works cm w s w1 ki w2 R S T H) as (k & m & D & N & I & _ & Sy).
    assert (X : exists m' : list (loc * (key * bool)), m = map (fun e => (named (fst e), snd e)) m').
    { assert (J : forall e, In e m -> exists x, fst e = named x) by (intros [q [k' d]] Ie; apply I in Ie as (x & -> & _); exists x; reflexivity). clear - J.
      induction m as [|e m IH]; [exists []; reflexivity|]. destruct (J e (or_introl eq_refl)) as [x Qx]. destruct IH as [m' Qm]; [intros e' Ie; apply J; right; exact Ie|].
      exists ((x, snd e) :: m'). cbn [map fst snd]. rewrite <- Qx, <- Qm. destruct e; reflexivity. }
    destruct X as [m' ->].
    destruct (stat_lines (fun e : loc * (key * bool) => item_event (named (fst e), snd e)) (fun e => tree_line (fst e) (fst (snd e)) (snd (snd e))) m') as (ls & Fl & Q).
    { intros (x & k' & d). cbn [fst snd]. exists (str "(" ++ debug_text (slashed x) ++ str ", (Blake3B([" ++ comma_separated (map decimal (hash_bytes k')) ++ str "]), " ++ (if d then str "true" else str "false") ++ str "))").
      split; [eexists; split; [apply commas_listed|reflexivity]|]. unfold item_event. rewrite slashed_text.
      match goal with |- render (Printed "item" [?a; ?b; ?c]) = _ => change (line [str "("; debug_text a; str ", (Blake3B(["; comma_separated (map decimal (tl b)); str "]), "; c; str "))"] =
        (str "(" ++ debug_text a ++ str ", (Blake3B([" ++ comma_separated (map decimal (tl b)) ++ str "]), " ++ c ++ str "))") ++ [lf]) end.
      unfold line. cbn [concat]. rewrite app_nil_r, <- !app_assoc. reflexivity. }
    exists k, m', ls. split; [exact D|]. rewrite map_map in N. cbn [fst] in N. split.
    { clear - N. rewrite <- (map_map fst named) in N. eapply NoDup_map_inv, N. }
    split.
    { intros x k' d. split.
      - intro Ie. apply (in_map (fun e => (named (fst e), snd e))) in Ie. cbn [fst snd] in Ie. apply I in Ie as (x' & Qx & It). apply named_eq in Qx as ->. exact It.
      - intro It. assert (Ie : In (named x, (k', d)) (map (fun e => (named (fst e), snd e)) m')) by (apply I; eauto). apply in_map_iff in Ie as ((x' & k1 & d1) & Qe & Ie). cbn [fst snd] in Qe.
        injection Qe as Qx <- <-. assert (x' = x) as <- by (apply named_eq; unfold named; f_equal; exact Qx). exact Ie. }
    split; [exact Fl|]. eapply lines_of_events; [exact Sy|]. rewrite <- Q, !map_map. reflexivity.
  Qed.
  Lemma canons_keys l : forall w ks w', world_ok w -> mapM (canonicalize ds) l w = (Done ks, w') -> Forall2 (denotes w) l ks /\ ticked w w'.
  Proof.
    induction l as [|x l IH]; intros w ks w' W H; cbn [mapM] in H.
    - apply ret_done in H as [-> ->]. split; [constructor|apply ticked_refl].
    - apply bind_done in H as (k & v & Hk & H). apply OutFacts.canon_done in Hk as [Tk D]; [|exact W]. apply bind_done in H as (ks' & v' & H' & H). apply ret_done in H as [-> ->].
      apply IH in H' as [Fl T']; [|exact (ok_ticked _ _ Tk W)]. split; [|eapply ticked_trans; eassumption]. constructor; [exact D|]. eapply Forall2_impl'; [|exact Fl].
      intros a b Da. eapply denotes_cur; [symmetry; apply cur_ticked, Tk|exact Da].
  Qed.
  Lemma default_fits : attrs_fits (Attrs [] []).
  Proof. split; [reflexivity|]. split; [reflexivity|]. apply wf_map. split; [reflexivity|constructor]. Qed.
  Lemma key_line k : render (Printed "" [as_user_key k]) = as_user_key k ++ [lf].
  Proof. change (render (Printed "" [as_user_key k])) with (line [as_user_key k]). unfold line. cbn [concat]. rewrite app_nil_r. reflexivity. Qed.
  Lemma commit_tree_stores t l v k v' : commit_tree ds t l attrs_default v = (Done k, v') -> stores v v' /\ w_out v' = w_out v.
  Proof.
    rewrite commit_tree_eq. generalize (object_of_commit (Commit t (sort key_cmp l) attrs_default)). intros o H. split; [eapply stores_put, H|].
    pose proof (rel_put_obj silent o v) as Y. rewrite H in Y. apply Y.
  Qed.
  Lemma commit_tree_is t l v k v' : world_ok v -> no_coll (w_hashed v') -> commit_tree ds t l attrs_default v = (Done k, v') -> is_commit v' k (Commit t (sort key_cmp l) (Attrs [] [])).
  Proof. intros W NC H. exact (commit_tree_done _ _ _ _ _ _ W NC default_fits H). Qed.
  Lemma commit_cur w w' k c : cur_db w' = cur_db w -> is_commit w k c -> is_commit w' k c.
  Proof. intros Cu (o & Ro & Ty & Co). exists o. split; [|auto]. apply reads_object. rewrite Cu. apply reads_object, Ro. Qed.
  Theorem commit_tree_makes cm w s w1 t ps w2 : reachable w -> starts cm w (Some s) w1 -> run_command cm (Some s) (CCommitTree t ps) w1 = (Done tt, w2) -> no_coll (w_hashed w2) ->
    exists kt ks ps' k, denotes w1 t kt /\ Forall2 (denotes w1) ps ks /\ Permutation.Permutation ks ps' /\ Sorted.StronglySorted (fun a b => key_cmp a b <> Gt) ps' /\
      is_commit w2 k (Commit kt ps' (Attrs [] [])) /\ writes_lines w1 w2 [as_user_key k] /\ adds_objects (cur_db w1) (cur_db w2) /\ w_fs w2 = w_fs w1.
  Proof.
    intros R St H NC. pose proof (started_ok _ _ _ _ R St) as W. cbn [run_command with_ds] in H. unfold cmd_commit_tree in H.
    apply bind_done in H as (kt & v & Hk & H). apply OutFacts.canon_done in Hk as [Tk D]; [|exact W]. apply bind_done in H as (ks & v2 & Hs & H).
    destruct (canons_keys _ _ _ _ (ok_ticked _ _ Tk W) Hs) as [Fl T2]. apply bind_done in H as (k & v3 & Hc & H).
    assert (T : ticked w1 v2) by (eapply ticked_trans; eassumption). pose proof (stores_ticked _ _ T) as S1.
    destruct (commit_tree_stores _ _ _ _ _ Hc) as [S2 Oc]. apply printed in H as [Al Op]. pose proof (alike_cur _ _ Al) as Cu. destruct Al as (Af & Ac & _ & _ & _ & _ & _ & Ah).
    rewrite Ah in NC. pose proof (commit_tree_is _ _ _ _ _ (ok_ticked _ _ T W) NC Hc) as Ic. apply (commit_cur _ w2) in Ic; [|exact Cu].
    exists kt, ks, (sort key_cmp ks), k. split; [exact D|]. split.
    { eapply Forall2_impl'; [|exact Fl]. intros a b Da. eapply denotes_cur; [symmetry; apply cur_ticked, Tk|exact Da]. }
    split; [apply sort_perm|]. split; [apply sort_keys_sorted|]. split; [exact Ic|]. split.
    { apply (shows_line _ _ (Printed "" [as_user_key k])); [|apply key_line]. unfold says. rewrite Op, Oc, (ticked_out _ _ T). reflexivity. }
    destruct S1 as (A1 & _ & F1 & _), S2 as (A2 & _ & F2 & _). split; [rewrite Cu; etransitivity; eassumption|congruence].
  Qed.
End Shown.
