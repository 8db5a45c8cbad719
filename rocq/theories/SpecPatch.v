(** What summaries and patches of a comparison (src/diff.rs) are supposed to say. *)
From Verif Require Import Base Key Cbor Object Path World Store File Dir Diff SpecDiff.

(** [a] is a proper ancestor of [b]. *)
Definition inside (a b : loc) : Prop := exists n s, b = a ++ n :: s.
(** [m] is obtained from [l] by leaving out elements. *)
Inductive sublist {A} : list A -> list A -> Prop :=
| sub_nil : sublist [] []
| sub_keep x m l : sublist m l -> sublist (x :: m) (x :: l)
| sub_drop x m l : sublist m l -> sublist m (x :: l).

(** The lines of a line diff, in order. *)
Definition diff_plines (ds : list difference) : list pline :=
  flat_map (fun d => match d with
                     | Same s => map LContext (split_nl [] s)
                     | Add s => map LAdd (split_nl [] s)
                     | Rem s => map LRemove (split_nl [] s)
                     end) ds.
Definition changed (l : pline) : bool := match l with LContext _ => false | _ => true end.
(** Lines of the old and of the new file. *)
Definition of_old (l : pline) : bool := match l with LAdd _ => false | _ => true end.
Definition of_new (l : pline) : bool := match l with LRemove _ => false | _ => true end.
Definition countb {A} (p : A -> bool) (l : list A) : N := lenN (filter p l).
(** A line near a change: at most 3 lines after or 5 lines before one. *)
Definition near (ls : list pline) (i : nat) : Prop :=
  exists j l, nth_error ls j = Some l /\ changed l = true /\ j <= i + 5 /\ i <= j + 3.
(** The lines [a], ..., [b-1]. *)
Definition slice {A} (a b : nat) (l : list A) : list A := firstn (b - a) (skipn a l).
(** Intervals that are not empty, not adjacent, in order, within [n]. *)
Fixpoint separated (from n : nat) (ivs : list (nat * nat)) : Prop :=
  match ivs with
  | [] => True
  | (a, b) :: r => from <= a /\ a < b /\ b <= n /\ separated (S b) n r
  end.
(** The line numbers a header should have (1 is the first line). *)
Definition right_range (p : pline -> bool) (ls : list pline) (a b : nat) (r : prange) : Prop :=
  pr_start r = (1 + countb p (firstn a ls))%N /\ pr_count r = countb p (slice a b ls).
(** The line numbers it has. *)
Definition actual_range (p : pline -> bool) (ls : list pline) (a b : nat) (r : prange) : Prop :=
  pr_start r = (1 + countb p (firstn a ls))%N /\ pr_count r = countb p (slice a (b - 1) ls).
(** A hunk made of the lines [a], ..., [b-1], with the header it has. *)
Definition hunk_at (ls : list pline) (iv : nat * nat) (h : hunk) : Prop :=
  h_lines h = slice (fst iv) (snd iv) ls /\ actual_range of_old ls (fst iv) (snd iv) (h_old h) /\ actual_range of_new ls (fst iv) (snd iv) (h_new h).

(** ** Line statistics and listings (src/diff.rs:243-347, src/display.rs) *)
Section Stats.
  Context {E : Env}.
  (** The data stored under [k]: what reading it gives when nothing fails. *)
  Definition stored_bytes (w : world) (k : key) (d : bytes) : Prop :=
    forall w', w_faults w' = [] -> cur_db w' = cur_db w -> fst (read_data sqlite_ds vec_write stack k [] w') = Done d.
  Definition newlines (d : bytes) : nat := count_occ Ascii.ascii_dec d "010"%char.
  (** Lines of the line diff that are in one of the files only. *)
  Fixpoint only_old (l : list dline) : nat :=
    match l with [] => 0 | DLeft _ :: r => S (only_old r) | _ :: r => only_old r end.
  Fixpoint only_new (l : list dline) : nat :=
    match l with [] => 0 | DRight _ :: r => S (only_new r) | _ :: r => only_new r end.
  Definition added_stat (w : world) (a : added_result) (s : filestat) : Prop :=
    exists k d, ad_key a = Some k /\ stored_bytes w k d /\ s = FileStat (ad_path a) (newlines d) 0.
  Definition deleted_stat (w : world) (a : deleted_result) (s : filestat) : Prop :=
    exists k d, dl_key a = Some k /\ stored_bytes w k d /\ s = FileStat (dl_path a) 0 (newlines d).
  Definition modified_stat (w : world) (m : modified_result) (s : filestat) : Prop :=
    exists b a, stored_bytes w (md_old m) b /\ stored_bytes w (md_new m) a /\
      s = FileStat (md_path m) (only_new (diff_lines (lossy b) (lossy a))) (only_old (diff_lines (lossy b) (lossy a))).
  (** The added and the deleted files. *)
  Definition added_files (r : diff_result) : list added_result := filter (fun a => negb (ad_isdir a) && match ad_key a with Some _ => true | None => false end) (df_added r).
  Definition deleted_files (r : diff_result) : list deleted_result := filter (fun a => negb (dl_isdir a) && match dl_key a with Some _ => true | None => false end) (df_deleted r).
  (** How one of them is printed. *)
  Definition stat_event (s : filestat) : event :=
    Printed "stat" [display (st_name s); number (st_added s); number (st_removed s)].
End Stats.
