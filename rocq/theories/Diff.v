(** Model of src/diff.rs. *)
From Verif Require Import Base Key Cbor Object Path World Store File Filter Dir.

(** src/diff.rs:9-13 [DiffTarget] *)
Inductive difftarget :=
| TFileSystem (p : path) (excludes : list bytes) (folder : path)
| TDatabase (k : key).
(** src/diff.rs:15-41 *)
Record deleted_result := Deleted { dl_path : path; dl_isdir : bool; dl_key : option key }.
Record modified_result := Modified { md_path : path; md_old : key; md_new : key }.
Record added_result := Added { ad_path : path; ad_isdir : bool; ad_key : option key }.
Record diff_result := DiffResult {
  df_deleted : list deleted_result;
  df_added : list added_result;
  df_modified : list modified_result
}.

(** Derived [Ord]: fields in declaration order. *)
Definition then_cmp (a b : comparison) : comparison := match a with Eq => b | _ => a end.
Definition bool_cmp (a b : bool) : comparison :=
  match a, b with false, true => Lt | true, false => Gt | _, _ => Eq end.
Definition opt_cmp {A} (c : A -> A -> comparison) (a b : option A) : comparison :=
  match a, b with
  | None, None => Eq
  | None, Some _ => Lt
  | Some _, None => Gt
  | Some x, Some y => c x y
  end.
Definition deleted_cmp (a b : deleted_result) : comparison :=
  then_cmp (path_cmp (dl_path a) (dl_path b))
    (then_cmp (bool_cmp (dl_isdir a) (dl_isdir b)) (opt_cmp key_cmp (dl_key a) (dl_key b))).
Definition added_cmp (a b : added_result) : comparison :=
  then_cmp (path_cmp (ad_path a) (ad_path b))
    (then_cmp (bool_cmp (ad_isdir a) (ad_isdir b)) (opt_cmp key_cmp (ad_key a) (ad_key b))).
Definition modified_cmp (a b : modified_result) : comparison :=
  then_cmp (path_cmp (md_path a) (md_path b))
    (then_cmp (key_cmp (md_old a) (md_old b)) (key_cmp (md_new a) (md_new b))).

(** Sorting ([sort_unstable], [sort]): the result is determined up to equal
    elements, so any algorithm will do. *)
Fixpoint sort_ins {A} (cmp : A -> A -> comparison) (x : A) (l : list A) : list A :=
  match l with
  | [] => [x]
  | y :: r => match cmp x y with Gt => y :: sort_ins cmp x r | _ => x :: l end
  end.
Fixpoint sort {A} (cmp : A -> A -> comparison) (l : list A) : list A :=
  match l with
  | [] => []
  | x :: r => sort_ins cmp x (sort cmp r)
  end.

Fixpoint mapM {A B} (f : A -> M B) (l : list A) : M (list B) :=
  match l with
  | [] => ret []
  | x :: r => y <- f x ;; ys <- mapM f r ;; ret (y :: ys)
  end.
(** Indexing a [HashMap]: panics on a missing key. *)
Definition pm_index {A} (m : pmap A) (p : path) : M A :=
  match pm_get m p with Some a => ret a | None => panic_with PIndex end.

(** [Path::display] and [to_string_lossy] *)
Definition display {E : Env} (p : path) : bytes := lossy (path_text p).

Definition sort_added (l : list added_result) := sort added_cmp l.
Definition sort_deleted (l : list deleted_result) := sort deleted_cmp l.
Definition sort_modified (l : list modified_result) := sort modified_cmp l.

(** src/diff.rs:176-209 [simplify] *)
Definition keep_topmost {A} (get : A -> path) (l : list A) : list A :=
  fold_left (fun acc p => if existsb (fun x => starts_with (get p) (get x)) acc then acc else acc ++ [p]) l [].
Definition simplify (r : diff_result) : diff_result :=
  DiffResult (keep_topmost dl_path (df_deleted r)) (keep_topmost ad_path (df_added r)) (df_modified r).

(** src/diff.rs:346-348 [diff_result_empty] *)
Definition diff_result_empty (r : diff_result) : bool :=
  match df_added r, df_deleted r, df_modified r with
  | [], [], [] => true
  | _, _, _ => false
  end.

(** [str::split('\n')] *)
Fixpoint split_nl (cur : bytes) (s : bytes) : list bytes :=
  match s with
  | [] => [rev cur]
  | b :: r => if byte_eqb b "010"%char then rev cur :: split_nl [] r else split_nl (b :: cur) r
  end.
(** [str::lines] *)
Definition strip_cr (l : bytes) : bytes :=
  match rev l with
  | b :: r => if byte_eqb b "013"%char then rev r else l
  | [] => l
  end.
Definition str_lines (s : bytes) : list bytes :=
  let segs := split_nl [] s in
  match rev segs with
  | [] :: r => map strip_cr (rev r)
  | _ => map strip_cr segs
  end.

(** ** src/diff.rs:500-607: hunks of a modified file *)

Inductive dkind := KSame | KAdd | KRem.
(** A line with the line numbers before and after (src/diff.rs:503-547). *)
Record dlineno := DL { dl_before : N; dl_after : N; dl_kind : dkind; dl_text : bytes }.

Fixpoint number_lines (k : dkind) (ls : list bytes) (b a : N) : list dlineno * (N * N) :=
  match ls with
  | [] => ([], (b, a))
  | l :: r =>
      let '(b', a') := match k with
                       | KSame => ((b + 1)%N, (a + 1)%N)
                       | KAdd => (b, (a + 1)%N)
                       | KRem => ((b + 1)%N, a)
                       end in
      let '(out, fin) := number_lines k r b' a' in
      (DL b a k l :: out, fin)
  end.
Fixpoint lines_ln (ds : list difference) (b a : N) : list dlineno :=
  match ds with
  | [] => []
  | d :: r =>
      let '(k, s) := match d with Same s => (KSame, s) | Add s => (KAdd, s) | Rem s => (KRem, s) end in
      let '(out, (b', a')) := number_lines k (split_nl [] s) b a in
      out ++ lines_ln r b' a'
  end.

(** src/diff.rs:354-355 *)
Definition before_context : nat := 3.
Definition after_context : nat := 5.
Definition is_change (d : dlineno) : bool := match dl_kind d with KSame => false | _ => true end.
(** src/diff.rs:549-562: does the window around line [idx] contain a change? *)
Definition window (ls : list dlineno) (idx : nat) : list dlineno :=
  let lo := idx - before_context in
  let hi := Nat.min (idx + after_context) (length ls - 1) in
  firstn (hi + 1 - lo) (skipn lo ls).
Definition flagged (ls : list dlineno) : list (bool * dlineno) :=
  combine (map (fun i => existsb is_change (window ls i)) (seq 0 (length ls))) ls.
(** [group_by]: maximal runs of equal flags. *)
Fixpoint group_runs {A} (l : list (bool * A)) : list (bool * list A) :=
  match l with
  | [] => []
  | (b, x) :: r =>
      match group_runs r with
      | (b', xs) :: gs => if Bool.eqb b b' then (b, x :: xs) :: gs else (b, [x]) :: (b', xs) :: gs
      | [] => [(b, [x])]
      end
  end.
Definition pline_of (d : dlineno) : pline :=
  match dl_kind d with
  | KSame => LContext (dl_text d)
  | KAdd => LAdd (dl_text d)
  | KRem => LRemove (dl_text d)
  end.
(** [u64] subtraction: overflow panics in debug builds. *)
Definition checked_sub (a b : N) : option N := if (b <=? a)%N then Some (a - b)%N else None.
(** src/diff.rs:571-606; [None] is a panic. *)
Definition hunk_of (group : list dlineno) : option hunk :=
  match group, rev group with
  | first :: _, last :: _ =>
      match checked_sub (dl_before last) (dl_before first), checked_sub (dl_after last) (dl_after first) with
      | Some cb, Some ca =>
          Some (Hunk (PRange (dl_before first) cb) (PRange (dl_after first) ca) (map pline_of group))
      | _, _ => None
      end
  | _, _ => None
  end.
Definition hunks_of (ds : list difference) : option (list hunk) :=
  all_some (map (fun '(_, g) => hunk_of g)
              (filter (fun '(b, _) => b) (group_runs (flagged (lines_ln ds 1 1))))).

Section Diff.
  Context {E : Env} (ds : datastore).

  (** src/diff.rs:55-174 [compare].  The cache argument is always present when the
      target is the file system. *)
  Definition compare (from : difftarget) (to : option key) : M diff_result :=
    src <- match from with
           | TFileSystem p excludes folder =>
               f <- make_filter_fn excludes folder ;;
               m <- walk_real_fs_items p f ;;
               ret (inl (p, m))
           | TDatabase k => m <- walk_fs_items ds k ;; ret (inr m)
           end ;;
    to_map <- match to with
              | Some t => walk_fs_items ds t
              | None => ret []
              end ;;
    let from_keys : list path := match src with inl (_, m) => map fst m | inr m => map fst m end in
    let to_keys : list path := map fst to_map in
    let mem (l : list path) (p : path) := existsb (path_eqb p) l in
    (* lines 91-116 *)
    added <- mapM (fun x =>
               match src with
               | inl (_, m) =>
                   isdir <- pm_index m x ;;
                   if (isdir : bool) then ret (Added x true None)
                   else
                     r <- try (hash_fs_item ds x) ;;
                     match r with
                     | Ok h => ret (Added x false (Some h))
                     | Err _ => panic_with PExplicit
                     end
               | inr m => e <- pm_index m x ;; ret (Added x (snd e) (Some (fst e)))
               end)
             (filter (fun x => negb (mem to_keys x)) from_keys) ;;
    (* lines 118-125 *)
    deleted <- mapM (fun x =>
                 e <- pm_index to_map x ;;
                 isdir <- match src with
                          | inl (_, m) => pm_index m x
                          | inr m => e' <- pm_index m x ;; ret (snd e')
                          end ;;
                 ret (Deleted x isdir (Some (fst e))))
               (filter (fun x => negb (mem from_keys x)) to_keys) ;;
    (* lines 127-163 *)
    modified <- mapM (fun x =>
                  f <- match src with
                       | inl (base, m) =>
                           isdir <- pm_index m x ;;
                           if (isdir : bool) then ret None
                           else h <- hash_fs_item ds (join base x) ;; ret (Some h)
                       | inr m => e <- pm_index m x ;; ret (Some (fst e))
                       end ;;
                  match f with
                  | None => ret []
                  | Some k =>
                      t <- pm_index to_map x ;;
                      if key_eqb k (fst t) then ret []
                      else ret [Modified x (fst t) k]
                  end)
                (filter (mem to_keys) from_keys) ;;
    ret (DiffResult (sort_deleted deleted) (sort_added added) (sort_modified (concat modified))).

  (** src/diff.rs:211-241 [print_diff_result] *)
  Fixpoint print_each (tag : string) (l : list path) : M unit :=
    match l with
    | [] => ret tt
    | p :: r => print tag [display p] ;;; print_each tag r
    end.
  Definition key_tag (base : string) (k : option key) : string :=
    match k with Some _ => base | None => String.append base "/" end.
  Fixpoint print_keyed (base : string) (l : list (path * option key)) : M unit :=
    match l with
    | [] => ret tt
    | (p, k) :: r => print (key_tag base k) [display p] ;;; print_keyed base r
    end.
  Definition print_section (title : string) (l : list (path * option key)) : M unit :=
    match l with
    | [] => ret tt
    | _ => print title [] ;;; print_keyed "  " l
    end.
  Definition print_diff_result (r : diff_result) : M unit :=
    let r := simplify r in
    print_section "added:" (map (fun a => (ad_path a, ad_key a)) (df_added r)) ;;;
    print_section "deleted:" (map (fun a => (dl_path a, dl_key a)) (df_deleted r)) ;;;
    print_section "modified:" (map (fun a => (md_path a, Some (md_new a))) (df_modified r)).

  (** [read_data(ds, k, &mut vec).unwrap()] *)
  Definition read_vec (k : key) : M bytes := unwrap (read_data ds vec_write stack k []).

  (** src/diff.rs:337-344 [line_ct] *)
  Definition line_ct (k : key) : M nat :=
    data <- read_vec k ;; ret (length (List.filter (fun b => byte_eqb b "010"%char) data)).

  (** src/diff.rs:260-322 [line_stat] *)
  Record filestat := FileStat { st_name : path; st_added : nat; st_removed : nat }.
  Definition line_stat (r : diff_result) : M (list filestat) :=
    a <- mapM (fun x => match ad_key x with
                        | Some k => n <- line_ct k ;; ret [FileStat (ad_path x) n 0]
                        | None => ret []
                        end) (List.filter (fun x => negb (ad_isdir x)) (df_added r)) ;;
    d <- mapM (fun x => match dl_key x with
                        | Some k => n <- line_ct k ;; ret [FileStat (dl_path x) 0 n]
                        | None => ret []
                        end) (List.filter (fun x => negb (dl_isdir x)) (df_deleted r)) ;;
    m <- mapM (fun x =>
                 before <- read_vec (md_old x) ;;
                 after <- read_vec (md_new x) ;;
                 let ls := diff_lines (lossy before) (lossy after) in
                 let removed := length (List.filter (fun l => match l with DLeft _ => true | _ => false end) ls) in
                 let added := length (List.filter (fun l => match l with DRight _ => true | _ => false end) ls) in
                 ret (FileStat (md_path x) added removed)) (df_modified r) ;;
    ret (concat a ++ concat d ++ m).
  Definition filestat_cmp (a b : filestat) : comparison :=
    then_cmp (path_cmp (st_name a) (st_name b))
      (then_cmp (Nat.compare (st_added a) (st_added b)) (Nat.compare (st_removed a) (st_removed b))).
  (** src/diff.rs:324-335 [print_line_stat] *)
  Fixpoint print_stats (l : list filestat) : M unit :=
    match l with
    | [] => ret tt
    | s :: r =>
        print "stat" [display (st_name s); number (st_added s); number (st_removed s)] ;;;
        print_stats r
    end.
  (** src/diff.rs:243-247 [print_stat_diff_result] *)
  Definition print_stat_diff_result (r : diff_result) : M unit :=
    l <- line_stat r ;; print_stats (sort filestat_cmp l).

  (** src/diff.rs:350-352 [format_patch] *)
  Definition format_patch (p : patch) : bytes := show_patch p ++ ["010"%char].

  (** src/diff.rs:383-421, 437-474: patch of a file that was added or removed. *)
  Definition whole_file_patch (p : path) (data : bytes) (mk : bytes -> pline) (is_add : bool) : patch :=
    let ls := map mk (str_lines data) in
    let full := PRange 0 (lenN ls) in
    let none := PRange 0 0 in
    Patch (display p) (display p) [Hunk (if is_add then none else full) (if is_add then full else none) ls].
  Definition whole_file (isdir : bool) (p : path) (k : option key) (mk : bytes -> pline) (is_add : bool) : M bytes :=
    if isdir then ret []
    else match k with
         | None => ret []
         | Some k =>
             data <- read_vec k ;;
             if utf8_valid data then ret (format_patch (whole_file_patch p data mk is_add))
             else fail EBinary
         end.
  (** src/diff.rs:500-623 [patch_from_file_string] *)
  Definition patch_from_file_string (before after : bytes) (p : path) : M bytes :=
    match hunks_of (changeset before after) with
    | Some hs => ret (format_patch (Patch (display p) (display p) hs))
    | None => panic_with PExplicit
    end.
  (** src/diff.rs:363-498 [create_diff_patch_result] *)
  Definition create_diff_patch_result (r : diff_result) : M bytes :=
    a <- mapM (fun x => whole_file (ad_isdir x) (ad_path x) (ad_key x) LAdd true) (df_added r) ;;
    d <- mapM (fun x => whole_file (dl_isdir x) (dl_path x) (dl_key x) LRemove false) (df_deleted r) ;;
    m <- mapM (fun x =>
                 before <- read_vec (md_old x) ;;
                 after <- read_vec (md_new x) ;;
                 patch_from_file_string (lossy before) (lossy after) (md_path x)) (df_modified r) ;;
    ret (concat a ++ concat d ++ concat m).
  (** src/diff.rs:249-253 [print_patch_diff_result] *)
  Definition print_patch_diff_result (r : diff_result) : M unit :=
    s <- create_diff_patch_result r ;; print "patch" [s].
End Diff.
