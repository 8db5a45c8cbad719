(** Model of src/dir.rs. *)
From Verif Require Import Base Key Object Path World Store File.

(** [HashMap<PathBuf, A>] as an association list without duplicate paths; the
    iteration order of a [HashMap] is unspecified, the model uses list order. *)
Definition pmap (A : Type) := list (path * A).
Fixpoint pm_get {A} (m : pmap A) (p : path) : option A :=
  match m with
  | [] => None
  | (q, a) :: r => if path_eqb q p then Some a else pm_get r p
  end.
Fixpoint pm_insert {A} (m : pmap A) (p : path) (a : A) : pmap A :=
  match m with
  | [] => [(p, a)]
  | (q, b) :: r => if path_eqb q p then (q, a) :: r else (q, b) :: pm_insert r p a
  end.
(** [HashMap::extend] *)
Definition pm_extend {A} (m : pmap A) (l : pmap A) : pmap A :=
  fold_left (fun acc '(p, a) => pm_insert acc p a) l m.

(** src/dir.rs:309, 331: the hard-wired prefix. *)
Definition blessed : path := parse_path (str "/home/jess/src/snapcd/repo").

Section Dir.
  Context {E : Env} (ds : datastore).

  Definition dir_item (names : list name) (kids : list key) : fsitem :=
    FSItem (wrap64 (lenN kids)) ItDir names kids.
  Definition file_item (size : N) (data : key) : fsitem := FSItem size ItFile [] [data].

  (** src/dir.rs:115-117, 134-136, 197-199 *)
  Definition put_item (i : fsitem) : M key :=
    o <- of_option EEncode (object_of_fsitem i) ;; put_obj ds o.

  (** src/dir.rs:81-140 [put_fs_item] *)
  Fixpoint put_fs_item (fuel : nat) (p : path) (filter : path -> M bool) : M key :=
    match fuel with
    | O => diverge
    | S f =>
        meta <- fs_metadata p ;;
        match meta with
        | MDir =>
            entries <- fs_read_dir p ;;
            let '(names, err) := entries in
            kids <- (fix each (l : list name) : M (list (name * key)) :=
                       match l with
                       | [] => ret []
                       | n :: r =>
                           keep <- filter (path_push p n) ;;
                           if (keep : bool) then
                             k <- put_fs_item f (path_push p n) filter ;;
                             rest <- each r ;;
                             ret ((n, k) :: rest)
                           else each r
                       end) names ;;
            if (err : bool) then fail EIo
            else put_item (dir_item (map fst kids) (map snd kids))
        | MFile size _ =>
            opened <- fs_open_read p ;;
            let '(_, _, reads) := opened in
            h <- put_data ds reads ;;
            put_item (file_item size h)
        | MOther => panic_with PUnimplemented
        end
    end.

  (** src/dir.rs:163-215 [hash_fs_item].  Opening the file and [fstat] on it are
      one operation. *)
  Definition hash_fs_item (p : path) : M key :=
    meta <- fs_metadata p ;;
    match meta with
    | MFile size _ =>
        opened <- fs_open_read p ;;
        let '(st, fsize, reads) := opened in
        let ck := CacheKey (s_inode st) (s_mtime st) fsize in
        cached <- cache_get ck ;;
        match cached with
        | Some h => ret h
        | None =>
            h <- put_data ds reads ;;
            k <- put_item (file_item size h) ;;
            try (cache_put ck k) ;;;
            ret k
        end
    | _ => fail ENonFile
    end.

  (** src/dir.rs:237-239, 288-290, 363-365 *)
  Definition get_fsitem (k : key) : M fsitem :=
    obj <- get_obj ds k ;; of_option EDecode (fsitem_of_object obj).

  (** src/dir.rs:257, 333: indexing and reading a file's data into a handle. *)
  Definition write_item_data (fuel : nat) (i : fsitem) (l : loc) : M unit :=
    match fi_children i with
    | [] => panic_with PIndex
    | c :: _ => read_data ds (file_write l) fuel c tt
    end.

  (** src/dir.rs:232-262 [get_fs_item] *)
  Fixpoint get_fs_item (fuel : nat) (k : key) (p : path) : M unit :=
    match fuel with
    | O => diverge
    | S f =>
        item <- get_fsitem k ;;
        match fi_type item with
        | ItDir =>
            (fix each (l : list (key * name)) : M unit :=
               match l with
               | [] => ret tt
               | (c, n) :: r => get_fs_item f c (join_name p n) ;;; each r
               end) (combine (fi_children item) (fi_names item))
        | ItFile =>
            match parent p with
            | Some d => fs_create_dir_all d
            | None => ret tt
            end ;;;
            l <- fs_create_new p ;;
            write_item_data f item l
        end
    end.

  (** src/dir.rs:298-304: names of the entries that pass the filter. *)
  Fixpoint filter_names (p : path) (filter : path -> M bool) (l : list name) : M (list name) :=
    match l with
    | [] => ret []
    | n :: r =>
        keep <- filter (path_push p n) ;;
        rest <- filter_names p filter r ;;
        ret (if (keep : bool) then n :: rest else rest)
    end.
  (** src/dir.rs:294, 306: the entries not named in the stored directory. *)
  Definition name_stored (names : list name) (n : name) : bool :=
    existsb (fun m => path_eqb (parse_path m) (path_push path_empty n)) names.
  (** src/dir.rs:308-320 *)
  Fixpoint remove_extra (p : path) (l : list name) : M unit :=
    match l with
    | [] => ret tt
    | n :: r =>
        if starts_with p blessed then
          let q := path_push p n in
          meta <- fs_metadata q ;;
          match meta with
          | MDir => fs_remove_dir_all q
          | MFile _ _ => fs_remove_file q
          | MOther => ret tt
          end ;;;
          remove_extra p r
        else panic_with PAssert
    end.

  (** src/dir.rs:282-338 [checkout_fs_item].  [metadata] follows symbolic links, so
      the [is_symlink] branch (lines 317-319) is never taken. *)
  Fixpoint checkout_fs_item (fuel : nat) (k : key) (p : path) (filter : path -> M bool) : M unit :=
    match fuel with
    | O => diverge
    | S f =>
        item <- get_fsitem k ;;
        match fi_type item with
        | ItDir =>
            entries <- fs_read_dir p ;;
            let '(names, err) := entries in
            fs_items <- filter_names p filter names ;;
            (if (err : bool) then fail EIo else ret tt) ;;;
            remove_extra p (List.filter (fun n => negb (name_stored (fi_names item) n)) fs_items) ;;;
            (fix each (l : list (key * name)) : M unit :=
               match l with
               | [] => ret tt
               | (c, n) :: r =>
                   fs_create_dir_all p ;;;
                   checkout_fs_item f c (join_name p n) filter ;;;
                   each r
               end) (combine (fi_children item) (fi_names item))
        | ItFile =>
            l <- fs_create p ;;
            (if starts_with p blessed then ret tt else panic_with PAssert) ;;;
            write_item_data f item l
        end
    end.

  (** src/dir.rs:356-385 [internal_walk_fs_items] *)
  Fixpoint internal_walk_fs_items (fuel : nat) (k : key) (p : path) : M (pmap (key * bool)) :=
    match fuel with
    | O => diverge
    | S f =>
        item <- get_fsitem k ;;
        match fi_type item with
        | ItDir =>
            let start := if is_empty_path p then [] else [(p, (k, true))] in
            (fix each (l : list (key * name)) (acc : pmap (key * bool)) : M (pmap (key * bool)) :=
               match l with
               | [] => ret acc
               | (c, n) :: r =>
                   sub <- internal_walk_fs_items f c (join_name p n) ;;
                   each r (pm_extend acc sub)
               end) (combine (fi_children item) (fi_names item)) start
        | ItFile => ret [(p, (k, false))]
        end
    end.
  (** src/dir.rs:349-354 [walk_fs_items] *)
  Definition walk_fs_items (k : key) : M (pmap (key * bool)) :=
    internal_walk_fs_items stack k path_empty.
End Dir.

Section RealWalk.
  Context {E : Env}.
  (** src/dir.rs:403-444 [internal_walk_real_fs_items] *)
  Fixpoint internal_walk_real_fs_items (fuel : nat) (base p : path) (filter : path -> M bool)
    : M (pmap bool) :=
    match fuel with
    | O => diverge
    | S f =>
        let curr := join base p in
        meta <- fs_metadata curr ;;
        match meta with
        | MDir =>
            entries <- fs_read_dir curr ;;
            let '(names, err) := entries in
            let start := if is_empty_path p then [] else [(p, true)] in
            m <- (fix each (l : list name) (acc : pmap bool) : M (pmap bool) :=
                    match l with
                    | [] => ret acc
                    | n :: r =>
                        keep <- filter (path_push curr n) ;;
                        if (keep : bool) then
                          sub <- internal_walk_real_fs_items f base (path_push p n) filter ;;
                          each r (pm_extend acc sub)
                        else each r acc
                    end) names start ;;
            if (err : bool) then fail EIo else ret m
        | MFile _ _ => ret [(p, false)]
        | MOther => fail EUnimplType
        end
    end.
  (** src/dir.rs:396-401 [walk_real_fs_items] *)
  Definition walk_real_fs_items (base : path) (filter : path -> M bool) : M (pmap bool) :=
    internal_walk_real_fs_items stack base path_empty filter.
End RealWalk.
