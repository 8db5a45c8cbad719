(** Model of src/filter.rs. *)
From Verif Require Import Base Path World.

Section Filter.
  Context {E : Env}.

  (** src/filter.rs:26-30: strips a leading ["./"]. *)
  Definition normalise (p : path) : path :=
    match p_abs p, p_comps p with
    | false, CurDir :: r => Path false r (p_slash p)
    | _, _ => p
    end.

  (** src/filter.rs:4-34 [make_filter_fn]: an invalid pattern panics; the result is
      a predicate on the path of a directory entry. *)
  Definition filter_fn (excludes : list bytes) (db_path : path) (entry_path : path) : M bool :=
    canon <- unwrap (fs_canonicalize entry_path) ;;
    canon_db <- unwrap (fs_canonicalize db_path) ;;
    if names_prefix canon_db canon then ret false
    else ret (negb (existsb (fun g => glob_match g (normalise entry_path)) excludes)).
  Definition make_filter_fn (excludes : list bytes) (db_path : path) : M (path -> M bool) :=
    if forallb glob_valid excludes then ret (filter_fn excludes db_path)
    else panic_with (PUnwrap None).
End Filter.
