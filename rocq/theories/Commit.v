(** Models of src/commit.rs (functions) and src/display.rs. *)
From Verif Require Import Base Key Object Path World Store File Dir Diff.

Section Commit.
  Context {E : Env} (ds : datastore).

  (** src/commit.rs:39-45 [Commit::from_key] *)
  Definition commit_from_key (k : key) : M commit :=
    o <- unwrap (get_obj ds k) ;; unwrap (commit_of_object o).

  (** src/commit.rs:118-137 [commit_tree] *)
  Definition commit_tree (tree : key) (parents : list key) (a : attrs) : M key :=
    put_obj ds (object_of_commit (Commit tree (sort key_cmp parents) a)).

  (** src/display.rs:16-20 [Kind] *)
  Inductive kind := KStat | KPatch.

  (** src/display.rs:59-128 [display_obj] *)
  Fixpoint display_obj (fuel : nat) (k : key) (kd : kind) : M unit :=
    match fuel with
    | O => diverge
    | S f =>
        obj <- unwrap (get_obj ds k) ;;
        match o_type obj with
        | FileBlobTree | FileBlob => read_data ds stdout_write f k tt
        | FSItemFile =>
            match o_keys obj with
            | [k'] => display_obj f k' kd
            | _ => panic_with PAssert
            end
        | TCommit =>
            print "commit" [as_user_key k] ;;;
            c <- unwrap (commit_of_object obj) ;;
            print "" [] ;;;
            print "message" [at_message (c_attrs c)] ;;;
            print "" [] ;;;
            tree <- match c_parents c with
                    | p :: _ =>
                        po <- unwrap (get_obj ds p) ;;
                        pc <- unwrap (commit_of_object po) ;;
                        ret (Some (c_tree pc))
                    | [] => ret None
                    end ;;
            dr <- unwrap (compare ds (TDatabase (c_tree c)) tree) ;;
            match kd with
            | KStat => print_stat_diff_result ds dr
            | KPatch => print_patch_diff_result ds dr
            end
        | FSItemDir => print "tree" [as_user_key k]
        | TUnknown => panic_with PExplicit
        end
    end.

  (** src/display.rs:39-51: the loop over first parents. *)
  Fixpoint log_loop (fuel : nat) (c : commit) (kd : kind) : M unit :=
    match c_parents c with
    | [] => ret tt
    | p :: _ =>
        match fuel with
        | O => diverge
        | S f =>
            display_obj stack p kd ;;;
            print "" [] ;;;
            print "" [] ;;;
            o <- unwrap (get_obj ds p) ;;
            c' <- unwrap (commit_of_object o) ;;
            log_loop f c' kd
        end
    end.
  (** src/display.rs:22-57 [log_obj] *)
  Definition log_obj (k : key) (kd : kind) : M unit :=
    obj <- unwrap (get_obj ds k) ;;
    match o_type obj with
    | TCommit =>
        display_obj stack k kd ;;;
        print "" [] ;;;
        print "" [] ;;;
        o <- unwrap (get_obj ds k) ;;
        c <- unwrap (commit_of_object o) ;;
        log_loop loop_bound c kd
    | _ => panic_with PExplicit
    end.
End Commit.
