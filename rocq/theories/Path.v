(** [std::path]: paths as component lists (Unix). *)
From Verif Require Import Base.

Definition name := bytes.

(** [std::path::Component] without prefixes; the root is the [p_abs] flag. *)
Inductive comp := CurDir | ParentDir | Normal (n : name).

(** A path.  [p_slash]: the text ends in ['/'] or ["/."], which only matters when
    it is handed to the operating system (it must then be a directory); Rust's
    comparison of paths ignores it. *)
Record path := Path { p_abs : bool; p_comps : list comp; p_slash : bool }.

Definition path_empty : path := Path false [] false.
Definition is_empty_path (p : path) : bool :=
  negb (p_abs p) && match p_comps p with [] => true | _ => false end.

Definition comp_eqb (a b : comp) : bool :=
  match a, b with
  | CurDir, CurDir | ParentDir, ParentDir => true
  | Normal x, Normal y => bytes_eqb x y
  | _, _ => false
  end.
Fixpoint comps_eqb (a b : list comp) : bool :=
  match a, b with
  | [], [] => true
  | x :: a', y :: b' => comp_eqb x y && comps_eqb a' b'
  | _, _ => false
  end.
(** [PartialEq for Path]: component-wise. *)
Definition path_eqb (a b : path) : bool :=
  Bool.eqb (p_abs a) (p_abs b) && comps_eqb (p_comps a) (p_comps b).

(** [Ord for Component]/[Ord for Path]: RootDir < CurDir < ParentDir < Normal,
    normal components by bytes, paths lexicographically. *)
Definition comp_rank (c : comp) : N :=
  match c with CurDir => 1 | ParentDir => 2 | Normal _ => 3 end.
Definition comp_cmp (a b : comp) : comparison :=
  match a, b with
  | Normal x, Normal y => bytes_cmp x y
  | _, _ => N.compare (comp_rank a) (comp_rank b)
  end.
Definition path_cmp (a b : path) : comparison :=
  match p_abs a, p_abs b with
  | true, false => match p_comps b with [] => Gt | _ => Lt end
  | false, true => match p_comps a with [] => Lt | _ => Gt end
  | _, _ => lex_cmp comp_cmp (p_comps a) (p_comps b)
  end.

(** Splits a byte string at every ['/']. *)
Fixpoint split_slash (cur : bytes) (s : bytes) : list bytes :=
  match s with
  | [] => [rev cur]
  | b :: r => if byte_eqb b "/"%char then rev cur :: split_slash [] r
              else split_slash (b :: cur) r
  end.
Definition comp_of_segment (seg : bytes) : option comp :=
  match seg with
  | [] => None
  | _ => if bytes_eqb seg (str ".") then Some CurDir
         else if bytes_eqb seg (str "..") then Some ParentDir
         else Some (Normal seg)
  end.
Fixpoint filter_some {A} (l : list (option A)) : list A :=
  match l with
  | [] => []
  | Some a :: r => a :: filter_some r
  | None :: r => filter_some r
  end.
Definition drop_curdir (l : list comp) : list comp :=
  filter (fun c => match c with CurDir => false | _ => true end) l.
(** [Path::components]: empty segments are skipped, ["."] is kept only as the
    first component of a relative path. *)
Definition parse_path (s : bytes) : path :=
  let segs := split_slash [] s in
  let comps := filter_some (map comp_of_segment segs) in
  let abs := match s with b :: _ => byte_eqb b "/"%char | [] => false end in
  let slash := match rev segs with
               | last :: _ :: _ => match last with [] => true | _ => bytes_eqb last (str ".") end
               | _ => false
               end in
  let comps' := match comps with
                | CurDir :: r => if abs then drop_curdir r else CurDir :: drop_curdir r
                | _ => drop_curdir comps
                end in
  Path abs comps' slash.

(** [Path::join] *)
Definition join (a b : path) : path :=
  if p_abs b then b
  else if is_empty_path a then b
  else
    match drop_curdir (p_comps b) with
    | [] => Path (p_abs a) (p_comps a) true
    | cs => Path (p_abs a) (p_comps a ++ cs) (p_slash b)
    end.
Definition join_name (a : path) (n : name) : path := join a (parse_path n).

(** [Path::parent] *)
Definition parent (p : path) : option path :=
  match p_comps p with
  | [] => None
  | _ => Some (Path (p_abs p) (removelast (p_comps p)) false)
  end.

Fixpoint comps_prefix (a b : list comp) : bool :=
  match a, b with
  | [], _ => true
  | x :: a', y :: b' => comp_eqb x y && comps_prefix a' b'
  | _ :: _, [] => false
  end.
(** [p.starts_with(q)] *)
Definition starts_with (p q : path) : bool :=
  Bool.eqb (p_abs p) (p_abs q) && comps_prefix (p_comps q) (p_comps p)
  || is_empty_path q.

Fixpoint names_prefix (a b : list name) : bool :=
  match a, b with
  | [], _ => true
  | x :: a', y :: b' => bytes_eqb x y && names_prefix a' b'
  | _ :: _, [] => false
  end.
Fixpoint names_eqb (a b : list name) : bool :=
  match a, b with
  | [], [] => true
  | x :: a', y :: b' => bytes_eqb x y && names_eqb a' b'
  | _, _ => false
  end.

(** [path.join(n)] for a single directory-entry name [n]. *)
Definition path_push (p : path) (n : name) : path := Path (p_abs p) (p_comps p ++ [Normal n]) false.

(** The text of a path (separators normalised). *)
Definition comp_text (c : comp) : bytes :=
  match c with CurDir => str "." | ParentDir => str ".." | Normal n => n end.
Fixpoint comps_text (l : list comp) : bytes :=
  match l with
  | [] => []
  | [c] => comp_text c
  | c :: r => comp_text c ++ "/"%char :: comps_text r
  end.
Definition path_text (p : path) : bytes := (if p_abs p then str "/" else []) ++ comps_text (p_comps p).
(** The absolute path of a location. *)
Definition abs_path (l : list name) : path := Path true (map Normal l) false.
