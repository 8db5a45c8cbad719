(** Model of the text of what is printed: the format strings of src/main.rs,
    src/diff.rs and src/display.rs.

    Simplification: this is the text without colours ([colored] adds none when stdout is
    not a terminal or [NO_COLOR] is set); the text of errors is modelled only where
    [error_message] gives it. *)
From Verif Require Import Base Key Path World Pretty.

(** What the standard library writes for [{:?}] of a string or path, and the text of an
    error that [error_message] leaves open. *)
Class Fmt := { debug_text : bytes -> bytes; error_text : bytes }.

Section Screen.
  Context {F : Fmt}.
  (** [println!] of these pieces. *)
  Definition line (l : list bytes) : bytes := concat l ++ [newline].

  (** - src/main.rs:288-290, 671, 679, 791; src/diff.rs:217, 226, 236;
        src/display.rs:29-30, 42-43, 80, 84; [None] in src/main.rs:340 *)
  Definition render0 (tag : string) : bytes :=
    if String.eqb tag "head:" then line [str "head: None"]
    else if String.eqb tag "fatal:" then line [str "fatal: "; error_text]
    else line [str tag].
  (** - src/main.rs:250, 340, 402, 414, 791; src/diff.rs:220, 221, 229, 230, 238, 250;
        src/display.rs:66, 73, 82, 120; src/object.rs:75-107 *)
  Definition render1 (tag : string) (a : bytes) : bytes :=
    if String.eqb tag "raw" then a
    else if String.eqb tag "inserted hash" then line [str "inserted hash "; a]
    else if String.eqb tag "commit" then line [str "commit: "; a]
    else if String.eqb tag "tree" then line [str "tree: "; a]
    else if String.eqb tag "head:" then line [str "head: Some("; debug_text a; str ")"]
    else if String.eqb tag "fatal:" then line [str "fatal: "; a]
    else if String.eqb tag "  " then line [str "  "; a]
    else if String.eqb tag "  /" then line [str "  "; a; str "/"]
    else line [a].
  (** - src/main.rs:294, 363, 604, 628 *)
  Definition render2 (tag : string) (a b : bytes) : bytes :=
    if String.eqb tag "entry" then line [a; str ": "; b]
    else if String.eqb tag "item" then line [debug_text a; str ", "; b]
    else if String.eqb tag "HEAD:" then line [str "HEAD: "; a; str " ["; b; str "]"]
    else line [str "HEAD: "; a; str " (no commits on "; b; str ")"].
  (** - src/main.rs:353; src/diff.rs:328-333.  A key is printed like in
        [debug_key]; here it is given by its database text, which begins with one more byte. *)
  Definition render3 (tag : string) (a b c : bytes) : bytes :=
    if String.eqb tag "stat" then line [a; str "  +"; b; str " -"; c]
    else line [str "("; debug_text a; str ", (Blake3B(["; comma_separated (map decimal (tl b)); str "]), "; c; str "))"].
  Definition render (e : event) : bytes :=
    let '(Printed tag args) := e in
    match args with
    | [] => render0 tag
    | [a] => render1 tag a
    | [a; b] => render2 tag a b
    | [a; b; c] => render3 tag a b c
    | _ => []
    end.
  (** Everything printed so far. *)
  Definition screen (w : world) : bytes := concat (map render (rev (w_out w))).
End Screen.
