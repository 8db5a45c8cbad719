(** What is supposed to be on the screen. *)
From Verif Require Import Base Key Cbor Object Path World Store File Dir Diff Commit SpecStore SpecRun SpecDir SpecDiff SpecPatch SpecShow SpecOut SpecText SpecPretty Screen.

Notation lf := ("010"%char).
(** The lines of [ref log]: number and key, down to number one. *)
Inductive log_lines : list key -> list bytes -> Prop :=
| ll_none : log_lines [] []
| ll_entry k ks n ls : number_text n (lenN (k :: ks)) -> log_lines ks ls -> log_lines (k :: ks) ((n ++ str ": " ++ as_user_key k) :: ls).
(** A title and indented names, or nothing. *)
Definition titled (title : bytes) (names : list bytes) : list bytes :=
  match names with [] => [] | _ => title :: map (fun n => str "  " ++ n) names end.
(** The report of [status] and [compare]. *)
Definition report_lines (added modified : list bytes) : list bytes := titled (str "added:") added ++ titled (str "modified:") modified.
(** The names along a path with slashes between them, and one after a directory. *)
Fixpoint slashed (x : loc) : bytes :=
  match x with [] => [] | [n] => n | n :: r => n ++ "/"%char :: slashed r end.
Definition entry_text {E : Env} (e : loc * bool) : bytes := lossy (slashed (fst e)) ++ (if snd e then [] else str "/").
(** A name that is shown as it is and does not look like two. *)
Definition plain_name {E : Env} (x : loc) : Prop := Forall entry_name x /\ lossy (slashed x) = slashed x /\ ~ In lf (slashed x).

Section SpecScreen.
  Context {E : Env} {F : Fmt}.
  (** From one state to the other, this was added. *)
  Definition writes (w w' : world) (t : bytes) : Prop := screen w' = screen w ++ t.
  Definition writes_lines (w w' : world) (ls : list bytes) : Prop := writes w w' (text_of_lines ls).
  (** The line of [--stat]. *)
  Definition stat_spelt (x : bytes) (added removed : N) (l : bytes) : Prop :=
    exists a r, number_text a added /\ number_text r removed /\ l = x ++ str "  +" ++ a ++ str " -" ++ r.
  (** The lines of [log]. *)
  Definition summary (w : world) (k : key) (ls : list bytes) : Prop :=
    exists c old S body, is_commit w k c /\ base_tree w c old /\
      SpecText.listed (fun x => (exists k, new_file w (c_tree c) old x k) \/ (exists k k', changed_file w (c_tree c) old x k k')) (file_stat w (c_tree c) old) S /\
      Forall2 (fun e l => stat_spelt (lossy (slashed (fst e))) (N.of_nat (fst (snd e))) (N.of_nat (snd (snd e))) l) S body /\
      ls = [str "commit: " ++ as_user_key k; []; at_message (c_attrs c); []] ++ body ++ [[]; []].
  (** The line of [debug walk-tree]. *)
  Definition tree_line (x : loc) (k : key) (d : bool) (l : bytes) : Prop :=
    exists t, SpecPretty.listed t (map byte_val (hash_bytes k)) /\
      l = str "(" ++ debug_text (slashed x) ++ str ", (Blake3B([" ++ t ++ str "]), " ++ (if d then str "true" else str "false") ++ str "))".
End SpecScreen.
