(** What a correct answer to a search for a key is. *)
From Verif Require Import Base Key World SpecKey.
From Coq Require Import Sorted.

(** The key is stored, as the open connection sees it. *)
Definition stored (w : world) (k : key) : Prop := assoc (as_db_key k) (d_data (cur_db w)) <> None.

(** Keys in the order of their bytes. *)
Definition key_lt (a b : key) : Prop := spec_lt (as_db_key a) (as_db_key b).

(** The only key satisfying [P]; "not found" when there is none; all of them, in
    order, when there are several. *)
Inductive search_result (s : bytes) (P : key -> Prop) : outcome key -> Prop :=
| found k : P k -> (forall k', P k' -> k' = k) -> search_result s P (Done k)
| found_none : (forall k, ~ P k) -> search_result s P (Error (ENotFoundKey s))
| found_many ks : (forall k, In k ks <-> P k) -> StronglySorted key_lt ks -> 2 <= length ks ->
    search_result s P (Error (EAmbiguous s ks)).
