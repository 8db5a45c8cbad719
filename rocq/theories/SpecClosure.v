(** Complete stores: nothing that is referred to is missing, and following
    references always comes to an end. *)
From Verif Require Import Base Key Object World Store.

Section Closure.
  Context {E : Env}.

  (** The object stored under a key. *)
  Definition object_at (d : db) (k : bytes) : option object :=
    match assoc k (d_data d) with Some v => decode_object v | None => None end.
  (** The object stored under [p] mentions the key [c]. *)
  Inductive mentions (d : db) : bytes -> bytes -> Prop :=
  | mentions_key p o c : object_at d p = Some o -> In c (o_keys o) -> mentions d p (as_db_key c).

  (** Every stored value is an object, whatever it mentions is stored, and every
      entry of a reflog is stored. *)
  Definition no_dangling (d : db) : Prop :=
    (forall k v, In (k, v) (d_data d) -> exists o, object_at d k = Some o) /\
    (forall p c, mentions d p c -> exists o, object_at d c = Some o) /\
    (forall r, In r (d_reflog d) -> exists o, object_at d (r_key r) = Some o).

  (** [reaches d a b]: [b] can be reached from [a] by following one or more
      references. *)
  Inductive reaches (d : db) : bytes -> bytes -> Prop :=
  | reaches_one a b : mentions d a b -> reaches d a b
  | reaches_more a b c : mentions d a b -> reaches d b c -> reaches d a c.

  (** No infinite chain of references starts at any key. *)
  Definition grounded (d : db) : Prop := forall k, Acc (fun c p => mentions d p c) k.
End Closure.
