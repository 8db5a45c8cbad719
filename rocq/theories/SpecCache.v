(** What the cache of file hashes (src/cache.rs) is supposed to do. *)
From Verif Require Import Base Key Cbor Object Path World Store File Filter Dir.

(** What the operating system and Rust can put into a triple: unsigned 64-bit
    inode and size, signed 64-bit seconds. *)
Definition triple_ok (c : cachekey) : Prop :=
  (ck_inode c < 2 ^ 64)%N /\ (ck_size c < 2 ^ 64)%N /\ (- 2 ^ 63 <= ck_mtime c < 2 ^ 63)%Z.

(** What asking the cache gives when nothing goes wrong. *)
Definition looked_up (w : world) (c : cachekey) : outcome (option key) := fst (cache_get c (set_faults w [])).

(** A history of calls, each of which may fail. *)
Fixpoint put_all (hist : list (cachekey * key)) : M unit :=
  match hist with
  | [] => ret tt
  | (c, k) :: r => cache_put c k ;;; put_all r
  end.
Definition same_triple (a b : cachekey) : bool :=
  (ck_inode a =? ck_inode b)%N && (ck_mtime a =? ck_mtime b)%Z && (ck_size a =? ck_size b)%N.
Fixpoint first_put (c : cachekey) (hist : list (cachekey * key)) : option key :=
  match hist with
  | [] => None
  | (c', k) :: r => if same_triple c c' then Some k else first_put c r
  end.

(** The triple of a file. *)
Definition triple (content : bytes) (st : stamp) : cachekey := CacheKey (s_inode st) (s_mtime st) (wrap64 (lenN content)).
(** On one device without concurrent changes within a second, a triple identifies
    the content. *)
Definition triples_ok (f : fs) : Prop :=
  (forall l c st, lookup f l = Some (EFile c st) -> triple_ok (triple c st)) /\
  forall l c st l' c' st', lookup f l = Some (EFile c st) -> lookup f l' = Some (EFile c' st') -> triple c st = triple c' st' -> c = c'.

Section SpecCache.
  Context {E : Env}.
  (** Inserting some file with content [c], in any store and at any place, gave the
      key, and all hashes involved are in the log. *)
  Definition hashed_as (log : list bytes) (c : bytes) (k : key) : Prop :=
    exists s fuel p ex db w l st w',
      (s = sqlite_ds \/ s = null_ds) /\ stat (w_fs w) (w_cwd w) p = Some (l, EFile c st) /\
      put_fs_item s fuel p (filter_fn ex db) w = (Done k, w') /\ incl (w_hashed w') log.
  (** Every answer of the cache about a file on disk is right: now, and should the
      cache transaction be rolled back. *)
  Definition answers_right (w : world) : Prop :=
    forall l c st k, lookup (w_fs w) l = Some (EFile c st) -> looked_up w (triple c st) = Done (Some k) -> hashed_as (w_hashed w) c k.
  Definition cache_right (w : world) : Prop := answers_right w /\ answers_right (set_ctxn w None).
  (** The operating system delivers equal contents in equal portions. *)
  Definition steady_reads : Prop := forall i j c, read_sizes i c = read_sizes j c.
End SpecCache.
