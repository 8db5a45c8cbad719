(** Models of src/ds/mod.rs, src/ds/sqlite.rs, src/ds/null.rs and src/cache.rs. *)
From Verif Require Import Base Key Keyish Cbor Object Path World.

(** src/ds/mod.rs:36-41 [Reflog] *)
Record reflog := Reflog { rl_name : bytes; rl_key : key; rl_remote : option bytes }.

(** src/ds/mod.rs:190-248 [trait DataStore]: its required methods. *)
Record datastore := DataStore {
  raw_get : bytes -> M bytes;
  raw_put : bytes -> bytes -> M unit;
  raw_exists : bytes -> M bool;
  raw_get_state : bytes -> M (option bytes);
  raw_put_state : bytes -> bytes -> M unit;
  reflog_push : reflog -> M unit;
  reflog_get : bytes -> option bytes -> M key;
  reflog_walk : bytes -> option bytes -> M (list key);
  raw_between : bytes -> option bytes -> M (list bytes)
}.

(** ** SQL statements on the tables *)

(** Tables [data] and [state] are B-trees ordered by key (WITHOUT ROWID). *)
Fixpoint ins_row (k v : bytes) (l : list (bytes * bytes)) : list (bytes * bytes) :=
  match l with
  | [] => [(k, v)]
  | (k', v') :: r => if bytes_ltb k k' then (k, v) :: l else (k', v') :: ins_row k v r
  end.
(** INSERT OR IGNORE INTO t VALUES (k, v) *)
Definition insert_or_ignore (k v : bytes) (l : list (bytes * bytes)) : list (bytes * bytes) :=
  match assoc k l with Some _ => l | None => ins_row k v l end.
(** INSERT OR REPLACE INTO t VALUES (k, v) *)
Definition insert_or_replace (k v : bytes) (l : list (bytes * bytes)) : list (bytes * bytes) :=
  ins_row k v (filter (fun '(k', _) => negb (bytes_eqb k' k)) l).
(** SELECT key FROM t WHERE key >= start [AND key < end]: an index range scan. *)
Definition select_between (start : bytes) (end_ : option bytes) (l : list (bytes * bytes)) : list bytes :=
  filter (fun k => bytes_leb start k
                   && match end_ with Some e => bytes_ltb k e | None => true end)
         (map fst l).

(** [INTEGER PRIMARY KEY]: a new row gets the largest id plus one. *)
Definition next_id (rows : list row) : N := fold_right N.max 0%N (map r_id rows) + 1.
Definition opt_bytes_eqb (a b : option bytes) : bool :=
  match a, b with
  | None, None => true
  | Some x, Some y => bytes_eqb x y
  | _, _ => false
  end.
(** WHERE refname=? AND remote IS ? *)
Definition row_matches (refname : bytes) (remote : option bytes) (r : row) : bool :=
  bytes_eqb (r_name r) refname && opt_bytes_eqb (r_remote r) remote.
(** ORDER BY id DESC *)
Fixpoint ins_desc (x : row) (l : list row) : list row :=
  match l with
  | [] => [x]
  | y :: r => if (r_id y <=? r_id x)%N then x :: l else y :: ins_desc x r
  end.
Definition order_desc (l : list row) : list row := fold_left (fun acc x => ins_desc x acc) l [].
Definition select_reflog (refname : bytes) (remote : option bytes) (rows : list row) : list bytes :=
  map r_key (order_desc (filter (row_matches refname remote) rows)).

Definition upd_data (f : list (bytes * bytes) -> list (bytes * bytes)) (d : db) : db :=
  Db (f (d_data d)) (d_state d) (d_reflog d).
Definition upd_state (f : list (bytes * bytes) -> list (bytes * bytes)) (d : db) : db :=
  Db (d_data d) (f (d_state d)) (d_reflog d).
Definition upd_reflog (f : list row -> list row) (d : db) : db :=
  Db (d_data d) (d_state d) (f (d_reflog d)).

Fixpoint map_result {A B E} (f : A -> result B E) (l : list A) : result (list B) E :=
  match l with
  | [] => Ok []
  | x :: r =>
      match f x with
      | Err e => Err e
      | Ok y => match map_result f r with Ok ys => Ok (y :: ys) | Err e => Err e end
      end
  end.

(** ** The SQLite store *)

(** src/ds/sqlite.rs:142-151 *)
Definition sqlite_raw_get (k : bytes) : M bytes :=
  r <- db_read (fun d => assoc k (d_data d)) ;; of_option ESql r.
(** src/ds/sqlite.rs:153-161 *)
Definition sqlite_raw_put (k v : bytes) : M unit := db_write (upd_data (insert_or_ignore k v)).
(** src/ds/sqlite.rs:185-198 *)
Definition sqlite_raw_exists (k : bytes) : M bool :=
  n <- db_read (fun d => length (filter (fun '(k', _) => bytes_eqb k' k) (d_data d))) ;;
  if Nat.eqb n 0 || Nat.eqb n 1 then ret (Nat.eqb n 1) else panic_with PAssert.
(** src/ds/sqlite.rs:163-172 *)
Definition sqlite_raw_get_state (k : bytes) : M (option bytes) :=
  db_read (fun d => assoc k (d_state d)).
(** src/ds/sqlite.rs:174-183 *)
Definition sqlite_raw_put_state (k v : bytes) : M unit := db_write (upd_state (insert_or_replace k v)).
(** src/ds/sqlite.rs:109-118 *)
Definition sqlite_reflog_push (r : reflog) : M unit :=
  db_write (upd_reflog (fun rows =>
    rows ++ [Row (next_id rows) (rl_name r) (rl_remote r) (as_db_key (rl_key r))])).
(** src/ds/sqlite.rs:85-107 *)
Definition sqlite_reflog_get (refname : bytes) (remote : option bytes) : M key :=
  r <- db_read (fun d => hd_error (select_reflog refname remote (d_reflog d))) ;;
  match r with
  | Some k => lift_result EDbKey (from_db_key k)
  | None => fail ERefNotFound
  end.
(** src/ds/sqlite.rs:120-140: preparing the statement may fail; a failure while
    stepping through the rows is unwrapped. *)
Definition sqlite_reflog_walk (refname : bytes) (remote : option bytes) : M (list key) :=
  db_read (fun _ => tt) ;;;
  rows <- unwrap (db_read (fun d => select_reflog refname remote (d_reflog d))) ;;
  lift_result EDbKey (map_result from_db_key rows).
(** src/ds/sqlite.rs:200-237 *)
Definition sqlite_raw_between (start : bytes) (end_ : option bytes) : M (list bytes) :=
  db_read (fun d => select_between start end_ (d_data d)).

Definition sqlite_ds : datastore :=
  DataStore sqlite_raw_get sqlite_raw_put sqlite_raw_exists sqlite_raw_get_state
    sqlite_raw_put_state sqlite_reflog_push sqlite_reflog_get sqlite_reflog_walk sqlite_raw_between.

(** ** The null store: src/ds/null.rs:16-57 *)
Definition null_ds : datastore :=
  DataStore
    (fun _ => panic_with PUnimplemented)
    (fun _ _ => ret tt)
    (fun _ => panic_with PUnimplemented)
    (fun _ => panic_with PUnimplemented)
    (fun _ _ => ret tt)
    (fun _ => ret tt)
    (fun _ _ => panic_with PUnimplemented)
    (fun _ _ => panic_with PUnimplemented)
    (fun _ _ => panic_with PUnimplemented).

Section Defaults.
  Context {E : Env}.

  (** [SqliteDS::new] (src/ds/sqlite.rs:31-60): opens or creates the database file
      and makes sure the tables exist; returns its location.  The bytes of database
      files are not modelled: their content lives in [w_dbs], and a new file is
      recorded as an empty file.  A non-empty file that is not a database is
      refused. *)
  Definition open_db_eff (p : path) (w : world) : option (loc * world) :=
    match resolve (w_fs w) (w_cwd w) p with
    | None => None
    | Some l =>
        if p_slash p then None
        else
          match lookup (w_fs w) l with
          | None =>
              Some (l, set_dbs (set_fs w (fs_set (w_fs w) l
                         (EFile [] (Stamp (fresh_inode (w_tick w)) (clock (w_tick w))))))
                         (assoc_set l db_empty (w_dbs w)))
          | Some (EFile c _) =>
              match assoc_loc l (w_dbs w) with
              | Some _ => Some (l, w)
              | None => match c with
                        | [] => Some (l, set_dbs w (assoc_set l db_empty (w_dbs w)))
                        | _ => None
                        end
              end
          | Some _ => None
          end
    end.
  Definition sqlite_open (p : path) : M loc :=
    op (fun f w =>
      match open_db_eff p w with
      | Some (l, w') =>
          match f with
          | FOk => (Done l, w')
          | FErr O | FErrRb => (Error ESql, w)
          | FErr (S _) => (Error ESql, w')
          | FCrash O => (Crashed, w)
          | FCrash (S _) => (Crashed, w')
          end
      | None => match f with FCrash _ => (Crashed, w) | _ => (Error ESql, w) end
      end).

  (** ** Provided methods of [DataStore] *)
  Section WithStore.
    Context (ds : datastore).

    (** src/ds/mod.rs:199-203 *)
    Definition get (k : key) : M bytes := raw_get ds (as_db_key k).
    (** src/ds/mod.rs:210-216 *)
    Definition put (data : bytes) : M key :=
      k <- hash data ;;
      raw_put ds (as_db_key k) data ;;;
      ret k.
    (** src/ds/mod.rs:218-225 *)
    Definition get_head : M (option bytes) :=
      r <- raw_get_state ds (str "HEAD") ;;
      match r with
      | None => ret None
      | Some b => if utf8_valid b then ret (Some b) else fail EUtf8
      end.
    (** src/ds/mod.rs:227-230 *)
    Definition put_head (head : bytes) : M unit := raw_put_state ds (str "HEAD") head.

    (** src/ds/mod.rs:250-291 [canonicalize] *)
    Definition resolve_results (err_str : bytes) (results : list bytes) : M key :=
      match results with
      | [] => fail (ENotFoundKey err_str)
      | [x] => lift_result EDbKey (from_db_key x)
      | _ => ks <- lift_result EDbKey (map_result from_db_key results) ;; fail (EAmbiguous err_str ks)
      end.
    Definition canonicalize (search : keyish) : M key :=
      match search with
      | KKey s k =>
          v <- unwrap (raw_get ds k) ;;
          resolve_results s [v]
      | KRange s start end_ =>
          results <- unwrap (raw_between ds start end_) ;;
          resolve_results s results
      | KReflog orig remote keyname =>
          r <- try (reflog_get ds keyname remote) ;;
          match r with
          | Ok k => ret k
          | Err ERefNotFound => fail (ENotFoundKey orig)
          | Err e => fail e
          end
      end.

    (** [serde_cbor::from_slice::<Object>] *)
    Definition decode_object (bs : bytes) : option object :=
      match decode_object_std bs with Some o => Some o | None => other_object bs end.
    (** src/ds/mod.rs:293-297 *)
    Definition get_obj (k : key) : M object :=
      data <- get k ;; of_option EDecode (decode_object data).

    (** A [Vec] holds at most [isize::MAX] bytes. *)
    Definition max_vec : N := 2 ^ 63.
    Definition obj_fits (o : object) : bool :=
      (lenN (o_data o) <? max_vec)%N && (lenN (o_keys o) <? max_vec)%N.
    (** src/ds/mod.rs:299-303 *)
    Definition put_obj (o : object) : M key :=
      if obj_fits o then put (encode_object o) else panic_with PCapacity.
  End WithStore.

  (** [TryInto<FSItem> for Object] (src/dir.rs:52-64) *)
  Definition fsitem_of_object (o : object) : option fsitem :=
    let parts := match decode_fsitem_std (o_data o) with
                 | Some p => Some p
                 | None => other_fsitem (o_data o)
                 end in
    match parts with
    | Some (size, ty, names) => Some (FSItem size ty names (o_keys o))
    | None => None
    end.
  (** [TryInto<Commit> for Object] (src/commit.rs:82-106): [remove(0)] panics when
      there is no key. *)
  Definition commit_of_object (o : object) : M commit :=
    let a := match decode_attrs_std (o_data o) with
             | Some a => Some a
             | None => other_attrs (o_data o)
             end in
    match a with
    | None => fail EDecode
    | Some at_ =>
        match o_keys o with
        | [] => panic_with PIndex
        | tree :: parents => ret (Commit tree parents at_)
        end
    end.
End Defaults.

(** ** src/cache.rs *)

(** [u64::to_le_bytes] / [i64::to_le_bytes] *)
Definition le64 (n : N) : bytes := rev (be 8 n).
Definition u64_of_i64 (z : Z) : N := Z.to_N (z mod 2 ^ 64).

(** src/cache.rs:8-13 [CacheKey] *)
Record cachekey := CacheKey { ck_inode : N; ck_mtime : Z; ck_size : N }.
(** src/cache.rs:47-50 and 64-68 *)
Definition cache_bytes (c : cachekey) : bytes :=
  le64 (ck_inode c) ++ le64 (u64_of_i64 (ck_mtime c)) ++ le64 (ck_size c).
(** src/cache.rs:46-61 [get], with 129-138 [raw_get] *)
Definition cache_get (c : cachekey) : M (option key) :=
  r <- cache_read (assoc (cache_bytes c)) ;;
  match r with
  | None => ret None
  | Some data => k <- lift_result EDbKey (from_db_key data) ;; ret (Some k)
  end.
(** src/cache.rs:63-73 [put], with 140-149 [raw_put] *)
Definition cache_put (c : cachekey) (k : key) : M unit :=
  cache_write (insert_or_ignore (cache_bytes c) (as_db_key k)).
