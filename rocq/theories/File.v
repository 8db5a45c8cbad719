(** Model of src/file.rs. *)
From Verif Require Import Base Key Object World Store.

Section File.
  Context {E : Env}.

  (** ** Rolling hash: gearhash 0.1 [Hasher] (scalar [next_match]) *)

  (** [hash = (hash << 1).wrapping_add(table[b])] *)
  Definition gear_step (h : N) (b : byte) : N := wrap64 (2 * h + gear_table b).
  (** src/file.rs:157-160 *)
  Definition blob_zero_count : N := 13.
  Definition blob_zero_count_max : N := blob_zero_count + 2.
  Definition blob_zero_count_bitmask : N := (u64_modulus - 2 ^ (64 - blob_zero_count))%N.
  Definition per_level_count : N := 7.
  Definition per_level_count_max : N := per_level_count + 2.

  (** [Hasher::next_match]: position just after the first byte at which
      [hash & mask == 0], and the new hash. *)
  Fixpoint next_match (h : N) (buf : bytes) (mask : N) : option nat * N :=
    match buf with
    | [] => (None, h)
    | b :: r =>
        let h' := gear_step h b in
        if (N.land h' mask =? 0)%N then (Some 1, h')
        else match next_match h' r mask with
             | (Some n, h'') => (Some (S n), h'')
             | (None, h'') => (None, h'')
             end
    end.
  (** [u64::leading_zeros] *)
  Definition leading_zeros (h : N) : N := (64 - N.size h)%N.

  (** 1 << BLOB_ZERO_COUNT_MAX *)
  Definition chunk_max : nat := N.to_nat (2 ^ blob_zero_count_max).
  Definition level_max : nat := N.to_nat (2 ^ per_level_count_max).

  (** [key_bufs: [Vec<Key>; 5]] *)
  Definition key_bufs := list (list key).
  Definition kb_empty : key_bufs := [[]; []; []; []; []].
  Definition kb_get (kb : key_bufs) (i : nat) : list key := nth i kb [].
  Fixpoint kb_set (kb : key_bufs) (i : nat) (l : list key) : key_bufs :=
    match kb, i with
    | [], _ => []
    | _ :: r, O => l :: r
    | x :: r, S i' => x :: kb_set r i' l
    end.
  Definition kb_push (kb : key_bufs) (i : nat) (k : key) : key_bufs := kb_set kb i (kb_get kb i ++ [k]).

  Section WithStore.
    Context (ds : datastore).

    Definition put_tree (keys : list key) : M key := put_obj ds (Object [] keys FileBlobTree).
    Definition put_blob (data : bytes) : M key := put_obj ds (Object data [] FileBlob).

    (** src/file.rs:50-65 *)
    Fixpoint cascade (offsets : list nat) (zeros : N) (kb : key_bufs) : M key_bufs :=
      match offsets with
      | [] => ret kb
      | o :: r =>
          let len := length (kb_get kb o) in
          if (blob_zero_count + (N.of_nat o + 1) * per_level_count <? zeros)%N || Nat.leb level_max len
          then
            k <- put_tree (kb_get kb o) ;;
            cascade r zeros (kb_push (kb_set kb o []) (o + 1) k)
          else ret kb
      end.

    (** Local variables of the loop in [put_data]. *)
    Record pd_state := PD {
      pd_kb : key_bufs;
      pd_buf : bytes;      (* chunk_buffer *)
      pd_cur : bytes;      (* current_chunk *)
      pd_hash : N          (* hasher *)
    }.
    Definition pd_init : pd_state := PD kb_empty [] [] 0.

    (** src/file.rs:41-66: a cut after [boundary] bytes.  The debug assertion of
        line 43 is part of debug builds. *)
    Definition cut (st : pd_state) (boundary : nat) : M pd_state :=
      if Nat.ltb (length (pd_buf st)) boundary then panic_with PIndex
      else
        let cur := pd_cur st ++ firstn boundary (pd_buf st) in
        let buf := skipn boundary (pd_buf st) in
        let zeros := leading_zeros (pd_hash st) in
        if negb ((blob_zero_count <=? zeros)%N || Nat.eqb boundary chunk_max) then panic_with PAssert
        else if Nat.leb chunk_max (length cur) then
          k <- put_blob cur ;;
          kb <- cascade [0; 1; 2; 3] zeros (kb_push (pd_kb st) 0 k) ;;
          ret (PD kb buf [] (pd_hash st))
        else ret (PD (pd_kb st) buf cur (pd_hash st)).

    (** src/file.rs:25-85: the loop.  [reads] are the results the reader will give;
        the end of the list is end of input. *)
    Fixpoint pd_loop (fuel : nat) (st : pd_state) (reads : list readres) : M pd_state :=
      match fuel with
      | O => diverge
      | S f =>
          let '(hasher_match, h) := next_match (pd_hash st) (pd_buf st) blob_zero_count_bitmask in
          let st := PD (pd_kb st) (pd_buf st) (pd_cur st) h in
          let m := if Nat.ltb chunk_max (length (pd_buf st)) then Some chunk_max else hasher_match in
          match m with
          | Some boundary => st' <- cut st boundary ;; pd_loop f st' reads
          | None =>
              let cur := pd_cur st ++ pd_buf st in
              match reads with
              | [] => ret (PD (pd_kb st) [] cur h)
              | RData [] :: _ => ret (PD (pd_kb st) [] cur h)
              | RData d :: r => pd_loop f (PD (pd_kb st) d cur h) r
              | RInterrupted :: r => pd_loop f (PD (pd_kb st) [] cur h) r
              | RError :: _ => fail EIo
              end
          end
      end.

    (** src/file.rs:99-109 *)
    Fixpoint fold_levels (offsets : list nat) (kb : key_bufs) : M (option key * key_bufs) :=
      match offsets with
      | [] => ret (None, kb)
      | o :: r =>
          k <- put_tree (kb_get kb o) ;;
          match kb_get kb o with
          | [k0] =>
              if forallb (fun x => match kb_get kb x with [] => true | _ => false end)
                         (seq (1 + o) (4 - (1 + o)))
              then ret (Some k0, kb)
              else fold_levels r (kb_push kb (o + 1) k)
          | _ => fold_levels r (kb_push kb (o + 1) k)
          end
      end.

    (** src/file.rs:87-111 *)
    Definition pd_finish (st : pd_state) : M key :=
      let cur := pd_cur st ++ pd_buf st in
      if forallb (fun x => match kb_get (pd_kb st) x with [] => true | _ => false end) [0; 1; 2; 3]
      then put_blob cur
      else
        kb <- match cur with
              | [] => ret (pd_kb st)
              | _ => k <- put_blob cur ;; ret (kb_push (pd_kb st) 0 k)
              end ;;
        r <- fold_levels [0; 1; 2; 3] kb ;;
        match r with
        | (Some k, _) => ret k
        | (None, kb') => put_tree (kb_get kb' 4)
        end.

    (** Enough fuel for the loop: one iteration per cut and per read. *)
    Fixpoint reads_weight (reads : list readres) : nat :=
      match reads with
      | [] => 1
      | RData d :: r => S (length d) + reads_weight r
      | _ :: r => S (reads_weight r)
      end.

    (** src/file.rs:16-112 [put_data] *)
    Definition put_data (reads : list readres) : M key :=
      st <- pd_loop (reads_weight reads) pd_init reads ;; pd_finish st.

    (** src/file.rs:123-155 [read_data]; the writer is a state [S] and an
        operation that writes all of a byte string. *)
    Section Read.
      Context {S : Type} (wr : S -> bytes -> M S).
      Fixpoint read_data (fuel : nat) (k : key) (s : S) : M S :=
        match fuel with
        | O => diverge
        | Datatypes.S f =>
            obj <- get_obj ds k ;;
            match o_type obj with
            | FileBlobTree =>
                (fix each (l : list key) (s : S) : M S :=
                   match l with
                   | [] => ret s
                   | k' :: r => s' <- read_data f k' s ;; each r s'
                   end) (o_keys obj) s
            | FileBlob => wr s (o_data obj)
            | FSItemFile =>
                match o_keys obj with
                | [k'] => read_data f k' s
                | _ => panic_with PAssert
                end
            | _ => panic_with PExplicit
            end
        end.
    End Read.

    (** Writers: a [Vec<u8>], an open file, stdout. *)
    Definition vec_write (s : bytes) (d : bytes) : M bytes := ret (s ++ d).
    Definition file_write (l : list (list byte)) (s : unit) (d : bytes) : M unit := fs_write l d.
    Definition stdout_write (s : unit) (d : bytes) : M unit := write_stdout d.
  End WithStore.
End File.
