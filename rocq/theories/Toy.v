(** A concrete environment and concrete states, used by the examples only. *)
From Verif Require Import Base Key Cbor Object Path World Store Main.

(** A toy hash: the bytes, mixed into 32 cells in turn. *)
Definition toy_step (s : bytes) (b : byte) : bytes :=
  match s with x :: r => r ++ [ascii_of_N (N_of_ascii x * 3 + N_of_ascii b + 1)] | [] => [] end.
Definition toy_hash (d : bytes) : arr32 :=
  match arr32_of (fold_left toy_step d (repeat zero 32)) with
  | Some a => a
  | None => Arr32 (repeat zero 32) eq_refl
  end.

(** Files compare line-free: everything old removed, everything new added. *)
#[export] Instance toy_env : Env := {
  blake3 := toy_hash;
  gear_table := fun b => (byte_val b * 1315423911 + 2 ^ 51)%N;
  other_object := fun _ => None;
  other_fsitem := fun _ => None;
  other_attrs := fun _ => None;
  read_sizes := fun _ _ => [];
  fresh_inode := N.of_nat;
  clock := Z.of_nat;
  glob_valid := fun _ => true;
  glob_match := fun _ _ => false;
  lossy := fun b => b;
  diff_lines := fun a b => [DLeft a; DRight b];
  changeset := fun a b => [Rem a; World.Add b];
  show_patch := fun _ => [];
  debug_cbor := fun _ => Err [];
  cache_dir := None;
  stack := 50;
  loop_bound := 50
}.

(** A machine with an empty file system, standing in "/". *)
Definition toy_world : world := World [] [] [] [] NoTxn [] None [] [] [] 0.
