(** Commands that never panic. *)
From Verif Require Import Base Key Keyish Cbor Object Path World Store File Dir Diff Commit Main SpecStore SpecRun SpecProc SpecDir SpecClosure SpecDiff SpecPatch SpecOut SpecCmd SpecShow SpecShape SpecFetch.

(** The database folder is given as names, for example [.snapcd]. *)
Definition plain_folder (cm : common) : Prop := exists d, d <> [] /\ cm_db_path cm = named d.
(** Not a key written out in full (see C08). *)
Definition partly (ki : keyish) : Prop := match ki with KKey _ _ => False | _ => True end.

Section Panic.
  Context {E : Env}.
  (** Commands that neither list files nor show differences, given keys that are not
      written out in full; [fetch] and [debug walk-tree] are given a file or directory
      (if anything), [debug commit-tree] fewer than 2^62 parents. *)
  Definition undemanding (w : world) (c : command) : Prop :=
    match c with
    | CInit | CGetHead | CSetHead _ | CReflogGet _ _ | CRefLog _ _ => True
    | CRefUpdate k _ | CReflogPush k _ _ | CPrettyPrint k => partly k
    | CWalkTree k | CFetch k _ => partly k /\ names_only w Item k
    | CCommitTree t ps => partly t /\ Forall partly ps /\ (lenN ps < 2 ^ 62)%N
    | _ => False
    end.

  (** A commit, and each commit of its history can be shown against its parent. *)
  Definition loggable (w : world) (k : key) : Prop :=
    points (cur_db w) Version k /\ exists l, lineage w k l /\
    forall k' c to, In k' l -> is_commit w k' c -> base_tree w c to -> presentable w KStat (c_tree c) to.
End Panic.
