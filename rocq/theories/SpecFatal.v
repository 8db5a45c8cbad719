(** Why a command stops, and what it says. *)
From Verif Require Import Base Key Keyish Cbor Path World Store Diff Main SpecKey SpecResolve SpecStore SpecRun SpecCmd SpecFile SpecDir SpecCache SpecDiff SpecPatch SpecShow SpecOut SpecClosure SpecShape SpecLive.

Section SpecFatal.
  Context {E : Env}.
  (** What the user typed for a key. *)
  Definition as_typed (ki : keyish) : bytes :=
    match ki with KRange s _ _ => s | KKey s _ => s | KReflog s _ _ => s end.
  (** The branch is empty; no stored key is in the range of the prefix. *)
  Definition names_nothing (w : world) (ki : keyish) : Prop :=
    match ki with
    | KReflog _ rm n => history n rm (repo_of (cur_db w)) = []
    | KRange _ a e => forall k, stored w k -> ~ in_range a e (as_db_key k)
    | KKey _ _ => False
    end.
  (** Two stored keys are. *)
  Definition names_several (w : world) (ki : keyish) : Prop :=
    match ki with
    | KRange _ a e => exists k k', k <> k' /\ (stored w k /\ in_range a e (as_db_key k)) /\ (stored w k' /\ in_range a e (as_db_key k'))
    | _ => False
    end.
  Definition key_trouble (w : world) (ki : keyish) (m : bytes) : Prop :=
    (names_nothing w ki /\ m = str "Object '" ++ as_typed ki ++ str "' not found") \/
    (names_several w ki /\ m = str "Object '" ++ as_typed ki ++ str "' is ambiguous").

  (** The key that a command is given. *)
  Definition given_key (c : command) : option keyish :=
    match c with
    | CFetch k _ | CPrettyPrint k | CWalkTree k | CRefUpdate k _ | CReflogPush k _ _ | CCommitTree k _
    | CShow (Some k) | CLog (Some k) | CCompare _ (Some k) _ => Some k
    | _ => None
    end.
  (** Commands that begin by asking for HEAD ([commit] looks at the patterns before). *)
  Definition asks_head (cm : common) (c : command) : Prop :=
    match c with
    | CStatus | CCheckout | CCheckoutHead _ | CRefLog None _ | CShow None | CLog None | CCompare _ None _ => True
    | CCommit _ _ None => globs_ok cm
    | _ => False
    end.
  (** Those of them that need a commit there. *)
  Definition needs_commit (c : command) : Prop :=
    match c with CCheckout | CShow None | CLog None | CCompare _ None _ => True | _ => False end.
  Definition no_head (w : world) : Prop := rp_head (repo_of (cur_db w)) = None.
  Definition no_head_text : bytes := str "an operation that requires a HEAD was run, without being given one, and no head has been set".
  Definition no_ref_text : bytes := str "Ref not found".
  Definition no_repository_text : bytes := str "database could not be found (maybe run snapcd init)".

  (** In a repository, the command finds nothing where it was told to look. *)
  Inductive trouble (cm : common) (w : world) : command -> bytes -> Prop :=
  | trouble_key c ki m : given_key c = Some ki -> key_trouble w ki m -> trouble cm w c m
  | trouble_parent t l1 ki l2 m : (forall x, In x (t :: l1) -> exists k, denotes w x k) -> key_trouble w ki m ->
      trouble cm w (CCommitTree t (l1 ++ ki :: l2)) m
  | trouble_head c : asks_head cm c -> no_head w -> trouble cm w c no_head_text
  | trouble_update ki k : denotes w ki k -> no_head w -> trouble cm w (CRefUpdate ki None) no_head_text
  | trouble_commit c n : needs_commit c -> rp_head (repo_of (cur_db w)) = Some n -> utf8_valid n = true ->
      history n None (repo_of (cur_db w)) = [] -> trouble cm w c no_ref_text
  | trouble_ref n rm : history n rm (repo_of (cur_db w)) = [] -> trouble cm w (CReflogGet n rm) no_ref_text.
  (** Without a repository, all but these have nowhere to look. *)
  Definition needs_repository (c : command) : Prop :=
    match c with CInit | CWalkFsTree _ => False | _ => True end.
End SpecFatal.
