(** Vocabulary for the file properties. *)
From Coq Require Import List String Bool.
From Verif Require Import Py Files_Model.
Open Scope string_scope.

(** The paths a call may write, and whether it was allowed to overwrite. *)
Definition writes (c : call) (path : string) : Prop :=
  match c with
  | CWrite (TPath p) _ _ | CWrite (TOpenFile p _) _ _ => path = p
  | CWrite (TFileObj _ _) _ _ => False
  | CFrame d _ _ _ _ => path = pjoin d "int_param.yaml" \/ path = pjoin d "ext_param.geojson"
  | CRpc d _ _ _ => path = pjoin d "rpc_param.yaml" \/ path = pjoin d "gcps.geojson"
  | COrtho _ p _ _ | CPan _ p _ _ => path = p
  end.

Definition overwriting (c : call) : Prop :=
  match c with
  | CWrite _ _ o | CFrame _ _ _ _ o | CRpc _ _ _ o | COrtho _ _ o _ | CPan _ _ o _ => o = true
  end.

(** Same content, path by path. *)
Definition same_except (paths : string -> Prop) (a b : fsys) : Prop :=
  forall p, ~ paths p -> dget p a = dget p b.

Definition same_fs (a b : fsys) : Prop := forall p, dget p a = dget p b.

(** The steps before the output is opened. *)
Definition ortho_before (s : step) : Prop :=
  In s (ProgressBar :: OpenInputs :: DemInterpArg :: ReprojectDem :: MaskDem :: CreateProfile :: RioOpen :: nil).
Definition pan_before (s : step) : Prop :=
  In s (InterpArg :: OpenInputs :: ValidateParams :: CreateProfile :: RioOpen :: nil).
