(** RPC parameter documents (C100). *)
From Coq Require Import String List Reals ZArith.
From Verif Require Import Py Flt Mat Rpc_Model Validate_Model Params_Model Params_Spec Rcam_Spec Make_Spec Scene_Spec.
From Verif Require Factory_Spec.
Import ListNotations.
Open Scope string_scope.
Open Scope list_scope.
Open Scope Z_scope.

Definition is_float (v : pyval) : Prop := exists q, v = PFloat q.

(** docs/file_formats/oty_rpc.rst: an image of an RPC parameter file, with values as the library writes them: floats, except for offsets and scales in pixels,
    and 20 coefficients. *)
Record image_rpc := ImageRpc { ir_name : string; ir_w : Z; ir_h : Z; ir_rpc : rpc }.

Definition rpc_in (kv : pykey * pyval) (e : image_rpc) : Prop :=
  fst kv = KStr (ir_name e) /\ at_key (snd kv) "im_size" (PList [PInt (ir_w e); PInt (ir_h e)]) /\
  exists items, at_key (snd kv) "rpc" (PDict items) /\ rpc_items items (ir_rpc e) /\
  (forall k v, In k ["long_off"; "lat_off"; "height_off"; "long_scale"; "lat_scale"; "height_scale"] -> kget (KStr k) items = Some v -> is_float v) /\
  (forall k l, In k coeff_names -> kget (KStr k) items = Some (PList l) -> List.length l = 20%nat /\ Forall is_float l).

Definition rpcs_in (doc : pyval) (l : list image_rpc) : Prop := exists d, doc = PDict d /\ NoDup (map fst d) /\ Forall2 rpc_in d l.

(** The parameters of an image: those with its name, or else with that without extension. *)
Definition rpc_named (l : list image_rpc) (n : string) (e : image_rpc) : Prop := In e l /\ ir_name e = n.
Inductive rpc_for (l : list image_rpc) (name : string) (e : image_rpc) : Prop :=
| rpc_same_name : rpc_named l name e -> rpc_for l name e
| rpc_same_stem : forall st, (forall e', ~ rpc_named l name e') -> Factory_Spec.without_extension name st -> rpc_named l st e -> rpc_for l name e.
