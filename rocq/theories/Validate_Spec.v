(** The documented meaning of templates (docstring of [validate_collection], common.py:166-175). *)
From Coq Require Import List String ZArith QArith.
From Verif Require Import Py Validate_Model.
Import ListNotations.

(** [v] equals the number [q]. *)
Inductive equals_num : pyval -> Q -> Prop :=
| EN_true : forall q, (q == 1)%Q -> equals_num (PBool true) q
| EN_false : forall q, (q == 0)%Q -> equals_num (PBool false) q
| EN_int : forall z q, (inject_Z z == q)%Q -> equals_num (PInt z) q
| EN_float : forall r q, (r == q)%Q -> equals_num (PFloat r) q.

(** [v] is an instance of a Python type; a [bool] is also an [int], and NaN and infinities are [float]s. *)
Inductive has_type : pyval -> pytype -> Prop :=
| HT_str : forall s, has_type (PStr s) Tstr
| HT_int : forall z, has_type (PInt z) Tint
| HT_bool_int : forall b, has_type (PBool b) Tint
| HT_bool : forall b, has_type (PBool b) Tbool
| HT_float : forall q, has_type (PFloat q) Tfloat
| HT_nonfinite : has_type PNanF Tfloat
| HT_list : forall l, has_type (PList l) Tlist
| HT_dict : forall d, has_type (PDict d) Tdict.

Definition key_has_type (k : pykey) (t : pytype) : Prop :=
  match k with KStr _ => t = Tstr | KInt _ => t = Tint end.

(** The (first) value under a key. *)
Definition at_key (d : list (pykey * pyval)) (k : pykey) (v : pyval) : Prop :=
  exists d1 d2, d = d1 ++ (k, v) :: d2 /\ ~ In k (map fst d1).

Inductive conforms : schema -> pyval -> Prop :=
| CF_map : forall t s d,  (* every item conforms to the one template item *)
    (forall k v, In (k, v) d -> key_has_type k t /\ conforms s v) ->
    conforms (SMap t s) (PDict d)
| CF_dict : forall items d,  (* every template key is there, with a conforming value *)
    items <> [] ->
    (forall k s, In (k, s) items -> exists v, at_key d k v /\ conforms s v) ->
    conforms (SDict items) (PDict d)
| CF_list_all : forall s l,  (* every item conforms to the one template item *)
    l <> [] -> (forall v, In v l -> conforms s v) ->
    conforms (SList [s]) (PList l)
| CF_list_each : forall ss l,  (* items conform one by one *)
    (2 <= List.length ss)%nat -> Forall2 conforms ss l ->
    conforms (SList ss) (PList l)
| CF_type : forall t v, has_type v t -> conforms (SType t) v
| CF_types : forall ts t v, In t ts -> has_type v t -> conforms (STypes ts) v
| CF_str : forall s, conforms (SStr s) (PStr s)
| CF_int : forall z v, equals_num v (inject_Z z) -> conforms (SInt z) v
| CF_float : forall q v, equals_num v q -> conforms (SFloat q) v
| CF_none : forall v, conforms SNone v.

(** Templates without an empty dict (for which Python raises IndexError). *)
Inductive wf_schema : schema -> Prop :=
| WF_map : forall t s, wf_schema s -> wf_schema (SMap t s)
| WF_dict : forall items, items <> [] -> (forall k s, In (k, s) items -> wf_schema s) -> wf_schema (SDict items)
| WF_list : forall ss, (forall s, In s ss -> wf_schema s) -> wf_schema (SList ss)
| WF_type : forall t, wf_schema (SType t)
| WF_types : forall ts, wf_schema (STypes ts)
| WF_str : forall s, wf_schema (SStr s)
| WF_int : forall z, wf_schema (SInt z)
| WF_float : forall q, wf_schema (SFloat q)
| WF_none : wf_schema SNone
| WF_other : wf_schema SOther.
