(** Property theorems: C13 parameter file validation. *)
From Coq Require Import List String ZArith QArith Bool.
From Verif Require Import Py Validate_Model Validate_Spec Validate_Proof.
Import ListNotations.
Open Scope string_scope.

(** C13: a collection is accepted exactly when it conforms to the template. *)
Theorem C13_validate_iff_conforms : forall s v, validate_collection s v = Ok tt <-> conforms s v.
Proof. exact validate_iff. Qed.
Print Assumptions C13_validate_iff_conforms.

(** C13: otherwise KeyError, TypeError or ValueError (the classes the readers turn into ParamError). *)
Theorem C13_validate_errors : forall s v, wf_schema s ->
  validate_collection s v = Ok tt \/ validate_collection s v = Err KeyError \/
  validate_collection s v = Err TypeError \/ validate_collection s v = Err ValueError.
Proof. exact validate_errors. Qed.
Print Assumptions C13_validate_errors.

(** C13: an empty list never conforms to a list template. *)
Theorem C13_empty_list_rejected : forall ss, ~ conforms (SList ss) (PList []).
Proof. exact empty_list_rejected. Qed.
Print Assumptions C13_empty_list_rejected.

Example C13_case :
  let s := SMap Tstr (SDict [(KStr "im_size", SList [SType Tint; SType Tint]); (KStr "f", STypes [Tfloat; Tint])]) in
  wf_schema s /\
  validate_collection s (PDict [(KStr "a", PDict [(KStr "f", PInt 3); (KStr "im_size", PList [PInt 4; PInt 5]); (KStr "x", PNone)])]) = Ok tt /\
  validate_collection s (PDict [(KStr "a", PDict [(KStr "f", PInt 3)])]) = Err KeyError /\
  validate_collection s (PDict [(KStr "a", PDict [(KStr "f", PInt 3); (KStr "im_size", PList [PInt 4])])]) = Err ValueError /\
  validate_collection s (PDict [(KInt 1, PNone)]) = Err TypeError.
Proof.
  cbn zeta. split; [|repeat split].
  constructor. constructor; [discriminate|]. intros k s [E|[E|[]]]; inversion E; subst; constructor.
  intros x [<-|[<-|[]]]; constructor.
Qed.
