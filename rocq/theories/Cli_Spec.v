(** Vocabulary for the command line properties. *)
From Coq Require Import String List.
From Verif Require Import Py Factory_Model Files_Model.
Import ListNotations.
Open Scope string_scope.

(** The first value there is. *)
Inductive first_some {A} : list (option A) -> A -> Prop :=
| first_here : forall a l, first_some (Some a :: l) a
| first_later : forall a l, first_some l a -> first_some (None :: l) a.

(** The name of a source without its folder and extension. *)
Definition src_stem (src : string) : string := stem (path_name src).

(** No step of processing fails. *)
Definition no_failure (e : env) (build_ovw : bool) : Prop :=
  forall s, In s ([ProgressBar; OpenInputs; DemInterpArg; ReprojectDem; MaskDem; CreateProfile; RioOpen; ColorInterp; InterpArg; Tiles] ++
                  (if build_ovw then [Overviews] else [])) -> raises e s = None.

(** The content of the output after processing. *)
Definition finished (e : env) (build_ovw : bool) : string := content_after e (if build_ovw then Overviews else Tiles).

(** The CRS of a source, if it can be opened and has one. *)
Definition own_crs {C} (src_open : string -> res (option C)) (src : string) : option C :=
  match src_open src with Ok c => c | Err _ => None end.

(** The value of a creation option: nothing for some words, otherwise what YAML reads in the text. *)
Definition option_value {V} (none : V) (safe_load : string -> res V) (v : string) (x : V) : Prop :=
  (In v ["none"; "null"; "nil"] /\ x = none) \/ (~ In v ["none"; "null"; "nil"] /\ safe_load v = Ok x).
