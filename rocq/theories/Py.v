(** Shared Python vocabulary: exceptions as values and insertion ordered dictionaries. *)
From Coq Require Import List String ZArith Bool.
Import ListNotations.

(** Exception classes raised by, or propagating through, the modelled code (orthority/errors.py and
    Python / numpy / rasterio built-ins).  Messages are not modelled. *)
Inductive exn :=
| KeyError | TypeError | ValueError | IndexError | AttributeError | StopIteration
| FileExistsError | FileNotFoundError | RuntimeError | OSError | ZeroDivisionError
| OrthorityError | ParamError | CameraInitError | CrsMissingError | CrsError | BadParameter
| WindowError | SerializeError | ExternalError | UsageError | MissingParameter.

(** Result of a call: a value, or the exception that leaves it. *)
Inductive res (A : Type) :=
| Ok (a : A)
| Err (e : exn).
Arguments Ok {A} a.
Arguments Err {A} e.

Definition bind {A B} (m : res A) (f : A -> res B) : res B :=
  match m with Ok a => f a | Err e => Err e end.

Definition rmap {A B} (f : A -> B) (m : res A) : res B :=
  match m with Ok a => Ok (f a) | Err e => Err e end.

Notation "'do' x <- m ; k" := (bind m (fun x => k))
  (at level 200, x pattern, m at level 100, k at level 200, right associativity).

(** [for x in l: ys.append(f(x))], stopping at the first exception. *)
Fixpoint mapM {A B} (f : A -> res B) (l : list A) : res (list B) :=
  match l with
  | [] => Ok []
  | x :: l' => do y <- f x; do ys <- mapM f l'; Ok (y :: ys)
  end.

(** [for x in l: f(x)], stopping at the first exception. *)
Fixpoint iterM {A} (f : A -> res unit) (l : list A) : res unit :=
  match l with
  | [] => Ok tt
  | x :: l' => do _ <- f x; iterM f l'
  end.

Definition is_ok {A} (m : res A) : bool := match m with Ok _ => true | Err _ => false end.

(** Python dictionaries with string keys: association lists in insertion order.  Assigning to an
    existing key replaces its value in place; a new key goes last. *)
Definition dict (V : Type) := list (string * V).

Fixpoint dget {V} (k : string) (d : dict V) : option V :=
  match d with
  | [] => None
  | (k', v) :: d' => if String.eqb k k' then Some v else dget k d'
  end.

Fixpoint dset {V} (k : string) (v : V) (d : dict V) : dict V :=
  match d with
  | [] => [(k, v)]
  | (k', v') :: d' => if String.eqb k k' then (k', v) :: d' else (k', v') :: dset k v d'
  end.

Fixpoint ddel {V} (k : string) (d : dict V) : dict V :=
  match d with
  | [] => []
  | (k', v') :: d' => if String.eqb k k' then d' else (k', v') :: ddel k d'
  end.

(** [d.update(e)]: assign the items of [e] in order. *)
Definition dupdate {V} (d e : dict V) : dict V :=
  fold_left (fun acc kv => dset (fst kv) (snd kv) acc) e d.

Definition dmem {V} (k : string) (d : dict V) : bool :=
  match dget k d with Some _ => true | None => false end.

Notation dkeys := (map fst) (only parsing).

(** [dict(items)]: build by successive assignment. *)
Definition dict_of {V} (items : list (string * V)) : dict V := dupdate [] items.
