(** Model of [validate_collection] (orthority/common.py:164-220). *)
From Coq Require Import List String ZArith QArith Bool.
From Verif Require Import Py.
Import ListNotations.

(** Values as loaded from JSON or YAML.  [PNanF] stands for the non-finite floats; finite floats are
    rationals. Tuples, sets and dates are not modelled. *)
Inductive pykey := KStr (s : string) | KInt (z : Z).

Inductive pyval :=
| PNone
| PBool (b : bool)
| PInt (z : Z)
| PFloat (q : Q)
| PNanF
| PStr (s : string)
| PList (l : list pyval)
| PDict (d : list (pykey * pyval)).

(** Python types that appear in templates. *)
Inductive pytype := Tstr | Tint | Tfloat | Tbool | Tlist | Tdict.

(** [isinstance(v, t)]; [bool] is a subclass of [int]. *)
Definition isinstance (v : pyval) (t : pytype) : bool :=
  match v, t with
  | PStr _, Tstr => true
  | PInt _, Tint => true
  | PBool _, Tint => true
  | PBool _, Tbool => true
  | PFloat _, Tfloat => true
  | PNanF, Tfloat => true
  | PList _, Tlist => true
  | PDict _, Tdict => true
  | _, _ => false
  end.

Definition key_val (k : pykey) : pyval := match k with KStr s => PStr s | KInt z => PInt z end.

Definition key_eqb (a b : pykey) : bool :=
  match a, b with
  | KStr s, KStr t => String.eqb s t
  | KInt y, KInt z => Z.eqb y z
  | _, _ => false
  end.

Fixpoint kget {V} (k : pykey) (d : list (pykey * V)) : option V :=
  match d with
  | [] => None
  | (k', v) :: d' => if key_eqb k k' then Some v else kget k d'
  end.

(** Templates.  A template dict is either one item with a type key ([SMap]) or items with value keys
    ([SDict]); a template list ([SList]); a type; a tuple of types; a str / int / float value; None; or
    anything else ([SOther], e.g. a tuple with non-types). *)
Inductive schema :=
| SMap (t : pytype) (s : schema)
| SDict (items : list (pykey * schema))
| SList (items : list schema)
| SType (t : pytype)
| STypes (ts : list pytype)
| SStr (s : string)
| SInt (z : Z)
| SFloat (q : Q)
| SNone
| SOther.

(** Python [==] between a loaded value and an int or float template value. *)
Definition num_eq (v : pyval) (q : Q) : bool :=
  match v with
  | PBool b => Qeq_bool (if b then 1 else 0)%Q q
  | PInt z => Qeq_bool (inject_Z z) q
  | PFloat r => Qeq_bool r q
  | _ => false
  end.

(** common.py:164-220. *)
Fixpoint validate_collection (s : schema) (coll : pyval) {struct s} : res unit :=
  match s with
  (* 179-192: schema is a dict *)
  | SMap t s' =>
    match coll with
    | PDict d =>
      iterM (fun kv => if negb (isinstance (key_val (fst kv)) t) then Err TypeError
                       else validate_collection s' (snd kv)) d
    | _ => Err ValueError
    end
  | SDict items =>
    match coll with
    | PDict d =>
      match items with
      | [] => Err IndexError  (* [*schema][0] *)
      | _ =>
        (fix go (l : list (pykey * schema)) : res unit :=
           match l with
           | [] => Ok tt
           | (k, s') :: l' =>
             match kget k d with
             | Some v => do _ <- validate_collection s' v; go l'
             | None => Err KeyError
             end
           end) items
      end
    | _ => Err ValueError
    end
  (* 193-202: schema is a list *)
  | SList items =>
    match coll with
    | PList l =>
      match items, l with
      | [], _ => Err ValueError
      | _, [] => Err ValueError
      | [s'], _ => iterM (validate_collection s') l
      | _, _ =>
        if negb (List.length l =? List.length items)%nat then Err ValueError
        else
          (fix go (ss : list schema) (vs : list pyval) : res unit :=
             match ss, vs with
             | s' :: ss', v :: vs' => do _ <- validate_collection s' v; go ss' vs'
             | _, _ => Ok tt
             end) items l
      end
    | _ => Err ValueError
    end
  (* 203-206 *)
  | SType t => if isinstance coll t then Ok tt else Err TypeError
  (* 207-210 *)
  | STypes ts => if existsb (isinstance coll) ts then Ok tt else Err TypeError
  (* 211-214 *)
  | SStr x => match coll with PStr y => if String.eqb y x then Ok tt else Err ValueError | _ => Err ValueError end
  | SInt z => if num_eq coll (inject_Z z) then Ok tt else Err ValueError
  | SFloat q => if num_eq coll q then Ok tt else Err ValueError
  (* 215-217 *)
  | SNone => Ok tt
  (* 218-220 *)
  | SOther => Err ValueError
  end.
