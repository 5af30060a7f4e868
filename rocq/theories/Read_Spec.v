(** What the readers of many image files are meant to give. *)
From Coq Require Import String List Arith.
From Verif Require Import Py Read_Model.
Import ListNotations.

(** The last of a list of named values with a name. *)
Fixpoint last_named {V} (k : string) (l : list (string * V)) : option V :=
  match l with
  | [] => None
  | (k', v) :: l' => match last_named k l' with
                     | Some w => Some w
                     | None => if String.eqb k k' then Some v else None
                     end
  end.

(** The names in order of their first use. *)
Fixpoint first_names (l : list string) : list string :=
  match l with
  | [] => []
  | k :: l' => k :: filter (fun k' => negb (String.eqb k k')) (first_names l')
  end.

(** The outcome of reading files one after the other: the dictionary of all of them, with names in file order and the value
    of the last file of each name; or the error of the first file that fails. *)
Definition reads_as {F V} (task : F -> res (string * V)) (wrapped : exn -> exn) (files : list F) (out : res (dict V)) : Prop :=
  match out with
  | Ok d => exists items, Forall2 (fun f item => task f = Ok item) files items /\
              map fst d = first_names (map fst items) /\ forall k, dget k d = last_named k items
  | Err e => exists before f after e', files = before ++ f :: after /\ (forall g, In g before -> exists item, task g = Ok item) /\
              task f = Err e' /\ e = wrapped e'
  end.

(** Every file is finished at some point of a schedule, and the collecting loop runs often enough afterwards. *)
Definition complete {F} (files : list F) (evs : list event) : Prop :=
  exists before, evs = before ++ repeat Collect (S (List.length files)) /\
    forall i, i < List.length files -> In (Finish i) before.
