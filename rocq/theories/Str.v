(** Python string methods used by the modelled code, on ASCII strings. *)
From Coq Require Import String Ascii List Bool Arith.
From Verif Require Import Params_Model.
Import ListNotations.
Open Scope string_scope.

(** [s.split(c)] for a separator of one character. *)
Fixpoint split_on (c : ascii) (s : string) : list string :=
  match s with
  | EmptyString => [""]
  | String x s' =>
    if Ascii.eqb x c then "" :: split_on c s'
    else match split_on c s' with
         | [] => [String x ""]
         | w :: ws => String x w :: ws
         end
  end.

(** [s.lstrip(chars)]. *)
Fixpoint lstrip (cs : list ascii) (s : string) : string :=
  match s with
  | EmptyString => ""
  | String x s' => if existsb (Ascii.eqb x) cs then lstrip cs s' else s
  end.

(** [s.rstrip(chars)]. *)
Fixpoint rstrip (cs : list ascii) (s : string) : string :=
  match s with
  | EmptyString => ""
  | String x s' => match rstrip cs s' with
                   | EmptyString => if existsb (Ascii.eqb x) cs then "" else String x ""
                   | r => String x r
                   end
  end.

(** [s.strip(chars)]. *)
Definition strip (cs : list ascii) (s : string) : string := rstrip cs (lstrip cs s).

(** The ASCII white space of [s.strip()]. *)
Definition white : list ascii := map ascii_of_nat [32; 9; 10; 11; 12; 13; 28; 29; 30; 31].

(** [s.startswith(p)]. *)
Definition startswith (p s : string) : bool := String.prefix p s.

(** [s[n:]]. *)
Definition drop (n : nat) (s : string) : string := substring n (String.length s - n) s.

(** [t in s]. *)
Definition contains (t s : string) : bool := match index 0 t s with Some _ => true | None => false end.
