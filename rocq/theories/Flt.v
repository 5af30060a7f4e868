(** Floating point numbers as reals plus one not-a-number value.  Rounding is not modelled.  Infinities
    are not distinguished from NaN: the only modelled sources of either are division by zero and NaN
    inputs. *)
From Coq Require Import Reals.
Open Scope R_scope.

Inductive fl := Nan | Num (r : R).

Definition flift1 (f : R -> R) (a : fl) : fl := match a with Num x => Num (f x) | Nan => Nan end.

Definition flift2 (f : R -> R -> R) (a b : fl) : fl :=
  match a, b with Num x, Num y => Num (f x y) | _, _ => Nan end.

Definition fadd := flift2 Rplus.
Definition fsub := flift2 Rminus.
Definition fmul := flift2 Rmult.

(** IEEE division, with 0/0 and x/0 both [Nan]. *)
Definition fdiv (a b : fl) : fl :=
  match a, b with
  | Num x, Num y => if Req_EM_T y 0 then Nan else Num (x / y)
  | _, _ => Nan
  end.

Definition fisnan (a : fl) : bool := match a with Nan => true | Num _ => false end.
