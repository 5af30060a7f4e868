(** What data type conversion should do, without reference to how it is done. *)
From Coq Require Import ZArith QArith Qabs.
From Verif Require Import Dtype_Model.
Open Scope Z_scope.

(** The kinds of data types: unsigned or signed integers of [n] bits, and floats with a [p] bit significand and largest
    exponent [e]. *)
Inductive kind := Unsigned (n : Z) | Signed (n : Z) | Float (p e : Z).
Definition kind_of (d : dtype) : kind :=
  match d with
  | U8 => Unsigned 8 | U16 => Unsigned 16 | U32 => Unsigned 32
  | I8 => Signed 8 | I16 => Signed 16 | I32 => Signed 32
  | F32 => Float 24 127 | F64 => Float 53 1023
  end.

(** The smallest and largest values of a type. *)
Definition hi (d : dtype) : Z :=
  match kind_of d with
  | Unsigned n => 2 ^ n - 1
  | Signed n => 2 ^ (n - 1) - 1
  | Float p e => (2 ^ p - 1) * 2 ^ (e - p + 1)
  end.
Definition lo (d : dtype) : Z :=
  match kind_of d with
  | Unsigned _ => 0
  | Signed n => - 2 ^ (n - 1)
  | Float _ _ => - hi d
  end.

Definition integer_type (d : dtype) : Prop := match kind_of d with Float _ _ => False | _ => True end.
Definition float_type (d : dtype) : Prop := ~ integer_type d.

(** [x] is a value an array of type [d] can hold. *)
Definition holds (d : dtype) (x : Q) : Prop :=
  (inject_Z (lo d) <= x <= inject_Z (hi d))%Q /\
  (integer_type d -> exists n, (x == inject_Z n)%Q).

(** [n] is the integer nearest to [x], the even one of two equally near. *)
Definition nearest_even (x : Q) (n : Z) : Prop :=
  (Qabs (x - inject_Z n) <= 1 # 2)%Q /\
  ((Qabs (x - inject_Z n) == 1 # 2)%Q -> Z.even n = true).
