(** Property theorems: C08 data type conversion. *)
From Coq Require Import List ZArith QArith Qabs Bool Lia.
From Verif Require Import Dtype_Model Dtype_Spec Dtype_Proof.
Import ListNotations.
Open Scope Z_scope.

(** C08: conversion to an integer type rounds to nearest even and clamps to the type's range. *)
Theorem C08_convert_to_integer : forall src dst xs,
  integer_type dst -> (forall x, In x xs -> holds src x) ->
  Forall2 (fun x y => exists n, nearest_even x n /\
             (y == inject_Z (Z.max (lo dst) (Z.min (hi dst) n)))%Q)
          xs (convert_array_dtype src dst xs).
Proof. exact convert_array_int_s. Qed.
Print Assumptions C08_convert_to_integer.

(** C08: rounding to nearest even determines the integer. *)
Theorem C08_nearest_even_unique : forall x n m, nearest_even x n -> nearest_even x m -> n = m.
Proof. exact nearest_even_unique. Qed.
Print Assumptions C08_nearest_even_unique.

(** C08: the result is in range, and no integer in range is nearer. *)
Theorem C08_convert_nearest : forall src dst x k,
  holds src x -> integer_type dst -> lo dst <= k <= hi dst ->
  holds dst (convert_elem src dst x) /\
  (Qabs (x - convert_elem src dst x) <= Qabs (x - inject_Z k))%Q.
Proof. exact convert_nearest_s. Qed.
Print Assumptions C08_convert_nearest.

(** C08: conversion to a floating type neither rounds nor clips. *)
Theorem C08_convert_to_float : forall src dst xs, float_type dst -> convert_array_dtype src dst xs = xs.
Proof. exact convert_float_s. Qed.
Print Assumptions C08_convert_to_float.

(** C08: values the destination type can hold are unchanged. *)
Theorem C08_convert_representable : forall src dst x,
  holds src x -> holds dst x -> (convert_elem src dst x == x)%Q.
Proof. exact convert_representable_s. Qed.
Print Assumptions C08_convert_representable.

(** C08: conversion is monotone. *)
Theorem C08_convert_monotone : forall src dst x y,
  holds src x -> holds src y -> (x <= y)%Q -> (convert_elem src dst x <= convert_elem src dst y)%Q.
Proof. exact convert_monotone_s. Qed.
Print Assumptions C08_convert_monotone.

Example C08_case :
  convert_array_dtype F64 U8 [-3#2; 1#2; 3#2; 5#2; 511#2; 1000#1] = map inject_Z [0; 0; 2; 2; 255; 255] /\
  convert_array_dtype I16 U16 [-5#1; 7#1] = map inject_Z [0; 7] /\
  convert_array_dtype U16 I16 [40000#1] = [inject_Z 32767].
Proof. repeat split; reflexivity. Qed.

Example C08_hyp : holds F64 (511#2) /\ holds I16 (-5#1) /\ integer_type U8.
Proof.
  assert (L : forall a b, Z.leb a b = true -> (inject_Z a <= inject_Z b)%Q).
  { intros a b H. rewrite <- Zle_Qle. apply Z.leb_le. exact H. }
  split; [split; [split; vm_compute; discriminate|intros []]|].
  split; [split; [split; vm_compute; discriminate|intros _; exists (-5); reflexivity]|exact I].
Qed.
