(** Vectors and matrices of dimension 3 over the reals. *)
From Coq Require Import Reals.
Open Scope R_scope.

Record vec := V3 { vx : R; vy : R; vz : R }.
(** A matrix, by rows. *)
Record mat := M3 { row0 : vec; row1 : vec; row2 : vec }.

Definition mk (a b c d e f g h i : R) : mat := M3 (V3 a b c) (V3 d e f) (V3 g h i).

Definition dot (u v : vec) : R := vx u * vx v + vy u * vy v + vz u * vz v.
Definition vadd (u v : vec) : vec := V3 (vx u + vx v) (vy u + vy v) (vz u + vz v).
Definition vsub (u v : vec) : vec := V3 (vx u - vx v) (vy u - vy v) (vz u - vz v).
Definition vscale (s : R) (v : vec) : vec := V3 (s * vx v) (s * vy v) (s * vz v).
Definition cross (u v : vec) : vec :=
  V3 (vy u * vz v - vz u * vy v) (vz u * vx v - vx u * vz v) (vx u * vy v - vy u * vx v).

(** [A.T] *)
Definition mtr (a : mat) : mat :=
  M3 (V3 (vx (row0 a)) (vx (row1 a)) (vx (row2 a)))
     (V3 (vy (row0 a)) (vy (row1 a)) (vy (row2 a)))
     (V3 (vz (row0 a)) (vz (row1 a)) (vz (row2 a))).
(** [A.dot(v)] *)
Definition mvec (a : mat) (v : vec) : vec := V3 (dot (row0 a) v) (dot (row1 a) v) (dot (row2 a) v).
(** [A.dot(B)] *)
Definition mmul (a b : mat) : mat :=
  let bt := mtr b in M3 (mvec bt (row0 a)) (mvec bt (row1 a)) (mvec bt (row2 a)).
Definition mI : mat := mk 1 0 0 0 1 0 0 0 1.
Definition det (a : mat) : R := dot (row0 a) (cross (row1 a) (row2 a)).

(** A proper rotation. *)
Definition rotation (a : mat) : Prop := mmul (mtr a) a = mI /\ det a = 1.
