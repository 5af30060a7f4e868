(** Vocabulary for the frame camera properties. *)
From Coq Require Import List Reals ZArith.
From Verif Require Import Py Flt Mat Rot_Model Frame_Model.
Import ListNotations.
Open Scope R_scope.

(** Camera coordinates of a world point: x right, y down, z along the optical axis. *)
Definition camera_coords (c : frame) (p : vec) : vec := mvec (mtr (fr_R c)) (vsub p (fr_T c)).

(** A lens whose two directions invert each other, at a pixel or at a point of the image plane. *)
Definition inverts_pixel (l : lens) (ji : R * R) : Prop := l_fwd l (l_inv l ji) = num2 ji.
Definition inverts_point (l : lens) (xy : R * R) : Prop := exists ji, l_fwd l xy = num2 ji /\ l_inv l ji = xy.

(** Ideal image of a point in camera coordinates. *)
Definition pinhole_pixel (k : intr) (v : vec) : fl * fl :=
  if Req_EM_T (vz v) 0 then (Nan, Nan)
  else (Num (kfx k * (vx v / vz v) + kcx k), Num (kfy k * (vy v / vz v) + kcy k)).

(** The OpenCV distortion model (OpenCV documentation of calib3d) for coefficients
    (k1, k2, p1, p2[, k3[, k4, k5, k6[, s1, s2, s3, s4]]]); missing coefficients are 0.  The tilted sensor coefficients
    (tx, ty) are left out. *)
Definition coeff (l : list R) (n : nat) : R := nth n l 0.
Definition opencv_distort (d : list R) (xy : R * R) : R * R :=
  let (x, y) := xy in
  let r2 := x ^ 2 + y ^ 2 in
  let '(k1, k2, p1, p2, k3) := (coeff d 0, coeff d 1, coeff d 2, coeff d 3, coeff d 4) in
  let '(k4, k5, k6) := (coeff d 5, coeff d 6, coeff d 7) in
  let '(s1, s2, s3, s4) := (coeff d 8, coeff d 9, coeff d 10, coeff d 11) in
  let radial := (1 + k1 * r2 + k2 * r2 ^ 2 + k3 * r2 ^ 3) / (1 + k4 * r2 + k5 * r2 ^ 2 + k6 * r2 ^ 3) in
  (x * radial + 2 * p1 * x * y + p2 * (r2 + 2 * x ^ 2) + s1 * r2 + s2 * r2 ^ 2,
   y * radial + p1 * (r2 + 2 * y ^ 2) + 2 * p2 * x * y + s3 * r2 + s4 * r2 ^ 2).

(** The OpenCV fisheye model: an angle theta off axis is imaged at radius theta_d. *)
Definition fisheye_poly (k1 k2 k3 k4 theta : R) : R :=
  theta * (1 + k1 * theta ^ 2 + k2 * theta ^ 4 + k3 * theta ^ 6 + k4 * theta ^ 8).

(** Pixels of the image, as a continuous rectangle through the centres of the corner pixels. *)
Definition in_image (w h : Z) (ji : R * R) : Prop := 0 <= fst ji <= IZR w - 1 /\ 0 <= snd ji <= IZR h - 1.

(** Heights that go with [n] pixels: a single value, or a 1D array with one value per pixel, one value, or any number of
    values for one pixel. *)
Definition compatible (z : zarg) (n : nat) : Prop :=
  match z with
  | ZScalar _ => True
  | ZVec zs => length zs = n \/ length zs = 1%nat \/ n = 1%nat
  | ZNd => False
  end.

(** The height array the z argument stands for. *)
Definition zlist (z : zarg) : list fl := match z with ZScalar z => [z] | ZVec zs => zs | ZNd => [] end.

(** Number of points: that of the pixels, or of the heights for a single pixel. *)
Definition out_len (n m : nat) : nat := if Nat.eqb n 1 then m else n.
