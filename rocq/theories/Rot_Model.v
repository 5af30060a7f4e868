(** Model of the orientation conversions of orthority/param_io.py, over the reals. *)
From Coq Require Import Reals Rtrigo Ratan.
From Verif Require Import Mat.
Open Scope R_scope.

(** [np.arctan2(y, x)].  Signed zeros are not modelled: -0.0 is 0. *)
Definition atan2 (y x : R) : R :=
  if Rlt_dec 0 x then atan (y / x)
  else if Rlt_dec x 0 then (if Rle_dec 0 y then atan (y / x) + PI else atan (y / x) - PI)
  else if Rlt_dec 0 y then PI / 2
  else if Rlt_dec y 0 then - (PI / 2)
  else 0.

(** param_io.py:703-713 [_rpy_to_rotation]. *)
Definition rpy_to_rotation (roll pitch yaw : R) : mat :=
  let R_x := mk 1 0 0  0 (cos roll) (- sin roll)  0 (sin roll) (cos roll) in
  let R_y := mk (cos pitch) 0 (sin pitch)  0 1 0  (- sin pitch) 0 (cos pitch) in
  let R_z := mk (cos yaw) (- sin yaw) 0  (sin yaw) (cos yaw) 0  0 0 1 in
  mmul (mmul R_z R_y) R_x.

(** param_io.py:716-727 [_opk_to_rotation]. *)
Definition opk_to_rotation (omega phi kappa : R) : mat :=
  let R_x := mk 1 0 0  0 (cos omega) (- sin omega)  0 (sin omega) (cos omega) in
  let R_y := mk (cos phi) 0 (sin phi)  0 1 0  (- sin phi) 0 (cos phi) in
  let R_z := mk (cos kappa) (- sin kappa) 0  (sin kappa) (cos kappa) 0  0 0 1 in
  mmul (mmul R_x R_y) R_z.

(** param_io.py:730-736 [_rotation_to_opk].  [asin] is numpy's on [-1, 1]; outside it numpy gives NaN. *)
Definition rotation_to_opk (r : mat) : R * R * R :=
  (atan2 (- vz (row1 r)) (vz (row2 r)), asin (vz (row0 r)), atan2 (- vy (row0 r)) (vx (row0 r))).

(** OpenSfM / OpenCV to PATB axes, e.g. param_io.py:747. *)
Definition flip_yz : mat := mk 1 0 0  0 (-1) 0  0 0 (-1).

(** param_io.py:739-752 [_aa_to_opk], given the matrix [cv2.Rodrigues(aa)[0]]. *)
Definition aa_to_opk (rodrigues : mat) : R * R * R := rotation_to_opk (mmul (mtr rodrigues) flip_yz).

(** param_io.py:753-835 [_rpy_to_opk]: [to_world] is the CRS transform from (lat, lon, alt) to world coordinates. *)
Definition rpy_to_opk (roll pitch yaw : R) (lat lon alt : R) (to_world : R -> R -> R -> vec) (C_bB : option mat) : R * R * R :=
  let C_nb := rpy_to_rotation roll pitch yaw in
  let delta := / 10000000 in
  let p1 := to_world (lat + delta) lon alt in
  let p2 := to_world (lat - delta) lon alt in
  let d := vsub p1 p2 in
  let m := sqrt (dot d d) in
  let x_np := V3 (vx d / m) (vy d / m) (vz d / m) in
  let z_np := V3 0 0 (-1) in
  let y_np := cross z_np x_np in
  let C_En := mtr (M3 x_np y_np z_np) in
  let C_bB := match C_bB with Some c => c | None => mk 0 1 0  1 0 0  0 0 (-1) end in
  rotation_to_opk (mmul (mmul C_En C_nb) C_bB).

(** param_io.py:838-856 [_cv_ext_to_oty_ext], given the matrix [cv2.Rodrigues(r)[0]]. *)
Definition cv_ext_to_oty_ext (t : vec) (rodrigues : mat) (ref_xyz : option vec) : vec * (R * R * R) :=
  let r := mtr rodrigues in
  let xyz := vscale (-1) (mvec r t) in
  let xyz := match ref_xyz with Some ref => vadd xyz ref | None => xyz end in
  (xyz, rotation_to_opk (mmul r flip_yz)).

(** camera.py:697-715 [FrameCamera._get_extrinsic]: the rotation for given angles. *)
Definition extrinsic_rotation (opk : R * R * R) : mat :=
  let '(omega, phi, kappa) := opk in mmul (opk_to_rotation omega phi kappa) flip_yz.
