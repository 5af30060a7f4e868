(** Model of the frame camera fitting of orthority/fit.py.  The OpenCV solvers are arguments.  Float32 rounding of the
    coordinates passed to them is not modelled. *)
From Coq Require Import String List Reals ZArith Bool.
From Verif Require Import Py Flt Mat Rot_Model Frame_Model Rpc_Model.
Import ListNotations.
Open Scope R_scope.

(** enums.py:38-79 [CameraType], the frame cameras. *)
Inductive ctype := Pinhole | Brown | OpenCV | Fisheye.

(** fit.py:39 [_frame_dist_params], i.e. param_io.py:56-64 without the first 3 names. *)
Definition dist_names (t : ctype) : list string :=
  match t with
  | Pinhole => []
  | OpenCV => ["k1"; "k2"; "p1"; "p2"; "k3"; "k4"; "k5"; "k6"; "s1"; "s2"; "s3"; "s4"; "tx"; "ty"]
  | Brown => ["k1"; "k2"; "p1"; "p2"; "k3"]
  | Fisheye => ["k1"; "k2"; "k3"; "k4"]
  end%string.

(** fit.py:41 [_frame_num_params]. *)
Definition num_params (t : ctype) : nat := (length (dist_names t) + 6)%nat.

(** The interior parameters of a camera; absent optional values are [None]. *)
Record int_param := IntParam {
  ip_type : ctype; ip_w : Z; ip_h : Z; ip_focal : list R; ip_sensor : option (list R);
  ip_cx : option R; ip_cy : option R; ip_dist : dict R }.

Definition or0 (o : option R) : R := match o with Some x => x | None => 0 end.

(** The intrinsic matrix of a camera with given parameters: fit.py:330-337 and camera.py:608. *)
Definition ip_intrinsic (p : int_param) : res intr :=
  get_intrinsic (ip_w p) (ip_h p) (ip_focal p) (ip_sensor p) (or0 (ip_cx p)) (or0 (ip_cy p)).

Section Fit.

(** The distortion of OpenCV's [projectPoints] for given coefficients. *)
Variable cv_distort : list R -> R * R -> R * R.

(** [_camera_to_pixel] of the camera created from given parameters (camera.py:1491-1511 [create_camera], which passes the
    parameters as keyword arguments; coefficients default to 0): camera.py:789, 1257-1260, 1346-1364 and 1457-1482. *)
Definition camera_fwd (p : int_param) : res (R * R -> fl * fl) :=
  do k <- ip_intrinsic p;
  let c name := or0 (dget name (ip_dist p)) in
  Ok match ip_type p with
     | Pinhole => fun xy => num2 (k_apply k xy)
     | Brown => brown_fwd k (c "k1") (c "k2") (c "p1") (c "p2") (c "k3")
     | OpenCV =>
       fun xy => num2 (k_apply k (cv_distort (opencv_dist_param (c "k1") (c "k2") (c "k3") (c "p1") (c "p2") (c "k4")
                                   (c "k5") (c "k6") (c "s1") (c "s2") (c "s3") (c "s4") (c "tx") (c "ty")) xy))
     | Fisheye => fisheye_fwd k (c "k1") (c "k2") (c "k3") (c "k4")
     end%string.

(** fit.py:133-155 [_gcps_to_cv_coords]: per image pixel and world coordinates, and the reference position.  [tform] is
    the transform from geographic to world coordinates, if there is a CRS. *)
Definition vmean (vs : list vec) : vec := V3 (mean (map vx vs)) (mean (map vy vs)) (mean (map vz vs)).

Definition gcps_to_cv (tform : option (vec -> vec)) (gcp_dict : dict (list gcp)) : list (list (R * R)) * list (list vec) * vec :=
  let world g := match tform with Some f => f (g_xyz g) | None => g_xyz g end in
  let jis := map (fun kv => map g_ji (snd kv)) gcp_dict in
  let xyzs := map (fun kv => map world (snd kv)) gcp_dict in
  let ref_xyz := vmean (concat xyzs) in
  (jis, map (map (fun v => vsub v ref_xyz)) xyzs, ref_xyz).

(** [ceil(n / 2)] *)
Definition half_up (n : nat) : nat := Nat.div (n + 1) 2.

(** fit.py:187-208: the checks on the numbers of GCPs, and on co-planarity.  Python's [min()] of no images is a
    ValueError, as is numpy's [vstack] of rows with different lengths. *)
Definition list_min (l : list nat) : res nat :=
  match l with [] => Err ValueError | x :: l' => Ok (fold_left Nat.min l' x) end.

Definition vstack {A} (rows : list (list A)) : res (list (list A)) :=
  match rows with
  | [] => Err ValueError
  | r :: _ => if forallb (fun r' => Nat.eqb (length r') (length r)) rows then Ok rows else Err ValueError
  end.

Definition std (l : list R) : R := sqrt (mean (map (fun x => (x - mean l) * (x - mean l)) l)).

Definition Rgtb (x y : R) : bool := if Rlt_dec y x then true else false.

Definition fit_checks (t : ctype) (tform : option (vec -> vec)) (gcp_dict : dict (list gcp)) : res unit :=
  let counts := map (fun kv => length (snd kv)) gcp_dict in
  do min_gcps <- list_min counts;
  if Nat.ltb min_gcps 4 then Err ValueError else
  let ttl_gcps := list_sum counts in
  let req_gcps := Nat.max 4 (half_up (1 + num_params t)) in
  if Nat.ltb ttl_gcps req_gcps then Err ValueError else
  let '(jis, xyzs, ref_xyz) := gcps_to_cv tform gcp_dict in
  do zs <- vstack (map (map vz) xyzs);
  let z_mean := mean (concat zs) in
  let z_std := std (concat zs) in
  if Rgtb z_mean (/ 100000) || Rgtb z_std (/ 100000) then Err ValueError else Ok tt.

(** fit.py:272-291: interior parameters for the matrix and coefficients found by OpenCV. *)
Definition export_int (t : ctype) (w h : Z) (k : intr) (dist : list R) : int_param :=
  let mx := IZR (Z.max w h) in
  IntParam t w h [kfx k; kfy k] (Some [IZR w; IZR h])
    (Some ((kcx k - (IZR w - 1) / 2) / mx)) (Some ((kcy k - (IZR h - 1) / 2) / mx))
    (combine (dist_names t) dist).

(** fit.py:158-296 [_fit_frame].  [calib] is OpenCV's calibration of the given camera type and size: intrinsics,
    coefficients, and a pose (rotation matrix and translation) per image.  Calibration flags and warnings are not
    modelled. *)
Variable calib : ctype -> list (list vec) -> list (list (R * R)) -> Z -> Z -> intr * list R * list (mat * vec).

Definition ext_param := (vec * (R * R * R))%type.

Definition fit_frame (t : ctype) (w h : Z) (gcp_dict : dict (list gcp)) (tform : option (vec -> vec))
  : res (int_param * dict ext_param) :=
  do _ <- fit_checks t tform gcp_dict;
  let '(jis, xyzs, ref_xyz) := gcps_to_cv tform gcp_dict in
  let '(k, dist, poses) := calib t xyzs jis w h in
  Ok (export_int t w h k dist,
      map (fun kp => (fst kp, cv_ext_to_oty_ext (snd (snd kp)) (fst (snd kp)) (Some ref_xyz))) (combine (map fst gcp_dict) poses)).

(** fit.py:299-360 [fit_frame_exterior], given the first of the interior parameters.  [pnp] is [cv2.solvePnP]. *)
Variable pnp : list vec -> list (R * R) -> intr -> option (list R) -> mat * vec.

Definition dist_param (p : int_param) : option (list R) :=
  match dist_names (ip_type p) with
  | [] => None
  | names => Some (map (fun n => or0 (dget n (ip_dist p))) names)
  end.

Definition fit_frame_exterior (p : int_param) (gcp_dict : dict (list gcp)) (tform : option (vec -> vec)) : res (dict ext_param) :=
  do min_gcps <- list_min (map (fun kv => length (snd kv)) gcp_dict);
  if Nat.ltb min_gcps 3 then Err ValueError else
  do k <- ip_intrinsic p;
  let '(jis, xyzs, ref_xyz) := gcps_to_cv tform gcp_dict in
  Ok (map (fun kxj => let '(name, (xyz, ji)) := kxj in
                      let '(r, t) := pnp xyz ji k (dist_param p) in
                      (name, cv_ext_to_oty_ext t r (Some ref_xyz)))
          (combine (map fst gcp_dict) (combine xyzs jis))).

End Fit.

(** The camera with given lens and exterior parameters (camera.py:697-715). *)
Definition oriented (fwd : R * R -> fl * fl) (inv : R * R -> R * R) (ku : intr) (e : ext_param) : frame :=
  Frame (Lens fwd inv) ku true (extrinsic_rotation (snd e)) (fst e).
