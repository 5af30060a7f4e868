(** Model of the frame cameras of orthority/camera.py: intrinsics, projection and distortion, over the reals. *)
From Coq Require Import List Reals ZArith Bool.
From Verif Require Import Py Flt Mat Rot_Model.
Import ListNotations.
Open Scope R_scope.

(** * Intrinsics *)

(** An intrinsic matrix [[fx, 0, cx], [0, fy, cy], [0, 0, 1]]. *)
Record intr := Intr { kfx : R; kfy : R; kcx : R; kcy : R }.

(** [K.dot((x, y, 1))[:2]]. *)
Definition k_apply (k : intr) (xy : R * R) : R * R := (kfx k * fst xy + kcx k, kfy k * snd xy + kcy k).

(** [inv(K).dot((j, i, 1))[:2]], for non-zero focal lengths. *)
Definition k_solve (k : intr) (ji : R * R) : R * R := ((fst ji - kcx k) / kfx k, (snd ji - kcy k) / kfy k).

(** Numpy broadcasting of a focal length argument (scalar: one value) to two values. *)
Definition pair_of (l : list R) : res (R * R) :=
  match l with
  | [f] => Ok (f, f)
  | [fx; fy] => Ok (fx, fy)
  | _ => Err ValueError  (* more than 2, line 671; none: does not broadcast *)
  end.

(** camera.py:653-694 [_get_intrinsic].  Division by a zero sensor size gives numpy infinities; it is not
    modelled (the theorems have non-zero sizes). *)
Definition get_intrinsic (w h : Z) (focal_len : list R) (sensor_size : option (list R)) (cx cy : R) : res intr :=
  let im_max := IZR (Z.max w h) in
  let c := ((IZR w - 1) / 2 + im_max * cx, (IZR h - 1) / 2 + im_max * cy) in
  do sens <- match sensor_size with
             | None => Ok None
             | Some [sw; sh] => Ok (Some (sw, sh))
             | Some _ => Err ValueError
             end;
  do (fx, fy) <- pair_of focal_len;
  let sigma := match sens with
               | None => (fx * IZR w, fy * IZR w)
               | Some (sw, sh) => (fx * IZR w / sw, fy * IZR h / sh)
               end in
  Ok (Intr (fst sigma) (snd sigma) (fst c) (snd c)).

(** * Cameras *)

(** The lens: the distortion methods of a camera class.  [fwd] is [_camera_to_pixel] of homogenous camera coordinates
    (x, y, 1), [inv] is [_pixel_to_camera]. *)
Record lens := Lens { l_fwd : R * R -> fl * fl; l_inv : R * R -> R * R }.

Definition num2 (p : R * R) : fl * fl := (Num (fst p), Num (snd p)).

(** camera.py:789-798: the pinhole methods, with intrinsics [_K_undistort]. *)
Definition pinhole (k : intr) : lens := Lens (fun xy => num2 (k_apply k xy)) (k_solve k).

(** An initialised camera: lens, undistorted intrinsics, [distort], rotation and position. *)
Record frame := Frame { fr_lens : lens; fr_ku : intr; fr_distort : bool; fr_R : mat; fr_T : vec }.

Definition active_lens (c : frame) : lens := if fr_distort c then fr_lens c else pinhole (fr_ku c).

(** camera.py:816-841 [world_to_pixel], for one point.  A NaN coordinate makes all components of the matrix product
    NaN. *)
Definition world_to_pixel (c : frame) (p : fl * fl * fl) : fl * fl :=
  match p with
  | (Num x, Num y, Num z) =>
    let v := mvec (mtr (fr_R c)) (vsub (V3 x y z) (fr_T c)) in
    if Req_EM_T (vz v) 0 then (Nan, Nan)
    else l_fwd (active_lens c) (vx v / vz v, vy v / vz v)
  | _ => (Nan, Nan)
  end.

(** camera.py:867-876: the direction of a pixel's ray in world axes. *)
Definition ray (c : frame) (ji : R * R) : vec :=
  let xy := l_inv (active_lens c) ji in mvec (fr_R c) (V3 (fst xy) (snd xy) 1).

(** camera.py:843-880 [pixel_to_world_z], for one pixel and height; [None] is NaN or infinite. *)
Definition pixel_to_world_z (c : frame) (ji : R * R) (z : R) : option vec :=
  let r := ray c ji in
  if Req_EM_T (vz r) 0 then None
  else let s := (z - vz (fr_T c)) / vz r in Some (vadd (vscale s r) (fr_T c)).

(** * Arrays of pixels and heights *)

(** The z argument: a scalar, a 1D array, or an array with another number of dimensions. *)
Inductive zarg := ZScalar (z : fl) | ZVec (zs : list fl) | ZNd.

(** camera.py:77-85 [_validate_z], for [n] pixels. *)
Definition validate_z (z : zarg) (n : nat) : bool :=
  match z with
  | ZScalar _ => true
  | ZVec zs => let m := length zs in Nat.eqb m 1 || Nat.eqb n 1 || Nat.eqb m n
  | ZNd => false
  end.

(** Numpy broadcasting of two 1D arrays. *)
Definition broadcast {A B C} (f : A -> B -> C) (xs : list A) (ys : list B) : res (list C) :=
  match xs, ys with
  | [x], _ => Ok (map (f x) ys)
  | _, [y] => Ok (map (fun x => f x y) xs)
  | _, _ => if Nat.eqb (length xs) (length ys) then Ok (map (fun p => f (fst p) (snd p)) (combine xs ys)) else Err ValueError
  end.

(** camera.py:843-880 [FrameCamera.pixel_to_world_z] of N pixels, in terms of the projection [p2w] of one. *)
Definition frame_p2w_array {P W} (p2w : P -> fl -> W) (ji : list P) (z : zarg) : res (list W) :=
  if negb (validate_z z (length ji)) then Err ValueError
  else match z with
       | ZScalar z => Ok (map (fun p => p2w p z) ji)
       | ZVec zs => broadcast p2w ji zs
       | ZNd => Err ValueError
       end.

(** camera.py:491-511 [RpcCamera.pixel_to_world_z] of N pixels: [z[~mask] = nan] needs [z] to have the length of the
    mask. *)
Definition rpc_p2w_array {P W} (p2w : P -> fl -> W) (isnan : P -> bool) (ji : list P) (z : zarg) : res (list W) :=
  if negb (validate_z z (length ji)) then Err ValueError
  else
    do z <- match z with
            | ZScalar z => Ok (repeat z (length ji))  (* line 497 *)
            | ZVec zs => Ok zs
            | ZNd => Err ValueError
            end;
    let ji := match ji with [p] => repeat p (length z) | _ => ji end in  (* line 498 *)
    do mask <- broadcast (fun p z => negb (isnan p || fisnan z)) ji z;
    if negb (Nat.eqb (length mask) (length z)) then Err IndexError  (* line 501 *)
    else broadcast p2w ji z.

(** * Distortion *)

(** camera.py:1346-1364 [BrownCamera._camera_to_pixel]. *)
Definition brown_distort (k1 k2 p1 p2 k3 : R) (xy : R * R) : R * R :=
  let (x, y) := xy in
  let x2 := x * x in
  let y2 := y * y in
  let xy := x * y in
  let r2 := x2 + y2 in
  let radial_dist := 1 + r2 * (k1 + r2 * (k2 + r2 * k3)) in
  let x_tangential_dist := 2 * p1 * xy + p2 * (r2 + 2 * x2) in
  let y_tangential_dist := p1 * (r2 + 2 * y2) + 2 * p2 * xy in
  (x * radial_dist + x_tangential_dist, y * radial_dist + y_tangential_dist).

Definition brown_fwd (k : intr) (k1 k2 p1 p2 k3 : R) (xy : R * R) : fl * fl := num2 (k_apply k (brown_distort k1 k2 p1 p2 k3 xy)).

(** camera.py:1457-1482 [FisheyeCamera._camera_to_pixel].  At r = 0 the factor [theta_d / r] is 0 / 0. *)
Definition fisheye_theta (k1 k2 k3 k4 theta : R) : R :=
  let theta2 := theta * theta in
  if (if Req_EM_T k3 k4 then if Req_EM_T k4 0 then true else false else false)
  then theta * (1 + theta2 * (k1 + theta2 * k2))
  else theta * (1 + theta2 * (k1 + theta2 * (k2 + theta2 * (k3 + theta2 * k4)))).

Definition fisheye_fwd (k : intr) (k1 k2 k3 k4 : R) (xy : R * R) : fl * fl :=
  let (x, y) := xy in
  let r := sqrt (x * x + y * y) in
  let theta_d := fisheye_theta k1 k2 k3 k4 (atan r) in
  if Req_EM_T r 0 then (Nan, Nan)
  else num2 (k_apply k (x * (theta_d / r), y * (theta_d / r))).

(** camera.py:1222-1229: the coefficient array of [OpenCVCamera], truncated to one of the lengths OpenCV takes. *)
Definition all_zero (l : list R) : bool := forallb (fun c => if Req_EM_T c 0 then true else false) l.

Fixpoint truncate_dist (lens : list nat) (l : list R) : list R :=
  match lens with
  | [] => l
  | n :: lens' => if all_zero (skipn n l) then firstn n l else truncate_dist lens' l
  end.

Definition opencv_dist_param (k1 k2 k3 p1 p2 k4 k5 k6 s1 s2 s3 s4 tx ty : R) : list R :=
  truncate_dist [4; 5; 8; 12; 14]%nat [k1; k2; p1; p2; k3; k4; k5; k6; s1; s2; s3; s4; tx; ty].

(** * The horizon *)

(** camera.py:722-734 [_horizon_fov]: boundary pixels and test.  [inv] is the camera's own [_pixel_to_camera]. *)
Definition boundary8 (w h : Z) : list (R * R) :=
  let w := IZR w - 1 in
  let h := IZR h - 1 in
  [(0, 0); (w / 2, 0); (w, 0); (w, h / 2); (w, h); (w / 2, h); (0, h); (0, h / 2)].

Definition horizon_fov (c : frame) (w h : Z) : bool :=
  existsb (fun ji => let xy := l_inv (fr_lens c) ji in
                     if Rle_dec 0 (vz (mvec (fr_R c) (V3 (fst xy) (snd xy) 1))) then true else false)
          (boundary8 w h).
