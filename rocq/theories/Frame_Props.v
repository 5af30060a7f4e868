(** Property theorems: C24 projection round trip, C25 intrinsics, C36 distortion models, C37 horizon, C58 arrays of
    pixels and heights. *)
From Coq Require Import List Reals ZArith Lra.
From Verif Require Import Py Flt Mat Rot_Model Rot_Proof Frame_Model Frame_Spec Frame_Proof.
Import ListNotations.
Open Scope R_scope.

(** C24: pixel to world to pixel, at the height asked for, for every lens that inverts at the pixel. *)
Theorem C24_pixel_round_trip : forall c ji z p, rotation (fr_R c) -> inverts_pixel (active_lens c) ji ->
  z <> vz (fr_T c) -> pixel_to_world_z c ji z = Some p ->
  world_to_pixel c (Num (vx p), Num (vy p), Num (vz p)) = num2 ji /\ vz p = z.
Proof. exact pixel_round_trip. Qed.
Print Assumptions C24_pixel_round_trip.

(** C24: world to pixel to world at the point's height. *)
Theorem C24_world_round_trip : forall c p, rotation (fr_R c) ->
  let v := camera_coords c p in
  vz v <> 0 -> vz p <> vz (fr_T c) -> inverts_point (active_lens c) (vx v / vz v, vy v / vz v) ->
  exists ji, world_to_pixel c (Num (vx p), Num (vy p), Num (vz p)) = num2 ji /\ pixel_to_world_z c ji (vz p) = Some p.
Proof. exact world_round_trip. Qed.
Print Assumptions C24_world_round_trip.

(** C24: the pinhole lens, which also stands for every camera without distort, inverts everywhere. *)
Theorem C24_pinhole_inverts : forall k, kfx k <> 0 -> kfy k <> 0 ->
  (forall ji, inverts_pixel (pinhole k) ji) /\ (forall xy, inverts_point (pinhole k) xy).
Proof. exact (fun k Hx Hy => conj (fun ji => pinhole_inverts_pixel k ji Hx Hy) (fun xy => pinhole_inverts_point k xy Hx Hy)). Qed.
Print Assumptions C24_pinhole_inverts.

(** C24: a camera without distort is an ideal pinhole with its undistorted intrinsics, whatever its lens. *)
Theorem C24_undistorted_pinhole : forall l ku r t p,
  world_to_pixel (Frame l ku false r t) (Num (vx p), Num (vy p), Num (vz p)) = pinhole_pixel ku (mvec (mtr r) (vsub p t)).
Proof. exact undistorted_pinhole. Qed.
Print Assumptions C24_undistorted_pinhole.

(** C24: world to pixel to world does not tell the two sides of the camera apart: a point behind the camera has the
    pixel of its mirror image in front. *)
Theorem C24_behind_camera_refuted : forall c p,
  let q := vsub (vscale 2 (fr_T c)) p in
  world_to_pixel c (Num (vx p), Num (vy p), Num (vz p)) = world_to_pixel c (Num (vx q), Num (vy q), Num (vz q)) /\
  vz (camera_coords c q) = - vz (camera_coords c p).
Proof. exact behind_camera. Qed.
Print Assumptions C24_behind_camera_refuted.

(** A camera 100 above the ground, looking down, and a point off its axis. *)
Example C24_case :
  let c := Frame (pinhole (Intr 1000 1000 50 40)) (Intr 1000 1000 50 40) true (extrinsic_rotation (0, 0, 0)) (V3 5 6 100) in
  rotation (fr_R c) /\ vz (camera_coords c (V3 7 8 0)) = 100 /\ pixel_to_world_z c (70, 20) 0 = Some (V3 7 8 0).
Proof.
  cbn zeta. assert (E : extrinsic_rotation (0, 0, 0) = flip_yz).
  { unfold extrinsic_rotation. rewrite opk_entries, sin_0, cos_0. meq; ring. }
  rewrite E. split; [apply flip_rotation|]. split; [unfold camera_coords; cbn; unfold flip_yz; meq; ring|].
  unfold pixel_to_world_z. assert (Y : ray (Frame (pinhole (Intr 1000 1000 50 40)) (Intr 1000 1000 50 40) true flip_yz (V3 5 6 100)) (70, 20) = V3 (1/50) (1/50) (-1)).
  { unfold ray, active_lens, pinhole, k_solve. cbn. unfold flip_yz. meq; field. }
  rewrite Y. cbn [vz fr_T]. destruct (Req_EM_T (-1) 0); [exfalso; lra|]. f_equal. meq; field.
Qed.

(** C25: intrinsics with a sensor size. *)
Theorem C25_intrinsic_with_sensor : forall w h focal fx fy sw sh cx cy k,
  sw <> 0 -> sh <> 0 -> pair_of focal = Ok (fx, fy) ->
  get_intrinsic w h focal (Some [sw; sh]) cx cy = Ok k ->
  kfx k = fx / sw * IZR w /\ kfy k = fy / sh * IZR h /\
  kcx k = (IZR w - 1) / 2 + cx * IZR (Z.max w h) /\ kcy k = (IZR h - 1) / 2 + cy * IZR (Z.max w h).
Proof. exact intrinsic_sensor. Qed.
Print Assumptions C25_intrinsic_with_sensor.

(** C25: intrinsics without. *)
Theorem C25_intrinsic_without_sensor : forall w h focal fx fy cx cy k,
  pair_of focal = Ok (fx, fy) -> get_intrinsic w h focal None cx cy = Ok k ->
  kfx k = fx * IZR w /\ kfy k = fy * IZR w /\
  kcx k = (IZR w - 1) / 2 + cx * IZR (Z.max w h) /\ kcy k = (IZR h - 1) / 2 + cy * IZR (Z.max w h).
Proof. exact intrinsic_no_sensor. Qed.
Print Assumptions C25_intrinsic_without_sensor.

(** C25: wrong numbers of values are rejected, and nothing else. *)
Theorem C25_errors : forall w h focal sensor cx cy,
  (get_intrinsic w h focal sensor cx cy = Err ValueError <->
   ((length focal = 0 \/ 2 < length focal)%nat \/ exists s, sensor = Some s /\ length s <> 2%nat)) /\
  forall e, get_intrinsic w h focal sensor cx cy = Err e -> e = ValueError.
Proof. intros. split; [apply intrinsic_errors_iff|]. intros e H. apply (intrinsic_errors _ _ _ _ _ _ _ H). Qed.
Print Assumptions C25_errors.

(** C25: the documentation has focal lengths normalised by the larger dimension; they are scaled by the width, which
    differs for every portrait image. *)
Theorem C25_portrait_refuted : forall w h f cx cy, (0 < w < h)%Z -> f <> 0 ->
  exists k, get_intrinsic w h [f] None cx cy = Ok k /\ kfx k <> f * IZR (Z.max w h) /\ kfy k <> f * IZR (Z.max w h).
Proof. exact intrinsic_portrait. Qed.
Print Assumptions C25_portrait_refuted.

Example C25_case : get_intrinsic 640 480 [50; 60] (Some [32; 24]) 0 0 = Ok (Intr (50 * 640 / 32) (60 * 480 / 24) ((640 - 1) / 2 + 640 * 0) ((480 - 1) / 2 + 640 * 0)).
Proof. reflexivity. Qed.

(** C36: Brown distortion is the OpenCV model with 5 coefficients. *)
Theorem C36_brown_is_opencv : forall k1 k2 p1 p2 k3 xy,
  brown_distort k1 k2 p1 p2 k3 xy = opencv_distort [k1; k2; p1; p2; k3] xy.
Proof. exact brown_is_opencv5. Qed.
Print Assumptions C36_brown_is_opencv.

(** C36: without distortion it is the pinhole. *)
Theorem C36_brown_zero_is_pinhole : forall k xy, brown_fwd k 0 0 0 0 0 xy = l_fwd (pinhole k) xy.
Proof. exact brown_zero. Qed.
Print Assumptions C36_brown_zero_is_pinhole.

(** C36: the truncated OpenCV coefficients are a length OpenCV takes, and the same model. *)
Theorem C36_truncation_length : forall k1 k2 k3 p1 p2 k4 k5 k6 s1 s2 s3 s4 tx ty,
  In (length (opencv_dist_param k1 k2 k3 p1 p2 k4 k5 k6 s1 s2 s3 s4 tx ty)) [4; 5; 8; 12; 14]%nat.
Proof. exact truncate_length. Qed.
Print Assumptions C36_truncation_length.

Theorem C36_truncation_same_model : forall k1 k2 k3 p1 p2 k4 k5 k6 s1 s2 s3 s4 tx ty,
  let d := opencv_dist_param k1 k2 k3 p1 p2 k4 k5 k6 s1 s2 s3 s4 tx ty in
  (forall n, coeff d n = coeff [k1; k2; p1; p2; k3; k4; k5; k6; s1; s2; s3; s4; tx; ty] n) /\
  (forall xy, opencv_distort d xy = opencv_distort [k1; k2; p1; p2; k3; k4; k5; k6; s1; s2; s3; s4] xy).
Proof. exact opencv_params_same. Qed.
Print Assumptions C36_truncation_same_model.

(** C36: both fisheye branches are the OpenCV fisheye polynomial. *)
Theorem C36_fisheye_is_opencv : forall k k1 k2 k3 k4 x y, x <> 0 \/ y <> 0 ->
  fisheye_fwd k k1 k2 k3 k4 (x, y) =
  let r := sqrt (x * x + y * y) in num2 (k_apply k (x / r * fisheye_poly k1 k2 k3 k4 (atan r), y / r * fisheye_poly k1 k2 k3 k4 (atan r))).
Proof. exact fisheye_off_axis. Qed.
Print Assumptions C36_fisheye_is_opencv.

(** C36: not on the optical axis, where OpenCV gives the principal point: e.g. the point right under a nadir fisheye
    camera is projected to NaN. *)
Theorem C36_fisheye_axis_refuted : forall k k1 k2 k3 k4 inv ku x y z h, h <> 0 ->
  let c := Frame (Lens (fisheye_fwd k k1 k2 k3 k4) inv) ku true (extrinsic_rotation (0, 0, 0)) (V3 x y (z + h)) in
  world_to_pixel c (Num x, Num y, Num z) = (Nan, Nan).
Proof. exact fisheye_nadir_nan. Qed.
Print Assumptions C36_fisheye_axis_refuted.

Example C36_case : opencv_dist_param 1 0 3 0 0 0 0 0 0 0 0 0 0 0 = [1; 0; 0; 0; 3].
Proof.
  unfold opencv_dist_param, truncate_dist, all_zero. cbn [skipn forallb firstn].
  destruct (Req_EM_T 3 0) as [E|_]; [exfalso; lra|]. cbn [andb].
  destruct (Req_EM_T 0 0) as [_|E]; [reflexivity|contradiction].
Qed.

(** C37: no horizon on the boundary means that every pixel of a pinhole image has a world position in front of the
    camera, at every height below it. *)
Theorem C37_no_horizon : forall k ku d r t w h, rotation r -> ku = k ->
  let c := Frame (pinhole k) ku d r t in
  horizon_fov c w h = false ->
  forall ji z, in_image w h ji -> z < vz t ->
  exists p, pixel_to_world_z c ji z = Some p /\ vz p = z /\ 0 < vz (camera_coords c p).
Proof. exact no_horizon_finite. Qed.
Print Assumptions C37_no_horizon.

(** C37: and a horizon reported is a boundary pixel whose ray does not go down. *)
Theorem C37_horizon_seen : forall c w h, horizon_fov c w h = true ->
  exists ji, In ji (boundary8 w h) /\
  let xy := l_inv (fr_lens c) ji in 0 <= vz (mvec (fr_R c) (V3 (fst xy) (snd xy) 1)).
Proof. exact horizon_seen. Qed.
Print Assumptions C37_horizon_seen.

Example C37_case :
  let c := Frame (pinhole (Intr 1000 1000 50 40)) (Intr 1000 1000 50 40) true (extrinsic_rotation (0, 0, 0)) (V3 5 6 100) in
  horizon_fov c 101 81 = false.
Proof.
  cbn zeta. assert (E : extrinsic_rotation (0, 0, 0) = flip_yz).
  { unfold extrinsic_rotation. rewrite opk_entries, sin_0, cos_0. meq; ring. }
  rewrite E. unfold horizon_fov, boundary8. cbn [existsb].
  repeat match goal with |- context [Rle_dec 0 ?x] => destruct (Rle_dec 0 x) as [L|_]; [exfalso; revert L; unfold mvec, dot, flip_yz, mk; cbn; lra|] end.
  reflexivity.
Qed.

(** C58: arrays of N pixels and M heights are accepted when M = N, M = 1 or N = 1, and each output pairs the
    corresponding pixel and height; everything else is rejected. *)
Theorem C58_frame_arrays : forall P W (p2w : P -> fl -> W) ji z,
  (~ compatible z (length ji) -> frame_p2w_array p2w ji z = Err ValueError) /\
  (compatible z (length ji) ->
   exists out, frame_p2w_array p2w ji z = Ok out /\ length out = out_len (length ji) (length (zlist z)) /\
   forall k p h w, (k < length out)%nat ->
     nth k out w = p2w (nth (if Nat.eqb (length ji) 1 then 0 else k)%nat ji p) (nth (if Nat.eqb (length (zlist z)) 1 then 0 else k)%nat (zlist z) h)).
Proof. exact frame_array_compatible. Qed.
Print Assumptions C58_frame_arrays.

(** C58: RPC cameras do the same, except for one height in an array ... *)
Theorem C58_rpc_arrays : forall P W (p2w : P -> fl -> W) isnan ji z,
  match z with ZVec zs => length zs <> 1%nat \/ length ji = 1%nat | _ => True end ->
  rpc_p2w_array p2w isnan ji z = frame_p2w_array p2w ji z.
Proof. exact rpc_array. Qed.
Print Assumptions C58_rpc_arrays.

(** C58: ... which passes validation and then raises IndexError for any other number of pixels. *)
Theorem C58_rpc_one_height_refuted : forall P W (p2w : P -> fl -> W) isnan ji z, length ji <> 1%nat ->
  compatible (ZVec [z]) (length ji) /\ rpc_p2w_array p2w isnan ji (ZVec [z]) = Err IndexError.
Proof. exact rpc_array_one_height. Qed.
Print Assumptions C58_rpc_one_height_refuted.

Example C58_case : frame_p2w_array (fun (p : nat) z => (p, z)) [1; 2; 3]%nat (ZVec [Num 7]) = Ok [(1, Num 7); (2, Num 7); (3, Num 7)]%nat.
Proof. reflexivity. Qed.
