(** Property theorems: C48 fitted intrinsics, C49 GCP counts, C65 fitted poses. *)
From Coq Require Import String List Reals ZArith Lra Lia.
From Verif Require Import Py Flt Mat Rot_Model Rot_Spec Frame_Model Frame_Spec Rpc_Model Fit_Model Fit_Spec Fit_Proof.
Import ListNotations.
Open Scope R_scope.

(** C48: the exported parameters rebuild the fitted matrix exactly. *)
Theorem C48_intrinsic : forall t w h k d, (0 < w)%Z -> (0 < h)%Z -> ip_intrinsic (export_int t w h k d) = Ok k.
Proof. exact export_intrinsic. Qed.
Print Assumptions C48_intrinsic.

(** C48: and the camera made from them maps camera to pixel coordinates as OpenCV does with the fitted matrix and
    coefficients. *)
Theorem C48_camera : forall cv t w h k d, cv_contract cv -> t <> Fisheye -> (0 < w)%Z -> (0 < h)%Z ->
  length d = calib_length t -> (t = Pinhole -> d = repeat 0 5) ->
  exists f, camera_fwd cv (export_int t w h k d) = Ok f /\ forall xy, f xy = num2 (k_apply k (cv d xy)).
Proof. exact export_camera. Qed.
Print Assumptions C48_camera.

Theorem C48_fisheye : forall cv w h k k1 k2 k3 k4, (0 < w)%Z -> (0 < h)%Z ->
  camera_fwd cv (export_int Fisheye w h k [k1; k2; k3; k4]) = Ok (fisheye_fwd k k1 k2 k3 k4).
Proof. exact export_fisheye. Qed.
Print Assumptions C48_fisheye.

Example C48_case : ip_intrinsic (export_int Brown 640 480 (Intr 500 510 300 250) [1; 2; 3; 4; 5]) = Ok (Intr 500 510 300 250).
Proof. exact (export_intrinsic Brown 640 480 _ _ ltac:(lia) ltac:(lia)). Qed.

(** The contract on OpenCV's distortion can be met. *)
Example C48_contract : cv_contract opencv_distort.
Proof.
  split; [reflexivity|]. intros d n [x y]. unfold opencv_distort, coeff.
  assert (E : forall i, nth i (d ++ repeat 0 n) 0 = nth i d 0).
  { intros i. revert d. induction i as [|i IH]; intros [|a d]; cbn; try reflexivity; try apply IH;
    clear; destruct n as [|n]; try reflexivity. cbn. revert i. induction n as [|n IH]; intros [|i]; cbn; auto. }
  now rewrite !E.
Qed.

(** C49: fitting a camera is refused exactly when there are no images, an image has fewer than four GCPs, there are fewer
    GCPs than parameters need, image GCP counts differ, or heights deviate by more than 10 microns. *)
Theorem C49_fit_counts : forall calib t w h d tform,
  (exists r, fit_frame calib t w h d tform = Ok r) <->
  d <> [] /\ Forall (fun kv => (4 <= length (snd kv))%nat) d /\ (min_total t <= length (all_gcps d))%nat /\
  (exists n, Forall (fun kv => length (snd kv) = n) d) /\
  deviation (map (fun g => vz (gcp_world tform g)) (all_gcps d)) <= / 100000.
Proof.
  intros. rewrite (proj1 (fit_frame_iff calib t w h d tform)). exact (proj1 (fit_checks_ok t tform d)).
Qed.
Print Assumptions C49_fit_counts.

Theorem C49_fit_error : forall calib t w h d tform e, fit_frame calib t w h d tform = Err e -> e = ValueError.
Proof. intros calib t w h d tform. exact (proj2 (fit_frame_iff calib t w h d tform)). Qed.
Print Assumptions C49_fit_error.

(** C49: exterior parameters need three GCPs per image. *)
Theorem C49_exterior_counts : forall pnp p d tform k, ip_intrinsic p = Ok k ->
  ((exists exts, fit_frame_exterior pnp p d tform = Ok exts) <-> d <> [] /\ Forall (fun kv => (3 <= length (snd kv))%nat) d) /\
  (forall e, fit_frame_exterior pnp p d tform = Err e -> e = ValueError).
Proof. exact exterior_counts. Qed.
Print Assumptions C49_exterior_counts.

(** C49: the documented minimums are not sufficient: flat GCPs that meet them are refused when image counts differ. *)
Theorem C49_unequal_refuted : forall calib t w h, exists d,
  Forall (fun kv => (4 <= length (snd kv))%nat) d /\ (min_total t <= length (all_gcps d))%nat /\
  (forall g, In g (all_gcps d) -> vz (g_xyz g) = 0) /\
  fit_frame calib t w h d None = Err ValueError.
Proof. exact unequal_refused. Qed.
Print Assumptions C49_unequal_refuted.

(** C49: co-planar GCPs on a slope are refused as not co-planar. *)
Theorem C49_slope_refuted : forall calib w h, (forall g, In g slope -> vz (g_xyz g) = vx (g_xyz g)) /\
  fit_frame calib Pinhole w h [("a"%string, slope)] None = Err ValueError.
Proof. exact slope_refused. Qed.
Print Assumptions C49_slope_refuted.

Example C49_case : forall calib, exists r, fit_frame calib Pinhole 640 480 [("a"%string, pts 4)] None = Ok r.
Proof.
  intros calib. apply C49_fit_counts. split; [discriminate|]. split; [repeat constructor|]. split; [cbn; lia|].
  split; [exists 4%nat; repeat constructor|]. unfold deviation, average. cbn.
  match goal with |- sqrt ?x <= _ => replace x with 0 by field end. rewrite sqrt_0. lra.
Qed.

(** C65: a camera with fitted exterior parameters sees every point where OpenCV projects it with the pose it found. *)
Theorem C65_exterior : forall cv pnp p d tform exts name e inv ku, cv_contract cv -> ip_type p <> Fisheye ->
  fit_frame_exterior pnp p d tform = Ok exts -> In (name, e) exts ->
  exists gcps k r t f, In (name, gcps) d /\ ip_intrinsic p = Ok k /\ camera_fwd cv p = Ok f /\
    pnp (map (fun g => vsub (gcp_world tform g) (centre tform d)) gcps) (map g_ji gcps) k (dist_param p) = (r, t) /\
    (convertible r -> forall q, vz (cv_camera_coords r t (vsub q (centre tform d))) <> 0 ->
       world_to_pixel (oriented f inv ku e) (Num (vx q), Num (vy q), Num (vz q)) =
       num2 (cv_project cv k (match dist_param p with Some c => c | None => [] end) r t (vsub q (centre tform d)))).
Proof. exact exterior_sees. Qed.
Print Assumptions C65_exterior.

(** C65: there are parameters for each image, in order. *)
Theorem C65_names : forall pnp p d tform exts, fit_frame_exterior pnp p d tform = Ok exts -> map fst exts = map fst d.
Proof. exact exterior_names. Qed.
Print Assumptions C65_names.

(** C65: the same for a fitted camera and its poses. *)
Theorem C65_fit : forall cv calib t w h d tform k dist poses ip exts inv ku,
  cv_contract cv -> t <> Fisheye -> (0 < w)%Z -> (0 < h)%Z ->
  calib t (map (fun kv => map (fun g => vsub (gcp_world tform g) (centre tform d)) (snd kv)) d) (map (fun kv => map g_ji (snd kv)) d) w h
    = (k, dist, poses) ->
  length dist = calib_length t -> (t = Pinhole -> dist = repeat 0 5) ->
  fit_frame calib t w h d tform = Ok (ip, exts) ->
  exists f, camera_fwd cv ip = Ok f /\
  forall name e, In (name, e) exts -> exists r tr, In (name, (r, tr)) (combine (map fst d) poses) /\
    (convertible r -> forall q, vz (cv_camera_coords r tr (vsub q (centre tform d))) <> 0 ->
       world_to_pixel (oriented f inv ku e) (Num (vx q), Num (vy q), Num (vz q)) =
       num2 (cv_project cv k dist r tr (vsub q (centre tform d)))).
Proof. exact fit_frame_sees. Qed.
Print Assumptions C65_fit.

(** C65: not for fisheye cameras: a pose that reprojects every GCP exactly gives a camera that does not see them there,
    as the solver is given the fisheye coefficients as those of another distortion model. *)
Theorem C65_fisheye_refuted : forall cv, cv_contract cv ->
  exists p d k r t exts f, ip_type p = Fisheye /\ ip_intrinsic p = Ok k /\ camera_fwd cv p = Ok f /\ convertible r /\
    (forall g, In g (all_gcps d) ->
       cv_project cv k (match dist_param p with Some c => c | None => [] end) r t (vsub (g_xyz g) (centre None d)) = g_ji g) /\
    fit_frame_exterior (fun _ _ _ _ => (r, t)) p d None = Ok exts /\
    exists name e g, In (name, e) exts /\ In g (all_gcps d) /\
      forall inv ku, world_to_pixel (oriented f inv ku e) (Num (vx (g_xyz g)), Num (vy (g_xyz g)), Num (vz (g_xyz g))) <> num2 (g_ji g).
Proof. exact fisheye_wrong. Qed.
Print Assumptions C65_fisheye_refuted.

Example C65_case : exists exts, fit_frame_exterior (fun _ _ _ _ => (mI, V3 0 0 1)) (export_int Brown 640 480 (Intr 500 510 300 250) [1; 2; 3; 4; 5])
  [("a"%string, pts 3)] None = Ok exts.
Proof.
  destruct (exterior_counts (fun _ _ _ _ => (mI, V3 0 0 1)) (export_int Brown 640 480 (Intr 500 510 300 250) [1; 2; 3; 4; 5])
    [("a"%string, pts 3)] None _ (export_intrinsic Brown 640 480 _ _ ltac:(lia) ltac:(lia))) as [H _].
  apply H. split; [discriminate|]. repeat constructor.
Qed.
