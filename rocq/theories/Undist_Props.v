(** Undistortion: C34, C35, C64. *)
From Coq Require Import List Reals ZArith Lra Lia.
From Verif Require Import Flt Mat Frame_Model Frame_Spec Undist_Model Undist_Spec Undist_Proof.
Import ListNotations.
Open Scope R_scope.

(** C34: after any history of changing alpha and distort, updating the pose and reading images, the undistorted
    intrinsics and the maps used by the next read are those of the last alpha. *)
Theorem C34_never_stale : forall (E : Type) (K : intr) (l : lens) w h alpha0 d0 (e0 : option E) (ops : list (op E)),
  let c := run false l w h ops (cam_init false K l w h alpha0 d0 e0) in
  let alpha := last_alpha ops alpha0 in
  s_alpha c = alpha /\ s_ku c = undistort_intrinsic (l_inv l) w h alpha /\
  snd (read false l c) = if last_distort ops d0 then None
                         else Some (undistort_maps l (undistort_intrinsic (l_inv l) w h alpha)).
Proof. exact never_stale. Qed.
Print Assumptions C34_never_stale.

(** C34: a pinhole camera's images are never resampled, and its intrinsics do not depend on alpha. *)
Theorem C34_pinhole : forall (E : Type) (K : intr) (l : lens) w h alpha0 d0 (e0 : option E) (ops : list (op E)),
  let c := run true l w h ops (cam_init true K l w h alpha0 d0 e0) in
  s_ku c = K /\ snd (read true l c) = None.
Proof. exact pinhole_never_undistorts. Qed.
Print Assumptions C34_pinhole.

(** C34: no operation changes another setting: alpha, distort and the pose are the last ones given, for every camera type. *)
Theorem C34_settings : forall (E : Type) (K : intr) (l : lens) w h pin alpha0 d0 (e0 : option E) (ops : list (op E)),
  let c := run pin l w h ops (cam_init pin K l w h alpha0 d0 e0) in
  s_alpha c = last_alpha ops alpha0 /\ s_distort c = last_distort ops d0 /\ s_ext c = last_ext ops e0.
Proof. exact settings_kept. Qed.
Print Assumptions C34_settings.

Example C34_example : forall (l : lens) (K : intr),
  let ops := [Read; SetAlpha (1/2); Read; SetAlpha (1/2); Update tt; SetDistort true; SetDistort false] in
  last_alpha ops 1 = 1/2 /\ last_distort ops false = false /\
  snd (read false l (run false l 9 9 ops (cam_init false K l 9 9 1 false None))) =
    Some (undistort_maps l (undistort_intrinsic (l_inv l) 9 9 (1/2))).
Proof. intros l K ops. split; [reflexivity|]. split; [reflexivity|]. apply (never_stale unit K l 9 9 1 false None ops). Qed.

(** C35: with alpha at its upper limit, every sampled source pixel is in the undistorted image. *)
Theorem C35_alpha_one : forall p2c w h alpha a b, (1 < w)%Z -> (1 < h)%Z ->
  nonempty (fst (get_rectangles p2c w h)) -> nonempty (snd (get_rectangles p2c w h)) ->
  1 <= alpha -> (a <= 8)%nat -> (b <= 8)%nat ->
  in_image w h (k_apply (undistort_intrinsic p2c w h alpha) (p2c (sample_pixel w h a b))).
Proof. exact alpha_one_keeps_all. Qed.
Print Assumptions C35_alpha_one.

(** C35: the two rectangles are the bounding box of the undistorted samples, and the rectangle between the samples of
    the image's sides. *)
Theorem C35_rectangles : forall p2c w h,
  inside_sides p2c w h (fst (get_rectangles p2c w h)) /\ bounds_samples p2c w h (snd (get_rectangles p2c w h)).
Proof. intros p2c w h. split; [exact (inner_sides p2c w h)|exact (outer_bounds p2c w h)]. Qed.
Print Assumptions C35_rectangles.

(** C35: no undistorted pixel looks outside the bounding box, and with alpha at its lower limit none looks outside
    the inner rectangle, so every pixel of the image has source data (between the samples). *)
Theorem C35_alpha_zero : forall p2c w h alpha ji, (1 < w)%Z -> (1 < h)%Z ->
  let inner := fst (get_rectangles p2c w h) in let outer := snd (get_rectangles p2c w h) in
  nonempty inner -> nonempty outer ->
  let ku := undistort_intrinsic p2c w h alpha in
  in_image w h ji -> in_rect outer (k_solve ku ji) /\ (alpha <= 0 -> in_rect inner (k_solve ku ji)).
Proof. exact view_between. Qed.
Print Assumptions C35_alpha_zero.

(** C35: whatever alpha, the inner rectangle is seen. *)
Theorem C35_inner_seen : forall p2c w h alpha xy, (1 < w)%Z -> (1 < h)%Z ->
  let inner := fst (get_rectangles p2c w h) in
  nonempty inner -> nonempty (snd (get_rectangles p2c w h)) ->
  in_rect inner xy -> in_image w h (k_apply (undistort_intrinsic p2c w h alpha) xy).
Proof. exact inner_always_seen. Qed.
Print Assumptions C35_inner_seen.

(** C35: without distortion the undistorted intrinsics are the intrinsics, whatever alpha. *)
Theorem C35_no_distortion : forall k w h alpha, 0 < kfx k -> 0 < kfy k -> (1 < w)%Z -> (1 < h)%Z ->
  undistort_intrinsic (k_solve k) w h alpha = k.
Proof. exact no_distortion_same. Qed.
Print Assumptions C35_no_distortion.

(** C35: values of alpha outside 0 to 1 act as the nearest limit. *)
Theorem C35_alpha_clipped : forall p2c w h alpha,
  (alpha <= 0 -> undistort_intrinsic p2c w h alpha = undistort_intrinsic p2c w h 0) /\
  (1 <= alpha -> undistort_intrinsic p2c w h alpha = undistort_intrinsic p2c w h 1).
Proof. exact alpha_limits. Qed.
Print Assumptions C35_alpha_clipped.

Example C35_example : nonempty (fst (get_rectangles barrel 9 9)) /\ nonempty (snd (get_rectangles barrel 9 9)) /\
  in_image 9 9 (k_apply (undistort_intrinsic barrel 9 9 1) (barrel (sample_pixel 9 9 8 3))).
Proof.
  destruct barrel_nonempty as [A B]. split; [exact A|]. split; [exact B|].
  apply C35_alpha_one; try assumption; try lia; lra.
Qed.

(** C64: the source pixel that the undistorted image takes a pixel from is the one the distorted model projects the
    same world point to. *)
Theorem C64_undistorted_consistent : forall l ku r t p ji, kfx ku <> 0 -> kfy ku <> 0 ->
  world_to_pixel (Frame l ku false r t) p = num2 ji ->
  undistort_maps l ku ji = world_to_pixel (Frame l ku true r t) p.
Proof. exact undistorted_consistent. Qed.
Print Assumptions C64_undistorted_consistent.
