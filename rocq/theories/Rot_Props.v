(** Property theorems: C20 proper rotations, C21 angle extraction, C22 OpenCV poses, C23 roll, pitch and yaw. *)
From Coq Require Import Reals Lra.
From Verif Require Import Mat Rot_Model Rot_Spec Rot_Proof.
Open Scope R_scope.

(** C20 *)
Theorem C20_opk_is_rotation : forall o p k, rotation (opk_to_rotation o p k).
Proof. exact opk_rotation. Qed.
Print Assumptions C20_opk_is_rotation.

Theorem C20_rpy_is_rotation : forall r p y, rotation (rpy_to_rotation r p y).
Proof. exact rpy_rotation. Qed.
Print Assumptions C20_rpy_is_rotation.

(** C20: omega is about x, phi about y and kappa about z, applied in the order kappa, phi, omega. *)
Theorem C20_opk_order : forall o p k v, mvec (opk_to_rotation o p k) v = about_x o (about_y p (about_z k v)).
Proof. exact opk_rotates. Qed.
Print Assumptions C20_opk_order.

(** C20: roll is about x, pitch about y and yaw about z, applied in the order roll, pitch, yaw. *)
Theorem C20_rpy_order : forall r p y v, mvec (rpy_to_rotation r p y) v = about_z y (about_y p (about_x r v)).
Proof. exact rpy_rotates. Qed.
Print Assumptions C20_rpy_order.

Example C20_case : mvec (opk_to_rotation (PI / 2) 0 0) (V3 0 1 0) = V3 0 0 1.
Proof. rewrite opk_rotates. unfold about_x, about_y, about_z. cbn. rewrite cos_0, sin_0, cos_PI2, sin_PI2. apply vec_eq; ring. Qed.

(** C21: rotation to angles to rotation, away from gimbal lock. *)
Theorem C21_rotation_round_trip : forall r o p k, rotation r -> Rabs (vz (row0 r)) < 1 ->
  rotation_to_opk r = (o, p, k) -> opk_to_rotation o p k = r.
Proof. exact rotation_opk_rotation. Qed.
Print Assumptions C21_rotation_round_trip.

(** C21: angles to rotation to angles. *)
Theorem C21_angles_round_trip : forall o p k, - PI < o <= PI -> - (PI / 2) < p < PI / 2 -> - PI < k <= PI ->
  rotation_to_opk (opk_to_rotation o p k) = (o, p, k).
Proof. exact opk_rotation_opk. Qed.
Print Assumptions C21_angles_round_trip.

(** C21: at gimbal lock all rotations are read as the same one ... *)
Theorem C21_gimbal_lock : forall r o p k, rotation r -> vz (row0 r) = 1 -> rotation_to_opk r = (o, p, k) ->
  opk_to_rotation o p k = mk 0 0 1  0 1 0  (-1) 0 0.
Proof. exact gimbal_lock_all. Qed.
Print Assumptions C21_gimbal_lock.

(** C21: ... so the round trip fails there, for angles a user can give. *)
Theorem C21_gimbal_lock_refuted : exists o k, - PI < o <= PI /\ - PI < k <= PI /\
  let r := opk_to_rotation o (PI / 2) k in
  let '(o', p', k') := rotation_to_opk r in opk_to_rotation o' p' k' <> r.
Proof. exact gimbal_lock_lost. Qed.
Print Assumptions C21_gimbal_lock_refuted.

Example C21_case : rotation (opk_to_rotation 1 0 2) /\ Rabs (vz (row0 (opk_to_rotation 1 0 2))) < 1.
Proof. split; [apply opk_rotation|]. rewrite opk_entries. cbn. rewrite sin_0, Rabs_R0. lra. Qed.

(** C22: a frame camera with the converted position and angles sees every world point where the OpenCV pose does. *)
Theorem C22_opencv_pose_preserved : forall t r ref p xyz opk, rotation r -> Rabs (vx (row2 r)) < 1 ->
  cv_ext_to_oty_ext t r ref = (xyz, opk) ->
  frame_camera_coords (extrinsic_rotation opk) xyz p =
  cv_camera_coords r t (match ref with Some q => vsub p q | None => p end).
Proof. exact cv_ext_preserves. Qed.
Print Assumptions C22_opencv_pose_preserved.

(** C22: so do angle-axis orientations (the Rodrigues matrix is given). *)
Theorem C22_angle_axis : forall r c p, rotation r -> Rabs (vx (row2 r)) < 1 ->
  frame_camera_coords (extrinsic_rotation (aa_to_opk r)) c p = mvec r (vsub p c).
Proof. exact aa_preserves. Qed.
Print Assumptions C22_angle_axis.

Example C22_case : rotation (opk_to_rotation PI 0 1) /\ Rabs (vx (row2 (opk_to_rotation PI 0 1))) < 1.
Proof.
  split; [apply opk_rotation|]. rewrite opk_entries. cbn. rewrite sin_0, sin_PI.
  match goal with |- Rabs ?x < 1 => replace x with 0 by ring end. rewrite Rabs_R0. lra.
Qed.

(** C23: the angles orient the camera as the documented chain of rotations: camera to body axes, roll, pitch and yaw
    to north-east-down axes, and those to the world. *)
Theorem C23_rpy_chain : forall roll pitch yaw lat lon alt tw nx ny o p k v,
  north_is lat lon alt tw nx ny ->
  Rabs (vx (rpy_world roll pitch yaw nx ny (V3 0 0 1))) < 1 ->
  rpy_to_opk roll pitch yaw lat lon alt tw None = (o, p, k) ->
  mvec (opk_to_rotation o p k) v = rpy_world roll pitch yaw nx ny v.
Proof. exact rpy_opk_world. Qed.
Print Assumptions C23_rpy_chain.

(** C23: a level camera in a north aligned CRS. *)
Theorem C23_level : forall yaw lat lon alt tw, - PI <= yaw < PI -> north_is lat lon alt tw 0 1 ->
  rpy_to_opk 0 0 yaw lat lon alt tw None = (0, 0, - yaw).
Proof. exact rpy_opk_level. Qed.
Print Assumptions C23_level.

(** C23: it looks down, with the image top at the heading. *)
Theorem C23_level_looks_down : forall yaw,
  rpy_world 0 0 yaw 0 1 (V3 0 0 (-1)) = V3 0 0 (-1) /\ rpy_world 0 0 yaw 0 1 (V3 0 1 0) = V3 (sin yaw) (cos yaw) 0.
Proof. exact level_looks_down. Qed.
Print Assumptions C23_level_looks_down.

(** A CRS transform with north at grid bearing 0. *)
Example C23_case : north_is 10 20 30 (fun lat lon alt => V3 (lon * 100000) (lat * 100000) alt) 0 1.
Proof. split; [ring|]. exists (/ 50). split; [lra|]. apply vec_eq; cbn; lra. Qed.
