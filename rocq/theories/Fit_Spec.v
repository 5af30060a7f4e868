(** Vocabulary for the frame camera fitting properties. *)
From Coq Require Import String List Reals ZArith.
From Verif Require Import Py Flt Mat Rot_Spec Frame_Model Frame_Spec Rpc_Model Fit_Model.
Import ListNotations.
Open Scope R_scope.

(** OpenCV's distortion: the documented model without the tilted sensor coefficients; zeros at the end can be dropped. *)
Definition cv_contract (cv : list R -> R * R -> R * R) : Prop :=
  (forall d xy, (length d <= 12)%nat -> cv d xy = opencv_distort d xy) /\
  (forall d n xy, cv (d ++ repeat 0 n) xy = cv d xy).

(** OpenCV's projection of a world point, for a pose. *)
Definition cv_project (cv : list R -> R * R -> R * R) (k : intr) (d : list R) (r : mat) (t p : vec) : R * R :=
  let v := cv_camera_coords r t p in k_apply k (cv d (vx v / vz v, vy v / vz v)).

(** Number of coefficients that OpenCV's calibration returns for each type. *)
Definition calib_length (t : ctype) : nat := match t with Pinhole | Brown => 5 | OpenCV => 14 | Fisheye => 4 end.

(** The documented minimum total number of GCPs. *)
Definition min_total (t : ctype) : nat := match t with Pinhole => 4 | Brown => 6 | OpenCV => 11 | Fisheye => 6 end.

(** World coordinates of a GCP. *)
Definition gcp_world (tform : option (vec -> vec)) (g : gcp) : vec :=
  match tform with Some f => f (g_xyz g) | None => g_xyz g end.

(** All GCPs of all images. *)
Definition all_gcps (d : dict (list gcp)) : list gcp := flat_map snd d.

(** Average, and root mean square deviation from it. *)
Fixpoint add_up (l : list R) : R := match l with [] => 0 | x :: l' => x + add_up l' end.
Definition average (l : list R) : R := add_up l / INR (length l).
Definition deviation (l : list R) : R := sqrt (average (map (fun x => (x - average l) ^ 2) l)).

(** Centre of the GCPs. *)
Definition centre (tform : option (vec -> vec)) (d : dict (list gcp)) : vec :=
  let ws := map (gcp_world tform) (all_gcps d) in
  V3 (average (map vx ws)) (average (map vy ws)) (average (map vz ws)).

(** Conversion to angles is well defined: not looking along the world x axis. *)
Definition convertible (r : mat) : Prop := rotation r /\ Rabs (vx (row2 r)) < 1.
