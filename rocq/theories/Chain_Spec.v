(** Where the camera of a reconstructed image sees points (C108). *)
From Coq Require Import List Reals.
From Verif Require Import Py Flt Mat Frame_Model Params_Spec Make_Spec Scene_Spec Proj_Spec Recon_Spec.
Open Scope R_scope.

(** A point is seen from the image [s], with the camera [c], at pixel [q]: through the distortion, or nowhere when it is beside the camera. *)
Definition osfm_images (origin : vec) (s : rshot) (c : interior) (X : vec) (q : fl * fl) : Prop :=
  (exists v, osfm_seen origin (rs_t s) (rs_r s) X v /\ vz v = 0 /\ q = (Nan, Nan)) \/
  (exists v K b, osfm_seen origin (rs_t s) (rs_r s) X v /\ vz v <> 0 /\ pixel_intr c K /\ distorts c (vx v / vz v, vy v / vz v) b /\ q = to_pixel K b).

(** Seen in an undistorted image with intrinsics [K]. *)
Definition osfm_undistorted (origin : vec) (s : rshot) (K : intr) (X : vec) (q : fl * fl) : Prop :=
  exists v, osfm_seen origin (rs_t s) (rs_r s) X v /\ (vz v = 0 /\ q = (Nan, Nan) \/ vz v <> 0 /\ q = to_pixel K (vx v / vz v, vy v / vz v)).
