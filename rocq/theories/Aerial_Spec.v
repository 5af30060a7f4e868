(** Where the camera of a tagged image sees points, and what ortho images show (C109). *)
From Coq Require Import Reals String List ZArith.
From Verif Require Import Py Flt Mat Rot_Spec Frame_Model Proj_Spec Photo_Spec Grid_Model Remap_Model Dem_Model Bound_Model Rpc_Model Cam_Model Rcam_Model Make_Model Ortho_Model Whole_Model Whole_Spec Survey_Spec.
Open Scope R_scope.

(** A point is seen from [pos], with roll, pitch and yaw in degrees and north in direction ([nx], [ny]), at pixel [q]: [v] is (right, down, forward) of it, and points beside the
    camera are nowhere. *)
Definition photo_images (pos : vec) (roll pitch yaw nx ny : R) (K : intr) (dist : R * R -> R * R) (X : vec) (q : fl * fl) : Prop :=
  exists v, X = vadd pos (rpy_world (deg roll) (deg pitch) (deg yaw) nx ny (V3 (vx v) (- vy v) (- vz v))) /\
    (vz v = 0 /\ q = (Nan, Nan) \/ vz v <> 0 /\ q = to_pixel K (dist (vx v / vz v, vy v / vz v))).

(** What is meant by a camera, that sees points as [sees], of images of size [w] x [h] in CRS [c], being used for ortho images:
    - every point is seen, at the pixel the camera says;
    - objects are for the DEM that the camera sees;
    - ortho images show the image where its points are seen, or the undistorted image when distortion is off. *)
Section Shown.
Variable cv_surf : string -> arr fl -> fl * fl -> option fl.
Variable cast_nan : string -> fl.
Variable cv_image : string -> arr pix -> fl * fl -> option pix.
Variable convert : string -> string -> pix -> pix.
Variable C : Type.
Variable crs_eqb : C -> C -> bool.
Variable from_string : string -> res C.
Variable rpc_crs : C.
Variable O : Type.
Variable warp : C -> C -> list vec -> list vec.
Variable rpc_xy : rpc -> O -> list ((R * R) * R) -> list (R * R).
Variable transform_bounds : C -> C -> bounds -> bounds.
Variable bounds_in : Z * Z -> affine -> C -> C -> R * R * R * R.
Variable reproject : interp -> C -> C -> R * R -> arr fl -> affine -> arr fl * affine.
Variable to_pixels : affine -> list (R * R) -> list (Z * Z).
Variable fill_poly : Z * Z -> list (Z * Z) -> arr bool.

Definition photo_shown (cam : fcam) (sees : vec -> fl * fl -> Prop) (w h : Z) (c : C) (distort pinhole : bool) : Prop :=
  let ask k := snd (do_call cv_surf cast_nan cv_image convert cam k) in
  (forall X, exists q, sees X q) /\ (forall X q, sees X q -> cam_sees ask X q) /\
  (forall src demf band ort, new_ortho cv_surf cast_nan cv_image convert C crs_eqb from_string rpc_crs O warp rpc_xy transform_bounds (MadeFrame cam) src (Ok demf) (PCrs c) band = Ok ort ->
     built_for C (height_in C warp) transform_bounds rpc_crs ask w h c demf band ort) /\
  (forall ort src a u ds warn,
     process_with cv_surf cast_nan cv_image convert C crs_eqb rpc_crs O warp rpc_xy bounds_in reproject to_pixels fill_poly (MadeFrame cam) ort src a u = Ok (ds, Ok tt, warn) -> runs u ds ->
     exists sf, src = Ok sf /\
       (distort = true -> rectified cv_image convert C reproject to_pixels fill_poly (cam_surface ask) sees ort sf a ds) /\
       (distort = false -> shows cv_image C reproject to_pixels fill_poly ask false pinhole ort sf a u ds)).
End Shown.
