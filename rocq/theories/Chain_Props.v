(** Property theorems: C108 OpenSfM reconstructions to ortho images. *)
From Coq Require Import String List Reals QArith Qreals ZArith Lra Lia.
From Verif Require Import Py Flt Mat Rot_Model Grid_Model Grid_Spec Profile_Spec Remap_Model Remap_Spec Dem_Model Dem_Spec Frame_Model Undist_Model Bound_Model Bound_Spec Rpc_Model Validate_Model Params_Model Params_Spec
  Cam_Model Cam_Spec Rcam_Model Make_Model Make_Spec Make_Props Proj_Spec Scene_Spec Factory_Model Csv_Model Exif_Model Tags_Spec Photo_Model Photo_Spec Recon_Model Recon_Spec Recon_Props Ortho_Model Ortho_Spec Whole_Model
  Whole_Spec WholeDoc_Proof Whole_Props Survey_Spec Chain_Spec Chain_Proof.
Import ListNotations.
Open Scope string_scope.
Open Scope list_scope.
Open Scope Z_scope.

Section Props.
Variable cv_surf : string -> arr fl -> fl * fl -> option fl.
Variable cast_nan : string -> fl.
Variable cv_image : string -> arr pix -> fl * fl -> option pix.
Variable convert : string -> string -> pix -> pix.
Variable cv_project cv_undistort fish_undistort : intr -> list R -> R * R -> R * R.
Variable C : Type.
Variable crs_eqb : C -> C -> bool.
Variable from_string : string -> res C.
Variable rpc_crs : C.
Variable O : Type.
Variable warp : C -> C -> list vec -> list vec.
Variable rpc_xy : rpc -> O -> list ((R * R) * R) -> list (R * R).
Variable transform_bounds : C -> C -> bounds -> bounds.
Variable bounds_in : Z * Z -> affine -> C -> C -> R * R * R * R.
Variable reproject : interp -> C -> C -> R * R -> arr fl -> affine -> arr fl * affine.
Variable to_pixels : affine -> list (R * R) -> list (Z * Z).
Variable fill_poly : Z * Z -> list (Z * Z) -> arr bool.
(** CRSs compare by what they are; OpenCV interpolates nothing outside of an image, projects by its documented model, takes missing coefficients as zero, and makes rotations of vectors. *)
Hypothesis crs_same : forall a b, crs_eqb a b = true <-> a = b.
Hypothesis cv_border : forall i b j k, (j <= -1 \/ k <= -1 \/ IZR (aw b) <= j \/ IZR (ah b) <= k)%R -> cv_image i b (Num j, Num k) = None.
Hypothesis cv_projects : forall K d xy b, In (List.length d) [4; 5; 8; 12; 14]%nat -> opencv_distorts (cv_coefs d) xy b -> num2 (cv_project K d xy) = to_pixel K b.
Hypothesis cv_undistorts : forall K d d' p, In (List.length d) [4; 5; 8; 12; 14]%nat -> In (List.length d') [4; 5; 8; 12; 14]%nat ->
  (forall k, cv_coefs d k = cv_coefs d' k) -> cv_undistort K d p = cv_undistort K d' p.

Notation new_ortho := (new_ortho cv_surf cast_nan cv_image convert C crs_eqb from_string rpc_crs O warp rpc_xy transform_bounds).
Notation process_with := (process_with cv_surf cast_nan cv_image convert C crs_eqb rpc_crs O warp rpc_xy bounds_in reproject to_pixels fill_poly).
Notation asking cam := (fun k => snd (do_call cv_surf cast_nan cv_image convert cam k)).

Variables is_projected is_geographic : C -> bool.
Variable epsg : Z -> C.
Variable transform : C -> C -> vec -> vec.
Variable rodrigues : vec -> mat.
Hypothesis cv_rotates : forall r X, rotated r X (mvec (rodrigues r) X).
Notation recon_factory := (recon_factory C is_projected is_geographic epsg transform rodrigues).
Notation recon_camera := (recon_camera cv_project cv_undistort fish_undistort).
Notation recon_object := (recon_object cv_surf cast_nan cv_image convert).


(** C108: every image of a file has a camera whose ortho images show the image where OpenSfM's documented transform sees the surface: through the lens with
    distortion on, and in an undistorted copy of the image with it off. *)
Theorem C108_ortho : forall first rest rc crs o l kwargs d, recon_in first rc -> Forall (fun v => exists rc', recon_in v rc') rest ->
  crs_given is_projected crs o -> is_geographic l = true -> options kwargs d ->
  exists fac world, recon_factory crs (ACrs l) (PList (first :: rest)) = Ok (fac, world) /\
  forall name s c history, rshot_of (rc_shots rc) name s -> rcamera_of (rc_cams rc) s c -> usable c -> not_locked (rs_r s) ->
  let st := frame_run (recon_camera kwargs) history fac in
  exists i obj, snd (frame_get (recon_camera kwargs) name st) = Ok i /\ nth_error (f_heap (fst (frame_get (recon_camera kwargs) name st))) i = Some obj /\
  let cam := recon_object obj in
  let ask := asking cam in
  let origin := transform l world (V3 (rc_lon rc) (rc_lat rc) (rc_alt rc)) in
  (forall src demf band ort, new_ortho (MadeFrame cam) src (Ok demf) (PCrs world) band = Ok ort ->
     built_for C (height_in C warp) transform_bounds rpc_crs ask (in_w c) (in_h c) world demf band ort) /\
  (d = true -> forall ort src a u ds warn, process_with (MadeFrame cam) ort src a u = Ok (ds, Ok tt, warn) -> runs u ds ->
     exists sf, src = Ok sf /\ rectified cv_image convert C reproject to_pixels fill_poly (cam_surface ask) (osfm_images origin s c) ort sf a ds) /\
  (d = false -> exists K alpha, number_at kwargs "alpha" 1 alpha /\ (in_type c = Cpinhole -> pixel_intr c K) /\
     (in_type c <> Cpinhole -> exists f, lens_inverse cv_undistort fish_undistort c f /\ undistorted f (in_w c) (in_h c) alpha K) /\
     (forall X q, osfm_undistorted origin s K X q -> cam_sees ask X q) /\
     forall ort src a u ds warn, process_with (MadeFrame cam) ort src a u = Ok (ds, Ok tt, warn) -> runs u ds ->
     exists sf, src = Ok sf /\ shows cv_image C reproject to_pixels fill_poly ask false (fc_pinhole cam) ort sf a u ds).
Proof.
  exact (recon_ortho cv_surf cast_nan cv_image convert cv_project cv_undistort fish_undistort C crs_eqb from_string rpc_crs O warp rpc_xy transform_bounds bounds_in reproject to_pixels fill_poly
    crs_same cv_border cv_projects cv_undistorts is_projected is_geographic epsg transform rodrigues cv_rotates).
Qed.
End Props.

Print Assumptions C108_ortho.

(** * Case *)

(** The file of C106: "a.jpg", asked for after "b.jpg", gets a camera for 4 by 2 pixel images that keeps distortion, to which the theorem applies with a point 10 m east of the reference position seen
    at (5.5, 0.5). (C107_case has an ortho image that is made without an error.) *)
Example C108_case : exists fac i obj,
  let create := recon_camera demo_project (fun _ _ p => p) (fun _ _ p => p) [] in
  recon_factory Z (fun _ => true) (Z.eqb 4979) (fun code => code) (fun _ _ _ => V3 1000 2000 30) demo_rodrigues NoCrs (ACrs 4979) (PList [recon_doc]) = Ok (fac, 32734) /\
  let st := frame_run create ["b.jpg"] fac in
  snd (frame_get create "a.jpg" st) = Ok i /\ nth_error (f_heap (fst (frame_get create "a.jpg" st))) i = Some obj /\
  let cam := recon_object demo_surf (fun _ => Nan) demo_image (fun _ _ v => v) obj in
  let sees := osfm_images (V3 1000 2000 30) (recon_shot "a.jpg" (0, 0, 20)%Q (0, 0, 0)%Q) recon_interior in
  sees (V3 1010 2000 30) (to_pixel (Intr 4 8 (3 / 2) (1 / 2)) (1, 0)%R) /\
  forall ort src a u ds warn,
    process_with demo_surf (fun _ => Nan) demo_image (fun _ _ v => v) Z Z.eqb 4979 unit (fun _ _ l => l) (fun _ _ _ => []) (fun _ _ _ _ => (0, 0, 0, 0)%R) (fun _ _ _ _ a t => (a, t)) (fun _ _ => [])
      (fun hw _ => Arr (fst hw) (snd hw) (fun _ _ => true)) (MadeFrame cam) ort src a u = Ok (ds, Ok tt, warn) -> runs u ds ->
    exists sf, src = Ok sf /\ rectified demo_image (fun _ _ v => v) Z (fun _ _ _ _ a t => (a, t)) (fun _ _ => []) (fun hw _ => Arr (fst hw) (snd hw) (fun _ _ => true))
      (cam_surface (fun k => snd (do_call demo_surf (fun _ => Nan) demo_image (fun _ _ v => v) cam k))) sees ort sf a ds.
Proof.
  destruct (C108_ortho demo_surf (fun _ => Nan) demo_image (fun _ _ v => v) demo_project (fun _ _ p => p) (fun _ _ p => p) Z Z.eqb (fun _ => Ok 4979) 4979 unit (fun _ _ l => l) (fun _ _ _ => [])
    (fun _ _ b => b) (fun _ _ _ _ => (0, 0, 0, 0)%R) (fun _ _ _ _ a t => (a, t)) (fun _ _ => []) (fun hw _ => Arr (fst hw) (snd hw) (fun _ _ => true)) Z.eqb_eq demo_border
    (fun K d xy b _ => demo_projects K d xy b) (fun _ _ _ _ _ _ _ => eq_refl) (fun _ => true) (Z.eqb 4979) (fun code => code) (fun _ _ _ => V3 1000 2000 30) demo_rodrigues demo_rotates
    recon_doc [] recon_demo NoCrs None 4979 [] true recon_demo_in (Forall_nil _) (or_introl (conj eq_refl eq_refl)) eq_refl Recon_Proof.no_options) as (fac & world & Ef & P).
  destruct C106_case as (fac' & _ & _ & Ef' & _). rewrite Ef in Ef'. injection Ef' as _ Ec. rewrite Ec in Ef.
  destruct (P "a.jpg" (recon_shot "a.jpg" (0, 0, 20)%Q (0, 0, 0)%Q) recon_interior ["b.jpg"]) as (i & obj & G & Nt & _ & A & _).
  - apply r_same_name; [left; reflexivity|reflexivity].
  - apply r_with_id; [discriminate|left; reflexivity].
  - unfold usable, recon_interior. cbn [in_w in_h in_fx in_fy in_sensor]. unfold Q2R. cbn [Qnum Qden]. repeat split; try lia; try discriminate; lra.
  - intros e (H & _). assert (Z0 : sqrt (dot (rs_r (recon_shot "a.jpg" (0, 0, 20)%Q (0, 0, 0)%Q)) (rs_r (recon_shot "a.jpg" (0, 0, 20)%Q (0, 0, 0)%Q))) = 0%R).
    { unfold dot. cbn. unfold Q2R. cbn. etransitivity; [|exact sqrt_0]. f_equal. lra. }
    rewrite (H Z0). cbn. rewrite Rabs_R0. lra.
  - exists fac, i, obj. split; [exact Ef|]. split; [exact G|]. split; [exact Nt|]. split; [|exact (A eq_refl)].
    right. exists (V3 10 0 20), (Intr 4 8 (3 / 2) (1 / 2)), (1, 0)%R. split; [|split; [|split; [|split; [|reflexivity]]]].
    + exists (V3 10 0 0). split.
      * split.
        { intros _. unfold vsub. cbn. f_equal; lra. }
        { intros Na. exfalso. apply Na. unfold dot. cbn. unfold Q2R. cbn. etransitivity; [|exact sqrt_0]. f_equal. lra. }
      * unfold vadd. cbn. unfold Q2R. cbn. f_equal; lra.
    + cbn. lra.
    + unfold pixel_intr, recon_interior. cbn [in_sensor in_w in_h in_fx in_fy in_cx in_cy kfx kfy kcx kcy]. unfold Q2R. cbn. repeat split; lra.
    + unfold distorts, opencv_distorts. cbn. unfold tilted. cbn [fst snd]. rewrite cos_0, sin_0. repeat split; try lra; field.
Qed.
