(** Property theorems: C70 an ortho image end to end, C71 world CRS and resolution, C72 repeated calls. *)
From Coq Require Import List String ZArith QArith Reals Bool Permutation.
From Verif Require Import Py Flt Grid_Model Grid_Spec Profile_Model Profile_Spec Remap_Model Remap_Spec Dem_Model Dem_Spec
  Ortho_Model Ortho_Spec Ortho_Proof.
Import ListNotations.
Open Scope string_scope.
Open Scope list_scope.
Open Scope Z_scope.

(** C70: the dataset that a call leaves, whether or not its tiles succeed, is in the world CRS, with the bands and colour
    interpretation of the source, the data type asked for and pixels of the size asked for. *)
Theorem C70_grid : forall C crs_eqb bounds_in reproject cv_sample to_pixels fill_poly,
  (forall a b : C, crs_eqb a b = true <-> a = b) -> reprojects_to_size reproject ->
  forall o k a w d r warn, positive_size o a ->
  process C crs_eqb bounds_in reproject cv_sample to_pixels fill_poly o k a w = Ok (d, r, warn) ->
  d_crs d = or_crs o /\ d_count d = s_count (w_source w) /\ d_dtype d = dtype_of a (w_source w) /\
  d_colorinterp d = s_colorinterp (w_source w) /\
  exists rx ry, pixel_size o a rx ry /\ has_size (d_transform d) rx ry.
Proof. intros C e b rp cv tp fp He. exact (process_grid C e b rp cv tp fp He). Qed.
Print Assumptions C70_grid.

(** C70: a call that succeeds has put, at every pixel of every band, the source image seen at the centre of the pixel at the height
    of the surface there; and nodata where there is no surface or it is outside of the image.  No part of the image on the
    surface is lost.  This is whatever the tiling, number of threads and schedule, bands together or one by one. *)
Theorem C70_pixels : forall C crs_eqb bounds_in reproject cv_sample to_pixels fill_poly,
  (forall a b : C, crs_eqb a b = true <-> a = b) -> (forall i, transparent_border (cv_sample i)) ->
  forall o k a w d warn, no_height_unseen k ->
  process C crs_eqb bounds_in reproject cv_sample to_pixels fill_poly o k a w = Ok (d, Ok tt, warn) ->
  1 <= s_count (w_source w) -> 0 < fst (w_block w (d_profile d)) -> 0 < snd (w_block w (d_profile d)) ->
  (forall g, Permutation (w_order w g) (block_windows (d_height d) (d_width d) (w_block w (d_profile d)))) ->
  let dt := dtype_of a (w_source w) in
  k_distort k = true \/ k_pinhole k = true \/ a_interp a = "nearest" \/ dt = "float32" \/ dt = "float64" ->
  exists di s st r0 c0 i nd,
    surface reproject o a di s st /\ interp_name (a_interp a) i /\ nodata_of dt nd /\
    same_position (d_transform d) st r0 c0 /\ 0 < d_height d /\ 0 < d_width d /\
    let image := fill_poly (ah s, aw s) (to_pixels st (k_boundary k s st di)) in
    (forall r c, wanted s image r c -> in_im (d_height d) (d_width d) (r - r0) (c - c0)) /\
    forall b r c, in_range (d_count d) b -> in_im (d_height d) (d_width d) r c ->
    let (x, y) := pixel_centre (d_transform d) r c in
    (wanted s image (r0 + r) (c0 + c) -> bands (d_raster d) b r c = seen cv_sample k i dt nd b x y (aget s (r0 + r) (c0 + c))) /\
    (~ wanted s image (r0 + r) (c0 + c) -> bands (d_raster d) b r c = nd).
Proof. intros C e b rp cv tp fp He. exact (process_end_to_end C e b rp cv tp fp He). Qed.
Print Assumptions C70_pixels.

(** C70: an integer ortho made by undistorting the image of a camera with distortion, interpolated: pixels of a block within the kernel
    of one without data in the block (in all bands, or in this band when bands are remapped one by one) are nodata, and the others are
    as above. *)
Theorem C70_dilated : forall C crs_eqb bounds_in reproject cv_sample to_pixels fill_poly,
  (forall a b : C, crs_eqb a b = true <-> a = b) -> (forall i, transparent_border (cv_sample i)) ->
  forall o k a w d warn, no_height_unseen k ->
  process C crs_eqb bounds_in reproject cv_sample to_pixels fill_poly o k a w = Ok (d, Ok tt, warn) ->
  1 <= s_count (w_source w) -> 0 < fst (w_block w (d_profile d)) -> 0 < snd (w_block w (d_profile d)) ->
  (forall g, Permutation (w_order w g) (block_windows (d_height d) (d_width d) (w_block w (d_profile d)))) ->
  let dt := dtype_of a (w_source w) in
  k_distort k = false -> k_pinhole k = false -> a_interp a <> "nearest" -> dt = "uint8" \/ dt = "uint16" \/ dt = "int16" ->
  exists di s st r0 c0 i nd,
    surface reproject o a di s st /\ interp_name (a_interp a) i /\ nodata_of dt nd /\ same_position (d_transform d) st r0 c0 /\
    0 < d_height d /\ 0 < d_width d /\
    let image := fill_poly (ah s, aw s) (to_pixels st (k_boundary k s st di)) in
    (forall r c, wanted s image r c -> in_im (d_height d) (d_width d) (r - r0) (c - c0)) /\
    let value := plain cv_sample k i dt nd (d_transform d) s image r0 c0 in
    forall kw kh b r c win, spans (or_gsd o) (Rabs (ta (d_transform d))) kw -> spans (or_gsd o) (Rabs (te (d_transform d))) kh -> in_range (d_count d) b -> in_im (d_height d) (d_width d) r c ->
    In win (block_windows (d_height d) (d_width d) (w_block w (d_profile d))) -> in_win win r c ->
    let near := exists r' c', in_win win r' c' /\ under_kernel kw kh r c r' c' /\
      forall b', in_range (d_count d) b' -> (a_per_band a = true -> b' = b) -> exists v, value b' r' c' v /\ is_nodata nd v in
    (near -> bands (d_raster d) b r c = nd) /\ (~ near -> value b r c (bands (d_raster d) b r c)).
Proof. intros C e b rp cv tp fp He. exact (process_dilated C e b rp cv tp fp He). Qed.
Print Assumptions C70_dilated.

(** C70: nodata outside the surface and the image holds in the other cases too (a distorted image is undistorted for an integer
    type, and the nodata area is dilated). *)
Theorem C70_outside : forall C crs_eqb bounds_in reproject cv_sample to_pixels fill_poly,
  (forall a b : C, crs_eqb a b = true <-> a = b) -> (forall i, transparent_border (cv_sample i)) ->
  forall o k a w d warn, no_height_unseen k ->
  process C crs_eqb bounds_in reproject cv_sample to_pixels fill_poly o k a w = Ok (d, Ok tt, warn) ->
  1 <= s_count (w_source w) -> 0 < fst (w_block w (d_profile d)) -> 0 < snd (w_block w (d_profile d)) ->
  (forall g, Permutation (w_order w g) (block_windows (d_height d) (d_width d) (w_block w (d_profile d)))) ->
  exists di s st r0 c0 nd,
    surface reproject o a di s st /\ nodata_of (dtype_of a (w_source w)) nd /\ same_position (d_transform d) st r0 c0 /\
    forall b r c, in_range (d_count d) b -> in_im (d_height d) (d_width d) r c ->
    ~ wanted s (fill_poly (ah s, aw s) (to_pixels st (k_boundary k s st di))) (r0 + r) (c0 + c) -> bands (d_raster d) b r c = nd.
Proof. intros C e b rp cv tp fp He. exact (process_outside C e b rp cv tp fp He). Qed.
Print Assumptions C70_outside.

(** C70: there is a dataset exactly when the pixel size is not larger than the DEM, part of the image is on the surface and the
    output format is allowed (and the DEM interpolation is one of the five). *)
Theorem C70_creates : forall C crs_eqb bounds_in reproject cv_sample to_pixels fill_poly,
  (forall a b : C, crs_eqb a b = true <-> a = b) ->
  forall o k a w,
  (exists x, process C crs_eqb bounds_in reproject cv_sample to_pixels fill_poly o k a w = Ok x) <->
  pixel_fits bounds_in o a /\
  (exists di s st, surface reproject o a di s st /\
     exists r c, wanted s (fill_poly (ah s, aw s) (to_pixels st (k_boundary k s st di))) r c) /\
  supported_dtype (dtype_of a (w_source w)) /\ (a_driver a = "gtiff" \/ a_driver a = "cog") /\
  (~ no_options (a_options a) \/ compress_ok (dtype_of a (w_source w)) (a_compress a)).
Proof. intros C e b rp cv tp fp He. exact (process_creates C e b rp cv tp fp He). Qed.
Print Assumptions C70_creates.

(** C70: and then the call succeeds exactly when the interpolation is one of the five, if no tile task fails. *)
Theorem C70_succeeds : forall C crs_eqb bounds_in reproject cv_sample to_pixels fill_poly,
  (forall a b : C, crs_eqb a b = true <-> a = b) ->
  forall o k a w d r warn, process C crs_eqb bounds_in reproject cv_sample to_pixels fill_poly o k a w = Ok (d, r, warn) ->
  1 <= s_count (w_source w) -> 0 < fst (w_block w (d_profile d)) -> 0 < snd (w_block w (d_profile d)) ->
  (forall g, Permutation (w_order w g) (block_windows (d_height d) (d_width d) (w_block w (d_profile d)))) ->
  (forall g win, w_fail w g win = false) ->
  r = Ok tt <-> exists i, interp_name (a_interp a) i.
Proof. intros C e b rp cv tp fp He. exact (process_result C e b rp cv tp fp He). Qed.
Print Assumptions C70_succeeds.

(** A 3 x 4 DEM with a hole, an image over part of it, and two bands; with the DEM's own grid and with a reprojection. *)
Example C70_case : forall res, res = None \/ res = Some (5, 4)%R ->
  exists d warn, process nat Nat.eqb demo_bounds demo_reproject demo_sample (fun _ _ => []) demo_poly
                   demo_ortho demo_camera (demo_args res) (demo_world 2 3) = Ok (d, Ok tt, warn) /\
  d_height d = 2 /\ d_width d = 3 /\ d_count d = 2 /\ w_block (demo_world 2 3) (d_profile d) = (2, 2) /\
  forall g, Permutation (w_order (demo_world 2 3) g) (block_windows (d_height d) (d_width d) (2, 2)).
Proof. exact (demo_call true). Qed.
(** The same with a camera that undistorts: the kernel is 5 x 5 pixels. *)
Example C70_dilated_case : let k := demo_camera_with false in
  (exists d warn, process nat Nat.eqb demo_bounds demo_reproject demo_sample (fun _ _ => []) demo_poly
                   demo_ortho k (demo_args None) (demo_world 2 3) = Ok (d, Ok tt, warn) /\
   d_height d = 2 /\ d_width d = 3 /\ d_count d = 2 /\ w_block (demo_world 2 3) (d_profile d) = (2, 2) /\
   forall g, Permutation (w_order (demo_world 2 3) g) (block_windows (d_height d) (d_width d) (2, 2))) /\
  k_distort k = false /\ k_pinhole k = false /\ a_interp (demo_args None) <> "nearest" /\
  dtype_of (demo_args None) (w_source (demo_world 2 3)) = "uint8".
Proof. split; [exact (demo_call false None (or_introl eq_refl))|]. repeat split; discriminate. Qed.
Example C70_case_contracts : ((forall i, transparent_border (demo_sample i)) /\ no_height_unseen demo_camera) /\
  reprojects_to_size demo_reproject /\ positive_size demo_ortho (demo_args None) /\ positive_size demo_ortho (demo_args (Some (5, 4)%R)).
Proof. split; [split; [exact demo_sample_border|]; intros x y; reflexivity|exact demo_sizes]. Qed.

(** C71: the world CRS is the one given, or the source image's. *)
Theorem C71_crs : forall C from_string p src get_dem get_gsd o,
  ortho_init C from_string true p src get_dem get_gsd = Ok o ->
  world_crs from_string p src (or_crs o) /\
  get_dem (or_crs o) = Ok (or_dem o, or_dem_t o, or_dem_crs o) /\
  or_gsd o = get_gsd (or_crs o) (or_dem o) (or_dem_t o) (or_dem_crs o).
Proof. intros C fs. exact (init_crs C fs). Qed.
Print Assumptions C71_crs.

(** C71: anything but a camera is a TypeError, before a file is opened. *)
Theorem C71_camera : forall C from_string p src get_dem get_gsd, ortho_init C from_string false p src get_dem get_gsd = Err TypeError.
Proof. reflexivity. Qed.
Print Assumptions C71_camera.

(** C71: none given and none in the image is an error of its own, and is the only cause of this error. *)
Theorem C71_crs_missing : forall C from_string p src get_dem get_gsd,
  (forall s, from_string s <> Err CrsMissingError) -> (forall c, get_dem c <> Err CrsMissingError) -> src <> Err CrsMissingError ->
  (ortho_init C from_string true p src get_dem get_gsd = Err CrsMissingError <-> (p = PNone \/ p = PText "") /\ src = Ok None).
Proof. intros C fs p src gd gg A B D. split; [exact (init_crs_missing C fs src p gd gg A B D)|]. intros [E F]. exact (init_no_crs C fs src p gd gg E F). Qed.
Print Assumptions C71_crs_missing.

(** C71: pixels larger than the DEM are an Orthority error, before anything is written. *)
Theorem C71_resolution : forall C crs_eqb bounds_in reproject cv_sample to_pixels fill_poly,
  (forall a b : C, crs_eqb a b = true <-> a = b) ->
  forall o k a w i, interp_name (a_dem_interp a) i -> ~ pixel_fits bounds_in o a ->
  process C crs_eqb bounds_in reproject cv_sample to_pixels fill_poly o k a w = Err OrthorityError.
Proof. intros C e b rp cv tp fp He. exact (resolution_too_large C e b rp cv tp fp He). Qed.
Print Assumptions C71_resolution.

(** C71: an image that has no part on the surface is an Orthority error. *)
Theorem C71_off_dem : forall C crs_eqb bounds_in reproject cv_sample to_pixels fill_poly,
  (forall a b : C, crs_eqb a b = true <-> a = b) ->
  forall o k a w i s st, surface reproject o a i s st -> pixel_fits bounds_in o a ->
  (forall r c, ~ wanted s (fill_poly (ah s, aw s) (to_pixels st (k_boundary k s st i))) r c) ->
  process C crs_eqb bounds_in reproject cv_sample to_pixels fill_poly o k a w = Err OrthorityError.
Proof. intros C e b rp cv tp fp He. exact (off_surface C e b rp cv tp fp He). Qed.
Print Assumptions C71_off_dem.

(** C71: an unknown DEM interpolation is a ValueError. *)
Theorem C71_dem_interp : forall C crs_eqb bounds_in reproject cv_sample to_pixels fill_poly,
  forall o k a w, (forall i, ~ interp_name (a_dem_interp a) i) ->
  process C crs_eqb bounds_in reproject cv_sample to_pixels fill_poly o k a w = Err ValueError.
Proof. intros C e b rp cv tp fp. exact (bad_dem_interp C e b rp cv tp fp). Qed.
Print Assumptions C71_dem_interp.

(** The demonstration grid is 8 x 6 units: pixels of 9 don't fit, of 5 x 4 do. *)
Example C71_case : pixel_fits demo_bounds demo_ortho (demo_args (Some (5, 4)%R)) /\ ~ pixel_fits demo_bounds demo_ortho (demo_args (Some (9, 4)%R)) /\
  world_crs (fun s => if String.eqb s "EPSG:1" then Ok 1%nat else Err ValueError) (PText "EPSG:1") (Ok (Some 2%nat)) 1%nat.
Proof. exact demo_fits. Qed.

(** C72: the calls on one object, each with its own arguments, give what each gives on its own: no call changes the DEM of the
    object. *)
Theorem C72_calls : forall C crs_eqb bounds_in reproject cv_sample to_pixels fill_poly o dem k l h,
  (dem < List.length h)%nat -> hget h dem = or_dem o ->
  calls C crs_eqb bounds_in reproject cv_sample to_pixels fill_poly o dem k l h =
  map (fun aw => process C crs_eqb bounds_in reproject cv_sample to_pixels fill_poly o k (fst aw) (snd aw)) l.
Proof. exact calls_independent. Qed.
Print Assumptions C72_calls.

(** C72: the memory model is faithful: the cropped array is a view of the changed array. *)
Theorem C72_view : forall to_pixels fill_poly k dem t i a t' warn, crop_to_image to_pixels fill_poly k dem t i = Ok (a, t', warn) ->
  exists r0 c0, same_position t' t r0 c0 /\ sub_array a (mask_base to_pixels fill_poly k dem t i) r0 c0.
Proof. exact view_of_base. Qed.
Print Assumptions C72_view.

(** The crop of the demonstration changes the array that it is given: without the copy the second call would see it. *)
Example C72_case : let dem := or_dem demo_ortho in
  aget dem 1 1 = Nan /\ aget dem 0 0 = Num 100 /\
  aget (mask_base (fun _ _ => []) (fun s _ => Arr (fst s) (snd s) (fun r c => (r =? c) || (c =? 3))) demo_camera dem (or_dem_t demo_ortho) Cubic) 0 1 = Nan /\
  aget dem 0 1 = Num 100.
Proof. cbv zeta. repeat split. Qed.
