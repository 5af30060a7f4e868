(** An ortho image in terms of calls on its frame camera, with or without distortion (C107). *)
From Coq Require Import List String ZArith Reals Bool.
From Verif Require Import Py Flt Mat Grid_Model Grid_Spec Profile_Spec Remap_Model Remap_Spec Dem_Spec Bound_Model Bound_Spec Cam_Model Proj_Spec Ortho_Model Ortho_Spec Whole_Model Whole_Spec.
Import ListNotations.
Open Scope string_scope.
Open Scope list_scope.
Open Scope Z_scope.

(** What calls on a camera say: the pixel at which it sees a world point, and a band that it reads of an image. *)
Definition cam_sees (ask : call -> res value) (X : vec) (q : fl * fl) : Prop := ask (WorldToPixel (one_point (num3 X))) = Ok (VPixels [q]).
Definition cam_reads (ask : call -> res value) (im : imfile) (dt : string) (nodata : pix) (interp : string) (b : Z) (band : arr pix) : Prop :=
  exists shape, ask (ReadC (Ok im) (Bands [b]) (Some dt) (Some nodata) interp) = Ok (VImage (Nd dt shape [band])).

Section Shows.
Variable cv_image : string -> arr pix -> fl * fl -> option pix.
Variable C : Type.
Variable reproject : interp -> C -> C -> R * R -> arr fl -> affine -> arr fl * affine.
Variable to_pixels : affine -> list (R * R) -> list (Z * Z).
Variable fill_poly : Z * Z -> list (Z * Z) -> arr bool.

(** The dataset [d] is on the surface made of the DEM of an object, with all of it that is inside the boundary of the image.  The value of a pixel is the band that the
    camera reads, where it sees the point at the centre of the pixel with the height there; or nodata outside of the boundary, and without a height.

    An interpolated image with the distortion of a lens removed can have, with integer types, values that are blurred with nodata: pixels of a
    block within the kernel (of five pixels of the resolution of the image that is read) of one that is nodata (in all bands that are remapped together) are then nodata too. *)
Definition shows (ask : call -> res value) (keeps_distortion pinhole : bool) (o : ortho C) (s : srcfile C) (a : args) (u : run) (d : dataset C) : Prop :=
  exists di hs t poly r0 c0 dt nodata,
    interp_name (a_dem_interp a) di /\ surface reproject o a di hs t /\ cam_surface ask hs t (a_dem_interp a) poly /\
    let image := fill_poly (ah hs, aw hs) (to_pixels t (map xy_of poly)) in
    d_crs d = or_crs o /\ d_count d = Z.of_nat (List.length (if_bands (sf_im C s))) /\ d_colorinterp d = sf_colors C s /\
    type_for a (sf_im C s) dt /\ d_dtype d = dt /\ nodata_of dt nodata /\
    same_position (d_transform d) t r0 c0 /\ 0 < d_height d /\ 0 < d_width d /\
    (forall r c, wanted hs image r c -> in_im (d_height d) (d_width d) (r - r0) (c - c0)) /\
    let value b r c v :=
      let (x, y) := pixel_centre (d_transform d) r c in
      (~ wanted hs image (r0 + r) (c0 + c) -> v = nodata) /\
      (wanted hs image (r0 + r) (c0 + c) -> exists z band q, aget hs (r0 + r) (c0 + c) = Num z /\ cam_reads ask (sf_im C s) dt nodata (a_interp a) b band /\
         cam_sees ask (V3 x y z) q /\ shown cv_image (a_interp a) band nodata q v) in
    let blurs := keeps_distortion = false /\ pinhole = false /\ a_interp a <> "nearest" /\ (dt = "uint8" \/ dt = "uint16" \/ dt = "int16") in
    forall b r c, 1 <= b <= d_count d -> in_im (d_height d) (d_width d) r c ->
    (~ blurs -> value b r c (bands (d_raster d) b r c)) /\
    (blurs -> forall kw kh win, spans (or_gsd o) (Rabs (ta (d_transform d))) kw -> spans (or_gsd o) (Rabs (te (d_transform d))) kh -> In win (block_windows (d_height d) (d_width d) (u_block u (d_profile d))) -> in_win win r c ->
       let near := exists r' c', in_win win r' c' /\ under_kernel kw kh r c r' c' /\
         forall b', 1 <= b' <= d_count d -> (a_per_band a = true -> b' = b) -> exists v, value b' r' c' v /\ is_nodata nodata v in
       (near -> bands (d_raster d) b r c = nodata) /\ (~ near -> value b r c (bands (d_raster d) b r c))).
End Shows.

(** * The default resolution *)
Section Sized.
Variable C : Type.
Variable height : C -> C -> vec -> R.
Variable transform_bounds : C -> C -> bounds -> bounds.
Variable metric : C.

(** As many pixels of size [g] as are inside the image boundary, in pixels of the image that the camera reads, have the area inside of the boundary at the height of the
    DEM's median, taken at the middle of the DEM. *)
Definition sized (ask : call -> res value) (crs : C) (dem : demfile C) (a : arr fl) (t : affine) (g : R) : Prop :=
  exists m pts ji, median_of a m /\ ask (PixelBoundary None) = Ok (VBoundary ji) /\
  let (x, y) := aff_apply t ((IZR (aw a) - 1) / 2)%R ((IZR (ah a) - 1) / 2)%R in
  cam_outline ask (height (df_crs C dem) crs (V3 x y m)) pts /\
  forall q q', signed_area q' ji <> 0%R -> (0 <= g /\ g * g * Rabs (signed_area q' ji) = Rabs (signed_area q (map xy_of pts)))%R.

(** An object for a w x h image. *)
Definition built_for (ask : call -> res value) (w h : Z) (crs : C) (dem : demfile C) (band : Z) (o : ortho C) : Prop :=
  or_crs o = crs /\ or_dem_crs o = df_crs C dem /\
  (exists r0 c0, sub_array (or_dem o) (df_band C dem band) r0 c0 /\ same_position (or_dem_t o) (df_t C dem) r0 c0) /\
  (north_up (df_t C dem) -> dem_part C height transform_bounds metric (cam_centre ask w h) (cam_outline ask) crs dem band (or_dem o) (or_dem_t o)) /\
  sized ask crs dem (or_dem o) (or_dem_t o) (or_gsd o).
End Sized.
