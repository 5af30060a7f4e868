(** An ortho image in terms of files and of where a camera sees world points (C99, C100). *)
From Coq Require Import List String ZArith Reals Bool Permutation Sorted.
From Verif Require Import Py Flt Mat Grid_Model Grid_Spec Profile_Model Profile_Spec Remap_Model Remap_Spec Dem_Spec Bound_Model Bound_Spec Frame_Model Cam_Model Rcam_Model Proj_Spec Ortho_Model Ortho_Spec Whole_Model.
Import ListNotations.
Open Scope string_scope.
Open Scope list_scope.
Open Scope Z_scope.

(** Band [b] of an image file, in a data type. *)
Definition band_as (convert : string -> string -> pix -> pix) (im : imfile) (dt : string) (b : Z) (a : arr pix) : Prop :=
  exists d px, nth_error (if_bands im) (Z.to_nat (b - 1)) = Some (d, px) /\
  a = Arr (if_h im) (if_w im) (fun r c => convert d dt (px r c)).

(** The value of a band at a pixel position: interpolated, or nodata outside of the image and without a position. *)
Definition shown (cv_image : string -> arr pix -> fl * fl -> option pix) (i : string) (band : arr pix) (nodata : pix) (q : fl * fl) (v : pix) : Prop :=
  match q with
  | (Num j, Num k) => v = match cv_image i band (Num j, Num k) with Some u => u | None => nodata end
  | _ => v = nodata
  end.

(** How tiles run: blocks have a size, and the tiles of a dataset are done in some order. *)
Definition runs {C : Type} (u : run) (d : dataset C) : Prop :=
  0 < fst (u_block u (d_profile d)) /\ 0 < snd (u_block u (d_profile d)) /\
  forall g, Permutation (u_order u g) (block_windows (d_height d) (d_width d) (u_block u (d_profile d))).

(** The data type asked for, or that of the first band. *)
Definition type_for (a : args) (im : imfile) (dt : string) : Prop :=
  match a_dtype a with Some d => dt = d | None => exists px l, if_bands im = (dt, px) :: l end.

Definition xy_of (p : vec) : R * R := (vx p, vy p).

(** * Calls on a frame camera *)
(** What calls on a frame camera say of the centre and the outline of the image. *)
Definition cam_centre (ask : call -> res value) (w h : Z) (p : vec) : Prop :=
  ask (PixelToWorld (one_pixel (Num (IZR w / 2), Num (IZR h / 2))%R) (ZScalar (Num 0))) = Ok (VPoints [Some p]).
Definition cam_outline (ask : call -> res value) (z : R) (l : list vec) : Prop := ask (WorldBoundary (HScalar z) None None (IEnum "cubic") true) = Ok (VPoints (map Some l)).
Definition cam_surface (ask : call -> res value) (hs : arr fl) (t : affine) (i : string) (l : list vec) : Prop :=
  ask (WorldBoundary (HArray 2 "float32" hs) (Some 400) (Some t) (IEnum i) true) = Ok (VPoints (map Some l)).

(** The same of an RPC camera, by its calls for pixels at a height ([p2w]) and for its boundary. *)
Definition rpc_centre (p2w : nd (list pt2) -> zval -> res (list pt3)) (w h : Z) (p : vec) : Prop :=
  p2w (Nd "float64" [2; 1] [(Num (IZR w / 2), Num (IZR h / 2))%R]) (VScalar (Num 0)) = Ok [(Num (vx p), Num (vy p), Num (vz p))].
Definition rpc_outline (boundary : harg -> option Z -> option affine -> iarg -> res (list (option vec))) (z : R) (l : list vec) : Prop :=
  boundary (HScalar z) None None (IEnum "cubic") = Ok (map Some l).
Definition rpc_surface (boundary : harg -> option Z -> option affine -> iarg -> res (list (option vec))) (hs : arr fl) (t : affine) (i : string) (l : list vec) : Prop :=
  boundary (HArray 2 "float32" hs) (Some 400) (Some t) (IEnum i) = Ok (map Some l).

Section Rectified.
Variable cv_image : string -> arr pix -> fl * fl -> option pix.
Variable convert : string -> string -> pix -> pix.
Variable C : Type.
Variable reproject : interp -> C -> C -> R * R -> arr fl -> affine -> arr fl * affine.
Variable to_pixels : affine -> list (R * R) -> list (Z * Z).
Variable fill_poly : Z * Z -> list (Z * Z) -> arr bool.

(** [outline] is the camera's boundary on a surface (with transform, and interpolated as named), and [sees] has the pixels at which it sees world points.

    The dataset [d] is on the surface made of the DEM of an object: at each pixel inside the outline, with a height, its bands are the image where the camera sees
    the point at the centre of the pixel with this height; other pixels are nodata.  All of the surface inside the outline is in the dataset. *)
Definition rectified (outline : arr fl -> affine -> string -> list vec -> Prop) (sees : vec -> fl * fl -> Prop) (o : ortho C) (s : srcfile C) (a : args) (d : dataset C) : Prop :=
  exists di hs t poly r0 c0 dt nodata,
    (* the surface, and the image on it *)
    interp_name (a_dem_interp a) di /\ surface reproject o a di hs t /\ outline hs t (a_dem_interp a) poly /\
    let image := fill_poly (ah hs, aw hs) (to_pixels t (map xy_of poly)) in
    (* the dataset *)
    d_crs d = or_crs o /\ d_count d = Z.of_nat (List.length (if_bands (sf_im C s))) /\ d_colorinterp d = sf_colors C s /\
    type_for a (sf_im C s) dt /\ d_dtype d = dt /\ nodata_of dt nodata /\
    same_position (d_transform d) t r0 c0 /\ 0 < d_height d /\ 0 < d_width d /\
    (forall r c, wanted hs image r c -> in_im (d_height d) (d_width d) (r - r0) (c - c0)) /\
    forall b r c, 1 <= b <= d_count d -> in_im (d_height d) (d_width d) r c ->
    let (x, y) := pixel_centre (d_transform d) r c in
    (~ wanted hs image (r0 + r) (c0 + c) -> bands (d_raster d) b r c = nodata) /\
    (wanted hs image (r0 + r) (c0 + c) -> exists band z, band_as convert (sf_im C s) dt b band /\ aget hs (r0 + r) (c0 + c) = Num z /\
       forall q, sees (V3 x y z) q -> shown cv_image (a_interp a) band nodata q (bands (d_raster d) b r c)).

(** A call that has a result: there is something on the surface inside of the outline, and the image can be read, remapped and written. *)
Definition processes (bounds_in : Z * Z -> affine -> C -> C -> R * R * R * R) (outline : arr fl -> affine -> string -> list vec -> Prop) (o : ortho C) (s : srcfile C) (a : args) : Prop :=
  pixel_fits bounds_in o a /\
  (exists di hs t poly r c, surface reproject o a di hs t /\ outline hs t (a_dem_interp a) poly /\ wanted hs (fill_poly (ah hs, aw hs) (to_pixels t (map xy_of poly))) r c) /\
  (exists dt, type_for a (sf_im C s) dt /\ supported_dtype dt /\ (~ no_options (a_options a) \/ compress_ok dt (a_compress a))) /\
  if_bands (sf_im C s) <> [] /\ if_h (sf_im C s) < 32767 /\ if_w (sf_im C s) < 32767 /\
  (a_driver a = "gtiff" \/ a_driver a = "cog") /\ (exists i, interp_name (a_interp a) i).

(** Tiles that are small, and that do not fail for other reasons. *)
Definition small_tiles (u : run) (d : dataset C) : Prop :=
  fst (u_block u (d_profile d)) < 32767 /\ snd (u_block u (d_profile d)) < 32767 /\ forall g win, u_fail u g win = false.
End Rectified.

(** * The part of the DEM that is read *)

(** The smallest box around points. *)
Definition is_box (l : list vec) (b : bounds) : Prop :=
  (forall p, In p l -> b_left b <= vx p <= b_right b /\ b_bottom b <= vy p <= b_top b)%R /\
  (exists p, In p l /\ vx p = b_left b) /\ (exists p, In p l /\ vx p = b_right b) /\
  (exists p, In p l /\ vy p = b_bottom b) /\ (exists p, In p l /\ vy p = b_top b).

(** A pixel has a point inside the box. *)
Definition touches_box (b : bounds) (t : affine) (r c : Z) : Prop :=
  exists u v, (IZR c < u < IZR c + 1)%R /\ (IZR r < v < IZR r + 1)%R /\
  (b_left b < fst (aff_apply t u v) < b_right b)%R /\ (b_bottom b < snd (aff_apply t u v) < b_top b)%R.

Definition north_up (t : affine) : Prop := (0 < ta t /\ te t < 0)%R /\ no_rotation t.

Definition has_part {A} (a : arr A) (r0 c0 r c : Z) : Prop := r0 <= r < r0 + ah a /\ c0 <= c < c0 + aw a.

(** The cell at (r, c) has the lowest (highest) value of an array. *)
Definition low_cell (a : arr fl) (r c : Z) (z : R) : Prop :=
  in_im (ah a) (aw a) r c /\ aget a r c = Num z /\ forall r' c' z', in_im (ah a) (aw a) r' c' -> aget a r' c' = Num z' -> (z <= z')%R.
Definition high_cell (a : arr fl) (r c : Z) (z : R) : Prop :=
  in_im (ah a) (aw a) r c /\ aget a r c = Num z /\ forall r' c' z', in_im (ah a) (aw a) r' c' -> aget a r' c' = Num z' -> (z' <= z)%R.

Section Part.
Variable C : Type.
Variable height : C -> C -> vec -> R.                  (* the height of a point of a CRS in another *)
Variable transform_bounds : C -> C -> bounds -> bounds.
Variable metric : C.                                   (* EPSG:4979, with heights in metres *)
Variable centre : vec -> Prop.                         (* the position of the image centre at height 0 *)
Variable outline : R -> list vec -> Prop.              (* the boundary of the image at a height *)
Variable crs : C.
Variable dem : demfile C.
Variable band : Z.

(** A box of the world, in the DEM's CRS. *)
Definition in_dem (b b' : bounds) : Prop := (crs = df_crs C dem -> b' = b) /\ (crs <> df_crs C dem -> b' = transform_bounds crs (df_crs C dem) b).

(** The array from (r0, c0) on has the pixels of an area that touch the box of points. *)
Definition has_box (a : arr fl) (r0 c0 : Z) (area : Z -> Z -> Prop) (pts : list vec) : Prop :=
  forall b b' r c, is_box pts b -> in_dem b b' -> area r c -> touches_box b' (df_t C dem) r c -> has_part a r0 c0 r c.

(** The height of DEM pixel (r, c) of value z in the world CRS. *)
Definition world_height (r c : Z) (z : R) : R :=
  let (x, y) := aff_apply (df_t C dem) (IZR c) (IZR r) in height (df_crs C dem) crs (V3 x y z).

(** [a] is the part of the DEM band that has the image boundary at the lowest and the highest height of an area, that itself has the boundary at all heights from
    -106.71 to 8932.28 metres. *)
Definition dem_part (a : arr fl) (t : affine) : Prop :=
  exists p scale all r1 c1 l1 l2 rl cl zl rh ch zh q1 q2 r0 c0,
    centre p /\ ((height crs metric (V3 (vx p) (vy p) 1) - height crs metric (V3 (vx p) (vy p) 0)) * scale = 1)%R /\
    outline (-106.71 * scale) l1 /\ outline (8932.28 * scale) l2 /\
    sub_array all (df_band C dem band) r1 c1 /\ has_box all r1 c1 (in_im (ah (df_band C dem band)) (aw (df_band C dem band))) (l1 ++ l2) /\
    low_cell all rl cl zl /\ high_cell all rh ch zh /\
    outline (world_height (r1 + rl) (c1 + cl) zl) q1 /\ outline (world_height (r1 + rh) (c1 + ch) zh) q2 /\
    sub_array a (df_band C dem band) r0 c0 /\ same_position t (df_t C dem) r0 c0 /\ has_box a r0 c0 (has_part all r1 c1) (q1 ++ q2).

(** * The default resolution *)

(** The median of the values of an array. *)
Definition median_of (a : arr fl) (m : R) : Prop :=
  exists pos s, NoDup pos /\ (forall r c, In (r, c) pos <-> in_im (ah a) (aw a) r c /\ aget a r c <> Nan) /\
  map (fun p => aget a (fst p) (snd p)) pos = map Num s /\ StronglySorted Rle s /\ s <> [] /\
  m = ((nth (Nat.div (List.length s - 1) 2) s 0 + nth (Nat.div (List.length s) 2) s 0) / 2)%R.

(** As many pixels of size [g] as are inside the boundary of a w x h image have the area inside of the boundary at the height of the DEM's median, taken at the middle of
    the DEM. *)
Definition default_size (a : arr fl) (t : affine) (w h : Z) (g : R) : Prop :=
  exists m pts, median_of a m /\
  let (x, y) := aff_apply t ((IZR (aw a) - 1) / 2)%R ((IZR (ah a) - 1) / 2)%R in
  outline (height (df_crs C dem) crs (V3 x y m)) pts /\ (0 <= g)%R /\
  forall q, (g * g * ((IZR w - 1) * (IZR h - 1)) = Rabs (signed_area q (map xy_of pts)))%R.

(** An object for an image of w x h pixels. *)
Definition built (w h : Z) (o : ortho C) : Prop :=
  or_crs o = crs /\ or_dem_crs o = df_crs C dem /\
  (exists r0 c0, sub_array (or_dem o) (df_band C dem band) r0 c0 /\ same_position (or_dem_t o) (df_t C dem) r0 c0) /\
  (north_up (df_t C dem) -> dem_part (or_dem o) (or_dem_t o)) /\
  (1 < w -> 1 < h -> default_size (or_dem o) (or_dem_t o) w h (or_gsd o)).
(** * DEMs inside of the image *)

(** The box of points has all of the DEM band. *)
Definition surrounds (l : list vec) : Prop :=
  let t := df_t C dem in
  (exists p, In p l /\ vx p <= tc t)%R /\ (exists p, In p l /\ tc t + ta t * IZR (aw (df_band C dem band)) <= vx p)%R /\
  (exists p, In p l /\ tf t <= vy p)%R /\ (exists p, In p l /\ vy p <= tf t + te t * IZR (ah (df_band C dem band)))%R.

(** A DEM in the world CRS, with some height, that is inside of the image boundary at -106.71 metres and at the heights it has. *)
Definition inside : Prop :=
  crs = df_crs C dem /\ 1 <= band <= df_count C dem /\ north_up (df_t C dem) /\
  (exists r c z, in_im (ah (df_band C dem band)) (aw (df_band C dem band)) r c /\ aget (df_band C dem band) r c = Num z) /\
  (exists p l scale, centre p /\ ((height crs metric (V3 (vx p) (vy p) 1) - height crs metric (V3 (vx p) (vy p) 0)) * scale = 1)%R /\ outline (-106.71 * scale) l /\ surrounds l) /\
  (forall r c z, in_im (ah (df_band C dem band)) (aw (df_band C dem band)) r c -> aget (df_band C dem band) r c = Num z -> exists l, outline (world_height r c z) l /\ surrounds l) /\
  (forall z, exists l, outline z l).

(** All points are to one side of the DEM band. *)
Definition outside (l : list vec) : Prop :=
  let t := df_t C dem in
  (forall p, In p l -> vx p <= tc t)%R \/ (forall p, In p l -> tc t + ta t * IZR (aw (df_band C dem band)) <= vx p)%R \/
  (forall p, In p l -> tf t <= vy p)%R \/ (forall p, In p l -> vy p <= tf t + te t * IZR (ah (df_band C dem band)))%R.

(** A DEM in the world CRS that is beside the image boundary at all heights from -106.71 to 8932.28 metres. *)
Definition misses : Prop :=
  crs = df_crs C dem /\ 1 <= band <= df_count C dem /\ north_up (df_t C dem) /\
  exists p scale l1 l2, centre p /\ ((height crs metric (V3 (vx p) (vy p) 1) - height crs metric (V3 (vx p) (vy p) 0)) * scale = 1)%R /\
  outline (-106.71 * scale) l1 /\ outline (8932.28 * scale) l2 /\ l1 <> [] /\ outside (l1 ++ l2).

(** An object with all of the DEM. *)
Definition has_all (o : ortho C) : Prop :=
  let d := df_band C dem band in
  ah (or_dem o) = ah d /\ aw (or_dem o) = aw d /\ (forall r c, in_im (ah d) (aw d) r c -> aget (or_dem o) r c = aget d r c) /\
  same_position (or_dem_t o) (df_t C dem) 0 0.
End Part.
