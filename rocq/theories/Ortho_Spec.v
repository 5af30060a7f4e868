(** What an ortho image is, without tiles, windows or crops. *)
From Coq Require Import List String ZArith QArith Reals Bool.
From Verif Require Import Py Flt Grid_Model Grid_Spec Profile_Model Remap_Model Remap_Spec Dem_Spec Ortho_Model.
Import ListNotations.
Open Scope string_scope.
Open Scope list_scope.
Open Scope Z_scope.

(** The five interpolation methods and their names. *)
Inductive interp_name : string -> interp -> Prop :=
| IN_nearest : interp_name "nearest" Nearest
| IN_average : interp_name "average" Average
| IN_bilinear : interp_name "bilinear" Bilinear
| IN_cubic : interp_name "cubic" Cubic
| IN_lanczos : interp_name "lanczos" Lanczos.

(** The CRS of the world coordinates: the one given, otherwise that of the source image. *)
Inductive world_crs {C : Type} (from_string : string -> res C) : crs_param C -> res (option C) -> C -> Prop :=
| W_given : forall c src, world_crs from_string (PCrs c) src c
| W_text : forall s c src, s <> "" -> from_string s = Ok c -> world_crs from_string (PText s) src c
| W_source : forall p c, p = PNone \/ p = PText "" -> world_crs from_string p (Ok (Some c)) c.

(** The pixel size asked for: the resolution, otherwise the ground sampling distance. *)
Definition pixel_size {C : Type} (o : ortho C) (a : args) (rx ry : R) : Prop :=
  match a_resolution a with
  | Some (x, y) => rx = x /\ ry = y
  | None => rx = or_gsd o /\ ry = or_gsd o
  end.

(** A geotransform with square corners and pixels of a given size. *)
Definition has_size (t : affine) (rx ry : R) : Prop := Rabs (ta t) = rx /\ Rabs (te t) = ry.
Definition no_rotation (t : affine) : Prop := tb t = 0%R /\ td t = 0%R.

Definition positive_size {C : Type} (o : ortho C) (a : args) : Prop := forall rx ry, pixel_size o a rx ry -> (0 < rx /\ 0 < ry)%R.

(** Contract of GDAL's [reproject] with a destination resolution: the new grid has pixels of this size, if positive. *)
Definition reprojects_to_size {C : Type} (reproject : interp -> C -> C -> R * R -> arr fl -> affine -> arr fl * affine) : Prop :=
  forall i c c' rx ry a t, (0 < rx)%R -> (0 < ry)%R -> has_size (snd (reproject i c c' (rx, ry) a t)) rx ry.

(** The surface the image is projected on: the part of the DEM that was read if it is in the world CRS with the pixel size asked
    for, otherwise its reprojection. *)
Inductive surface {C : Type} (reproject : interp -> C -> C -> R * R -> arr fl -> affine -> arr fl * affine) (o : ortho C) (a : args)
    : interp -> arr fl -> affine -> Prop :=
| S_own : forall i rx ry, interp_name (a_dem_interp a) i -> pixel_size o a rx ry ->
    or_dem_crs o = or_crs o -> has_size (or_dem_t o) rx ry -> surface reproject o a i (or_dem o) (or_dem_t o)
| S_reprojected : forall i rx ry s t, interp_name (a_dem_interp a) i -> pixel_size o a rx ry ->
    ~ (or_dem_crs o = or_crs o /\ has_size (or_dem_t o) rx ry) ->
    reproject i (or_dem_crs o) (or_crs o) (rx, ry) (or_dem o) (or_dem_t o) = (s, t) -> surface reproject o a i s t.

(** Nodata of the five data types. *)
Inductive nodata_of : string -> pix -> Prop :=
| ND_u8 : nodata_of "uint8" (PVal 0)
| ND_u16 : nodata_of "uint16" (PVal 0)
| ND_i16 : nodata_of "int16" (PVal (-32768))
| ND_f32 : nodata_of "float32" PNan
| ND_f64 : nodata_of "float64" PNan.

(** The data type asked for, otherwise that of the source. *)
Definition dtype_of (a : args) (src : source) : string := match a_dtype a with Some d => d | None => s_dtype src end.

(** The value of a band at world position (x, y, z): the source image, as read, interpolated where the camera sees the position;
    nodata where the camera does not see it. *)
Definition seen (cv_sample : interp -> arr pix -> R -> R -> option pix) (k : camera) (i : interp) (dt : string) (nodata : pix)
    (band : Z) (x y : R) (z : fl) : pix :=
  match k_w2p k (Num x, Num y, z) with
  | (Num j, Num i') => match cv_sample i (k_read k i dt nodata band) j i' with Some v => v | None => nodata end
  | _ => nodata
  end.

(** A camera does not see positions without a height. *)
Definition no_height_unseen (k : camera) : Prop := forall x y, k_w2p k (x, y, Nan) = (Nan, Nan).

(** A pixel is not larger than the DEM in the world CRS, or no reprojection is needed. *)
Definition pixel_fits {C : Type} (bounds_in : Z * Z -> affine -> C -> C -> R * R * R * R) (o : ortho C) (a : args) : Prop :=
  exists rx ry, pixel_size o a rx ry /\
  ((or_dem_crs o = or_crs o /\ has_size (or_dem_t o) rx ry) \/
   let '(x0, y0, x1, y1) := bounds_in (ah (or_dem o), aw (or_dem o)) (or_dem_t o) (or_dem_crs o) (or_crs o) in
   (rx <= x1 - x0 /\ ry <= y1 - y0)%R).

(** The value of a pixel of the ortho without dilation: as seen, or nodata.  [s], [image]: surface and image area; (r0, c0): where the
    dataset starts on the surface. *)
Definition plain (cv_sample : interp -> arr pix -> R -> R -> option pix) (k : camera) (i : interp) (dt : string) (nd : pix)
    (t : affine) (s : arr fl) (image : arr bool) (r0 c0 : Z) (b r c : Z) (v : pix) : Prop :=
  (wanted s image (r0 + r) (c0 + c) ->
   v = let (x, y) := pixel_centre t r c in seen cv_sample k i dt nd b x y (aget s (r0 + r) (c0 + c))) /\
  (~ wanted s image (r0 + r) (c0 + c) -> v = nd).
