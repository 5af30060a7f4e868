(** Model of the window, overview and UTM helpers in orthority/common.py. *)
From Coq Require Import List ZArith QArith Qround Bool.
Import ListNotations.
Open Scope Z_scope.

(** rasterio.windows.Window with integer members. *)
Record window := Win { col_off : Z; row_off : Z; width : Z; height : Z }.

(** rasterio.windows.Window with float members (as rationals). *)
Record fwindow := FWin { fcol_off : Q; frow_off : Q; fwidth : Q; fheight : Q }.

(** Python [range(start, stop, step)] for [step > 0]; used with positive steps only (a zero step raises
    ValueError in Python and is outside the model). *)
Definition py_range (start stop step : Z) : list Z :=
  map (fun k => start + Z.of_nat k * step)
      (seq 0 (Z.to_nat ((stop - start + step - 1) / step))).

(** The block shape that [block_windows] uses when none is given (common.py:572-575): the profile's
    'blocksize' (default 512) for COG, else the first band's block shape. *)
Definition default_block_shape (is_cog : bool) (blocksize : option Z) (block_shapes0 : Z * Z) : Z * Z :=
  if is_cog then
    let b := match blocksize with Some b => b | None => 512 end in (b, b)
  else block_shapes0.

(** [itertools.product(xs, ys)]: the first iterable is the outer loop. *)
Definition product {A B} (xs : list A) (ys : list B) : list (A * B) :=
  flat_map (fun x => map (fun y => (x, y)) ys) xs.

(** common.py:568-582 [block_windows].  The generator is modelled by the list of windows it yields.
    [block_shape] is (height, width). *)
Definition block_windows (im_height im_width : Z) (block_shape : Z * Z) : list window :=
  let xrange := py_range 0 im_width (snd block_shape) in
  let yrange := py_range 0 im_height (fst block_shape) in
  map (fun xy : Z * Z =>
         let (xstart, ystart) := xy in
         let xstop := Z.min (xstart + snd block_shape) im_width in
         let ystop := Z.min (ystart + fst block_shape) im_height in
         Win xstart ystart (xstop - xstart) (ystop - ystart))
      (product xrange yrange).

(** [np.divmod(x, 1)] on rationals: floor and fraction. *)
Definition divmod1 (x : Q) : Z * Q := (Qfloor x, (x - inject_Z (Qfloor x))%Q).

(** common.py:82-89 [expand_window_to_grid].  [expand_pixels] is (rows, columns). *)
Definition expand_window_to_grid (win : fwindow) (expand_pixels : Z * Z) : window :=
  let (coff, col_frac) := divmod1 (fcol_off win - inject_Z (snd expand_pixels))%Q in
  let (roff, row_frac) := divmod1 (frow_off win - inject_Z (fst expand_pixels))%Q in
  let w := Qceiling (fwidth win + inject_Z (2 * snd expand_pixels) + col_frac)%Q in
  let h := Qceiling (fheight win + inject_Z (2 * fst expand_pixels) + row_frac)%Q in
  Win coff roff w h.

(** common.py:532-556 [build_overviews]: the list of levels passed to rasterio.  Float [np.log2]
    followed by [int] is modelled by the exact integer logarithm (they agree for sizes below 2^48); sizes
    are at least 1. *)
Definition overview_levels (im_height im_width max_num_levels min_level_pixels : Z) : list Z :=
  let max_ovw_levels := Z.min (Z.log2 im_height) (Z.log2 im_width) in
  let min_level_shape_pow2 := Z.log2 min_level_pixels in
  let num_ovw_levels := Z.min max_num_levels (max_ovw_levels - min_level_shape_pow2) in
  map (fun m => 2 ^ m) (py_range 1 (num_ovw_levels + 1) 1).

(** common.py:532-537: the default arguments, which are the only ones used in the package. *)
Definition build_overviews (im_height im_width : Z) : list Z :=
  overview_levels im_height im_width 8 256.

(** common.py:156-161 [utm_crs_from_latlon]: the EPSG code of the returned CRS. *)
Definition utm_crs_from_latlon (lat lon : Q) : Z :=
  let zone := (Qfloor ((lon + 180) / 6)%Q) mod 60 + 1 in
  if Qle_bool 0 lat then 32600 + zone else 32700 + zone.
