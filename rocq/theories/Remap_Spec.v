(** What an ortho pixel should be. *)
From Coq Require Import List ZArith QArith Reals Permutation.
From Verif Require Import Py Flt Grid_Model Grid_Spec Remap_Model.
Import ListNotations.
Open Scope Z_scope.

(** The value is nodata (NaN matching NaN). *)
Definition is_nodata (nodata v : pix) : Prop :=
  match nodata, v with
  | PNan, PNan => True
  | PVal a, PVal b => (b == a)%Q
  | _, _ => False
  end.

(** World (x, y) of the centre of pixel (row, col) under a geotransform (whose origin is the corner of the top left
    pixel): columns go with the first coefficients, rows with the second. *)
Definition pixel_centre (t : affine) (row col : Z) : R * R :=
  ((ta t * (IZR col + / 2) + tb t * (IZR row + / 2) + tc t)%R,
   (td t * (IZR col + / 2) + te t * (IZR row + / 2) + tf t)%R).

(** The source value seen at world point (x, y, z): project, treat NaN as outside the image, interpolate;
    nodata where there is nothing to interpolate. *)
Definition source_value (job : ortho_job) (band : Z) (x y : R) (z : fl) : pix :=
  let (j, i) := o_w2p job (Num x, Num y, z) in
  match o_sample job (o_src job band) (nan_to_m1 j) (nan_to_m1 i) with Some v => v | None => o_nodata job end.

(** The ortho image as a function of pixel and band: no tiles, no threads. *)
Definition ortho_value (job : ortho_job) (band row col : Z) : pix :=
  let (x, y) := pixel_centre (o_transform job) row col in
  source_value job band x y (aget (o_dem job) row col).

(** [order] is a schedule: for every band group some permutation of the tiles. *)
Definition schedule (job : ortho_job) (order : list Z -> list window) : Prop :=
  forall g, Permutation (order g) (block_windows (o_height job) (o_width job) (o_block job)).

(** A job [_remap] is started with: a non-empty ortho and a DEM on the ortho grid. *)
Definition well_formed (job : ortho_job) : Prop :=
  0 < o_height job /\ 0 < o_width job /\ 1 <= o_count job /\ 0 < fst (o_block job) /\ 0 < snd (o_block job) /\
  ah (o_dem job) = o_height job /\ aw (o_dem job) = o_width job.

Definition in_range (count b : Z) : Prop := 1 <= b <= count.

(** The job finished and all tile tasks succeeded. *)
Definition no_task_fails (job : ortho_job) (per_band : bool) : Prop :=
  forall g w, In g (index_list (o_count job) per_band) ->
    In w (block_windows (o_height job) (o_width job) (o_block job)) -> o_fail job g w = false.

(** Pixel (r', c') is under a [kw] x [kh] kernel centred on (r, c). *)
Definition under_kernel (kw kh r c r' c' : Z) : Prop :=
  - (kh / 2) <= r' - r < kh - kh / 2 /\ - (kw / 2) <= c' - c < kw - kw / 2.

(** [k] pixels of size [res] span 5 source pixels of size [gsd], and no smaller number of at least 3 does. *)
Definition spans (gsd res : R) (k : Z) : Prop :=
  (0 < res)%R /\ 3 <= k /\ (5 * gsd <= IZR k * res)%R /\ forall k', 3 <= k' -> (5 * gsd <= IZR k' * res)%R -> k <= k'.

(** (r, c) is blurred with nodata, as far as can be seen inside tile [w] for the bands [bs]: a pixel of the
    tile under a [kw] x [kh] kernel centred on it has no source data in any of these bands. *)
Definition blurred (job : ortho_job) (kw kh : Z) (w : window) (bs : Z -> Prop) (r c : Z) : Prop :=
  exists r' c', in_win w r' c' /\ under_kernel kw kh r c r' c' /\
    forall b, bs b -> is_nodata (o_nodata job) (ortho_value job b r' c').

(** The tile of pixel (r, c). *)
Definition tile_of (job : ortho_job) (r c : Z) (w : window) : Prop :=
  In w (block_windows (o_height job) (o_width job) (o_block job)) /\ in_win w r c.

(** Contract of OpenCV's remap with a transparent border, for one source band: a position a pixel or more outside
    the image leaves the destination as it was. *)
Definition transparent_border (sample : arr pix -> R -> R -> option pix) : Prop :=
  forall im j i, (j <= -1 \/ i <= -1 \/ IZR (aw im) <= j \/ IZR (ah im) <= i)%R -> sample im j i = None.

(** A pixel coordinate that is NaN in either axis or a pixel or more outside every band of the source. *)
Definition off_image (ims : list (arr pix)) (ji : fl * fl) : Prop :=
  match ji with
  | (Num j, Num i) =>
    forall im, In im ims -> (j <= -1 \/ i <= -1 \/ IZR (aw im) <= j \/ IZR (ah im) <= i)%R
  | _ => True
  end.

(** The same job with another block size. *)
Definition with_block (job : ortho_job) (block : Z * Z) : ortho_job :=
  Job (o_w2p job) (o_sample job) (o_cfg job) (o_height job) (o_width job) (o_count job) block (o_transform job)
      (o_nodata job) (o_src job) (o_dem job) (o_gsd job) (o_write_mask job) (o_fail job).

(** The bands whose validity shapes the dilation of band [b]: all of them, or only [b] itself when bands are
    remapped one at a time. *)
Definition group_bands_of (job : ortho_job) (pb : bool) (b b' : Z) : Prop :=
  if pb then b' = b else in_range (o_count job) b'.

(** Undistorting the source has blurred nodata into its valid pixels, and an exact comparison with nodata can not
    find them: the source was undistorted by a camera with distortion, interpolated, and nodata is a number. *)
Definition dilation_applies (cfg : remap_cfg) (nodata : pix) : Prop :=
  distort cfg = false /\ nearest cfg = false /\ nodata <> PNan /\ is_pinhole cfg = false.
