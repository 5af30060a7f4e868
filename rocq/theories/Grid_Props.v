(** Property theorems: C01 block windows, C05 window expansion, C11 overviews, C12 UTM zone. *)
From Coq Require Import List ZArith QArith Bool Sorted.
From Verif Require Import Grid_Model Grid_Spec Grid_Proof.
Import ListNotations.
Open Scope Z_scope.

(** C01: every image pixel is in exactly one window. *)
Theorem C01_block_windows_partition : forall im_height im_width bh bw,
  0 < bh -> 0 < bw ->
  NoDup (block_windows im_height im_width (bh, bw)) /\
  forall row col, in_im im_height im_width row col ->
    exists w, In w (block_windows im_height im_width (bh, bw)) /\ in_win w row col /\
      forall w', In w' (block_windows im_height im_width (bh, bw)) -> in_win w' row col -> w' = w.
Proof. exact (fun H W bh bw h w => conj (block_windows_NoDup H W bh bw h w) (block_windows_cover H W bh bw h w)). Qed.
Print Assumptions C01_block_windows_partition.

(** C01: windows are non-empty, inside the image and no larger than a block. *)
Theorem C01_block_windows_bounds : forall im_height im_width bh bw,
  0 < bh -> 0 < bw ->
  forall w, In w (block_windows im_height im_width (bh, bw)) ->
  0 < width w <= bw /\ 0 < height w <= bh /\
  0 <= col_off w /\ col_off w + width w <= im_width /\ 0 <= row_off w /\ row_off w + height w <= im_height.
Proof. exact block_windows_bounds. Qed.
Print Assumptions C01_block_windows_bounds.

(** C01: the first window is at the image origin and no window is wider or higher (ortho.py slices the
    grids made for the first window for all others). *)
Theorem C01_first_block_is_largest : forall im_height im_width bh bw,
  0 < bh -> 0 < bw -> 0 < im_height -> 0 < im_width ->
  exists w ws, block_windows im_height im_width (bh, bw) = w :: ws /\
    col_off w = 0 /\ row_off w = 0 /\
    forall w', In w' (block_windows im_height im_width (bh, bw)) -> width w' <= width w /\ height w' <= height w.
Proof. exact block_windows_first. Qed.
Print Assumptions C01_first_block_is_largest.

Example C01_case : block_windows 3 5 (2, 4) = [Win 0 0 4 2; Win 0 2 4 1; Win 4 0 1 2; Win 4 2 1 1].
Proof. reflexivity. Qed.

(** C05: the expanded window contains the requested one grown by the expansion ... *)
Theorem C05_expand_contains : forall f er ec,
  contains_grown (expand_window_to_grid f (er, ec)) f er ec.
Proof. exact expand_contains. Qed.
Print Assumptions C05_expand_contains.

(** ... and is the smallest pixel aligned window that does. *)
Theorem C05_expand_minimal : forall f er ec w,
  contains_grown w f er ec -> win_incl (expand_window_to_grid f (er, ec)) w.
Proof. exact expand_minimal. Qed.
Print Assumptions C05_expand_minimal.

Example C05_case :
  expand_window_to_grid (FWin (-3#2) (1#4) (9#4) 2) (1, 2) = Win (-4) (-1) 7 5 /\
  contains_grown (Win (-4) (-1) 7 5) (FWin (-3#2) (1#4) (9#4) 2) 1 2.
Proof. split; [reflexivity|]. exact (expand_contains (FWin (-3#2) (1#4) (9#4) 2) 1 2). Qed.

(** C11: exactly the powers of two up to 2^8 that leave at least 256 pixels on the shorter side. *)
Theorem C11_overview_levels : forall im_height im_width, 1 <= im_height -> 1 <= im_width -> forall l,
  In l (build_overviews im_height im_width) <->
  exists k, 1 <= k <= 8 /\ l = 2 ^ k /\ 256 <= Z.min im_height im_width / l.
Proof. exact build_overviews_iff. Qed.
Print Assumptions C11_overview_levels.

Theorem C11_overviews_increasing : forall im_height im_width,
  StronglySorted Z.lt (build_overviews im_height im_width).
Proof. exact build_overviews_sorted. Qed.
Print Assumptions C11_overviews_increasing.

(** C11: with other limits (a number of levels, and a minimum number of pixels that is a power of two) it is the same; and overviews always have more than half the minimum. *)
Theorem C11_limits : forall im_height im_width max_num_levels min_level_pixels, 1 <= im_height -> 1 <= im_width -> 1 <= min_level_pixels -> forall l,
  let levels := overview_levels im_height im_width max_num_levels min_level_pixels in
  (forall j, 0 <= j -> min_level_pixels = 2 ^ j ->
     (In l levels <-> exists k, 1 <= k <= max_num_levels /\ l = 2 ^ k /\ min_level_pixels <= Z.min im_height im_width / l)) /\
  (In l levels -> min_level_pixels < 2 * (Z.min im_height im_width / l)).
Proof. exact overview_limits. Qed.
Print Assumptions C11_limits.

(** C11: for each minimum that is not a power of two there are images with an overview below it. *)
Theorem C11_minimum_refuted : forall max_num_levels min_level_pixels, 1 <= max_num_levels -> 1 <= min_level_pixels -> (forall j, 0 <= j -> min_level_pixels <> 2 ^ j) ->
  exists im_height im_width l, 1 <= im_height /\ 1 <= im_width /\ In l (overview_levels im_height im_width max_num_levels min_level_pixels) /\
    Z.min im_height im_width / l < min_level_pixels.
Proof. exact overview_too_small. Qed.
Print Assumptions C11_minimum_refuted.

Example C11_limits_case : overview_levels 512 512 8 300 = [2] /\ overview_levels 512 512 8 128 = [2; 4] /\ overview_levels 512 512 1 128 = [2].
Proof. repeat split; reflexivity. Qed.

Example C11_case :
  build_overviews 1024 4000 = [2; 4] /\ build_overviews 1023 4000 = [2] /\ build_overviews 511 4000 = [].
Proof. repeat split; reflexivity. Qed.

(** C12: the EPSG code is that of the UTM zone containing the longitude, on the latitude's side. *)
Theorem C12_utm_zone : forall lat lon,
  exists zone, 1 <= zone <= 60 /\ in_utm_zone zone lon /\
    ((0 <= lat)%Q -> utm_crs_from_latlon lat lon = 32600 + zone) /\
    ((lat < 0)%Q -> utm_crs_from_latlon lat lon = 32700 + zone).
Proof. exact utm_zone. Qed.
Print Assumptions C12_utm_zone.

(** C12: there is only one such zone. *)
Theorem C12_utm_zone_unique : forall z1 z2 lon,
  1 <= z1 <= 60 -> 1 <= z2 <= 60 -> in_utm_zone z1 lon -> in_utm_zone z2 lon -> z1 = z2.
Proof. exact in_utm_zone_unique. Qed.
Print Assumptions C12_utm_zone_unique.

Example C12_case :
  utm_crs_from_latlon (-34) 24 = 32735 /\ utm_crs_from_latlon 0 (-180) = 32601 /\
  utm_crs_from_latlon 10 180 = 32601 /\ utm_crs_from_latlon 10 (1799#10) = 32660.
Proof. repeat split; reflexivity. Qed.
