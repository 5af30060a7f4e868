(** Theorems about pan-sharpening end to end (C73-C75).  [transform_bounds], the two warped images, [lstsq], and the values of degenerate
    statistics are arbitrary unless stated. *)
From Coq Require Import String List ZArith QArith Qreals Reals Bool Permutation.
From Verif Require Import Py Flt Grid_Model Grid_Spec Dtype_Model Dtype_Spec Profile_Model Profile_Spec Pan_Model Pan_Spec
  PanGrid_Model PanGrid_Spec PanGrid_Proof Ortho_Model Ortho_Spec Sharpen_Model Sharpen_Spec Sharpen_Proof.
Import ListNotations.
Open Scope string_scope.
Open Scope list_scope.
Open Scope Z_scope.

(** C73: the sharpened image has the CRS of the pan image, and its grid is a part of the pan image's grid (all of it in size when the images are
    not both georeferenced); it has one band for each multispectral band chosen, in that order and with its colour interpretation,
    and the data type asked for (that of the multispectral image by default). *)
Theorem C73_grid : forall transform_bounds warp_pan warp_ms lstsq odd nan_int pan ms a w d r,
  pan_sharpen transform_bounds warp_pan warp_ms lstsq odd nan_int pan ms a w = Ok (d, r) ->
  sd_crs d = im_crs (so_image pan) /\
  (exists dt, out_dtype a ms dt /\ sd_dtype d = dt) /\
  (exists idx, bands_used a ms idx /\ Forall (fun i => 1 <= i <= Z.of_nat (List.length (so_colors ms))) idx /\
     sd_count d = Z.of_nat (List.length idx) /\ Forall2 (fun i color => nth_error (so_colors ms) (Z.to_nat (i - 1)) = Some color) idx (sd_colors d)) /\
  (georeferenced (so_image pan) -> georeferenced (so_image ms) -> north_up (im_t (so_image pan)) -> north_up (im_t (so_image ms)) ->
   part_of (sd_transform d) (sd_width d) (sd_height d) (im_t (so_image pan)) (im_w (so_image pan)) (im_h (so_image pan))) /\
  (~ georeferenced (so_image pan) \/ ~ georeferenced (so_image ms) -> sd_width d = im_w (so_image pan) /\ sd_height d = im_h (so_image pan)).
Proof. exact call_grid. Qed.
Print Assumptions C73_grid.

(** C74: the pixels of a call that succeeds, whatever the order that tasks complete in and the block shape of the file.  Where the pan or a
    multispectral band has no value, every band has the fill value and the mask (if written) is false.  Elsewhere the mask is true and
    each band is the sharpened value ([sharp]) in the output data type, for the statistics of all pixels of the multispectral grid with
    values (at least two, with linearly independent bands and a pan that varies). *)
Theorem C74_pixels : forall transform_bounds warp_pan warp_ms lstsq odd nan_int pan ms a w d,
  (forall x y, List.length (lstsq x y) = List.length y) ->
  pan_sharpen transform_bounds warp_pan warp_ms lstsq odd nan_int pan ms a w = Ok (d, Ok tt) ->
  0 < fst (sw_block w (sd_profile d)) -> 0 < snd (sw_block w (sd_profile d)) ->
  Permutation (sw_order w) (block_windows (sd_height d) (sd_width d) (sw_block w (sd_profile d))) ->
  exists ps i idx fill,
    get_vrt_profiles transform_bounds (so_image pan) (so_image ms) = Ok ps /\ interp_name (sa_interp a) i /\ bands_used a ms idx /\
    fill_of (sd_dtype d) (sd_write_mask d) fill /\
    let target := pair_at (warp_pan (pan_to_pan ps) Nearest) (warp_ms (ms_to_pan ps) i) (sa_pan_index a) idx in
    let source := pair_at (warp_pan (pan_to_ms ps) Average) (warp_ms (ms_to_ms ps) Nearest) (sa_pan_index a) idx in
    let sh := v_height (ms_to_ms ps) in let sw := v_width (ms_to_ms ps) in
    forall r c, in_im (sd_height d) (sd_width d) r c ->
      (fst (target (r, c)) = Nan \/ In Nan (snd (target (r, c))) ->
       (forall b, (b < List.length idx)%nat -> sr_bands (sd_raster d) (Z.of_nat b + 1) r c = fill) /\
       (sd_write_mask d = true -> sr_mask (sd_raster d) r c = false)) /\
      (forall x xs, target (r, c) = (Num x, map Num xs) ->
       (sd_write_mask d = true -> sr_mask (sd_raster d) r c = true) /\
       forall l vs wts, Permutation (sw_stat_order w) (block_windows sh sw (1024, 1024)) -> all_pixels sh sw l -> selects (map source l) vs ->
         (2 <= List.length vs)%nat -> pos_def (List.length idx) (fun k m => covar (band (S k)) (band (S m)) vs) -> covar (band 0) (band 0) vs <> 0%R ->
         weights_used lstsq vs (List.length idx) (sa_weights a) wts ->
         forall b, (b < List.length idx)%nat ->
           exists y, sr_bands (sd_raster d) (Z.of_nat b + 1) r c = Num y /\ stored (sd_dtype d) (sharp wts vs b x xs) y).
Proof. exact call_pixels. Qed.
Print Assumptions C74_pixels.

(** C74: the conversion used here is that of arrays (C08), on the numbers that a float array holds. *)
Theorem C74_convert : forall dst x, holds F64 x -> convert_r dst (Q2R x) = Q2R (convert_elem F64 dst x).
Proof. exact convert_r_Q. Qed.
Print Assumptions C74_convert.

(** The hypotheses are met by a 4 x 4 pan with a pixel of no value (row 0, column 0) and a 2 x 2 multispectral image with an alpha band:
    the pan is twice the band on the coarse grid, so a pan of 10 gives 5. *)
Example C74_case : exists d, pan_sharpen same_crs demo_warp_pan demo_warp_ms (fun _ y => y) (fun _ _ => []) (fun _ => Nan) demo_pan demo_ms demo_sargs demo_sworld = Ok (d, Ok tt) /\
  sd_count d = 1 /\ sd_dtype d = "uint8" /\ sd_width d = 4 /\ sd_height d = 4 /\ sr_bands (sd_raster d) 1 0 0 = Num 0 /\ sr_bands (sd_raster d) 1 2 3 = Num 5.
Proof. exact demo_result. Qed.

(** C75: a call gets as far as creating the output exactly when the grids can be matched (C47), and the interpolation, band indexes,
    weights, data type, compression and driver are right. *)
Theorem C75_creates : forall transform_bounds warp_pan warp_ms lstsq odd nan_int pan ms a w,
  (exists d r, pan_sharpen transform_bounds warp_pan warp_ms lstsq odd nan_int pan ms a w = Ok (d, r)) <->
  (exists ps, get_vrt_profiles transform_bounds (so_image pan) (so_image ms) = Ok ps) /\ (exists i, interp_name (sa_interp a) i) /\ good_bands pan ms a /\
  (exists dt, out_dtype a ms dt /\ supported_dtype dt /\ (~ no_options (sa_options a) \/ compress_ok dt (sa_compress a))) /\
  (sa_driver a = "gtiff" \/ sa_driver a = "cog").
Proof. intros tb wp wm ls od ni pan ms a w. exact (proj1 (call_creates tb wp wm ls od ni pan ms a w)). Qed.
Print Assumptions C75_creates.

(** C75: then it succeeds exactly when no task fails, and a failed task is a RuntimeError. *)
Theorem C75_succeeds : forall transform_bounds warp_pan warp_ms lstsq odd nan_int pan ms a w d r,
  pan_sharpen transform_bounds warp_pan warp_ms lstsq odd nan_int pan ms a w = Ok (d, r) ->
  (r = Ok tt <-> (forall win, In win (sw_stat_order w) -> sw_stat_fail w win = false) /\
                 (forall win, In win (block_windows (sd_height d) (sd_width d) (sw_block w (sd_profile d))) -> sw_fail w win = false)) /\
  (r = Ok tt \/ r = Err RuntimeError).
Proof. intros tb wp wm ls od ni pan ms a w. exact (proj2 (call_creates tb wp wm ls od ni pan ms a w)). Qed.
Print Assumptions C75_succeeds.

(** C75: the file left and the result are the same for all orders that the tasks of statistics and of output tiles complete in, with or without
    failed tasks. *)
Theorem C75_order : forall transform_bounds warp_pan warp_ms lstsq odd nan_int pan ms a w w',
  Permutation (sw_stat_order w) (sw_stat_order w') ->
  sw_stat_fail w = sw_stat_fail w' -> sw_block w = sw_block w' -> sw_fail w = sw_fail w' -> sw_empty w = sw_empty w' ->
  let call := pan_sharpen transform_bounds warp_pan warp_ms lstsq odd nan_int pan ms a in
  (forall e, call w = Err e -> call w' = Err e) /\
  (forall d r, call w = Ok (d, r) -> 0 < fst (sw_block w (sd_profile d)) -> 0 < snd (sw_block w (sd_profile d)) ->
     let tiles := block_windows (sd_height d) (sd_width d) (sw_block w (sd_profile d)) in
     Permutation (sw_order w) tiles -> Permutation (sw_order w') tiles -> call w' = Ok (d, r)).
Proof. exact call_order. Qed.
Print Assumptions C75_order.

(** The tiles of the demonstration are written in the reverse order of the grid. *)
Example C75_case : Permutation (sw_order demo_sworld) (block_windows 4 4 (sw_block demo_sworld [])) /\ sw_order demo_sworld <> block_windows 4 4 (sw_block demo_sworld []).
Proof. split; [cbn; apply perm_swap|discriminate]. Qed.
