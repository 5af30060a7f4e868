(** Property theorems: C02 schedule and block size independence, C03 failures, C04 tile grids, C26 NaN and off-image
    pixels, C27 masks and dilation, C28 dataset mask, C60 default nodata, C69 shapes. *)
From Coq Require Import List ZArith QArith Reals Bool Permutation String.
From Verif Require Import Py Flt Grid_Model Grid_Spec Remap_Model Remap_Spec Remap_Proof.
Import ListNotations.
Open Scope Z_scope.

(** C02: whatever order the tile tasks take the write lock in, and however bands are grouped, every pixel of every
    band is the source seen at that pixel's own world position. *)
Theorem C02_ortho_pixelwise : forall job per_band order ras ras', well_formed job -> schedule job order ->
  ~ dilation_applies (o_cfg job) (o_nodata job) ->
  ortho_remap job per_band order ras = (ras', Ok tt) ->
  forall b r c, in_range (o_count job) b -> in_im (o_height job) (o_width job) r c ->
  bands ras' b r c = ortho_value job b r c.
Proof. exact remap_value_pixelwise. Qed.
Print Assumptions C02_ortho_pixelwise.

(** C02: so the block size does not matter. *)
Theorem C02_block_size_independent : forall job block per_band per_band' order order' ras ras1 ras2,
  well_formed job -> well_formed (with_block job block) ->
  schedule job order -> schedule (with_block job block) order' ->
  ~ dilation_applies (o_cfg job) (o_nodata job) ->
  ortho_remap job per_band order ras = (ras1, Ok tt) ->
  ortho_remap (with_block job block) per_band' order' ras = (ras2, Ok tt) ->
  forall b r c, in_range (o_count job) b -> in_im (o_height job) (o_width job) r c ->
  bands ras1 b r c = bands ras2 b r c.
Proof. exact remap_block_independent. Qed.
Print Assumptions C02_block_size_independent.

(** C02: with dilation or failing tiles too, the raster, the mask and the outcome are the same for any two
    schedules. *)
Theorem C02_schedule_independent : forall job per_band order order' ras, well_formed job ->
  schedule job order -> schedule job order' ->
  snd (ortho_remap job per_band order ras) = snd (ortho_remap job per_band order' ras) /\
  forall r c, in_im (o_height job) (o_width job) r c ->
    (forall b, bands (fst (ortho_remap job per_band order ras)) b r c =
               bands (fst (ortho_remap job per_band order' ras)) b r c) /\
    dmask (fst (ortho_remap job per_band order ras)) r c = dmask (fst (ortho_remap job per_band order' ras)) r c.
Proof. exact remap_schedule_independent. Qed.
Print Assumptions C02_schedule_independent.

(** C03: success exactly when no tile of any band group failed, RuntimeError otherwise. *)
Theorem C03_failed_tile_raises : forall job per_band order ras, well_formed job -> schedule job order ->
  (no_task_fails job per_band -> snd (ortho_remap job per_band order ras) = Ok tt) /\
  (~ no_task_fails job per_band -> snd (ortho_remap job per_band order ras) = Err RuntimeError).
Proof. exact remap_result. Qed.
Print Assumptions C03_failed_tile_raises.

(** C04: the grids of every tile have its shape, and hold the world coordinates of its pixel centres. *)
Theorem C04_tile_grids : forall job w ws, well_formed job ->
  block_windows (o_height job) (o_width job) (o_block job) = w :: ws ->
  forall v, In v (w :: ws) ->
  let xg := tile_xgrid (o_transform job) (init_grid job w fst) v in
  let yg := tile_ygrid (o_transform job) (init_grid job w snd) v in
  ah xg = height v /\ aw xg = width v /\ ah yg = height v /\ aw yg = width v /\
  forall r c, 0 <= r < height v -> 0 <= c < width v ->
    aget xg r c = Num (fst (pixel_centre (o_transform job) (row_off v + r) (col_off v + c))) /\
    aget yg r c = Num (snd (pixel_centre (o_transform job) (row_off v + r) (col_off v + c))).
Proof. exact tile_grids_centres. Qed.
Print Assumptions C04_tile_grids.

(** C69: remapping takes grids of one shape only, and gives an array of this shape per band, and a mask. *)
Theorem C69_remap_shapes : forall w2p sample ims x y z nodata,
  (ah x = ah y /\ ah y = ah z /\ aw x = aw y /\ aw y = aw z ->
   exists arrs mask, camera_remap w2p sample ims x y z nodata = Ok (arrs, mask) /\
     List.length arrs = List.length ims /\ (forall a, In a arrs -> ah a = ah x /\ aw a = aw x) /\
     ah mask = ah x /\ aw mask = aw x) /\
  (~ (ah x = ah y /\ ah y = ah z /\ aw x = aw y /\ aw y = aw z) ->
   camera_remap w2p sample ims x y z nodata = Err ValueError).
Proof. exact camera_remap_shapes. Qed.
Print Assumptions C69_remap_shapes.

(** C26: a pixel that projects to NaN or outside the image is nodata in all bands and masked. *)
Theorem C26_off_image_nodata : forall w2p sample, transparent_border sample ->
  forall ims x y z nodata arrs mask,
  camera_remap w2p sample ims x y z nodata = Ok (arrs, mask) ->
  forall r c, off_image ims (w2p (aget x r c, aget y r c, aget z r c)) ->
  (forall a, In a arrs -> aget a r c = nodata) /\ aget mask r c = true.
Proof. exact remap_off_image. Qed.
Print Assumptions C26_off_image_nodata.

(** C26: the same for the written ortho, with dilation or not, e.g. for a DEM hole under a camera that projects NaN
    to NaN. *)
Theorem C26_ortho_off_image_nodata : forall job per_band order ras ras', well_formed job -> schedule job order ->
  transparent_border (o_sample job) ->
  ortho_remap job per_band order ras = (ras', Ok tt) ->
  forall b r c, in_range (o_count job) b -> in_im (o_height job) (o_width job) r c ->
  (let (x, y) := pixel_centre (o_transform job) r c in
   off_image (map (o_src job) (py_range 1 (o_count job + 1) 1)) (o_w2p job (Num x, Num y, aget (o_dem job) r c))) ->
  bands ras' b r c = o_nodata job.
Proof. exact ortho_off_image. Qed.
Print Assumptions C26_ortho_off_image_nodata.

(** C27: a remapped pixel is masked exactly when all its bands are nodata, dilated or not. *)
Theorem C27_mask_iff_nodata : forall w2p sample cfg ims x y z nodata kw kh arrs mask,
  ims <> [] -> 1 <= kw -> 1 <= kh ->
  frame_remap w2p sample cfg ims x y z nodata (kw, kh) = Ok (arrs, mask) ->
  forall r c, 0 <= r < ah x -> 0 <= c < aw x ->
  (aget mask r c = true <-> forall a, In a arrs -> is_nodata nodata (aget a r c)).
Proof. exact frame_remap_mask. Qed.
Print Assumptions C27_mask_iff_nodata.

(** C27: dilation masks exactly the pixels with a masked pixel under their kernel, and changes no other. *)
Theorem C27_dilation : forall w2p sample cfg ims x y z nodata kw kh arrs0 mask0,
  dilation_applies cfg nodata ->
  camera_remap w2p sample ims x y z nodata = Ok (arrs0, mask0) ->
  exists arrs mask, frame_remap w2p sample cfg ims x y z nodata (kw, kh) = Ok (arrs, mask) /\
  (forall r c, aget mask r c = true <->
     exists r' c', 0 <= r' < ah x /\ 0 <= c' < aw x /\ under_kernel kw kh r c r' c' /\ aget mask0 r' c' = true) /\
  Forall2 (fun a0 a => forall r c, aget a r c = if aget mask r c then nodata else aget a0 r c) arrs0 arrs.
Proof. exact frame_remap_dilation. Qed.
Print Assumptions C27_dilation.

(** C27: the written ortho, when dilation applies: nodata if blurred inside the pixel's own tile, else as without
    dilation. *)
Theorem C27_ortho_dilated : forall job per_band order ras ras', well_formed job -> schedule job order ->
  dilation_applies (o_cfg job) (o_nodata job) ->
  ortho_remap job per_band order ras = (ras', Ok tt) ->
  forall kw kh b r c w, spans (o_gsd job) (Rabs (ta (o_transform job))) kw -> spans (o_gsd job) (Rabs (te (o_transform job))) kh ->
  in_range (o_count job) b -> in_im (o_height job) (o_width job) r c -> tile_of job r c w ->
  (blurred job kw kh w (group_bands_of job per_band b) r c -> bands ras' b r c = o_nodata job) /\
  (~ blurred job kw kh w (group_bands_of job per_band b) r c -> bands ras' b r c = ortho_value job b r c).
Proof. exact remap_value_spans. Qed.
Print Assumptions C27_ortho_dilated.

(** C27: the kernel is the smallest, of at least three pixels, that spans five source pixels in both axes. *)
Theorem C27_kernel_spans_5_source_pixels : forall gsd t, ta t <> 0%R -> te t <> 0%R ->
  spans gsd (Rabs (ta t)) (fst (kernel_size gsd t)) /\ spans gsd (Rabs (te t)) (snd (kernel_size gsd t)).
Proof. exact kernel_spans. Qed.
Print Assumptions C27_kernel_spans_5_source_pixels.

(** C27: block size independence fails when dilation applies. *)
Theorem C27_block_size_independence_refuted :
  exists job block order order' ras ras1 ras2,
  well_formed job /\ well_formed (with_block job block) /\
  schedule job order /\ schedule (with_block job block) order' /\
  ortho_remap job false order ras = (ras1, Ok tt) /\
  ortho_remap (with_block job block) false order' ras = (ras2, Ok tt) /\
  exists b r c, in_range (o_count job) b /\ in_im (o_height job) (o_width job) r c /\
    bands ras1 b r c <> bands ras2 b r c.
Proof. exact dilation_depends_on_tiling. Qed.
Print Assumptions C27_block_size_independence_refuted.

(** C28: the dataset mask is unset exactly where all bands of the written ortho are nodata, or where band 1 is when
    bands are written one at a time. *)
Theorem C28_dataset_mask : forall job per_band order ras ras', well_formed job -> schedule job order ->
  o_write_mask job = true ->
  ortho_remap job per_band order ras = (ras', Ok tt) ->
  forall r c, in_im (o_height job) (o_width job) r c ->
  (dmask ras' r c = false <->
   forall b, (if per_band then b = 1 else in_range (o_count job) b) -> is_nodata (o_nodata job) (bands ras' b r c)).
Proof. exact remap_mask. Qed.
Print Assumptions C28_dataset_mask.

(** C28: the two settings agree on a pixel exactly when band 1 being nodata there means all bands are. *)
Theorem C28_per_band_mask_agrees_iff : forall job order order' ras ras1 ras2, well_formed job -> o_write_mask job = true ->
  schedule job order -> schedule job order' ->
  ~ dilation_applies (o_cfg job) (o_nodata job) ->
  ortho_remap job false order ras = (ras1, Ok tt) ->
  ortho_remap job true order' ras = (ras2, Ok tt) ->
  forall r c, in_im (o_height job) (o_width job) r c ->
  (dmask ras1 r c = dmask ras2 r c <->
   (is_nodata (o_nodata job) (bands ras1 1 r c) ->
    forall b, in_range (o_count job) b -> is_nodata (o_nodata job) (bands ras1 b r c))).
Proof. exact per_band_mask_agrees. Qed.
Print Assumptions C28_per_band_mask_agrees_iff.

(** C28: and they can disagree. *)
Theorem C28_per_band_mask_same_refuted :
  exists job order ras ras1 ras2, well_formed job /\ schedule job order /\
  ortho_remap job false order ras = (ras1, Ok tt) /\ ortho_remap job true order ras = (ras2, Ok tt) /\
  exists r c, in_im (o_height job) (o_width job) r c /\ dmask ras1 r c <> dmask ras2 r c.
Proof. exact per_band_mask_differs. Qed.
Print Assumptions C28_per_band_mask_same_refuted.

(** C60: no data type has an automatic nodata: the call raises KeyError for every well shaped input. *)
Theorem C60_default_nodata_refuted : forall w2p sample dtype ims x y z,
  ah x = ah y -> ah y = ah z -> aw x = aw y -> aw y = aw z ->
  camera_remap_opt w2p sample dtype ims x y z None = Err KeyError.
Proof. exact default_nodata_keyerror. Qed.
Print Assumptions C60_default_nodata_refuted.

(** C60: an explicit nodata fills the pixels nothing maps to, for any image and type. *)
Theorem C60_explicit_nodata_used : forall w2p sample dtype ims x y z nodata,
  ah x = ah y -> ah y = ah z -> aw x = aw y -> aw y = aw z ->
  exists arrs mask, camera_remap_opt w2p sample dtype ims x y z (Some nodata) = Ok (arrs, mask) /\
  List.length arrs = List.length ims /\
  forall k im a r c, nth_error ims k = Some im -> nth_error arrs k = Some a ->
  forall j i, w2p (aget x r c, aget y r c, aget z r c) = (Num j, Num i) ->
  aget a r c = match sample im j i with Some v => v | None => nodata end.
Proof. exact explicit_nodata_used. Qed.
Print Assumptions C60_explicit_nodata_used.

(** A job that meets the hypotheses above: a 3 x 5 ortho of two bands in 2 x 2 blocks, one DEM hole, tiles finishing
    in reverse order. *)
Example Remap_case : forall cfg per_band,
  let job := demo_job cfg in
  well_formed job /\ transparent_border (o_sample job) /\ no_task_fails job per_band /\
  schedule job (fun _ => rev (block_windows 3 5 (2, 2))) /\
  (exists w, tile_of job 0 1 w) /\
  (distort cfg = true -> ~ dilation_applies cfg (o_nodata job)) /\
  ortho_value job 1 1 1 = PVal 0 /\ ortho_value job 2 0 0 = PVal 2 /\
  exists ras', ortho_remap job per_band (fun _ => rev (block_windows 3 5 (2, 2))) empty_ras = (ras', Ok tt).
Proof. exact demo_job_ok. Qed.

(** C69: grids of 2 x 3, and one of another shape. *)
Example C69_case : forall w2p sample ims,
  let g := Arr 2 3 (fun _ _ => Num 0%R) in
  let g' := Arr 3 2 (fun _ _ => Num 0%R) in
  (exists r, camera_remap w2p sample ims g g g (PVal 0) = Ok r) /\ camera_remap w2p sample ims g g g' (PVal 0) = Err ValueError.
Proof. intros. split; [eexists; reflexivity|reflexivity]. Qed.
