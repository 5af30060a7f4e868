(** Property theorems: C47 pan-sharpening grids, C62 validity of sharpened pixels. *)
From Coq Require Import List ZArith QArith Qabs Lia Lqa.
From Verif Require Import Py Grid_Model Dtype_Model PanGrid_Model PanGrid_Spec PanGrid_Proof.
Import ListNotations.
Open Scope Z_scope.

(** C47: with both images georeferenced, each grid is a whole pixel part of its image, and every place inside both images
    is on both grids. *)
Theorem C47_grids : forall tb pan ms p same_place,
  georeferenced pan -> georeferenced ms -> north_up (im_t pan) -> north_up (im_t ms) ->
  encloses tb (im_crs ms) (im_crs pan) same_place -> encloses tb (im_crs pan) (im_crs ms) (fun a b => same_place b a) ->
  get_vrt_profiles tb pan ms = Ok p ->
  let pp := pan_to_pan p in let mm := ms_to_ms p in
  part_of (v_transform pp) (v_width pp) (v_height pp) (im_t pan) (im_w pan) (im_h pan) /\
  part_of (v_transform mm) (v_width mm) (v_height mm) (im_t ms) (im_w ms) (im_h ms) /\
  forall x y u v, same_place (u, v) (x, y) ->
    within_grid (im_t pan) (im_w pan) (im_h pan) x y -> within_grid (im_t ms) (im_w ms) (im_h ms) u v ->
    on_grid (v_transform pp) (v_width pp) (v_height pp) x y /\ on_grid (v_transform mm) (v_width mm) (v_height mm) u v.
Proof. intros *. rewrite <- ?not_georef_iff, <- ?georef_iff. apply grids_ok. Qed.
Print Assumptions C47_grids.

(** C47: and no more than needed: every pixel of the two grids has a point inside both images (for images in one CRS). *)
Theorem C47_tight : forall pan ms p, georeferenced pan -> georeferenced ms -> north_up (im_t pan) -> north_up (im_t ms) ->
  get_vrt_profiles same_crs pan ms = Ok p -> forall v, v = pan_to_pan p \/ v = ms_to_ms p -> forall r c, 0 <= c < v_width v -> 0 <= r < v_height v ->
  exists j k x y, (inject_Z c <= j <= inject_Z (c + 1) /\ inject_Z r <= k <= inject_Z (r + 1) /\
    fst (qapply (v_transform v) j k) == x /\ snd (qapply (v_transform v) j k) == y)%Q /\
    within_grid (im_t pan) (im_w pan) (im_h pan) x y /\ within_grid (im_t ms) (im_w ms) (im_h ms) x y.
Proof. intros *. rewrite <- ?not_georef_iff, <- ?georef_iff. apply grids_tight. Qed.
Print Assumptions C47_tight.

(** C47: both images are put on one grid at each resolution, from their own (or assigned) position, and the pan pixel is not
    larger than the multispectral one. *)
Theorem C47_pairs : forall tb pan ms p, get_vrt_profiles tb pan ms = Ok p ->
  let pp := pan_to_pan p in let mp := ms_to_pan p in let mm := ms_to_ms p in let pm := pan_to_ms p in
  (v_crs pp = v_crs mp /\ v_transform pp = v_transform mp /\ v_width pp = v_width mp /\ v_height pp = v_height mp) /\
  (v_crs mm = v_crs pm /\ v_transform mm = v_transform pm /\ v_width mm = v_width pm /\ v_height mm = v_height pm) /\
  v_src_transform pp = v_src_transform pm /\ v_src_transform mm = v_src_transform mp /\
  (georeferenced pan -> v_src_transform pp = im_t pan) /\ (georeferenced ms -> v_src_transform mm = im_t ms) /\
  (Qabs (qa (v_src_transform pp)) <= Qabs (qa (v_src_transform mm)))%Q /\ (Qabs (qe (v_src_transform pp)) <= Qabs (qe (v_src_transform mm)))%Q.
Proof. intros *. cbv zeta. rewrite <- ?not_georef_iff, <- ?georef_iff. apply pairs_share. Qed.
Print Assumptions C47_pairs.

(** C47: a multispectral image that is not georeferenced gets the extent of the pan image: the same fractions of the images
    are at the same place. *)
Theorem C47_ms_not_georef : forall tb pan ms p,
  ~ georeferenced ms -> sized pan -> sized ms -> get_vrt_profiles tb pan ms = Ok p ->
  v_src_transform (pan_to_pan p) = im_t pan /\
  (forall x y : Q, let m := qapply (v_src_transform (ms_to_ms p)) (x * inject_Z (im_w ms)) (y * inject_Z (im_h ms)) in
     let q := qapply (im_t pan) (x * inject_Z (im_w pan)) (y * inject_Z (im_h pan)) in fst m == fst q /\ snd m == snd q)%Q /\
  v_width (pan_to_pan p) = im_w pan /\ v_height (pan_to_pan p) = im_h pan /\ v_width (ms_to_ms p) = im_w ms /\ v_height (ms_to_ms p) = im_h ms /\
  v_crs (pan_to_pan p) = im_crs pan.
Proof. intros *. rewrite <- ?not_georef_iff, <- ?georef_iff. apply ms_not_georef. Qed.
Print Assumptions C47_ms_not_georef.

(** C47: and a pan image that is not georeferenced gets the extent of the multispectral image; but, a finding, the
    sharpened image then has no CRS, although the warning says that the CRS is assumed to match. *)
Theorem C47_pan_not_georef_refuted : forall tb pan ms p,
  georeferenced ms -> ~ georeferenced pan -> sized pan -> sized ms -> get_vrt_profiles tb pan ms = Ok p ->
  v_src_transform (ms_to_ms p) = im_t ms /\
  (forall x y : Q, let q := qapply (v_src_transform (pan_to_pan p)) (x * inject_Z (im_w pan)) (y * inject_Z (im_h pan)) in
     let m := qapply (im_t ms) (x * inject_Z (im_w ms)) (y * inject_Z (im_h ms)) in fst q == fst m /\ snd q == snd m)%Q /\
  v_width (pan_to_pan p) = im_w pan /\ v_height (pan_to_pan p) = im_h pan /\ v_width (ms_to_ms p) = im_w ms /\ v_height (ms_to_ms p) = im_h ms /\
  fst (fst (fst (out_grid p))) = None.
Proof. intros *. rewrite <- ?not_georef_iff, <- ?georef_iff. apply pan_not_georef. Qed.
Print Assumptions C47_pan_not_georef_refuted.

(** C47: for images in one CRS, OrthorityError is the only error, raised exactly when the images do not overlap or the pan
    pixel is larger than the multispectral one. *)
Theorem C47_errors : forall pan ms, georeferenced pan -> georeferenced ms -> north_up (im_t pan) -> north_up (im_t ms) ->
  ((exists e, get_vrt_profiles same_crs pan ms = Err e) <->
   get_vrt_profiles same_crs pan ms = Err OrthorityError) /\
  (get_vrt_profiles same_crs pan ms = Err OrthorityError <->
   (~ exists x y, within_grid (im_t pan) (im_w pan) (im_h pan) x y /\ within_grid (im_t ms) (im_w ms) (im_h ms) x y) \/
   (qa (im_t ms) < qa (im_t pan) \/ qe (im_t pan) < qe (im_t ms))%Q).
Proof. intros *. rewrite <- ?not_georef_iff, <- ?georef_iff. apply errors_same_crs. Qed.
Print Assumptions C47_errors.

(** C47, finding: pixel sizes are compared as numbers, whatever the units of the CRSs.  Images of one extent, the
    multispectral one with fewer pixels, are refused when it is in degrees and the pan image in metres. *)
Theorem C47_units_refuted : get_vrt_profiles flat_earth utm_pan wgs_ms = Err OrthorityError /\
  exists b, flat_earth (Some 4326) (Some 32735) (im_bounds wgs_ms) = Ok b /\
  (q_left b == q_left (im_bounds utm_pan) /\ q_bottom b == q_bottom (im_bounds utm_pan) /\
   q_right b == q_right (im_bounds utm_pan) /\ q_top b == q_top (im_bounds utm_pan))%Q /\ im_w wgs_ms < im_w utm_pan /\ im_h wgs_ms < im_h utm_pan.
Proof. exact units_case. Qed.
Print Assumptions C47_units_refuted.

Definition pan_case : image := Image (Some 32735) (QAff (1#2) 0 100 0 (-1#2) 200) 40 30.
Definition ms_case : image := Image (Some 32735) (QAff 2 0 101 0 (-2) 205) 8 20.
Example C47_case : georeferenced pan_case /\ georeferenced ms_case /\ north_up (im_t pan_case) /\ north_up (im_t ms_case) /\
  encloses same_crs (im_crs ms_case) (im_crs pan_case) (fun a b => fst a == fst b /\ snd a == snd b)%Q /\
  exists p, get_vrt_profiles same_crs pan_case ms_case = Ok p /\ v_width (pan_to_pan p) = 32 /\ v_height (pan_to_pan p) = 30 /\
    v_width (ms_to_ms p) = 8 /\ v_height (ms_to_ms p) = 8.
Proof.
  split; [left; discriminate|]. split; [left; discriminate|]. split; [repeat split; cbn; lra|]. split; [repeat split; cbn; lra|]. split.
  - intros b b' x y x' y' E [H1 H2] [H3 H4]. injection E as <-. cbn [fst snd] in *. unfold in_bounds. repeat split; lra.
  - eexists. split; [reflexivity|]. repeat split.
Qed.

(** C62: a pixel is marked valid exactly when the pan and all multispectral bands are; then it holds the converted sharpened
    values, else nodata in every band (zero when there is no nodata value). *)
Theorem C62_pixel : forall sharpen dt nodata pan ms out mask, process_tile_pixel sharpen dt nodata pan ms = (out, mask) ->
  (mask = true <-> pan <> None /\ ~ In None ms) /\
  (mask = true -> exists p m, pan = Some p /\ ms = map Some m /\ out = map (fun x => Some (convert_elem F64 dt x)) (sharpen p m)) /\
  (mask = false -> out = map (fun _ => nodata_or_0 nodata) ms).
Proof. exact tile_valid. Qed.
Print Assumptions C62_pixel.

(** C62: an internal mask reads back as validity. *)
Theorem C62_mask : forall sharpen dt nodata pan ms,
  reads_valid true nodata (process_tile_pixel sharpen dt nodata pan ms) = true <-> pan <> None /\ ~ In None ms.
Proof. exact reads_mask. Qed.
Print Assumptions C62_mask.

(** C62: without one, a pixel reads back as valid exactly when it is valid and, for integer types, some band is not
    converted to the nodata value. *)
Theorem C62_nodata : forall sharpen dt pan ms, output_type dt ->
  (reads_valid false (dtype_nodata dt) (process_tile_pixel sharpen dt (dtype_nodata dt) pan ms) = true <->
   exists p m x, pan = Some p /\ ms = map Some m /\ In x (sharpen p m) /\
     (dt = F32 \/ dt = F64 \/ exists n, dtype_nodata dt = Some (Some n) /\ ~ (convert_elem F64 dt x == n)%Q)).
Proof. exact reads_nodata. Qed.
Print Assumptions C62_nodata.

(** C62, finding: so a valid dark pixel reads back as nodata. *)
Theorem C62_dark_refuted : exists sharpen pan ms, pan <> None /\ ~ In None ms /\
  reads_valid false (dtype_nodata U8) (process_tile_pixel sharpen U8 (dtype_nodata U8) pan ms) = false.
Proof. exact dark_pixel. Qed.
Print Assumptions C62_dark_refuted.

Example C62_case : process_tile_pixel (fun p m => map (Qplus p) m) I16 (dtype_nodata I16) (Some (1#4)) [Some 3%Q; Some (-5#1)] = ([Some 3%Q; Some (-5#1)], true) /\
  process_tile_pixel (fun p m => map (Qplus p) m) I16 (dtype_nodata I16) (Some (1#4)) [Some 3%Q; None] = ([Some (-32768#1); Some (-32768#1)], false).
Proof. split; reflexivity. Qed.
