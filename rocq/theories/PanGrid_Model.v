(** Model of the pan-sharpening grids ([PanSharpen._get_vrt_profiles]) and of the validity of sharpened pixels
    ([PanSharpen._process_tile]); orthority/pan_sharp.py. *)
From Coq Require Import List ZArith QArith Qabs Bool.
From Verif Require Import Py Grid_Model Dem_Model Dtype_Model.
Import ListNotations.
Open Scope Z_scope.

(** affine.Affine with rational members. *)
Record qaff := QAff { qa : Q; qb : Q; qc : Q; qd : Q; qe : Q; qf : Q }.

Definition qapply (t : qaff) (x y : Q) : Q * Q :=
  (qa t * x + qb t * y + qc t, qd t * x + qe t * y + qf t)%Q.

(** [t * Affine.scale(sx, sy)]. *)
Definition qscale (t : qaff) (sx sy : Q) : qaff :=
  QAff (qa t * sx) (qb t * sy) (qc t) (qd t * sx) (qe t * sy) (qf t).

(** [t.is_identity]. *)
Definition is_identity (t : qaff) : bool :=
  Qeq_bool (qa t) 1 && Qeq_bool (qb t) 0 && Qeq_bool (qc t) 0 && Qeq_bool (qd t) 0 && Qeq_bool (qe t) 1 && Qeq_bool (qf t) 0.

(** rasterio [window_transform]. *)
Definition qwin_transform (w : window) (t : qaff) : qaff :=
  let (x, y) := qapply t (inject_Z (col_off w)) (inject_Z (row_off w)) in QAff (qa t) (qb t) x (qd t) (qe t) y.

(** An image as opened: CRS, transform and size. *)
Record image := Image { im_crs : option Z; im_t : qaff; im_w : Z; im_h : Z }.

(** rasterio BoundingBox: left, bottom, right, top. *)
Record qbounds := QBounds { q_left : Q; q_bottom : Q; q_right : Q; q_top : Q }.

(** [ds.bounds], for a north up transform. *)
Definition im_bounds (i : image) : qbounds :=
  let t := im_t i in
  QBounds (qc t) (qf t + qe t * inject_Z (im_h i)) (qc t + qa t * inject_Z (im_w i)) (qf t).

(** [ds.window( *bounds)], for a north up transform. *)
Definition im_window (i : image) (b : qbounds) : fwindow :=
  let t := im_t i in
  FWin ((q_left b - qc t) / qa t) ((q_top b - qf t) / qe t) ((q_right b - q_left b) / qa t) ((q_bottom b - q_top b) / qe t).

Record vrt_profile := Profile { v_crs : option Z; v_src_transform : qaff; v_transform : qaff; v_width : Z; v_height : Z }.
Record vrt_profiles := Profiles { pan_to_pan : vrt_profile; ms_to_pan : vrt_profile; ms_to_ms : vrt_profile; pan_to_ms : vrt_profile }.

Section Vrt.

(** [rasterio.warp.transform_bounds], which raises for missing CRSs and failed transforms. *)
Variable transform_bounds : option Z -> option Z -> qbounds -> res qbounds.

Definition not_georef (i : image) : bool := match im_crs i with None => is_identity (im_t i) | Some _ => false end.

(** pan_sharp.py:95-142: source transforms and windows. *)
Definition shared_windows (pan ms : image) : res (qaff * qaff * window * window) :=
  let full i := Win 0 0 (im_w i) (im_h i) in
  if not_georef ms then
    Ok (im_t pan, qscale (im_t pan) (inject_Z (im_w pan) / inject_Z (im_w ms)) (inject_Z (im_h pan) / inject_Z (im_h ms)), full pan, full ms)
  else if not_georef pan then
    Ok (qscale (im_t ms) (inject_Z (im_w ms) / inject_Z (im_w pan)) (inject_Z (im_h ms) / inject_Z (im_h pan)), im_t ms, full pan, full ms)
  else
    do ms_bounds <- transform_bounds (im_crs ms) (im_crs pan) (im_bounds ms);
    let ms_win_ := im_window pan ms_bounds in
    match fwin_intersection ms_win_ (im_window pan (im_bounds pan)) with
    | Err _ => Err OrthorityError
    | Ok pan_win =>
      let pan_win := expand_window_to_grid pan_win (0, 0) in
      do pan_bounds <- transform_bounds (im_crs pan) (im_crs ms) (im_bounds pan);
      let pan_win_ := im_window ms pan_bounds in
      do ms_win <- fwin_intersection pan_win_ (im_window ms (im_bounds ms));
      Ok (im_t pan, im_t ms, pan_win, expand_window_to_grid ms_win (0, 0))
    end.

(** pan_sharp.py:82-184 [_get_vrt_profiles].  The items common to all profiles (data type, nodata and threads) are left
    out. *)
Definition get_vrt_profiles (pan ms : image) : res vrt_profiles :=
  do (pan_src, ms_src, pan_win, ms_win) <- shared_windows pan ms;
  let exceeds f := negb (Qle_bool (Qabs (f pan_src)) (Qabs (f ms_src))) in
  if exceeds qa || exceeds qe then Err OrthorityError else
  let prof i src w := Profile (im_crs i) src (qwin_transform w src) (width w) (height w) in
  let p := prof pan pan_src pan_win in
  let m := prof ms ms_src ms_win in
  let with_src (v : vrt_profile) s := Profile (v_crs v) s (v_transform v) (v_width v) (v_height v) in
  Ok (Profiles p (with_src p ms_src) m (with_src m pan_src)).

End Vrt.

(** pan_sharp.py:610-611: CRS, transform, width and height of the sharpened image. *)
Definition out_grid (p : vrt_profiles) : option Z * qaff * Z * Z :=
  (v_crs (pan_to_pan p), v_transform (pan_to_pan p), v_width (pan_to_pan p), v_height (pan_to_pan p)).

(** * Validity of sharpened pixels *)

(** A value read from a WarpedVRT with the working nodata (NaN). *)
Definition is_valid (v : option Q) : bool := match v with Some _ => true | None => false end.

(** An output value: NaN is [None]. *)
Definition nodata_or_0 (nodata : option (option Q)) : option Q :=
  match nodata with
  | None => Some 0%Q                        (* None or 0 *)
  | Some None => None                       (* nan or 0: nan is true *)
  | Some (Some x) => if Qeq_bool x 0 then Some 0%Q else Some x
  end.

Fixpoint all_values (l : list (option Q)) : option (list Q) :=
  match l with
  | [] => Some []
  | Some x :: l' => option_map (cons x) (all_values l')
  | None :: _ => None
  end.

(** pan_sharp.py:480-515 [_process_tile] for one pixel: its output values and mask.  [sharpen] is [_process_tile_array]
    ([process_pixel] of Pan_Model).  Sharpened values are of type float64. *)
Definition process_tile_pixel (sharpen : Q -> list Q -> list Q) (dt : dtype) (nodata : option (option Q)) (pan : option Q) (ms : list (option Q))
    : list (option Q) * bool :=
  match pan, all_values ms with
  | Some p, Some m => (map (fun x => Some (convert_elem F64 dt x)) (sharpen p m), true)
  | _, _ => (map (fun _ => nodata_or_0 nodata) ms, false)
  end.

(** How a reader of the output sees a pixel: by the mask if one was written, else by comparing with nodata (as in
    rasterio's dataset mask, a pixel is valid if any band is). *)
Definition value_is_nodata (nodata : option (option Q)) (v : option Q) : bool :=
  match nodata, v with
  | Some None, None => true
  | Some (Some n), Some x => Qeq_bool n x
  | _, _ => false
  end.
Definition reads_valid (write_mask : bool) (nodata : option (option Q)) (out : list (option Q) * bool) : bool :=
  if write_mask then snd out else existsb (fun v => negb (value_is_nodata nodata v)) (fst out).
