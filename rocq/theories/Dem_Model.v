(** Model of DEM window reading and cropping: [Ortho._get_init_dem] and [Ortho._mask_dem]
    (orthority/ortho.py). *)
From Coq Require Import List ZArith QArith Qminmax Reals Bool.
From Verif Require Import Py Flt Grid_Model Remap_Model.
Import ListNotations.
Open Scope Z_scope.

(** rasterio [Window.intersection] on float windows: WindowError unless the overlap has a positive size. *)
Definition fwin_intersection (a b : fwindow) : res fwindow :=
  let col := Qmax (fcol_off a) (fcol_off b) in
  let row := Qmax (frow_off a) (frow_off b) in
  let w := (Qmin (fcol_off a + fwidth a) (fcol_off b + fwidth b) - col)%Q in
  let h := (Qmin (frow_off a + fheight a) (frow_off b + fheight b) - row)%Q in
  if negb (Qle_bool w 0) && negb (Qle_bool h 0) then Ok (FWin col row w h) else Err WindowError.

(** The same on integer windows. *)
Definition win_intersection (a b : window) : res window :=
  let col := Z.max (col_off a) (col_off b) in
  let row := Z.max (row_off a) (row_off b) in
  let w := Z.min (col_off a + width a) (col_off b + width b) - col in
  let h := Z.min (row_off a + height a) (row_off b + height b) - row in
  if (0 <? w) && (0 <? h) then Ok (Win col row w h) else Err WindowError.

(** ortho.py:156-173 [get_win_at_zs] for a DEM of the given size; [req] is the window of the ortho bounds in
    DEM pixels ([dem_im.window], line 167). *)
Definition get_win (dem_h dem_w : Z) (req : fwindow) : res window :=
  match fwin_intersection (FWin 0 0 (inject_Z dem_w) (inject_Z dem_h)) req with
  | Ok w => Ok (expand_window_to_grid w (0, 0))
  | Err _ => Err OrthorityError
  end.

(** ortho.py:127-205 [_get_init_dem], from the check of [dem_band] on: the DEM array and transform.  [dem] is the
    whole DEM band with nodata as NaN.  [req1] is the window of the ortho bounds for the conservative height
    range, and [req2] that for the height range of the DEM array read first (both come from the camera and the CRS
    transforms, which are not modelled here).  A window read is the array slice. *)
Definition get_init_dem (dem_band count : Z) (dem : arr fl) (t : affine) (req1 : fwindow) (req2 : arr fl -> fwindow)
    : res (arr fl * affine) :=
  if (dem_band <=? 0) || (count <? dem_band) then Err OrthorityError else
  do dem_array_win <- get_win (ah dem) (aw dem) req1;
  let dem_array := aslice dem (row_off dem_array_win) (row_off dem_array_win + height dem_array_win)
                              (col_off dem_array_win) (col_off dem_array_win + width dem_array_win) in
  do dem_win <- get_win (ah dem) (aw dem) (req2 dem_array);
  do dem_win <- win_intersection dem_win dem_array_win;
  let i0 := row_off dem_win - row_off dem_array_win in
  let j0 := col_off dem_win - col_off dem_array_win in
  Ok (aslice dem_array i0 (i0 + height dem_win) j0 (j0 + width dem_win), win_transform dem_win t).

(** * [_mask_dem] *)

Definition rows (h : Z) : list Z := py_range 0 h 1.

(** All (row, col) indices of an array. *)
Definition indices {A} (a : arr A) : list (Z * Z) := product (rows (ah a)) (rows (aw a)).

(** [mask.sum()]. *)
Definition asum (m : arr bool) : Z :=
  Z.of_nat (List.length (filter (fun rc => aget m (fst rc) (snd rc)) (indices m))).

(** [min] and [max] of a non-empty list. *)
Definition lmin (l : list Z) : Z := fold_left Z.min l (hd 0 l).
Definition lmax (l : list Z) : Z := fold_left Z.max l (hd 0 l).

(** [np.where(mask.max(axis=1))[0]]: rows with a set pixel. *)
Definition any_rows (m : arr bool) : list Z :=
  filter (fun r => existsb (fun c => aget m r c) (rows (aw m))) (rows (ah m)).

(** [np.where(mask.max(axis=0))[0]]: columns with a set pixel. *)
Definition any_cols (m : arr bool) : list Z :=
  filter (fun c => existsb (fun r => aget m r c) (rows (ah m))) (rows (aw m)).

(** ortho.py:292-343 [_mask_dem].  [poly_ji] is the image boundary in rounded DEM pixel (column, row) coordinates
    and [poly_mask] the filled polygon (cv2.fillPoly, not modelled), of the DEM's shape.  Returns the
    array, its transform and whether the partial coverage warning was issued. *)
Definition mask_dem (dem : arr fl) (t : affine) (poly_ji : list (Z * Z)) (poly_mask : arr bool) (crop mask : bool)
    : res (arr fl * affine * bool) :=
  let dem_mask := Arr (ah dem) (aw dem) (fun r c => aget poly_mask r c && negb (fisnan (aget dem r c))) in
  let dem_mask_sum := asum dem_mask in
  if dem_mask_sum =? 0 then Err OrthorityError else
  let warn :=
    (dem_mask_sum <? asum poly_mask)
    || existsb (fun p => (fst p <? 0) || (snd p <? 0) || (aw dem <? fst p + 1) || (ah dem <? snd p + 1)) poly_ji in
  let '(dem, dem_mask, t) :=
    if crop then
      let r0 := lmin (any_rows dem_mask) in
      let r1 := lmax (any_rows dem_mask) + 1 in
      let c0 := lmin (any_cols dem_mask) in
      let c1 := lmax (any_cols dem_mask) + 1 in
      (aslice dem r0 r1 c0 c1, aslice dem_mask r0 r1 c0 c1, aff_pretranslate t (IZR c0) (IZR r0))
    else (dem, dem_mask, t) in
  let dem :=
    if mask then Arr (ah dem) (aw dem) (fun r c => if aget dem_mask r c then aget dem r c else Nan) else dem in
  Ok (dem, t, warn).
