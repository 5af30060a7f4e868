(** Model of orthorectification end to end: [Ortho.__init__], [_parse_crs], [_reproject_dem] and [process]
    (orthority/ortho.py), over the models of its parts (Dem_Model, Profile_Model, Remap_Model). *)
From Coq Require Import List String ZArith QArith Reals Bool.
From Verif Require Import Py Flt Grid_Model Profile_Model Remap_Model Dem_Model.
Import ListNotations.
Open Scope string_scope.
Open Scope list_scope.
Open Scope Z_scope.

(** enums.py:82-109 [Interp]: names and values are the same strings. *)
Inductive interp := Nearest | Average | Bilinear | Cubic | Lanczos.

(** [Interp(s)] for a string, or for a member (a member equals its string). *)
Definition interp_of (s : string) : res interp :=
  match find (fun p => String.eqb s (fst p))
             [("nearest", Nearest); ("average", Average); ("bilinear", Bilinear); ("cubic", Cubic); ("lanczos", Lanczos)] with
  | Some p => Ok (snd p)
  | None => Err ValueError
  end.

(** The [crs] argument: not given (or empty), text, or a CRS. *)
Inductive crs_param (C : Type) := PNone | PText (s : string) | PCrs (c : C).
Arguments PNone {C}.
Arguments PText {C} s.
Arguments PCrs {C} c.

Section Ortho.
Variable C : Type.
Variable crs_eqb : C -> C -> bool.
Variable from_string : string -> res C.            (* CRS.from_string *)

(** ortho.py:112-125 [_parse_crs]; [src_crs] is the CRS of the source image, if it can be opened. *)
Definition parse_crs (crs : crs_param C) (src_crs : res (option C)) : res C :=
  match crs with
  | PText s => if String.eqb s "" then
                 do src <- src_crs;
                 match src with Some c => Ok c | None => Err CrsMissingError end
               else from_string s
  | PCrs c => Ok c
  | PNone => do src <- src_crs;
             match src with Some c => Ok c | None => Err CrsMissingError end
  end.

(** What an [Ortho] object holds after construction, and the camera's behaviour. *)
Record ortho := Ort {
  or_crs : C;                                       (* self._crs *)
  or_dem : arr fl; or_dem_t : affine; or_dem_crs : C;   (* self._dem_array, _dem_transform, _dem_crs *)
  or_gsd : R                                        (* self._gsd *)
}.

(** ortho.py:85-105 [Ortho.__init__]; [get_dem] is [_get_init_dem] (Dem_Model) for a world CRS, with the CRS of the DEM, and
    [get_gsd] is [_get_gsd] (Bound_Model). *)
Definition ortho_init (is_camera : bool) (crs : crs_param C) (src_crs : res (option C)) (get_dem : C -> res (arr fl * affine * C))
    (get_gsd : C -> arr fl -> affine -> C -> R) : res ortho :=
  if negb is_camera then Err TypeError else
  do crs <- parse_crs crs src_crs;
  do (dem, t, dem_crs) <- get_dem crs;
  Ok (Ort crs dem t dem_crs (get_gsd crs dem t dem_crs)).

(** PROJ / GDAL: [array_bounds] and [transform_bounds] of an array from one CRS to another (left, bottom, right, top), and
    [reproject] to a CRS and resolution. *)
Variable bounds_in : Z * Z -> affine -> C -> C -> R * R * R * R.
Variable reproject : interp -> C -> C -> R * R -> arr fl -> affine -> arr fl * affine.

(** Real comparisons of the code. *)
Definition Rgtb (x y : R) : bool := if Rgt_dec x y then true else false.
Definition Req_b (x y : R) : bool := if Req_EM_T x y then true else false.

(** ortho.py:234-290 [_reproject_dem].  The vertical scale (258-266) is part of [reproject]. *)
Definition reproject_dem (o : ortho) (dem_interp : interp) (resolution : R * R) : res (arr fl * affine) :=
  if crs_eqb (or_dem_crs o) (or_crs o)
     && (Req_b (fst resolution) (Rabs (ta (or_dem_t o))) && Req_b (snd resolution) (Rabs (te (or_dem_t o))))
  then Ok (or_dem o, or_dem_t o)
  else
    let '(x0, y0, x1, y1) := bounds_in (ah (or_dem o), aw (or_dem o)) (or_dem_t o) (or_dem_crs o) (or_crs o) in
    if Rgtb (fst resolution) (x1 - x0) || Rgtb (snd resolution) (y1 - y0) then Err OrthorityError
    else Ok (reproject dem_interp (or_dem_crs o) (or_crs o) resolution (or_dem o) (or_dem_t o)).

(** * process *)

(** The camera: projection, the configuration that decides dilation, reading of (undistorted) bands of a source for an
    interpolation, data type and nodata, and the image boundary on a surface. *)
Record camera := Cam {
  k_w2p : fl * fl * fl -> fl * fl;
  k_distort : bool; k_pinhole : bool;
  k_read : interp -> string -> pix -> Z -> arr pix;
  k_boundary : arr fl -> affine -> interp -> list (R * R)
}.

(** OpenCV: interpolation of an image, rounding of the boundary to pixels ([np.round] of the inverse centre transform,
    ortho.py:314-315) and filling of the polygon for an array shape. *)
Variable cv_sample : interp -> arr pix -> R -> R -> option pix.
Variable to_pixels : affine -> list (R * R) -> list (Z * Z).
Variable fill_poly : Z * Z -> list (Z * Z) -> arr bool.

(** Arguments of [process] that shape the result. *)
Record args := Args {
  a_resolution : option (R * R);
  a_interp : string; a_dem_interp : string;
  a_per_band : bool; a_write_mask : option bool;
  a_dtype : option string; a_compress : option string;
  a_options : option (dict pval); a_driver : string
}.

(** The source image. *)
Record source := Src { s_count : Z; s_dtype : string; s_colorinterp : list string }.

(** An ortho dataset. *)
Record dataset := Data {
  d_crs : C; d_transform : affine; d_height : Z; d_width : Z; d_count : Z; d_dtype : string;
  d_profile : dict pval; d_colorinterp : list string; d_raster : raster
}.

(** The world boundary of the image on a surface, masked and cropped (ortho.py:595, and 292-343 [_mask_dem]). *)
Definition crop_to_image (k : camera) (dem : arr fl) (t : affine) (i : interp) : res (arr fl * affine * bool) :=
  let poly := to_pixels t (k_boundary k dem t i) in
  mask_dem dem t poly (fill_poly (ah dem, aw dem) poly) true true.

Definition is_nearest (i : interp) : bool := match i with Nearest => true | _ => false end.

(** ortho.py:401-482 [_remap]'s inputs.  [block] is the block shape of the new dataset, [fail] the tile tasks that fail. *)
Definition make_job (o : ortho) (k : camera) (src : source) (dt : string) (nodata : pix) (i : interp) (dem : arr fl) (t : affine)
    (write_mask : bool) (block : Z * Z) (fail : list Z -> window -> bool) : ortho_job :=
  Job (k_w2p k) (cv_sample i) (RCfg (k_distort k) (is_nearest i) (k_pinhole k)) (ah dem) (aw dem) (s_count src) block t nodata
      (k_read k i dt nodata) dem (or_gsd o) write_mask fail.

(** What happens in a call besides the arguments: the source image, the block shape of the new file, the tile tasks that fail, the
    schedule of the tasks and the content of the new file. *)
Record world := World {
  w_source : source; w_block : dict pval -> Z * Z; w_fail : list Z -> window -> bool; w_order : list Z -> list window;
  w_empty : raster
}.

(** The outcome of a call whose file can be created: the dataset left, the result of the tile loop, and whether the DEM coverage
    warning is given; or an exception before there is a dataset. *)
Definition outcome := res (dataset * res unit * bool).

(** ortho.py:598-628: [process] after the DEM is on the ortho grid.  The data type is the profile's, for creation options without
    a [dtype]. *)
Definition write_ortho (o : ortho) (k : camera) (a : args) (w : world) (dem : arr fl) (t : affine) (warn : bool) : outcome :=
  let src := w_source w in
  let dt := match a_dtype a with Some d => d | None => s_dtype src end in
  do (profile, write_mask) <- create_profile (a_driver a) (s_count src, ah dem, aw dem) dt (a_compress a) (a_write_mask a) (a_options a);
  let data := Data (or_crs o) t (ah dem) (aw dem) (s_count src) dt profile (s_colorinterp src) in
  (* 613-625 *)
  match interp_of (a_interp a) with
  | Err e => Ok (data (w_empty w), Err e, warn)
  | Ok i =>
    match lookup (KStr dt) Remap_Model.nodata_vals with
    | Err e => Ok (data (w_empty w), Err e, warn)
    | Ok nodata =>
      let job := make_job o k src dt nodata i dem t write_mask (w_block w profile) (w_fail w) in
      let (ras, r) := ortho_remap job (a_per_band a) (w_order w) (w_empty w) in
      Ok (data ras, r, warn)
    end
  end.

(** ortho.py:566-569. *)
Definition resolution_of (o : ortho) (a : args) : R * R :=
  match a_resolution a with Some r => r | None => (or_gsd o, or_gsd o) end.

(** ortho.py:556-628 [process]. *)
Definition process (o : ortho) (k : camera) (a : args) (w : world) : outcome :=
  do dem_interp <- interp_of (a_dem_interp a);
  do (dem, t) <- reproject_dem o dem_interp (resolution_of o a);
  do (dem, t, warn) <- crop_to_image k dem t dem_interp;
  write_ortho o k a w dem t warn.

(** * Calls on one object: arrays are shared *)

(** Arrays in memory, by address. *)
Definition heap := list (arr fl).
Definition hget (h : heap) (a : nat) : arr fl := nth a h (Arr 0 0 (fun _ _ => Nan)).
Fixpoint hset (h : heap) (a : nat) (v : arr fl) : heap :=
  match h, a with
  | [], _ => []
  | _ :: h', O => v :: h'
  | x :: h', S a' => x :: hset h' a' v
  end.

(** [_reproject_dem]: the address of the array it returns; [self._dem_array.copy()] is a new array (line 247), as is the result of
    [reproject].  [dem] is the address of [self._dem_array]. *)
Definition reproject_dem_h (o : ortho) (dem : nat) (dem_interp : interp) (resolution : R * R) (h : heap) : res (heap * nat * affine) :=
  do (a, t) <- reproject_dem (Ort (or_crs o) (hget h dem) (or_dem_t o) (or_dem_crs o) (or_gsd o)) dem_interp resolution;
  Ok (h ++ [a], List.length h, t).

(** [_mask_dem] assigns NaN through a view (lines 331 and 341): the array that was passed is changed inside the crop. *)
Definition mask_base (k : camera) (dem : arr fl) (t : affine) (i : interp) : arr fl :=
  let poly := fill_poly (ah dem, aw dem) (to_pixels t (k_boundary k dem t i)) in
  let dem_mask := Arr (ah dem) (aw dem) (fun r c => aget poly r c && negb (fisnan (aget dem r c))) in
  let r0 := lmin (any_rows dem_mask) in
  let r1 := lmax (any_rows dem_mask) + 1 in
  let c0 := lmin (any_cols dem_mask) in
  let c1 := lmax (any_cols dem_mask) + 1 in
  Arr (ah dem) (aw dem) (fun r c =>
    if (r0 <=? r) && (r <? r1) && (c0 <=? c) && (c <? c1) && negb (aget dem_mask r c) then Nan else aget dem r c).

(** The array returned is a view of the changed array: its values are those of [crop_to_image]. *)
Definition crop_to_image_h (k : camera) (addr : nat) (t : affine) (i : interp) (h : heap) : res (heap * (arr fl * affine * bool)) :=
  let dem := hget h addr in
  do r <- crop_to_image k dem t i;
  Ok (hset h addr (mask_base k dem t i), r).

(** One call of [process] on an object whose DEM array is at [dem]: the memory it leaves, and its outcome. *)
Definition process_h (o : ortho) (dem : nat) (k : camera) (a : args) (w : world) (h : heap) : heap * outcome :=
  match interp_of (a_dem_interp a) with
  | Err e => (h, Err e)
  | Ok dem_interp =>
    match reproject_dem_h o dem dem_interp (resolution_of o a) h with
    | Err e => (h, Err e)
    | Ok (h, addr, t) =>
      match crop_to_image_h k addr t dem_interp h with
      | Err e => (h, Err e)
      | Ok (h, (a', t', warn)) => (h, write_ortho o k a w a' t' warn)
      end
    end
  end.

(** Calls one after the other. *)
Fixpoint calls (o : ortho) (dem : nat) (k : camera) (l : list (args * world)) (h : heap) : list outcome :=
  match l with
  | [] => []
  | (a, w) :: l' => let (h', r) := process_h o dem k a w h in r :: calls o dem k l' h'
  end.

End Ortho.
Arguments Ort {C}.
Arguments or_crs {C}.
Arguments or_dem {C}.
Arguments or_dem_t {C}.
Arguments or_dem_crs {C}.
Arguments or_gsd {C}.
Arguments Data {C}.
Arguments d_crs {C}.
Arguments d_transform {C}.
Arguments d_height {C}.
Arguments d_width {C}.
Arguments d_count {C}.
Arguments d_dtype {C}.
Arguments d_profile {C}.
Arguments d_colorinterp {C}.
Arguments d_raster {C}.
