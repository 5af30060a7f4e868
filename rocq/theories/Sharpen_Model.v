(** Model of pan-sharpening end to end: [PanSharpen.process], [_get_stats], [_get_params] and [_process_tile]
    (orthority/pan_sharp.py), over the models of its parts (Pan_Model, PanGrid_Model, Profile_Model). *)
From Coq Require Import String List ZArith QArith Reals Bool.
From Verif Require Import Py Flt Grid_Model Dtype_Model Profile_Model Pan_Model PanGrid_Model Ortho_Model.
From Verif Require Bound_Model Remap_Model.
Import ListNotations.
Open Scope string_scope.
Open Scope list_scope.
Open Scope Z_scope.

(** A source image as opened: its grid, number of bands, first data type and colour interpretation of bands. *)
Record source := Source { so_image : image; so_count : Z; so_dtype : string; so_colors : list string }.

(** Arguments of [process] (pan_sharp.py:517-532) that shape the result. *)
Record sargs := SArgs {
  sa_pan_index : Z; sa_ms_indexes : option (list Z); sa_weights : option (list R); sa_interp : string;
  sa_write_mask : option bool; sa_dtype : option string; sa_compress : option string;
  sa_options : option (dict pval); sa_driver : string
}.

(** Bands (1 based) and mask (true = valid) of the output. *)
Record sraster := SRas { sr_bands : Z -> Z -> Z -> fl; sr_mask : Z -> Z -> bool }.

(** The sharpened image file. *)
Record sdata := SData {
  sd_crs : option Z; sd_transform : qaff; sd_width : Z; sd_height : Z; sd_count : Z; sd_dtype : string; sd_profile : dict pval;
  sd_write_mask : bool; sd_colors : list string; sd_raster : sraster
}.

(** * Conversion to the output data type *)

Definition dtype_named (s : string) : dtype :=
  if String.eqb s "uint8" then U8 else if String.eqb s "uint16" then U16 else if String.eqb s "int16" then I16
  else if String.eqb s "float32" then F32 else F64.

(** [np.round] of a real: to the nearest integer, half to even. *)
Definition round_r (x : R) : Z :=
  let f := Bound_Model.Rfloor x in
  if Rlt_dec (x - IZR f) (/ 2) then f
  else if Rlt_dec (/ 2) (x - IZR f) then f + 1
  else if Z.even f then f else f + 1.

(** common.py:501-529 [convert_array_dtype] from float64, over reals: [convert_elem F64] of Dtype_Model is its restriction to
    rationals (theorem C74_convert). *)
Definition convert_r (dst : dtype) (x : R) : R :=
  if is_floating dst then x else IZR (Z.max (info_min dst) (Z.min (info_max dst) (round_r x))).

(** [out_im.nodata or 0] (pan_sharp.py:507) for the nodata of a profile. *)
Definition fill_value (profile : dict pval) : fl :=
  match dget "nodata" profile with
  | Some (VZ n) => Num (IZR n)
  | Some VNan => Nan
  | _ => Num 0
  end.

Section Sharpen.

(** [rasterio.warp.transform_bounds]. *)
Variable transform_bounds : option Z -> option Z -> qbounds -> res qbounds.
(** Values of a WarpedVRT of the pan and multispectral images with a profile, resampling and the working nodata (NaN), by band,
    row and column. *)
Variable warp_pan warp_ms : vrt_profile -> interp -> Z -> Z -> Z -> fl.
(** [np.linalg.lstsq]. *)
Variable lstsq : list (list R) -> list R -> list R.
(** The values that come from parameters that are not finite numbers (unspecified), and of NaN in integer types. *)
Variable odd : R -> list R -> list fl.
Variable nan_int : dtype -> fl.

(** What happens in a call besides the arguments: the order the statistics tiles complete in, the tasks that fail, the block shape of
    the new file, the order output tiles are written in, and the content of the new file. *)
Record sworld := SWorld {
  sw_stat_order : list window; sw_stat_fail : window -> bool;
  sw_block : dict pval -> Z * Z; sw_order : list window; sw_fail : window -> bool; sw_empty : sraster
}.

(** (row, column) of the pixels of a window, in the order of numpy. *)
Definition win_pixels (w : window) : list (Z * Z) :=
  product (py_range (row_off w) (row_off w + height w) 1) (py_range (col_off w) (col_off w + width w) 1).

(** pan_sharp.py:252-264: the pixels of a statistics tile. *)
Definition stat_pixels (ps : vrt_profiles) (pan_index : Z) (idx : list Z) (w : window) : list pixel :=
  map (fun rc : Z * Z =>
         let (r, c) := rc in
         (warp_pan (pan_to_ms ps) Average pan_index r c, map (fun b => warp_ms (ms_to_ms ps) Nearest b r c) idx))
      (win_pixels w).
Definition stat_tile (ps : vrt_profiles) (pan_index : Z) (idx : list Z) (w : sworld) (win : window) : res (list pixel) :=
  if sw_stat_fail w win then Err ExternalError else Ok (stat_pixels ps pan_index idx win).

(** pan_sharp.py:405-416 [_get_params]; [None] if a value is not finite, from a division by zero (an error of [lstsq] for a NaN
    covariance is not modelled). *)
Definition all_pairs (n : nat) (p : nat -> nat -> bool) : bool := forallb (fun k => forallb (p k) (seq 0 n)) (seq 0 n).
Definition is_num (x : fl) : bool := negb (fisnan x).
Definition nonzero (x : R) : bool := if Req_EM_T x 0 then false else true.

Definition finite_params (nb : nat) (means : nat -> R) (cov : nat -> nat -> fl) (ws : option (list R)) : option params :=
  if negb (all_pairs (S nb) (fun k l => is_num (cov k l))) then None else
  let c := fun k l => fval (cov k l) in
  match nums (get_weights lstsq nb c ws) with
  | None => None
  | Some w =>
    let cms := fun i j => c (S i) (S j) in
    let ok_vector v := negb (any_nonzero nb v) || nonzero (bil nb cms v v) in
    if nonzero (c 0%nat 0%nat) && forallb ok_vector (gs_vectors nb cms (fun m => nth m w 0%R) (nb - 1))
    then Some (get_params nb means c w) else None
  end.

(** pan_sharp.py:418-478 [_process_tile_array] and 506 for one valid pixel. *)
Definition sharpen (p : option params) (pan : R) (ms : list R) : list fl :=
  match p with Some p => map Num (process_pixel p pan ms) | None => odd pan ms end.
Definition convert_fl (dt : dtype) (v : fl) : fl :=
  match v with Num x => Num (convert_r dt x) | Nan => if is_floating dt then Nan else nan_int dt end.

(** pan_sharp.py:492-508: values and validity of one output pixel. *)
Definition out_pixel (p : option params) (dt : dtype) (fill : fl) (pan : fl) (ms : list fl) : list fl * bool :=
  match pixel_values (pan, ms) with
  | Some (x :: xs) => (map (convert_fl dt) (sharpen p x xs), true)
  | _ => (map (fun _ => fill) ms, false)
  end.

Definition pan_at (ps : vrt_profiles) (pan_index r c : Z) : fl := warp_pan (pan_to_pan ps) Nearest pan_index r c.
Definition ms_at (ps : vrt_profiles) (i : interp) (idx : list Z) (r c : Z) : list fl :=
  map (fun b => warp_ms (ms_to_pan ps) i b r c) idx.

(** pan_sharp.py:480-515 [_process_tile]: the update of the output by one tile task, under the write lock. *)
Definition write_tile (ps : vrt_profiles) (pan_index : Z) (i : interp) (idx : list Z) (p : option params) (dt : dtype) (fill : fl)
    (write_mask : bool) (ras : sraster) (w : window) : sraster :=
  let px r c := out_pixel p dt fill (pan_at ps pan_index r c) (ms_at ps i idx r c) in
  let bands := fun b r c =>
    if (1 <=? b) && (b <=? Z.of_nat (List.length idx)) && Remap_Model.in_winb w r c then nth (Z.to_nat (b - 1)) (fst (px r c)) Nan
    else sr_bands ras b r c in
  let mask := if write_mask then fun r c => if Remap_Model.in_winb w r c then snd (px r c) else sr_mask ras r c else sr_mask ras in
  SRas bands mask.

(** The outcome of a call: the file left and the result of the tile tasks, or an exception before there is a file. *)
Definition soutcome := res (sdata * res unit).

(** pan_sharp.py:591-667 [process].  Opening the output is in Files_Model.  The data type is the profile's, for creation options without a
    [dtype].  Overviews and progress bars are left out. *)
Definition sprocess (ps : vrt_profiles) (pan ms : source) (a : sargs) (w : sworld) : soutcome :=
  do i <- interp_of (sa_interp a);
  do (idx, ws) <- validate_params (so_count pan) (map (String.eqb "alpha") (so_colors ms)) (sa_pan_index a) (sa_ms_indexes a) (sa_weights a);
  let dt := match sa_dtype a with
            | Some d => if String.eqb d "" then so_dtype ms else d
            | None => so_dtype ms
            end in
  let '(crs, t, width, height) := out_grid ps in
  let nb := List.length idx in
  do (profile, write_mask) <-
    create_profile (sa_driver a) (Z.of_nat nb, height, width) dt (sa_compress a) (sa_write_mask a) (sa_options a);
  let colors := map (fun mi => nth (Z.to_nat (mi - 1)) (so_colors ms) "") idx in
  let data := SData crs t width height (Z.of_nat nb) dt profile write_mask colors in
  (* 631-634 *)
  match get_stats (map (stat_tile ps (sa_pan_index a) idx w) (sw_stat_order w)) with
  | Err e => Ok (data (sw_empty w), Err e)
  | Ok (means, cov) =>
    let p := finite_params nb means cov ws in
    (* 644-663: the pool runs all tasks; they are awaited in the order of submission *)
    let step ras win :=
      if sw_fail w win then ras
      else write_tile ps (sa_pan_index a) i idx p (dtype_named dt) (fill_value profile) write_mask ras win in
    Ok (data (fold_left step (sw_order w) (sw_empty w)),
        iterM (fun win => if sw_fail w win then Err RuntimeError else Ok tt) (block_windows height width (sw_block w profile)))
  end.

(** [PanSharpen(pan_file, ms_file).process(...)]: pan_sharp.py:69-80 and [process]. *)
Definition pan_sharpen (pan ms : source) (a : sargs) (w : sworld) : soutcome :=
  do ps <- get_vrt_profiles transform_bounds (so_image pan) (so_image ms);
  sprocess ps pan ms a w.

End Sharpen.
