(** Model of the RPC and GCP camera objects of orthority/camera.py: construction, and the calls on arrays, with the removal
    of NaN columns around the calls of GDAL. *)
From Coq Require Import String List Reals ZArith Bool.
From Verif Require Import Py Flt Mat Grid_Model Remap_Model Frame_Model Undist_Model Bound_Model Rpc_Model Cam_Model.
Import ListNotations.
Open Scope string_scope.
Open Scope list_scope.
Open Scope Z_scope.

(** * Arrays with NaN columns *)

Notation pt3 := (fl * fl * fl)%type (only parsing).
Notation pt2 := (fl * fl)%type (only parsing).

(** [a[:, mask]]. *)
Fixpoint gather {A} (mask : list bool) (l : list A) : list A :=
  match mask, l with
  | true :: mask', x :: l' => x :: gather mask' l'
  | false :: mask', _ :: l' => gather mask' l'
  | _, _ => []
  end.

(** [a[:, mask] = new], with as many new columns as the mask has; numpy raises ValueError for another number (or repeats a
    single one, which is not modelled). *)
Fixpoint scatter {A} (mask : list bool) (old new : list A) : res (list A) :=
  match mask, old with
  | true :: mask', _ :: old' =>
    match new with
    | v :: new' => do l <- scatter mask' old' new'; Ok (v :: l)
    | [] => Err ValueError
    end
  | false :: mask', v :: old' => do l <- scatter mask' old' new; Ok (v :: l)
  | _, _ => match new with [] => Ok [] | _ => Err ValueError end
  end.

(** [np.any(np.isnan(xyz), axis=0)], [np.any(np.isnan(ji), axis=0)]. *)
Definition nan3 (p : pt3) : bool := let '(x, y, z) := p in fisnan x || fisnan y || fisnan z.
Definition nan2 (p : pt2) : bool := fisnan (fst p) || fisnan (snd p).

(** The numbers passed to GDAL; they are not NaN where this is used. *)
Definition val (x : fl) : R := match x with Num v => v | Nan => 0 end.
Definition vec_of (p : pt3) : vec := let '(x, y, z) := p in V3 (val x) (val y) (val z).

(** * RPC parameters *)

(** A value of the RPC dictionary: a number or sequence of numbers, or None. *)
Inductive rval := RNum (x : R) | RSeq (l : list R) | RNone.

(** The fields of [rasterio.rpc.RPC]: those without, and those with a default. *)
Definition rpc_required : list string :=
  ["height_off"; "height_scale"; "lat_off"; "lat_scale"; "line_den_coeff"; "line_num_coeff"; "line_off"; "line_scale"; "long_off";
   "long_scale"; "samp_den_coeff"; "samp_num_coeff"; "samp_off"; "samp_scale"].
Definition rpc_optional : list string := ["err_bias"; "err_rand"].

(** Numbers and sequences by name.  Values of another type are stored as they are, and fail when they are used; that is not
    modelled. *)
Definition num_at (d : dict rval) (k : string) : R := match dget k d with Some (RNum x) => x | _ => 0 end.
Definition seq_at (d : dict rval) (k : string) : list R := match dget k d with Some (RSeq l) => l | _ => [] end.

(** [RPC( **rpc)] (camera.py:431): Python raises TypeError for missing and unknown names. *)
Definition rpc_of_dict (d : dict rval) : res rpc :=
  if negb (forallb (fun k => dmem k d) rpc_required) then Err TypeError
  else if negb (forallb (fun kv => one_of (fst kv) (rpc_required ++ rpc_optional)) d) then Err TypeError
  else Ok (Rpc (num_at d "long_off") (num_at d "lat_off") (num_at d "height_off")
               (num_at d "long_scale") (num_at d "lat_scale") (num_at d "height_scale")
               (num_at d "samp_off") (num_at d "line_off") (num_at d "samp_scale") (num_at d "line_scale")
               (seq_at d "samp_num_coeff") (seq_at d "samp_den_coeff") (seq_at d "line_num_coeff") (seq_at d "line_den_coeff")).

(** The [rpc] argument. *)
Inductive rpc_arg := RpcObject (r : rpc) | RpcDict (d : dict rval).

(** * The RPC camera object *)

Section Rcam.
(** CRSs; parsing of one (rasterio's [CRS.from_string]); the RPC CRS, EPSG:4979; GDAL's options. *)
Variable C : Type.
Variable parse_crs : string -> res C.
Variable rpc_crs : C.
Variable O : Type.
Variable no_options : O.
(** [rasterio.warp.transform] of points from a CRS to another. *)
Variable warp : C -> C -> list vec -> list vec.
(** [RPCTransformer.xy] with heights and [offset='center']: the (longitude, latitude) of pixel centre coordinates (j, i). *)
Variable rpc_xy : rpc -> O -> list ((R * R) * R) -> list (R * R).

Record rcam := RCam { rc_w : Z; rc_h : Z; rc_rpc : rpc; rc_options : O; rc_crs : option C }.

(** The [crs] argument. *)
Inductive crs_arg := CrsNone | CrsStr (s : string) | CrsObject (c : C).

(** camera.py:441-448 [_validate_crs]. *)
Definition validate_crs_arg (r : rpc) (crs : C) : res C :=
  do _ <- Rpc_Model.validate_crs (fun v => match warp rpc_crs crs [v] with q :: _ => q | [] => V3 0 0 0 end) r; Ok crs.

(** camera.py:420-434 [RpcCamera.__init__]: an empty CRS string is none. *)
Definition rpc_init (w h : Z) (r : rpc_arg) (options : option O) (crs : crs_arg) : res rcam :=
  do r <- match r with RpcObject r => Ok r | RpcDict d => rpc_of_dict d end;
  let options := match options with Some o => o | None => no_options end in
  do crs <- match crs with
            | CrsNone => Ok None
            | CrsStr s => if String.eqb s "" then Ok None else do c <- parse_crs s; do c <- validate_crs_arg r c; Ok (Some c)
            | CrsObject c => do c <- validate_crs_arg r c; Ok (Some c)
            end;
  Ok (RCam w h r options crs).

(** camera.py:436-439 [crs]. *)
Definition camera_crs (c : rcam) : C := match rc_crs c with Some crs => crs | None => rpc_crs end.

(** camera.py:450-489 [world_to_pixel] of an array. *)
Definition rpc_w2p_call (c : rcam) (xyz : nd (list pt3)) : res (list pt2) :=
  do _ <- validate_world_coords xyz;
  let pts := nd_data xyz in
  do pts <- match rc_crs c with
            | None => Ok pts
            | Some crs =>
              let mask := map (fun p => negb (nan3 p)) pts in
              scatter mask (map (fun _ => (Nan, Nan, Nan)) pts) (map fl_vec (warp crs rpc_crs (map vec_of (gather mask pts))))
            end;
  Ok (map (rpc_world_to_pixel None (rc_rpc c)) pts).

(** The z argument: a scalar, a 1D array (of an integer type or not), or an array with another number of dimensions. *)
Inductive zval := VScalar (z : fl) | VVec (integer : bool) (zs : list fl) | VNd.
Definition zarg_of (z : zval) : zarg := match z with VScalar z => ZScalar z | VVec _ zs => ZVec zs | VNd => ZNd end.

(** camera.py:492-501 and 542-551: heights and pixels of one length, without NaNs.  Numpy converts the NaN of [z[~mask] = nan] to
    the type of [z] before it looks at the mask, and cannot for integer types. *)
Definition p2w_prepare (ji : nd (list pt2)) (z : zval) : res (list bool * list pt2 * list fl) :=
  do _ <- validate_pixel_coords ji;
  let ji := nd_data ji in
  if negb (validate_z (zarg_of z) (List.length ji)) then Err ValueError
  else
    do (integer, z) <- match z with
                       | VScalar z => Ok (false, repeat z (List.length ji))
                       | VVec integer zs => Ok (integer, zs)
                       | VNd => Err ValueError
                       end;
    let ji := match ji with [p] => repeat p (List.length z) | _ => ji end in
    do mask <- broadcast (fun p z => negb (nan2 p || fisnan z)) ji z;
    if negb (Nat.eqb (List.length mask) (List.length z)) then Err IndexError
    else if (integer : bool) then Err ValueError
    else do z <- scatter (map negb mask) z (map (fun _ => Nan) (gather (map negb mask) z)); Ok (mask, ji, z).

(** Columns of pixels and heights as they are passed to GDAL. *)
Definition px_args (mask : list bool) (ji : list pt2) (z : list fl) : list ((R * R) * R) :=
  combine (map (fun p => (val (fst p), val (snd p))) (gather mask ji)) (map val (gather mask z)).

Definition stack (xy : list pt2) (z : list fl) : list pt3 := map (fun p => (fst (fst p), snd (fst p), snd p)) (combine xy z).

(** camera.py:491-511 [pixel_to_world_z] of arrays. *)
Definition rpc_p2w_call (c : rcam) (ji : nd (list pt2)) (z : zval) : res (list pt3) :=
  do (mask, ji, z) <- p2w_prepare ji z;
  do xy <- scatter mask (map (fun _ => (Nan, Nan)) ji) (map num2 (rpc_xy (rc_rpc c) (rc_options c) (px_args mask ji z)));
  let xyz := stack xy z in
  match rc_crs c with
  | None => Ok xyz
  | Some crs => scatter mask xyz (map fl_vec (warp rpc_crs crs (map vec_of (gather mask xyz))))
  end.

(** camera.py:204-285 as RPC and GCP cameras have it: the boundary of the image, and its rays.  The code projects all pixels in one
    call; [boundary_ray] is the call for one of them. *)
Definition ray_of (p2w : nd (list pt2) -> zval -> res (list pt3)) (ji : R * R) : option (R -> vec) :=
  Some (fun z => match p2w (Nd "float64" [2; 1] [num2 ji]) (VScalar (Num z)) with
                 | Ok [p] => vec_of p
                 | _ => V3 0 0 0
                 end).

(** camera.py:319-399 [Camera.remap], for a camera without undistortion. *)
Definition base_remap (cv_image : string -> arr pix -> fl * fl -> option pix) (w2p : nd (list pt3) -> res (list pt2))
    (im : nd (list (arr pix))) (x y z : nd (arr fl)) (nodata : option pix) (interp : string) : res (list (arr pix) * arr bool) :=
  do _ <- validate_image im;
  if negb (same_shape x y && same_shape y z && Nat.eqb (List.length (nd_shape x)) 2) then Err ValueError
  else if negb (String.eqb (nd_dtype x) "float64" && String.eqb (nd_dtype y) "float64") then Err ValueError
  else if negb (one_of (nd_dtype z) ["float16"; "float32"; "float64"; "longdouble"]) then Err ValueError
  else
    do nodata <- match nodata with Some v => Ok v | None => lookup (KDtype (nd_dtype im)) nodata_vals end;
    if String.eqb (nd_dtype z) "longdouble" then Err ValueError
    else
      let m := ah (nd_data x) in
      let n := aw (nd_data x) in
      let cells := flat_map (fun r => map (fun c => (r, c)) (py_range 0 n 1)) (py_range 0 m 1) in
      (* 370: one column per cell, by rows *)
      do ji <- w2p (Nd "float64" [3; m * n] (map (fun rc => (aget (nd_data x) (fst rc) (snd rc), aget (nd_data y) (fst rc) (snd rc), aget (nd_data z) (fst rc) (snd rc))) cells));
      (* 376-378 *)
      let maps := Arr m n (fun r c => let (j, i) := nth (Z.to_nat (r * n + c)) ji (Nan, Nan) in (Num (nan_to_m1 j), Num (nan_to_m1 i))) in
      (* 381-396 *)
      do out <- mapM (fun b => do i <- interp_get interp; cv_remap (cv_image i) b maps (Arr m n (fun _ _ => nodata))) (nd_data im);
      (* 399 *)
      Ok (out, Arr m n (fun r c => forallb (fun b => nan_equals (aget b r c) nodata) out)).

Section Calls.
Variable cv_surf : string -> arr fl -> fl * fl -> option fl.
Variable cast_nan : string -> fl.
Variable cv_image : string -> arr pix -> fl * fl -> option pix.

Definition rpc_boundary_call (c : rcam) (z : harg) (num_pts : option Z) (t : option affine) (interp : iarg) : res (list (option vec)) :=
  world_boundary cv_surf cast_nan (ray_of (rpc_p2w_call c)) (rc_w c) (rc_h c) z num_pts t interp.

Definition rpc_remap_call (c : rcam) := base_remap cv_image (rpc_w2p_call c).
End Calls.

(** * The GCP camera object *)

(** A GCP argument: a [rasterio.control.GroundControlPoint], or a dictionary of its attributes. *)
Inductive gcp_arg := GcpObject (ji : R * R) (xyz : vec) | GcpDict (d : dict R).

(** [GroundControlPoint(row=None, col=None, x=None, y=None, ...)] with one positional argument: rasterio raises ValueError unless row,
    column, x and y are given. *)
Definition gcp_of (row : gcp_arg) : res gcp := Err ValueError.

(** camera.py:524-531 [GcpCamera.__init__]. *)
Record gcam := GCam { gc_w : Z; gc_h : Z; gc_gcps : list gcp }.
Definition gcp_init (w h : Z) (gcps : list gcp_arg) : res gcam :=
  do gcps <- mapM (fun g => match g with GcpDict _ => gcp_of g | GcpObject ji xyz => Ok (Gcp ji xyz) end) gcps;
  Ok (GCam w h gcps).

(** [GCPTransformer.rowcol] without rounding: the (row, column) of points, from the upper left corner of the image; and
    [GCPTransformer.xy] with heights and [offset='center']. *)
Variable gcp_rowcol : list gcp -> list vec -> list (R * R).
Variable gcp_xy : list gcp -> list ((R * R) * R) -> list (R * R).

(** camera.py:533-539 [world_to_pixel], for points that are not NaN (GDAL's results for NaNs are not modelled). *)
Definition gcp_w2p_call (c : gcam) (xyz : nd (list pt3)) : res (list pt2) :=
  do _ <- validate_world_coords xyz;
  Ok (map (fun ij => (Num (snd ij - / 2)%R, Num (fst ij - / 2)%R)) (gcp_rowcol (gc_gcps c) (map vec_of (nd_data xyz)))).

(** camera.py:541-557 [pixel_to_world_z]. *)
Definition gcp_p2w_call (c : gcam) (ji : nd (list pt2)) (z : zval) : res (list pt3) :=
  do (mask, ji, z) <- p2w_prepare ji z;
  do xy <- scatter mask (map (fun _ => (Nan, Nan)) ji) (map num2 (gcp_xy (gc_gcps c) (px_args mask ji z)));
  Ok (stack xy z).

End Rcam.
