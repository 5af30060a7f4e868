(** Model of [Ortho(src, dem, camera, crs, dem_band)] and [process] (orthority/ortho.py) with a camera object of orthority/camera.py, from its
    calls: DEM reading, resolution, reprojection, image boundary, reading and remapping. *)
From Coq Require Import List String ZArith Reals Bool.
From Verif Require Import Py Flt Mat Grid_Model Profile_Model Remap_Model Dem_Model Frame_Model Undist_Model Bound_Model Rpc_Model Cam_Model Rcam_Model Make_Model Ortho_Model.
Import ListNotations.
Open Scope string_scope.
Open Scope list_scope.
Open Scope Z_scope.

(** enums.py:82-109: the value of a member of [Interp], which is its name. *)
Definition interp_str (i : interp) : string :=
  match i with Nearest => "nearest" | Average => "average" | Bilinear => "bilinear" | Cubic => "cubic" | Lanczos => "lanczos" end.

(** Cells of an array that are not masked, by rows: (row, column, value). *)
Definition cells (a : arr fl) : list (Z * Z * R) :=
  flat_map (fun r => flat_map (fun c => match aget a r c with Num v => [(r, c, v)] | Nan => [] end) (py_range 0 (aw a) 1))
    (py_range 0 (ah a) 1).

(** [argmin] and [argmax] of a masked array: the first cell with the smallest (largest) value. *)
Definition arg_best (better : R -> R -> bool) (l : list (Z * Z * R)) : option (Z * Z * R) :=
  fold_left (fun best x => match best with
                           | None => Some x
                           | Some b => if better (snd x) (snd b) then Some x else Some b
                           end) l None.
Definition Rltb (x y : R) : bool := if Rlt_dec x y then true else false.
Definition argmin (a : arr fl) : option (Z * Z * R) := arg_best (fun x y => Rltb x y) (cells a).
Definition argmax (a : arr fl) : option (Z * Z * R) := arg_best (fun x y => Rltb y x) (cells a).

(** [np.median] of numbers. *)
Fixpoint insert (x : R) (l : list R) : list R :=
  match l with [] => [x] | y :: l' => if Rle_dec x y then x :: l else y :: insert x l' end.
Definition sorted (l : list R) : list R := fold_right insert [] l.
Definition median (l : list R) : R :=
  let s := sorted l in
  let n := List.length l in
  ((nth (Nat.div (n - 1) 2) s 0 + nth (Nat.div n 2) s 0) / 2)%R.

Section Whole.
Variable cv_surf : string -> arr fl -> fl * fl -> option fl.
Variable cast_nan : string -> fl.
Variable cv_image : string -> arr pix -> fl * fl -> option pix.
Variable convert : string -> string -> pix -> pix.
Variable C : Type.
Variable crs_eqb : C -> C -> bool.
Variable from_string : string -> res C.
(** EPSG:4979, which is also the CRS of RPC models (camera.py:429, ortho.py:145). *)
Variable rpc_crs : C.
Variable O : Type.
Variable warp : C -> C -> list vec -> list vec.
Variable rpc_xy : rpc -> O -> list ((R * R) * R) -> list (R * R).
(** [rasterio.warp.transform_bounds]. *)
Variable transform_bounds : C -> C -> bounds -> bounds.
Variable bounds_in : Z * Z -> affine -> C -> C -> R * R * R * R.
Variable reproject : interp -> C -> C -> R * R -> arr fl -> affine -> arr fl * affine.
Variable to_pixels : affine -> list (R * R) -> list (Z * Z).
Variable fill_poly : Z * Z -> list (Z * Z) -> arr bool.

(** * The calls that ortho.py makes on a camera *)
Record view := View {
  v_w : Z; v_h : Z;                                       (* im_size *)
  v_pixel : fl * fl * fl -> fl * fl;                      (* world_to_pixel *)
  v_distort : bool; v_pinhole : bool;
  v_position : R * R -> R -> option vec;                  (* pixel_to_world_z *)
  v_pixels : res (list (R * R));                          (* pixel_boundary() *)
  v_boundary : harg -> option Z -> option affine -> iarg -> res (list (option vec));   (* world_boundary *)
  v_read : res imfile -> indexes -> string -> pix -> string -> res (nd (list (arr pix)))
}.

(** A frame camera: an error when it is not initialised (camera.py:717-720).  The undistortion maps that [read] leaves in the camera do not change what later calls
    do (C34), and are not kept here. *)
Definition frame_view (c : fcam) : res view :=
  do f <- test_init c;
  Ok (View (fc_w c) (fc_h c) (world_to_pixel f) (fr_distort f) (fc_pinhole c) (pixel_to_world_z f) (pixel_boundary_call c None)
        (fun z n t i => world_boundary_call cv_surf cast_nan c z n t i true)
        (fun im ix dt nodata i => snd (read_call cv_image convert c im ix (Some dt) (Some nodata) i))).

(** An RPC camera: one column of its arrays (C93 has that columns do not affect each other).  It has no undistortion, and remaps as a frame camera that keeps
    distortion does (camera.py:319-399). *)
Definition rpc_view (c : rcam C O) : view :=
  View (rc_w _ _ c) (rc_h _ _ c)
    (fun p => match rpc_w2p_call C rpc_crs O warp c (Nd "float64" [3; 1] [p]) with Ok [q] => q | _ => (Nan, Nan) end) true false
    (fun ji z => match rpc_p2w_call C rpc_crs O warp rpc_xy c (Nd "float64" [2; 1] [num2 ji]) (VScalar (Num z)) with
                 | Ok [(Num x, Num y, Num z)] => Some (V3 x y z)
                 | _ => None
                 end)
    (pixel_boundary (rc_w _ _ c) (rc_h _ _ c) None)
    (fun z n t i => rpc_boundary_call C rpc_crs O warp rpc_xy cv_surf cast_nan c z n t i)
    (fun im ix dt _ _ => read_image convert im ix (Some dt)).

Definition view_of (m : made C O) : res view :=
  match m with MadeFrame c => frame_view c | MadeRpc c => Ok (rpc_view c) end.

(** * Construction *)

(** A DEM file: number of bands, CRS, transform (north up), and bands with nodata as NaN. *)
Record demfile := DemFile { df_count : Z; df_crs : C; df_t : affine; df_band : Z -> arr fl }.

(** The height of a point in another CRS. *)
Definition height_in (a b : C) (p : vec) : R := match warp a b [p] with q :: _ => vz q | [] => 0 end.

(** ortho.py:142-153.  Python divides floats here.  A centre that is not finite ends as an error of rasterio. *)
Definition z_scale (v : view) (crs : C) : res R :=
  match v_position v (IZR (v_w v) / 2, IZR (v_h v) / 2)%R 0 with
  | None => Err ExternalError
  | Some p =>
    let z h := height_in crs rpc_crs (V3 (vx p) (vy p) h) in
    if Req_EM_T (z 1%R - z 0%R) 0 then Err ZeroDivisionError else Ok (1 / (z 1 - z 0))%R
  end.

(** ortho.py:156-173 [get_win_at_zs]. *)
Definition win_at_zs (v : view) (crs : C) (dem : demfile) (dem_h dem_w : Z) (zs : list R) : res window :=
  do pts <- mapM (fun z => v_boundary v (HScalar z) None None (IEnum "cubic")) zs;
  match all_some (List.concat pts) with
  | None => Err WindowError
  | Some xyz =>
    let b := bounds_of xyz in
    win_of_bounds dem_h dem_w (df_t dem) (if crs_eqb crs (df_crs dem) then b else transform_bounds crs (df_crs dem) b)
  end.

(** ortho.py:183-189: the height in the world CRS of a DEM cell, at its upper left corner. *)
Definition cell_height (crs : C) (dem : demfile) (win : window) (cell : Z * Z * R) : R :=
  let '(r, c, z) := cell in
  let (x, y) := aff_apply (win_transform win (df_t dem)) (IZR c) (IZR r) in height_in (df_crs dem) crs (V3 x y z).

(** ortho.py:127-205 [_get_init_dem].  If all that is read first is masked, an error results from the masked heights. *)
Definition init_dem (v : view) (crs : C) (dem : demfile) (dem_band : Z) : res (arr fl * affine * C) :=
  let d := df_band dem dem_band in
  do scale <- z_scale v crs;
  do win1 <- win_at_zs v crs dem (ah d) (aw d) (init_zs scale);
  let a1 := aslice d (row_off win1) (row_off win1 + height win1) (col_off win1) (col_off win1 + width win1) in
  match argmin a1, argmax a1 with
  | Some lo, Some hi =>
    do win2 <- win_at_zs v crs dem (ah d) (aw d) [cell_height crs dem win1 lo; cell_height crs dem win1 hi];
    do win2 <- win_intersection win2 win1;
    let i0 := row_off win2 - row_off win1 in
    let j0 := col_off win2 - col_off win1 in
    Ok (aslice a1 i0 (i0 + height win2) j0 (j0 + width win2), win_transform win2 (df_t dem), df_crs dem)
  | _, _ => Err ExternalError
  end.

(** ortho.py:207-232 [_get_gsd].  A NaN resolution (when all that was kept of the DEM is masked, or part of the boundary is not finite) is taken as an error here; such an
    object has no ortho, as [process] then has an error for the DEM. *)
Definition gsd (v : view) (crs : C) (dem : arr fl) (t : affine) (dem_crs : C) : res R :=
  do ji <- v_pixels v;
  match numbers_of dem with
  | [] => Err ExternalError
  | l =>
    let (x, y) := aff_apply t ((IZR (aw dem) - 1) / 2) ((IZR (ah dem) - 1) / 2) in
    let z := height_in dem_crs crs (V3 x y (median l)) in
    do xyz <- v_boundary v (HScalar z) None None (IEnum "cubic");
    match all_some xyz with
    | None => Err ExternalError
    | Some pts => Ok (gsd_of ji (map (fun p => (vx p, vy p)) pts))
    end
  end.

(** A source image file: contents, CRS and colour interpretation. *)
Record srcfile := SrcFile { sf_im : imfile; sf_crs : option C; sf_colors : list string }.

(** ortho.py:85-105 [Ortho.__init__] with a camera; the DEM band is checked before the camera is used (line 135). *)
Definition new_ortho (m : made C O) (src : res srcfile) (dem : res demfile) (crs : crs_param C) (dem_band : Z) : res (ortho C) :=
  do crs <- parse_crs C from_string crs (do s <- src; Ok (sf_crs s));
  do dem <- dem;
  if (dem_band <=? 0) || (df_count dem <? dem_band) then Err OrthorityError else
  do v <- view_of m;
  do (a, t, dem_crs) <- init_dem v crs dem dem_band;
  do g <- gsd v crs a t dem_crs;
  Ok (Ort crs a t dem_crs g).

(** * process *)

Definition sample (i : interp) (b : arr pix) (j r : R) : option pix := cv_image (interp_str i) b (Num j, Num r).

(** ortho.py:305-310: the boundary on the surface, with 400 points. *)
Definition boundary_on (v : view) (dem : arr fl) (t : affine) (i : interp) : res (list (option vec)) :=
  v_boundary v (HArray 2 "float32" dem) (Some 400) (Some t) (IEnum (interp_str i)).

(** The camera of Ortho_Model: bands are read one by one here (their values do not depend on which are read together). *)
Definition empty_band : arr pix := Arr 0 0 (fun _ _ => PNan).
Definition view_camera (v : view) (im : imfile) : camera :=
  Cam (v_pixel v) (v_distort v) (v_pinhole v)
    (fun i dt nodata b => match v_read v (Ok im) (Bands [b]) dt nodata (interp_str i) with Ok a => hd empty_band (nd_data a) | Err _ => empty_band end)
    (fun dem t i => match boundary_on v dem t i with
                    | Ok l => flat_map (fun p => match p with Some p => [(vx p, vy p)] | None => [] end) l
                    | Err _ => []
                    end).

(** What else happens in a call: block shapes of new files, tile tasks that fail for other reasons (writing), the schedule, and what is in a new file. *)
Record run := Run { u_block : dict pval -> Z * Z; u_fail : list Z -> window -> bool; u_order : list Z -> list window; u_empty : raster }.

(** Tile tasks that fail for the image: what [remap] checks of its image (camera.py:87-101), and OpenCV of the sizes.  A failure to read bands
    is also taken as one of their tasks (it is raised as it is, before these start). *)
Definition tile_fails (v : view) (im : imfile) (dt : string) (i : interp) (nodata : pix) (g : list Z) (win : window) : bool :=
  match v_read v (Ok im) (Bands g) dt nodata (interp_str i) with
  | Err _ => true
  | Ok a =>
    match validate_image a with
    | Err _ => true
    | Ok _ => existsb (fun b => negb (cv_sizes (ah b) (aw b) (height win) (width win))) (nd_data a)
    end
  end.

(** The source image, as [process] uses it; [im.dtypes[0]] of an image without bands is an IndexError. *)
Definition source_of (s : srcfile) : res source :=
  match if_bands (sf_im s) with
  | [] => Err IndexError
  | (d, _) :: l => Ok (Src (Z.of_nat (S (List.length l))) d (sf_colors s))
  end.

Definition world_of (v : view) (s : srcfile) (src : source) (a : args) (u : run) : world :=
  let dt := match a_dtype a with Some d => d | None => s_dtype src end in
  let fail := match interp_of (a_interp a), lookup (KStr dt) Remap_Model.nodata_vals with
              | Ok i, Ok nodata => tile_fails v (sf_im s) dt i nodata
              | _, _ => fun _ _ => false
              end in
  World src (u_block u) (fun g win => u_fail u g win || fail g win) (u_order u) (u_empty u).

(** ortho.py:556-628 [process], without the warning about the image size.  An error of the image boundary comes after the reprojection of the DEM. *)
Definition process_with (m : made C O) (o : ortho C) (src : res srcfile) (a : args) (u : run) : outcome C :=
  do v <- view_of m;
  do s <- src;
  do srcs <- source_of s;
  do di <- interp_of (a_dem_interp a);
  do (dem, t) <- reproject_dem C crs_eqb bounds_in reproject o di (resolution_of C o a);
  do _ <- boundary_on v dem t di;
  process C crs_eqb bounds_in reproject sample to_pixels fill_poly o (view_camera v (sf_im s)) a (world_of v s srcs a u).

End Whole.
