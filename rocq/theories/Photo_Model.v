(** Model of reading cameras from tagged images: [ExifReader] (orthority/param_io.py:1266-1362) and [FrameCameras.from_images]
    (orthority/factory.py:111-140), from files to camera objects. *)
From Coq Require Import String List Reals ZArith Bool.
From Verif Require Import Py Flt Mat Rot_Model Frame_Model Undist_Model Remap_Model Cam_Model Make_Model Fit_Model Exif_Model Read_Model Csv_Model Factory_Model.
From Verif Require Rpc_Model Bound_Model.
Import ListNotations.
Open Scope string_scope.
Open Scope list_scope.
Open Scope R_scope.

(** common.py:156-161 [utm_crs_from_latlon]: the EPSG code. *)
Definition utm_code (lat lon : R) : Z :=
  let zone := (Bound_Model.Rfloor ((lon + 180) / 6) mod 60 + 1)%Z in
  if Rle_dec 0 lat then (32600 + zone)%Z else (32700 + zone)%Z.

(** np.radians *)
Definition radians (d : R) : R := d * PI / 180.

Section Photo.
Variable C : Type.
Variables is_projected is_geographic : C -> bool.
Variable epsg : Z -> C.                       (* [CRS.from_epsg] of a UTM zone *)
Variable F : Type.                            (* files *)
Variable filename : F -> string.              (* common.py:223-236 [get_filename] *)
Variable open_exif : F -> res exif.           (* [Exif(file)] *)
Variable transform : C -> C -> vec -> vec.    (* rasterio's [transform], from one CRS to the other; it does not fail for CRSs *)

(** param_io.py:1334-1345 [_find_utm_crs]. *)
Definition find_utm_crs (exifs : dict exif) : res C :=
  do llas <- mapM (fun kv : string * exif => match e_lla (snd kv) with Some lla => Ok lla | None => Err ParamError end) exifs;
  Ok (epsg (utm_code (Rpc_Model.mean (map (fun lla : R * R * R => fst (fst lla)) llas))
                     (Rpc_Model.mean (map (fun lla : R * R * R => snd (fst lla)) llas)))).

Record xreader := XReader { xr_exifs : dict exif; xr_crs : option C; xr_lla_crs : option C }.

(** param_io.py:1287-1301 [ExifReader.__init__] of a list of files, for a schedule of its threads; no result while the
    threads have not ended.  (A single file object is put in a list first, line 1296: not modelled.) *)
Definition exif_reader (files : list F) (crs lla_crs : crs_arg C) (evs : list event) : option (res xreader) :=
  match parse_crs C is_projected crs with
  | Err e => Some (Err e)
  | Ok crs =>
    match parse_crs C is_geographic lla_crs with
    | Err e => Some (Err e)
    | Ok lla_crs =>
      match read_exif filename open_exif files evs with
      | None => None
      | Some (Err e) => Some (Err e)
      | Some (Ok exifs) =>
        match crs, exifs with
        | Some c, _ => Some (Ok (XReader exifs (Some c) lla_crs))
        | None, [] => Some (Ok (XReader exifs None lla_crs))
        | None, _ => Some (do c <- find_utm_crs exifs; Ok (XReader exifs (Some c) lla_crs))
        end
      end
    end
  end.

(** param_io.py:197-200: position and angles of an image in the world CRS; [transform] raises without a CRS. *)
Definition to_world (r : xreader) (lla rpy : R * R * R) : res (vec * (R * R * R)) :=
  match xr_lla_crs r, xr_crs r with
  | Some l, Some c =>
    let '(lat, lon, alt) := lla in
    let '(roll, pitch, yaw) := rpy in
    let tw lat lon alt := transform l c (V3 lon lat alt) in
    Ok (tw lat lon alt, rpy_to_opk (radians roll) (radians pitch) (radians yaw) lat lon alt tw None)
  | _, _ => Err ExternalError
  end.

Variable cv_project : intr -> list R -> R * R -> R * R.
Variable cv_undistort : intr -> list R -> R * R -> R * R.
Variables (distort : bool) (alpha : R).       (* camera options of the factory *)

(** camera.py:1491-1511 [create_camera] of the interior parameters of an image: the constructors of [Make_Model.make_frame],
    with numbers.  Tags give pinhole and Brown cameras only. *)
Definition photo_camera (p : int_param) : res fcam :=
  let size := [ip_w p; ip_h p] in
  let c k := or0 (dget k (ip_dist p)) in
  match ip_type p with
  | Pinhole => Cam_Model.frame_init true pinhole size (ip_focal p) (ip_sensor p) (or0 (ip_cx p)) (or0 (ip_cy p)) None None distort alpha
  | Brown =>
    do k <- get_intrinsic (ip_w p) (ip_h p) (ip_focal p) (ip_sensor p) (or0 (ip_cx p)) (or0 (ip_cy p));
    do cam <- Cam_Model.frame_init false (opencv_lens cv_project cv_undistort (opencv_dist_param (c "k1") (c "k2") (c "k3") (c "p1") (c "p2") 0 0 0 0 0 0 0 0 0))
                size (ip_focal p) (ip_sensor p) (or0 (ip_cx p)) (or0 (ip_cy p)) None None distort alpha;
    Ok (with_lens (brown_lens cv_undistort (c "k1") (c "k2") (c "p1") (c "p2") (c "k3") k) cam)
  | _ => Err ExternalError
  end.

Notation factory := (fstate int_param (vec * (R * R * R)) fcam).

(** factory.py:111-140 [FrameCameras.from_images]: the factory and its world CRS. *)
Definition from_images (files : list F) (crs lla_crs : crs_arg C) (evs : list event) : option (res (factory * option C)) :=
  match exif_reader files crs lla_crs evs with
  | None => None
  | Some (Err e) => Some (Err e)
  | Some (Ok r) =>
    Some (do ints <- exif_read_int (xr_exifs r);
          do exts <- exif_read_ext _ (to_world r) (xr_exifs r);
          Ok (Factory_Model.frame_init ints (factory_ext exts), xr_crs r))
  end.

(** The object of a camera: made without a pose, and last updated with that of an image (factory.py:227-232). *)
Definition photo_object (o : Factory_Model.camera (vec * (R * R * R)) fcam) : fcam :=
  match c_ext o with
  | None => c_int o
  | Some (t, opk) => set_state (c_int o) (Undist_Model.update _ (extrinsic_rotation opk, t) (fc_st (c_int o)))
  end.
End Photo.
Arguments XReader {C}.
Arguments xr_exifs {C}.
Arguments xr_crs {C}.
Arguments xr_lla_crs {C}.
