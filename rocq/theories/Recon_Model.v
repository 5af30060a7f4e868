(** Model of a frame camera factory of an OpenSfM reconstruction: [FrameCameras] (orthority/factory.py) with [OsfmReader]
    (orthority/param_io.py), from the JSON document to camera objects. *)
From Coq Require Import String List Reals ZArith Bool.
From Verif Require Import Py Flt Mat Rot_Model Remap_Model Frame_Model Undist_Model Validate_Model Params_Model Cam_Model Rcam_Model Make_Model Exif_Model Csv_Model Factory_Model Photo_Model.
Import ListNotations.
Open Scope string_scope.
Open Scope list_scope.
Open Scope R_scope.

(** Values that the schema has checked to be floats; NaN, which json.load accepts, is not modelled. *)
Definition float_of (v : pyval) : R := match py_num v with Ok x => x | Err _ => 0 end.
Definition vec_of (v : pyval) : vec := match v with PList [a; b; c] => V3 (float_of a) (float_of b) (float_of c) | _ => V3 0 0 0 end.

Section Recon.
Variable C : Type.
Variables is_projected is_geographic : C -> bool.
Variable epsg : Z -> C.                       (* [CRS.from_epsg] of a UTM zone *)
Variable transform : C -> C -> vec -> vec.    (* rasterio's [transform], from one CRS to the other; it does not fail for CRSs *)
Variable rodrigues : vec -> mat.              (* [cv2.Rodrigues(r)[0]] *)

(** param_io.py:1229-1230, 1239-1240: the reference position (latitude, longitude, altitude). *)
Definition reference_lla (doc : pyval) : res (R * R * R) :=
  match doc with
  | PList (first :: _) =>
    do ref <- field "reference_lla" first;
    do lat <- field "latitude" ref; do lon <- field "longitude" ref; do alt <- field "altitude" ref;
    Ok (float_of lat, float_of lon, float_of alt)
  | _ => Err ParamError
  end.

(** param_io.py:1195-1196, 1204-1206, 1237-1263: [OsfmReader] with its CRSs, and its [read_ext_param], of a document: interior and exterior
    parameters and the world CRS.  [transform] raises without a geographic CRS. *)
Definition read_recon (crs lla_crs : crs_arg C) (doc : pyval) : res (dict (dict mval) * dict ((vec * (R * R * R)) * string) * C) :=
  do crs <- parse_crs C is_projected crs;
  do lla_crs <- parse_crs C is_geographic lla_crs;
  do (ints, shots) <- osfm_reader (pyval * pyval) pair doc;
  do (lat, lon, alt) <- reference_lla doc;
  let world := match crs with Some c => c | None => epsg (utm_code lat lon) end in
  match lla_crs with
  | None => Err ExternalError
  | Some l =>
    let ref_xyz := transform l world (V3 lon lat alt) in
    let pose (tr : pyval * pyval) := cv_ext_to_oty_ext (vec_of (fst tr)) (rodrigues (vec_of (snd tr))) (Some ref_xyz) in
    Ok (ints, map (fun kv : string * (pyval * pyval * string) => let '(n, (tr, id)) := kv in (n, (pose tr, id))) shots, world)
  end.

Variable cv_project cv_undistort fish_undistort : intr -> list R -> R * R -> R * R.
Variable kwargs : dict mval.                  (* camera options of the factory *)

(** factory.py:229 [create_camera( **int_param, **self._cam_kwargs)]; parameters of a reconstruction never have the type of an RPC camera. *)
Definition recon_camera (p : dict mval) : res fcam :=
  do kw <- merge_kwargs p kwargs;
  do t <- match dget "cam_type" kw with Some v => camera_type v | None => Err TypeError end;
  let kw := filter (fun kv => negb (String.eqb (fst kv) "cam_type")) kw in
  make_frame cv_project cv_undistort fish_undistort t kw.

Notation factory := (fstate (dict mval) (vec * (R * R * R)) fcam).

(** factory.py:98-109, 158-203: [FrameCameras.__init__] of one reconstruction file for interior and exterior parameters: the factory and its
    world CRS. *)
Definition recon_factory (crs lla_crs : crs_arg C) (doc : pyval) : res (factory * C) :=
  do (ints, exts, world) <- read_recon crs lla_crs doc;
  Ok (Factory_Model.frame_init ints (factory_ext exts), world).
End Recon.

(** factory.py:232: the object, last updated with the pose of an image. *)
Section Object.
Variable cv_surf : string -> arr fl -> fl * fl -> option fl.
Variable cast_nan : string -> fl.
Variable cv_image : string -> arr pix -> fl * fl -> option pix.
Variable convert : string -> string -> pix -> pix.
Definition recon_object (o : Factory_Model.camera (vec * (R * R * R)) fcam) : fcam :=
  match c_ext o with
  | None => c_int o
  | Some (t, (omega, phi, kappa)) =>
    fst (do_call cv_surf cast_nan cv_image convert (c_int o) (UpdateC (Some [vx t; vy t; vz t]) (Some [omega; phi; kappa])))
  end.
End Object.
