(** Model of EXIF / XMP tag decoding (orthority/exif.py) and of the parameters derived from tags and from OpenSfM
    reconstructions (orthority/param_io.py:71-203 and 1160-1362).  Number parsing is an argument. *)
From Coq Require Import String Ascii List Reals ZArith Bool.
From Verif Require Import Py Validate_Model Params_Model Factory_Model Str Fit_Model.
Import ListNotations.
Open Scope R_scope.

(** * XMP *)

(** A parsed XML document. *)
Inductive xml := Node (tag : string) (text : option string) (attrib : list (string * string)) (children : list xml).

(** exif.py:83-99 [_xml_to_flat_dict]: names and values in the order of traversal; later ones replace earlier ones. *)
Fixpoint xml_items (x : xml) : list (string * option string) :=
  match x with
  | Node tag text attrib children =>
    (tag, text) :: map (fun kv => (fst kv, Some (snd kv))) attrib ++ flat_map xml_items children
  end.

Definition xml_to_flat_dict (x : xml) : dict (option string) := dict_of (xml_items x).

(** exif.py:35-75 [_xmp_schemas]. *)
Record xmp_schema := XmpSchema {
  lla_keys : list string; rpy_keys : list string; dewarp_key : option string;
  rpy_offsets : R * R * R; rpy_gains : R * R * R }.

Definition dji (s : string) : string := ("{http://www.dji.com/drone-dji/1.0/}" ++ s)%string.
Definition sensefly (s : string) : string := ("{http://ns.sensefly.com/Camera/1.0/}" ++ s)%string.
Definition pix4d (s : string) : string := ("{http://pix4d.com/camera/1.0/}" ++ s)%string.

Definition xmp_schemas : list xmp_schema :=
  [XmpSchema (map dji ["GpsLatitude"; "GpsLongtitude"; "AbsoluteAltitude"]%string)
             (map dji ["GimbalRollDegree"; "GimbalPitchDegree"; "GimbalYawDegree"]%string)
             (Some (dji "DewarpData")) (0, 90, 0) (1, 1, 1);
   XmpSchema [] (map sensefly ["Roll"; "Pitch"; "Yaw"]%string) None (0, 0, 0) (1, 1, 1);
   XmpSchema [] (map pix4d ["Roll"; "Pitch"; "Yaw"]%string) None (0, 0, 0) (1, 1, 1)].

Section Exif.
Variable pyfloat : string -> res R.   (* float(s) *)
Variable pyint : string -> res Z.     (* int(s) *)
Variable pyint0 : string -> res Z.    (* int(s, 0) *)

(** [float(v)] of an XMP value; an element may have no text. *)
Definition float_of (v : option string) : res R := match v with Some s => pyfloat s | None => Err TypeError end.

(** The first schema with all of 3 keys, and their values. *)
Fixpoint first_with (keys : xmp_schema -> list string) (xmp : dict (option string)) (l : list xmp_schema)
  : option (xmp_schema * list (option string)) :=
  match l with
  | [] => None
  | s :: l' =>
    if (List.length (filter (fun k => dmem k xmp) (keys s)) =? 3)%nat
    then Some (s, map (fun k => match dget k xmp with Some v => v | None => None end) (keys s))
    else first_with keys xmp l'
  end.

Definition triple_of (l : list R) : res (R * R * R) :=
  match l with [a; b; c] => Ok (a, b, c) | _ => Err IndexError end.

(** exif.py:330-337 [_get_xmp_lla]. *)
Definition get_xmp_lla (xmp : dict (option string)) : res (option (R * R * R)) :=
  match first_with lla_keys xmp xmp_schemas with
  | None => Ok None
  | Some (_, vals) => do l <- mapM float_of vals; do t <- triple_of l; Ok (Some t)
  end.

(** exif.py:339-348 [_get_xmp_rpy]. *)
Definition get_xmp_rpy (xmp : dict (option string)) : res (option (R * R * R)) :=
  match first_with rpy_keys xmp xmp_schemas with
  | None => Ok None
  | Some (s, vals) =>
    do l <- mapM float_of vals;
    do (r, p, y) <- triple_of l;
    let '(gr, gp, gy) := rpy_gains s in
    let '(o_r, o_p, o_y) := rpy_offsets s in
    Ok (Some (r * gr + o_r, p * gp + o_p, y * gy + o_y))
  end.

(** exif.py:350-357 [_get_xmp_dewarp]. *)
Fixpoint xmp_dewarp (xmp : dict (option string)) (l : list xmp_schema) : res (option (list R)) :=
  match l with
  | [] => Ok None
  | s :: l' =>
    match match dewarp_key s with Some k => dget k xmp | None => None end with
    | Some (Some (String c t)) =>
      do v <- mapM pyfloat (split_on "," (last (split_on ";" (String c t)) ""%string)); Ok (Some v)
    | _ => xmp_dewarp xmp l'
    end
  end.
Definition get_xmp_dewarp (xmp : dict (option string)) := xmp_dewarp xmp xmp_schemas.

(** * EXIF *)

(** A numeric tag: absent, one number or several. *)
Inductive tagval := TNone | TOne (r : R) | TMany (l : list R).

(** Truth of a numeric tag. *)
Definition truth (v : tagval) : bool :=
  match v with
  | TNone => false
  | TOne r => if Req_EM_T r 0 then false else true
  | TMany l => match l with [] => false | _ => true end
  end.

(** exif.py:222-230 [_get_exif_float]. *)
Definition get_exif_float (exif : dict string) (key : string) : res tagval :=
  match dget key exif with
  | None => Ok TNone
  | Some s =>
    do l <- mapM (fun v => pyfloat (strip [" "; "("]%char v))
                 (filter (fun v => negb (String.length v =? 0)%nat) (split_on ")" s));
    Ok match l with [r] => TOne r | _ => TMany l end
  end.

(** [int(r)] of a float. *)
Definition trunc (r : R) : Z := if Rle_dec 0 r then Int_part r else (- Int_part (- r))%Z.

Definition int_of (v : tagval) : res Z := match v with TOne r => Ok (trunc r) | _ => Err TypeError end.
Definition num_of (v : tagval) : res R := match v with TOne r => Ok r | _ => Err TypeError end.

(** exif.py:246-251 [_get_tag_im_size]. *)
Definition get_tag_im_size (exif : dict string) : res (option (Z * Z)) :=
  do width <- get_exif_float exif "EXIF_PixelXDimension";
  do height <- get_exif_float exif "EXIF_PixelYDimension";
  if truth width && truth height
  then do w <- int_of width; do h <- int_of height; Ok (Some (w, h))
  else Ok None.

(** exif.py:270-276: mm per resolution unit. *)
Definition mm_per_unit (code : Z) : option R :=
  if (code =? 2)%Z then Some (254 / 10)
  else if (code =? 3)%Z then Some 10
  else if (code =? 4)%Z then Some 1
  else if (code =? 5)%Z then Some (1 / 1000)
  else None.

(** exif.py:253-286 [_get_sensor_size].  A resolution of several numbers is taken as an error; division by a zero resolution,
    which gives a numpy infinity, has no meaning in the model. *)
Definition get_sensor_size (exif : dict string) (im_size : Z * Z) : res (option (R * R)) :=
  match dget "EXIF_FocalPlaneResolutionUnit" exif with
  | None => Ok None
  | Some unit =>
    if negb (dmem "EXIF_FocalPlaneXResolution" exif && dmem "EXIF_FocalPlaneYResolution" exif) then Ok None else
    do code <- pyint unit;
    match mm_per_unit code with
    | None => Ok None
    | Some mm =>
      do xres <- get_exif_float exif "EXIF_FocalPlaneXResolution";
      do yres <- get_exif_float exif "EXIF_FocalPlaneYResolution";
      do xres <- num_of xres;
      do yres <- num_of yres;
      Ok (Some (mm * IZR (fst im_size) / xres, mm * IZR (snd im_size) / yres))
    end
  end%string.

(** exif.py:314-319 [dms_to_decimal]; the reference is tested with [ref in 'NE'], i.e. as a substring. *)
Definition dms_to_decimal (dms : tagval) (ref : string) : res R :=
  let sign := if contains ref "NE" then 1 else -1 in
  match dms with
  | TMany (d :: m :: s :: _) => Ok (((s / 60 + m) / 60 + d) * sign)
  | TMany _ => Err IndexError
  | _ => Err TypeError
  end.

(** exif.py:305-328 [_get_lla].  An altitude of several numbers is taken as an error. *)
Definition get_lla (exif : dict string) : res (option (R * R * R)) :=
  match dget "EXIF_GPSLatitudeRef" exif, dget "EXIF_GPSLongitudeRef" exif,
        dget "EXIF_GPSLatitude" exif, dget "EXIF_GPSLongitude" exif with
  | Some lat_ref, Some lon_ref, Some _, Some _ =>
    do lat_dms <- get_exif_float exif "EXIF_GPSLatitude";
    do lat <- dms_to_decimal lat_dms lat_ref;
    do lon_dms <- get_exif_float exif "EXIF_GPSLongitude";
    do lon <- dms_to_decimal lon_dms lon_ref;
    do alt <- get_exif_float exif "EXIF_GPSAltitude";
    do alt <- (if truth alt then num_of alt else Ok 0);
    do alt_ref <- pyint0 match dget "EXIF_GPSAltitudeRef" exif with Some s => s | None => "0x00" end;
    let alt := if (alt_ref =? 1)%Z then alt * -1 else alt in
    Ok (Some (lat, lon, alt))
  | _, _, _, _ => Ok None
  end%string.

(** * The Exif object *)
Record exif := Exif {
  e_filename : string; e_im_size : Z * Z;
  e_make : option string; e_model : option string; e_serial : option string;
  e_tag_im_size : option (Z * Z); e_sensor_size : option (R * R);
  e_focal_len : tagval; e_focal_len_35 : tagval; e_orientation : option Z;
  e_lla : option (R * R * R); e_rpy : option (R * R * R); e_dewarp : option (list R) }.

(** exif.py:111-138 [Exif.__init__] of the image with file name [filename], size [im_size], default tags [tags], EXIF domain
    tags [exif_ns], and XMP document [xmp] if there is one. *)
Definition exif_init (filename : string) (im_size : Z * Z) (tags exif_ns : dict string) (xmp : option xml) : res exif :=
  let ex := match tags with [] => exif_ns | _ => tags end in
  let xd := match xmp with Some x => xml_to_flat_dict x | None => [] end in
  let make := option_map lower (dget "EXIF_Make" ex) in
  let model := option_map lower (dget "EXIF_Model" ex) in
  let serial := dget "EXIF_BodySerialNumber" ex in
  do tag_im_size <- get_tag_im_size ex;
  do sensor_size <- get_sensor_size ex im_size;
  do focal_35 <- get_exif_float ex "EXIF_FocalLengthIn35mmFilm";
  do focal <- get_exif_float ex "EXIF_FocalLength";
  do orientation <- match dget "EXIF_Orientation" ex with Some s => do z <- pyint s; Ok (Some z) | None => Ok None end;
  do xlla <- get_xmp_lla xd;
  do lla <- match xlla with Some t => Ok (Some t) | None => get_lla ex end;
  do rpy <- get_xmp_rpy xd;
  do dewarp <- get_xmp_dewarp xd;
  Ok (Exif filename im_size make model serial tag_im_size sensor_size focal focal_35 orientation lla rpy dewarp)%string.

End Exif.

(** * Parameters of an image *)

(** param_io.py:132-138 [_create_exif_cam_id]. *)
Definition create_exif_cam_id (e : exif) : string :=
  let props := flat_map (fun p => match p with Some (String c s) => [String c s] | _ => [] end)
                        [e_make e; e_model e; e_serial e] in
  match String.concat " " props with EmptyString => "unknown" | s => s end%string.

Definition any_nonzero (l : list R) : bool := existsb (fun r => if Req_EM_T r 0 then false else true) l.

(** param_io.py:141-187 [_read_exif_int_param].  A focal length of several numbers in the 35mm equivalent tag raises where it
    is used. *)
Definition read_exif_int_param (e : exif) : res (string * int_param) :=
  let '(w, h) := e_im_size e in
  let pinhole_param :=
    match e_sensor_size e, truth (e_focal_len e) with
    | Some (sw, sh), true =>
      Ok (IntParam Pinhole w h match e_focal_len e with TNone => [] | TOne r => [r] | TMany l => l end (Some [sw; sh]) None None [])
    | sensor, _ =>
      if truth (e_focal_len_35 e)
      then do f35 <- num_of (e_focal_len_35 e);
           match sensor with
           | Some (sw, sh) => Ok (IntParam Pinhole w h [Rmax sw sh * f35 / 36] (Some [sw; sh]) None None [])
           | None => Ok (IntParam Pinhole w h [f35 / 36] None None None [])
           end
      else Err ParamError
    end in
  let param :=
    match e_dewarp e, e_tag_im_size e with
    | Some [fx; fy; cx; cy; k1; k2; p1; p2; k3], Some (tw, th) =>
      if any_nonzero [fx; fy; cx; cy; k1; k2; p1; p2; k3]
      then let m := IZR (Z.max tw th) in
           Ok (IntParam Brown w h [fx; fy] (Some [IZR tw; IZR th]) (Some (cx / m)) (Some (cy / m))
                 [("k1", k1); ("k2", k2); ("p1", p1); ("p2", p2); ("k3", k3)]%string)
      else pinhole_param
    | _, _ => pinhole_param
    end in
  do p <- param; Ok (create_exif_cam_id e, p).

Section Ext.
Variable X : Type.
(** Conversion of a position (latitude, longitude, altitude) and angles in degrees to a world position and (omega, phi,
    kappa): param_io.py:197-200. *)
Variable to_world : R * R * R -> R * R * R -> res X.

(** param_io.py:190-203 [_read_exif_ext_param]: file name, position and angles, and camera ID. *)
Definition read_exif_ext_param (e : exif) : res (string * (X * string)) :=
  match e_lla e, e_rpy e with
  | Some lla, Some rpy => do x <- to_world lla rpy; Ok (e_filename e, (x, create_exif_cam_id e))
  | _, _ => Err ParamError
  end.

(** param_io.py:1354-1362 [ExifReader.read_ext_param]. *)
Definition exif_read_ext (exifs : dict exif) : res (dict (X * string)) :=
  do items <- mapM (fun kv => read_exif_ext_param (snd kv)) exifs; Ok (dict_of items).

End Ext.

(** param_io.py:1346-1352 [ExifReader.read_int_param]. *)
Definition exif_read_int (exifs : dict exif) : res (dict int_param) :=
  do items <- mapM (fun kv => read_exif_int_param (snd kv)) exifs; Ok (dict_of items).

(** * OpenSfM reconstructions *)

(** [cam_id[3:] if cam_id.startswith('v2 ') else cam_id]. *)
Definition strip_v2 (id : string) : string := if startswith "v2 " id then drop 3 id else id.

(** enums.py:70-79 [CameraType.from_odm]. *)
Definition from_odm (s : string) : option camtype :=
  let s := strip white (lower s) in
  let s := if existsb (String.eqb s) ["perspective"; "simple_radial"; "radial"]%string then "brown"%string else s in
  match cam_of s with
  | Some Crpc => None
  | o => o
  end.

(** [==] of loaded values that are numbers or strings (others are never focal lengths). *)
Definition val_eqb (a b : pyval) : bool :=
  match a, b with
  | PInt _, PFloat _ | PFloat _, PInt _ | PInt _, PInt _ | PFloat _, PFloat _
  | PBool _, PInt _ | PInt _, PBool _ | PBool _, PBool _ | PBool _, PFloat _ | PFloat _, PBool _ =>
    match b with PInt z => num_eq a (QArith_base.inject_Z z) | PFloat q => num_eq a q
               | PBool c => num_eq a (if c then QArith_base.inject_Z 1 else QArith_base.inject_Z 0) | _ => false end
  | PStr s, PStr t => String.eqb s t
  | PNone, PNone => true
  | _, _ => false
  end.

(** param_io.py:76-113 [parse_json_param]. *)
Definition parse_json_param (y : list (pykey * pyval)) : res (dict mval) :=
  do _ <- iterM (fun k => if kmem k y then Ok tt else Err ParamError) ["projection_type"; "width"; "height"]%string;
  do proj <- match kget (KStr "projection_type") y with Some (PStr s) => Ok (lower s) | _ => Err AttributeError end;
  do cam_type <- match from_odm proj with Some c => Ok c | None => Err ParamError end;
  let y := kdel "projection_type" y in
  do w <- match kget (KStr "width") y with Some v => Ok v | None => Err KeyError end;
  do h <- match kget (KStr "height") y with Some v => Ok v | None => Err KeyError end;
  let y := kdel "height" (kdel "width" y) in
  do (focal, y) <-
    match kget (KStr "focal") y with
    | Some v => Ok (MV v, kdel "focal" y)
    | None => match kget (KStr "focal_x") y, kget (KStr "focal_y") y with
              | Some fx, Some fy => Ok (if val_eqb fx fy then MV fx else MTup [fx; fy], kdel "focal_y" (kdel "focal_x" y))
              | _, _ => Err ParamError
              end
    end;
  let c (from to : string) := match kget (KStr from) y with Some v => [(to, MV v)] | None => [] end in
  let head := (([("cam_type", MCam cam_type); ("im_size", MTup [w; h]); ("focal_len", focal)]%string ++
                c "c_x" "cx" ++ c "c_y" "cy")%list) in
  let y := kdel "c_y" (kdel "c_x" y) in
  if bad_keys y (opt_frame_schema cam_type) then Err ParamError else Ok (dupdate head (str_items y)).

(** param_io.py:71-129 [_read_osfm_int_param]. *)
Definition read_osfm_int_param (doc : pyval) : res (dict (dict mval)) :=
  do _ <- (if is_ok (validate_collection (SMap Tstr (SType Tdict)) doc) then Ok tt else Err ParamError);
  match doc with
  | PDict d =>
    do items <- mapM (fun kv => match kv with
                                | (KStr id, PDict y) => do p <- parse_json_param y; Ok (strip_v2 id, p)
                                | _ => Err ParamError
                                end) d;
    Ok (dict_of items)
  | _ => Err ParamError
  end.

(** param_io.py:1210-1218: the schema of a reconstruction. *)
Definition osfm_schema : schema :=
  SList [SDict [(KStr "cameras", SType Tdict);
                (KStr "shots", SMap Tstr (SDict [(KStr "rotation", SList [SType Tfloat; SType Tfloat; SType Tfloat]);
                                                 (KStr "translation", SList [SType Tfloat; SType Tfloat; SType Tfloat]);
                                                 (KStr "camera", SType Tstr)]));
                (KStr "reference_lla", SDict [(KStr "latitude", SType Tfloat); (KStr "longitude", SType Tfloat);
                                              (KStr "altitude", SType Tfloat)])]]%string.

Section Osfm.
Variable X : Type.
(** [_cv_ext_to_oty_ext] of a translation and rotation with the reference position: param_io.py:1250-1253. *)
Variable cv_ext : pyval -> pyval -> X.

Definition field (k : string) (v : pyval) : res pyval :=
  match v with
  | PDict d => match kget (KStr k) d with Some x => Ok x | None => Err KeyError end
  | _ => Err TypeError
  end.

(** param_io.py:1247-1257: the exterior parameters of a shot. *)
Definition shot_ext (kv : pykey * pyval) : res (string * (X * string)) :=
  do t <- field "translation" (snd kv);
  do r <- field "rotation" (snd kv);
  do c <- field "camera" (snd kv);
  match fst kv, c with
  | KStr name, PStr id => Ok (name, (cv_ext t r, strip_v2 id))
  | _, _ => Err TypeError
  end.

(** param_io.py:1184-1263 [OsfmReader]: interior and exterior parameters of a reconstruction. *)
Definition osfm_reader (doc : pyval) : res (dict (dict mval) * dict (X * string)) :=
  do _ <- (if is_ok (validate_collection osfm_schema doc) then Ok tt else Err ParamError);
  match doc with
  | PList (first :: _) =>
    do cams <- field "cameras" first;
    do shots <- field "shots" first;
    do ints <- read_osfm_int_param cams;
    match shots with
    | PDict shots => do exts <- mapM shot_ext shots; Ok (ints, dict_of exts)
    | _ => Err TypeError
    end
  | _ => Err ParamError
  end.
End Osfm.

(** factory.py:178-197: the exterior parameters of a reader, as the camera factory keeps them. *)
Definition factory_ext {X} (d : dict (X * string)) : dict (ext X) :=
  map (fun kv => (fst kv, Ext (fst (snd kv)) (Some (snd (snd kv))))) d.
