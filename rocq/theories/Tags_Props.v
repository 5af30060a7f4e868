(** Property theorems: C76 what image tags mean and C77 what the cameras and shots of a reconstruction mean. *)
From Coq Require Import String Ascii List Reals ZArith Bool QArith_base.
From Verif Require Import Py Validate_Model Params_Model Params_Spec Str Exif_Model Exif_Spec Exif_Proof Exif_Props Tags_Spec Tags_Proof.
Import ListNotations.
Open Scope list_scope.
Open Scope string_scope.

(** C76: the sensor size is the image size, in pixels, over the focal plane resolution, in pixels per unit, in mm. *)
Theorem C76_sensor : forall pyfloat pyint pyint0 filename im_size tags exif_ns xmp e ex u code mm a b x y,
  exif_init pyfloat pyint pyint0 filename im_size tags exif_ns xmp = Ok e -> exif_tags tags exif_ns ex ->
  dget "EXIF_FocalPlaneResolutionUnit" ex = Some u -> pyint u = Ok code -> unit_mm code mm ->
  plain a -> plain b -> dget "EXIF_FocalPlaneXResolution" ex = Some (one a) -> dget "EXIF_FocalPlaneYResolution" ex = Some (one b) ->
  pyfloat a = Ok x -> pyfloat b = Ok y ->
  e_sensor_size e = Some (mm * IZR (fst im_size) / x, mm * IZR (snd im_size) / y)%R.
Proof. exact sensor_size. Qed.
Print Assumptions C76_sensor.

(** C76: and it is unknown without one of the tags, or with a unit that is not a length. *)
Theorem C76_no_sensor : forall pyfloat pyint pyint0 filename im_size tags exif_ns xmp e ex,
  exif_init pyfloat pyint pyint0 filename im_size tags exif_ns xmp = Ok e -> exif_tags tags exif_ns ex ->
  (exists k, In k ["EXIF_FocalPlaneResolutionUnit"; "EXIF_FocalPlaneXResolution"; "EXIF_FocalPlaneYResolution"] /\ dget k ex = None) \/
  (exists u code, dget "EXIF_FocalPlaneResolutionUnit" ex = Some u /\ pyint u = Ok code /\ forall mm, ~ unit_mm code mm) ->
  e_sensor_size e = None.
Proof. exact no_sensor_size. Qed.
Print Assumptions C76_no_sensor.

(** C76: the other EXIF values of an image are those of its tags. *)
Theorem C76_values : forall pyfloat pyint pyint0 filename im_size tags exif_ns xmp e ex,
  exif_init pyfloat pyint pyint0 filename im_size tags exif_ns xmp = Ok e -> exif_tags tags exif_ns ex ->
  e_filename e = filename /\ e_im_size e = im_size /\
  e_make e = option_map lower (dget "EXIF_Make" ex) /\ e_model e = option_map lower (dget "EXIF_Model" ex) /\ e_serial e = dget "EXIF_BodySerialNumber" ex /\
  (dget "EXIF_FocalLength" ex = None -> e_focal_len e = TNone) /\
  (forall a x, plain a -> pyfloat a = Ok x -> dget "EXIF_FocalLength" ex = Some (one a) -> e_focal_len e = TOne x) /\
  (dget "EXIF_FocalLengthIn35mmFilm" ex = None -> e_focal_len_35 e = TNone) /\
  (forall a x, plain a -> pyfloat a = Ok x -> dget "EXIF_FocalLengthIn35mmFilm" ex = Some (one a) -> e_focal_len_35 e = TOne x) /\
  (forall a b w h, plain a -> plain b -> pyfloat a = Ok (IZR w) -> pyfloat b = Ok (IZR h) -> (0 < w)%Z -> (0 < h)%Z ->
     dget "EXIF_PixelXDimension" ex = Some (one a) -> dget "EXIF_PixelYDimension" ex = Some (one b) -> e_tag_im_size e = Some (w, h)) /\
  (dget "EXIF_PixelXDimension" ex = None \/ dget "EXIF_PixelYDimension" ex = None -> e_tag_im_size e = None).
Proof. exact values. Qed.
Print Assumptions C76_values.

Theorem C76_orientation : forall pyfloat pyint pyint0 filename im_size tags exif_ns xmp e ex,
  exif_init pyfloat pyint pyint0 filename im_size tags exif_ns xmp = Ok e -> exif_tags tags exif_ns ex ->
  match dget "EXIF_Orientation" ex with Some s => exists z, pyint s = Ok z /\ e_orientation e = Some z | None => e_orientation e = None end.
Proof. exact orientation. Qed.
Print Assumptions C76_orientation.

(** C76: roll, pitch and yaw are those of senseFly's or Pix4D's XMP tags, as they are, when there are no DJI gimbal angles (see C52 for
    those). *)
Theorem C76_sensefly : forall pyfloat pyint pyint0 filename im_size tags exif_ns x e a b c r p y,
  exif_init pyfloat pyint pyint0 filename im_size tags exif_ns (Some x) = Ok e -> lacks (Some x) dji_angles ->
  Forall2 (only_value x) sensefly_angles [Some a; Some b; Some c] -> pyfloat a = Ok r -> pyfloat b = Ok p -> pyfloat c = Ok y ->
  e_rpy e = Some (r, p, y).
Proof. exact angles_sensefly. Qed.
Print Assumptions C76_sensefly.

Theorem C76_pix4d : forall pyfloat pyint pyint0 filename im_size tags exif_ns x e a b c r p y,
  exif_init pyfloat pyint pyint0 filename im_size tags exif_ns (Some x) = Ok e -> lacks (Some x) dji_angles -> lacks (Some x) sensefly_angles ->
  Forall2 (only_value x) pix4d_angles [Some a; Some b; Some c] -> pyfloat a = Ok r -> pyfloat b = Ok p -> pyfloat c = Ok y ->
  e_rpy e = Some (r, p, y).
Proof. exact angles_pix4d. Qed.
Print Assumptions C76_pix4d.

(** C76: without the angles of any vendor, there are none, and reading exterior parameters fails with ParamError. *)
Theorem C76_no_angles : forall pyfloat pyint pyint0 filename im_size tags exif_ns xmp e,
  exif_init pyfloat pyint pyint0 filename im_size tags exif_ns xmp = Ok e -> lacks xmp dji_angles -> lacks xmp sensefly_angles -> lacks xmp pix4d_angles ->
  e_rpy e = None /\ forall X to_world, read_exif_ext_param X to_world e = Err ParamError.
Proof. exact angles_none. Qed.
Print Assumptions C76_no_angles.

(** C76: the dewarp values are the numbers between the commas that follow the date, if any, and its semicolon. *)
Theorem C76_dewarp : forall pyfloat pyint pyint0 filename im_size tags exif_ns x e s l vals,
  exif_init pyfloat pyint pyint0 filename im_size tags exif_ns (Some x) = Ok e ->
  only_value x dewarp_name (Some s) -> l <> [] -> Forall (without ",") l -> Forall (without ";") l -> Forall2 (fun t v => pyfloat t = Ok v) l vals ->
  (exists date, s = (date ++ ";" ++ joined "," l)%string) \/ (s = joined "," l /\ s <> "") ->
  e_dewarp e = Some vals.
Proof. exact dewarp_data. Qed.
Print Assumptions C76_dewarp.

Theorem C76_no_dewarp : forall pyfloat pyint pyint0 filename im_size tags exif_ns xmp e,
  exif_init pyfloat pyint pyint0 filename im_size tags exif_ns xmp = Ok e -> lacks xmp [dewarp_name] -> e_dewarp e = None.
Proof. exact dewarp_none. Qed.
Print Assumptions C76_no_dewarp.

(** C76: a camera is named after those of the make, model and serial number that are given. *)
Theorem C76_name : forall e, let parts := (given_part (e_make e) ++ given_part (e_model e) ++ given_part (e_serial e))%list in
  (parts = [] -> create_exif_cam_id e = "unknown") /\ (parts <> [] -> create_exif_cam_id e = joined " " parts).
Proof. exact cam_name. Qed.
Print Assumptions C76_name.

(** C76: the exterior parameters of an image are its position and angles in the world CRS (the last of images with one file name), with
    the name of its camera. *)
Theorem C76_exterior : forall X (to_world : R * R * R -> R * R * R -> Py.res X) before n e after exts,
  exif_read_ext X to_world (before ++ (n, e) :: after)%list = Ok exts -> (forall n' e', In (n', e') after -> e_filename e' <> e_filename e) ->
  exists lla rpy x, e_lla e = Some lla /\ e_rpy e = Some rpy /\ to_world lla rpy = Ok x /\ dget (e_filename e) exts = Some (x, create_exif_cam_id e).
Proof. exact exterior. Qed.
Print Assumptions C76_exterior.

(** C76: reading them succeeds exactly when every image has both, and they can be transformed. *)
Theorem C76_exterior_iff : forall X (to_world : R * R * R -> R * R * R -> Py.res X) exifs,
  (exists exts, exif_read_ext X to_world exifs = Ok exts) <->
  forall n e, In (n, e) exifs -> exists lla rpy x, e_lla e = Some lla /\ e_rpy e = Some rpy /\ to_world lla rpy = Ok x.
Proof. exact exterior_iff. Qed.
Print Assumptions C76_exterior_iff.

Definition demo_float (s : string) : Py.res R :=
  if String.eqb s "100" then Ok 100%R else if String.eqb s "200" then Ok 200%R else if String.eqb s "3.5" then Ok (7 / 2)%R else if String.eqb s "-1" then Ok (-1)%R else Err ValueError.
Definition demo_int (s : string) : Py.res Z := if String.eqb s "2" then Ok 2%Z else Err ValueError.
Definition demo_tags : list (string * string) :=
  [("EXIF_FocalPlaneResolutionUnit", "2"); ("EXIF_FocalPlaneXResolution", "(100)"); ("EXIF_FocalPlaneYResolution", "(200)"); ("EXIF_Make", "DJI"); ("EXIF_FocalLength", "(3.5)")].
Definition demo_xmp : xml :=
  Node "x" None [] [Node "rdf" None [("{http://ns.sensefly.com/Camera/1.0/}Roll", "100"); ("{http://ns.sensefly.com/Camera/1.0/}Pitch", "3.5")]
                       [Node "{http://ns.sensefly.com/Camera/1.0/}Yaw" (Some "200") [] []; Node dewarp_name (Some "2020-01-01;100,3.5,-1") [] []]].

Example C76_case :
  (exists e, exif_init demo_float demo_int demo_int "im.jpg" (300%Z, 400%Z) demo_tags [] (Some demo_xmp) = Ok e /\
    e_sensor_size e = Some (254 / 10 * 300 / 100, 254 / 10 * 400 / 200)%R /\ e_focal_len e = TOne (7 / 2)%R /\ create_exif_cam_id e = "dji" /\
    e_dewarp e = Some [100; 7 / 2; -1]%R) /\
  lacks (Some demo_xmp) dji_angles /\ lacks (Some demo_xmp) pix4d_angles /\ only_value demo_xmp dewarp_name (Some ("2020-01-01" ++ ";" ++ joined "," ["100"; "3.5"; "-1"])) /\
  only_value demo_xmp "{http://ns.sensefly.com/Camera/1.0/}Yaw" (Some "200").
Proof.
  split; [|split; [|split; [|split]]].
  - eexists. split; [reflexivity|]. cbn. auto.
  - exists "{http://www.dji.com/drone-dji/1.0/}GimbalYawDegree". split; [cbn; tauto|]. intros H. apply Exif_Proof.flat_names in H. destruct H as [v H]. discriminate H.
  - exists "{http://pix4d.com/camera/1.0/}Roll". split; [cbn; tauto|]. intros H. apply Exif_Proof.flat_names in H. destruct H as [v H]. discriminate H.
  - exists [("x", None); ("rdf", None); ("{http://ns.sensefly.com/Camera/1.0/}Roll", Some "100"); ("{http://ns.sensefly.com/Camera/1.0/}Pitch", Some "3.5");
            ("{http://ns.sensefly.com/Camera/1.0/}Yaw", Some "200")], []. split; [reflexivity|]. split; intros w H; cbn in H; intuition discriminate.
  - exists [("x", None); ("rdf", None); ("{http://ns.sensefly.com/Camera/1.0/}Roll", Some "100"); ("{http://ns.sensefly.com/Camera/1.0/}Pitch", Some "3.5")]. eexists.
    split; [reflexivity|]. split; intros w H; cbn in H; intuition discriminate.
Qed.

(** C77: a camera of a reconstruction gives the interior parameters that [osfm_camera] lists, under its ID without any leading "v2 ": its
    camera type, image size, focal length(s), principal point and the distortion coefficients of its type, all as they are in the file, and
    nothing else. *)
Theorem C77_cameras : forall X cv_ext d rest ints exts before id y after b,
  osfm_reader X cv_ext (PList (PDict d :: rest)) = Ok (ints, exts) -> kget (KStr "cameras") d = Some (PDict (before ++ (KStr id, PDict y) :: after)%list) ->
  NoDup (map fst y) -> bare id b -> (forall id' v, In (KStr id', v) after -> ~ bare id' b) ->
  exists p, osfm_camera y p /\ dget b ints = Some p.
Proof. exact osfm_cameras. Qed.
Print Assumptions C77_cameras.

Theorem C77_names : forall X cv_ext d rest ints exts cams, osfm_reader X cv_ext (PList (PDict d :: rest)) = Ok (ints, exts) -> kget (KStr "cameras") d = Some (PDict cams) ->
  forall b, (exists p, dget b ints = Some p) <-> exists id y, In (KStr id, PDict y) cams /\ bare id b.
Proof. exact osfm_camera_names. Qed.
Print Assumptions C77_names.

(** C77: a camera can be read exactly when it has a known projection type, an image size, a focal length, and no other keys than those that
    its type may have. *)
Theorem C77_camera_iff : forall y, (exists p, parse_json_param y = Ok p) <->
  exists s c, kget (KStr "projection_type") y = Some (PStr s) /\ osfm_type (strip white (lower (lower s))) c /\
  (exists w, kget (KStr "width") y = Some w) /\ (exists h, kget (KStr "height") y = Some h) /\ (exists f, osfm_focal y f) /\
  forall k v, In (k, v) y -> osfm_key y c k.
Proof. exact parse_iff. Qed.
Print Assumptions C77_camera_iff.

(** C77: the exterior parameters are those of the shots: each has its own pose, converted, and its own camera. *)
Theorem C77_shots : forall X cv_ext d rest ints exts shots, osfm_reader X cv_ext (PList (PDict d :: rest)) = Ok (ints, exts) ->
  kget (KStr "shots") d = Some (PDict shots) -> NoDup (map fst shots) -> forall name x b, dget name exts = Some (x, b) <->
  exists sh t r id, In (KStr name, PDict sh) shots /\ kget (KStr "translation") sh = Some t /\ kget (KStr "rotation") sh = Some r /\ kget (KStr "camera") sh = Some (PStr id) /\
    x = cv_ext t r /\ bare id b.
Proof. exact osfm_shots. Qed.
Print Assumptions C77_shots.

(** C77: a "cx" or "cy" of a camera takes the place of its "c_x" or "c_y", and other types of values than text as projection type raise
    AttributeError rather than ParamError. *)
Theorem C77_type_error_refuted :
  parse_json_param [(KStr "projection_type", PInt 1); (KStr "width", PInt 100); (KStr "height", PInt 50); (KStr "focal", PFloat 1)] = Err AttributeError.
Proof. exact eq_refl. Qed.
Print Assumptions C77_type_error_refuted.

Example C77_case :
  osfm_reader (pyval * pyval) pair
    (example_recon [(KStr "v2 a", PDict [(KStr "projection_type", PStr "fisheye"); (KStr "width", PInt 100); (KStr "height", PInt 50); (KStr "focal_x", PFloat 1);
                                         (KStr "focal_y", PFloat 2); (KStr "c_x", PFloat 3); (KStr "k4", PFloat 4)])]
                   [(KStr "im1.jpg", example_shot "v2 a")]) =
  Ok ([("a", [("cam_type", MCam Cfisheye); ("im_size", MTup [PInt 100; PInt 50]); ("focal_len", MTup [PFloat 1; PFloat 2]); ("cx", MV (PFloat 3)); ("k4", MV (PFloat 4))])],
      [("im1.jpg", (PList [PFloat 1; PFloat 2; PFloat 3], PList [PFloat 0; PFloat 0; PFloat 0], "a"))]).
Proof. reflexivity. Qed.
