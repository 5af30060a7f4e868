(** Property theorems: C51 interior parameters, C52 position and C53 camera IDs of image tags and reconstructions.
    [pyfloat], [pyint] and [pyint0] are Python's number parsers, about which nothing is assumed. *)
From Coq Require Import String Ascii List Reals ZArith Bool QArith_base.
From Verif Require Import Py Frame_Model Validate_Model Params_Model Factory_Model Fit_Model Exif_Model Exif_Spec Exif_Proof.
Import ListNotations.
Open Scope list_scope.
Open Scope R_scope.

(** C51: dewarp data, else focal length with sensor size, else the 35mm equivalent focal length, decide the interior
    parameters. *)
Theorem C51_precedence : forall e id p, single (e_focal_len e) -> single (e_focal_len_35 e) ->
  (read_exif_int_param e = Ok (id, p) <-> interior e p /\ id = create_exif_cam_id e).
Proof. exact exif_precedence. Qed.
Print Assumptions C51_precedence.

(** C51: without any of them there is a parameter error. *)
Theorem C51_error : forall e, single (e_focal_len e) -> single (e_focal_len_35 e) ->
  (forall p, ~ interior e p) -> read_exif_int_param e = Err ParamError.
Proof. exact exif_no_interior. Qed.
Print Assumptions C51_error.

(** C51: dewarp data of an image whose size is [s] times the tagged size ([s] is 1 for an image that was not resized) gives
    a Brown camera whose pixel focal lengths, offsets from the image centre and coefficients are those of the dewarp
    data. *)
Theorem C51_dewarp : forall cv e fx fy cx cy k1 k2 p1 p2 k3 tw th s,
  usable_dewarp e [fx; fy; cx; cy; k1; k2; p1; p2; k3] tw th ->
  (0 < tw)%Z -> (0 < th)%Z -> 0 < s -> IZR (fst (e_im_size e)) = s * IZR tw -> IZR (snd (e_im_size e)) = s * IZR th ->
  exists p f, read_exif_int_param e = Ok (create_exif_cam_id e, p) /\ camera_fwd cv p = Ok f /\
    forall xy, f xy = brown_fwd (Intr (s * fx) (s * fy) ((IZR (fst (e_im_size e)) - 1) / 2 + s * cx)
                                      ((IZR (snd (e_im_size e)) - 1) / 2 + s * cy)) k1 k2 p1 p2 k3 xy.
Proof. exact dewarp_camera. Qed.
Print Assumptions C51_dewarp.

(** C51: with only a 35mm equivalent focal length, the pixel focal length is that of a sensor of 36 mm along the longest
    image side if the sensor size is tagged (square pixels), and along the image width if it is not.  So the two
    differ for portrait images: the same lens is given a shorter focal length when there is no sensor size. *)
Theorem C51_portrait_refuted : forall e f35 p id k,
  (forall d tw th, ~ usable_dewarp e d tw th) -> (forall f, ~ tagged (e_focal_len e) f) ->
  single (e_focal_len e) -> tagged (e_focal_len_35 e) f35 -> (0 < fst (e_im_size e))%Z -> (0 < snd (e_im_size e))%Z ->
  (forall sw sh, e_sensor_size e = Some (sw, sh) ->
     0 < sw /\ 0 < sh /\ sw * IZR (snd (e_im_size e)) = sh * IZR (fst (e_im_size e))) ->
  read_exif_int_param e = Ok (id, p) -> ip_intrinsic p = Ok k ->
  kfx k = match e_sensor_size e with
          | Some _ => f35 / 36 * IZR (Z.max (fst (e_im_size e)) (snd (e_im_size e)))
          | None => f35 / 36 * IZR (fst (e_im_size e))
          end.
Proof. exact focal_35_pixels. Qed.
Print Assumptions C51_portrait_refuted.

(** C51: of images with the same camera ID, the last one decides the interior parameters. *)
Theorem C51_last : forall before name e after ints id p, exif_read_int (before ++ (name, e) :: after) = Ok ints ->
  read_exif_int_param e = Ok (id, p) -> (forall n e', In (n, e') after -> create_exif_cam_id e' <> id) ->
  dget id ints = Some p.
Proof. exact exif_last. Qed.
Print Assumptions C51_last.

(** C51: so an image taken with another focal length of the same camera is given the focal length of a later image. *)
Theorem C51_zoom_refuted : exists e1 e2 id p1 p2 ints,
  read_exif_int_param e1 = Ok (id, p1) /\ read_exif_int_param e2 = Ok (id, p2) /\ ip_focal p1 <> ip_focal p2 /\
  exif_read_int [("im1.jpg"%string, e1); ("im2.jpg"%string, e2)] = Ok ints /\ dget id ints = Some p2.
Proof. exact exif_zoom. Qed.
Print Assumptions C51_zoom_refuted.

Definition example_exif (dewarp : option (list R)) (focal focal_35 : tagval) (sensor : option (R * R)) : exif :=
  Exif "im.jpg" (4000, 3000)%Z (Some "dji"%string) (Some "fc6310"%string) None (Some (4000, 3000)%Z) sensor focal focal_35 None
       None None dewarp.

Example C51_case :
  usable_dewarp (example_exif (Some [3600; 3601; 5; -7; 1; 2; 3; 4; 5]) (TOne 9) (TOne 24) (Some (13, 9)))
                [3600; 3601; 5; -7; 1; 2; 3; 4; 5] 4000 3000 /\
  interior (example_exif None (TOne 9) (TOne 24) (Some (13, 9))) (IntParam Pinhole 4000 3000 [9] (Some [13; 9]) None None []) /\
  create_exif_cam_id (example_exif None TNone TNone None) = "dji fc6310"%string.
Proof.
  split; [|split].
  - repeat split. exists 3600. split; [left; reflexivity|apply IZR_neq; discriminate].
  - apply (I_focal (example_exif None (TOne 9) (TOne 24) (Some (13, 9)))); [intros d tw th (H & _); discriminate| |reflexivity].
    split; [reflexivity|apply IZR_neq; discriminate].
  - reflexivity.
Qed.

(** C52: the position is the XMP one when all its keys are in the document, wherever they are in it. *)
Theorem C52_xmp : forall pyfloat pyint pyint0 filename im_size tags exif_ns x e a b c lat lon alt,
  exif_init pyfloat pyint pyint0 filename im_size tags exif_ns (Some x) = Ok e ->
  only_value x "{http://www.dji.com/drone-dji/1.0/}GpsLatitude" (Some a) ->
  only_value x "{http://www.dji.com/drone-dji/1.0/}GpsLongtitude" (Some b) ->
  only_value x "{http://www.dji.com/drone-dji/1.0/}AbsoluteAltitude" (Some c) ->
  pyfloat a = Ok lat -> pyfloat b = Ok lon -> pyfloat c = Ok alt -> e_lla e = Some (lat, lon, alt).
Proof. exact position_xmp. Qed.
Print Assumptions C52_xmp.

(** C52: otherwise it is the EXIF one, in decimal degrees, negative in the south and west, and below sea level. *)
Theorem C52_exif : forall pyfloat pyint pyint0 filename im_size tags exif_ns xmp e ex a b c a' b' c' alt aref n d m s d' m' s' h
    (south west : bool),
  exif_init pyfloat pyint pyint0 filename im_size tags exif_ns xmp = Ok e ->
  no_xmp_position xmp -> exif_tags tags exif_ns ex ->
  Forall plain [a; b; c; a'; b'; c'; alt] ->
  pyfloat a = Ok d -> pyfloat b = Ok m -> pyfloat c = Ok s ->
  pyfloat a' = Ok d' -> pyfloat b' = Ok m' -> pyfloat c' = Ok s' -> pyfloat alt = Ok h -> pyint0 aref = Ok n ->
  dget "EXIF_GPSLatitude" ex = Some (three a b c) -> dget "EXIF_GPSLongitude" ex = Some (three a' b' c') ->
  dget "EXIF_GPSAltitude" ex = Some (one alt) ->
  dget "EXIF_GPSLatitudeRef" ex = Some (if south then "S" else "N")%string ->
  dget "EXIF_GPSLongitudeRef" ex = Some (if west then "W" else "E")%string ->
  dget "EXIF_GPSAltitudeRef" ex = Some aref ->
  e_lla e = Some (if south then - degrees d m s else degrees d m s, if west then - degrees d' m' s' else degrees d' m' s',
                  if (n =? 1)%Z then - h else h).
Proof. exact position_exif. Qed.
Print Assumptions C52_exif.

(** C52: with neither there is no position, and reading the exterior parameters is a parameter error. *)
Theorem C52_none : forall pyfloat pyint pyint0 filename im_size tags exif_ns xmp e ex k,
  exif_init pyfloat pyint pyint0 filename im_size tags exif_ns xmp = Ok e ->
  no_xmp_position xmp -> exif_tags tags exif_ns ex ->
  In k ["EXIF_GPSLatitude"; "EXIF_GPSLongitude"; "EXIF_GPSLatitudeRef"; "EXIF_GPSLongitudeRef"]%string -> dget k ex = None ->
  e_lla e = None /\ forall X to_world, read_exif_ext_param X to_world e = Err ParamError.
Proof. exact position_none. Qed.
Print Assumptions C52_none.

(** C52: the sign is positive for exactly these references; any other text, e.g. a lower case n, is south or west. *)
Theorem C52_reference : forall d m s l ref, dms_to_decimal (TMany (d :: m :: s :: l)) ref =
  Ok (if (String.eqb ref "" || String.eqb ref "N" || String.eqb ref "E" || String.eqb ref "NE") then degrees d m s else - degrees d m s).
Proof. exact ref_sign. Qed.
Print Assumptions C52_reference.

(** C52: DJI gimbal angles, with 90 degrees added to the pitch. *)
Theorem C52_gimbal : forall pyfloat pyint pyint0 filename im_size tags exif_ns x e a b c r p y,
  exif_init pyfloat pyint pyint0 filename im_size tags exif_ns (Some x) = Ok e ->
  only_value x "{http://www.dji.com/drone-dji/1.0/}GimbalRollDegree" (Some a) ->
  only_value x "{http://www.dji.com/drone-dji/1.0/}GimbalPitchDegree" (Some b) ->
  only_value x "{http://www.dji.com/drone-dji/1.0/}GimbalYawDegree" (Some c) ->
  pyfloat a = Ok r -> pyfloat b = Ok p -> pyfloat c = Ok y -> e_rpy e = Some (r, p + 90, y).
Proof. exact rpy_dji. Qed.
Print Assumptions C52_gimbal.

Definition example_xml : xml :=
  Node "xmpmeta" None [] [Node "Description" None
    [("{http://www.dji.com/drone-dji/1.0/}GpsLatitude", "-33.5"); ("{http://www.dji.com/drone-dji/1.0/}GpsLongtitude", "24")]
    [Node "{http://www.dji.com/drone-dji/1.0/}AbsoluteAltitude" (Some "100") [] []]]%string.

Definition example_float (s : string) : res R :=
  if String.eqb s "-33.5" then Ok (-33.5) else if String.eqb s "24" then Ok 24 else if String.eqb s "100" then Ok 100 else Err ValueError.

Example C52_case :
  only_value example_xml "{http://www.dji.com/drone-dji/1.0/}GpsLatitude" (Some "-33.5"%string) /\
  only_value example_xml "{http://www.dji.com/drone-dji/1.0/}AbsoluteAltitude" (Some "100"%string) /\
  (exists e, exif_init example_float (fun _ => Err ValueError) (fun _ => Err ValueError) "im.jpg" (4000, 3000)%Z [] [] (Some example_xml) = Ok e /\
             e_lla e = Some (-33.5, 24, 100)) /\
  plain "33" /\ no_xmp_position (Some (Node "xmpmeta" None [] [])%string).
Proof.
  split; [|split; [|split; [|split]]].
  - exists [("xmpmeta", None); ("Description", None)]%string. eexists. split; [reflexivity|].
    split; intros w H; cbn in H; intuition discriminate.
  - exists [("xmpmeta", None); ("Description", None); ("{http://www.dji.com/drone-dji/1.0/}GpsLatitude", Some "-33.5");
            ("{http://www.dji.com/drone-dji/1.0/}GpsLongtitude", Some "24")]%string. eexists. split; [reflexivity|].
    split; intros w H; cbn in H; intuition discriminate.
  - eexists. split; reflexivity.
  - split; [discriminate|]. repeat split; discriminate.
  - exists "{http://www.dji.com/drone-dji/1.0/}GpsLatitude"%string. split; [left; reflexivity|].
    intros H. inversion H as [| ? ? ? ? v Hin | ? ? ? ? c Hin]; contradiction.
Qed.

(** C53: every image read from Exif tags has its camera among the interior parameters, so that [get] gives a camera with
    that interior and the exterior of the image. *)
Theorem C53_exif : forall X I (to_world : R * R * R -> R * R * R -> res X) (create : int_param -> res I) exifs ints exts history name x id,
  exif_read_int exifs = Ok ints -> exif_read_ext X to_world exifs = Ok exts -> dget name exts = Some (x, id) ->
  (forall k p, dget k ints = Some p -> exists c, create p = Ok c) ->
  let st := frame_run create history (frame_init ints (factory_ext exts)) in
  exists p c i, dget id ints = Some p /\ create p = Ok c /\ snd (frame_get create name st) = Ok i /\
    nth_error (f_heap (fst (frame_get create name st))) i = Some (Camera c (Some x)).
Proof. exact exif_get. Qed.
Print Assumptions C53_exif.

(** C53: the same for the shots of a reconstruction, when they refer to cameras of the file. *)
Theorem C53_osfm : forall X I (cv_ext : pyval -> pyval -> X) (create : dict mval -> res I) doc ints exts history name x id,
  (forall first l cams shots k shot c, doc = PList (first :: l) -> field "cameras" first = Ok (PDict cams) ->
     field "shots" first = Ok (PDict shots) -> In (k, shot) shots -> field "camera" shot = Ok (PStr c) -> In (KStr c) (map fst cams)) ->
  osfm_reader X cv_ext doc = Ok (ints, exts) -> dget name exts = Some (x, id) -> id <> ""%string ->
  (forall k p, dget k ints = Some p -> exists c, create p = Ok c) ->
  let st := frame_run create history (frame_init ints (factory_ext exts)) in
  exists p c i, dget id ints = Some p /\ create p = Ok c /\ snd (frame_get create name st) = Ok i /\
    nth_error (f_heap (fst (frame_get create name st))) i = Some (Camera c (Some x)).
Proof. exact osfm_get. Qed.
Print Assumptions C53_osfm.

Definition example_camera (focal : pyval) : pyval :=
  PDict [(KStr "projection_type", PStr "perspective"); (KStr "width", PInt 100); (KStr "height", PInt 50); (KStr "focal", focal);
         (KStr "k1", PFloat (1 # 10))]%string.
Definition example_shot (cam : string) : pyval :=
  PDict [(KStr "rotation", PList [PFloat 0; PFloat 0; PFloat 0]); (KStr "translation", PList [PFloat 1; PFloat 2; PFloat 3]);
         (KStr "camera", PStr cam)]%string.
Definition example_recon (cams shots : list (pykey * pyval)) : pyval :=
  PList [PDict [(KStr "cameras", PDict cams); (KStr "shots", PDict shots);
                (KStr "reference_lla", PDict [(KStr "latitude", PFloat 1); (KStr "longitude", PFloat 1); (KStr "altitude", PFloat 1)])]]%string.

(** C53: cameras whose IDs only differ by a leading "v2 " are merged: the shot of the first one is given the parameters of the
    second. *)
Theorem C53_v2_refuted :
  osfm_reader nat (fun _ _ => 0%nat)
    (example_recon [(KStr "cam", example_camera (PFloat 1)); (KStr "v2 cam", example_camera (PFloat 2))]
                   [(KStr "im1.jpg", example_shot "cam"); (KStr "im2.jpg", example_shot "v2 cam")])%string =
  Ok ([("cam", [("cam_type", MCam Cbrown); ("im_size", MTup [PInt 100; PInt 50]); ("focal_len", MV (PFloat 2)); ("k1", MV (PFloat (1 # 10)))])],
      [("im1.jpg", (0%nat, "cam")); ("im2.jpg", (0%nat, "cam"))])%string.
Proof. exact eq_refl. Qed.
Print Assumptions C53_v2_refuted.

Example C53_case :
  osfm_reader nat (fun _ _ => 0%nat)
    (example_recon [(KStr "v2 a", example_camera (PFloat 1)); (KStr "b", example_camera (PFloat 2))]
                   [(KStr "im1.jpg", example_shot "v2 a"); (KStr "im2.jpg", example_shot "b")])%string =
  Ok ([("a", [("cam_type", MCam Cbrown); ("im_size", MTup [PInt 100; PInt 50]); ("focal_len", MV (PFloat 1)); ("k1", MV (PFloat (1 # 10)))]);
       ("b", [("cam_type", MCam Cbrown); ("im_size", MTup [PInt 100; PInt 50]); ("focal_len", MV (PFloat 2)); ("k1", MV (PFloat (1 # 10)))])],
      [("im1.jpg", (0%nat, "a")); ("im2.jpg", (0%nat, "b"))])%string.
Proof. reflexivity. Qed.
