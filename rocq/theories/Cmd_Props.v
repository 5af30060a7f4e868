(** Properties C82 - C86. *)
From Coq Require Import String Ascii List Bool ZArith QArith.
From Verif Require Import Py Validate_Model Files_Model Params_Model Params_Spec Exif_Model Factory_Model Load_Model Load_Spec Str Cli_Model Cmd_Model Cmd_Spec Cmd_Proof.
From Verif Require Factory_Spec Load_Proof.
Import ListNotations.
Open Scope string_scope.
Open Scope list_scope.

(** C82: after 'oty frame', every source was orthorectified with its camera, in the CRS of the camera positions, if the readers use
    the CRS option and there is no such option with a '.geojson' file. *)
Theorem C82_frame : forall C crs_parse ydec jdec K csv_reader osfm_reader yenc jenc crs_str is_projected to_lla I create src_open ortho_init env_of other int_file ext_file crs r srcs fs fs',
  csv_honours csv_reader -> osfm_honours osfm_reader -> consistent int_file ext_file ->
  (has_ext ext_file ".geojson" -> crs = None) -> r_export r = false ->
  frame_command C crs_parse ydec jdec K csv_reader osfm_reader yenc jenc crs_str is_projected to_lla I create src_open ortho_init env_of other int_file ext_file crs r srcs fs = (fs', Ok tt) ->
  exists ints exts world,
    loads C crs_parse ydec jdec K csv_reader osfm_reader fs (Io (match crs with Some c => CCrs c | None => CNone end) other)
      (AFile int_file) (AFile ext_file) ints exts world /\
    orthos_made src_open ortho_init env_of (image_camera create ints exts) (r_dir r) (r_ovw r) world srcs fs'.
Proof. exact frame_same_crs. Qed.
Print Assumptions C82_frame.

(** C82: with the option and a '.geojson' file, the ortho images are in the CRS of the option, although the camera positions are those
    of the file, in its CRS, whatever the option is. *)
Theorem C82_frame_geojson_refuted : forall C crs_parse ydec jdec K csv_reader osfm_reader yenc jenc crs_str is_projected to_lla I create src_open ortho_init env_of other int_file ext_file crs r srcs fs fs',
  consistent int_file ext_file -> has_ext ext_file ".geojson" -> r_export r = false ->
  frame_command C crs_parse ydec jdec K csv_reader osfm_reader yenc jenc crs_str is_projected to_lla I create src_open ortho_init env_of other int_file ext_file (Some crs) r srcs fs = (fs', Ok tt) ->
  exists ints exts world,
    (forall kw, loads C crs_parse ydec jdec K csv_reader osfm_reader fs kw (AFile int_file) (AFile ext_file) ints exts (Some world)) /\
    orthos_made src_open ortho_init env_of (image_camera create ints exts) (r_dir r) (r_ovw r) (Some crs) srcs fs'.
Proof. exact frame_other_crs. Qed.
Print Assumptions C82_frame_geojson_refuted.

(** C82: the same for 'oty exif', always. *)
Theorem C82_exif : forall C K exif_reader yenc jenc crs_str is_projected to_lla I create src_open ortho_init env_of other crs r srcs fs fs',
  honours_crs exif_reader -> r_export r = false ->
  exif_command C K exif_reader yenc jenc crs_str is_projected to_lla I create src_open ortho_init env_of other crs r srcs fs = (fs', Ok tt) ->
  exists ints exts world,
    exif_reader srcs [("crs", match crs with Some c => OCrs c | None => ONone end); ("lla_crs", OOther other)] = Ok (ints, exts, world) /\
    orthos_made src_open ortho_init env_of (image_camera create ints exts) (r_dir r) (r_ovw r) world srcs fs'.
Proof. exact exif_crs. Qed.
Print Assumptions C82_exif.

(** C82: and for 'oty odm', with the CRS option or else the CRS of the DSM, if there is one. *)
Theorem C82_odm : forall C crs_parse ydec jdec K csv_reader osfm_reader yenc jenc crs_str is_projected to_lla I create src_open ortho_init env_of other dataset files dsm crs r fs fs',
  osfm_honours osfm_reader -> r_export r = false ->
  odm_command C crs_parse ydec jdec K csv_reader osfm_reader yenc jenc crs_str is_projected to_lla I create src_open ortho_init env_of other dataset files dsm crs r fs = (fs', Ok tt) ->
  exists count dsm_crs t doc ints exts world,
    dsm = Ok (count, dsm_crs) /\ dget (pjoin dataset "opensfm/reconstruction.json") fs = Some t /\ jdec t = Some doc /\
    (let given := match crs with Some c => Some c | None => dsm_crs end in
     osfm_reader (Io (match given with Some c => CCrs c | None => CNone end) other) doc = Ok (ints, exts, world) /\
     orthos_made src_open ortho_init env_of (image_camera create ints exts) (r_dir r) (r_ovw r) given (odm_images files) fs' /\
     forall c, given = Some c -> world = c).
Proof. exact odm_crs. Qed.
Print Assumptions C82_odm.

(** C82: it is band 1 of the DSM that is used, whatever other options there are. *)
Theorem C82_odm_band : forall C crs_parse ydec jdec K csv_reader osfm_reader yenc jenc crs_str is_projected to_lla I create src_open ortho_init env_of other dataset files dsm crs r fs fs', r_export r = false ->
  odm_command C crs_parse ydec jdec K csv_reader osfm_reader yenc jenc crs_str is_projected to_lla I create src_open ortho_init env_of other dataset files dsm crs r fs = (fs', Ok tt) -> exists count dsm_crs, dsm = Ok (count, dsm_crs) /\ (1 <= count)%Z.
Proof. exact odm_has_band. Qed.
Print Assumptions C82_odm_band.

Theorem C82_odm_options : forall C crs_parse ydec jdec K csv_reader osfm_reader yenc jenc crs_str is_projected to_lla I create src_open ortho_init env_of other dataset files dsm crs x d1 b1 d2 b2 dir ow ovw,
  odm_command C crs_parse ydec jdec K csv_reader osfm_reader yenc jenc crs_str is_projected to_lla I create src_open ortho_init env_of other dataset files dsm crs (Rest x d1 b1 dir ow ovw) = odm_command C crs_parse ydec jdec K csv_reader osfm_reader yenc jenc crs_str is_projected to_lla I create src_open ortho_init env_of other dataset files dsm crs (Rest x d2 b2 dir ow ovw).
Proof. exact odm_band. Qed.
Print Assumptions C82_odm_options.

Definition demo_doc : pyval :=
  PDict [(KStr "cam", PDict [(KStr "type", PStr "pinhole"); (KStr "im_size", PList [PInt 4; PInt 3]); (KStr "focal_len", PInt 1)])].
Definition demo_geojson : pyval :=
  PDict [(KStr "type", PStr "FeatureCollection"); (KStr "world_crs", PStr "file");
         (KStr "features", PList [PDict [(KStr "type", PStr "Feature");
            (KStr "properties", PDict [(KStr "filename", PStr "im"); (KStr "camera", PNone);
               (KStr "xyz", PList [PInt 1; PInt 2; PInt 3]); (KStr "opk", PList [PInt 0; PInt 0; PInt 0])]);
            (KStr "geometry", PDict [(KStr "type", PStr "Point"); (KStr "coordinates", PList [PInt 0; PInt 0; PInt 0])])]])].
(* what is orthorectified: the position of the camera and the CRS *)
Definition demo_xyz (cam : camera (option mval * option mval) unit) : string :=
  match cam with Camera _ (Some (Some (MTup [PInt 1; PInt 2; PInt 3]), _)) => "camera at 1 2 3" | _ => "?" end.
Definition demo_env (src : string) (cam : camera (option mval * option mval) unit) (crs : string) : env :=
  Env (fun _ => None) (fun _ => (demo_xyz cam ++ " in " ++ crs)%string).
Definition demo_osfm (kw : io_kwargs string unit) (doc : pyval) : res (dict (dict mval) * dict (dict mval) * string) :=
  Ok ([("cam", [])], [("im", [("camera", MV PNone); ("xyz", MTup [PInt 1; PInt 2; PInt 3])])],
      match io_crs kw with CCrs c => c | _ => "UTM" end).
Definition demo_frame crs r : act unit :=
  frame_command string (fun s => Some s) (fun _ => Some demo_doc) (fun _ => Some demo_geojson) unit
    (fun kw _ _ => Ok ([("im", [("camera", MV PNone)])], match io_crs kw with CCrs c => Some c | _ => None end)) demo_osfm
    (fun _ => ["x"]) (fun _ => ["y"]) (fun c => c) (fun c => String.eqb c "UTM") (fun _ _ _ _ => Ok (0, 0, 0)%Q)
    unit (fun _ => Ok tt) (fun _ => Ok (Some "source")) (fun _ _ _ => Ok tt) demo_env
    tt (FPath "int.yaml") (FPath "ext.geojson") crs r ["a/im.tif"].
Definition demo_odm dsm_crs : act unit :=
  odm_command string (fun s => Some s) (fun _ => None) (fun _ => Some demo_geojson) unit (fun _ _ _ => Err ParamError) demo_osfm
    (fun _ => ["x"]) (fun _ => ["y"]) (fun c => c) (fun c => String.eqb c "UTM") (fun _ _ _ _ => Ok (0, 0, 0)%Q)
    unit (fun _ => Ok tt) (fun _ => Ok (Some "source")) (fun _ _ _ => Ok tt) demo_env
    tt "data" ["a/im.tif"; "a/list.txt"] (Ok (1%Z, dsm_crs)) None (Rest false None 0 "out" false true).
Definition demo_fs : fsys := [("int.yaml", "int"); ("ext.geojson", "ext"); ("data/opensfm/reconstruction.json", "rec")].

(** C82: with a DSM without a CRS, camera positions are in the CRS that is found for the reconstruction, and the ortho images in that of
    the first source. *)
Theorem C82_odm_refuted :
  osfm_honours demo_osfm /\
  dget "out/im_ORTHO.tif" (fst (demo_odm (Some "DSM") demo_fs)) = Some "camera at 1 2 3 in DSM" /\
  snd (demo_odm (Some "DSM") demo_fs) = Ok tt /\
  (exists ints exts, demo_osfm (Io CNone tt) demo_geojson = Ok (ints, exts, "UTM")) /\
  dget "out/im_ORTHO.tif" (fst (demo_odm None demo_fs)) = Some "camera at 1 2 3 in source" /\
  snd (demo_odm None demo_fs) = Ok tt.
Proof.
  split; [intros kw doc i e c x H E; unfold demo_osfm in E; rewrite H in E; inversion E; reflexivity|].
  split; [reflexivity|]. split; [reflexivity|]. split; [eexists; eexists; reflexivity|]. split; reflexivity.
Qed.
Print Assumptions C82_odm_refuted.

(** C82: the same for 'oty rpc': cameras and ortho images are in the CRS of the option, or WGS84. *)
Theorem C82_rpc : forall C M R G Cam wgs84_3d create refine_rpc src_open ortho_init env_of export (params : dict (M * R)) gcps crs r srcs fs fs',
  NoDup (dkeys params) -> (forall f, In f (dkeys params) -> Factory_Spec.last_part f f) -> r_export r = false ->
  rpc_command C M R G Cam wgs84_3d create refine_rpc src_open ortho_init env_of export (Ok params) (option_map Ok gcps) crs r srcs fs = (fs', Ok tt) ->
  orthos_made src_open ortho_init env_of (rpc_image_camera create refine_rpc params gcps crs) (r_dir r) (r_ovw r)
    (Some (match crs with Some c => c | None => wgs84_3d end)) srcs fs'.
Proof. exact rpc_crs. Qed.
Print Assumptions C82_rpc.

Example C82_case :
  let r := Rest false (Some (Ok 1%Z)) 1 "out" false true in
  dget "out/im_ORTHO.tif" (fst (demo_frame None r demo_fs)) = Some "camera at 1 2 3 in file" /\ snd (demo_frame None r demo_fs) = Ok tt /\
  dget "out/im_ORTHO.tif" (fst (demo_frame (Some "option") r demo_fs)) = Some "camera at 1 2 3 in option" /\
  snd (demo_frame (Some "option") r demo_fs) = Ok tt /\
  consistent (FPath "int.yaml") (FPath "ext.geojson") /\ has_ext (FPath "ext.geojson") ".geojson".
Proof.
  cbv zeta. repeat split; try reflexivity; [intros H; inversion H|]. apply Load_Proof.ext_geojson. reflexivity.
Qed.

Example C82_rpc_case :
  let run crs := rpc_command string nat nat nat (string * nat) "WGS84"
       (fun c m q => Ok (match c with Some c => c | None => "WGS84" end, q)) (fun q g => Ok (q + List.length g)%nat)
       (fun _ => Ok None) (fun _ _ _ => Ok tt)
       (fun _ cam c => Env (fun _ => None) (fun _ => (fst cam ++ " " ++ c ++ (if Nat.eqb (snd cam) 7 then " refined" else ""))%string))
       (fun _ => ret (Ok tt)) (Ok [("im.tif", (0, 5)%nat); ("b.tif", (0, 7)%nat)]) (Some (Ok [("im.tif", [1; 2]%nat)])) crs
       (Rest false (Some (Ok 1%Z)) 1 "out" false true) ["x/im.tif"] [] in
  run None = ([("out/im_ORTHO.tif", "WGS84 WGS84 refined")], Ok tt) /\ run (Some "UTM") = ([("out/im_ORTHO.tif", "UTM UTM refined")], Ok tt).
Proof. split; reflexivity. Qed.

(** C83: an error of Orthority, or for a missing file, that is not reported as a click error comes from the export of the parameters,
    or from outside the cameras. *)
Theorem C83_frame : forall C crs_parse ydec jdec K csv_reader osfm_reader yenc jenc crs_str is_projected to_lla I create src_open ortho_init env_of other int_file ext_file crs r srcs fs fs' e, consistent int_file ext_file ->
  frame_command C crs_parse ydec jdec K csv_reader osfm_reader yenc jenc crs_str is_projected to_lla I create src_open ortho_init env_of other int_file ext_file crs r srcs fs = (fs', Err e) -> user_error e ->
  exists ints exts world,
    loads C crs_parse ydec jdec K csv_reader osfm_reader fs (Io (match crs with Some c => CCrs c | None => CNone end) other)
      (AFile int_file) (AFile ext_file) ints exts world /\
    if r_export r then write_frame C yenc jenc crs_str is_projected to_lla (r_dir r) (r_overwrite r) ints exts world fs = (fs', Err e) /\ e <> CrsMissingError
    else escapes (fun _ e => exists p, create p = Err e) src_open ortho_init env_of (r_dem r) srcs e.
Proof. exact frame_errors. Qed.
Print Assumptions C83_frame.

Theorem C83_exif : forall C K exif_reader yenc jenc crs_str is_projected to_lla I create src_open ortho_init env_of other crs r srcs fs fs' e,
  exif_command C K exif_reader yenc jenc crs_str is_projected to_lla I create src_open ortho_init env_of other crs r srcs fs = (fs', Err e) -> user_error e ->
  exists ints exts world,
    exif_reader srcs [("crs", match crs with Some c => OCrs c | None => ONone end); ("lla_crs", OOther other)] = Ok (ints, exts, world) /\
    if r_export r then write_frame C yenc jenc crs_str is_projected to_lla (r_dir r) (r_overwrite r) ints exts world fs = (fs', Err e) /\ e <> CrsMissingError
    else escapes (fun _ e => exists p, create p = Err e) src_open ortho_init env_of (r_dem r) srcs e.
Proof. exact exif_errors. Qed.
Print Assumptions C83_exif.

Theorem C83_odm : forall C crs_parse ydec jdec K csv_reader osfm_reader yenc jenc crs_str is_projected to_lla I create src_open ortho_init env_of other dataset files dsm crs r fs fs' e,
  odm_command C crs_parse ydec jdec K csv_reader osfm_reader yenc jenc crs_str is_projected to_lla I create src_open ortho_init env_of other dataset files dsm crs r fs = (fs', Err e) -> user_error e ->
  (dsm = Err e /\ e <> FileNotFoundError /\ fs' = fs) \/
  exists count dsm_crs ints exts world, dsm = Ok (count, dsm_crs) /\
    (let a := AFile (FOpenFile 0 (pjoin dataset "opensfm/reconstruction.json")) in
     let given := match crs with Some c => Some c | None => dsm_crs end in
     loads C crs_parse ydec jdec K csv_reader osfm_reader fs (Io (match given with Some c => CCrs c | None => CNone end) other) a a ints exts world) /\
    if r_export r then write_frame C yenc jenc crs_str is_projected to_lla (r_dir r) (r_overwrite r) ints exts world fs = (fs', Err e) /\ e <> CrsMissingError
    else escapes (fun _ e => exists p, create p = Err e) src_open ortho_init env_of None (odm_images files) e.
Proof. exact odm_errors. Qed.
Print Assumptions C83_odm.

Theorem C83_rpc : forall C M R G Cam wgs84_3d create refine_rpc src_open ortho_init env_of export params gcps crs r srcs fs fs' e,
  rpc_command C M R G Cam wgs84_3d create refine_rpc src_open ortho_init env_of export params gcps crs r srcs fs = (fs', Err e) -> user_error e ->
  exists st, (exists p, params = Ok p) /\ (forall g, gcps = Some g -> exists d, g = Ok d) /\
  if r_export r then export st fs = (fs', Err e) /\ e <> CrsMissingError
  else escapes (fun _ e => exists m q, create crs m q = Err e) src_open ortho_init env_of (r_dem r) srcs e.
Proof. exact rpc_errors. Qed.
Print Assumptions C83_rpc.

(** C83: and for 'oty sharpen', where an existing output file is a click error too. *)
Theorem C83_sharpen : forall pan ms pi mi init e path ow b fs fs' x,
  sharpen_command pan ms pi mi init e path ow b fs = (fs', Err x) -> user_error x \/ x = FileExistsError ->
  (x <> FileNotFoundError /\ (pan = Err x \/ ms = Err x)) \/
  (x = FileNotFoundError /\ (init = Err x \/ exists s, raises e s = Some x)).
Proof. exact sharpen_errors. Qed.
Print Assumptions C83_sharpen.

Theorem C83_sharpen_ok : forall pan ms pi mi init e path ow b fs fs',
  sharpen_command pan ms pi mi init e path ow b fs = (fs', Ok tt) <->
  exists pc mc, pan = Ok pc /\ ms = Ok mc /\ (1 <= pi <= pc)%Z /\ (forall i, In i mi -> (1 <= i <= mc)%Z) /\ init = Ok tt /\
    pan_process e path ow b fs = (fs', Ok tt).
Proof. exact sharpen_ok. Qed.
Print Assumptions C83_sharpen_ok.

Theorem C83_sharpen_exists : forall pan ms pi mi init e path b fs content,
  dget path fs = Some content -> (forall s, raises e s = None) -> init = Ok tt ->
  forall pc mc, pan = Ok pc -> ms = Ok mc -> (1 <= pi <= pc)%Z -> (forall i, In i mi -> (1 <= i <= mc)%Z) ->
  sharpen_command pan ms pi mi init e path false b fs = (fs, Err UsageError).
Proof. exact sharpen_exists. Qed.
Print Assumptions C83_sharpen_exists.

(** C83: errors of reading parameters change no file, and become these click errors. *)
Theorem C83_frame_reading : forall C crs_parse ydec jdec K csv_reader osfm_reader yenc jenc crs_str is_projected to_lla I create src_open ortho_init env_of other int_file ext_file crs r srcs fs seen e,
  read_param C crs_parse ydec jdec K csv_reader osfm_reader fs (Io (match crs with Some c => CCrs c | None => CNone end) other)
    (AFile int_file) (AFile ext_file) [] = (seen, Err e) ->
  exists e', frame_command C crs_parse ydec jdec K csv_reader osfm_reader yenc jenc crs_str is_projected to_lla I create src_open ortho_init env_of other int_file ext_file crs r srcs fs = (fs, Err e') /\
    (e = CrsMissingError -> e' = MissingParameter) /\ (e = CrsError -> e' = BadParameter) /\
    (In e [FileNotFoundError; ParamError; OrthorityError] -> e' = UsageError) /\ (~ user_error e -> e' = e).
Proof. exact frame_read_error. Qed.
Print Assumptions C83_frame_reading.

Theorem C83_exif_reading : forall C K exif_reader yenc jenc crs_str is_projected to_lla I create src_open ortho_init env_of other crs r srcs fs e,
  exif_reader srcs [("crs", match crs with Some c => OCrs c | None => ONone end); ("lla_crs", OOther other)] = Err e ->
  exif_command C K exif_reader yenc jenc crs_str is_projected to_lla I create src_open ortho_init env_of other crs r srcs fs =
    (fs, Err (match e with FileNotFoundError | ParamError | OrthorityError | CrsError | CrsMissingError => BadParameter | _ => e end)).
Proof. exact exif_read_error. Qed.
Print Assumptions C83_exif_reading.

Theorem C83_odm_reading : forall C crs_parse ydec jdec K csv_reader osfm_reader yenc jenc crs_str is_projected to_lla I create src_open ortho_init env_of other dataset files count dsm_crs crs r fs seen e,
  let a := AFile (FOpenFile 0 (pjoin dataset "opensfm/reconstruction.json")) in
  let given := match crs with Some c => Some c | None => dsm_crs end in
  odm_images files <> [] ->
  read_param C crs_parse ydec jdec K csv_reader osfm_reader fs (Io (match given with Some c => CCrs c | None => CNone end) other) a a [] = (seen, Err e) ->
  exists e', odm_command C crs_parse ydec jdec K csv_reader osfm_reader yenc jenc crs_str is_projected to_lla I create src_open ortho_init env_of other dataset files (Ok (count, dsm_crs)) crs r fs = (fs, Err e') /\
    (e = FileNotFoundError -> e' = BadParameter) /\
    (In e [ParamError; OrthorityError; CrsError; CrsMissingError] -> e' = UsageError) /\ (~ user_error e -> e' = e).
Proof. exact odm_read_error. Qed.
Print Assumptions C83_odm_reading.

Theorem C83_odm_input : forall C crs_parse ydec jdec K csv_reader osfm_reader yenc jenc crs_str is_projected to_lla I create src_open ortho_init env_of other dataset files dsm crs r fs,
  (odm_images files = [] \/ dsm = Err FileNotFoundError) -> odm_command C crs_parse ydec jdec K csv_reader osfm_reader yenc jenc crs_str is_projected to_lla I create src_open ortho_init env_of other dataset files dsm crs r fs = (fs, Err BadParameter).
Proof. exact odm_no_input. Qed.
Print Assumptions C83_odm_input.

Theorem C83_rpc_reading : forall C M R G Cam wgs84_3d create refine_rpc src_open ortho_init env_of export e gcps crs r srcs fs,
  let e' := match e with FileNotFoundError | ParamError | OrthorityError | CrsError | CrsMissingError => BadParameter | _ => e end in
  rpc_command C M R G Cam wgs84_3d create refine_rpc src_open ortho_init env_of export (Err e) gcps crs r srcs fs = (fs, Err e') /\
  forall params, rpc_command C M R G Cam wgs84_3d create refine_rpc src_open ortho_init env_of export (Ok params) (Some (Err e)) crs r srcs fs = (fs, Err e').
Proof. exact rpc_read_error. Qed.
Print Assumptions C83_rpc_reading.

Theorem C83_rpc_refining : forall C M R G Cam wgs84_3d create refine_rpc src_open ortho_init env_of export params g crs r srcs fs (st : rstate M R G Cam) e,
  rpc_refine refine_rpc g (rpc_init params) = (st, Err e) ->
  rpc_command C M R G Cam wgs84_3d create refine_rpc src_open ortho_init env_of export (Ok params) (Some (Ok g)) crs r srcs fs =
  (fs, Err (match e with FileNotFoundError | ParamError | OrthorityError | CrsError | CrsMissingError => BadParameter | _ => e end)).
Proof. exact rpc_refine_error. Qed.
Print Assumptions C83_rpc_refining.

(** C83: but exporting parameters whose CRS is not a projected one is a raw CrsError, once the interior parameters are written. *)
Theorem C83_export_refuted : forall C crs_parse ydec jdec K csv_reader osfm_reader yenc jenc crs_str is_projected to_lla I create src_open ortho_init env_of other int_file ext_file crs r srcs fs fs1 ints exts world,
  consistent int_file ext_file -> r_export r = true ->
  loads C crs_parse ydec jdec K csv_reader osfm_reader fs (Io (match crs with Some c => CCrs c | None => CNone end) other)
    (AFile int_file) (AFile ext_file) ints exts (Some world) ->
  is_projected world = false ->
  write_int_param yenc (pjoin (r_dir r) "int_param.yaml") ints (r_overwrite r) fs = (fs1, Ok tt) ->
  frame_command C crs_parse ydec jdec K csv_reader osfm_reader yenc jenc crs_str is_projected to_lla I create src_open ortho_init env_of other int_file ext_file crs r srcs fs = (fs1, Err CrsError).
Proof. exact export_geographic. Qed.
Print Assumptions C83_export_refuted.

Example C83_case :
  let r := Rest true None 1 "out" false true in
  snd (demo_frame None r demo_fs) = Err CrsError /\ dget "out/int_param.yaml" (fst (demo_frame None r demo_fs)) = Some "x" /\
  snd (demo_frame None r [("int.yaml", "int")]) = Err UsageError /\
  sharpen_command (Ok 1%Z) (Ok 4%Z) 1 [3; 2; 1]%Z (Ok tt) (Env (fun _ => None) (fun _ => "image")) "o.tif" false true [] = ([("o.tif", "image")], Ok tt) /\
  user_error CrsError.
Proof. cbv zeta. repeat split; try reflexivity. unfold user_error. cbn. tauto. Qed.

(** C84: the '--crs' option is the CRS of an image, of a text file, or of the text itself; and otherwise it is refused. *)
Theorem C84_crs : forall C crs_parse image_crs exists_ is_uri read_text s (c : option C),
  crs_cb C crs_parse image_crs exists_ is_uri read_text (Some s) = Ok c <-> crs_of crs_parse image_crs exists_ is_uri read_text s c.
Proof. exact crs_cb_iff. Qed.
Print Assumptions C84_crs.

Theorem C84_crs_error : forall C (crs_parse : string -> option C) image_crs exists_ is_uri read_text arg e,
  crs_cb C crs_parse image_crs exists_ is_uri read_text arg = Err e -> e = BadParameter.
Proof. exact crs_cb_err. Qed.
Print Assumptions C84_crs_error.

(** C84: '--lla-crs' has to be a geographic one. *)
Theorem C84_lla_crs : forall C crs_parse image_crs exists_ is_uri read_text is_geographic s (c : option C),
  lla_crs_cb C crs_parse image_crs exists_ is_uri read_text is_geographic (Some s) = Ok c <->
  exists x, c = Some x /\ crs_of crs_parse image_crs exists_ is_uri read_text s (Some x) /\ is_geographic x = true.
Proof. exact lla_cb_iff. Qed.
Print Assumptions C84_lla_crs.

(** C84: but with an image that has no CRS, '--crs' is taken as if it was not there, and '--lla-crs' is a raw AttributeError. *)
Theorem C84_image_refuted : forall C (crs_parse : string -> option C) image_crs exists_ is_uri read_text is_geographic s,
  tiff s -> image_crs s = Ok None ->
  crs_cb C crs_parse image_crs exists_ is_uri read_text (Some s) = crs_cb C crs_parse image_crs exists_ is_uri read_text None /\
  lla_crs_cb C crs_parse image_crs exists_ is_uri read_text is_geographic (Some s) = Err AttributeError.
Proof. exact crs_cb_ignored. Qed.
Print Assumptions C84_image_refuted.

(** C84: and a text for which the file system refuses to say if it is a file is refused, whatever CRS it is. *)
Theorem C84_text_refuted : forall C (crs_parse : string -> option C) image_crs exists_ is_uri read_text s e,
  ~ tiff s -> exists_ s = Err e -> crs_cb C crs_parse image_crs exists_ is_uri read_text (Some s) = Err BadParameter.
Proof. exact crs_cb_long. Qed.
Print Assumptions C84_text_refuted.

(** C84: source arguments give one or more files, when there are any arguments. *)
Theorem C84_sources : forall F open_files args (l : list F), src_files_cb F open_files args = Ok l <->
  (args = [] /\ l = []) \/ (args <> [] /\ l <> [] /\ open_files args = Ok l).
Proof. exact src_files_iff. Qed.
Print Assumptions C84_sources.

(** C84: a folder option is a folder, whatever slashes it ends with; and anything else is refused. *)
Theorem C84_folder : forall F fopen is_dir s (f : F),
  dir_cb F fopen is_dir s = Ok f <-> exists t, without_slashes s t /\ fopen t = Ok f /\ is_dir f = true.
Proof. exact dir_cb_parts. Qed.
Print Assumptions C84_folder.

Theorem C84_folder_error : forall F fopen is_dir s e, dir_cb F fopen is_dir s = Err e -> e = BadParameter.
Proof. exact dir_cb_err. Qed.
Print Assumptions C84_folder_error.

(** C84: so the root folder is taken as the empty path. *)
Theorem C84_root_refuted : forall F fopen is_dir, dir_cb F fopen is_dir "/" = dir_cb F fopen is_dir "".
Proof. exact dir_root. Qed.
Print Assumptions C84_root_refuted.

(** C84: the outputs of 'oty odm' are in the folder of the option, or in a folder that is made in the dataset. *)
Theorem C84_odm_folder : forall F fopen is_dir join mkdirs d arg (f : F), odm_out_dir_cb F fopen is_dir join mkdirs d arg = Ok f ->
  ((arg = None \/ arg = Some "") /\ f = join d "orthority" /\ mkdirs f = Ok tt) \/
  exists s t, arg = Some s /\ s <> "" /\ without_slashes s t /\ fopen t = Ok f /\ is_dir f = true.
Proof. exact odm_dir. Qed.
Print Assumptions C84_odm_folder.

(** C84: '--gcp-refine tags' is for the GCPs of the sources, in any case of letters; other values are files. *)
Theorem C84_gcp_tags : forall F fopen s, any_case s "tags" -> gcp_refine_cb F fopen (Some s) = Ok (GcpTags F).
Proof. exact gcp_cb_tags. Qed.
Print Assumptions C84_gcp_tags.

Theorem C84_gcp_file : forall F fopen s (f : F), ~ any_case s "tags" ->
  (gcp_refine_cb F fopen (Some s) = Ok (GcpFile F f) <-> s <> "" /\ fopen s = Ok f).
Proof. exact gcp_cb_file. Qed.
Print Assumptions C84_gcp_file.

Example C84_case :
  let cb := crs_cb string (fun s => if String.eqb s "bad" then None else Some s) (fun s => Ok (if String.eqb s "no.tif" then None else Some "image"))
              (fun s => Ok (String.eqb s "crs.txt")) (fun _ => false) (fun _ => Ok "text") in
  cb (Some "a/b.TIF") = Ok (Some "image") /\ cb (Some "no.tif") = Ok None /\ cb (Some "crs.txt") = Ok (Some "text") /\
  cb (Some "EPSG:4326") = Ok (Some "EPSG:4326") /\ cb (Some "bad") = Err BadParameter /\
  tiff "a/b.TIF" /\
  dir_cb string (fun s => Ok s) (fun s => String.eqb s "a/b") "a/b//" = Ok "a/b" /\
  gcp_refine_cb string (fun s => Ok s) (Some "TAGS") = Ok (GcpTags string) /\ gcp_refine_cb string (fun s => Ok s) (Some "tags.json") = Ok (GcpFile string "tags.json").
Proof. cbv zeta. repeat split; try reflexivity. apply tiff_iff. reflexivity. Qed.

(** C85: whatever happens, a command writes no file but its outputs, keeps existing files unless it is told to overwrite, and deletes
    none. *)
Theorem C85_frame : forall C crs_parse ydec jdec K csv_reader osfm_reader yenc jenc crs_str is_projected to_lla I create src_open ortho_init env_of other int_file ext_file crs r srcs,
  only_writes (frame_command C crs_parse ydec jdec K csv_reader osfm_reader yenc jenc crs_str is_projected to_lla I create src_open ortho_init env_of other int_file ext_file crs r srcs)
    (outputs (r_export r) ["int_param.yaml"; "ext_param.geojson"] (r_dir r) srcs) (r_overwrite r).
Proof. exact frame_only. Qed.
Print Assumptions C85_frame.

Theorem C85_exif : forall C K exif_reader yenc jenc crs_str is_projected to_lla I create src_open ortho_init env_of other crs r srcs,
  only_writes (exif_command C K exif_reader yenc jenc crs_str is_projected to_lla I create src_open ortho_init env_of other crs r srcs)
    (outputs (r_export r) ["int_param.yaml"; "ext_param.geojson"] (r_dir r) srcs) (r_overwrite r).
Proof. exact exif_only. Qed.
Print Assumptions C85_exif.

Theorem C85_odm : forall C crs_parse ydec jdec K csv_reader osfm_reader yenc jenc crs_str is_projected to_lla I create src_open ortho_init env_of other dataset files dsm crs r,
  only_writes (odm_command C crs_parse ydec jdec K csv_reader osfm_reader yenc jenc crs_str is_projected to_lla I create src_open ortho_init env_of other dataset files dsm crs r)
    (outputs (r_export r) ["int_param.yaml"; "ext_param.geojson"] (r_dir r) (odm_images files)) (r_overwrite r).
Proof. exact odm_only. Qed.
Print Assumptions C85_odm.

(** C85: the same for 'oty rpc', whose export does so (next theorem). *)
Theorem C85_rpc : forall C M R G Cam wgs84_3d create refine_rpc src_open ortho_init env_of export params gcps crs r srcs files,
  (forall st, only_writes (export st) (fun p => exists f, In f files /\ p = pjoin (r_dir r) f) (r_overwrite r)) ->
  only_writes (rpc_command C M R G Cam wgs84_3d create refine_rpc src_open ortho_init env_of export params gcps crs r srcs) (outputs (r_export r) files (r_dir r) srcs) (r_overwrite r).
Proof. exact rpc_only. Qed.
Print Assumptions C85_rpc.

Theorem C85_rpc_export : forall yenc jenc dir ow params gcps,
  only_writes (write_rpc yenc jenc dir ow params gcps) (fun p => exists f, In f ["rpc_param.yaml"; "gcps.geojson"] /\ p = pjoin dir f) ow.
Proof. exact write_rpc_only. Qed.
Print Assumptions C85_rpc_export.

Theorem C85_sharpen : forall pan ms pi mi init e path ow b, only_writes (sharpen_command pan ms pi mi init e path ow b) (fun p => p = path) ow.
Proof. exact sharpen_only. Qed.
Print Assumptions C85_sharpen.

Example C85_case :
  let r := Rest false (Some (Ok 1%Z)) 1 "out" false true in
  let fs := ("out/im_ORTHO.tif", "old") :: demo_fs in
  demo_frame None r fs = (fs, Err UsageError) /\
  dget "out/im_ORTHO.tif" (fst (demo_frame None (Rest false (Some (Ok 1%Z)) 1 "out" true true) fs)) = Some "camera at 1 2 3 in file" /\
  outputs false ["int_param.yaml"; "ext_param.geojson"] "out" ["a/im.tif"] "out/im_ORTHO.tif".
Proof. cbv zeta. split; [reflexivity|]. split; [reflexivity|]. exists "a/im.tif". split; [left; reflexivity|reflexivity]. Qed.

(** C86: with '--export-params', a command succeeds just when it reads its parameters and the export succeeds; what is exported are
    those parameters, with their CRS, and no ortho image is made. *)
Theorem C86_frame : forall C crs_parse ydec jdec K csv_reader osfm_reader yenc jenc crs_str is_projected to_lla I create src_open ortho_init env_of other int_file ext_file crs r srcs fs fs', consistent int_file ext_file -> r_export r = true ->
  (frame_command C crs_parse ydec jdec K csv_reader osfm_reader yenc jenc crs_str is_projected to_lla I create src_open ortho_init env_of other int_file ext_file crs r srcs fs = (fs', Ok tt) <->
   exists ints exts world,
    loads C crs_parse ydec jdec K csv_reader osfm_reader fs (Io (match crs with Some c => CCrs c | None => CNone end) other)
      (AFile int_file) (AFile ext_file) ints exts world /\
    write_frame C yenc jenc crs_str is_projected to_lla (r_dir r) (r_overwrite r) ints exts world fs = (fs', Ok tt)).
Proof. exact frame_export. Qed.
Print Assumptions C86_frame.

Theorem C86_exif : forall C K exif_reader yenc jenc crs_str is_projected to_lla I create src_open ortho_init env_of other crs r srcs fs fs', r_export r = true ->
  (exif_command C K exif_reader yenc jenc crs_str is_projected to_lla I create src_open ortho_init env_of other crs r srcs fs = (fs', Ok tt) <->
   exists ints exts world,
    exif_reader srcs [("crs", match crs with Some c => OCrs c | None => ONone end); ("lla_crs", OOther other)] = Ok (ints, exts, world) /\
    write_frame C yenc jenc crs_str is_projected to_lla (r_dir r) (r_overwrite r) ints exts world fs = (fs', Ok tt)).
Proof. exact exif_export. Qed.
Print Assumptions C86_exif.

Theorem C86_odm : forall C crs_parse ydec jdec K csv_reader osfm_reader yenc jenc crs_str is_projected to_lla I create src_open ortho_init env_of other dataset files dsm crs r fs fs', r_export r = true ->
  (odm_command C crs_parse ydec jdec K csv_reader osfm_reader yenc jenc crs_str is_projected to_lla I create src_open ortho_init env_of other dataset files dsm crs r fs = (fs', Ok tt) <->
   odm_images files <> [] /\ exists count dsm_crs ints exts world, dsm = Ok (count, dsm_crs) /\
    (let a := AFile (FOpenFile 0 (pjoin dataset "opensfm/reconstruction.json")) in
     let given := match crs with Some c => Some c | None => dsm_crs end in
     loads C crs_parse ydec jdec K csv_reader osfm_reader fs (Io (match given with Some c => CCrs c | None => CNone end) other) a a ints exts world) /\
    write_frame C yenc jenc crs_str is_projected to_lla (r_dir r) (r_overwrite r) ints exts world fs = (fs', Ok tt)).
Proof. exact odm_export. Qed.
Print Assumptions C86_odm.

(** C86: what 'oty rpc' exports are the refined models, with the GCPs. *)
Theorem C86_rpc : forall C M R G Cam wgs84_3d create refine_rpc src_open ortho_init env_of export (params : dict (M * R)) gcps crs r srcs fs fs',
  NoDup (dkeys params) -> (forall f, In f (dkeys params) -> Factory_Spec.last_part f f) -> r_export r = true ->
  rpc_command C M R G Cam wgs84_3d create refine_rpc src_open ortho_init env_of export (Ok params) (option_map Ok gcps) crs r srcs fs = (fs', Ok tt) ->
  exists st, refined refine_rpc params gcps (r_param st) /\ r_gcps st = gcps /\ export st fs = (fs', Ok tt).
Proof. exact rpc_export. Qed.
Print Assumptions C86_rpc.

Example C86_case :
  let out := odm_command string (fun s => Some s) (fun _ => None) (fun _ => Some demo_geojson) unit (fun _ _ _ => Err ParamError)
    (fun kw _ => Ok ([("cam", [])], [("im", [("camera", MV PNone); ("xyz", MTup [PInt 1; PInt 2; PInt 3]); ("opk", MTup [PInt 0; PInt 0; PInt 0])])],
       match io_crs kw with CCrs c => c | _ => "UTM" end))
    (fun _ => ["x"]) (fun v => [match v with PDict [_; (_, PStr c); _] => c | _ => "?" end]) (fun c => c) (fun _ => true) (fun _ _ _ _ => Ok (0, 0, 0)%Q)
    unit (fun _ => Ok tt) (fun _ => Ok (Some "source")) (fun _ _ _ => Ok tt) demo_env
    tt "data" ["a/im.tif"] (Ok (1%Z, Some "DSM")) None (Rest true None 0 "out" false true) demo_fs in
  snd out = Ok tt /\ dget "out/int_param.yaml" (fst out) = Some "x" /\ dget "out/ext_param.geojson" (fst out) = Some "DSM" /\
  dget "out/im_ORTHO.tif" (fst out) = None.
Proof. cbv zeta. repeat split; reflexivity. Qed.

Example C86_rpc_case :
  let params := [("a", (1%Z, 10%Z)); ("b.tif", (2%Z, 20%Z))] in
  let show (st : rstate Z Z Z Z) : act unit := fun fs => (("out/rpc_param.yaml", if Z.eqb (fold_right (fun kv s => snd (snd kv) + s)%Z 0%Z (r_param st)) 35 then "refined" else "?") :: fs, Ok tt) in
  let out := rpc_command string Z Z Z Z "WGS84" (fun _ m q => Ok (m + q)%Z) (fun q gs => Ok (fold_right Z.add q gs)) (fun _ => Ok None) (fun _ _ _ => Ok tt)
    (fun _ _ _ => Env (fun _ => None) (fun _ => "")) show (Ok params) (Some (Ok [("b", [5%Z])])) None (Rest true None 1 "out" false true) ["a.tif"; "b.tif"] [] in
  NoDup (dkeys params) /\ out = ([("out/rpc_param.yaml", "refined")], Ok tt).
Proof.
  cbv zeta. split; [|vm_compute; reflexivity].
  repeat constructor; cbn; intuition discriminate.
Qed.
