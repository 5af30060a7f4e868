(** Property theorems: C54 CSV format, C55 CSV CRS and C67 CSV rows.  [pyfloat] is Python's number parser; CRSs, coordinate
    transformations, the dialect and header detection are arguments about which nothing is assumed unless a theorem says so. *)
From Coq Require Import String Ascii List ZArith QArith Bool.
From Verif Require Import Py Params_Model Factory_Model Str Grid_Model Grid_Spec Read_Spec Csv_Model Csv_Spec Csv_Proof.
Import ListNotations.
Open Scope string_scope.
Open Scope list_scope.

(** C54: the field names are those of the user, the header or the default ones, and decide the format. *)
Theorem C54_format : forall fields header first names fmt, parse_file fields header first = Ok (names, fmt) <->
  exists raw, names_of first fields header raw /\ names = map (fun n => lower (strip white n)) raw /\ format_of names fmt.
Proof. exact parse_file_ok. Qed.
Print Assumptions C54_format.

(** C54: names that make no format are a parameter error. *)
Theorem C54_error : forall fields header first,
  (forall raw fmt, names_of first fields header raw -> ~ format_of (map (fun n => lower (strip white n)) raw) fmt) ->
  parse_file fields header first = Err ParamError.
Proof. exact parse_file_err. Qed.
Print Assumptions C54_error.

(** C54: the format depends on the set of recognised names only, not on order, repeats or other names. *)
Theorem C54_set : forall f f', (forall k, In k recognised -> (In k f <-> In k f')) -> parse_fieldnames f = parse_fieldnames f'.
Proof. exact format_set. Qed.
Print Assumptions C54_set.

(** C54: another name anywhere has no effect. *)
Theorem C54_unknown : forall l1 l2 x, ~ In x recognised -> parse_fieldnames (l1 ++ x :: l2) = parse_fieldnames (l1 ++ l2).
Proof. exact format_insert. Qed.
Print Assumptions C54_unknown.

Example C54_case :
  parse_file None true [" Kappa"; "PHI"; "x"; "note"; "roll"; "y"; "z"; "omega"; "pitch"; "FileName "; "yaw"] =
    Ok (["kappa"; "phi"; "x"; "note"; "roll"; "y"; "z"; "omega"; "pitch"; "filename"; "yaw"], XyzOpk) /\
  parse_file None false ["im.tif"; "1"; "2"; "3"; "4"; "5"; "6"] = Ok (legacy_fieldnames, XyzOpk) /\
  parse_file (Some ["filename"; "latitude"; "longitude"; "altitude"; "roll"; "pitch"; "yaw"; "omega"]) true ["a"; "b"] =
    Ok (["filename"; "latitude"; "longitude"; "altitude"; "roll"; "pitch"; "yaw"; "omega"], LlaRpy) /\
  parse_file None true ["filename"; "x"; "y"; "omega"; "phi"; "kappa"] = Err ParamError.
Proof. repeat split; reflexivity. Qed.

(** C55: a CRS of the user is used, whatever the file and its .prj file hold. *)
Theorem C55_user : forall pyfloat C epsg is_projected is_geographic prj_of c lla fields path header rows rd,
  csv_init pyfloat C epsg is_projected is_geographic prj_of (ACrs c) lla fields path header rows = Ok rd ->
  rd_crs rd = Some c /\ is_projected c = true.
Proof. exact csv_user_crs. Qed.
Print Assumptions C55_user.

(** C55: with a CRS of the user, the path and .prj file have no effect. *)
Theorem C55_user_only : forall pyfloat C epsg is_projected is_geographic prj_of prj_of' c lla fields path path' header rows,
  csv_init pyfloat C epsg is_projected is_geographic prj_of (ACrs c) lla fields path header rows =
  csv_init pyfloat C epsg is_projected is_geographic prj_of' (ACrs c) lla fields path' header rows.
Proof. exact csv_user_only. Qed.
Print Assumptions C55_user_only.

(** C55: a world CRS that is not projected, a geographic CRS that is not geographic, and text that is no CRS are CRS errors. *)
Theorem C55_refused : forall pyfloat C epsg is_projected is_geographic prj_of crs lla fields path header rows,
  crs = BadCrs \/ lla = BadCrs \/ (exists c, crs = ACrs c /\ is_projected c = false) \/ (exists c, lla = ACrs c /\ is_geographic c = false) ->
  csv_init pyfloat C epsg is_projected is_geographic prj_of crs lla fields path header rows = Err CrsError.
Proof. exact csv_bad_crs. Qed.
Print Assumptions C55_refused.

(** C55: without one, (x, y, z) files have the CRS of their .prj file, and none only for (omega, phi, kappa) angles without a .prj
    file; (latitude, longitude, altitude) with (omega, phi, kappa) is never read. *)
Theorem C55_rule : forall pyfloat C epsg is_projected is_geographic prj_of lla fields path header rows rd,
  csv_init pyfloat C epsg is_projected is_geographic prj_of NoCrs lla fields path header rows = Ok rd ->
  match rd_format rd with
  | XyzOpk => (exists p c, path = Some p /\ prj_of (prj_path p) = PrjCrs c /\ is_projected c = true /\ rd_crs rd = Some c) \/
              ((forall p, path = Some p -> prj_of (prj_path p) = PrjMissing) /\ rd_crs rd = None)
  | XyzRpy => exists p c, path = Some p /\ prj_of (prj_path p) = PrjCrs c /\ is_projected c = true /\ rd_crs rd = Some c
  | LlaRpy => exists c, find_lla_rpy_crs pyfloat C epsg (rd_fields rd) header rows = Ok c /\ rd_crs rd = Some c
  | LlaOpk => False
  end.
Proof. exact csv_crs_rule. Qed.
Print Assumptions C55_rule.

(** C55: the CRS of (latitude, longitude, altitude) with (roll, pitch, yaw) is the UTM zone of the mean position, north or south. *)
Theorem C55_utm : forall pyfloat C epsg is_projected is_geographic prj_of lla fields path header rows rd, NoDup (rd_fields rd) ->
  csv_init pyfloat C epsg is_projected is_geographic prj_of NoCrs lla fields path header rows = Ok rd -> rd_format rd = LlaRpy ->
  exists latlons zone code, latlons <> [] /\
    Forall2 (fun row ll => num_cell pyfloat (rd_fields rd) row "latitude" (fst ll) /\ num_cell pyfloat (rd_fields rd) row "longitude" (snd ll))
      (if header then tl rows else rows) latlons /\
    (1 <= zone <= 60)%Z /\ in_utm_zone zone (qmean (map snd latlons)) /\
    ((0 <= qmean (map fst latlons))%Q -> code = (32600 + zone)%Z) /\ ((qmean (map fst latlons) < 0)%Q -> code = (32700 + zone)%Z) /\
    rd_crs rd = Some (epsg code).
Proof. exact csv_utm_rule. Qed.
Print Assumptions C55_utm.

(** C55: formats that need a CRS and have none are a missing CRS error. *)
Theorem C55_missing : forall pyfloat C epsg is_projected is_geographic prj_of lla fields path header rows names fmt,
  parse_crs C is_geographic lla <> Err CrsError -> parse_file fields header (hd [] rows) = Ok (names, fmt) ->
  (fmt = LlaOpk \/ (fmt = XyzRpy /\ forall p, path = Some p -> prj_of (prj_path p) = PrjMissing)) ->
  csv_init pyfloat C epsg is_projected is_geographic prj_of NoCrs lla fields path header rows = Err CrsMissingError.
Proof. exact csv_crs_missing. Qed.
Print Assumptions C55_missing.

(** C55: the CRS of a reader is always projected, given that UTM CRSs are. *)
Theorem C55_projected : forall pyfloat C epsg is_projected is_geographic prj_of crs lla fields path header rows rd c,
  (forall lat lon, is_projected (epsg (utm_crs_from_latlon lat lon)) = true) ->
  csv_init pyfloat C epsg is_projected is_geographic prj_of crs lla fields path header rows = Ok rd -> rd_crs rd = Some c -> is_projected c = true.
Proof. exact csv_projected. Qed.
Print Assumptions C55_projected.

(** C55: the .prj file is beside the file, with the same name before the extension... *)
Theorem C55_prj : forall base ext, ~ In "."%char (list_ascii_of_string ext) -> prj_path (base ++ "." ++ ext)%string = (base ++ ".prj")%string.
Proof. exact prj_extension. Qed.
Print Assumptions C55_prj.

(** ... but not for files without an extension, whose last character is dropped (and [C55_prj] shows a dot in the name of a
    directory being taken for the extension: then the .prj file is not in the directory). *)
Theorem C55_prj_refuted : forall base c, ~ In "."%char (list_ascii_of_string (base ++ String c "")%string) ->
  prj_path (base ++ String c "")%string = (base ++ ".prj")%string.
Proof. exact prj_no_extension. Qed.
Print Assumptions C55_prj_refuted.

Example C55_prj_case :
  prj_path "data/cameras" = "data/camera.prj" /\ prj_path "my.data/cameras" = "my.prj" /\ prj_path "data/cameras.csv" = "data/cameras.prj".
Proof. repeat split; reflexivity. Qed.

Definition lla_rpy_names := ["filename"; "latitude"; "longitude"; "altitude"; "roll"; "pitch"; "yaw"].

(** C55: positions on either side of the 180 degree meridian have a mean on the other side of the earth, where the zone does not
    cover any of them. *)
Theorem C55_antimeridian_refuted : forall pyfloat C epsg is_projected is_geographic prj_of,
  pyfloat "0" = Ok 0%Q -> pyfloat "179.9" = Ok (1799 # 10) -> pyfloat "-179.9" = Ok (-1799 # 10) ->
  csv_init pyfloat C epsg is_projected is_geographic prj_of NoCrs NoCrs None None true
    [lla_rpy_names; ["a.tif"; "0"; "179.9"; "0"; "0"; "0"; "0"]; ["b.tif"; "0"; "-179.9"; "0"; "0"; "0"; "0"]] =
    Ok (Reader (Some (epsg 32631)) None lla_rpy_names true LlaRpy) /\
  utm_crs_from_latlon 0 (1799 # 10) = 32660%Z /\ utm_crs_from_latlon 0 (-1799 # 10) = 32601%Z.
Proof.
  intros pyfloat C epsg is_projected is_geographic prj_of H0 H1 H2. split; [|split; reflexivity].
  cbv -[utm_crs_from_latlon qmean]. rewrite H0, H1, H2. reflexivity.
Qed.
Print Assumptions C55_antimeridian_refuted.

(** C67: a row gives the pose under its fields (every number field present has to hold a number). *)
Theorem C67_row : forall pyfloat radians from_lla to_lla rpy_to_opk fmt inrad fields row name e, NoDup fields ->
  (read_row pyfloat radians from_lla to_lla rpy_to_opk fmt inrad fields row = Ok (name, e) <->
   row_gives pyfloat radians from_lla to_lla rpy_to_opk inrad fmt fields row name e).
Proof. exact read_row_gives. Qed.
Print Assumptions C67_row.

(** C67: every row of the file after its header gives the parameters of its file name, and the last row of a name is kept. *)
Theorem C67_rows : forall pyfloat radians from_lla to_lla rpy_to_opk C (rd : reader C) inrad rows d, NoDup (rd_fields rd) ->
  read_ext_param pyfloat C radians from_lla to_lla rpy_to_opk rd inrad rows = Ok d ->
  exists items, Forall2 (fun row item => row_gives pyfloat radians from_lla to_lla rpy_to_opk inrad (rd_format rd) (rd_fields rd) row (fst item) (snd item))
                        (if rd_header rd then tl rows else rows) items /\
                map fst d = first_names (map fst items) /\ forall k, dget k d = last_named k items.
Proof. exact csv_rows. Qed.
Print Assumptions C67_rows.

(** C67: rows of different images with the same name in different directories replace each other. *)
Theorem C67_basename_refuted : forall radians from_lla to_lla rpy_to_opk C (crs : option C),
  let pyfloat := fun s => if String.eqb s "1" then Ok 1%Q else if String.eqb s "2" then Ok 2%Q else Err ValueError in
  read_ext_param pyfloat C radians from_lla to_lla rpy_to_opk (Reader crs None legacy_fieldnames false XyzOpk) true
    [["flight1/im.tif"; "1"; "1"; "1"; "1"; "1"; "1"]; ["flight2/im.tif"; "2"; "2"; "2"; "2"; "2"; "2"]] =
  Ok [("im.tif", CsvExt (2, 2, 2)%Q (2, 2, 2)%Q None)].
Proof. intros. reflexivity. Qed.
Print Assumptions C67_basename_refuted.

(** C67: a recognised field that the format does not use still has to hold numbers: an empty one stops the reading of the file. *)
Theorem C67_unused_refuted : forall radians from_lla to_lla rpy_to_opk C (crs : option C),
  let pyfloat := fun s => if String.eqb s "1" then Ok 1%Q else Err ValueError in
  parse_fieldnames (legacy_fieldnames ++ ["roll"]) = parse_fieldnames legacy_fieldnames /\
  read_ext_param pyfloat C radians from_lla to_lla rpy_to_opk (Reader crs None (legacy_fieldnames ++ ["roll"]) false XyzOpk) true
    [["im.tif"; "1"; "1"; "1"; "1"; "1"; "1"; ""]] = Err ValueError.
Proof. intros. split; reflexivity. Qed.
Print Assumptions C67_unused_refuted.

Example C67_case :
  let pyfloat := fun s => if String.eqb s "1" then Ok 1%Q else if String.eqb s "2" then Ok 2%Q else Err ValueError in
  read_ext_param pyfloat nat (fun q => q * (1 # 60))%Q (fun t => t) (fun t => t) (fun rpy lla => rpy)
    (Reader (Some 0%nat) None ["filename"; "latitude"; "camera"; "longitude"; "altitude"; "roll"; "pitch"; "yaw"] true LlaRpy) false
    [["filename"]; ["a/im1.tif"; "1"; "cam"; "2"; "1"; "1"; "2"; "1"]; ["im2.tif"; "2"; ""; "2"; "2"; "1"; "1"; "1"]] =
  Ok [("im1.tif", CsvExt (1, 2, 1)%Q (1 # 60, 2 # 60, 1 # 60)%Q (Some "cam"));
      ("im2.tif", CsvExt (2, 2, 2)%Q (1 # 60, 1 # 60, 1 # 60)%Q (Some ""))].
Proof. reflexivity. Qed.
