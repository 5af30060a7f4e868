(** Model of the CSV exterior parameter reader (orthority/param_io.py:860-1157).  Floats are rationals; the CSV dialect and
    header detection, number parsing, CRSs and coordinate transformations are arguments. *)
From Coq Require Import String Ascii List ZArith QArith Bool.
From Verif Require Import Py Params_Model Factory_Model Str Grid_Model.
Import ListNotations.
Open Scope string_scope.
Open Scope list_scope.

(** enums.py:123-143 [CsvFormat]. *)
Inductive csv_format := XyzOpk | XyzRpy | LlaOpk | LlaRpy.
Definition is_xyz (f : csv_format) : bool := match f with XyzOpk | XyzRpy => true | _ => false end.
Definition is_opk (f : csv_format) : bool := match f with XyzOpk | LlaOpk => true | _ => false end.

Definition has (name : string) (fields : list string) : bool := existsb (String.eqb name) fields.
Definition has_all (names fields : list string) : bool := forallb (fun n => has n fields) names.

(** param_io.py:998-1027 [_parse_fieldnames]. *)
Definition parse_fieldnames (fields : list string) : res csv_format :=
  if negb (has "filename" fields) then Err ParamError else
  let has_xyz := has_all ["x"; "y"; "z"] fields in
  let has_lla := has_all ["latitude"; "longitude"; "altitude"] fields in
  let has_opk := has_all ["omega"; "phi"; "kappa"] fields in
  let has_rpy := has_all ["roll"; "pitch"; "yaw"] fields in
  if negb (has_xyz || has_lla) then Err ParamError else
  if negb (has_opk || has_rpy) then Err ParamError else
  Ok match has_xyz, has_opk with
     | true, true => XyzOpk
     | true, false => XyzRpy
     | false, true => LlaOpk
     | false, false => LlaRpy
     end.

(** param_io.py:959 [_legacy_fieldnames]. *)
Definition legacy_fieldnames : list string := ["filename"; "x"; "y"; "z"; "omega"; "phi"; "kappa"].

(** param_io.py:1029-1059 [_parse_file]: [fields] are the user's field names, [has_header] is the sniffed header and [first] the
    first row of the file (empty when there is none). *)
Definition parse_file (fields : option (list string)) (has_header : bool) (first : list string) : res (list string * csv_format) :=
  let names := match fields with
               | Some (n :: ns) => n :: ns
               | _ => if has_header then first else legacy_fieldnames
               end in
  let names := map (fun n => lower (strip white n)) names in
  do fmt <- parse_fieldnames names;
  Ok (names, fmt).

Section Csv.
Variable pyfloat : string -> res Q.  (* float(s) *)

(** The fields of [_type_schema] (param_io.py:943-958) that are numbers. *)
Definition number_fields : list string :=
  ["x"; "y"; "z"; "latitude"; "longitude"; "altitude"; "omega"; "phi"; "kappa"; "roll"; "pitch"; "yaw"].

(** A row of [csv.DictReader]: values by field, [None] for fields that a short row does not have.  Values without a field, which
    are never used, are left out. *)
Definition dict_row (fields row : list string) : dict (option string) :=
  dict_of (map (fun ic => (fst ic, nth_error row (snd ic))) (combine fields (seq 0 (List.length fields)))).

(** [{k: _type_schema[k](v) for k, v in row.items() if k in _type_schema}], the numbers. *)
Definition convert_row (row : dict (option string)) : res (dict Q) :=
  do items <- mapM (fun kv => match snd kv with
                              | Some s => do q <- pyfloat s; Ok (fst kv, q)
                              | None => Err TypeError
                              end)
                   (filter (fun kv => has (fst kv) number_fields) row);
  Ok (dict_of items).

Definition number (k : string) (row : dict Q) : res Q := match dget k row with Some q => Ok q | None => Err KeyError end.
Definition three_of (a b c : string) (row : dict Q) : res (Q * Q * Q) :=
  do x <- number a row; do y <- number b row; do z <- number c row; Ok (x, y, z).

(** The rows after the header, if there is one.  [rows] are all rows of the file that are not empty. *)
Definition data_rows (has_header : bool) (rows : list (list string)) : res (list (list string)) :=
  if has_header then match rows with [] => Err StopIteration | _ :: r => Ok r end else Ok rows.

Variable C : Type.                  (* CRSs *)
Variable epsg : Z -> C.             (* CRS.from_epsg *)
Variable is_projected : C -> bool.
Variable is_geographic : C -> bool.

(** The mean of positions is rounded in floats; the model's is exact. *)
Definition qmean (l : list Q) : Q := fold_right Qplus 0%Q l / inject_Z (Z.of_nat (List.length l)).

(** param_io.py:1061-1076 [_find_lla_rpy_crs].  The mean of no positions is a single NaN, that can not be unpacked. *)
Definition find_lla_rpy_crs (fields : list string) (has_header : bool) (rows : list (list string)) : res C :=
  do rows <- data_rows has_header rows;
  do latlons <- mapM (fun row => do r <- convert_row (dict_row fields row);
                                 do lat <- number "latitude" r; do lon <- number "longitude" r; Ok (lat, lon)) rows;
  match latlons with
  | [] => Err TypeError
  | _ => Ok (epsg (utm_crs_from_latlon (qmean (map fst latlons)) (qmean (map snd latlons))))
  end.

(** [path[: path.rfind('.')] + '.prj']: without a dot, [rfind] gives -1 and the slice drops the last character. *)
Definition prj_path (path : string) : string :=
  (match rfind "." path with
   | Some i => substring 0 i path
   | None => substring 0 (String.length path - 1) path
   end ++ ".prj")%string.

(** Reading and interpreting a .prj file: it does not exist, holds no CRS, or holds one. *)
Inductive prj := PrjMissing | PrjBad | PrjCrs (c : C).
Variable prj_of : string -> prj.

(** param_io.py:1078-1117 [_get_crs]; [path] is [None] when the file is a file object. *)
Definition get_crs (path : option string) (fmt : csv_format) (fields : list string) (has_header : bool)
    (rows : list (list string)) : res (option C) :=
  match fmt with
  | XyzOpk | XyzRpy =>
    do crs <- match path with
              | None => Ok None
              | Some p => match prj_of (prj_path p) with
                          | PrjMissing => Ok None
                          | PrjBad => Err ParamError
                          | PrjCrs c => if is_projected c then Ok (Some c) else Err ParamError
                          end
              end;
    match crs, fmt with
    | None, XyzRpy => Err CrsMissingError
    | _, _ => Ok crs
    end
  | LlaRpy => do c <- find_lla_rpy_crs fields has_header rows; Ok (Some c)
  | LlaOpk => Err CrsMissingError
  end.

(** A CRS argument: not given, text that is not a CRS, or a CRS. *)
Inductive crs_arg := NoCrs | BadCrs | ACrs (c : C).

(** param_io.py:876-893 [_parse_crss]. *)
Definition parse_crs (ok : C -> bool) (a : crs_arg) : res (option C) :=
  match a with
  | NoCrs => Ok None
  | BadCrs => Err CrsError
  | ACrs c => if ok c then Ok (Some c) else Err CrsError
  end.

(** What a reader knows after its construction. *)
Record reader := Reader { rd_crs : option C; rd_lla_crs : option C; rd_fields : list string; rd_header : bool; rd_format : csv_format }.

(** param_io.py:961-983 [CsvReader.__init__]; all rows have been read to a buffer.  The file does not start with a blank line. *)
Definition csv_init (crs lla_crs : crs_arg) (fields : option (list string)) (path : option string) (has_header : bool)
    (rows : list (list string)) : res reader :=
  do crs <- parse_crs is_projected crs;
  do lla_crs <- parse_crs is_geographic lla_crs;
  do (names, fmt) <- parse_file fields has_header (hd [] rows);
  do crs <- match crs with Some c => Ok (Some c) | None => get_crs path fmt names has_header rows end;
  Ok (Reader crs lla_crs names has_header fmt).

(** * Rows *)

Variable radians : Q -> Q.                         (* np.radians *)
Variable from_lla : Q * Q * Q -> Q * Q * Q.        (* (lat, lon, alt) to world coordinates *)
Variable to_lla : Q * Q * Q -> Q * Q * Q.          (* world coordinates to (lat, lon, alt) *)
Variable rpy_to_opk : Q * Q * Q -> Q * Q * Q -> Q * Q * Q.  (* angles and (lat, lon, alt) *)

Definition rad3 (in_radians : bool) (a : Q * Q * Q) : Q * Q * Q :=
  if in_radians then a else match a with (x, y, z) => (radians x, radians y, radians z) end.

(** param_io.py:1120-1141 [_convert]. *)
Definition csv_convert (fmt : csv_format) (in_radians : bool) (row : dict Q) : res (Q * Q * Q * (Q * Q * Q)) :=
  do (xyz, lla) <-
    (if is_xyz fmt then do xyz <- three_of "x" "y" "z" row; Ok (xyz, None)
     else do lla <- three_of "latitude" "longitude" "altitude" row; Ok (from_lla lla, Some lla));
  do opk <-
    (if is_opk fmt then do opk <- three_of "omega" "phi" "kappa" row; Ok (rad3 in_radians opk)
     else do rpy <- three_of "roll" "pitch" "yaw" row;
          Ok (rpy_to_opk (rad3 in_radians rpy) match lla with Some l => l | None => to_lla xyz end));
  Ok (xyz, opk).

(** Exterior parameters of an image. *)
Record csv_ext := CsvExt { ce_xyz : Q * Q * Q; ce_opk : Q * Q * Q; ce_camera : option string }.

(** param_io.py:1151-1155: a row. *)
Definition read_row (fmt : csv_format) (in_radians : bool) (fields row : list string) : res (string * csv_ext) :=
  let d := dict_row fields row in
  do name <- match dget "filename" d with
             | Some (Some s) => Ok (path_name s)
             | Some None => Err TypeError
             | None => Err KeyError
             end;
  do nums <- convert_row d;
  do (xyz, opk) <- csv_convert fmt in_radians nums;
  Ok (name, CsvExt xyz opk match dget "camera" d with Some c => c | None => None end).

(** param_io.py:1143-1157 [CsvReader.read_ext_param]. *)
Definition read_ext_param (rd : reader) (in_radians : bool) (rows : list (list string)) : res (dict csv_ext) :=
  do rows <- data_rows (rd_header rd) rows;
  do items <- mapM (read_row (rd_format rd) in_radians (rd_fields rd)) rows;
  Ok (dict_of items).

End Csv.
Arguments PrjMissing {C}.
Arguments PrjBad {C}.
Arguments PrjCrs {C}.
Arguments NoCrs {C}.
Arguments BadCrs {C}.
Arguments ACrs {C}.
Arguments Reader {C}.
Arguments rd_crs {C}.
Arguments rd_lla_crs {C}.
Arguments rd_fields {C}.
Arguments rd_header {C}.
Arguments rd_format {C}.
