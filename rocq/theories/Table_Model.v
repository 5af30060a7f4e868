(** Model of a frame camera factory of a YAML interior parameter file and a CSV exterior parameter file: [FrameCameras] (orthority/factory.py) with
    [CsvReader] (orthority/param_io.py), from the rows of the file to camera objects. *)
From Coq Require Import String List Reals QArith ZArith Bool.
From Verif Require Import Py Validate_Model Params_Model Factory_Model Csv_Model Scene_Model.
Import ListNotations.
Open Scope string_scope.
Open Scope list_scope.

Notation q3 := (Q * Q * Q)%type (only parsing).

Section Table.
Variable pyfloat : string -> res Q.                (* float(s) *)
Variable C : Type.
Variable epsg : Z -> C.
Variables is_projected is_geographic : C -> bool.
Variable prj_of : string -> prj C.
Variable radians : Q -> Q.                         (* np.radians *)
Variable transform : C -> C -> q3 -> q3.           (* rasterio's [transform] of a point, from one CRS to the other *)
Variable rpy_to_opk : C -> C -> q3 -> q3 -> q3.    (* param_io.py:753-835 [_rpy_to_opk], of world and (lat, lon, alt) CRSs, angles and (lat, lon, alt); see Rot_Model *)
Variable O : Type.

(** param_io.py:1126-1128: (lat, lon, alt) to world coordinates, in x, y order. *)
Definition lla_world (lla_crs crs : C) (lla : q3) : q3 := let '(lat, lon, alt) := lla in transform lla_crs crs (lon, lat, alt).

(** param_io.py:1137-1138: world coordinates to (lat, lon, alt). *)
Definition world_lla (lla_crs crs : C) (xyz : q3) : q3 := let '(x, y, z) := transform crs lla_crs xyz in (y, x, z).

(** param_io.py:1143-1157 [CsvReader.read_ext_param], with the CRSs of the reader.  Without one of them a row that needs them is converted
    to numbers and then refused by rasterio. *)
Definition read_table (rd : reader C) (in_radians : bool) (rows : list (list string)) : res (dict csv_ext) :=
  match rd_crs rd, rd_lla_crs rd with
  | Some c, Some l => read_ext_param pyfloat C radians (lla_world l c) (world_lla l c) (rpy_to_opk c l) rd in_radians rows
  | _, _ =>
    let plain := fun x : q3 => x in
    match rd_format rd with
    | XyzOpk => read_ext_param pyfloat C radians plain plain (fun a _ => a) rd in_radians rows
    | _ => do rows <- data_rows (rd_header rd) rows;
           do items <- mapM (fun row => do _ <- read_row pyfloat radians plain plain (fun a _ => a) (rd_format rd) in_radians (rd_fields rd) row; Err ExternalError) rows;
           Ok (dict_of items)
    end
  end.

(** param_io.py:1155: the parameters of an image. *)
Definition csv_entry (e : csv_ext) : dict mval :=
  let tup (t : q3) := let '(x, y, z) := t in MTup [PFloat x; PFloat y; PFloat z] in
  [("xyz", tup (ce_xyz e)); ("opk", tup (ce_opk e)); ("camera", MV (match ce_camera e with Some c => PStr c | None => PNone end))].

(** factory.py:98-109, 158-203 [FrameCameras.__init__] of a YAML and a CSV file: the factory and its world CRS.  The CRS is that of the reader,
    which has that of the user if there is one; interior parameters that were read are never empty.  [doc] is the document in the YAML file. *)
Definition table_factory (doc : pyval) (crs lla_crs : crs_arg C) (fields : option (list string)) (path : option string) (has_header : bool) (rows : list (list string))
    (in_radians : bool) (kwargs : dict mval) : res (scene C O * option C) :=
  do ints <- read_int_doc doc;
  do rd <- csv_init pyfloat C epsg is_projected is_geographic prj_of crs lla_crs fields path has_header rows;
  do exts <- read_table rd in_radians rows;
  Ok (scene_init C O ints (map (fun ne => (fst ne, csv_entry (snd ne))) exts) kwargs, rd_crs rd).
End Table.
