(** Model of the Orthority parameter file readers and writers (orthority/param_io.py).  Documents are the values
    [yaml.safe_load] / [json.load] return; the text encodings are functions [enc] and [dec] of the file system level
    functions at the end of this file. *)
From Coq Require Import List String Ascii ZArith QArith Bool.
From Verif Require Import Py Validate_Model Files_Model.
Import ListNotations.
Open Scope string_scope.

(** enums.py:38-70 [CameraType]. *)
Inductive camtype := Cpinhole | Cbrown | Cfisheye | Copencv | Crpc.

Definition cam_value (c : camtype) : string :=
  match c with
  | Cpinhole => "pinhole" | Cbrown => "brown" | Cfisheye => "fisheye" | Copencv => "opencv" | Crpc => "rpc"
  end.

(** [CameraType(s)], with [s in CameraType.__members__]. *)
Definition cam_of (s : string) : option camtype :=
  if String.eqb s "pinhole" then Some Cpinhole
  else if String.eqb s "brown" then Some Cbrown
  else if String.eqb s "fisheye" then Some Cfisheye
  else if String.eqb s "opencv" then Some Copencv
  else if String.eqb s "rpc" then Some Crpc else None.

(** param_io.py:56-64 [_opt_frame_schema]. *)
Definition opt_frame_schema (c : camtype) : list string :=
  match c with
  | Cpinhole => ["sensor_size"; "cx"; "cy"]
  | Copencv => ["sensor_size"; "cx"; "cy"; "k1"; "k2"; "p1"; "p2"; "k3"; "k4"; "k5"; "k6"; "s1"; "s2"; "s3"; "s4";
                "tx"; "ty"]
  | Cbrown => ["sensor_size"; "cx"; "cy"; "k1"; "k2"; "p1"; "p2"; "k3"]
  | Cfisheye => ["sensor_size"; "cx"; "cy"; "k1"; "k2"; "k3"; "k4"]
  | Crpc => []  (* not a key of the schema: never looked up *)
  end.

(** Values in memory: a plain value, a tuple of plain values, or a camera type. Tuples nested in lists or
    dictionaries are not modelled. *)
Inductive mval := MV (v : pyval) | MTup (l : list pyval) | MCam (c : camtype).

(** What [yaml.safe_dump] / [json.dump] then load make of a value: tuples become lists; the YAML dumper has no
    representer for a camera type. *)
Definition dumped (v : mval) : res pyval :=
  match v with
  | MV v => Ok v
  | MTup l => Ok (PList l)
  | MCam _ => Err SerializeError
  end.

Definition dumped_items (d : dict mval) : res (list (pykey * pyval)) :=
  mapM (fun kv => do v <- dumped (snd kv); Ok (KStr (fst kv), v)) d.

(** * Interior parameters *)

(** param_io.py:586-593, one camera: 'type' first, then the items other than 'cam_type'. *)
Definition int_yaml_param (p : dict mval) : res (list (pykey * pyval)) :=
  do first <- match dget "cam_type" p with
              | Some (MCam c) => Ok [("type", MV (PStr (cam_value c)))]
              | Some _ => Err AttributeError
              | None => Ok []
              end;
  dumped_items (dupdate first (filter (fun kv => negb (String.eqb (fst kv) "cam_type")) p)).

(** param_io.py:586-597 [write_int_param]: the document. *)
Definition int_doc (d : dict (dict mval)) : res pyval :=
  do items <- mapM (fun kv => do y <- int_yaml_param (snd kv); Ok (KStr (fst kv), PDict y)) d;
  Ok (PDict items).

(** [str.lower()], ASCII. *)
Definition lower_ascii (c : ascii) : ascii :=
  let n := nat_of_ascii c in
  if ((65 <=? n) && (n <=? 90))%nat then ascii_of_nat (n + 32) else c.

Fixpoint lower (s : string) : string :=
  match s with EmptyString => EmptyString | String c s' => String (lower_ascii c) (lower s') end.

Fixpoint chars (s : string) : list pyval :=
  match s with EmptyString => [] | String c s' => PStr (String c EmptyString) :: chars s' end.

(** [tuple(v)]. *)
Definition to_tuple (v : pyval) : res (list pyval) :=
  match v with
  | PList l => Ok l
  | PStr s => Ok (chars s)
  | PDict d => Ok (map (fun kv => key_val (fst kv)) d)
  | _ => Err TypeError
  end.

Definition kdel {V} (k : string) (d : list (pykey * V)) : list (pykey * V) :=
  filter (fun kv => negb (key_eqb (fst kv) (KStr k))) d.

Definition kmem {V} (k : string) (d : list (pykey * V)) : bool :=
  match kget (KStr k) d with Some _ => true | None => false end.

(** [set(d.keys()).difference(allowed)]. *)
Definition bad_keys (d : list (pykey * pyval)) (allowed : list string) : bool :=
  existsb (fun kv => match fst kv with
                     | KStr k => negb (existsb (String.eqb k) allowed)
                     | KInt _ => true
                     end) d.

Definition str_items (d : list (pykey * pyval)) : dict mval :=
  flat_map (fun kv => match fst kv with KStr k => [(k, MV (snd kv))] | KInt _ => [] end) d.

(** param_io.py:222-251 [parse_yaml_param]. *)
Definition parse_yaml_param (y : list (pykey * pyval)) : res (dict mval) :=
  do _ <- iterM (fun k => if kmem k y then Ok tt else Err ParamError) ["type"; "im_size"; "focal_len"];
  do type <- match kget (KStr "type") y with Some (PStr s) => Ok (lower s) | _ => Err AttributeError end;
  let y := kdel "type" y in
  do cam_type <- match cam_of type with
                 | Some Crpc | None => Err ParamError
                 | Some c => Ok c
                 end;
  do im_size <- match kget (KStr "im_size") y with Some v => to_tuple v | None => Err KeyError end;
  let y := kdel "name" (kdel "im_size" y) in
  do focal <- match kget (KStr "focal_len") y with
              | Some (PList l) => Ok (MTup l)
              | Some v => Ok (MV v)
              | None => Err KeyError
              end;
  let y := kdel "focal_len" y in
  do sensor <- match kget (KStr "sensor_size") y with
               | Some v => do t <- to_tuple v; Ok [("sensor_size", MTup t)]
               | None => Ok []
               end;
  let y := kdel "sensor_size" y in
  if bad_keys y (opt_frame_schema cam_type) then Err ParamError else
  Ok (dupdate ([("cam_type", MCam cam_type); ("im_size", MTup im_size); ("focal_len", focal)] ++ sensor)%list
              (str_items y)).

(** ['camera' in yaml_dict], for whatever was loaded. *)
Definition has_camera (doc : pyval) : res bool :=
  match doc with
  | PDict d => Ok (kmem "camera" d)
  | PStr s => Ok (match index 0 "camera" s with Some _ => true | None => false end)
  | PList l => Ok (existsb (fun v => match v with PStr s => String.eqb s "camera" | _ => false end) l)
  | _ => Err TypeError
  end.

Definition is_dict (v : pyval) : bool := match v with PDict _ => true | _ => false end.

(** param_io.py:253-283 [read_oty_int_param], from the loaded document. *)
Definition read_int_doc (doc : pyval) : res (dict (dict mval)) :=
  do old <- has_camera doc;
  do doc <- (if old then match doc with
                         | PDict d => match kget (KStr "camera") d with Some v => Ok v | None => Err KeyError end
                         | _ => Err TypeError
                         end
             else Ok doc);
  do d <- match doc with PDict d => Ok d | _ => Err AttributeError end;
  do d <- match d with
          | [] => Err StopIteration
          | (_, first) :: _ =>
            if is_dict first then Ok d
            else match kget (KStr "name") d with
                 | None => Ok [(KStr "unknown", PDict d)]
                 | Some (PStr s) => Ok [(KStr s, PDict d)]
                 | Some (PInt z) => Ok [(KInt z, PDict d)]
                 | Some (PList _) | Some (PDict _) => Err TypeError
                 | Some _ => Err ParamError  (* hashable, but not a str: rejected by the validation below *)
                 end
          end;
  do _ <- (if is_ok (validate_collection (SMap Tstr (SType Tdict)) (PDict d)) then Ok tt else Err ParamError);
  do items <- mapM (fun kv => match kv with
                              | (KStr id, PDict y) => do p <- parse_yaml_param y; Ok (id, p)
                              | _ => Err ParamError
                              end) d;
  Ok (dict_of items).

(** * Exterior parameters *)

Section Crs.
Variable crs_t : Type.
(** [CRS.to_string], [CRS.from_string] and the transformation to (lon, lat, height). *)
Variable crs_str : crs_t -> string.
Variable crs_parse : string -> option crs_t.
Variable is_projected : crs_t -> bool.
Variable to_lla : crs_t -> pyval -> pyval -> pyval -> res (Q * Q * Q).

Definition mitem (v : mval) (i : nat) : res pyval :=
  match v with
  | MTup l | MV (PList l) => match nth_error l i with Some x => Ok x | None => Err IndexError end
  | _ => Err TypeError
  end.

Definition dreq {V} (k : string) (d : dict V) : res V := match dget k d with Some v => Ok v | None => Err KeyError end.

Definition feature (props : dict pyval) (coords : list pyval) : pyval :=
  PDict [(KStr "type", PStr "Feature");
         (KStr "properties", PDict (map (fun kv => (KStr (fst kv), snd kv)) props));
         (KStr "geometry", PDict [(KStr "type", PStr "Point"); (KStr "coordinates", PList coords)])].

(** param_io.py:629-641, one image.  [json.dump] writes a camera type, a [str], as its value: not modelled. *)
Definition ext_feature (crs : crs_t) (filename : string) (p : dict mval) : res pyval :=
  do xyz <- dreq "xyz" p;
  do x <- mitem xyz 0; do y <- mitem xyz 1; do z <- mitem xyz 2;
  do lla <- to_lla crs x y z;
  do camera <- dreq "camera" p;
  do opk <- dreq "opk" p;
  do camera <- dumped camera; do xyz <- dumped xyz; do opk <- dumped opk;
  let '(lon, lat, h) := lla in
  Ok (feature [("filename", PStr filename); ("camera", camera); ("xyz", xyz); ("opk", opk)]
              [PFloat lon; PFloat lat; PFloat h]).

(** param_io.py:619-645 [write_ext_param]: the document, for a CRS object. *)
Definition ext_doc (crs : crs_t) (d : dict (dict mval)) : res pyval :=
  if negb (is_projected crs) then Err CrsError else
  do feats <- mapM (fun kv => ext_feature crs (fst kv) (snd kv)) d;
  Ok (PDict [(KStr "type", PStr "FeatureCollection"); (KStr "world_crs", PStr (crs_str crs));
             (KStr "features", PList feats)]).

Definition num_schema : schema := STypes [Tint; Tfloat].

(** param_io.py:1388-1402. *)
Definition ext_schema : schema :=
  SDict [(KStr "type", SStr "FeatureCollection"); (KStr "world_crs", SType Tstr);
         (KStr "features", SList [SDict [
           (KStr "type", SStr "Feature");
           (KStr "properties", SDict [(KStr "filename", SType Tstr); (KStr "camera", SNone);
                                      (KStr "xyz", SList (repeat num_schema 3));
                                      (KStr "opk", SList (repeat num_schema 3))]);
           (KStr "geometry", SDict [(KStr "type", SStr "Point"); (KStr "coordinates", SList [num_schema])])]])].

Definition kreq (k : string) (v : pyval) : res pyval :=
  match v with
  | PDict d => match kget (KStr k) d with Some x => Ok x | None => Err KeyError end
  | _ => Err TypeError
  end.

Definition as_str (v : pyval) : res string := match v with PStr s => Ok s | _ => Err TypeError end.
Definition as_list (v : pyval) : res (list pyval) := match v with PList l => Ok l | _ => Err TypeError end.

(** param_io.py:1416-1425, one feature. *)
Definition ext_of_feature (f : pyval) : res (string * dict mval) :=
  do props <- kreq "properties" f;
  do filename <- kreq "filename" props; do filename <- as_str filename;
  do xyz <- kreq "xyz" props; do xyz <- to_tuple xyz;
  do opk <- kreq "opk" props; do opk <- to_tuple opk;
  do camera <- kreq "camera" props;
  Ok (filename, [("xyz", MTup xyz); ("opk", MTup opk); ("camera", MV camera)]).

(** param_io.py:1377-1425 [OtyReader]: CRS and exterior parameters from the loaded document. *)
Definition read_ext_doc (doc : pyval) : res (crs_t * dict (dict mval)) :=
  do _ <- (if is_ok (validate_collection ext_schema doc) then Ok tt else Err ParamError);
  do s <- kreq "world_crs" doc; do s <- as_str s;
  do crs <- match crs_parse s with Some c => Ok c | None => Err ParamError end;
  do feats <- kreq "features" doc; do feats <- as_list feats;
  do items <- mapM ext_of_feature feats;
  Ok (crs, dict_of items).
End Crs.

(** * GCPs *)

(** [list(v)]. *)
Definition mlist (v : mval) : res (list pyval) :=
  match v with MTup l => Ok l | MV v => to_tuple v | MCam _ => Err TypeError end.

(** param_io.py:691-695. *)
Definition gcp_feature (filename : string) (g : dict mval) : res pyval :=
  do ji <- dreq "ji" g; do ji <- mlist ji;
  do id <- dreq "id" g; do info <- dreq "info" g;
  do xyz <- dreq "xyz" g; do xyz <- mlist xyz;
  do id <- dumped id; do info <- dumped info;
  Ok (feature [("ji", PList ji); ("filename", PStr filename); ("id", id); ("info", info)] xyz).

(** param_io.py:689-700 [write_gcps]: the document. *)
Definition gcp_doc (d : dict (list (dict mval))) : res pyval :=
  do feats <- mapM (fun kv => mapM (gcp_feature (fst kv)) (snd kv)) d;
  Ok (PDict [(KStr "type", PStr "FeatureCollection"); (KStr "features", PList (List.concat feats))]).

(** param_io.py:539-548. *)
Definition gcp_schema : schema :=
  SDict [(KStr "type", SStr "FeatureCollection");
         (KStr "features", SList [SDict [
           (KStr "type", SStr "Feature");
           (KStr "properties", SDict [(KStr "ji", SList (repeat num_schema 2)); (KStr "filename", SType Tstr);
                                      (KStr "id", SNone); (KStr "info", SNone)]);
           (KStr "geometry", SDict [(KStr "type", SStr "Point"); (KStr "coordinates", SList (repeat num_schema 3))])]])].

Definition gcp_of_feature (f : pyval) : res (string * dict mval) :=
  do props <- kreq "properties" f;
  do filename <- kreq "filename" props; do filename <- as_str filename;
  do geom <- kreq "geometry" f; do xyz <- kreq "coordinates" geom; do xyz <- to_tuple xyz;
  do ji <- kreq "ji" props; do ji <- to_tuple ji;
  do id <- kreq "id" props; do info <- kreq "info" props;
  Ok (filename, [("ji", MTup ji); ("xyz", MTup xyz); ("id", MV id); ("info", MV info)]).

(** Lines 562-565: append to the image's list, or start it. *)
Definition add_gcp {G} (d : dict (list G)) (item : string * G) : dict (list G) :=
  match dget (fst item) d with
  | None => dset (fst item) [snd item] d
  | Some l => dset (fst item) (l ++ [snd item])%list d
  end.

(** param_io.py:550-567 [read_oty_gcps], from the loaded document. *)
Definition read_gcp_doc (doc : pyval) : res (dict (list (dict mval))) :=
  do _ <- (if is_ok (validate_collection gcp_schema doc) then Ok tt else Err ParamError);
  do feats <- kreq "features" doc; do feats <- as_list feats;
  do items <- mapM gcp_of_feature feats;
  Ok (fold_left add_gcp items []).

(** * RPC parameters *)

(** param_io.py:663-670 [write_rpc_param]: the document. *)
Definition rpc_doc (d : dict (dict mval)) : res pyval :=
  do items <- mapM (fun kv =>
    do y <- dumped_items (filter (fun kv => negb (String.eqb (fst kv) "cam_type")) (snd kv));
    Ok (KStr (fst kv), PDict y)) d;
  Ok (PDict items).

(** param_io.py:414-434. *)
Definition rpc_schema : schema :=
  SMap Tstr (SDict [
    (KStr "im_size", SList (repeat (STypes [Tfloat; Tint]) 2));
    (KStr "rpc", SDict [
      (KStr "height_off", SType Tfloat); (KStr "height_scale", SType Tfloat);
      (KStr "lat_off", SType Tfloat); (KStr "lat_scale", SType Tfloat);
      (KStr "line_den_coeff", SList (repeat (SType Tfloat) 20));
      (KStr "line_num_coeff", SList (repeat (SType Tfloat) 20));
      (KStr "line_off", num_schema); (KStr "line_scale", num_schema);
      (KStr "long_off", SType Tfloat); (KStr "long_scale", SType Tfloat);
      (KStr "samp_den_coeff", SList (repeat (SType Tfloat) 20));
      (KStr "samp_num_coeff", SList (repeat (SType Tfloat) 20));
      (KStr "samp_off", num_schema); (KStr "samp_scale", num_schema)])]).

(** param_io.py:436-448 [read_oty_rpc_param], from the loaded document. *)
Definition read_rpc_doc (doc : pyval) : res (dict (dict mval)) :=
  do _ <- (if is_ok (validate_collection rpc_schema doc) then Ok tt else Err ParamError);
  match doc with
  | PDict d =>
    do items <- mapM (fun kv =>
      match fst kv with
      | KStr f => do s <- kreq "im_size" (snd kv); do s <- to_tuple s; do r <- kreq "rpc" (snd kv);
                  Ok (f, [("cam_type", MCam Crpc); ("im_size", MTup s); ("rpc", MV r)])
      | KInt _ => Err TypeError
      end) d;
    Ok (dict_of items)
  | _ => Err TypeError
  end.

(** * Files *)

Section Text.
(** The text encoding of a document, as chunks, and its decoding ([None]: the loader raises). *)
Variable enc : pyval -> list string.
Variable dec : string -> option pyval.

(** The 'write_*' functions: document, open, dump. *)
Definition write_doc (path : string) (doc : res pyval) (overwrite : bool) : act unit :=
  write_param_file (TPath path) (do d <- doc; Ok (enc d, None)) overwrite.

(** The 'read_*' functions: open, load (failing with ParamError), parse. *)
Definition read_doc {A} (path : string) (parse : pyval -> res A) : act A :=
  let! _ <- open_file (TPath path) RT false;
  fun fs => (fs, match dget path fs with
                 | None => Err FileNotFoundError
                 | Some text => match dec text with None => Err ParamError | Some doc => parse doc end
                 end).

Definition write_int_param path d ow : act unit := write_doc path (int_doc d) ow.
Definition read_oty_int_param path : act (dict (dict mval)) := read_doc path read_int_doc.
Definition write_rpc_param path d ow : act unit := write_doc path (rpc_doc d) ow.
Definition read_oty_rpc_param path : act (dict (dict mval)) := read_doc path read_rpc_doc.
Definition write_gcps path d ow : act unit := write_doc path (gcp_doc d) ow.
Definition read_oty_gcps path : act (dict (list (dict mval))) := read_doc path read_gcp_doc.
Definition write_ext_param {C} crs_str is_proj to_lla path (crs : C) d ow : act unit :=
  write_doc path (ext_doc C crs_str is_proj to_lla crs d) ow.
Definition oty_reader {C} crs_parse path : act (C * dict (dict mval)) := read_doc path (read_ext_doc C crs_parse).
End Text.
