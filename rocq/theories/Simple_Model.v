(** Model of the legacy command [_simple_ortho] (orthority/cli.py:1214-1371): its configuration, arguments, pose file and the one
    camera object (Make_Model, Cam_Model) that it moves from image to image. *)
From Coq Require Import String List Reals QArith Qreals ZArith Bool.
From Verif Require Import Py Flt Mat Remap_Model Frame_Model Undist_Model Validate_Model Params_Model Factory_Model Csv_Model Cli_Model Cam_Model Rcam_Model Make_Model.
Import ListNotations.
Open Scope string_scope.
Open Scope list_scope.

(** * Configuration *)

(** What is used of the configuration: cli.py:1294-1315. *)
Record plan := Plan {
  pl_crs : pyval; pl_dem_band : pyval; pl_options : list (pykey * pyval); pl_distort : pyval;
  pl_type : camtype; pl_camera : list (pykey * pyval) }.

Definition get_or (k : string) (d : list (pykey * pyval)) (default : pyval) : pyval :=
  match kget (KStr k) d with Some v => v | None => default end.

(** [d[k] = v] for a key that [d] has. *)
Definition kput (k : string) (v : pyval) (d : list (pykey * pyval)) : list (pykey * pyval) :=
  map (fun kv => if key_eqb (fst kv) (KStr k) then (fst kv, v) else kv) d.

(** cli.py:1303-1308, one key. *)
Definition no_spline (d : list (pykey * pyval)) (k : string) : list (pykey * pyval) :=
  match get_or k d PNone with PStr s => if String.eqb s "cubic_spline" then kput k (PStr "cubic") d else d | _ => d end.

(** Attributes of dictionaries: other values do not have [get], [pop] and [items] ([pop] of a list is a TypeError instead: not
    modelled). *)
Definition as_dict (v : pyval) : res (list (pykey * pyval)) := match v with PDict d => Ok d | _ => Err AttributeError end.

(** cli.py:1294-1315. *)
Definition read_plan (config : pyval) : res plan :=
  do config <- as_dict config;
  do ortho <- as_dict (get_or "ortho" config (PDict []));
  let crs := get_or "crs" ortho PNone in
  let ortho := kdel "crs" ortho in
  let dem_band := get_or "dem_band" ortho (PInt 1) in
  let ortho := kdel "dem_band" ortho in
  let ortho := fold_left (fun d k => kdel k d) ["driver"; "tile_size"; "nodata"; "interleave"; "photometric"] ortho in
  let ortho := fold_left no_spline ["interp"; "dem_interp"] ortho in
  let distort := get_or "full_remap" ortho (PBool true) in
  let ortho := kdel "full_remap" ortho in
  do camera <- match kget (KStr "camera") config with Some v => Ok v | None => Err KeyError end;
  do camera <- as_dict camera;
  do t <- camera_type (MV (get_or "type" camera (PStr "pinhole")));
  Ok (Plan crs dem_band ortho distort t (filter (fun kv => negb (key_eqb (fst kv) (KStr "name") || key_eqb (fst kv) (KStr "type"))) camera)).

(** Dictionaries as keyword arguments: keys must be text. *)
Fixpoint keywords (d : list (pykey * pyval)) : res (dict mval) :=
  match d with
  | [] => Ok []
  | (KStr k, v) :: d => do d <- keywords d; Ok ((k, MV v) :: d)
  | (KInt _, _) :: _ => Err TypeError
  end.

(** * Poses *)

Definition pose_fields : list string := ["file"; "x"; "y"; "z"; "omega"; "phi"; "kappa"].

Section Poses.
Variable pyfloat : string -> res Q.  (* float(s); nan and inf are not modelled *)

(** cli.py:1326-1332: one row, that is not empty. *)
Definition pose_row (row : list string) : res (string * list Q) :=
  match row with
  | [] => Err KeyError  (* not reached *)
  | file :: _ =>
    do values <- mapM (fun k => match dget k (dict_row pose_fields row) with Some (Some s) => pyfloat s | _ => Err TypeError end)
                      ["x"; "y"; "z"; "omega"; "phi"; "kappa"];
    Ok (file, values)
  end.
(** The rows of the file, without empty ones, that [csv.DictReader] leaves out. *)
Definition read_poses (rows : list (list string)) : res (dict (list Q)) :=
  do items <- mapM pose_row (filter (fun r => match r with [] => false | _ => true end) rows);
  Ok (dict_of items).
End Poses.

(** * The command *)

Record args := Args { a_src : list string; a_dem : string; a_pos : string; a_dir : option string; a_read : option string; a_write : option string }.

(** One call of [Ortho(src, dem, camera, crs, dem_band).process(out, **options)], and if the size warning was given. *)
Record job := Job { j_src : string; j_camera : fcam; j_crs : pyval; j_dem_band : pyval; j_out : string; j_options : dict mval; j_warned : bool }.

(** What was done: a configuration or a folder written, the calls in order, and how it ended. *)
Record outcome := Outcome { o_conf : option (string * pyval); o_folder : option string; o_jobs : list job; o_end : res unit }.

Section Simple.
Variable cv_surf : string -> arr fl -> fl * fl -> option fl.
Variable cast_nan : string -> fl.
Variable cv_image : string -> arr pix -> fl * fl -> option pix.
Variable convert : string -> string -> pix -> pix.
Notation do_call := (do_call cv_surf cast_nan cv_image convert).
Notation run_calls := (run_calls cv_surf cast_nan cv_image convert).
Variable cv_project cv_undistort fish_undistort : intr -> list R -> R * R -> R * R.
Variable C : Type.
Variable parse_crs : string -> res C.
Variable rpc_crs : C.
Variable O : Type.
Variable no_options : O.
Variable warp : C -> C -> list vec -> list vec.
Notation create_camera := (create_camera cv_project cv_undistort fish_undistort C parse_crs rpc_crs O no_options warp).
Variable pyfloat : string -> res Q.

(** The outside: the default configuration file, files and folders, YAML and CSV files (an existing one may be unreadable), patterns,
    the size of an image, and what orthorectification of an image gives and which calls it makes on the camera. *)
Variable default_conf : string.
Variable exists_path : string -> bool.
Variable load_yaml : string -> res pyval.
Variable dump_yaml : string -> pyval -> res unit.
Variable load_rows : string -> res (list (list string)).
Variable glob : list string -> string -> list string.  (* when these outputs were written *)
Variable mkdir : string -> res unit.
Variable image_size : string -> res (Z * Z).
Variable ortho : job -> res unit.
Variable used : job -> list call.

(** cli.py:1244-1263 [check_args]: the folder it makes. *)
Definition check_args (a : args) : res (option string) :=
  do _ <- iterM (fun s => match glob [] s with [] => Err RuntimeError | _ => Ok tt end) (a_src a);
  do _ <- (if exists_path (a_dem a) then Ok tt else Err RuntimeError);
  do _ <- (if exists_path (a_pos a) then Ok tt else Err RuntimeError);
  match a_dir a with
  | Some d => if exists_path d then Ok None else do _ <- mkdir d; Ok (Some d)
  | None => Ok None
  end.

(** cli.py:1350-1354: the first camera.  That a pose given to the constructor is the one set with [update] is camera.py:609 and 809. *)
Definition first_camera (p : plan) : res fcam :=
  do cam <- keywords (pl_camera p);
  do _ <- (if existsb (fun kv => one_of (fst kv) ["cam_type"; "xyz"; "opk"; "distort"]) cam then Err TypeError else Ok tt);
  do c <- create_camera (("cam_type", MCam (pl_type p)) :: cam ++ [("distort", MV (pl_distort p))]) None None;
  match c with MadeFrame c => Ok c | MadeRpc _ => Err TypeError end.  (* RPC cameras have no [xyz] *)

Definition radians (q : Q) : R := (Q2R q * PI / 180)%R.

(** The variables [camera] and [ortho_dir] of the function, and the calls made so far. *)
Record state := State { st_camera : option fcam; st_dir : option string; st_jobs : list job }.

(** [src_filename.parent if not ortho_dir else ortho_dir], where [Path] objects are all true, also that of the current folder. *)
Definition given (dir : option string) : option string := match dir with None | Some "" => None | Some d => Some d end.
Definition folder_of (dir : option string) (src : string) : string := match dir with None => path_parent src | Some d => d end.

(** cli.py:1334-1366: the call for one image. *)
Definition job_of (p : plan) (poses : dict (list Q)) (st : state) (src : string) : res job :=
  match dget (stem (path_name src)) poses with
  | Some [x; y; z; om; ph; ka] =>
    do size <- image_size src;
    do c <- match st_camera st with Some c => Ok c | None => first_camera p end;
    let c := fst (do_call c (UpdateC (Some [Q2R x; Q2R y; Q2R z]) (Some [radians om; radians ph; radians ka]))) in
    do options <- keywords (pl_options p);
    Ok (Job src c (pl_crs p) (pl_dem_band p) (ortho_name (folder_of (st_dir st) src) src) options (negb ((fst size =? fc_w c)%Z && (snd size =? fc_h c)%Z)))
  | _ => Err RuntimeError
  end.

Definition one_image (p : plan) (poses : dict (list Q)) (st : state) (src : string) : state * res unit :=
  match job_of p poses st src with
  | Err e => (st, Err e)
  | Ok j => (State (Some (run_calls (j_camera j) (used j))) (Some (folder_of (st_dir st) src)) (st_jobs st ++ [j]), ortho j)
  end.

(** Until the first error. *)
Fixpoint each {A} (f : state -> A -> state * res unit) (st : state) (l : list A) : state * res unit :=
  match l with
  | [] => (st, Ok tt)
  | x :: l' => match f st x with (st', Ok _) => each f st' l' | (st', Err e) => (st', Err e) end
  end.

(** cli.py:1333-1367: a pattern is looked up when its turn comes. *)
Definition all_images (p : plan) (poses : dict (list Q)) (st : state) (specs : list string) : state * res unit :=
  each (fun st spec => each (one_image p poses) st (glob (map j_out (st_jobs st)) spec)) st specs.

(** cli.py:1214-1371.  Logging is not modelled (Cli_Model has the level), and options are taken to be text keys before [Ortho] is made. *)
Definition simple_ortho (a : args) : outcome :=
  let conf := match a_read a with Some f => f | None => default_conf end in
  if negb (exists_path conf) then Outcome None None [] (Err RuntimeError) else
  match load_yaml conf with
  | Err e => Outcome None None [] (Err e)
  | Ok config =>
    match a_write a with
    | Some f => match dump_yaml f config with Ok _ => Outcome (Some (f, config)) None [] (Ok tt) | Err e => Outcome None None [] (Err e) end
    | None =>
      match (do p <- read_plan config; do folder <- check_args a; Ok (p, folder)) with
      | Err e => Outcome None None [] (Err e)
      | Ok (p, folder) =>
        match (do rows <- load_rows (a_pos a); read_poses pyfloat rows) with
        | Err e => Outcome None folder [] (Err e)
        | Ok poses => let (st, r) := all_images p poses (State None (given (a_dir a)) []) (a_src a) in Outcome None folder (st_jobs st) r
        end
      end
    end
  end.
End Simple.
