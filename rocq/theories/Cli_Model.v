(** Model of the command line (orthority/cli.py): option callbacks, the loop over source images, and the legacy command.  Click,
    the camera factories and rasters are arguments. *)
From Coq Require Import String Ascii List ZArith QArith Bool.
From Verif Require Import Py Params_Model Factory_Model Str Files_Model.
Import ListNotations.
Open Scope string_scope.
Open Scope list_scope.

(** * Options *)

(** cli.py:210-218 [_resolution_cb]. *)
Definition resolution_cb (resolution : list Q) : res (list Q) :=
  match resolution with
  | [r] => Ok [r; r]
  | _ => if (2 <? List.length resolution)%nat then Err BadParameter else Ok resolution
  end.

(** [pair.split('=', 1)] of text with a '='; [None] without. *)
Fixpoint split_first (c : ascii) (s : string) : option (string * string) :=
  match s with
  | EmptyString => None
  | String x s' => if Ascii.eqb x c then Some ("", s')
                   else match split_first c s' with Some (k, v) => Some (String x k, v) | None => None end
  end.

Section Yaml.
Variable V : Type.
Variable none : V.
Variable safe_load : string -> res V.

(** cli.py:239-256 [_creation_option_cb].  [out[k] = ...] is evaluated pair by pair. *)
Definition creation_option_cb (pairs : list string) : res (dict V) :=
  do items <- mapM (fun pair => match split_first "=" pair with
                                | None => Err BadParameter
                                | Some (k, v) =>
                                  let k := strip white (lower k) in
                                  let v := strip white (lower v) in
                                  do x <- (if existsb (String.eqb v) ["none"; "null"; "nil"] then Ok none else safe_load v);
                                  Ok (k, x)
                                end) pairs;
  Ok (dict_of items).
End Yaml.

(** cli.py:133: the log level for [verbose - quiet]. *)
Definition log_level (verbosity : Z) : Z := Z.max 10 (20 - 10 * verbosity).

(** cli.py:284-291 [_weights_cb]. *)
Definition weights_cb (weights : list Q) : res (list Q) :=
  if existsb (fun w => negb (Qle_bool 0 w)) weights then Err BadParameter else Ok weights.

(** cli.py:1187-1202: band indexes of the sharpen command. *)
Definition sharpen_indexes (pan_index : Z) (pan_count : Z) (ms_indexes : list Z) (ms_count : Z) : res unit :=
  if ((pan_index <=? 0) || (pan_count <? pan_index))%Z then Err BadParameter
  else if existsb (fun i => (i <=? 0) || (ms_count <? i))%Z ms_indexes then Err BadParameter
  else Ok tt.

(** cli.py:841-844: source images of an OpenDroneMap dataset among the files of its images folder ([sf[-1:]] without a dot). *)
Definition odm_images (files : list string) : list string :=
  filter (fun f => existsb (String.eqb (lower match rfind "." f with
                                              | Some i => drop i f
                                              | None => drop (String.length f - 1) f
                                              end)) [".jpg"; ".jpeg"; ".tif"; ".tiff"]) files.

(** * Orthorectification *)

Definition is_orthority (e : exn) : bool :=
  match e with OrthorityError | ParamError | CrsMissingError | CrsError => true | _ => false end.
Definition is_exists (e : exn) : bool := match e with FileExistsError => true | _ => false end.
Definition is_not_found (e : exn) : bool := match e with FileNotFoundError => true | _ => false end.

(** [try: ... except <classes> as ex: raise <other>(str(ex))]. *)
Definition except_as {A} (catches : exn -> bool) (e' : exn) (m : act A) : act A :=
  fun fs => match m fs with
            | (fs', Err e) => (fs', Err (if catches e then e' else e))
            | r => r
            end.

(** [f'{src_file_path.stem}_ORTHO.tif'] in the output folder (cli.py:361-367). *)
Definition ortho_name (dir src : string) : string := pjoin dir (stem (path_name src) ++ "_ORTHO.tif")%string.

Section Ortho.
Variable C K : Type.                            (* CRSs and cameras *)
Variable camera_get : string -> res K.          (* cameras.get *)
Variable src_open : string -> res (option C).   (* opening a source: its CRS, if it has one *)
Variable ortho_init : string -> K -> C -> res unit.   (* Ortho(...) *)
Variable env_of : string -> K -> C -> env.      (* what happens in processing *)
Variable dir : string.
Variable overwrite build_ovw : bool.

(** cli.py:342-372: one source; [crs] is the variable of the function, that keeps its value for the next source. *)
Definition ortho_one (crs : option C) (src : string) : act (option C) :=
  let! k <- except_as is_orthority UsageError (ret (camera_get src));
  let! own <- except_as is_not_found BadParameter (ret (src_open src));
  let crs := match crs with Some c => Some c | None => own end in
  match crs with
  | None => ret (Err MissingParameter)
  | Some c =>
    let! _ <- except_as (fun e => is_exists e || is_orthority e) UsageError
                (let! _ <- ret (ortho_init src k c);
                 ortho_process (env_of src k c) (ortho_name dir src) overwrite build_ovw);
    ret (Ok crs)
  end.

Fixpoint ortho_loop (crs : option C) (srcs : list string) : act (option C) :=
  match srcs with
  | [] => ret (Ok crs)
  | src :: srcs' => let! crs' <- ortho_one crs src; ortho_loop crs' srcs'
  end.

(** cli.py:294-372 [_ortho]; [export] is [cameras.write_param(out_dir, overwrite)], [dem] opens the DEM and gives its number of
    bands. *)
Definition ortho_cmd (export_params : bool) (export : act unit) (dem : option (res Z)) (dem_band : Z) (crs : option C)
    (srcs : list string) : act unit :=
  if export_params then
    except_as is_exists UsageError (except_as (fun e => match e with CrsMissingError => true | _ => false end) MissingParameter export)
  else match dem with
  | None => ret (Err MissingParameter)
  | Some dem =>
    let! count <- except_as is_not_found BadParameter (ret dem);
    if ((dem_band <=? 0) || (count <? dem_band))%Z then ret (Err BadParameter) else
    let! _ <- ortho_loop crs srcs;
    ret (Ok tt)
  end.
End Ortho.

(** * Legacy command *)
Section Legacy.
Variable P : Type.                              (* camera position and orientation *)
Variable poses : dict P.                        (* rows of the position and orientation file *)
Variable legacy_init : string -> P -> res unit. (* opening the source, the camera and Ortho(...) *)
Variable legacy_env : string -> P -> env.
Variable overwrite build_ovw : bool.

(** [src_filename.parent] (the current folder is ""). *)
Definition path_parent (s : string) : string :=
  match rfind "/" s with
  | Some O => "/"
  | Some i => substring 0 i s
  | None => ""
  end.

(** cli.py:1334-1367: one source; [ortho_dir] is a variable of the function, that keeps its value for the next source.  The
    exception for an image that is not in the file has no class of its own. *)
Definition legacy_one (ortho_dir : option string) (src : string) : act (option string) :=
  match dget (stem (path_name src)) poses with
  | None => ret (Err ExternalError)
  | Some p =>
    let dir := match ortho_dir with Some d => d | None => path_parent src end in
    let! _ <- ret (legacy_init src p);
    let! _ <- ortho_process (legacy_env src p) (ortho_name dir src) overwrite build_ovw;
    ret (Ok (Some dir))
  end.

Fixpoint legacy_loop (ortho_dir : option string) (srcs : list string) : act (option string) :=
  match srcs with
  | [] => ret (Ok ortho_dir)
  | src :: srcs' => let! d <- legacy_one ortho_dir src; legacy_loop d srcs'
  end.

(** The command with the files that its patterns match; an empty folder option is no option. *)
Definition legacy_cmd (ortho_dir : option string) (srcs : list string) : act unit :=
  let! _ <- legacy_loop match ortho_dir with Some "" => None | d => d end srcs;
  ret (Ok tt).
End Legacy.

(** cli.py:1268 [_configure_logging(2 - verbosity)]. *)
Definition legacy_level (verbosity : Z) : Z := log_level (2 - verbosity).
