(** Model of the orthorectification commands (orthority/cli.py): how 'oty frame', 'exif', 'odm' and 'rpc' make cameras,
    choose the CRS of the ortho images and report errors; and how CRS, file and folder options are read.  [ortho_cmd]
    (Cli_Model) is what they have in common. *)
From Coq Require Import String Ascii List Bool ZArith QArith.
From Verif Require Import Py Validate_Model Files_Model Params_Model Exif_Model Factory_Model Load_Model Str Cli_Model.
Import ListNotations.
Open Scope string_scope.
Open Scope list_scope.

(** * Options *)
Section Options.
Variable C : Type.
Variable crs_parse : string -> option C.           (* CRS.from_string; [None]: raises *)
Variable image_crs : string -> res (option C).     (* [with OpenRaster(path) as im: im.crs] *)
Variable exists_ : string -> res bool.             (* [Path(s).exists()], that may raise, e.g. for a long text *)
Variable is_uri : string -> bool.                  (* [urlparse(s).scheme in fsspec.available_protocols()] *)
Variable read_text : string -> res string.         (* [with Open(s, 'rt') as f: f.read()] *)
Variable is_geographic : C -> bool.

(** cli.py:141-155 [_read_crs]. *)
Definition read_crs (s : string) : res (option C) :=
  let suf := lower (suffix (path_name s)) in
  if String.eqb suf ".tif" || String.eqb suf ".tiff" then image_crs s
  else
    do e <- exists_ s;
    do t <- (if e || is_uri s then read_text s else Ok s);
    match crs_parse t with Some c => Ok (Some c) | None => Err ExternalError end.

(** cli.py:158-165 [_crs_cb]: any exception is a bad parameter. *)
Definition crs_cb (arg : option string) : res (option C) :=
  match arg with
  | None => Ok None
  | Some s => match read_crs s with Ok c => Ok c | Err _ => Err BadParameter end
  end.

(** cli.py:198-207 [_lla_crs_cb]: the test for a geographic CRS is not in the 'try'. *)
Definition lla_crs_cb (arg : option string) : res (option C) :=
  match arg with
  | None => Ok None
  | Some s =>
    match read_crs s with
    | Err _ => Err BadParameter
    | Ok None => Err AttributeError
    | Ok (Some c) => if is_geographic c then Ok (Some c) else Err BadParameter
    end
  end.
End Options.

Section Files.
Variable F : Type.                                 (* fsspec OpenFile *)
Variable open_files : list string -> res (list F). (* fsspec.open_files, that expands patterns *)
Variable fopen : string -> res F.                  (* fsspec.open *)
Variable is_dir : F -> bool.
Variable join : F -> string -> F.
Variable mkdirs : F -> res unit.

(** cli.py:168-182 [_src_files_cb]. *)
Definition src_files_cb (args : list string) : res (list F) :=
  match args with
  | [] => Ok []
  | _ => match open_files args with
         | Err _ => Err BadParameter
         | Ok [] => Err BadParameter
         | Ok l => Ok l
         end
  end.

(** cli.py:185-195 [_file_cb]: an empty path is no path. *)
Definition file_cb (arg : option string) : res (option F) :=
  match arg with
  | None | Some "" => Ok None
  | Some s => match fopen s with Ok f => Ok (Some f) | Err _ => Err BadParameter end
  end.

(** [s.rstrip('/')]. *)
Fixpoint rstrip_slash (s : string) : string :=
  match s with
  | EmptyString => EmptyString
  | String c s' => match rstrip_slash s' with
                   | EmptyString => if Ascii.eqb c "/" then EmptyString else String c EmptyString
                   | t => String c t
                   end
  end.

(** cli.py:221-236 [_dir_cb]. *)
Definition dir_cb (s : string) : res F :=
  match fopen (rstrip_slash s) with
  | Err _ => Err BadParameter
  | Ok f => if is_dir f then Ok f else Err BadParameter
  end.

(** cli.py:259-272 [_odm_out_dir_cb]. *)
Definition odm_out_dir_cb (dataset : F) (arg : option string) : res F :=
  match arg with
  | None | Some "" => let f := join dataset "orthority" in
                      match mkdirs f with Ok _ => Ok f | Err _ => Err BadParameter end
  | Some s => dir_cb s
  end.

(** The '--gcp-refine' option: nothing, the tags of the sources, or a file. *)
Inductive gcp_opt := GcpNone | GcpTags | GcpFile (f : F).

(** cli.py:275-281 [_gcp_refine_cb], and the test at cli.py:1009. *)
Definition gcp_refine_cb (arg : option string) : res gcp_opt :=
  match arg with
  | None => Ok GcpNone
  | Some s => if String.eqb (lower s) "tags" then Ok GcpTags
              else match file_cb (Some s) with
                   | Ok None => Ok GcpNone
                   | Ok (Some f) => Ok (GcpFile f)
                   | Err e => Err e
                   end
  end.
End Files.

(** * Cameras of a frame factory *)
Section Frame.
Variables I : Type.
Variable create : dict mval -> res I.  (* create_camera, with the --full-remap and --alpha options *)

(** A camera with the interior and exterior parameters of an image. *)
Definition frame_cam := camera (option mval * option mval) I.

(** factory.py:205-234 [FrameCameras.get]: the camera as it is returned.  A simplification: the factory is a new one;
    what was requested before makes no difference (C33). *)
Definition frame_camera (ints exts : dict (dict mval)) (src : string) : res frame_cam :=
  let '(st, r) := frame_get create (path_name src) (factory_of ints exts) in
  do i <- r;
  match nth_error (f_heap st) i with Some c => Ok c | None => Err KeyError end.  (* never [None] *)
End Frame.

(** What is done with a file that has been opened: all of the command but the cameras and the CRS. *)
Record rest := Rest { r_export : bool; r_dem : option (res Z); r_band : Z; r_dir : string; r_overwrite : bool; r_ovw : bool }.

Section Commands.
Variable C : Type.
Variable crs_parse : string -> option C.
Variables ydec jdec : string -> option pyval.
Variable K : Type.                                 (* the --lla-crs and --radians options *)
Variable csv_reader : io_kwargs C K -> farg -> string -> res (dict (dict mval) * option C).
Variable osfm_reader : io_kwargs C K -> pyval -> res (dict (dict mval) * dict (dict mval) * C).
Variable exif_reader : list string -> dict (optval C K) -> res (dict (dict mval) * dict (dict mval) * option C).
Variables yenc jenc : pyval -> list string.
Variable crs_str : C -> string.
Variable is_projected : C -> bool.
Variable to_lla : C -> pyval -> pyval -> pyval -> res (Q * Q * Q).
Variable I : Type.
Variable create : dict mval -> res I.
Variable src_open : string -> res (option C).      (* a source image: its CRS, if it has one *)
Variable ortho_init : string -> frame_cam I -> C -> res unit.
Variable env_of : string -> frame_cam I -> C -> env.

Definition or_else {A} (a b : option A) : option A := match a with Some x => Some x | None => b end.
Definition crs_option (crs : option C) : crs_opt C := match crs with Some c => CCrs c | None => CNone end.

(** [_ortho(cameras=cameras, crs=crs, ...)] for a frame camera factory. *)
Definition frame_ortho (r : rest) (ints exts : dict (dict mval)) (factory_crs crs : option C) (srcs : list string) : act unit :=
  ortho_cmd C (frame_cam I) (frame_camera I create ints exts) src_open ortho_init env_of (r_dir r) (r_overwrite r) (r_ovw r) (r_export r)
    (write_frame C yenc jenc crs_str is_projected to_lla (r_dir r) (r_overwrite r) ints exts factory_crs)
    (r_dem r) (r_band r) crs srcs.

(** cli.py:675-687: errors of the factory. *)
Definition frame_error (e : exn) : exn :=
  match e with
  | CrsMissingError => MissingParameter
  | CrsError => BadParameter
  | _ => if is_not_found e || is_orthority e then UsageError else e
  end.

(** cli.py:637-693 [frame]. *)
Definition frame_command (other : K) (int_file ext_file : farg) (crs : option C) (r : rest) (srcs : list string) : act unit :=
  fun fs =>
  match snd (read_param C crs_parse ydec jdec K csv_reader osfm_reader fs (Io (crs_option crs) other)
               (AFile int_file) (AFile ext_file) []) with
  | Err e => (fs, Err (frame_error e))
  | Ok (ints, exts, c) => frame_ortho r ints exts c (or_else crs c) srcs fs
  end.

(** cli.py:758-767. *)
Definition exif_error (e : exn) : exn :=
  match e with
  | CrsError => BadParameter
  | _ => if is_not_found e || is_orthority e then BadParameter else e
  end.

(** cli.py:721-773 [exif]; the options dictionary is a new one. *)
Definition exif_command (other : K) (crs : option C) (r : rest) (srcs : list string) : act unit :=
  fun fs =>
  let kw := [("crs", optcrs C K crs); ("lla_crs", OOther other)] in
  match snd (from_images exif_reader srcs (Some 0%nat) [kw]) with
  | Err e => (fs, Err (exif_error e))
  | Ok (ints, exts, c) => frame_ortho r ints exts c (or_else crs c) srcs fs
  end.

(** cli.py:872-878. *)
Definition odm_error (e : exn) : exn :=
  if is_not_found e then BadParameter else if is_orthority e then UsageError else e.

(** cli.py:814-890 [odm]: [files] are those in the images folder, [dsm] opens the DSM and gives its number of bands and
    CRS.  The band is 1. *)
Definition odm_command (other : K) (dataset : string) (files : list string) (dsm : res (Z * option C)) (crs : option C)
    (r : rest) : act unit := fun fs =>
  let srcs := odm_images files in
  match srcs with
  | [] => (fs, Err BadParameter)
  | _ =>
    match dsm with
    | Err e => (fs, Err (if is_not_found e then BadParameter else e))
    | Ok (count, dsm_crs) =>
      let crs := or_else crs dsm_crs in
      let rec := AFile (FOpenFile 0 (pjoin dataset "opensfm/reconstruction.json")) in
      match snd (read_param C crs_parse ydec jdec K csv_reader osfm_reader fs (Io (crs_option crs) other) rec rec []) with
      | Err e => (fs, Err (odm_error e))
      | Ok (ints, exts, c) =>
        frame_ortho (Rest (r_export r) (Some (Ok count)) 1 (r_dir r) (r_overwrite r) (r_ovw r)) ints exts c crs srcs fs
      end
    end
  end.
End Commands.

(** * The RPC command *)
Section RpcCommand.
Variables C M R G Cam : Type.
Variable wgs84_3d : C.                             (* rio.CRS.from_epsg(4979) *)
Variable create : option C -> M -> R -> res Cam.   (* RpcCamera(..., crs) *)
Variable refine_rpc : R -> list G -> res R.        (* refine_rpc with the --refine-method option *)
Variable src_open : string -> res (option C).
Variable ortho_init : string -> Cam -> C -> res unit.
Variable env_of : string -> Cam -> C -> env.
Variable export : rstate M R G Cam -> act unit.    (* RpcCameras.write_param *)

(** cli.py:987-1003 and 1005-1018: errors of reading and refining. *)
Definition rpc_error (e : exn) : exn := if is_not_found e || is_orthority e then BadParameter else e.

(** cli.py:942-1021 [rpc]: [params] reads the RPC parameter file or the sources, and [gcps] the GCP file or those of the sources
    ([None] without the option).  There are sources when GCPs are read from them (see C79 for when there are not). *)
Definition rpc_command (params : res (dict (M * R))) (gcps : option (res (dict (list G)))) (crs : option C) (r : rest)
    (srcs : list string) : act unit := fun fs =>
  match params with
  | Err e => (fs, Err (rpc_error e))
  | Ok params =>
    let st := rpc_init params in
    match match gcps with
          | None => Ok st
          | Some (Err e) => Err e
          | Some (Ok g) => match rpc_refine refine_rpc g st with (st', Ok _) => Ok st' | (_, Err e) => Err e end
          end with
    | Err e => (fs, Err (rpc_error e))
    | Ok st =>
      ortho_cmd C Cam (fun src => snd (rpc_get (create crs) (path_name src) st)) src_open ortho_init env_of
        (r_dir r) (r_overwrite r) (r_ovw r) (r_export r) (export st) (r_dem r) (r_band r)
        (Some (match crs with Some c => c | None => wgs84_3d end)) srcs fs
    end
  end.
End RpcCommand.

(** * The sharpen command *)

(** cli.py:1142-1211 [sharpen]: [pan] and [ms] open the images and give their numbers of bands, [init] is [PanSharpen(...)]. *)
Definition sharpen_command (pan ms : res Z) (pan_index : Z) (ms_indexes : list Z) (init : res unit) (e : env) (path : string)
    (overwrite build_ovw : bool) : act unit :=
  let! pan_count <- except_as is_not_found BadParameter (ret pan);
  let! ms_count <- except_as is_not_found BadParameter (ret ms);
  let! _ <- ret (sharpen_indexes pan_index pan_count ms_indexes ms_count);
  except_as (fun e => is_exists e || is_orthority e) UsageError
    (let! _ <- ret init; pan_process e path overwrite build_ovw).
