(** Vocabulary for the commands. *)
From Coq Require Import String Ascii List Bool ZArith.
From Verif Require Import Py Validate_Model Files_Model Params_Model Params_Spec Factory_Model Factory_Spec Load_Model Cli_Spec.
Import ListNotations.
Open Scope string_scope.
Open Scope list_scope.

(** A CSV or OpenSfM reader whose parameters are in the CRS that it is given (C55 for CSV files). *)
Definition csv_honours {C K} (csv_reader : io_kwargs C K -> farg -> string -> res (dict (dict mval) * option C)) : Prop :=
  forall kw a t e c x, io_crs kw = CCrs x -> csv_reader kw a t = Ok (e, c) -> c = Some x.
Definition osfm_honours {C K} (osfm_reader : io_kwargs C K -> pyval -> res (dict (dict mval) * dict (dict mval) * C)) : Prop :=
  forall kw doc i e c x, io_crs kw = CCrs x -> osfm_reader kw doc = Ok (i, e, c) -> c = x.

(** The camera that the exterior parameters of an image name. *)
Definition camera_id (e : dict mval) : option string :=
  match dget "camera" e with Some (MV (PStr s)) => Some s | _ => None end.

(** The camera for an image: with the interior parameters of the camera that the exterior parameters found for the name of the
    image give, and the position and angles of these exterior parameters. *)
Definition image_camera {I} (create : dict mval -> res I) (ints exts : dict (dict mval)) (src : string)
    (cam : camera (option mval * option mval) I) : Prop :=
  exists name e p c, last_part src name /\ found exts name e /\ interior ints (camera_id e) p /\ create p = Ok c /\
  cam = Camera c (Some (dget "xyz" e, dget "opk" e)).

(** Every source is orthorectified with its camera and in the given CRS, or without it in the CRS of the first source that has
    one; and the output file, named after the source, is that ortho image (unless a later source has the same name). *)
Definition orthos_made {C K} (src_open : string -> res (option C)) (ortho_init : string -> K -> C -> res unit)
    (env_of : string -> K -> C -> env) (camera : string -> K -> Prop) (dir : string) (ovw : bool) (given : option C)
    (srcs : list string) (fs' : fsys) : Prop :=
  forall before src after, srcs = before ++ src :: after ->
  exists cam c, camera src cam /\ first_some (given :: map (own_crs src_open) (before ++ [src])) c /\
    ortho_init src cam c = Ok tt /\ no_failure (env_of src cam c) ovw /\
    ((forall s, In s after -> src_stem s <> src_stem src) ->
     dget (pjoin dir (src_stem src ++ "_ORTHO.tif")%string) fs' = Some (finished (env_of src cam c) ovw)).

(** Errors that click reports with a message, and the errors of Orthority, or for a missing file, that users can cause. *)
Definition click_error (e : exn) : Prop := In e [UsageError; BadParameter; MissingParameter].
Definition user_error (e : exn) : Prop := In e [FileNotFoundError; OrthorityError; ParamError; CrsError; CrsMissingError].

(** A user's error, raised where it is not turned into a click error: while opening the DEM or a source image, other than
    because the file is missing; or, in the camera or orthorectification, because of a missing file. *)
Inductive escapes {C K} (camera_raises : string -> exn -> Prop) (src_open : string -> res (option C))
    (ortho_init : string -> K -> C -> res unit) (env_of : string -> K -> C -> env) (dem : option (res Z)) (srcs : list string)
    (e : exn) : Prop :=
| dem_escapes : dem = Some (Err e) -> e <> FileNotFoundError -> escapes camera_raises src_open ortho_init env_of dem srcs e
| source_escapes : forall src, In src srcs -> src_open src = Err e -> e <> FileNotFoundError ->
    escapes camera_raises src_open ortho_init env_of dem srcs e
| camera_escapes : forall src, In src srcs -> camera_raises src e -> e = FileNotFoundError ->
    escapes camera_raises src_open ortho_init env_of dem srcs e
| init_escapes : forall src k c, In src srcs -> ortho_init src k c = Err e -> e = FileNotFoundError ->
    escapes camera_raises src_open ortho_init env_of dem srcs e
| step_escapes : forall src k c s, In src srcs -> raises (env_of src k c) s = Some e -> e = FileNotFoundError ->
    escapes camera_raises src_open ortho_init env_of dem srcs e.

(** An image file by its extension. *)
Definition tiff (s : string) : Prop :=
  exists name base y x, last_part s name /\ name = (base ++ y)%string /\ base <> "" /\ In x [".tif"; ".tiff"] /\ any_case y x.

(** What the text of a CRS option gives: the CRS of an image, if it has one; the CRS in a text file; or the CRS of the text. *)
Inductive crs_of {C} (crs_parse : string -> option C) (image_crs : string -> res (option C)) (exists_ : string -> res bool)
    (is_uri : string -> bool) (read_text : string -> res string) (s : string) : option C -> Prop :=
| crs_of_image : forall c, tiff s -> image_crs s = Ok c -> crs_of crs_parse image_crs exists_ is_uri read_text s c
| crs_of_file : forall t c, ~ tiff s -> exists_ s = Ok true \/ (exists_ s = Ok false /\ is_uri s = true) ->
    read_text s = Ok t -> crs_parse t = Some c -> crs_of crs_parse image_crs exists_ is_uri read_text s (Some c)
| crs_of_text : forall c, ~ tiff s -> exists_ s = Ok false -> is_uri s = false ->
    crs_parse s = Some c -> crs_of crs_parse image_crs exists_ is_uri read_text s (Some c).

(** A path without the slashes at its end. *)
Definition without_slashes (s t : string) : Prop :=
  exists z, s = (t ++ z)%string /\ (forall c, has_char c z -> c = "/"%char) /\ (forall u, t <> (u ++ "/")%string).

(** The RPC camera of an image: with the image's parameters, refined with its GCPs if there are any, in the given CRS. *)
Definition rpc_image_camera {C M R G Cam} (create : option C -> M -> R -> res Cam) (refine_rpc : R -> list G -> res R)
    (params : dict (M * R)) (gcps : option (dict (list G))) (crs : option C) (src : string) (cam : Cam) : Prop :=
  exists name key m q q', last_part src name /\
    (key = name \/ (dget name params = None /\ key = stem name)) /\ dget key params = Some (m, q) /\
    match gcps with
    | None => q' = q
    | Some g => (exists gs, gcps_for g key gs /\ refine_rpc q gs = Ok q') \/ ((forall gs, ~ gcps_for g key gs) /\ q' = q)
    end /\ create crs m q' = Ok cam.

(** Whatever happens, an action writes only these paths, keeps existing files unless it may overwrite, and deletes nothing. *)
Definition only_writes (m : act unit) (paths : string -> Prop) (overwrite : bool) : Prop :=
  forall fs p, (~ paths p -> dget p (fst (m fs)) = dget p fs) /\
    (forall content, dget p fs = Some content -> exists content', dget p (fst (m fs)) = Some content' /\ (overwrite = false -> content' = content)).

(** The outputs of a command: exported parameters, or an ortho image for each source. *)
Definition outputs (export : bool) (params : list string) (dir : string) (srcs : list string) (p : string) : Prop :=
  if export then exists f, In f params /\ p = pjoin dir f
  else exists src, In src srcs /\ p = pjoin dir (src_stem src ++ "_ORTHO.tif")%string.

(** RPC parameters after refinement: in the same order, those of images with GCPs are refined and others are as they were. *)
Definition refined {M R G} (refine_rpc : R -> list G -> res R) (params : dict (M * R)) (gcps : option (dict (list G))) (params' : dict (M * R)) : Prop :=
  dkeys params' = dkeys params /\
  forall key m q, dget key params = Some (m, q) -> exists q', dget key params' = Some (m, q') /\
    match gcps with
    | None => q' = q
    | Some g => (exists gs, gcps_for g key gs /\ refine_rpc q gs = Ok q') \/ ((forall gs, ~ gcps_for g key gs) /\ q' = q)
    end.
