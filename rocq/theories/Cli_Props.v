(** Property theorems: C56 command line outputs and CRS, C57 command line options, C68 legacy command.  The factory, opening of
    sources and the steps of processing are arguments, about which nothing is assumed. *)
From Coq Require Import String Ascii List ZArith QArith Bool.
From Verif Require Import Py Params_Model Factory_Model Str Files_Model Files_Spec Read_Spec Cli_Model Cli_Spec Cli_Proof.
Import ListNotations.
Open Scope string_scope.
Open Scope list_scope.

(** C56: outputs of sources are the same file exactly when the sources have the same stem. *)
Theorem C56_names : forall dir a b, ortho_name dir a = ortho_name dir b <-> src_stem a = src_stem b.
Proof. exact ortho_name_inj. Qed.
Print Assumptions C56_names.

(** C56: after a run without error, every source was processed with its camera and a CRS: that of the option or factory, otherwise
    that of the first source, up to it, that has one; and its output is there, unless a later source has the same stem. *)
Theorem C56_outputs : forall C K camera_get src_open ortho_init env_of dir ow b srcs crs fs fs' r,
  ortho_loop C K camera_get src_open ortho_init env_of dir ow b crs srcs fs = (fs', Ok r) ->
  forall before src after, srcs = before ++ src :: after ->
  exists k c, camera_get src = Ok k /\ first_some (crs :: map (own_crs src_open) (before ++ [src])) c /\ ortho_init src k c = Ok tt /\
    no_failure (env_of src k c) b /\
    ((forall s, In s after -> src_stem s <> src_stem src) -> dget (ortho_name dir src) fs' = Some (finished (env_of src k c) b)).
Proof. exact loop_run. Qed.
Print Assumptions C56_outputs.

(** C56: nothing but the outputs of the sources is written, with or without error. *)
Theorem C56_confined : forall C K camera_get src_open ortho_init env_of dir ow b srcs crs fs q,
  (forall src, In src srcs -> q <> ortho_name dir src) ->
  dget q (fst (ortho_loop C K camera_get src_open ortho_init env_of dir ow b crs srcs fs)) = dget q fs.
Proof. exact loop_other. Qed.
Print Assumptions C56_confined.

(** C56: without overwriting, a run without error means that stems are distinct and no output was there before. *)
Theorem C56_fresh : forall C K camera_get src_open ortho_init env_of dir ow b srcs crs fs fs' r,
  ortho_loop C K camera_get src_open ortho_init env_of dir ow b crs srcs fs = (fs', Ok r) -> ow = false ->
  NoDup (map src_stem srcs) /\ forall src, In src srcs -> dget (ortho_name dir src) fs = None.
Proof. exact loop_fresh. Qed.
Print Assumptions C56_fresh.

(** C56: conversely, nothing else stops a run. *)
Theorem C56_completes : forall C K camera_get src_open ortho_init env_of dir ow b srcs crs fs,
  (forall before src after, srcs = before ++ src :: after -> exists k c, camera_get src = Ok k /\ is_ok (src_open src) = true /\
     first_some (crs :: map (own_crs src_open) (before ++ [src])) c /\ ortho_init src k c = Ok tt /\ no_failure (env_of src k c) b) ->
  (ow = true \/ (NoDup (map src_stem srcs) /\ forall src, In src srcs -> dget (ortho_name dir src) fs = None)) ->
  is_ok (snd (ortho_loop C K camera_get src_open ortho_init env_of dir ow b crs srcs fs)) = true.
Proof. exact loop_complete. Qed.
Print Assumptions C56_completes.

(** C56: an error stops the run at its source: sources before it were processed (so [C56_outputs] holds of them), those after it
    were not. *)
Theorem C56_stops : forall C K camera_get src_open ortho_init env_of dir ow b srcs crs fs fs' e,
  ortho_loop C K camera_get src_open ortho_init env_of dir ow b crs srcs fs = (fs', Err e) ->
  exists before src after fs1 crs1, srcs = before ++ src :: after /\
    ortho_loop C K camera_get src_open ortho_init env_of dir ow b crs before fs = (fs1, Ok crs1) /\
    snd (ortho_one C K camera_get src_open ortho_init env_of dir ow b crs1 src fs1) = Err e /\
    forall q, q <> ortho_name dir src -> dget q fs' = dget q fs1.
Proof. exact loop_stop. Qed.
Print Assumptions C56_stops.

(** C56: a source without any CRS is a missing parameter; an output that exists, and a source without camera, are usage errors.
    Nothing is written. *)
Theorem C56_no_crs : forall C K camera_get src_open ortho_init env_of dir ow b src fs k, camera_get src = Ok k -> src_open src = Ok None ->
  ortho_one C K camera_get src_open ortho_init env_of dir ow b None src fs = (fs, Err MissingParameter).
Proof. exact one_no_crs. Qed.
Print Assumptions C56_no_crs.

Theorem C56_exists : forall C K camera_get src_open ortho_init env_of dir ow b crs src fs k own c content,
  camera_get src = Ok k -> src_open src = Ok own -> first_some [crs; own] c ->
  ortho_init src k c = Ok tt -> (forall s, ortho_before s -> raises (env_of src k c) s = None) -> ow = false ->
  dget (ortho_name dir src) fs = Some content ->
  ortho_one C K camera_get src_open ortho_init env_of dir ow b crs src fs = (fs, Err UsageError).
Proof. exact one_exists. Qed.
Print Assumptions C56_exists.

Theorem C56_camera : forall C K camera_get src_open ortho_init env_of dir ow b crs src fs e,
  camera_get src = Err e -> e = OrthorityError \/ e = ParamError \/ e = CrsMissingError \/ e = CrsError ->
  ortho_one C K camera_get src_open ortho_init env_of dir ow b crs src fs = (fs, Err UsageError).
Proof.
  exact (fun C K camera_get src_open ortho_init env_of dir ow b crs src fs e H He =>
           one_camera C K camera_get src_open ortho_init env_of dir ow b crs src fs e H
             match He with
             | or_introl Q => match Q in _ = x return is_orthority e = is_orthority x with eq_refl => eq_refl end
             | or_intror (or_introl Q) => match Q in _ = x return is_orthority e = is_orthority x with eq_refl => eq_refl end
             | or_intror (or_intror (or_introl Q)) => match Q in _ = x return is_orthority e = is_orthority x with eq_refl => eq_refl end
             | or_intror (or_intror (or_intror Q)) => match Q in _ = x return is_orthority e = is_orthority x with eq_refl => eq_refl end
             end).
Qed.
Print Assumptions C56_camera.

(** C56: exporting parameters is all that an export does... *)
Theorem C56_export : forall C K cg so oi eo dir ow b export dem band crs srcs fs,
  fst (ortho_cmd C K cg so oi eo dir ow b true export dem band crs srcs fs) = fst (export fs) /\
  (snd (export fs) = Ok tt <-> snd (ortho_cmd C K cg so oi eo dir ow b true export dem band crs srcs fs) = Ok tt).
Proof. exact cmd_export. Qed.
Print Assumptions C56_export.

(** ... and otherwise the sources are processed, with a DEM that has the band. *)
Theorem C56_dem : forall C K cg so oi eo dir ow b export dem band crs srcs fs fs',
  ortho_cmd C K cg so oi eo dir ow b false export dem band crs srcs fs = (fs', Ok tt) <->
  exists count r, dem = Some (Ok count) /\ (1 <= band <= count)%Z /\ ortho_loop C K cg so oi eo dir ow b crs srcs fs = (fs', Ok r).
Proof. exact cmd_dem. Qed.
Print Assumptions C56_dem.

Theorem C56_dem_error : forall C K cg so oi eo dir ow b export dem band crs srcs fs,
  dem = None \/ dem = Some (Err FileNotFoundError) \/ (exists count, dem = Some (Ok count) /\ (band <= 0 \/ count < band)%Z) ->
  ortho_cmd C K cg so oi eo dir ow b false export dem band crs srcs fs = (fs, Err (match dem with None => MissingParameter | _ => BadParameter end)).
Proof. exact cmd_dem_error. Qed.
Print Assumptions C56_dem_error.

Definition example_env (text : string) : env := Env (fun _ => None) (fun _ => text).

(** C56: a source that has its own CRS is orthorectified in the CRS of another one, that comes before it. *)
Theorem C56_own_crs_refuted :
  let src_open := fun s => Ok (if String.eqb s "a.tif" then Some "EPSG:1" else Some "EPSG:2") in
  let env_of := fun (s : string) (k : unit) (c : string) => example_env c in
  fst (ortho_loop string unit (fun _ => Ok tt) src_open (fun _ _ _ => Ok tt) env_of "out" false true None ["a.tif"; "b.tif"] []) =
  [("out/a_ORTHO.tif", "EPSG:1"); ("out/b_ORTHO.tif", "EPSG:1")].
Proof. exact eq_refl. Qed.
Print Assumptions C56_own_crs_refuted.

(** C56: with overwriting, sources with the same stem replace each other's output, without an error. *)
Theorem C56_same_stem_refuted :
  let env_of := fun (s : string) (k : unit) (c : nat) => example_env s in
  ortho_loop nat unit (fun _ => Ok tt) (fun _ => Ok None) (fun _ _ _ => Ok tt) env_of "out" true true (Some 0%nat)
    ["flight1/im.tif"; "flight2/im.tif"; "im.jpg"] [] = ([("out/im_ORTHO.tif", "im.jpg")], Ok (Some 0%nat)).
Proof. exact eq_refl. Qed.
Print Assumptions C56_same_stem_refuted.

Example C56_case :
  let src_open := fun s => Ok (if String.eqb s "d/b.tif" then Some "EPSG:2" else None) in
  let env_of := fun (s : string) (k : unit) (c : string) => example_env (s ++ " " ++ c)%string in
  ortho_loop string unit (fun _ => Ok tt) src_open (fun _ _ _ => Ok tt) env_of "out/" false true None ["d/b.tif"; "c.v2.tif"] [("x", "y")] =
  ([("x", "y"); ("out/b_ORTHO.tif", "d/b.tif EPSG:2"); ("out/c.v2_ORTHO.tif", "c.v2.tif EPSG:2")], Ok (Some "EPSG:2")).
Proof. reflexivity. Qed.

(** C56: images of an OpenDroneMap dataset are the files with a JPEG or TIFF extension, in any case. *)
Theorem C56_odm : forall files f, In f (odm_images files) <->
  In f files /\ exists base ext, f = (base ++ "." ++ ext)%string /\ ~ In "."%char (list_ascii_of_string ext) /\ In (lower ext) ["jpg"; "jpeg"; "tif"; "tiff"].
Proof. exact odm_selected. Qed.
Print Assumptions C56_odm.

Example C56_odm_case : odm_images ["images/a.JPG"; "images/b.tif.xml"; "images/tif"; "images/x.jpg/c"; "images/d.Tiff"] = ["images/a.JPG"; "images/d.Tiff"].
Proof. reflexivity. Qed.

(** C57: one resolution is square, two are width and height, none is none; more are refused. *)
Theorem C57_resolution : forall l r, resolution_cb l = Ok r <->
  (l = [] /\ r = []) \/ (exists x, l = [x] /\ r = [x; x]) \/ (exists x y, l = [x; y] /\ r = [x; y]).
Proof. exact resolution_ok. Qed.
Print Assumptions C57_resolution.

Theorem C57_resolution_error : forall l, (2 < List.length l)%nat -> resolution_cb l = Err BadParameter.
Proof. exact resolution_err. Qed.
Print Assumptions C57_resolution_error.

(** C57: creation options are split at the first '=', lower-cased and stripped; the last one of a name is kept. *)
Theorem C57_creation : forall V none safe_load pairs d, creation_option_cb V none safe_load pairs = Ok d ->
  exists items, Forall2 (fun pair kx => exists k v, pair = (k ++ "=" ++ v)%string /\ ~ In "="%char (list_ascii_of_string k) /\
                           fst kx = strip white (lower k) /\ option_value none safe_load (strip white (lower v)) (snd kx)) pairs items /\
    map fst d = first_names (map fst items) /\ forall k, dget k d = last_named k items.
Proof. exact creation_options. Qed.
Print Assumptions C57_creation.

(** C57: an option without '=' is refused. *)
Theorem C57_creation_error : forall V none safe_load l1 pair l2,
  (forall p, In p l1 -> exists k v x, p = (k ++ "=" ++ v)%string /\ ~ In "="%char (list_ascii_of_string k) /\ option_value none safe_load (strip white (lower v)) x) ->
  ~ In "="%char (list_ascii_of_string pair) -> creation_option_cb V none safe_load (l1 ++ pair :: l2) = Err BadParameter.
Proof. exact creation_bad. Qed.
Print Assumptions C57_creation_error.

(** C57: the case of values is lost: options that only differ in it are the same. *)
Theorem C57_case_refuted : forall V none safe_load,
  creation_option_cb V none safe_load ["metadata=Town=CapeTown"] = creation_option_cb V none safe_load ["METADATA=town=capetown"].
Proof. exact (fun V none safe_load => eq_refl). Qed.
Print Assumptions C57_case_refuted.

(** C57: the log level is debug with any positive verbosity, otherwise information (20) and 10 more for each step down. *)
Theorem C57_level : forall v, (v >= 1 -> log_level v = 10)%Z /\ (v <= 0 -> log_level v = 20 + 10 * - v)%Z.
Proof. exact log_levels. Qed.
Print Assumptions C57_level.

(** C57: weights have to be 0 or more; band indexes have to be those of bands. *)
Theorem C57_weights : forall l r, weights_cb l = Ok r <-> (forall w, In w l -> (0 <= w)%Q) /\ r = l.
Proof. exact weights_ok. Qed.
Print Assumptions C57_weights.

Theorem C57_weights_error : forall l w, In w l -> (w < 0)%Q -> weights_cb l = Err BadParameter.
Proof. exact weights_bad. Qed.
Print Assumptions C57_weights_error.

Theorem C57_indexes : forall pi pc mi mc, sharpen_indexes pi pc mi mc = Ok tt <-> (1 <= pi <= pc)%Z /\ forall i, In i mi -> (1 <= i <= mc)%Z.
Proof. exact indexes_ok. Qed.
Print Assumptions C57_indexes.

Theorem C57_indexes_error : forall pi pc mi mc, sharpen_indexes pi pc mi mc = Ok tt \/ sharpen_indexes pi pc mi mc = Err BadParameter.
Proof. exact indexes_total. Qed.
Print Assumptions C57_indexes_error.

Example C57_case :
  creation_option_cb string "NONE" (fun s => Ok s) ["Compress = LZW "; "Tiled=None"; "A=b=C"; "compress=deflate"] =
    Ok [("compress", "deflate"); ("tiled", "NONE"); ("a", "b=c")] /\
  creation_option_cb string "NONE" (fun s => Ok s) ["compress"] = Err BadParameter /\
  resolution_cb [3#2] = Ok [3#2; 3#2] /\ log_level (-1) = 30%Z.
Proof. repeat split; reflexivity. Qed.

(** C68: after a run of the legacy command, every image was processed with the position and orientation of its stem, and its output
    is in the folder of the option, or in that of the first image. *)
Theorem C68_outputs : forall P poses legacy_init legacy_env ow b od srcs fs fs',
  legacy_cmd P poses legacy_init legacy_env ow b od srcs fs = (fs', Ok tt) ->
  forall before src after first rest, srcs = before ++ src :: after -> srcs = first :: rest ->
  exists p, dget (src_stem src) poses = Some p /\ legacy_init src p = Ok tt /\ no_failure (legacy_env src p) b /\
    ((forall s, In s after -> src_stem s <> src_stem src) ->
     dget (ortho_name (match od with None | Some "" => path_parent first | Some d => d end) src) fs' = Some (finished (legacy_env src p) b)).
Proof. exact legacy_outputs. Qed.
Print Assumptions C68_outputs.

(** C68: so without the option, outputs are not in the folders of their images. *)
Theorem C68_folder_refuted :
  fst (legacy_cmd unit [("a", tt); ("b", tt)] (fun _ _ => Ok tt) (fun s _ => example_env s) false true None ["one/a.tif"; "two/b.tif"] []) =
  [("one/a_ORTHO.tif", "one/a.tif"); ("one/b_ORTHO.tif", "two/b.tif")].
Proof. exact eq_refl. Qed.
Print Assumptions C68_folder_refuted.

(** C68: verbosity 1, 2, 3 and 4 is debug, information, warning and error. *)
Theorem C68_level : forall v, (1 <= v)%Z -> legacy_level v = (10 * v)%Z.
Proof. exact legacy_levels. Qed.
Print Assumptions C68_level.

Example C68_case :
  legacy_cmd unit [("a", tt); ("b", tt)] (fun _ _ => Ok tt) (fun s _ => example_env s) false true (Some "out") ["one/a.tif"; "two/b.tif"] [] =
  ([("out/a_ORTHO.tif", "one/a.tif"); ("out/b_ORTHO.tif", "two/b.tif")], Ok tt).
Proof. reflexivity. Qed.
