(** Property theorems: C97 and C98, the legacy command from its files to pixels. *)
From Coq Require Import String List Reals QArith Qreals ZArith Bool Lra Lia.
From Verif Require Import Py Flt Mat Rot_Spec Remap_Model Frame_Model Frame_Spec Rpc_Model Validate_Model Params_Model Params_Spec Cli_Model Cli_Spec Cam_Model Cam_Spec Proj_Spec
  Make_Model Make_Spec Make_Props Scene_Spec Simple_Model Simple_Spec Simple_Proof.
Import ListNotations.
Open Scope string_scope.
Open Scope list_scope.
Open Scope Z_scope.

Section Props.
Variable cv_surf : string -> arr fl -> fl * fl -> option fl.
Variable cast_nan : string -> fl.
Variable cv_image : string -> arr pix -> fl * fl -> option pix.
Variable convert : string -> string -> pix -> pix.
Notation do_call := (do_call cv_surf cast_nan cv_image convert).
Notation run_calls := (run_calls cv_surf cast_nan cv_image convert).
Variable cv_project cv_undistort fish_undistort : intr -> list R -> R * R -> R * R.
Variable C : Type.
Variable parse_crs : string -> res C.
Variable rpc_crs : C.
Variable O : Type.
Variable no_options : O.
Variable warp : C -> C -> list vec -> list vec.
Variable pyfloat : string -> res Q.
Variable default_conf : string.
Variable exists_path : string -> bool.
Variable load_yaml : string -> res pyval.
Variable dump_yaml : string -> pyval -> res unit.
Variable load_rows : string -> res (list (list string)).
Variable glob : list string -> string -> list string.
Variable mkdir : string -> res unit.
Variable image_size : string -> res (Z * Z).
Variable ortho : job -> res unit.
Variable used : job -> list call.
Notation simple_ortho := (simple_ortho cv_surf cast_nan cv_image convert cv_project cv_undistort fish_undistort C parse_crs rpc_crs O no_options warp pyfloat
  default_conf exists_path load_yaml dump_yaml load_rows glob mkdir image_size ortho used).
Notation conf_of := (conf_of default_conf).

(** Orthorectification of an image calls methods of the camera, but leaves its pose and settings. *)
Hypothesis quiet : forall j, Forall leaves_camera (used j).

(** OpenCV, as in C95. *)
Hypothesis cv_projects : forall K d xy b, In (List.length d) [4; 5; 8; 12; 14]%nat -> opencv_distorts (cv_coefs d) xy b -> num2 (cv_project K d xy) = to_pixel K b.
Hypothesis cv_undistorts : forall K d d' p, In (List.length d) [4; 5; 8; 12; 14]%nat -> In (List.length d') [4; 5; 8; 12; 14]%nat ->
  (forall k, cv_coefs d k = cv_coefs d' k) -> cv_undistort K d p = cv_undistort K d' p.

(** C97: for every image that is orthorectified, and whether or not the run ends well: the camera, all through its orthorectification, images each
    point by the interior parameters of the configuration and the pose of the last row of the pose file that has the stem of the image; the CRS, band and options are
    those of the configuration; there is a warning when the image does not have the configured size; and the output is in the given folder, or in
    that of the first image. *)
Theorem C97_jobs : forall a doc c alpha d o rows,
  load_yaml (conf_of a) = Ok doc -> configures doc c alpha d o -> usable c -> load_rows (a_pos a) = Ok rows ->
  forall j, In j (o_jobs (simple_ortho a)) ->
  (exists row x y z om ph ka om' ph' ka', row_for rows (src_stem (j_src j)) row /\ row_values pyfloat row [x; y; z; om; ph; ka] /\
    in_radians om om' /\ in_radians ph ph' /\ in_radians ka ka' /\
    forall ks, Forall leaves_camera ks ->
    let t := V3 (Q2R x) (Q2R y) (Q2R z) in
    let pixel X q := snd (do_call (run_calls (j_camera j) ks) (WorldToPixel (one_point (num3 X)))) = Ok (VPixels [q]) in
    (forall X, beside t om' ph' ka' X -> pixel X (Nan, Nan)) /\
    (d = true -> forall X q, images c t om' ph' ka' X q -> pixel X q) /\
    (d = false -> exists K, (in_type c = Cpinhole -> pixel_intr c K) /\
       (in_type c <> Cpinhole -> exists f, lens_inverse cv_undistort fish_undistort c f /\ undistorted f (in_w c) (in_h c) alpha K) /\
       forall X v, seen_at t om' ph' ka' v X -> vz v <> 0%R -> pixel X (to_pixel K (vx v / vz v, vy v / vz v)%R))) /\
  setting o "crs" PNone (j_crs j) /\ setting o "dem_band" (PInt 1) (j_dem_band j) /\
  (forall k v, dget k (j_options j) = Some v <-> exists w, v = MV w /\ passed o k w) /\
  (exists size, image_size (j_src j) = Ok size /\ (j_warned j = true <-> size <> (in_w c, in_h c))) /\
  exists first, hd_error (o_jobs (simple_ortho a)) = Some first /\
    j_out j = ortho_name (match a_dir a with None | Some "" => path_parent (j_src first) | Some dir => dir end) (j_src j).
Proof.
  exact (jobs_right cv_surf cast_nan cv_image convert cv_project cv_undistort fish_undistort C parse_crs rpc_crs O no_options warp pyfloat default_conf exists_path load_yaml dump_yaml load_rows
    glob mkdir image_size ortho used quiet cv_projects cv_undistorts).
Qed.

(** C97: a run that ends well has orthorectified, pattern by pattern, the files that match. *)
Theorem C97_sources : forall a, o_end (simple_ortho a) = Ok tt -> a_write a = None -> groups glob [] (a_src a) (o_jobs (simple_ortho a)).
Proof.
  exact (run_sources cv_surf cast_nan cv_image convert cv_project cv_undistort fish_undistort C parse_crs rpc_crs O no_options warp pyfloat default_conf exists_path load_yaml dump_yaml load_rows
    glob mkdir image_size ortho used).
Qed.

(** C97: a run that does not has done so up to some file. *)
Theorem C97_order : forall a, started glob [] (a_src a) (o_jobs (simple_ortho a)).
Proof.
  exact (run_order cv_surf cast_nan cv_image convert cv_project cv_undistort fish_undistort C parse_crs rpc_crs O no_options warp pyfloat default_conf exists_path load_yaml dump_yaml load_rows
    glob mkdir image_size ortho used).
Qed.

(** C97: those are the files that were there, when outputs do not match the patterns. *)
Theorem C97_images : forall a, o_end (simple_ortho a) = Ok tt -> a_write a = None -> (forall outs spec, In spec (a_src a) -> glob outs spec = glob [] spec) ->
  map j_src (o_jobs (simple_ortho a)) = flat_map (glob []) (a_src a).
Proof.
  exact (run_images cv_surf cast_nan cv_image convert cv_project cv_undistort fish_undistort C parse_crs rpc_crs O no_options warp pyfloat default_conf exists_path load_yaml dump_yaml load_rows
    glob mkdir image_size ortho used).
Qed.

(** C97: the run ends well when the files are there, each image has a row and can be opened, and orthorectification succeeds. *)
Theorem C97_complete : forall a doc c alpha d o rows,
  a_write a = None -> exists_path (conf_of a) = true ->
  load_yaml (conf_of a) = Ok doc -> configures doc c alpha d o -> usable c ->
  exists_path (a_dem a) = true -> exists_path (a_pos a) = true -> load_rows (a_pos a) = Ok rows -> rows_ok pyfloat rows ->
  (forall dir, a_dir a = Some dir -> exists_path dir = true \/ mkdir dir = Ok tt) ->
  (forall spec, In spec (a_src a) -> glob [] spec <> []) ->
  (forall spec outs src, In spec (a_src a) -> In src (glob outs spec) -> (exists row, In row rows /\ hd_error row = Some (src_stem src)) /\ exists size, image_size src = Ok size) ->
  (forall j, ortho j = Ok tt) ->
  o_end (simple_ortho a) = Ok tt.
Proof.
  exact (run_complete cv_surf cast_nan cv_image convert cv_project cv_undistort fish_undistort C parse_crs rpc_crs O no_options warp pyfloat default_conf exists_path load_yaml dump_yaml load_rows
    glob mkdir image_size ortho used cv_projects cv_undistorts).
Qed.

(** C97: an empty ortho section is not one without settings: the run fails. *)
Theorem C97_empty_section_refuted : forall a camera rest, exists_path (conf_of a) = true -> a_write a = None ->
  load_yaml (conf_of a) = Ok (PDict ((KStr "ortho", PNone) :: (KStr "camera", camera) :: rest)) -> simple_ortho a = Outcome None None [] (Err AttributeError).
Proof.
  exact (empty_section cv_surf cast_nan cv_image convert cv_project cv_undistort fish_undistort C parse_crs rpc_crs O no_options warp pyfloat default_conf exists_path load_yaml dump_yaml load_rows
    glob mkdir image_size ortho used).
Qed.

(** C98: without the configuration file, or with a missing DEM or pose file or a pattern that matches nothing, the run fails and nothing is made. *)
Theorem C98_no_config : forall a, exists_path (conf_of a) = false -> simple_ortho a = Outcome None None [] (Err RuntimeError).
Proof.
  exact (no_config cv_surf cast_nan cv_image convert cv_project cv_undistort fish_undistort C parse_crs rpc_crs O no_options warp pyfloat default_conf exists_path load_yaml dump_yaml load_rows
    glob mkdir image_size ortho used).
Qed.

(** C98: as above. *)
Theorem C98_inputs : forall a, a_write a = None ->
  exists_path (a_dem a) = false \/ exists_path (a_pos a) = false \/ (exists spec, In spec (a_src a) /\ glob [] spec = []) ->
  exists e, simple_ortho a = Outcome None None [] (Err e).
Proof.
  exact (bad_inputs cv_surf cast_nan cv_image convert cv_project cv_undistort fish_undistort C parse_crs rpc_crs O no_options warp pyfloat default_conf exists_path load_yaml dump_yaml load_rows
    glob mkdir image_size ortho used).
Qed.

(** C98: no image is orthorectified when any row of the pose file is too short or has something that is not a number, also when no image goes with it. *)
Theorem C98_rows : forall a, a_write a = None ->
  (exists e, load_rows (a_pos a) = Err e) \/ (exists rows row, load_rows (a_pos a) = Ok rows /\ In row rows /\ row <> [] /\ forall l, ~ row_values pyfloat row l) ->
  o_jobs (simple_ortho a) = [] /\ exists e, o_end (simple_ortho a) = Err e.
Proof.
  exact (bad_rows cv_surf cast_nan cv_image convert cv_project cv_undistort fish_undistort C parse_crs rpc_crs O no_options warp pyfloat default_conf exists_path load_yaml dump_yaml load_rows
    glob mkdir image_size ortho used).
Qed.

(** C98: with the option, the configuration is written as it was read, and nothing else is done: no argument is looked at. *)
Theorem C98_write_conf : forall a f, a_write a = Some f -> exists_path (conf_of a) = true ->
  simple_ortho a = match load_yaml (conf_of a) with
                   | Err e => Outcome None None [] (Err e)
                   | Ok doc => match dump_yaml f doc with Ok _ => Outcome (Some (f, doc)) None [] (Ok tt) | Err e => Outcome None None [] (Err e) end
                   end.
Proof.
  exact (writes_config cv_surf cast_nan cv_image convert cv_project cv_undistort fish_undistort C parse_crs rpc_crs O no_options warp pyfloat default_conf exists_path load_yaml dump_yaml load_rows
    glob mkdir image_size ortho used).
Qed.

(** C98: a configuration is written, and a folder made, only when asked for; a folder only when it is not there and the inputs are. *)
Theorem C98_writes : forall a, (forall f doc, o_conf (simple_ortho a) = Some (f, doc) -> a_write a = Some f) /\
  (forall dir, o_folder (simple_ortho a) = Some dir -> a_dir a = Some dir /\ exists_path dir = false /\ mkdir dir = Ok tt /\
    exists_path (a_dem a) = true /\ exists_path (a_pos a) = true /\ forall spec, In spec (a_src a) -> glob [] spec <> []).
Proof.
  exact (writes_only cv_surf cast_nan cv_image convert cv_project cv_undistort fish_undistort C parse_crs rpc_crs O no_options warp pyfloat default_conf exists_path load_yaml dump_yaml load_rows
    glob mkdir image_size ortho used).
Qed.

(** C98: and it is made before any image is orthorectified. *)
Theorem C98_folder : forall a dir j, a_dir a = Some dir -> exists_path dir = false -> In j (o_jobs (simple_ortho a)) -> o_folder (simple_ortho a) = Some dir /\ mkdir dir = Ok tt.
Proof.
  exact (makes_folder cv_surf cast_nan cv_image convert cv_project cv_undistort fish_undistort C parse_crs rpc_crs O no_options warp pyfloat default_conf exists_path load_yaml dump_yaml load_rows
    glob mkdir image_size ortho used).
Qed.

(** C98: when orthorectification of an image fails, so does the run, with the same error, and there are no images after it. *)
Theorem C98_fails : forall a before j after, o_jobs (simple_ortho a) = before ++ j :: after ->
  ortho j = Ok tt \/ (after = [] /\ exists e, ortho j = Err e /\ o_end (simple_ortho a) = Err e).
Proof.
  exact (run_checked cv_surf cast_nan cv_image convert cv_project cv_undistort fish_undistort C parse_crs rpc_crs O no_options warp pyfloat default_conf exists_path load_yaml dump_yaml load_rows
    glob mkdir image_size ortho used).
Qed.
End Props.

Print Assumptions C97_jobs.
Print Assumptions C97_sources.
Print Assumptions C97_order.
Print Assumptions C97_images.
Print Assumptions C97_complete.
Print Assumptions C97_empty_section_refuted.
Print Assumptions C98_no_config.
Print Assumptions C98_inputs.
Print Assumptions C98_rows.
Print Assumptions C98_write_conf.
Print Assumptions C98_writes.
Print Assumptions C98_folder.
Print Assumptions C98_fails.

(** * Cases *)

(** A Brown camera, some settings, and two images with their rows; the image without a row of its own is not in a pattern. *)
Definition demo_conf : pyval :=
  PDict [(KStr "ortho", PDict [(KStr "crs", PStr "EPSG:32635"); (KStr "interp", PStr "cubic_spline"); (KStr "tile_size", PInt 512); (KStr "per_band", PBool true)]);
         (KStr "camera", PDict [(KStr "name", PStr "pt"); (KStr "type", PStr "brown"); (KStr "im_size", PList [PInt 4; PInt 3]); (KStr "focal_len", PFloat (5 # 10));
            (KStr "sensor_size", PList [PInt 2; PFloat (3 # 2)]); (KStr "k1", PFloat (1 # 2))])].
Definition demo_settings : list (pykey * pyval) :=
  [(KStr "crs", PStr "EPSG:32635"); (KStr "interp", PStr "cubic_spline"); (KStr "tile_size", PInt 512); (KStr "per_band", PBool true)].
Definition demo_rows : list (list string) := [["b"; "0"; "0"; "50"; "0"; "0"; "90"]; []; ["a"; "0"; "0"; "0"; "0"; "0"; "0"]; ["a"; "10"; "20"; "100"; "0"; "0"; "0"; "x"]].
Definition demo_float (s : string) : res Q :=
  match dget s [("0", 0%Q); ("10", 10%Q); ("20", 20%Q); ("50", 50%Q); ("90", 90%Q); ("100", 100%Q)] with Some q => Ok q | None => Err ValueError end.
Definition demo_glob (outs : list string) (spec : string) : list string := if String.eqb spec "d/*.tif" then ["d/b.tif"; "d/a.tif"] else [].
Definition demo_args : args := Args ["d/*.tif"] "dem.tif" "poses.txt" (Some "out") (Some "config.yaml") None.
Definition demo_simple : args -> outcome :=
  simple_ortho (fun _ _ _ => None) (fun _ => Nan) (fun _ _ _ => None) (fun _ _ v => v) demo_project (fun _ _ p => p) (fun _ _ p => p) unit (fun _ => Ok tt) tt unit tt (fun _ _ l => l) demo_float
    "default.yaml" (fun s => negb (String.eqb s "out")) (fun _ => Ok demo_conf) (fun _ _ => Ok tt) (fun _ => Ok demo_rows) demo_glob (fun _ => Ok tt) (fun s => Ok (if String.eqb s "d/a.tif" then (4, 3) else (5, 3)))
    (fun _ => Ok tt) (fun _ => [Pos]).

Lemma demo_configures : configures demo_conf demo_interior 1 true demo_settings.
Proof.
  eexists. eexists. split; [reflexivity|]. split; [reflexivity|]. split; [|split; [left; reflexivity|split; [|reflexivity]]].
  - split; cbn [demo_interior in_type in_w in_h in_fx in_fy in_sensor in_cx in_cy in_coef].
    + intros k Hk. cbn in Hk. repeat (destruct Hk as [<-|Hk]; [eexists; split; [reflexivity|]; unfold optional_param; cbn; tauto|]). contradiction.
    + split; [reflexivity|discriminate].
    + reflexivity.
    + eexists. split; [reflexivity|]. left. split; [constructor|reflexivity].
    + cbn. eexists. eexists. split; [reflexivity|]. split; constructor.
    + reflexivity.
    + reflexivity.
    + intros k Hk. cbn in Hk. repeat (destruct Hk as [<-|Hk]; [cbn; try reflexivity; try constructor|]). contradiction.
    + intros k Hk. destruct (String.eqb_spec k "k1") as [->|_]; [exfalso; apply Hk; cbn; tauto|reflexivity].
    + reflexivity.
  - intros k Hk. cbn in Hk. repeat (destruct Hk as [<-|Hk]; [eexists; reflexivity|]). contradiction.
Qed.

Lemma demo_rows_ok : rows_ok demo_float demo_rows.
Proof.
  assert (Six : forall name s1 s2 s3 s4 s5 s6 extra q1 q2 q3 q4 q5 q6, map demo_float [s1; s2; s3; s4; s5; s6] = map Ok [q1; q2; q3; q4; q5; q6] ->
    exists l, row_values demo_float (name :: s1 :: s2 :: s3 :: s4 :: s5 :: s6 :: extra) l).
  { intros name s1 s2 s3 s4 s5 s6 extra q1 q2 q3 q4 q5 q6 E. cbn [map] in E. injection E as E1 E2 E3 E4 E5 E6. exists [q1; q2; q3; q4; q5; q6]. split; [reflexivity|].
    exists name, [s1; s2; s3; s4; s5; s6], extra. split; [reflexivity|]. repeat constructor; assumption. }
  intros row Hr N. cbn in Hr. destruct Hr as [<-|[<-|[<-|[<-|[]]]]]; [|contradiction| |]; eapply Six; reflexivity.
Qed.

Lemma demo_row : forall row, row_for demo_rows "a" row -> row = ["a"; "10"; "20"; "100"; "0"; "0"; "0"; "x"].
Proof.
  intros row (before & after & E & H & L). unfold demo_rows in E. destruct before as [|r1 [|r2 [|r3 [|r4 before]]]]; cbn in E.
  - injection E as <- <-. discriminate H.
  - injection E as _ <- <-. discriminate H.
  - injection E as _ _ <- <-. exfalso. apply (L _ (or_introl eq_refl)). reflexivity.
  - injection E as _ _ _ <- <-. reflexivity.
  - injection E as _ _ _ _ E. destruct before; discriminate E.
Qed.

Lemma demo_values : forall l, row_values demo_float ["a"; "10"; "20"; "100"; "0"; "0"; "0"; "x"] l -> l = [10; 20; 100; 0; 0; 0]%Q.
Proof.
  intros l (Len & n & ts & ex & E & F). destruct l as [|q1 [|q2 [|q3 [|q4 [|q5 [|q6 [|? ?]]]]]]]; try discriminate Len.
  inversion F as [|t1 ? ts1 ? X1 F1]; subst. inversion F1 as [|t2 ? ts2 ? X2 F2]; subst. inversion F2 as [|t3 ? ts3 ? X3 F3]; subst. inversion F3 as [|t4 ? ts4 ? X4 F4]; subst.
  inversion F4 as [|t5 ? ts5 ? X5 F5]; subst. inversion F5 as [|t6 ? ts6 ? X6 F6]; subst. inversion F6; subst. cbn in E. injection E as <- <- <- <- <- <- <- _.
  cbn in X1, X2, X3, X4, X5, X6. congruence.
Qed.

(** The run is complete, the second image is "d/a.tif", and the camera images the point of C95_case where it does there. *)
Example C97_case : o_end (demo_simple demo_args) = Ok tt /\ o_folder (demo_simple demo_args) = Some "out" /\
  exists j1 j, o_jobs (demo_simple demo_args) = [j1; j] /\ j_src j = "d/a.tif" /\ j_out j = "out/a_ORTHO.tif" /\ j_crs j = PStr "EPSG:32635" /\ j_dem_band j = PInt 1 /\
  j_warned j1 = true /\ j_warned j = false /\ dget "interp" (j_options j) = Some (MV (PStr "cubic")) /\ dget "tile_size" (j_options j) = None /\
  exists u v, snd (do_call (fun _ _ _ => None) (fun _ => Nan) (fun _ _ _ => None) (fun _ _ v => v) (j_camera j) (WorldToPixel (one_point (num3 (V3 60 20 50))))) = Ok (VPixels [(Num u, Num v)]) /\ u = 3%R /\ v = 1%R.
Proof.
  pose proof (C97_jobs (fun _ _ _ => None) (fun _ => Nan) (fun _ _ _ => None) (fun _ _ v => v) demo_project (fun _ _ p => p) (fun _ _ p => p) unit (fun _ => Ok tt) tt unit tt (fun _ _ l => l) demo_float
    "default.yaml" (fun s => negb (String.eqb s "out")) (fun _ => Ok demo_conf) (fun _ _ => Ok tt) (fun _ => Ok demo_rows) demo_glob (fun _ => Ok tt) (fun s => Ok (if String.eqb s "d/a.tif" then (4, 3) else (5, 3)))
    (fun _ => Ok tt) (fun _ => [Pos]) (fun _ => Forall_cons Pos (I : leaves_camera Pos) (Forall_nil leaves_camera)) (fun K d xy b _ => demo_projects K d xy b) (fun _ _ _ _ _ _ _ => eq_refl) demo_args demo_conf demo_interior 1 true demo_settings demo_rows eq_refl
    demo_configures demo_usable eq_refl) as J.
  change (simple_ortho _ _ _ _ _ _ _ _ _ _ _ _ _ _ _ _ _ _ _ _ _ _ _ _ demo_args) with (demo_simple demo_args) in J.
  split; [reflexivity|]. split; [reflexivity|].
  assert (E : exists j1 j, o_jobs (demo_simple demo_args) = [j1; j] /\ j_src j = "d/a.tif" /\ j_out j = "out/a_ORTHO.tif" /\ j_crs j = PStr "EPSG:32635" /\ j_dem_band j = PInt 1 /\
    j_warned j1 = true /\ j_warned j = false /\ dget "interp" (j_options j) = Some (MV (PStr "cubic")) /\ dget "tile_size" (j_options j) = None).
  { eexists. eexists. split; [reflexivity|]. repeat split; reflexivity. }
  destruct E as (j1 & j & Ej & E1 & E2 & E3 & E4 & E5 & E6 & E7 & E8). exists j1, j. repeat (split; [assumption|]). exists 3%R, 1%R. split; [|auto].
  destruct (J j) as ((row & x & y & z & om & ph & ka & om' & ph' & ka' & Hr & Hv & R1 & R2 & R3 & P) & _); [rewrite Ej; right; left; reflexivity|]. clear J.
  rewrite E1 in Hr. apply demo_row in Hr. subst row. apply demo_values in Hv. injection Hv as -> -> -> -> -> ->.
  assert (Z0 : Q2R 0 = 0%R) by (unfold Q2R; cbn; lra). unfold in_radians in R1, R2, R3. rewrite Z0 in R1, R2, R3. assert (om' = 0%R) by lra. assert (ph' = 0%R) by lra. assert (ka' = 0%R) by lra. subst om' ph' ka'.
  destruct (P [] (Forall_nil _)) as (_ & P2 & _). apply (P2 eq_refl). exists (Intr 1 1 (3 / 2) 1), (V3 50 0 50), (3 / 2, 0)%R. unfold pixel_intr, demo_interior. cbn [in_sensor in_w in_h in_fx in_fy in_cx in_cy kfx kfy kcx kcy].
  split; [unfold Q2R; cbn; repeat split; lra|]. split.
  { unfold seen_at, turned, about_x, about_y, about_z, vadd. cbn. rewrite cos_0, sin_0. unfold Q2R. cbn. f_equal; lra. }
  cbn [vx vy vz]. split; [lra|]. split.
  - unfold distorts, opencv_distorts. cbn. unfold tilted. cbn [fst snd]. rewrite cos_0, sin_0. unfold Q2R. cbn. repeat split; try lra; field.
  - unfold to_pixel. cbn. f_equal; f_equal; lra.
Qed.

(** C97: an output that is in the folder of the images can match a later pattern; then it is taken for an image, and the run fails, though every file that was there has its row. *)
Definition two_files (outs : list string) (spec : string) : list string :=
  if String.eqb spec "d/a*.tif" then "d/a.tif" :: outs else "d/a.tif" :: "d/b.tif" :: outs.
Theorem C97_own_outputs_refuted : forall a, a = Args ["d/a*.tif"; "d/*.tif"] "dem.tif" "poses.txt" None None None ->
  (forall spec src, In spec (a_src a) -> In src (two_files [] spec) -> exists row, row_for demo_rows (src_stem src) row /\ exists l, row_values demo_float row l) /\
  let out := simple_ortho (fun _ _ _ => None) (fun _ => Nan) (fun _ _ _ => None) (fun _ _ v => v) demo_project (fun _ _ p => p) (fun _ _ p => p) unit (fun _ => Ok tt) tt unit tt (fun _ _ l => l) demo_float
    "default.yaml" (fun _ => true) (fun _ => Ok demo_conf) (fun _ _ => Ok tt) (fun _ => Ok demo_rows) two_files (fun _ => Ok tt) (fun s => Ok (4, 3)) (fun _ => Ok tt) (fun _ => []) a in
  map j_out (o_jobs out) = ["d/a_ORTHO.tif"; "d/a_ORTHO.tif"; "d/b_ORTHO.tif"] /\ o_end out = Err RuntimeError.
Proof.
  intros a ->. split; [|split; reflexivity].
  assert (Ra : exists row, row_for demo_rows "a" row /\ exists l, row_values demo_float row l).
  { eexists. split; [|apply (demo_rows_ok ["a"; "10"; "20"; "100"; "0"; "0"; "0"; "x"]); [cbn; tauto|discriminate]].
    exists [["b"; "0"; "0"; "50"; "0"; "0"; "90"]; []; ["a"; "0"; "0"; "0"; "0"; "0"; "0"]], []. split; [reflexivity|]. split; [reflexivity|intros r []]. }
  assert (Rb : exists row, row_for demo_rows "b" row /\ exists l, row_values demo_float row l).
  { eexists. split; [|apply (demo_rows_ok ["b"; "0"; "0"; "50"; "0"; "0"; "90"]); [cbn; tauto|discriminate]].
    exists [], [[]; ["a"; "0"; "0"; "0"; "0"; "0"; "0"]; ["a"; "10"; "20"; "100"; "0"; "0"; "0"; "x"]]. split; [reflexivity|]. split; [reflexivity|]. intros r [<-|[<-|[<-|[]]]]; discriminate. }
  intros spec src [<-|[<-|[]]] Hs; cbn in Hs.
  - destruct Hs as [<-|[]]. exact Ra.
  - destruct Hs as [<-|[<-|[]]]; [exact Ra|exact Rb].
Qed.
Print Assumptions C97_own_outputs_refuted.

(** A pattern that matches nothing; and a configuration that is written, without any images. *)
Example C98_case : demo_simple (Args ["d/*.tif"; "e/*.tif"] "dem.tif" "poses.txt" (Some "out") None None) = Outcome None None [] (Err RuntimeError) /\
  demo_simple (Args [] "" "" None (Some "config.yaml") (Some "new.yaml")) = Outcome (Some ("new.yaml", demo_conf)) None [] (Ok tt).
Proof. split; reflexivity. Qed.
