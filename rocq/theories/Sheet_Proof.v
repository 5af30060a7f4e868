(** Proofs for Sheet_Props (C110). *)
From Coq Require Import List String ZArith QArith Reals Bool Lia Lra.
From Verif Require Import Py Flt Mat Grid_Model Remap_Model Remap_Spec Dem_Spec Frame_Model Frame_Spec Undist_Model Bound_Model Rpc_Model Validate_Model Params_Model Params_Spec Factory_Model Cam_Model Cam_Spec
  Rcam_Model Make_Model Make_Spec Proj_Spec Csv_Model Csv_Spec Scene_Model Scene_Spec Scene_Proof SceneDoc_Proof Table_Model Table_Spec Table_Proof Ortho_Model Ortho_Spec Whole_Model Whole_Spec Whole_Proof WholeDoc_Proof.
Import ListNotations.
Open Scope string_scope.
Open Scope list_scope.
Open Scope Z_scope.

Section Sheet.
Variable cv_surf : string -> arr fl -> fl * fl -> option fl.
Variable cast_nan : string -> fl.
Variable cv_image : string -> arr pix -> fl * fl -> option pix.
Variable convert : string -> string -> pix -> pix.
Variable cv_project cv_undistort fish_undistort : intr -> list R -> R * R -> R * R.
Hypothesis cv_projects : forall K d xy b, In (List.length d) [4; 5; 8; 12; 14]%nat -> opencv_distorts (cv_coefs d) xy b -> num2 (cv_project K d xy) = to_pixel K b.
Hypothesis cv_undistorts : forall K d d' p, In (List.length d) [4; 5; 8; 12; 14]%nat -> In (List.length d') [4; 5; 8; 12; 14]%nat ->
  (forall k, cv_coefs d k = cv_coefs d' k) -> cv_undistort K d p = cv_undistort K d' p.
Variable C : Type.
Variable crs_eqb : C -> C -> bool.
Variable from_string : string -> res C.
Variable rpc_crs : C.
Variable O : Type.
Variable no_options : O.
Variable warp : C -> C -> list vec -> list vec.
Variable rpc_xy : rpc -> O -> list ((R * R) * R) -> list (R * R).
Variable transform_bounds : C -> C -> bounds -> bounds.
Variable bounds_in : Z * Z -> affine -> C -> C -> R * R * R * R.
Variable reproject : interp -> C -> C -> R * R -> arr fl -> affine -> arr fl * affine.
Variable to_pixels : affine -> list (R * R) -> list (Z * Z).
Variable fill_poly : Z * Z -> list (Z * Z) -> arr bool.
Hypothesis crs_same : forall a b, crs_eqb a b = true <-> a = b.
Hypothesis cv_border : forall i b j k, (j <= -1 \/ k <= -1 \/ IZR (aw b) <= j \/ IZR (ah b) <= k)%R -> cv_image i b (Num j, Num k) = None.

Notation scene_get := (scene_get cv_surf cast_nan cv_image convert cv_project cv_undistort fish_undistort C from_string rpc_crs O no_options warp).
Notation scene_use := (scene_use cv_surf cast_nan cv_image convert C O).
Notation scene_run := (scene_run cv_surf cast_nan cv_image convert cv_project cv_undistort fish_undistort C from_string rpc_crs O no_options warp).
Notation view_of := (view_of cv_surf cast_nan cv_image convert C rpc_crs O warp rpc_xy).
Notation new_ortho := (new_ortho cv_surf cast_nan cv_image convert C crs_eqb from_string rpc_crs O warp rpc_xy transform_bounds).
Notation process_with := (process_with cv_surf cast_nan cv_image convert C crs_eqb rpc_crs O warp rpc_xy bounds_in reproject to_pixels fill_poly).
Variable pyfloat : string -> res Q.
Variable epsg : Z -> C.
Variables is_projected is_geographic : C -> bool.
Variable prj_of : string -> prj C.
Variable radians : Q -> Q.
Variable transform : C -> C -> Q * Q * Q -> Q * Q * Q.
Variable rpy_to_opk : C -> C -> Q * Q * Q -> Q * Q * Q -> Q * Q * Q.
Notation table_factory := (table_factory pyfloat C epsg is_projected is_geographic prj_of radians transform rpy_to_opk O).
Notation csv_init := (csv_init pyfloat C epsg is_projected is_geographic prj_of).
Notation row_shot := (row_shot pyfloat C radians transform rpy_to_opk).

Theorem table_ortho : forall doc crs0 lla_crs fields path header rows in_radians kwargs rd f world cams,
  cameras_in doc cams -> options kwargs true -> csv_init crs0 lla_crs fields path header rows = Ok rd -> NoDup (rd_fields rd) ->
  table_factory doc crs0 lla_crs fields path header rows in_radians kwargs = Ok (f, world) ->
  world = rd_crs rd /\
  forall shots l, Forall2 (row_shot (rd_crs rd) (rd_lla_crs rd) in_radians (rd_format rd) (rd_fields rd)) (if header then tl rows else rows) shots -> finals shots l ->
  forall name s c before, shot_of l name s -> camera_of cams s c -> usable c ->
  exists i, let st := scene_run before f in
  snd (scene_get name st) = Ok i /\
  forall later, kept l s i later -> keeps_distortion (before ++ later) ->
  let st' := scene_run later (fst (scene_get name st)) in
  let ask k := snd (scene_use i k st') in
  exists m, nth_error (sc_heap C O st') i = Some m /\
  (forall src dem crs band o, new_ortho m src dem crs band = Ok o ->
   exists demf w, dem = Ok demf /\ 1 <= band <= df_count C demf /\ world_crs from_string crs (do s <- src; Ok (sf_crs C s)) w /\
   built C (height_in C warp) transform_bounds rpc_crs (cam_centre ask (in_w c) (in_h c)) (cam_outline ask) w demf band (in_w c) (in_h c) o) /\
  (forall src demf crs w band, world_crs from_string crs (do s <- src; Ok (sf_crs C s)) w ->
   inside C (height_in C warp) rpc_crs (cam_centre ask (in_w c) (in_h c)) (cam_outline ask) w demf band ->
   exists o, new_ortho m src (Ok demf) crs band = Ok o /\ has_all C demf band o) /\
  (forall o sf a, processes C reproject to_pixels fill_poly bounds_in (cam_surface ask) o sf a ->
   exists h w p, 0 < h /\ 0 < w /\ forall u, exists d r warn, process_with m o (Ok sf) a u = Ok (d, r, warn) /\ d_height d = h /\ d_width d = w /\ d_profile d = p /\
     (runs u d -> small_tiles C u d -> r = Ok tt)) /\
  (forall o src a u d warn, process_with m o src a u = Ok (d, Ok tt, warn) -> runs u d ->
   exists sf, src = Ok sf /\
   rectified cv_image convert C reproject to_pixels fill_poly (cam_surface ask)
     (fun X q => images c (sh_pos s) (sh_omega s) (sh_phi s) (sh_kappa s) X q \/ beside (sh_pos s) (sh_omega s) (sh_phi s) (sh_kappa s) X /\ q = (Nan, Nan)) o sf a d).
Proof.
  intros doc crs0 lla_crs fields path header rows inrad kwargs rd f world cams Hc Ho Hr N H.
  destruct (table_image_full cv_surf cast_nan cv_image convert cv_project cv_undistort fish_undistort cv_projects cv_undistorts C from_string rpc_crs O no_options warp
    pyfloat epsg is_projected is_geographic prj_of radians transform rpy_to_opk _ _ _ _ _ _ _ _ _ _ _ _ _ Hc Ho Hr N H) as (Ew & F). split; [exact Ew|].
  intros shots l F1 F2 name s c before Hs Hcam U. destruct (F shots l F1 F2 name s c before Hs Hcam U) as (i & Eg & G). exists i. cbv zeta in *. split; [exact Eg|]. intros later K D.
  destruct (G later K D) as (cam & Hn & Hd & Hw & Hh & A & B).
  exact (scene_ortho cv_surf cast_nan cv_image convert C crs_eqb from_string rpc_crs O warp rpc_xy transform_bounds bounds_in reproject to_pixels fill_poly crs_same cv_border _ i cam c s Hn Hd Hw Hh A B).
Qed.
End Sheet.
