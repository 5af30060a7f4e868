(** Property theorems: C110 CSV files to ortho images. *)
From Coq Require Import String List Reals QArith Qreals ZArith Permutation Lra Lia.
From Verif Require Import Py Flt Mat Grid_Model Grid_Spec Profile_Spec Remap_Model Remap_Spec Dem_Spec Rot_Spec Frame_Model Frame_Spec Undist_Model Bound_Model Bound_Spec Rpc_Model Validate_Model Params_Model
  Params_Spec Factory_Model Cam_Model Cam_Spec Rcam_Model Make_Model Make_Spec Make_Props Proj_Spec Csv_Model Csv_Spec Scene_Model Scene_Spec Scene_Props Table_Model Table_Spec Table_Props Ortho_Model Ortho_Spec
  Whole_Model Whole_Spec WholeDoc_Proof Whole_Props Sheet_Proof.
From Verif Require Factory_Spec Bound_Proof.
Import ListNotations.
Open Scope string_scope.
Open Scope list_scope.
Open Scope Z_scope.

Section Props.
Variable cv_surf : string -> arr fl -> fl * fl -> option fl.
Variable cast_nan : string -> fl.
Variable cv_image : string -> arr pix -> fl * fl -> option pix.
Variable convert : string -> string -> pix -> pix.
Variable cv_project cv_undistort fish_undistort : intr -> list R -> R * R -> R * R.
(** OpenCV, as for C96. *)
Hypothesis cv_projects : forall K d xy b, In (List.length d) [4; 5; 8; 12; 14]%nat -> opencv_distorts (cv_coefs d) xy b -> num2 (cv_project K d xy) = to_pixel K b.
Hypothesis cv_undistorts : forall K d d' p, In (List.length d) [4; 5; 8; 12; 14]%nat -> In (List.length d') [4; 5; 8; 12; 14]%nat ->
  (forall k, cv_coefs d k = cv_coefs d' k) -> cv_undistort K d p = cv_undistort K d' p.
Variable C : Type.
Variable crs_eqb : C -> C -> bool.
Variable from_string : string -> res C.
Variable rpc_crs : C.
Variable O : Type.
Variable no_options : O.
Variable warp : C -> C -> list vec -> list vec.
Variable rpc_xy : rpc -> O -> list ((R * R) * R) -> list (R * R).
Variable transform_bounds : C -> C -> bounds -> bounds.
Variable bounds_in : Z * Z -> affine -> C -> C -> R * R * R * R.
Variable reproject : interp -> C -> C -> R * R -> arr fl -> affine -> arr fl * affine.
Variable to_pixels : affine -> list (R * R) -> list (Z * Z).
Variable fill_poly : Z * Z -> list (Z * Z) -> arr bool.
(** CRSs compare by what they are; OpenCV interpolates nothing outside of an image. *)
Hypothesis crs_same : forall a b, crs_eqb a b = true <-> a = b.
Hypothesis cv_border : forall i b j k, (j <= -1 \/ k <= -1 \/ IZR (aw b) <= j \/ IZR (ah b) <= k)%R -> cv_image i b (Num j, Num k) = None.

Notation scene_get := (scene_get cv_surf cast_nan cv_image convert cv_project cv_undistort fish_undistort C from_string rpc_crs O no_options warp).
Notation scene_use := (scene_use cv_surf cast_nan cv_image convert C O).
Notation scene_run := (scene_run cv_surf cast_nan cv_image convert cv_project cv_undistort fish_undistort C from_string rpc_crs O no_options warp).
Notation view_of := (view_of cv_surf cast_nan cv_image convert C rpc_crs O warp rpc_xy).
Notation new_ortho := (new_ortho cv_surf cast_nan cv_image convert C crs_eqb from_string rpc_crs O warp rpc_xy transform_bounds).
Notation process_with := (process_with cv_surf cast_nan cv_image convert C crs_eqb rpc_crs O warp rpc_xy bounds_in reproject to_pixels fill_poly).
Variable pyfloat : string -> res Q.
Variable epsg : Z -> C.
Variables is_projected is_geographic : C -> bool.
Variable prj_of : string -> prj C.
Variable radians : Q -> Q.
Variable transform : C -> C -> Q * Q * Q -> Q * Q * Q.
Variable rpy_to_opk : C -> C -> Q * Q * Q -> Q * Q * Q -> Q * Q * Q.
Notation table_factory := (table_factory pyfloat C epsg is_projected is_geographic prj_of radians transform rpy_to_opk O).
Notation csv_init := (csv_init pyfloat C epsg is_projected is_geographic prj_of).
Notation row_shot := (row_shot pyfloat C radians transform rpy_to_opk).

(** C110: for an image of a CSV file, an ortho object has the part of the DEM under the image and the resolution of the image; it has all of a DEM that is under the image; with pixels to
    show, an ortho is made; and each pixel of the ortho is the image where the point of the DEM is seen by the last row of the image and the camera in that row, interpolated, or nodata. *)
Theorem C110_ortho : forall doc crs0 lla_crs fields path header rows in_radians kwargs rd f world cams,
  cameras_in doc cams -> options kwargs true -> csv_init crs0 lla_crs fields path header rows = Ok rd -> NoDup (rd_fields rd) ->
  table_factory doc crs0 lla_crs fields path header rows in_radians kwargs = Ok (f, world) ->
  world = rd_crs rd /\
  forall shots l, Forall2 (row_shot (rd_crs rd) (rd_lla_crs rd) in_radians (rd_format rd) (rd_fields rd)) (if header then tl rows else rows) shots -> finals shots l ->
  forall name s c before, shot_of l name s -> camera_of cams s c -> usable c ->
  exists i, let st := scene_run before f in
  snd (scene_get name st) = Ok i /\
  forall later, kept l s i later -> keeps_distortion (before ++ later) ->
  let st' := scene_run later (fst (scene_get name st)) in
  let ask k := snd (scene_use i k st') in
  exists m, nth_error (sc_heap C O st') i = Some m /\
  (forall src dem crs band o, new_ortho m src dem crs band = Ok o ->
   exists demf w, dem = Ok demf /\ 1 <= band <= df_count C demf /\ world_crs from_string crs (do s <- src; Ok (sf_crs C s)) w /\
   built C (height_in C warp) transform_bounds rpc_crs (cam_centre ask (in_w c) (in_h c)) (cam_outline ask) w demf band (in_w c) (in_h c) o) /\
  (forall src demf crs w band, world_crs from_string crs (do s <- src; Ok (sf_crs C s)) w ->
   inside C (height_in C warp) rpc_crs (cam_centre ask (in_w c) (in_h c)) (cam_outline ask) w demf band ->
   exists o, new_ortho m src (Ok demf) crs band = Ok o /\ has_all C demf band o) /\
  (forall o sf a, processes C reproject to_pixels fill_poly bounds_in (cam_surface ask) o sf a ->
   exists h w p, 0 < h /\ 0 < w /\ forall u, exists d r warn, process_with m o (Ok sf) a u = Ok (d, r, warn) /\ d_height d = h /\ d_width d = w /\ d_profile d = p /\
     (runs u d -> small_tiles C u d -> r = Ok tt)) /\
  (forall o src a u d warn, process_with m o src a u = Ok (d, Ok tt, warn) -> runs u d ->
   exists sf, src = Ok sf /\
   rectified cv_image convert C reproject to_pixels fill_poly (cam_surface ask)
     (fun X q => images c (sh_pos s) (sh_omega s) (sh_phi s) (sh_kappa s) X q \/ beside (sh_pos s) (sh_omega s) (sh_phi s) (sh_kappa s) X /\ q = (Nan, Nan)) o sf a d).
Proof.
  exact (table_ortho cv_surf cast_nan cv_image convert cv_project cv_undistort fish_undistort cv_projects cv_undistorts C crs_eqb from_string rpc_crs O no_options warp rpc_xy transform_bounds bounds_in reproject
    to_pixels fill_poly crs_same cv_border pyfloat epsg is_projected is_geographic prj_of radians transform rpy_to_opk).
Qed.
End Props.

Print Assumptions C110_ortho.

(** * Case *)

(** The CSV file of C103, with the DEM and the image of C99; "b.tif" is asked for first. *)
Definition sheet_factory := table_factory csv_number unit (fun _ => tt) (fun _ => true) (fun _ => true) (fun _ => PrjMissing) (fun q => q) (fun _ _ t => t) (fun _ _ a _ => a) unit
  demo_int_doc (ACrs tt) NoCrs None None true csv_file true [].
Definition sheet_run := scene_run demo_surf (fun _ => Nan) demo_image (fun _ _ v => v) demo_project (fun _ _ p => p) (fun _ _ p => p) unit (fun _ => Ok tt) tt unit tt (fun _ _ l => l).
Definition sheet_scene := match sheet_factory with Ok (f, _) => f | Err _ => scene_init unit unit [] [] [] end.
Definition sheet_heap := demo_get "a.jpg" (sheet_run [Get "b.tif"] sheet_scene).
Definition sheet_cam := match nth_error (sc_heap unit unit (fst sheet_heap)) 0 with Some (MadeFrame c) => c | _ => no_cam end.

Lemma whole_Q : forall z, Q2R (z # 1) = IZR z.
Proof. intros z. unfold Q2R. cbn [Qnum Qden]. field. Qed.
Local Opaque Rplus Rmult Ropp Rinv IZR Q2R cos sin Rmax Rmin Rminus Rdiv.
Lemma sheet_made : snd sheet_heap = Ok 0%nat.
Proof. vm_compute. reflexivity. Qed.
Lemma sheet_size : fc_w sheet_cam = 4 /\ fc_h sheet_cam = 3 /\ s_distort (fc_st sheet_cam) = true.
Proof. vm_compute. auto. Qed.
Lemma sheet_ext : s_ext (fc_st sheet_cam) = Some (flip, V3 10 20 100).
Proof.
  assert (X : match s_ext (fc_st sheet_cam) with Some (M3 (V3 a b c) (V3 d e f) (V3 g h i), V3 x y z) => (a = 1 /\ b = 0 /\ c = 0 /\ d = 0 /\ e = -1 /\ f = 0 /\ g = 0 /\ h = 0 /\ i = -1 /\ x = 10 /\ y = 20 /\ z = 100)%R
                                            | None => False end).
  { lazy -[IZR Q2R Rplus Rmult Ropp Rinv Rdiv Rminus cos sin]. rewrite !whole_Q, cos_0, sin_0. repeat split; ring. }
  destruct (s_ext (fc_st sheet_cam)) as [[[[a b c] [d e f] [g h i]] [x y z]]|]; [|contradiction]. destruct X as (-> & -> & -> & -> & -> & -> & -> & -> & -> & -> & -> & ->). reflexivity.
Qed.
Lemma sheet_parts : fc_pinhole sheet_cam = fc_pinhole the_cam /\ fc_lens sheet_cam = fc_lens the_cam /\ s_alpha (fc_st sheet_cam) = s_alpha (fc_st the_cam) /\ s_ku (fc_st sheet_cam) = s_ku (fc_st the_cam) /\
  s_maps (fc_st sheet_cam) = s_maps (fc_st the_cam).
Proof. lazy -[IZR Q2R Rplus Rmult Ropp Rinv Rdiv Rminus cos sin Rmax Rmin]. repeat split. Qed.
Lemma sheet_same : sheet_cam = the_cam.
Proof.
  pose proof sheet_parts as (P1 & P2 & P3 & P4 & P5). pose proof sheet_size as (S1 & S2 & S3). pose proof cam_size as (T1 & T2 & T3). pose proof sheet_ext as E1. pose proof cam_ext as E2.
  destruct sheet_cam as [a b c d [e f g h i]], the_cam as [a' b' c' d' [e' f' g' h' i']]. cbn in *. congruence.
Qed.
Local Transparent Rplus Rmult Ropp Rinv IZR Q2R cos sin Rmax Rmin Rminus Rdiv.
Lemma sheet_found : forall m, nth_error (sc_heap unit unit (fst sheet_heap)) 0 = Some m -> m = MadeFrame the_cam.
Proof.
  intros m Hm. assert (F : sheet_cam = match m with MadeFrame c => c | _ => no_cam end) by (unfold sheet_cam; rewrite Hm; destruct m; reflexivity).
  destruct m as [c|c]; [rewrite <- sheet_same, F; reflexivity|]. exfalso. destruct sheet_size as (E & _). rewrite F in E. discriminate E.
Qed.
Local Opaque the_cam.

(** "a.jpg" is rectified on the DEM by the second row of "a", after "b.tif" was asked for: the camera sees the centre of the DEM pixel at (35, -5), which has a height of 50, at pixel
    (17/8, 13/8), to which (2, 2) is the nearest. *)
Example C110_case : exists f i m o d u warn, sheet_factory = Ok (f, Some tt) /\ let st := sheet_run [Get "b.tif"] f in
  snd (demo_get "a.jpg" st) = Ok i /\ nth_error (sc_heap unit unit (fst (demo_get "a.jpg" st))) i = Some m /\
  demo_new m (Ok demo_src) (Ok demo_dem) (PCrs tt) 1 = Ok o /\ demo_process m o (Ok demo_src) demo_args u = Ok (d, Ok tt, warn) /\
  exists r c, in_im (d_height d) (d_width d) r c /\ pixel_centre (d_transform d) r c = (35, -5)%R /\ bands (d_raster d) 1 r c = PVal 22.
Proof.
  assert (Er : csv_init csv_number unit (fun _ => tt) (fun _ => true) (fun _ => true) (fun _ => PrjMissing) (ACrs tt) NoCrs None None true csv_file = Ok csv_reader) by reflexivity.
  assert (N : NoDup (rd_fields csv_reader)) by (cbn; repeat constructor; cbn; intuition discriminate).
  set (shots := [a_shot "a" 7 7 7; a_shot "a" 10 20 100; a_shot "b.tif" 0 0 100]).
  assert (F : Forall2 (row_shot csv_number unit (fun q => q) (fun _ _ t => t) (fun _ _ a _ => a) (rd_crs csv_reader) (rd_lla_crs csv_reader) true (rd_format csv_reader) (rd_fields csv_reader)) (tl csv_file) shots)
    by (repeat constructor; apply csv_row_shot; reflexivity).
  destruct (proj2 (C103_success unit unit csv_number (fun _ => tt) (fun _ => true) (fun _ => true) (fun _ => PrjMissing) (fun q => q) (fun _ _ t => t) (fun _ _ a _ => a)
    demo_int_doc (ACrs tt) NoCrs None None true csv_file true [] csv_reader _ demo_cameras_in Er N ltac:(discriminate))) as (f & world & Ef).
  { clear -F. induction F; constructor; eauto. }
  destruct (C110_ortho demo_surf (fun _ => Nan) demo_image (fun _ _ v => v) demo_project (fun _ _ p => p) (fun _ _ p => p) (fun K d xy b _ => demo_projects K d xy b) (fun _ _ _ _ _ _ _ => eq_refl)
    unit (fun _ _ => true) (fun _ => Ok tt) tt unit tt (fun _ _ l => l) (fun _ _ _ => []) (fun _ _ b => b) (fun _ _ _ _ => (0, 0, 0, 0)%R) (fun _ _ _ _ a t => (a, t)) (fun _ _ => [])
    (fun hw _ => Arr (fst hw) (snd hw) (fun _ _ => true)) ltac:(intros [] []; split; auto) demo_border
    csv_number (fun _ => tt) (fun _ => true) (fun _ => true) (fun _ => PrjMissing) (fun q => q) (fun _ _ t => t) (fun _ _ a _ => a)
    demo_int_doc (ACrs tt) NoCrs None None true csv_file true [] csv_reader f world _ demo_cameras_in ltac:(split; [intros k []|split; [reflexivity|exists 1%R; reflexivity]]) Er N Ef) as (Ew & H).
  destruct (H shots [a_shot "a" 10 20 100; a_shot "b.tif" 0 0 100] F) with (name := "a.jpg") (s := a_shot "a" 10 20 100) (c := demo_interior) (before := [Get "b.tif"]) as (i & Eg & B).
  - split; [cbn; repeat constructor; cbn; intuition discriminate|]. intros s. split.
    + intros [<-|[<-|[]]]; [exists [a_shot "a" 7 7 7], [a_shot "b.tif" 0 0 100]|exists [a_shot "a" 7 7 7; a_shot "a" 10 20 100], []]; (split; [reflexivity|]); cbn; intuition discriminate.
    + intros (a & b & E & Nb). unfold shots in E. destruct a as [|a1 a]; cbn in E; injection E as E1 E.
      { exfalso. apply Nb. rewrite <- E1, <- E. left. reflexivity. }
      destruct a as [|a2 a]; cbn in E; injection E as E2 E; [left; exact E2|]. destruct a as [|a3 a]; cbn in E; injection E as E3 E; [right; left; exact E3|]. destruct a; discriminate E.
  - apply (same_stem _ _ _ "a"); [intros s [[<-|[<-|[]]] E]; discriminate E|apply (Factory_Spec.extension "a" "jpg"); [discriminate|discriminate|cbn; intuition discriminate]|split; [left; reflexivity|reflexivity]].
  - apply (has_one _ _ _ "pt"); [reflexivity|discriminate|left; reflexivity].
  - exact demo_usable.
  - destruct (B []) as (m & Hm & H1 & H2 & H3 & H4); [split; [intros n s' []|intros xyz opk []]|intros j [X|[]]; discriminate X|].
    assert (Xf : f = sheet_scene) by (unfold sheet_scene, sheet_factory; rewrite Ef; reflexivity).
    clear H B. set (heap := fst (demo_get "a.jpg" (sheet_run [Get "b.tif"] f))). cbv zeta in *.
    change (snd (demo_get "a.jpg" (sheet_run [Get "b.tif"] f)) = Ok i) in Eg. change (nth_error (sc_heap unit unit heap) i = Some m) in Hm.
    assert (Hh : heap = fst sheet_heap) by (unfold heap, sheet_heap; rewrite Xf; reflexivity).
    assert (Hi : i = 0%nat). { pose proof sheet_made as E. unfold sheet_heap in E. rewrite <- Xf in E. rewrite Eg in E. injection E as E. exact E. }
    assert (Mc : m = MadeFrame the_cam) by (apply sheet_found; rewrite <- Hh, <- Hi; exact Hm).
    assert (A : forall k, snd (scene_use demo_surf (fun _ => Nan) demo_image (fun _ _ v => v) unit unit i k heap) = cam_ask k).
    { intros k. unfold scene_use, cam_ask. rewrite Hm, Mc. destruct (do_call _ _ _ _ the_cam k). reflexivity. }
    destruct (H2 (Ok demo_src) demo_dem (PCrs tt) tt 1) as (o & Eo & Ho).
    { constructor. }
    { generalize cam_inside. apply inside_mono; [intros p Q; unfold cam_centre in *; rewrite <- Q; apply A|intros z l Q; unfold cam_outline in *; rewrite <- Q; apply A]. }
    destruct (H3 o demo_src demo_args) as (h & w & p & Ph & Pw & Fu).
    { generalize (cam_processed o Ho). apply processes_mono. intros hs t j l Q. unfold cam_surface in *. rewrite <- Q. apply A. }
    set (u := Run (fun _ => (1, 1)) (fun _ _ => false) (fun _ => block_windows h w (1, 1)) (Ras (fun _ _ _ => PNan) (fun _ _ => false))).
    destruct (Fu u) as (d & r & warn & Ed & Dh & Dw & _ & Dr).
    assert (Ru : runs u d). { unfold runs, u. cbn [u_block u_order fst snd]. rewrite Dh, Dw. split; [lia|]. split; [lia|]. intros _. apply Permutation_refl. }
    assert (Rt : r = Ok tt). { apply Dr; [exact Ru|]. unfold small_tiles, u. cbn. repeat split; lia. }
    subst r. destruct (H4 o (Ok demo_src) demo_args u d warn Ed Ru) as (sf & Es & di & hs & t & poly & r0 & c0 & dt & nodata & Q1 & Q2 & Q3 & _ & Q4 & _ & Q5 & _ & Q6 & Q7 & _ & _ & Q8 & Q9).
    injection Es as <-. exists f, i, m, o, d, u, warn. split; [unfold sheet_factory; rewrite Ef, Ew; reflexivity|]. split; [exact Eg|]. split; [exact Hm|]. split; [exact Eo|]. split; [exact Ed|].
    destruct Ho as (Oh & Ow & Ov & Ot). apply same_affine in Ot. cbn [demo_dem df_t df_band] in Oh, Ow, Ov, Ot. cbn [demo_heights ah aw] in Oh, Ow.
    assert (Own : hs = or_dem o /\ t = or_dem_t o).
    { destruct Q2 as [i0 rx ry _ Z1 Z2 Z3|i0 rx ry s0 t0 _ (Z1 & Z2) Z3 Z4]; [auto|]. injection Z4 as <- <-. auto. }
    destruct Own as (-> & ->). rewrite Ot in Q7.
    assert (Wt : wanted (or_dem o) (Arr (ah (or_dem o)) (aw (or_dem o)) (fun _ _ => true)) 0 0).
    { split; [unfold in_im; rewrite Oh, Ow; lia|]. split; [reflexivity|]. rewrite Ov by (unfold in_im; cbn; lia). discriminate. }
    specialize (Q8 0 0 Wt). exists (0 - r0), (0 - c0). split; [exact Q8|].
    assert (Pc : pixel_centre (d_transform d) (0 - r0) (0 - c0) = (35, -5)%R).
    { pose proof (Q7 (IZR (0 - c0) + / 2) (IZR (0 - r0) + / 2))%R as Z. unfold aff_apply in Z. cbn [ta tb tc td te tf] in Z. unfold pixel_centre. rewrite Z, !minus_IZR. f_equal; field. }
    split; [exact Pc|]. specialize (Q9 1 (0 - r0) (0 - c0)). rewrite Pc in Q9. replace (r0 + (0 - r0)) with 0 in Q9 by lia. replace (c0 + (0 - c0)) with 0 in Q9 by lia.
    destruct Q9 as (_ & Q9); [rewrite Q4; cbn; lia|exact Q8|]. destruct (Q9 Wt) as (band & z & (d1 & px & B1 & B2) & B3 & B4). rewrite Ov in B3 by (unfold in_im; cbn; lia). cbn in B3. injection B3 as <-.
    cbn in B1. injection B1 as <- <-. specialize (B4 (Num (17 / 8), Num (13 / 8))%R). cbn [shown] in B4. rewrite B4.
    + rewrite B2. unfold demo_image, demo_cv. cbn [demo_src sf_im if_h if_w ah aw aget].
      repeat (destruct (Rlt_dec _ _); [|exfalso; lra]). rewrite (Bound_Proof.Rfloor_eq (13 / 8 + / 2) 2) by lra. rewrite (Bound_Proof.Rfloor_eq (17 / 8 + / 2) 2) by lra. reflexivity.
    + left. exists (Intr 1 1 (3 / 2) 1), (V3 25 25 50), (5 / 8, 5 / 8)%R. unfold pixel_intr, demo_interior, a_shot. cbn [in_sensor in_w in_h in_fx in_fy in_cx in_cy kfx kfy kcx kcy sh_pos sh_omega sh_phi sh_kappa].
      split; [unfold Q2R; cbn; repeat split; lra|]. split.
      { replace (Q2R 0) with 0%R by (unfold Q2R; cbn; lra). unfold seen_at, turned, about_x, about_y, about_z, vadd. cbn. rewrite cos_0, sin_0. unfold Q2R. cbn. f_equal; lra. }
      cbn [vx vy vz]. split; [lra|]. split.
      * unfold distorts, opencv_distorts. cbn. unfold tilted. cbn [fst snd]. rewrite cos_0, sin_0. unfold Q2R. cbn. repeat split; try lra; field.
      * unfold to_pixel. cbn. f_equal; f_equal; lra.
Qed.
