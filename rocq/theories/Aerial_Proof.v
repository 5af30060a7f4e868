(** Proofs for Aerial_Props (C109). *)
From Coq Require Import List String ZArith Reals Bool Lia Lra.
From Verif Require Import Py Flt Mat Rot_Model Rot_Spec Grid_Model Grid_Spec Profile_Spec Remap_Model Remap_Spec Dem_Model Dem_Spec Frame_Model Frame_Spec Undist_Model Bound_Model Bound_Spec Rpc_Model
  Cam_Model Cam_Spec Rcam_Model Make_Model Make_Spec Make_Proof Proj_Spec Fit_Model Factory_Model Csv_Model Read_Model Exif_Model Exif_Spec Photo_Model Photo_Spec Photo_Proof Ortho_Model Ortho_Spec Whole_Model
  Whole_Spec Whole_Proof WholeDoc_Proof Survey_Spec Survey_Proof Chain_Proof Aerial_Spec.
Import ListNotations.
Open Scope string_scope.
Open Scope list_scope.
Open Scope Z_scope.

(** Every point is seen somewhere. *)
Lemma photo_images_total : forall pos roll pitch yaw nx ny K dist X, (nx * nx + ny * ny = 1)%R -> exists q, photo_images pos roll pitch yaw nx ny K dist X q.
Proof.
  intros [px py pz] roll pitch yaw nx ny K dist [x y z] N.
  assert (S : exists v, V3 x y z = vadd (V3 px py pz) (rpy_world (deg roll) (deg pitch) (deg yaw) nx ny (V3 (vx v) (- vy v) (- vz v)))).
  { set (a := (x - px)%R). set (b := (y - py)%R). set (c := (z - pz)%R).
    (* undo the turns one by one *)
    set (n := V3 (a * nx + b * ny)%R (a * ny - b * nx)%R (- c)%R).
    set (w := about_x (- deg roll) (about_y (- deg pitch) (about_z (- deg yaw) n))).
    exists (V3 (vy w) (- vx w) (vz w)).
    assert (W : V3 (vx w) (vy w) (vz w) = w) by (destruct w; reflexivity).
    assert (Z1 : forall t u, about_z t (about_z (- t) u) = u).
    { intros t [u1 u2 u3]. unfold about_z. cbn [vx vy vz]. rewrite cos_neg, sin_neg. pose proof (sin2_cos2 t) as Q. unfold Rsqr in Q. f_equal; [transitivity (u1 * (sin t * sin t + cos t * cos t))%R; [ring|rewrite Q; ring]|transitivity (u2 * (sin t * sin t + cos t * cos t))%R; [ring|rewrite Q; ring]]. }
    assert (Y1 : forall t u, about_y t (about_y (- t) u) = u).
    { intros t [u1 u2 u3]. unfold about_y. cbn [vx vy vz]. rewrite cos_neg, sin_neg. pose proof (sin2_cos2 t) as Q. unfold Rsqr in Q. f_equal; [transitivity (u1 * (sin t * sin t + cos t * cos t))%R; [ring|rewrite Q; ring]|transitivity (u3 * (sin t * sin t + cos t * cos t))%R; [ring|rewrite Q; ring]]. }
    assert (X1 : forall t u, about_x t (about_x (- t) u) = u).
    { intros t [u1 u2 u3]. unfold about_x. cbn [vx vy vz]. rewrite cos_neg, sin_neg. pose proof (sin2_cos2 t) as Q. unfold Rsqr in Q. f_equal; [transitivity (u2 * (sin t * sin t + cos t * cos t))%R; [ring|rewrite Q; ring]|transitivity (u3 * (sin t * sin t + cos t * cos t))%R; [ring|rewrite Q; ring]]. }
    unfold rpy_world. cbn [vx vy vz]. replace (V3 (- - vx w)%R (vy w) (- - vz w)%R) with w by (rewrite !Ropp_involutive; symmetry; exact W).
    unfold w. rewrite X1, Y1, Z1. unfold from_ned, vadd, n, a, b, c. cbn [vx vy vz]. f_equal; [|  |ring].
    - transitivity (px + (x - px) * (nx * nx + ny * ny))%R; [rewrite N; ring|ring].
    - transitivity (py + (y - py) * (nx * nx + ny * ny))%R; [rewrite N; ring|ring]. }
  destruct S as (v & E). destruct (Req_dec (vz v) 0) as [Z|Z]; eexists; exists v; (split; [exact E|]); [left|right]; split; try exact Z; reflexivity.
Qed.

Section Aerial.
Variable cv_surf : string -> arr fl -> fl * fl -> option fl.
Variable cast_nan : string -> fl.
Variable cv_image : string -> arr pix -> fl * fl -> option pix.
Variable convert : string -> string -> pix -> pix.
Variable cv_project cv_undistort : intr -> list R -> R * R -> R * R.
Variable C : Type.
Variable crs_eqb : C -> C -> bool.
Variable from_string : string -> res C.
Variable rpc_crs : C.
Variable O : Type.
Variable warp : C -> C -> list vec -> list vec.
Variable rpc_xy : rpc -> O -> list ((R * R) * R) -> list (R * R).
Variable transform_bounds : C -> C -> bounds -> bounds.
Variable bounds_in : Z * Z -> affine -> C -> C -> R * R * R * R.
Variable reproject : interp -> C -> C -> R * R -> arr fl -> affine -> arr fl * affine.
Variable to_pixels : affine -> list (R * R) -> list (Z * Z).
Variable fill_poly : Z * Z -> list (Z * Z) -> arr bool.
Hypothesis crs_same : forall a b, crs_eqb a b = true <-> a = b.
Hypothesis cv_border : forall i b j k, (j <= -1 \/ k <= -1 \/ IZR (aw b) <= j \/ IZR (ah b) <= k)%R -> cv_image i b (Num j, Num k) = None.
Variables is_projected is_geographic : C -> bool.
Variable epsg : Z -> C.
Variable F : Type.
Variable filename : F -> string.
Variable open_exif : F -> res exif.
Variable transform : C -> C -> vec -> vec.

Notation new_ortho := (new_ortho cv_surf cast_nan cv_image convert C crs_eqb from_string rpc_crs O warp rpc_xy transform_bounds).
Notation process_with := (process_with cv_surf cast_nan cv_image convert C crs_eqb rpc_crs O warp rpc_xy bounds_in reproject to_pixels fill_poly).
Notation asking cam := (fun k => snd (do_call cv_surf cast_nan cv_image convert cam k)).
Notation from_images := (from_images C is_projected is_geographic epsg F filename open_exif transform).
Notation photo_camera := (photo_camera cv_project cv_undistort).

Lemma photo_settings : forall distort alpha p cam e, photo_camera distort alpha p = Ok cam -> interior e p ->
  s_distort (fc_st cam) = distort /\ fc_w cam = fst (e_im_size e) /\ fc_h cam = snd (e_im_size e) /\ (fc_pinhole cam = true <-> forall d tw th, ~ usable_dewarp e d tw th).
Proof.
  intros distort alpha p cam e E H. destruct H as [fx fy cx cy k1 k2 p1 p2 k3 tw th U|f sw sh U _ _|f35 sw sh U _ _ _|f35 U _ _]; unfold Photo_Model.photo_camera, Cam_Model.frame_init in E; cbn [ip_type ip_w ip_h] in E.
  - destruct (get_intrinsic _ _ _ _ _ _) as [k|]; [|discriminate]. cbn [bind get_extrinsic] in E. injection E as <-. cbn. repeat split; try discriminate. intros N. exfalso. exact (N _ _ _ U).
  - destruct (get_intrinsic _ _ _ _ _ _) as [k|]; [|discriminate]. cbn [bind get_extrinsic] in E. injection E as <-. cbn. repeat split. intros _. exact U.
  - destruct (get_intrinsic _ _ _ _ _ _) as [k|]; [|discriminate]. cbn [bind get_extrinsic] in E. injection E as <-. cbn. repeat split. intros _. exact U.
  - destruct (get_intrinsic _ _ _ _ _ _) as [k|]; [|discriminate]. cbn [bind get_extrinsic] in E. injection E as <-. cbn. repeat split. intros _. exact U.
Qed.

Lemma object_settings : forall o, s_distort (fc_st (photo_object o)) = s_distort (fc_st (c_int o)) /\ fc_w (photo_object o) = fc_w (c_int o) /\ fc_h (photo_object o) = fc_h (c_int o) /\ fc_pinhole (photo_object o) = fc_pinhole (c_int o).
Proof. intros [cam [[t opk]|]]; unfold photo_object; cbn; auto. Qed.

Notation photo_shown := (photo_shown cv_surf cast_nan cv_image convert C crs_eqb from_string rpc_crs O warp rpc_xy transform_bounds bounds_in reproject to_pixels fill_poly).

Lemma photo_shown_gen : forall cam sees w h c distort pinhole, s_distort (fc_st cam) = distort -> fc_w cam = w -> fc_h cam = h -> (distort = false -> fc_pinhole cam = pinhole) ->
  (forall X, exists q, sees X q) -> (forall X q, sees X q -> cam_sees (asking cam) X q) -> photo_shown cam sees w h c distort pinhole.
Proof.
  intros cam sees w h c distort pinhole Sd Sw Sh Sp T S. split; [exact T|]. split; [exact S|]. split.
  - intros src demf band ort E. destruct (frame_built cv_surf cast_nan cv_image convert C crs_eqb from_string rpc_crs O warp rpc_xy transform_bounds crs_same _ _ _ _ _ _ E) as (demf' & w' & Ed & _ & Hw & B).
    injection Ed as <-. inversion Hw; subst; try (match goal with Q : _ \/ _ |- _ => destruct Q; discriminate end). exact B.
  - intros ort src a u ds warn E R.
    destruct (frame_shows cv_surf cast_nan cv_image convert C crs_eqb rpc_crs O warp rpc_xy bounds_in reproject to_pixels fill_poly crs_same cv_border _ _ _ _ _ _ _ E R) as (sf & Es & Q).
    exists sf. split; [exact Es|]. split; intros D.
    + destruct (frame_rectified cv_surf cast_nan cv_image convert C crs_eqb rpc_crs O warp rpc_xy bounds_in reproject to_pixels fill_poly crs_same cv_border cam sees ort src a u ds warn (eq_trans Sd D) S E R) as (sf' & Es' & Q').
      rewrite Es in Es'. injection Es' as <-. exact Q'.
    + rewrite Sd, D, (Sp D) in Q. exact Q.
Qed.

Theorem photo_ortho : forall files crs evs fac c f e history distort alpha K dist l lat lon alt roll pitch yaw nx ny,
  (forall g e', open_exif g = Ok e' -> e_filename e' = filename g) ->
  from_images files crs (ACrs l) evs = Some (Ok (fac, Some c)) ->
  In f files -> open_exif f = Ok e -> (forall g e', In g files -> filename g = filename f -> open_exif g = Ok e' -> e' = e) ->
  one_camera open_exif files e -> sees_by e K dist -> (distort = true \/ forall d tw th, ~ usable_dewarp e d tw th) ->
  e_lla e = Some (lat, lon, alt) -> e_rpy e = Some (roll, pitch, yaw) ->
  let to_world lat lon alt := transform l c (V3 lon lat alt) in
  north_is lat lon alt to_world nx ny -> (Rabs (vx (rpy_world (deg roll) (deg pitch) (deg yaw) nx ny (V3 0 0 1))) < 1)%R ->
  let create := photo_camera distort alpha in
  let st := frame_run create history fac in
  exists i o, snd (frame_get create (filename f) st) = Ok i /\ nth_error (f_heap (fst (frame_get create (filename f) st))) i = Some o /\
  photo_shown (photo_object o) (photo_images (transform l c (V3 lon lat alt)) roll pitch yaw nx ny K dist) (fst (e_im_size e)) (snd (e_im_size e)) c distort true.
Proof.
  intros files crs evs fac c f e history distort alpha K dist l lat lon alt roll pitch yaw nx ny Hnm H Hin Ho Hu Hone Hs Hd El Er tw Hn Hg create st.
  destruct (camera_sees cv_project cv_undistort e K dist distort alpha Hs Hd) as (p & cam & Hp & Hcam & Hsee).
  destruct (photo_pixels_gen C is_projected is_geographic epsg F filename open_exif transform cv_project cv_undistort cv_surf cast_nan cv_image convert files crs evs fac c f e history distort alpha p cam
    (fun xy => to_pixel K (dist xy)) l lat lon alt roll pitch yaw nx ny Hnm H Hin Ho Hu Hone Hp Hcam Hsee El Er Hn Hg) as (i & o & G1 & G2 & (opk & G3 & _) & G4). apply (f_equal c_int) in G3. cbn [c_int] in G3.
  exists i, o. split; [exact G1|]. split; [exact G2|]. destruct (photo_settings _ _ _ _ e Hcam Hp) as (S1 & S2 & S3 & S4). destruct (object_settings o) as (O1 & O2 & O3 & O4). rewrite G3 in O1, O2, O3, O4.
  apply photo_shown_gen; [congruence|congruence|congruence| | |].
  - intros D. rewrite O4. apply S4. destruct Hd as [Hd|Hd]; [congruence|exact Hd].
  - intros X. apply photo_images_total. destruct Hn as (N & _). exact N.
  - intros X q (v & HX & Q). unfold cam_sees. rewrite (G4 v X HX). destruct (Req_EM_T (vz v) 0) as [Z|Z]; destruct Q as [(Q & ->)|(Q & ->)]; try contradiction; reflexivity.
Qed.

Theorem photo_ortho_undistorted : forall files crs evs fac c f e history alpha K fx fy cx cy k1 k2 p1 p2 k3 tagw tagh d l lat lon alt roll pitch yaw nx ny,
  (forall g e', open_exif g = Ok e' -> e_filename e' = filename g) ->
  from_images files crs (ACrs l) evs = Some (Ok (fac, Some c)) ->
  In f files -> open_exif f = Ok e -> (forall g e', In g files -> filename g = filename f -> open_exif g = Ok e' -> e' = e) ->
  one_camera open_exif files e -> usable_dewarp e [fx; fy; cx; cy; k1; k2; p1; p2; k3] tagw tagh -> sees_by e K (opencv_distort [k1; k2; p1; p2; k3]) ->
  (k3 <> 0%R /\ d = [k1; k2; p1; p2; k3] \/ k3 = 0%R /\ d = [k1; k2; p1; p2]) ->
  e_lla e = Some (lat, lon, alt) -> e_rpy e = Some (roll, pitch, yaw) ->
  let to_world lat lon alt := transform l c (V3 lon lat alt) in
  north_is lat lon alt to_world nx ny -> (Rabs (vx (rpy_world (deg roll) (deg pitch) (deg yaw) nx ny (V3 0 0 1))) < 1)%R ->
  let create := photo_camera false alpha in
  let st := frame_run create history fac in
  exists i o K', snd (frame_get create (filename f) st) = Ok i /\ nth_error (f_heap (fst (frame_get create (filename f) st))) i = Some o /\
  undistorted (cv_undistort K d) (fst (e_im_size e)) (snd (e_im_size e)) alpha K' /\
  photo_shown (photo_object o) (photo_images (transform l c (V3 lon lat alt)) roll pitch yaw nx ny K' (fun xy => xy)) (fst (e_im_size e)) (snd (e_im_size e)) c false false.
Proof.
  intros files crs evs fac c f e history alpha K fx fy cx cy k1 k2 p1 p2 k3 tagw tagh d l lat lon alt roll pitch yaw nx ny Hnm H Hin Ho Hu Hone U Hs Hd El Er tw Hn Hg create st.
  destruct (camera_undistorted cv_project cv_undistort e alpha K fx fy cx cy k1 k2 p1 p2 k3 tagw tagh d U Hs Hd) as (p & cam & Hp & Hcam & Hsee).
  destruct (photo_pixels_gen C is_projected is_geographic epsg F filename open_exif transform cv_project cv_undistort cv_surf cast_nan cv_image convert files crs evs fac c f e history false alpha p cam
    _ l lat lon alt roll pitch yaw nx ny Hnm H Hin Ho Hu Hone Hp Hcam Hsee El Er Hn Hg) as (i & o & G1 & G2 & (opk & G3 & _) & G4). apply (f_equal c_int) in G3. cbn [c_int] in G3.
  exists i, o. eexists. split; [exact G1|]. split; [exact G2|]. split; [apply undistorted_is|]. destruct (photo_settings _ _ _ _ e Hcam Hp) as (S1 & S2 & S3 & S4). destruct (object_settings o) as (O1 & O2 & O3 & O4). rewrite G3 in O1, O2, O3, O4.
  apply photo_shown_gen; [congruence|congruence|congruence| | |].
  - intros _. rewrite O4. destruct (fc_pinhole cam); [|reflexivity]. exfalso. exact (proj1 S4 eq_refl _ _ _ U).
  - intros X. apply photo_images_total. destruct Hn as (N & _). exact N.
  - intros X q (v & HX & Q). unfold cam_sees. rewrite (G4 v X HX). destruct (Req_EM_T (vz v) 0) as [Z|Z]; destruct Q as [(Q & ->)|(Q & ->)]; try contradiction; reflexivity.
Qed.
End Aerial.
