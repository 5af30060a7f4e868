(** Proofs for Chain_Props (C108). *)
From Coq Require Import List String ZArith Reals Bool Lia Lra.
From Verif Require Import Py Flt Mat Rot_Model Grid_Model Grid_Spec Profile_Spec Remap_Model Remap_Spec Dem_Model Dem_Spec Frame_Model Undist_Model Bound_Model Bound_Spec Rpc_Model Validate_Model Params_Model Params_Spec
  Cam_Model Cam_Spec Rcam_Model Make_Model Make_Spec Make_Proof Proj_Spec Scene_Spec Factory_Model Csv_Model Exif_Model Tags_Spec Photo_Model Photo_Spec Photo_Proof Recon_Model Recon_Spec Recon_Proof Ortho_Model Ortho_Spec Whole_Model
  Whole_Spec Whole_Proof WholeDoc_Proof Survey_Spec Survey_Proof Chain_Spec.
From Verif Require Factory_Spec Factory_Proof Scene_Proof.
Import ListNotations.
Open Scope string_scope.
Open Scope list_scope.
Open Scope Z_scope.

Section Chain.
Variable cv_surf : string -> arr fl -> fl * fl -> option fl.
Variable cast_nan : string -> fl.
Variable cv_image : string -> arr pix -> fl * fl -> option pix.
Variable convert : string -> string -> pix -> pix.
Variable cv_project cv_undistort fish_undistort : intr -> list R -> R * R -> R * R.
Variable C : Type.
Variable crs_eqb : C -> C -> bool.
Variable from_string : string -> res C.
Variable rpc_crs : C.
Variable O : Type.
Variable warp : C -> C -> list vec -> list vec.
Variable rpc_xy : rpc -> O -> list ((R * R) * R) -> list (R * R).
Variable transform_bounds : C -> C -> bounds -> bounds.
Variable bounds_in : Z * Z -> affine -> C -> C -> R * R * R * R.
Variable reproject : interp -> C -> C -> R * R -> arr fl -> affine -> arr fl * affine.
Variable to_pixels : affine -> list (R * R) -> list (Z * Z).
Variable fill_poly : Z * Z -> list (Z * Z) -> arr bool.
Hypothesis crs_same : forall a b, crs_eqb a b = true <-> a = b.
Hypothesis cv_border : forall i b j k, (j <= -1 \/ k <= -1 \/ IZR (aw b) <= j \/ IZR (ah b) <= k)%R -> cv_image i b (Num j, Num k) = None.
Hypothesis cv_projects : forall K d xy b, In (List.length d) [4; 5; 8; 12; 14]%nat -> opencv_distorts (cv_coefs d) xy b -> num2 (cv_project K d xy) = to_pixel K b.
Hypothesis cv_undistorts : forall K d d' p, In (List.length d) [4; 5; 8; 12; 14]%nat -> In (List.length d') [4; 5; 8; 12; 14]%nat ->
  (forall k, cv_coefs d k = cv_coefs d' k) -> cv_undistort K d p = cv_undistort K d' p.

Notation view_of := (view_of cv_surf cast_nan cv_image convert C rpc_crs O warp rpc_xy).
Notation new_ortho := (new_ortho cv_surf cast_nan cv_image convert C crs_eqb from_string rpc_crs O warp rpc_xy transform_bounds).
Notation process_with := (process_with cv_surf cast_nan cv_image convert C crs_eqb rpc_crs O warp rpc_xy bounds_in reproject to_pixels fill_poly).
Notation do_call := (do_call cv_surf cast_nan cv_image convert).
Notation asking cam := (fun k => snd (do_call cam k)).

(** A frame camera that keeps distortion, by where it is known to see points. *)
Lemma frame_rectified : forall cam (sees : vec -> fl * fl -> Prop) o src a u d warn, s_distort (fc_st cam) = true ->
  (forall X q, sees X q -> cam_sees (asking cam) X q) ->
  process_with (MadeFrame cam) o src a u = Ok (d, Ok tt, warn) -> runs u d ->
  exists s, src = Ok s /\ rectified cv_image convert C reproject to_pixels fill_poly (cam_surface (asking cam)) sees o s a d.
Proof.
  intros cam sees o src a u d warn Hd Hs E R. destruct (view_of (MadeFrame cam)) as [v|] eqn:Ev; [|unfold Whole_Model.process_with in E; rewrite Ev in E; discriminate].
  destruct (frame_plain cv_surf cast_nan cv_image convert C rpc_crs O warp rpc_xy cam v Hd Ev) as (P & Pw & Ph & Px & _ & _ & Ps).
  destruct (process_view cv_surf cast_nan cv_image convert C crs_eqb rpc_crs O warp rpc_xy bounds_in reproject to_pixels fill_poly crs_same cv_border (MadeFrame cam) v o src a u d warn Ev P E R) as (sf & F1 & F2).
  exists sf. split; [exact F1|]. revert F2. apply rectified_mono.
  - intros hs t j l Q. apply Ps in Q. exact Q.
  - intros X q Q. apply Px. apply Hs, Q.
Qed.

(** * OpenSfM *)
Variables is_projected is_geographic : C -> bool.
Variable epsg : Z -> C.
Variable transform : C -> C -> vec -> vec.
Variable rodrigues : vec -> mat.
Hypothesis cv_rotates : forall r X, rotated r X (mvec (rodrigues r) X).
Notation recon_factory := (recon_factory C is_projected is_geographic epsg transform rodrigues).
Notation recon_camera := (recon_camera cv_project cv_undistort fish_undistort).
Notation recon_object := (recon_object cv_surf cast_nan cv_image convert).

Lemma recon_settings : forall first rest rc crs o l kwargs d fac world, recon_in first rc -> Forall (fun v => exists rc', recon_in v rc') rest ->
  crs_given is_projected crs o -> is_geographic l = true -> options kwargs d -> recon_factory crs (ACrs l) (PList (first :: rest)) = Ok (fac, world) ->
  forall name s c history i obj, rshot_of (rc_shots rc) name s -> rcamera_of (rc_cams rc) s c -> usable c ->
  snd (frame_get (recon_camera kwargs) name (frame_run (recon_camera kwargs) history fac)) = Ok i ->
  nth_error (f_heap (fst (frame_get (recon_camera kwargs) name (frame_run (recon_camera kwargs) history fac)))) i = Some obj ->
  s_distort (fc_st (recon_object obj)) = d /\ fc_w (recon_object obj) = in_w c /\ fc_h (recon_object obj) = in_h c.
Proof.
  intros first rest rc crs o l kwargs d fac world H Hr Hc Hl Ho Ef name s c history i obj Hs Hcam U G1 G2.
  destruct (factory_made C is_projected is_geographic epsg transform rodrigues first rest rc crs o l H Hr Hc Hl) as (ints & shots & Fi & Fs & Ef'). cbv zeta in Ef'. rewrite Ef in Ef'. injection Ef' as Ef1 Ef2.
  rewrite Ef1 in G1, G2. clear Ef Ef1 fac. set (origin := transform l _ _) in *.
  destruct H as ((cams & Kc & Nc & Fc) & (shs & Ks & Ns & Fsh) & _).
  destruct (shot_found shots _ (fun tr => cv_ext_to_oty_ext (vec_of (fst tr)) (rodrigues (vec_of (snd tr))) (Some origin)) name s Fs Ns Hs) as (t & r & Et & Er & Hf).
  cbn [fst snd] in Hf. rewrite Et, Er in Hf. destruct (camera_found ints _ s c Fi Nc Hcam) as (y & p & Hy & Ep & Hi).
  destruct (camera_made cv_surf cast_nan cv_image convert cv_project cv_undistort fish_undistort cv_projects cv_undistorts kwargs c d y p Ho Hy Ep U) as (cam & kw & a & Ecam & Oa & D & Mk).
  destruct (Factory_Proof.frame_get_right (recon_camera kwargs) ints _ history name _ p cam Hf Hi Ecam) as (i' & G1' & G2'). cbn [ex_pos] in G2'.
  rewrite G1 in G1'. injection G1' as <-. rewrite G2 in G2'. injection G2' as ->.
  destruct (made_distort cv_surf cast_nan cv_image convert cv_project cv_undistort fish_undistort cv_undistorts kw c _ d a cam D Mk) as (M1 & M2 & M3).
  destruct (cv_ext_to_oty_ext (rs_t s) (rodrigues (rs_r s)) (Some origin)) as [[x y' z] [[om ph] ka]].
  assert (Obj : recon_object (Camera cam (Some (V3 x y' z, (om, ph, ka)))) = run_calls cv_surf cast_nan cv_image convert cam [UpdateC (Some [x; y'; z]) (Some [om; ph; ka])]) by reflexivity.
  rewrite Obj, Scene_Proof.distort_run. destruct (Scene_Proof.size_run cv_surf cast_nan cv_image convert [UpdateC (Some [x; y'; z]) (Some [om; ph; ka])] cam) as (-> & ->).
  unfold distort_after. cbn [fold_left]. auto.
Qed.

Theorem recon_ortho : forall first rest rc crs o l kwargs d, recon_in first rc -> Forall (fun v => exists rc', recon_in v rc') rest ->
  crs_given is_projected crs o -> is_geographic l = true -> options kwargs d ->
  exists fac world, recon_factory crs (ACrs l) (PList (first :: rest)) = Ok (fac, world) /\
  forall name s c history, rshot_of (rc_shots rc) name s -> rcamera_of (rc_cams rc) s c -> usable c -> not_locked (rs_r s) ->
  let st := frame_run (recon_camera kwargs) history fac in
  exists i obj, snd (frame_get (recon_camera kwargs) name st) = Ok i /\ nth_error (f_heap (fst (frame_get (recon_camera kwargs) name st))) i = Some obj /\
  let cam := recon_object obj in
  let ask := asking cam in
  let origin := transform l world (V3 (rc_lon rc) (rc_lat rc) (rc_alt rc)) in
  (forall src demf band ort, new_ortho (MadeFrame cam) src (Ok demf) (PCrs world) band = Ok ort ->
     built_for C (height_in C warp) transform_bounds rpc_crs ask (in_w c) (in_h c) world demf band ort) /\
  (d = true -> forall ort src a u ds warn, process_with (MadeFrame cam) ort src a u = Ok (ds, Ok tt, warn) -> runs u ds ->
     exists sf, src = Ok sf /\ rectified cv_image convert C reproject to_pixels fill_poly (cam_surface ask) (osfm_images origin s c) ort sf a ds) /\
  (d = false -> exists K alpha, number_at kwargs "alpha" 1 alpha /\ (in_type c = Cpinhole -> pixel_intr c K) /\
     (in_type c <> Cpinhole -> exists f, lens_inverse cv_undistort fish_undistort c f /\ undistorted f (in_w c) (in_h c) alpha K) /\
     (forall X q, osfm_undistorted origin s K X q -> cam_sees ask X q) /\
     forall ort src a u ds warn, process_with (MadeFrame cam) ort src a u = Ok (ds, Ok tt, warn) -> runs u ds ->
     exists sf, src = Ok sf /\ shows cv_image C reproject to_pixels fill_poly ask false (fc_pinhole cam) ort sf a u ds).
Proof.
  intros first rest rc crs o l kwargs d H Hr Hc Hl Ho.
  destruct (recon_pixels cv_surf cast_nan cv_image convert cv_project cv_undistort fish_undistort cv_projects cv_undistorts C is_projected is_geographic epsg transform rodrigues first rest rc crs o l kwargs d cv_rotates H Hr Hc Hl Ho)
    as (fac & world & Ef & _ & P).
  exists fac, world. split; [exact Ef|]. intros name s c history Hs Hcam U Nl. cbv zeta in *. destruct (P name s c history Hs Hcam U Nl) as (i & obj & G1 & G2 & P1 & P2 & P3). exists i, obj. split; [exact G1|]. split; [exact G2|].
  destruct (recon_settings first rest rc crs o l kwargs d fac world H Hr Hc Hl Ho Ef name s c history i obj Hs Hcam U G1 G2) as (Sd & Sw & Sh). split; [|split].
  - intros src demf band ort E. destruct (frame_built cv_surf cast_nan cv_image convert C crs_eqb from_string rpc_crs O warp rpc_xy transform_bounds crs_same _ _ _ _ _ _ E) as (demf' & w & Ed & _ & Hw & B).
    injection Ed as <-. inversion Hw; subst; try (match goal with Q : _ \/ _ |- _ => destruct Q; discriminate end). rewrite Sw, Sh in B. exact B.
  - intros ->. intros ort src a u ds warn E R. apply (frame_rectified _ _ ort src a u ds warn Sd); [|exact E|exact R].
    intros X q [(v & Hv & Zv & ->)|(v & K & b & Hv & Zv & HK & Hb & ->)]; [exact (P1 X v Hv Zv)|exact (P2 eq_refl X v K b Hv Zv HK Hb)].
  - intros ->. destruct (P3 eq_refl) as (K & alpha & A1 & A2 & A3 & A4). exists K, alpha. split; [exact A1|]. split; [exact A2|]. split; [exact A3|]. split.
    + intros X q (v & Hv & [(Zv & ->)|(Zv & ->)]); [exact (P1 X v Hv Zv)|exact (A4 X v Hv Zv)].
    + intros ort src a u ds warn E R.
      destruct (frame_shows cv_surf cast_nan cv_image convert C crs_eqb rpc_crs O warp rpc_xy bounds_in reproject to_pixels fill_poly crs_same cv_border _ _ _ _ _ _ _ E R) as (sf & Es & Q). rewrite Sd in Q. exists sf. auto.
Qed.
End Chain.
