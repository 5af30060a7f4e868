(** Property theorems: C109 tagged images to ortho images. *)
From Coq Require Import String List Reals QArith Qreals ZArith Permutation Lra Lia.
From Verif Require Import Py Flt Mat Rot_Model Rot_Spec Grid_Model Grid_Spec Profile_Spec Remap_Model Remap_Spec Dem_Model Dem_Spec Frame_Model Frame_Spec Undist_Model Bound_Model Bound_Spec Rpc_Model
  Cam_Model Cam_Spec Rcam_Model Make_Model Make_Spec Proj_Spec Fit_Model Factory_Model Csv_Model Read_Model Exif_Model Exif_Spec Photo_Model Photo_Spec Photo_Proof Photo_Props Ortho_Model Ortho_Spec Whole_Model
  Whole_Spec Whole_Proof WholeDoc_Proof Whole_Props Survey_Spec Survey_Proof Survey_Props Aerial_Spec Aerial_Proof.
From Verif Require Rot_Proof Bound_Proof Cam_Proof.
Import ListNotations.
Open Scope string_scope.
Open Scope list_scope.
Open Scope Z_scope.

Section Props.
Variable cv_surf : string -> arr fl -> fl * fl -> option fl.
Variable cast_nan : string -> fl.
Variable cv_image : string -> arr pix -> fl * fl -> option pix.
Variable convert : string -> string -> pix -> pix.
Variable cv_project cv_undistort : intr -> list R -> R * R -> R * R.
Variable C : Type.
Variable crs_eqb : C -> C -> bool.
Variable from_string : string -> res C.
Variable rpc_crs : C.
Variable O : Type.
Variable warp : C -> C -> list vec -> list vec.
Variable rpc_xy : rpc -> O -> list ((R * R) * R) -> list (R * R).
Variable transform_bounds : C -> C -> bounds -> bounds.
Variable bounds_in : Z * Z -> affine -> C -> C -> R * R * R * R.
Variable reproject : interp -> C -> C -> R * R -> arr fl -> affine -> arr fl * affine.
Variable to_pixels : affine -> list (R * R) -> list (Z * Z).
Variable fill_poly : Z * Z -> list (Z * Z) -> arr bool.
(** CRSs compare by what they are; OpenCV interpolates nothing outside of an image. *)
Hypothesis crs_same : forall a b, crs_eqb a b = true <-> a = b.
Hypothesis cv_border : forall i b j k, (j <= -1 \/ k <= -1 \/ IZR (aw b) <= j \/ IZR (ah b) <= k)%R -> cv_image i b (Num j, Num k) = None.
Variables is_projected is_geographic : C -> bool.
Variable epsg : Z -> C.
Variable F : Type.
Variable filename : F -> string.
Variable open_exif : F -> res exif.
Variable transform : C -> C -> vec -> vec.

Notation from_images := (from_images C is_projected is_geographic epsg F filename open_exif transform).
Notation photo_camera := (photo_camera cv_project cv_undistort).
Notation photo_shown := (photo_shown cv_surf cast_nan cv_image convert C crs_eqb from_string rpc_crs O warp rpc_xy transform_bounds bounds_in reproject to_pixels fill_poly).

(** C109: an image gets a camera that sees every point where its tags say, and its ortho images show the image there. *)
Theorem C109_ortho : forall files crs evs fac c f e history distort alpha K dist l lat lon alt roll pitch yaw nx ny,
  (forall g e', open_exif g = Ok e' -> e_filename e' = filename g) ->
  from_images files crs (ACrs l) evs = Some (Ok (fac, Some c)) ->
  In f files -> open_exif f = Ok e -> (forall g e', In g files -> filename g = filename f -> open_exif g = Ok e' -> e' = e) ->
  one_camera open_exif files e -> sees_by e K dist -> (distort = true \/ forall d tw th, ~ usable_dewarp e d tw th) ->
  e_lla e = Some (lat, lon, alt) -> e_rpy e = Some (roll, pitch, yaw) ->
  let to_world lat lon alt := transform l c (V3 lon lat alt) in
  north_is lat lon alt to_world nx ny -> (Rabs (vx (rpy_world (deg roll) (deg pitch) (deg yaw) nx ny (V3 0 0 1))) < 1)%R ->
  let create := photo_camera distort alpha in
  let st := frame_run create history fac in
  exists i o, snd (frame_get create (filename f) st) = Ok i /\ nth_error (f_heap (fst (frame_get create (filename f) st))) i = Some o /\
  photo_shown (photo_object o) (photo_images (transform l c (V3 lon lat alt)) roll pitch yaw nx ny K dist) (fst (e_im_size e)) (snd (e_im_size e)) c distort true.
Proof.
  exact (photo_ortho cv_surf cast_nan cv_image convert cv_project cv_undistort C crs_eqb from_string rpc_crs O warp rpc_xy transform_bounds bounds_in reproject to_pixels fill_poly
    crs_same cv_border is_projected is_geographic epsg F filename open_exif transform).
Qed.

(** C109: with distortion switched off, images with dewarp data are shown undistorted. *)
Theorem C109_undistorted : forall files crs evs fac c f e history alpha K fx fy cx cy k1 k2 p1 p2 k3 tagw tagh d l lat lon alt roll pitch yaw nx ny,
  (forall g e', open_exif g = Ok e' -> e_filename e' = filename g) ->
  from_images files crs (ACrs l) evs = Some (Ok (fac, Some c)) ->
  In f files -> open_exif f = Ok e -> (forall g e', In g files -> filename g = filename f -> open_exif g = Ok e' -> e' = e) ->
  one_camera open_exif files e -> usable_dewarp e [fx; fy; cx; cy; k1; k2; p1; p2; k3] tagw tagh -> sees_by e K (opencv_distort [k1; k2; p1; p2; k3]) ->
  (k3 <> 0%R /\ d = [k1; k2; p1; p2; k3] \/ k3 = 0%R /\ d = [k1; k2; p1; p2]) ->
  e_lla e = Some (lat, lon, alt) -> e_rpy e = Some (roll, pitch, yaw) ->
  let to_world lat lon alt := transform l c (V3 lon lat alt) in
  north_is lat lon alt to_world nx ny -> (Rabs (vx (rpy_world (deg roll) (deg pitch) (deg yaw) nx ny (V3 0 0 1))) < 1)%R ->
  let create := photo_camera false alpha in
  let st := frame_run create history fac in
  exists i o K', snd (frame_get create (filename f) st) = Ok i /\ nth_error (f_heap (fst (frame_get create (filename f) st))) i = Some o /\
  undistorted (cv_undistort K d) (fst (e_im_size e)) (snd (e_im_size e)) alpha K' /\
  photo_shown (photo_object o) (photo_images (transform l c (V3 lon lat alt)) roll pitch yaw nx ny K' (fun xy => xy)) (fst (e_im_size e)) (snd (e_im_size e)) c false false.
Proof.
  exact (photo_ortho_undistorted cv_surf cast_nan cv_image convert cv_project cv_undistort C crs_eqb from_string rpc_crs O warp rpc_xy transform_bounds bounds_in reproject to_pixels fill_poly
    crs_same cv_border is_projected is_geographic epsg F filename open_exif transform).
Qed.
End Props.

Print Assumptions C109_ortho.
Print Assumptions C109_undistorted.

(** * Case *)

(** A 4 x 3 pixel image with a focal length (35mm equivalent) of 9mm at (10, 20, 100), looking down with its top to the north, over the DEM of C99. *)
Definition air_number (s : string) : res R :=
  if String.eqb s "0" then Ok 0%R else if String.eqb s "1" then Ok 1%R else if String.eqb s "2" then Ok 2%R else if String.eqb s "9" then Ok 9%R
  else if String.eqb s "100" then Ok 100%R else if String.eqb s "-90" then Ok (-90)%R else Err ValueError.
Definition air_file (f : unit) : res exif :=
  exif_init air_number (fun _ => Err ValueError) (fun _ => Err ValueError) "a.jpg" (4, 3) [("EXIF_Make", "DJI"); ("EXIF_FocalLengthIn35mmFilm", "(9)")] []
    (Some (Node "x" None [(dji_tag "GpsLatitude", "1"); (dji_tag "GpsLongtitude", "2"); (dji_tag "AbsoluteAltitude", "100");
                          (dji_tag "GimbalRollDegree", "0"); (dji_tag "GimbalPitchDegree", "-90"); (dji_tag "GimbalYawDegree", "0")] [])).
Definition air_transform (l c : unit) (p : vec) : vec := V3 (vx p * 5) (vy p * 20) (vz p).
Definition air_from := from_images unit (fun _ => true) (fun _ => true) (fun _ => tt) unit (fun _ => "a.jpg") air_file air_transform [tt] NoCrs (ACrs tt) [Finish 0; Collect; Collect].

Definition air_K := Intr 1 1 (3 / 2) 1.
Definition air_lens := Frame_Model.pinhole air_K.
Definition air_cam : fcam := FCam true air_lens 4 3 (cam_init true air_K air_lens 4 3 1 true (Some (flip, V3 10 20 100))).
Definition air_frame : frame := Frame air_lens (s_ku (fc_st air_cam)) true flip (V3 10 20 100).
Definition air_ask (k : call) := snd (do_call demo_surf (fun _ => Nan) demo_image (fun _ _ v => v) air_cam k).
Definition air_point (z : R) (p : R * R) : vec := V3 (10 + (fst p - 3 / 2) * (100 - z)) (20 - (snd p - 1) * (100 - z)) z.

Lemma air_inv : forall p, l_inv air_lens p = (fst p - 3 / 2, snd p - 1)%R.
Proof. intros [x y]. unfold air_lens, Frame_Model.pinhole, k_solve, air_K. cbn [l_inv kfx kfy kcx kcy fst snd]. f_equal; lra. Qed.
Lemma air_init : test_init air_cam = Ok air_frame.
Proof. reflexivity. Qed.
Lemma air_ray : forall p z, pixel_to_world_z air_frame p z = Some (air_point z p).
Proof.
  intros p z. unfold pixel_to_world_z, ray, active_lens, air_frame. cbn [fr_distort fr_ku fr_lens fr_R fr_T]. rewrite air_inv.
  unfold mvec, flip, vadd, vscale, air_point, dot. cbn [vx vy vz row0 row1 row2 fst snd]. destruct (Req_EM_T _ 0) as [E|_]; [exfalso; lra|]. f_equal. f_equal; field; lra.
Qed.
Lemma air_horizon : horizon_fov air_frame 4 3 = false.
Proof.
  apply Bool.not_true_iff_false. intros E. apply existsb_exists in E. destruct E as (p & _ & E). unfold air_frame in E. cbn [fr_lens fr_R] in E. rewrite air_inv in E.
  unfold mvec, flip, dot in E. cbn [vx vy vz row0 row1 row2 fst snd] in E. destruct (Rle_dec _ _) as [H|]; [lra|discriminate].
Qed.

Lemma air_centred : cam_centre air_ask 4 3 (air_point 0 (2, 3 / 2)%R).
Proof.
  unfold cam_centre, air_ask. cbn [Cam_Model.do_call snd]. unfold pixel_to_world_call. rewrite air_init. cbn [bind].
  replace (validate_pixel_coords _) with (Ok tt : res unit) by reflexivity. cbn [bind one_pixel nd_data frame_p2w_array validate_z negb map rmap]. unfold p2w_fl.
  rewrite air_ray. do 4 f_equal. unfold air_point. cbn [fst snd]. f_equal; lra.
Qed.

Lemma air_outlined : forall z, cam_outline air_ask z (map (air_point (Rmin z 100)) (boundary8 4 3)).
Proof.
  intros z. unfold cam_outline, air_ask. cbn [Cam_Model.do_call snd]. unfold world_boundary_call. rewrite air_init. cbn [bind].
  unfold frame_world_boundary. change (fc_w air_cam) with 4. change (fc_h air_cam) with 3. rewrite air_horizon. unfold frame_pixel_boundary. cbn [pixel_boundary bind]. change (fr_distort air_frame) with true. cbn [bind rmap].
  change (vz (fr_T air_frame)) with 100%R. f_equal. f_equal. rewrite map_map. apply map_ext. intros p. apply air_ray.
Qed.

Lemma air_surrounds : forall z, (z <= 55)%R -> surrounds unit demo_dem 1 (map (air_point (Rmin z 100)) (boundary8 4 3)).
Proof.
  intros z Hz. rewrite Rmin_left by lra.
  assert (A : In (air_point z (0, 0)%R) (map (air_point z) (boundary8 4 3))) by (apply in_map; unfold boundary8; cbn [In]; tauto).
  assert (B : In (air_point z (3, 2)%R) (map (air_point z) (boundary8 4 3))).
  { apply in_map. destruct (Bound_Proof.boundary_default 4 3 ltac:(lia) ltac:(lia)) as (pts & E & _ & _ & _ & I & _). injection E as <-. apply I. unfold corners.
    replace (3, 2)%R with (IZR 4 - 1, IZR 3 - 1)%R by (f_equal; lra). cbn [In]. tauto. }
  unfold surrounds, demo_dem, air_point in *. cbn [df_t df_band demo_heights ah aw ta tb tc td te tf fst snd] in *.
  split; [eexists; split; [exact A|cbn [vx vy fst snd]; lra]|]. split; [eexists; split; [exact B|cbn [vx vy fst snd]; lra]|]. split; [eexists; split; [exact A|cbn [vx vy fst snd]; lra]|eexists; split; [exact B|cbn [vx vy fst snd]; lra]].
Qed.

Lemma air_inside : inside unit (height_in unit (fun _ _ l => l)) tt (cam_centre air_ask 4 3) (cam_outline air_ask) tt demo_dem 1.
Proof.
  unfold inside. split; [reflexivity|]. split; [cbn; lia|]. split; [unfold north_up, no_rotation; cbn; lra|].
  split; [exists 0, 0, 50%R; split; [unfold in_im; cbn; lia|reflexivity]|].
  split; [exists (air_point 0 (2, 3 / 2)%R), (map (air_point (Rmin (-106.71 * 1) 100)) (boundary8 4 3)), 1%R; split; [exact air_centred|split; [unfold height_in; cbn; lra|split; [apply air_outlined|apply air_surrounds; lra]]]|].
  split; [|intros z; eexists; apply air_outlined].
  intros r c z Hin Hz. assert (L : (z <= 55)%R) by (clear - Hz; cbn [demo_dem df_band demo_heights aget] in Hz; destruct (r =? 0), (c =? 0); try discriminate; injection Hz as <-; lra).
  exists (map (air_point (Rmin (world_height unit (height_in unit (fun _ _ l => l)) tt demo_dem r c z) 100)) (boundary8 4 3)). split; [apply air_outlined|].
  apply air_surrounds. unfold world_height, height_in. destruct (aff_apply _ _ _). cbn [vz]. exact L.
Qed.

Lemma air_surfaced : forall o, has_all unit demo_dem 1 o -> exists poly, cam_surface air_ask (or_dem o) (or_dem_t o) "nearest" poly.
Proof.
  intros o (Hh & Hw & Hv & Ht). apply same_affine in Ht. rewrite Ht. cbn [demo_dem df_t df_band] in *. cbn [demo_heights ah aw] in Hh, Hw.
  destruct (Bound_Proof.boundary_points 4 3 400 ltac:(lia) ltac:(lia) ltac:(lia) ltac:(lia)) as (ji & Ej & Hj0 & _).
  assert (Hj : Forall (fun p => 0 <= fst p <= 3 /\ 0 <= snd p <= 2)%R ji) by (eapply Forall_impl; [|exact Hj0]; intros p Hp; unfold on_edge, Frame_Spec.in_image in Hp; lra).
  assert (Pj : pixel_boundary_call air_cam (Some 400) = Ok ji).
  { unfold pixel_boundary_call, frame_pixel_boundary. change (fc_w air_cam) with 4. change (fc_h air_cam) with 3. rewrite Ej. reflexivity. }
  assert (V : forall u, valued (or_dem o) u -> (50 <= u <= 52)%R).
  { intros u (r & c & Hr & Hc & E). rewrite Hh in Hr. rewrite Hw in Hc. rewrite Hv in E by (split; assumption). clear - E. cbn in E. destruct (r =? 0), (c =? 0); try discriminate; injection E as <-; lra. }
  assert (X : forall r c u, in_im 2 2 r c -> aget demo_heights r c = Num u -> valued (or_dem o) u).
  { intros r c u (Hr & Hc) E. exists r, c. rewrite Hh, Hw. split; [exact Hr|]. split; [exact Hc|]. rewrite Hv by (split; assumption). exact E. }
  assert (SO : surface_ok air_cam flip (V3 10 20 100) "float32" (or_dem o) (Some 400) (Aff 10 0 30 0 (-10) 0) ji 50 52).
  { split; [reflexivity|]. split.
    { intros (p & _ & H). change (fc_lens air_cam) with air_lens in H. rewrite air_inv in H. unfold mvec, flip, dot in H. cbn [vx vy vz row0 row1 row2 fst snd] in H. lra. }
    split; [exact Pj|]. split; [split; [apply (X 0 0); [unfold in_im; lia|reflexivity]|intros u Hu; apply V, Hu]|]. split; [split; [apply (X 0 1); [unfold in_im; lia|reflexivity]|intros u Hu; apply V, Hu]|].
    cbn [vz ta tb tc td te tf]. split; [lra|]. split; [unfold cv_dtype; cbn; tauto|]. unfold Cam_Spec.cv_size. rewrite Hh, Hw. repeat split; try lia; lra. }
  assert (OR : forall p, on_ray air_cam p (fun z => air_point z p)).
  { intros p z. unfold pixel_to_world_call. rewrite air_init. cbn [bind]. replace (validate_pixel_coords _) with (Ok tt : res unit) by reflexivity. cbn [bind nd_data frame_p2w_array validate_z negb map]. unfold p2w_fl.
    destruct p as [px py]. cbn [fst snd]. rewrite air_ray. reflexivity. }
  assert (RU : forall p rr, on_ray air_cam p rr -> forall z, rr z = air_point z p) by (intros p rr H z; specialize (H z); specialize (OR p z); congruence).
  destruct (Cam_Proof.boundary_surface_ok demo_surf (fun _ => Nan) demo_image (fun _ _ v => v) air_cam flip (V3 10 20 100) "float32" (or_dem o) (Some 400) (Aff 10 0 30 0 (-10) 0) ji 50 52 "nearest" true SO) as (B & _).
  { intros p _. eexists. apply OR. }
  destruct B as (pts & E).
  { intros p rr Hp Hr. rewrite !(RU p rr Hr). cbn [vz]. rewrite Rmin_left by lra. unfold span, air_point. cbn [vx vy ta te]. rewrite Forall_forall in Hj. destruct (Hj p Hp) as (J1 & J2).
    apply Rmax_lub; apply Rabs_le; split; lra. }
  assert (M : exists l, pts = map Some l).
  { cbn [Cam_Model.do_call snd] in E. apply rmap_points in E.
    destruct (view_of demo_surf (fun _ => Nan) demo_image (fun _ _ v => v) unit tt unit (fun _ _ l => l) (fun _ _ _ => []) (MadeFrame air_cam)) as [v|] eqn:Ev.
    2:{ cbn [view_of] in Ev. unfold frame_view in Ev. rewrite air_init in Ev. discriminate. }
    destruct (frame_calls _ _ _ _ _ _ _ _ _ _ _ Ev) as (_ & _ & _ & _ & _ & _ & _ & Q & _).
    cbn [view_of] in Ev. unfold frame_view in Ev. rewrite air_init in Ev. cbn [bind] in Ev. injection Ev as <-. exact (Q _ _ _ _ _ E). }
  destruct M as (l & ->). exists l. exact E.
Qed.

Lemma air_processed : forall o, has_all unit demo_dem 1 o ->
  processes unit (fun _ _ _ _ a t => (a, t)) (fun _ _ => []) (fun hw _ => Arr (fst hw) (snd hw) (fun _ _ => true)) (fun _ _ _ _ => (0, 0, 0, 0)%R) (cam_surface air_ask) o demo_src demo_args.
Proof.
  intros o A. destruct (air_surfaced o A) as (poly & Hp). destruct A as (Hh & Hw & Hv & Ht). apply same_affine in Ht. cbn [demo_dem df_t df_band] in *. cbn [demo_heights ah aw] in Hh, Hw.
  assert (Hc : or_dem_crs o = or_crs o) by (destruct (or_dem_crs o), (or_crs o); reflexivity).
  assert (Hs : has_size (or_dem_t o) 10 10) by (rewrite Ht; unfold has_size; cbn [ta te]; split; [apply Rabs_pos_eq; lra|rewrite Rabs_left; lra]).
  split; [exists 10%R, 10%R; split; [split; reflexivity|left; auto]|].
  split; [exists Nearest, (or_dem o), (or_dem_t o), poly, 0, 0; split; [apply (S_own _ _ _ Nearest 10%R 10%R); [constructor|split; reflexivity|exact Hc|exact Hs]|]; split; [exact Hp|]|].
  { split; [unfold in_im; rewrite Hh, Hw; lia|]. split; [reflexivity|]. rewrite Hv by (unfold in_im; cbn; lia). discriminate. }
  split; [exists "uint8"; split; [do 2 eexists; reflexivity|split; [left; reflexivity|right; exact I]]|]. split; [discriminate|]. cbn. split; [lia|]. split; [lia|]. split; [left; reflexivity|]. exists Nearest. constructor.
Qed.

Notation air_create := (photo_camera (fun _ _ p => p) (fun _ _ p => p) true 1).

Lemma air_exif : exists e, air_file tt = Ok e /\ e_filename e = "a.jpg" /\ e_im_size e = (4, 3) /\ e_lla e = Some (1, 2, 100)%R /\ e_rpy e = Some (0 * 1 + 0, -90 * 1 + 90, 0 * 1 + 0)%R /\
  e_dewarp e = None /\ e_sensor_size e = None /\ e_focal_len e = TNone /\ e_focal_len_35 e = TOne 9%R.
Proof. eexists. split; [reflexivity|]. repeat split. Qed.

(** What the theorem needs holds. *)
Lemma air_made : exists fac e, air_from = Some (Ok (fac, Some tt)) /\ air_file tt = Ok e /\ e_filename e = "a.jpg" /\ one_camera air_file [tt] e /\ sees_by e air_K (fun xy => xy) /\
  (forall d tw th, ~ usable_dewarp e d tw th) /\ e_lla e = Some (1, 2, 100)%R /\ e_rpy e = Some (0 * 1 + 0, -90 * 1 + 90, 0 * 1 + 0)%R /\ e_im_size e = (4, 3) /\
  north_is 1 2 100 (fun lat lon alt => air_transform tt tt (V3 lon lat alt)) 0 1 /\
  (forall v, rpy_world (deg (0 * 1 + 0)) (deg (-90 * 1 + 90)) (deg (0 * 1 + 0)) 0 1 v = v) /\
  exists i o, snd (frame_get air_create "a.jpg" fac) = Ok i /\ nth_error (f_heap (fst (frame_get air_create "a.jpg" fac))) i = Some o /\ photo_object o = air_cam.
Proof.
  destruct air_exif as (e & HO & Hnm & Hsz & Hl & Hr & Hd & Hs & Hf & H35).
  assert (ND : forall d tw th, ~ usable_dewarp e d tw th) by (intros d tw th (E & _); congruence).
  assert (T35 : tagged (e_focal_len_35 e) 9) by (split; [exact H35|lra]).
  assert (HI : interior e (IntParam Pinhole 4 3 [9 / 36]%R None None None [])).
  { pose proof (I_focal_35 e 9 ND Hs T35) as H. rewrite Hsz in H. exact H. }
  assert (S1 : single (e_focal_len e)) by (rewrite Hf; exact I). assert (S2 : single (e_focal_len_35 e)) by (rewrite H35; exact I).
  assert (Hone : one_camera air_file [tt] e).
  { intros [] e' _ He' _. rewrite HO in He'. injection He' as <-. split; [exact S1|]. split; [exact S2|]. intros p. reflexivity. }
  assert (Hnm' : forall (g : unit) e', air_file g = Ok e' -> e_filename e' = "a.jpg") by (intros [] e' He'; rewrite HO in He'; injection He' as <-; exact Hnm).
  assert (Hu : forall (g : unit) e', In g [tt] -> "a.jpg" = "a.jpg" -> air_file g = Ok e' -> e' = e) by (intros [] e' _ _ He'; congruence).
  destruct (photo_success unit (fun _ => true) (fun _ => true) (fun _ => tt) unit (fun _ => "a.jpg") air_file air_transform [tt] NoCrs tt [Finish 0; Collect; Collect]) as (fac & c & E).
  { exists [Finish 0]. split; [reflexivity|]. intros [|i] Hi; [left; reflexivity|cbn in Hi; lia]. }
  { auto. } { reflexivity. }
  { intros [] _. exists e, (1, 2, 100)%R. do 2 eexists. repeat (split; [eassumption|]). assumption. }
  destruct (photo_needs unit (fun _ => true) (fun _ => true) (fun _ => tt) unit (fun _ => "a.jpg") air_file air_transform [tt] NoCrs (ACrs tt) [Finish 0; Collect; Collect] fac c tt e E (or_introl eq_refl) HO Hu) as (_ & _ & _ & ([] & ->)).
  assert (Hn : north_is 1 2 100 (fun lat lon alt => air_transform tt tt (V3 lon lat alt)) 0 1).
  { split; [lra|]. exists (2 * 20 / 10000000)%R. split; [lra|]. apply Rot_Proof.vec_eq; cbn; lra. }
  assert (Hw : forall v, rpy_world (deg (0 * 1 + 0)) (deg (-90 * 1 + 90)) (deg (0 * 1 + 0)) 0 1 v = v).
  { intros [x y z]. unfold deg, rpy_world, from_ned, about_x, about_y, about_z. cbn [vx vy vz]. replace ((-90 * 1 + 90) / 180 * PI)%R with 0%R by field. replace ((0 * 1 + 0) / 180 * PI)%R with 0%R by field. rewrite sin_0, cos_0.
    f_equal; ring. }
  assert (Hsee : sees_by e air_K (fun xy => xy)) by (apply (by_focal_35 e 9); try assumption; rewrite Hsz; unfold air_K; cbn; lra).
  exists fac, e. split; [exact E|]. repeat (split; [assumption|]).
  assert (Hcam : exists cam, air_create (IntParam Pinhole 4 3 [9 / 36]%R None None None []) = Ok cam /\ cam = FCam true air_lens 4 3 (cam_init true air_K air_lens 4 3 1 true None)).
  { eexists. split; [reflexivity|]. cbn. match goal with |- FCam _ (_ ?k) _ _ _ = _ => replace k with air_K by (unfold air_K; f_equal; lra) end. reflexivity. }
  destruct Hcam as (cam & Hcam & Ecam).
  destruct (photo_pixels_gen unit (fun _ => true) (fun _ => true) (fun _ => tt) unit (fun _ => "a.jpg") air_file air_transform (fun _ _ p => p) (fun _ _ p => p) demo_surf (fun _ => Nan) demo_image (fun _ _ v => v)
    [tt] NoCrs [Finish 0; Collect; Collect] fac tt tt e [] true 1%R _ cam (fun xy => to_pixel air_K xy) tt 1 2 100 (0 * 1 + 0) (-90 * 1 + 90) (0 * 1 + 0) 0 1 Hnm' E (or_introl eq_refl) HO Hu Hone HI Hcam)%R
    as (i & o & G1 & G2 & (opk & G3 & G4) & _).
  { intros t opk. rewrite Ecam. eexists. split; [reflexivity|]. split; [reflexivity|]. split; [reflexivity|]. intros [x y]. reflexivity. }
  { exact Hl. } { exact Hr. } { exact Hn. }
  { rewrite Hw. cbn [vx]. rewrite Rabs_R0. lra. }
  exists i, o. split; [exact G1|]. split; [exact G2|]. rewrite G3, Ecam. unfold photo_object. cbn [c_ext c_int].
  assert (ER : extrinsic_rotation opk = flip).
  { assert (M : forall v, mvec (extrinsic_rotation opk) v = mvec flip v).
    { intros [x y z]. rewrite G4, Hw. unfold mvec, flip, dot. cbn [vx vy vz row0 row1 row2]. f_equal; ring. }
    pose proof (M (V3 1 0 0)) as M1. pose proof (M (V3 0 1 0)) as M2. pose proof (M (V3 0 0 1)) as M3. destruct (extrinsic_rotation opk) as [[a1 a2 a3] [b1 b2 b3] [c1 c2 c3]].
    unfold mvec, flip, dot in *. cbn [vx vy vz row0 row1 row2] in *. injection M1 as ? ? ?. injection M2 as ? ? ?. injection M3 as ? ? ?. repeat f_equal; lra. }
  rewrite ER. replace (air_transform tt tt (V3 2 1 100)) with (V3 10 20 100) by (unfold air_transform; cbn [vx vy vz]; f_equal; lra). reflexivity.
Qed.

(** The image is rectified on the DEM: the camera sees the centre of the DEM pixel at (35, -5), which has a height of 50, at pixel (2, 3/2), to which (2, 2) is the nearest. *)
Example C109_case : exists fac i o ort d u warn, air_from = Some (Ok (fac, Some tt)) /\
  snd (frame_get air_create "a.jpg" fac) = Ok i /\ nth_error (f_heap (fst (frame_get air_create "a.jpg" fac))) i = Some o /\
  demo_new (MadeFrame (photo_object o)) (Ok demo_src) (Ok demo_dem) (PCrs tt) 1 = Ok ort /\ demo_process (MadeFrame (photo_object o)) ort (Ok demo_src) demo_args u = Ok (d, Ok tt, warn) /\
  exists r c, in_im (d_height d) (d_width d) r c /\ pixel_centre (d_transform d) r c = (35, -5)%R /\ bands (d_raster d) 1 r c = PVal 22.
Proof.
  destruct air_made as (fac & e & E & HO & Hnm & Hone & Hsee & ND & Hl & Hr & Hsz & Hn & Hw & i & o & G1 & G2 & G3).
  assert (CR : forall a b : unit, (fun _ _ : unit => true) a b = true <-> a = b) by (intros [] []; split; auto).
  destruct (C109_ortho demo_surf (fun _ => Nan) demo_image (fun _ _ v => v) (fun _ _ p => p) (fun _ _ p => p) unit (fun _ _ => true) (fun _ => Ok tt) tt unit (fun _ _ l => l) (fun _ _ _ => [])
    (fun _ _ b => b) (fun _ _ _ _ => (0, 0, 0, 0)%R) (fun _ _ _ _ a t => (a, t)) (fun _ _ => []) (fun hw _ => Arr (fst hw) (snd hw) (fun _ _ => true)) CR demo_border
    (fun _ => true) (fun _ => true) (fun _ => tt) unit (fun _ => "a.jpg") air_file air_transform [tt] NoCrs [Finish 0; Collect; Collect] fac tt tt e [] true 1 air_K (fun xy => xy) tt
    1 2 100 (0 * 1 + 0) (-90 * 1 + 90) (0 * 1 + 0) 0 1)%R as (i' & o' & G1' & G2' & S).
  { intros [] e' He'. rewrite HO in He'. injection He' as <-. exact Hnm. }
  { exact E. } { left. reflexivity. } { exact HO. } { intros [] e' _ _ He'. congruence. } { exact Hone. } { exact Hsee. } { left. reflexivity. } { exact Hl. } { exact Hr. } { exact Hn. }
  { rewrite Hw. cbn [vx]. rewrite Rabs_R0. lra. }
  cbn [frame_run fold_left] in G1', G2'. unfold frame_run in G1', G2'. cbn [fold_left] in G1', G2'. rewrite G1 in G1'. injection G1' as <-. rewrite G2 in G2'. injection G2' as <-. rewrite G3 in S.
  destruct S as (_ & _ & _ & S).
  destruct (C107_inside demo_surf (fun _ => Nan) demo_image (fun _ _ v => v) unit (fun _ _ => true) (fun _ => Ok tt) tt unit (fun _ _ l => l) (fun _ _ _ => []) (fun _ _ b => b) CR air_cam (Ok demo_src) demo_dem (PCrs tt) tt 1) as (ort & Eo & Ho).
  { constructor. } { exact air_inside. }
  destruct (C107_succeeds demo_surf (fun _ => Nan) demo_image (fun _ _ v => v) unit (fun _ _ => true) tt unit (fun _ _ l => l) (fun _ _ _ => []) (fun _ _ _ _ => (0, 0, 0, 0)%R) (fun _ _ _ _ a t => (a, t)) (fun _ _ => [])
    (fun hw _ => Arr (fst hw) (snd hw) (fun _ _ => true)) CR air_cam ort demo_src demo_args) as (h & w & p & Ph & Pw & F).
  { discriminate. } { exact (air_processed ort Ho). }
  set (u := Run (fun _ => (1, 1)) (fun _ _ => false) (fun _ => block_windows h w (1, 1)) (Ras (fun _ _ _ => PNan) (fun _ _ => false))).
  destruct (F u) as (d & r & warn & Ed & Dh & Dw & _ & Dr).
  assert (Ru : runs u d). { unfold runs, u. cbn [u_block u_order fst snd]. rewrite Dh, Dw. split; [lia|]. split; [lia|]. intros _. apply Permutation_refl. }
  assert (Rt : r = Ok tt). { apply Dr; [exact Ru|]. unfold small_tiles, u. cbn. repeat split; lia. }
  subst r. destruct (S ort (Ok demo_src) demo_args u d warn Ed Ru) as (sf & Es & S' & _).
  destruct (S' eq_refl) as (di & hs & t & poly & r0 & c0 & dt & nodata & Q1 & Q2 & Q3 & _ & Q4 & _ & Q5 & _ & Q6 & Q7 & _ & _ & Q8 & Q9).
  injection Es as <-. exists fac, i, o, ort, d, u, warn. split; [exact E|]. split; [exact G1|]. split; [exact G2|]. rewrite G3. split; [exact Eo|]. split; [exact Ed|].
  destruct Ho as (Oh & Ow & Ov & Ot). apply same_affine in Ot. cbn [demo_dem df_t df_band] in Oh, Ow, Ov, Ot. cbn [demo_heights ah aw] in Oh, Ow.
  assert (Own : hs = or_dem ort /\ t = or_dem_t ort).
  { destruct Q2 as [i0 rx ry _ Z1 Z2 Z3|i0 rx ry s0 t0 _ (Z1 & Z2) Z3 Z4]; [auto|]. injection Z4 as <- <-. auto. }
  destruct Own as (-> & ->). rewrite Ot in Q7.
  assert (Wt : wanted (or_dem ort) (Arr (ah (or_dem ort)) (aw (or_dem ort)) (fun _ _ => true)) 0 0).
  { split; [unfold in_im; rewrite Oh, Ow; lia|]. split; [reflexivity|]. rewrite Ov by (unfold in_im; cbn; lia). discriminate. }
  specialize (Q8 0 0 Wt). exists (0 - r0), (0 - c0). split; [exact Q8|].
  assert (Pc : pixel_centre (d_transform d) (0 - r0) (0 - c0) = (35, -5)%R).
  { pose proof (Q7 (IZR (0 - c0) + / 2) (IZR (0 - r0) + / 2))%R as Z. unfold aff_apply in Z. cbn [ta tb tc td te tf] in Z. unfold pixel_centre. rewrite Z, !minus_IZR. f_equal; field. }
  split; [exact Pc|]. specialize (Q9 1 (0 - r0) (0 - c0)). rewrite Pc in Q9. replace (r0 + (0 - r0)) with 0 in Q9 by lia. replace (c0 + (0 - c0)) with 0 in Q9 by lia.
  destruct Q9 as (_ & Q9); [rewrite Q4; cbn; lia|exact Q8|]. destruct (Q9 Wt) as (band & z & (d1 & px & B1 & B2) & B3 & B4). rewrite Ov in B3 by (unfold in_im; cbn; lia). cbn in B3. injection B3 as <-.
  cbn in B1. injection B1 as <- <-. specialize (B4 (Num 2, Num (3 / 2))%R). cbn [shown] in B4. rewrite B4.
  - rewrite B2. unfold demo_image, demo_cv. cbn [demo_src sf_im if_h if_w ah aw aget].
    repeat (destruct (Rlt_dec _ _); [|exfalso; lra]). rewrite (Bound_Proof.Rfloor_eq (3 / 2 + / 2) 2) by lra. rewrite (Bound_Proof.Rfloor_eq (2 + / 2) 2) by lra. reflexivity.
  - exists (V3 25 25 50). rewrite Hw. split; [unfold air_transform, vadd; cbn [vx vy vz]; f_equal; lra|]. right. cbn [vx vy vz]. split; [lra|]. unfold to_pixel, air_K. cbn. f_equal; f_equal; lra.
Qed.
