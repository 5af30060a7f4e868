(** Property theorems: C107 frame cameras to ortho images, with and without distortion. *)
From Coq Require Import String List Reals QArith Qreals ZArith Permutation Lra Lia.
From Verif Require Import Py Flt Mat Grid_Model Grid_Spec Profile_Spec Remap_Model Remap_Spec Dem_Spec Frame_Model Undist_Model Bound_Model Bound_Spec Rpc_Model Cam_Model Cam_Spec Rcam_Model Make_Model
  Proj_Spec Ortho_Model Ortho_Spec Whole_Model Whole_Spec Whole_Proof WholeDoc_Proof Whole_Props Survey_Spec Survey_Proof.
From Verif Require Frame_Spec Bound_Proof Cam_Proof Undist_Proof.
Import ListNotations.
Open Scope string_scope.
Open Scope list_scope.
Open Scope Z_scope.

Section Props.
Variable cv_surf : string -> arr fl -> fl * fl -> option fl.
Variable cast_nan : string -> fl.
Variable cv_image : string -> arr pix -> fl * fl -> option pix.
Variable convert : string -> string -> pix -> pix.
Variable C : Type.
Variable crs_eqb : C -> C -> bool.
Variable from_string : string -> res C.
Variable rpc_crs : C.
Variable O : Type.
Variable warp : C -> C -> list vec -> list vec.
Variable rpc_xy : rpc -> O -> list ((R * R) * R) -> list (R * R).
Variable transform_bounds : C -> C -> bounds -> bounds.
Variable bounds_in : Z * Z -> affine -> C -> C -> R * R * R * R.
Variable reproject : interp -> C -> C -> R * R -> arr fl -> affine -> arr fl * affine.
Variable to_pixels : affine -> list (R * R) -> list (Z * Z).
Variable fill_poly : Z * Z -> list (Z * Z) -> arr bool.
Notation new_ortho := (new_ortho cv_surf cast_nan cv_image convert C crs_eqb from_string rpc_crs O warp rpc_xy transform_bounds).
Notation process_with := (process_with cv_surf cast_nan cv_image convert C crs_eqb rpc_crs O warp rpc_xy bounds_in reproject to_pixels fill_poly).
Notation asking cam := (fun k => snd (do_call cv_surf cast_nan cv_image convert cam k)).

(** CRSs compare by what they are; OpenCV interpolates nothing outside of an image. *)
Hypothesis crs_same : forall a b, crs_eqb a b = true <-> a = b.
Hypothesis cv_border : forall i b j k, (j <= -1 \/ k <= -1 \/ IZR (aw b) <= j \/ IZR (ah b) <= k)%R -> cv_image i b (Num j, Num k) = None.

(** C107: an ortho image that is made without an error shows what its camera reads, where the camera sees the surface, whatever the order of its blocks. *)
Theorem C107_shows : forall cam o src a u d warn, process_with (MadeFrame cam) o src a u = Ok (d, Ok tt, warn) -> runs u d ->
  exists s, src = Ok s /\ shows cv_image C reproject to_pixels fill_poly (asking cam) (s_distort (fc_st cam)) (fc_pinhole cam) o s a u d.
Proof. exact (frame_shows cv_surf cast_nan cv_image convert C crs_eqb rpc_crs O warp rpc_xy bounds_in reproject to_pixels fill_poly crs_same cv_border). Qed.

(** C107: it is made for all images and cameras that can be processed, of sizes that OpenCV can remap. *)
Theorem C107_succeeds : forall cam o sf a, (s_distort (fc_st cam) = false -> 0 < fc_w cam < 32767 /\ 0 < fc_h cam < 32767) ->
  processes C reproject to_pixels fill_poly bounds_in (cam_surface (asking cam)) o sf a ->
  exists h w p, 0 < h /\ 0 < w /\ forall u, exists d r warn, process_with (MadeFrame cam) o (Ok sf) a u = Ok (d, r, warn) /\ d_height d = h /\ d_width d = w /\ d_profile d = p /\
    (runs u d -> small_tiles C u d -> r = Ok tt).
Proof. exact (frame_succeeds cv_surf cast_nan cv_image convert C crs_eqb rpc_crs O warp rpc_xy bounds_in reproject to_pixels fill_poly crs_same). Qed.

(** C107: the object is for the part of the DEM that the camera sees, and its resolution is that of the image that the camera reads. *)
Theorem C107_built : forall cam src dem crs band o, new_ortho (MadeFrame cam) src dem crs band = Ok o ->
  exists demf w, dem = Ok demf /\ 1 <= band <= df_count C demf /\ world_crs from_string crs (do s <- src; Ok (sf_crs C s)) w /\
  built_for C (height_in C warp) transform_bounds rpc_crs (asking cam) (fc_w cam) (fc_h cam) w demf band o.
Proof. exact (frame_built cv_surf cast_nan cv_image convert C crs_eqb from_string rpc_crs O warp rpc_xy transform_bounds crs_same). Qed.

(** C107: a DEM that is inside of the image is used whole. *)
Theorem C107_inside : forall cam src demf crs w band, world_crs from_string crs (do s <- src; Ok (sf_crs C s)) w ->
  inside C (height_in C warp) rpc_crs (cam_centre (asking cam) (fc_w cam) (fc_h cam)) (cam_outline (asking cam)) w demf band ->
  exists o, new_ortho (MadeFrame cam) src (Ok demf) crs band = Ok o /\ has_all C demf band o.
Proof. exact (frame_inside cv_surf cast_nan cv_image convert C crs_eqb from_string rpc_crs O warp rpc_xy transform_bounds crs_same). Qed.

(** C107: it is not made when the source or a block has too many rows or columns for OpenCV. *)
Theorem C107_fits : forall cam o s a u d warn, process_with (MadeFrame cam) o (Ok s) a u = Ok (d, Ok tt, warn) -> runs u d ->
  if_h (sf_im C s) < 32767 /\ if_w (sf_im C s) < 32767 /\ forall win, In win (block_windows (d_height d) (d_width d) (u_block u (d_profile d))) -> height win < 32767 /\ width win < 32767.
Proof. exact (frame_fits cv_surf cast_nan cv_image convert C crs_eqb rpc_crs O warp rpc_xy bounds_in reproject to_pixels fill_poly crs_same). Qed.
End Props.

Print Assumptions C107_shows.
Print Assumptions C107_succeeds.
Print Assumptions C107_built.
Print Assumptions C107_inside.
Print Assumptions C107_fits.

(** * Case *)

(** A Brown camera without distortion coefficients, over the DEM of C99, that removes distortion. *)
Definition und_lens := Frame_Model.pinhole (Intr 1 1 0 0).
Definition und_cam : fcam := FCam false und_lens 4 3 (cam_init false (Intr 1 1 0 0) und_lens 4 3 1 false (Some (flip, V3 10 20 100))).
Definition und_ask (k : call) := snd (do_call demo_surf (fun _ => Nan) demo_image (fun _ _ v => v) und_cam k).
Definition und_frame : frame := Frame und_lens (Intr 1 1 0 0) false flip (V3 10 20 100).

Lemma und_ku : s_ku (fc_st und_cam) = Intr 1 1 0 0.
Proof. unfold und_cam, cam_init. cbn [fc_st s_ku]. apply Undist_Proof.no_distortion_same; cbn [kfx kfy]; lia || lra. Qed.
Lemma und_inv : forall p, l_inv und_lens p = p.
Proof. intros [x y]. unfold und_lens, Frame_Model.pinhole, k_solve. cbn [l_inv kfx kfy kcx kcy fst snd]. f_equal; lra. Qed.
Lemma und_init : test_init und_cam = Ok und_frame.
Proof. unfold test_init. rewrite und_ku. reflexivity. Qed.
Lemma und_ray : forall p z, pixel_to_world_z und_frame p z = Some (cam_point z p).
Proof.
  intros p z. unfold pixel_to_world_z, ray, active_lens, und_frame. cbn [fr_distort fr_ku fr_lens fr_R fr_T]. change (Frame_Model.pinhole (Intr 1 1 0 0)) with und_lens. rewrite und_inv.
  unfold mvec, flip, vadd, vscale, cam_point, dot. cbn [vx vy vz row0 row1 row2]. destruct (Req_EM_T _ 0) as [E|_]; [exfalso; lra|]. f_equal. f_equal; field; lra.
Qed.
Lemma und_horizon : horizon_fov und_frame 4 3 = false.
Proof.
  apply Bool.not_true_iff_false. intros E. apply existsb_exists in E. destruct E as (p & _ & E). unfold und_frame in E. cbn [fr_lens fr_R] in E. rewrite und_inv in E.
  unfold mvec, flip, dot in E. cbn [vx vy vz row0 row1 row2] in E. destruct (Rle_dec _ _) as [H|]; [lra|discriminate].
Qed.
Lemma und_pixel : forall p, (0 <= fst p <= 3)%R -> (0 <= snd p <= 2)%R -> undistort_pixel und_frame 4 3 p = p.
Proof.
  intros p H1 H2. unfold undistort_pixel, clip_pixel, und_frame. cbn [fr_ku fr_lens]. rewrite und_inv. destruct p as [x y]. unfold k_apply. cbn [kfx kfy kcx kcy fst snd] in *.
  replace (1 * x + 0)%R with x by ring. replace (1 * y + 0)%R with y by ring. rewrite (Rmax_left x 0), (Rmax_left y 0) by lra. rewrite !Rmin_left by lra. reflexivity.
Qed.
Lemma und_boundary : forall n, n = 8 \/ n = 400 -> exists ji, pixel_boundary 4 3 (Some n) = Ok ji /\ frame_pixel_boundary und_frame 4 3 (Some n) = Ok ji /\ Forall (fun p => 0 <= fst p <= 3 /\ 0 <= snd p <= 2)%R ji.
Proof.
  intros n Hn. destruct (Bound_Proof.boundary_points 4 3 n ltac:(lia) ltac:(lia) ltac:(lia) ltac:(lia)) as (ji & Ej & Hj & _). exists ji. split; [exact Ej|].
  assert (F : Forall (fun p => 0 <= fst p <= 3 /\ 0 <= snd p <= 2)%R ji).
  { eapply Forall_impl; [|exact Hj]. intros p Hp. unfold on_edge, Frame_Spec.in_image in Hp. lra. }
  split; [|exact F]. unfold frame_pixel_boundary. rewrite Ej. cbn [bind]. f_equal. cbn [fr_distort und_frame]. rewrite <- (map_id ji) at 2. apply map_ext_in. intros p Hp. rewrite Forall_forall in F. destruct (F p Hp). apply und_pixel; assumption.
Qed.

Lemma und_centred : cam_centre und_ask 4 3 (cam_point 0 (2, 3 / 2)%R).
Proof.
  unfold cam_centre, und_ask. cbn [Cam_Model.do_call snd]. unfold pixel_to_world_call. rewrite und_init. cbn [bind].
  replace (validate_pixel_coords _) with (Ok tt : res unit) by reflexivity. cbn [bind one_pixel nd_data frame_p2w_array validate_z negb map rmap]. unfold p2w_fl.
  rewrite und_ray. do 4 f_equal. unfold cam_point. cbn [fst snd]. f_equal; lra.
Qed.

Lemma und_eight : frame_pixel_boundary und_frame 4 3 None = Ok (boundary8 4 3).
Proof.
  unfold frame_pixel_boundary. cbn [pixel_boundary bind]. f_equal. cbn [fr_distort und_frame]. rewrite <- (map_id (boundary8 4 3)) at 2. apply map_ext_in. intros p Hp.
  destruct (Bound_Proof.boundary_default 4 3 ltac:(lia) ltac:(lia)) as (pts & E & _ & _ & F & _). injection E as <-. rewrite Forall_forall in F. specialize (F p Hp). unfold on_edge, Frame_Spec.in_image in F. apply und_pixel; lra.
Qed.

Lemma und_outlined : forall z, cam_outline und_ask z (map (cam_point (Rmin z 100)) (boundary8 4 3)).
Proof.
  intros z. unfold cam_outline, und_ask. cbn [Cam_Model.do_call snd]. unfold world_boundary_call. rewrite und_init. cbn [bind].
  unfold frame_world_boundary. change (fc_w und_cam) with 4. change (fc_h und_cam) with 3. rewrite und_horizon, und_eight. cbn [bind rmap]. change (vz (fr_T und_frame)) with 100%R.
  f_equal. f_equal. rewrite map_map. apply map_ext. intros p. apply und_ray.
Qed.

Lemma und_inside : inside unit (height_in unit (fun _ _ l => l)) tt (cam_centre und_ask 4 3) (cam_outline und_ask) tt demo_dem 1.
Proof.
  unfold inside. split; [reflexivity|]. split; [cbn; lia|]. split; [unfold north_up, no_rotation; cbn; lra|].
  split; [exists 0, 0, 50%R; split; [unfold in_im; cbn; lia|reflexivity]|].
  split; [exists (cam_point 0 (2, 3 / 2)%R), (map (cam_point (Rmin (-106.71 * 1) 100)) (boundary8 4 3)), 1%R; split; [exact und_centred|split; [unfold height_in; cbn; lra|split; [apply und_outlined|apply cam_surrounds; lra]]]|].
  split; [|intros z; eexists; apply und_outlined].
  intros r c z Hin Hz. assert (L : (z <= 60)%R) by (clear - Hz; cbn [demo_dem df_band demo_heights aget] in Hz; destruct (r =? 0), (c =? 0); try discriminate; injection Hz as <-; lra).
  exists (map (cam_point (Rmin (world_height unit (height_in unit (fun _ _ l => l)) tt demo_dem r c z) 100)) (boundary8 4 3)). split; [apply und_outlined|].
  apply cam_surrounds. unfold world_height, height_in. destruct (aff_apply _ _ _). cbn [vz]. exact L.
Qed.

Lemma und_surfaced : forall o, has_all unit demo_dem 1 o -> exists poly, cam_surface und_ask (or_dem o) (or_dem_t o) "nearest" poly.
Proof.
  intros o (Hh & Hw & Hv & Ht). apply same_affine in Ht. rewrite Ht. cbn [demo_dem df_t df_band] in *. cbn [demo_heights ah aw] in Hh, Hw.
  destruct (und_boundary 400 ltac:(auto)) as (ji & _ & Ej & Hj).
  assert (Pj : pixel_boundary_call und_cam (Some 400) = Ok ji).
  { rewrite <- Ej. unfold pixel_boundary_call, frame_pixel_boundary. change (fc_w und_cam) with 4. change (fc_h und_cam) with 3. destruct (pixel_boundary 4 3 (Some 400)); [|reflexivity]. cbn [bind fr_distort und_frame].
    change (s_distort (fc_st und_cam)) with false. cbn iota. f_equal. apply map_ext. intros p. unfold undistort_pixel. cbn [fr_ku fr_lens und_frame]. rewrite und_ku. reflexivity. }
  assert (V : forall u, valued (or_dem o) u -> (50 <= u <= 52)%R).
  { intros u (r & c & Hr & Hc & E). rewrite Hh in Hr. rewrite Hw in Hc. rewrite Hv in E by (split; assumption). clear - E. cbn in E. destruct (r =? 0), (c =? 0); try discriminate; injection E as <-; lra. }
  assert (X : forall r c u, in_im 2 2 r c -> aget demo_heights r c = Num u -> valued (or_dem o) u).
  { intros r c u (Hr & Hc) E. exists r, c. rewrite Hh, Hw. split; [exact Hr|]. split; [exact Hc|]. rewrite Hv by (split; assumption). exact E. }
  assert (SO : surface_ok und_cam flip (V3 10 20 100) "float32" (or_dem o) (Some 400) (Aff 10 0 30 0 (-10) 0) ji 50 52).
  { split; [reflexivity|]. split.
    { intros (p & _ & H). change (fc_lens und_cam) with und_lens in H. rewrite und_inv in H. unfold mvec, flip, dot in H. cbn [vx vy vz row0 row1 row2] in H. lra. }
    split; [exact Pj|]. split; [split; [apply (X 0 0); [unfold in_im; lia|reflexivity]|intros u Hu; apply V, Hu]|]. split; [split; [apply (X 0 1); [unfold in_im; lia|reflexivity]|intros u Hu; apply V, Hu]|].
    cbn [vz ta tb tc td te tf]. split; [lra|]. split; [unfold cv_dtype; cbn; tauto|]. unfold Cam_Spec.cv_size. rewrite Hh, Hw. repeat split; try lia; lra. }
  assert (OR : forall p, on_ray und_cam p (fun z => cam_point z p)).
  { intros p z. unfold pixel_to_world_call. rewrite und_init. cbn [bind]. replace (validate_pixel_coords _) with (Ok tt : res unit) by reflexivity. cbn [bind nd_data frame_p2w_array validate_z negb map]. unfold p2w_fl.
    destruct p as [px py]. cbn [fst snd]. rewrite und_ray. reflexivity. }
  assert (RU : forall p rr, on_ray und_cam p rr -> forall z, rr z = cam_point z p) by (intros p rr H z; specialize (H z); specialize (OR p z); congruence).
  destruct (Cam_Proof.boundary_surface_ok demo_surf (fun _ => Nan) demo_image (fun _ _ v => v) und_cam flip (V3 10 20 100) "float32" (or_dem o) (Some 400) (Aff 10 0 30 0 (-10) 0) ji 50 52 "nearest" true SO) as (B & _).
  { intros p _. eexists. apply OR. }
  destruct B as (pts & E).
  { intros p rr Hp Hr. rewrite !(RU p rr Hr). cbn [vz]. rewrite Rmin_left by lra. unfold span, cam_point. cbn [vx vy ta te]. rewrite Forall_forall in Hj. destruct (Hj p Hp) as (J1 & J2).
    apply Rmax_lub; apply Rabs_le; split; lra. }
  assert (M : exists l, pts = map Some l).
  { cbn [Cam_Model.do_call snd] in E. apply rmap_points in E.
    destruct (view_of demo_surf (fun _ => Nan) demo_image (fun _ _ v => v) unit tt unit (fun _ _ l => l) (fun _ _ _ => []) (MadeFrame und_cam)) as [v|] eqn:Ev.
    2:{ cbn [view_of] in Ev. unfold frame_view in Ev. rewrite und_init in Ev. discriminate. }
    destruct (frame_calls _ _ _ _ _ _ _ _ _ _ _ Ev) as (_ & _ & _ & _ & _ & _ & _ & Q & _).
    cbn [view_of] in Ev. unfold frame_view in Ev. rewrite und_init in Ev. cbn [bind] in Ev. injection Ev as <-. exact (Q _ _ _ _ _ E). }
  destruct M as (l & ->). exists l. exact E.
Qed.

Lemma und_processed : forall o, has_all unit demo_dem 1 o ->
  processes unit (fun _ _ _ _ a t => (a, t)) (fun _ _ => []) (fun hw _ => Arr (fst hw) (snd hw) (fun _ _ => true)) (fun _ _ _ _ => (0, 0, 0, 0)%R) (cam_surface und_ask) o demo_src demo_args.
Proof.
  intros o A. destruct (und_surfaced o A) as (poly & Hp). destruct A as (Hh & Hw & Hv & Ht). apply same_affine in Ht. cbn [demo_dem df_t df_band] in *. cbn [demo_heights ah aw] in Hh, Hw.
  assert (Hc : or_dem_crs o = or_crs o) by (destruct (or_dem_crs o), (or_crs o); reflexivity).
  assert (Hs : has_size (or_dem_t o) 10 10) by (rewrite Ht; unfold has_size; cbn [ta te]; split; [apply Rabs_pos_eq; lra|rewrite Rabs_left; lra]).
  split; [exists 10%R, 10%R; split; [split; reflexivity|left; auto]|].
  split; [exists Nearest, (or_dem o), (or_dem_t o), poly, 0, 0; split; [apply (S_own _ _ _ Nearest 10%R 10%R); [constructor|split; reflexivity|exact Hc|exact Hs]|]; split; [exact Hp|]|].
  { split; [unfold in_im; rewrite Hh, Hw; lia|]. split; [reflexivity|]. rewrite Hv by (unfold in_im; cbn; lia). discriminate. }
  split; [exists "uint8"; split; [do 2 eexists; reflexivity|split; [left; reflexivity|right; exact I]]|]. split; [discriminate|]. cbn. split; [lia|]. split; [lia|]. split; [left; reflexivity|]. exists Nearest. constructor.
Qed.

Lemma und_reads : forall nd, exists shape band, und_ask (ReadC (Ok (sf_im unit demo_src)) (Bands [1]) (Some "uint8") (Some nd) "nearest") = Ok (VImage (Nd "uint8" shape [band])) /\
  ah band = 3 /\ aw band = 4 /\ aget band 1 1 = PVal 11.
Proof.
  intros nd. unfold und_ask. cbn [Cam_Model.do_call]. unfold read_call, read_image. cbn [bind band_list demo_src sf_im if_bands if_h if_w List.length mapM nth_error Z.ltb Z.compare Z.to_nat Z.sub Z.pos_sub].
  change (String.eqb "uint8" "") with false. cbn iota. cbn [bind mapM]. change (1 <? 1) with false. cbn iota. cbn [Z.to_nat nth_error Z.add Z.opp Z.pos_sub bind List.length].
  change (s_distort (fc_st und_cam)) with false. cbn iota. unfold validate_image. cbn [nd_dtype nd_shape]. change (negb (one_of "uint8" valid_dtypes)) with false. cbn iota.
  unfold read. change (s_distort (fc_st und_cam)) with false. change (s_maps (fc_st und_cam)) with (@None (R * R -> fl * fl)). change (fc_pinhole und_cam) with false. cbn iota. rewrite und_ku. cbn [fst snd].
  unfold undistort_im. cbn [validate_image nd_data nd_dtype nd_shape bind mapM interp_get].
  eexists; eexists. split; [reflexivity|]. split; [reflexivity|]. split; [reflexivity|].
  cbn [aget ah aw map_array fc_w fc_h]. unfold undistort_maps. change (fc_lens und_cam) with und_lens. change (k_solve (Intr 1 1 0 0)) with (l_inv und_lens). rewrite und_inv.
  unfold und_lens, Frame_Model.pinhole, num2, k_apply. cbn [l_fwd kfx kfy kcx kcy fst snd]. unfold demo_image, demo_cv. cbn [ah aw aget].
  repeat (destruct (Rlt_dec _ _); [|exfalso; lra]). rewrite !(Bound_Proof.Rfloor_eq (1 * 1 + 0 + / 2) 1) by lra. reflexivity.
Qed.

(** The image is undistorted and rectified on the DEM: the camera sees the centre of the DEM pixel at (35, -5), with a height of 50, at pixel (1/2, 1/2), to which OpenCV's
    stand-in takes (1, 1) as the nearest. *)
Example C107_case : exists o d u warn, demo_new (MadeFrame und_cam) (Ok demo_src) (Ok demo_dem) PNone 1 = Ok o /\ demo_process (MadeFrame und_cam) o (Ok demo_src) demo_args u = Ok (d, Ok tt, warn) /\ runs u d /\
  shows demo_image unit (fun _ _ _ _ a t => (a, t)) (fun _ _ => []) (fun hw _ => Arr (fst hw) (snd hw) (fun _ _ => true)) und_ask false false o demo_src demo_args u d /\
  exists r c, in_im (d_height d) (d_width d) r c /\ pixel_centre (d_transform d) r c = (35, -5)%R /\ bands (d_raster d) 1 r c = PVal 11.
Proof.
  assert (Crs : forall a b : unit, true = true <-> a = b) by (intros [] []; split; auto).
  destruct (C107_inside demo_surf (fun _ => Nan) demo_image (fun _ _ v => v) unit (fun _ _ => true) (fun _ => Ok tt) tt unit (fun _ _ l => l) (fun _ _ _ => []) (fun _ _ b => b) Crs und_cam (Ok demo_src) demo_dem PNone tt 1) as (o & Eo & Ho).
  { constructor. left. reflexivity. }
  { exact und_inside. }
  destruct (C107_succeeds demo_surf (fun _ => Nan) demo_image (fun _ _ v => v) unit (fun _ _ => true) tt unit (fun _ _ l => l) (fun _ _ _ => []) (fun _ _ _ _ => (0, 0, 0, 0)%R) (fun _ _ _ _ a t => (a, t)) (fun _ _ => [])
    (fun hw _ => Arr (fst hw) (snd hw) (fun _ _ => true)) Crs und_cam o demo_src demo_args) as (h & w & p & Ph & Pw & F).
  { intros _. cbn. lia. }
  { exact (und_processed o Ho). }
  set (u := Run (fun _ => (1, 1)) (fun _ _ => false) (fun _ => block_windows h w (1, 1)) (Ras (fun _ _ _ => PNan) (fun _ _ => false))).
  destruct (F u) as (d & r & warn & Ed & Dh & Dw & _ & Dr).
  assert (Ru : runs u d). { unfold runs, u. cbn [u_block u_order fst snd]. rewrite Dh, Dw. split; [lia|]. split; [lia|]. intros _. apply Permutation_refl. }
  assert (Rt : r = Ok tt). { apply Dr; [exact Ru|]. unfold small_tiles, u. cbn. repeat split; lia. }
  subst r.
  destruct (C107_shows demo_surf (fun _ => Nan) demo_image (fun _ _ v => v) unit (fun _ _ => true) tt unit (fun _ _ l => l) (fun _ _ _ => []) (fun _ _ _ _ => (0, 0, 0, 0)%R) (fun _ _ _ _ a t => (a, t)) (fun _ _ => [])
    (fun hw _ => Arr (fst hw) (snd hw) (fun _ _ => true)) Crs demo_border und_cam o (Ok demo_src) demo_args u d warn Ed Ru) as (sf & Es & Sh). injection Es as <-.
  exists o, d, u, warn. split; [exact Eo|]. split; [exact Ed|]. split; [exact Ru|]. split; [exact Sh|].
  destruct Sh as (di & hs & t & poly & r0 & c0 & dt & nodata & Q1 & Q2 & Q3 & Q). cbv zeta in Q. destruct Q as (_ & Q4 & _ & Q5 & _ & Q6 & Q7 & _ & _ & Q8 & Q9).
  destruct Ho as (Oh & Ow & Ov & Ot). apply same_affine in Ot. cbn [demo_dem df_t df_band] in Oh, Ow, Ov, Ot. cbn [demo_heights ah aw] in Oh, Ow.
  assert (Own : hs = or_dem o /\ t = or_dem_t o).
  { destruct Q2 as [i0 rx ry _ Z1 Z2 Z3|i0 rx ry s0 t0 _ (Z1 & Z2) Z3 Z4]; [auto|]. injection Z4 as <- <-. auto. }
  destruct Own as (-> & ->). rewrite Ot in Q7.
  assert (Wt : wanted (or_dem o) (Arr (ah (or_dem o)) (aw (or_dem o)) (fun _ _ => true)) 0 0).
  { split; [unfold in_im; rewrite Oh, Ow; lia|]. split; [reflexivity|]. rewrite Ov by (unfold in_im; cbn; lia). discriminate. }
  specialize (Q8 0 0 Wt). exists (0 - r0), (0 - c0). split; [exact Q8|].
  assert (Pc : pixel_centre (d_transform d) (0 - r0) (0 - c0) = (35, -5)%R).
  { pose proof (Q7 (IZR (0 - c0) + / 2) (IZR (0 - r0) + / 2))%R as Z. unfold aff_apply in Z. cbn [ta tb tc td te tf] in Z. unfold pixel_centre. rewrite Z, !minus_IZR. f_equal; field. }
  split; [exact Pc|]. specialize (Q9 1 (0 - r0) (0 - c0)). rewrite Pc in Q9. replace (r0 + (0 - r0)) with 0 in Q9 by lia. replace (c0 + (0 - c0)) with 0 in Q9 by lia.
  destruct Q9 as (Q9 & _); [rewrite Q4; cbn; lia|exact Q8|]. destruct Q9 as (_ & Q9); [intros (_ & _ & N & _); apply N; reflexivity|].
  destruct (Q9 Wt) as (z & band & q & B3 & (shape & B1) & B2 & B4). rewrite Ov in B3 by (unfold in_im; cbn; lia). cbn in B3. injection B3 as <-.
  assert (Dt : dt = "uint8") by (destruct Q5 as (px & l & E); cbn in E; congruence).
  subst dt.
  assert (Hq : q = (Num (1 / 2), Num (1 / 2))%R).
  { unfold cam_sees in B2. cbn [Cam_Model.do_call snd] in B2. unfold world_to_pixel_call in B2. rewrite und_init in B2. cbn [bind] in B2.
    assert (E : world_to_pixel und_frame (num3 (V3 35 (-5) 50)) = (Num (1 / 2), Num (1 / 2))%R).
    { unfold world_to_pixel, num3. cbn [vx vy vz]. unfold active_lens, und_frame. cbn [fr_distort fr_ku fr_R fr_T]. unfold mvec, mtr, flip, vsub, dot. cbn [vx vy vz row0 row1 row2].
      destruct (Req_EM_T _ 0) as [E|_]; [exfalso; lra|]. unfold Frame_Model.pinhole, num2, k_apply. cbn [l_fwd kfx kfy kcx kcy fst snd]. f_equal; f_equal; field. }
    rewrite <- E. apply (f_equal (fun r => match r with Ok (VPixels (x :: _)) => x | _ => (Nan, Nan) end)) in B2. symmetry. exact B2. }
  subst q. cbn [shown] in B4. rewrite B4. clear B4.
  destruct (und_reads nodata) as (shape' & band' & R1 & R2 & R3 & R4). assert (Hb : band = band') by (unfold und_ask in R1; cbn [demo_args a_interp] in B1; congruence). subst band'.
  unfold demo_image, demo_cv. rewrite R2, R3. repeat (destruct (Rlt_dec _ _); [|exfalso; lra]). rewrite !(Bound_Proof.Rfloor_eq (1 / 2 + / 2) 1) by lra. exact R4.
Qed.
