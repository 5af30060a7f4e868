(** Property theorems: C99 parameter files to ortho images, C100 RPC parameter files to ortho images. *)
From Coq Require Import String List Reals QArith Qreals ZArith Permutation Lra Lia.
From Verif Require Import Py Flt Mat Grid_Model Grid_Spec Profile_Spec Remap_Model Remap_Spec Dem_Spec Rot_Spec Frame_Model Frame_Spec Undist_Model Bound_Model Bound_Spec Rpc_Model Rpc_Spec Validate_Model Params_Model
  Params_Spec Factory_Model Cam_Model Cam_Spec Rcam_Model Rcam_Spec Make_Model Make_Spec Make_Props Proj_Spec Scene_Model Scene_Spec Scene_Props Rscene_Model Rscene_Spec Ortho_Model Ortho_Spec Whole_Model Whole_Spec
  Whole_Proof WholeDoc_Proof WholeRpc_Proof.
From Verif Require Factory_Spec Factory_Proof Bound_Proof Cam_Proof Rscene_Proof.
Import ListNotations.
Open Scope string_scope.
Open Scope list_scope.
Open Scope Z_scope.

Section Props.
Variable cv_surf : string -> arr fl -> fl * fl -> option fl.
Variable cast_nan : string -> fl.
Variable cv_image : string -> arr pix -> fl * fl -> option pix.
Variable convert : string -> string -> pix -> pix.
Variable cv_project cv_undistort fish_undistort : intr -> list R -> R * R -> R * R.
Variable C : Type.
Variable crs_eqb : C -> C -> bool.
Variable from_string : string -> res C.
Variable rpc_crs : C.
Variable O : Type.
Variable no_options : O.
Variable warp : C -> C -> list vec -> list vec.
Variable rpc_xy : rpc -> O -> list ((R * R) * R) -> list (R * R).
Variable transform_bounds : C -> C -> bounds -> bounds.
Variable bounds_in : Z * Z -> affine -> C -> C -> R * R * R * R.
Variable reproject : interp -> C -> C -> R * R -> arr fl -> affine -> arr fl * affine.
Variable to_pixels : affine -> list (R * R) -> list (Z * Z).
Variable fill_poly : Z * Z -> list (Z * Z) -> arr bool.
Notation scene_get := (scene_get cv_surf cast_nan cv_image convert cv_project cv_undistort fish_undistort C from_string rpc_crs O no_options warp).
Notation scene_use := (scene_use cv_surf cast_nan cv_image convert C O).
Notation scene_run := (scene_run cv_surf cast_nan cv_image convert cv_project cv_undistort fish_undistort C from_string rpc_crs O no_options warp).
Notation rscene_get := (rscene_get cv_project cv_undistort fish_undistort C from_string rpc_crs O no_options warp).
Notation rscene_run := (rscene_run cv_project cv_undistort fish_undistort C from_string rpc_crs O no_options warp).
Notation new_ortho := (new_ortho cv_surf cast_nan cv_image convert C crs_eqb from_string rpc_crs O warp rpc_xy transform_bounds).
Notation process_with := (process_with cv_surf cast_nan cv_image convert C crs_eqb rpc_crs O warp rpc_xy bounds_in reproject to_pixels fill_poly).
Notation do_call := (do_call cv_surf cast_nan cv_image convert).
Notation p2w := (rpc_p2w_call C rpc_crs O warp rpc_xy).
Notation boundary := (rpc_boundary_call C rpc_crs O warp rpc_xy cv_surf cast_nan).

(** CRSs compare by what they are; OpenCV interpolates nothing outside of an image. *)
Hypothesis crs_same : forall a b, crs_eqb a b = true <-> a = b.
Hypothesis cv_border : forall i b j k, (j <= -1 \/ k <= -1 \/ IZR (aw b) <= j \/ IZR (ah b) <= k)%R -> cv_image i b (Num j, Num k) = None.

(** C99: without a CRS, without the DEM band, or with a DEM beside the image, there is no ortho object; and none without the camera's position and orientation. *)
Theorem C99_refused : forall c src dem crs w band,
  ((crs = PNone \/ crs = PText "") -> (do s <- src; Ok (sf_crs C s)) = Ok None -> new_ortho (MadeFrame c) src dem crs band = Err CrsMissingError) /\
  (world_crs from_string crs (do s <- src; Ok (sf_crs C s)) w -> forall demf, dem = Ok demf ->
   (~ 1 <= band <= df_count C demf -> new_ortho (MadeFrame c) src dem crs band = Err OrthorityError) /\
   (1 <= band <= df_count C demf -> s_ext (fc_st c) = None -> new_ortho (MadeFrame c) src dem crs band = Err CameraInitError) /\
   (misses C (height_in C warp) rpc_crs (cam_centre (fun k => snd (do_call c k)) (fc_w c) (fc_h c)) (cam_outline (fun k => snd (do_call c k))) w demf band ->
    new_ortho (MadeFrame c) src dem crs band = Err OrthorityError)) /\
  (s_ext (fc_st c) = None -> forall o a u, process_with (MadeFrame c) o src a u = Err CameraInitError).
Proof. exact (frame_refused cv_surf cast_nan cv_image convert C crs_eqb from_string rpc_crs O warp rpc_xy transform_bounds bounds_in reproject to_pixels fill_poly crs_same). Qed.

Section Documents.
(** OpenCV: as in C96. *)
Hypothesis cv_projects : forall K d xy b, In (List.length d) [4; 5; 8; 12; 14]%nat -> opencv_distorts (cv_coefs d) xy b -> num2 (cv_project K d xy) = to_pixel K b.
Hypothesis cv_undistorts : forall K d d' p, In (List.length d) [4; 5; 8; 12; 14]%nat -> In (List.length d') [4; 5; 8; 12; 14]%nat ->
  (forall k, cv_coefs d k = cv_coefs d' k) -> cv_undistort K d p = cv_undistort K d' p.

(** C99: for an image of a pair of interior and exterior parameter files, an ortho object has the part of the DEM under the image and the resolution of the image;
    it has all of a DEM that is under the image; with pixels to show, an ortho is made; and each pixel of the ortho is the image where the point of the DEM is seen by the
    parameters of the files, interpolated, or nodata. *)
Theorem C99_documents : forall D (parse : string -> option D) int_doc ext_doc crs0 d0 cams shots kwargs name s c before,
  cameras_in int_doc cams -> shots_in ext_doc crs0 shots -> NoDup (map sh_name shots) -> parse crs0 = Some d0 -> options kwargs true ->
  shot_of shots name s -> camera_of cams s c -> usable c ->
  exists ints exts i, read_int_doc int_doc = Ok ints /\ read_ext_doc D parse ext_doc = Ok (d0, exts) /\
  let st := scene_run before (scene_init C O ints exts kwargs) in
  snd (scene_get name st) = Ok i /\
  forall later, kept shots s i later -> keeps_distortion (before ++ later) ->
  let st' := scene_run later (fst (scene_get name st)) in
  let ask k := snd (scene_use i k st') in
  exists m, nth_error (sc_heap C O st') i = Some m /\
  (forall src dem crs band o, new_ortho m src dem crs band = Ok o ->
   exists demf w, dem = Ok demf /\ 1 <= band <= df_count C demf /\ world_crs from_string crs (do s <- src; Ok (sf_crs C s)) w /\
   built C (height_in C warp) transform_bounds rpc_crs (cam_centre ask (in_w c) (in_h c)) (cam_outline ask) w demf band (in_w c) (in_h c) o) /\
  (forall src demf crs w band, world_crs from_string crs (do s <- src; Ok (sf_crs C s)) w ->
   inside C (height_in C warp) rpc_crs (cam_centre ask (in_w c) (in_h c)) (cam_outline ask) w demf band ->
   exists o, new_ortho m src (Ok demf) crs band = Ok o /\ has_all C demf band o) /\
  (forall o sf a, processes C reproject to_pixels fill_poly bounds_in (cam_surface ask) o sf a ->
   exists h w p, 0 < h /\ 0 < w /\ forall u, exists d r warn, process_with m o (Ok sf) a u = Ok (d, r, warn) /\ d_height d = h /\ d_width d = w /\ d_profile d = p /\
     (runs u d -> small_tiles C u d -> r = Ok tt)) /\
  (forall o src a u d warn, process_with m o src a u = Ok (d, Ok tt, warn) -> runs u d ->
   exists sf, src = Ok sf /\
   rectified cv_image convert C reproject to_pixels fill_poly (cam_surface ask)
     (fun X q => images c (sh_pos s) (sh_omega s) (sh_phi s) (sh_kappa s) X q \/ beside (sh_pos s) (sh_omega s) (sh_phi s) (sh_kappa s) X /\ q = (Nan, Nan)) o sf a d).
Proof. exact (documents_ortho cv_surf cast_nan cv_image convert cv_project cv_undistort fish_undistort cv_projects cv_undistorts C crs_eqb from_string rpc_crs O no_options warp rpc_xy transform_bounds
  bounds_in reproject to_pixels fill_poly crs_same cv_border). Qed.
End Documents.

(** GDAL transforms coordinates one by one, and not between a CRS and itself. *)
Variable warp1 : C -> C -> vec -> vec.
Hypothesis warp_pointwise : forall a b l, warp a b l = map (warp1 a b) l.
Hypothesis warp_same : forall a v, warp1 a a v = v.

(** C100: the same for an image of an RPC parameter file, that sees points by its RPC model. *)
Theorem C100_documents : forall doc l crs crs' options name e before, rpcs_in doc l -> rpc_for l name e -> Rpc_Spec.valid_rpc (ir_rpc e) ->
  asks_crs from_string (match crs with Some c => c | None => CrsNone C end) crs' -> (forall c, crs' = Some c -> keeps_heights (warp1 rpc_crs c) (ir_rpc e)) ->
  exists params c, read_rpc_doc doc = Ok params /\
  snd (rscene_get name (rscene_run before (rscene_init C O params crs options))) = Ok (MadeRpc c) /\
  (forall src dem wcrs band o, new_ortho (MadeRpc c) src dem wcrs band = Ok o ->
   exists demf w, dem = Ok demf /\ 1 <= band <= df_count C demf /\ world_crs from_string wcrs (do s <- src; Ok (sf_crs C s)) w /\
   built C (height_in C warp) transform_bounds rpc_crs (rpc_centre (p2w c) (ir_w e) (ir_h e)) (rpc_outline (boundary c)) w demf band (ir_w e) (ir_h e) o) /\
  (forall src demf wcrs w band, world_crs from_string wcrs (do s <- src; Ok (sf_crs C s)) w ->
   inside C (height_in C warp) rpc_crs (rpc_centre (p2w c) (ir_w e) (ir_h e)) (rpc_outline (boundary c)) w demf band ->
   exists o, new_ortho (MadeRpc c) src (Ok demf) wcrs band = Ok o /\ has_all C demf band o) /\
  (forall o sf a, processes C reproject to_pixels fill_poly bounds_in (rpc_surface (boundary c)) o sf a ->
   exists h w p, 0 < h /\ 0 < w /\ forall u, exists d r warn, process_with (MadeRpc c) o (Ok sf) a u = Ok (d, r, warn) /\ d_height d = h /\ d_width d = w /\ d_profile d = p /\
     (runs u d -> small_tiles C u d -> r = Ok tt)) /\
  (forall o src a u d warn, process_with (MadeRpc c) o src a u = Ok (d, Ok tt, warn) -> runs u d ->
   exists sf, src = Ok sf /\
   rectified cv_image convert C reproject to_pixels fill_poly (rpc_surface (boundary c))
     (fun X q => rpc_pixel (ir_rpc e) (match crs' with Some w => warp1 w rpc_crs X | None => X end) q) o sf a d).
Proof. exact (rpc_documents_ortho cv_surf cast_nan cv_image convert cv_project cv_undistort fish_undistort C crs_eqb from_string rpc_crs O no_options warp rpc_xy transform_bounds
  bounds_in reproject to_pixels fill_poly crs_same cv_border warp1 warp_pointwise warp_same). Qed.

(** C100: an RPC camera has no ortho object without the DEM band, or with a DEM beside the image. *)
Theorem C100_refused : forall c src demf crs w band, Rpc_Spec.valid_rpc (rc_rpc _ _ c) -> world_crs from_string crs (do s <- src; Ok (sf_crs C s)) w ->
  (~ 1 <= band <= df_count C demf -> new_ortho (MadeRpc c) src (Ok demf) crs band = Err OrthorityError) /\
  (misses C (height_in C warp) rpc_crs (rpc_centre (p2w c) (rc_w _ _ c) (rc_h _ _ c)) (rpc_outline (boundary c)) w demf band ->
   new_ortho (MadeRpc c) src (Ok demf) crs band = Err OrthorityError).
Proof. exact (rpc_refused cv_surf cast_nan cv_image convert C crs_eqb from_string rpc_crs O warp rpc_xy transform_bounds crs_same warp1 warp_pointwise warp_same). Qed.

(** C100: there is no camera for an image that is not in the file, under its name or its name without extension. *)
Theorem C100_unknown : forall doc l crs options name st before, rpcs_in doc l -> Factory_Spec.without_extension name st ->
  (forall e, ~ rpc_named l name e) -> (forall e, ~ rpc_named l st e) ->
  exists params, read_rpc_doc doc = Ok params /\ let f := rscene_run before (rscene_init C O params crs options) in rscene_get name f = (f, Err ParamError).
Proof. exact (Rscene_Proof.rpc_unknown cv_project cv_undistort fish_undistort C from_string rpc_crs O no_options warp). Qed.
End Props.

Print Assumptions C99_refused.
Print Assumptions C99_documents.
Print Assumptions C100_documents.
Print Assumptions C100_refused.
Print Assumptions C100_unknown.

(** * Case *)

(** Nearest neighbour interpolation of images and surfaces, in place of OpenCV's. *)
Definition demo_cv {A} (b : arr A) (q : fl * fl) : option A :=
  match q with
  | (Num j, Num k) => if Rlt_dec (-1) j then if Rlt_dec (-1) k then if Rlt_dec j (IZR (aw b)) then if Rlt_dec k (IZR (ah b)) then Some (aget b (Rfloor (k + / 2)) (Rfloor (j + / 2)))
                      else None else None else None else None
  | _ => None
  end.
Definition demo_surf (_ : string) (b : arr fl) (q : fl * fl) : option fl := demo_cv b q.
Definition demo_image (_ : string) (b : arr pix) (q : fl * fl) : option pix := demo_cv b q.

Lemma demo_border : forall i b j k, (j <= -1 \/ k <= -1 \/ IZR (aw b) <= j \/ IZR (ah b) <= k)%R -> demo_image i b (Num j, Num k) = None.
Proof. intros i b j k H. unfold demo_image, demo_cv. repeat (destruct (Rlt_dec _ _); [|reflexivity]). exfalso. lra. Qed.

(** A DEM of 2 x 2 pixels under the image "a" of C96, and an image of one band. *)
Definition demo_heights : arr fl := Arr 2 2 (fun r c => if Z.eqb r 0 then if Z.eqb c 0 then Num 50 else Num 52 else if Z.eqb c 0 then Nan else Num 51).
Definition demo_dem : demfile unit := DemFile unit 1 tt (Aff 10 0 30 0 (-10) 0) (fun _ => demo_heights).
Definition demo_src : srcfile unit := SrcFile unit (ImFile 3 4 [("uint8", fun r c => PVal (inject_Z (10 * r + c)))]) (Some tt) ["gray"].
Definition demo_args : args := Args (Some (10, 10)%R) "nearest" "nearest" false None None None None "gtiff".

Definition demo_get := scene_get demo_surf (fun _ => Nan) demo_image (fun _ _ v => v) demo_project (fun _ _ p => p) (fun _ _ p => p) unit (fun _ => Ok tt) tt unit tt (fun _ _ l => l).
Definition demo_new := new_ortho demo_surf (fun _ => Nan) demo_image (fun _ _ v => v) unit (fun _ _ => true) (fun _ => Ok tt) tt unit (fun _ _ l => l) (fun _ _ _ => []) (fun _ _ b => b).
Definition demo_process := process_with demo_surf (fun _ => Nan) demo_image (fun _ _ v => v) unit (fun _ _ => true) tt unit (fun _ _ l => l) (fun _ _ _ => []) (fun _ _ _ _ => (0, 0, 0, 0)%R)
  (fun _ _ _ _ a t => (a, t)) (fun _ _ => []) (fun hw _ => Arr (fst hw) (snd hw) (fun _ _ => true)).

(** The camera of the image. *)
Definition demo_ints := match read_int_doc demo_int_doc with Ok i => i | Err _ => [] end.
Definition demo_exts := match read_ext_doc unit (fun _ => Some tt) demo_ext_doc with Ok (_, e) => e | Err _ => [] end.
Definition demo_heap := demo_get "a.jpg" (scene_init unit unit demo_ints demo_exts []).
Definition no_cam : fcam := FCam true (Frame_Model.pinhole (Intr 0 0 0 0)) 0 0 (Undist_Model.Cam 0%R (Intr 0 0 0 0) None true None).
Definition the_cam := match nth_error (sc_heap unit unit (fst demo_heap)) 0 with Some (MadeFrame c) => c | _ => no_cam end.
Definition flip : mat := M3 (V3 1 0 0) (V3 0 (-1) 0) (V3 0 0 (-1)).

Local Opaque Rplus Rmult Ropp Rinv IZR Q2R cos sin Rmax Rmin Rminus Rdiv.
Lemma cam_size : fc_w the_cam = 4 /\ fc_h the_cam = 3 /\ s_distort (fc_st the_cam) = true.
Proof. vm_compute. auto. Qed.
Lemma cam_inv : forall p, l_inv (fc_lens the_cam) p = p.
Proof. intros p. lazy -[IZR Q2R Rplus Rmult Ropp Rinv Rdiv Rminus]. destruct p. reflexivity. Qed.
Lemma cam_ext : s_ext (fc_st the_cam) = Some (flip, V3 10 20 100).
Proof.
  assert (X : match s_ext (fc_st the_cam) with Some (M3 (V3 a b c) (V3 d e f) (V3 g h i), V3 x y z) => (a = 1 /\ b = 0 /\ c = 0 /\ d = 0 /\ e = -1 /\ f = 0 /\ g = 0 /\ h = 0 /\ i = -1 /\ x = 10 /\ y = 20 /\ z = 100)%R
                                          | None => False end).
  { lazy -[IZR Q2R Rplus Rmult Ropp Rinv Rdiv Rminus]. rewrite cos_0, sin_0. repeat split; ring. }
  destruct (s_ext (fc_st the_cam)) as [[[[a b c] [d e f] [g h i]] [x y z]]|]; [|contradiction]. destruct X as (-> & -> & -> & -> & -> & -> & -> & -> & -> & -> & -> & ->). reflexivity.
Qed.
Lemma cam_made : snd demo_heap = Ok 0%nat.
Proof. vm_compute. reflexivity. Qed.
Local Transparent Rplus Rmult Ropp Rinv IZR Q2R cos sin Rmax Rmin Rminus Rdiv.
Lemma cam_found : forall m, nth_error (sc_heap unit unit (fst demo_heap)) 0 = Some m -> m = MadeFrame the_cam.
Proof.
  intros m Hm. assert (F : the_cam = match m with MadeFrame c => c | _ => no_cam end) by (unfold the_cam; rewrite Hm; destruct m; reflexivity).
  destruct m as [c|c]; [rewrite F; reflexivity|]. exfalso. destruct cam_size as (E & _). rewrite F in E. discriminate E.
Qed.
Local Opaque the_cam.

Definition cam_ask (k : call) := snd (do_call demo_surf (fun _ => Nan) demo_image (fun _ _ v => v) the_cam k).
Definition cam_point (z : R) (p : R * R) : vec := V3 (10 + fst p * (100 - z)) (20 - snd p * (100 - z)) z.

Lemma cam_frame : exists f, test_init the_cam = Ok f /\ fr_distort f = true /\ fr_T f = V3 10 20 100 /\ (forall p z, pixel_to_world_z f p z = Some (cam_point z p)) /\ horizon_fov f 4 3 = false.
Proof.
  destruct cam_size as (_ & _ & Es). unfold test_init. rewrite cam_ext. eexists. split; [reflexivity|]. split; [exact Es|]. split; [reflexivity|]. split.
  - intros p z. unfold pixel_to_world_z, ray, active_lens. cbn [fr_distort fr_lens fr_R fr_T]. rewrite Es, cam_inv. unfold mvec, flip, vadd, vscale, cam_point, dot. cbn [vx vy vz row0 row1 row2].
    destruct (Req_EM_T _ 0) as [E|_]; [exfalso; lra|]. f_equal. f_equal; field; lra.
  - apply Bool.not_true_iff_false. intros E. apply existsb_exists in E. destruct E as (p & _ & E). cbn [fr_lens fr_R] in E. rewrite cam_inv in E. unfold mvec, flip, dot in E. cbn [vx vy vz row0 row1 row2] in E.
    destruct (Rle_dec _ _) as [H|]; [lra|discriminate].
Qed.

Lemma cam_centred : cam_centre cam_ask 4 3 (cam_point 0 (2, 3 / 2)%R).
Proof.
  destruct cam_frame as (f & Ef & _ & _ & P & _). unfold cam_centre, cam_ask. cbn [Cam_Model.do_call snd]. unfold pixel_to_world_call. rewrite Ef. cbn [bind].
  replace (validate_pixel_coords _) with (Ok tt : res unit) by reflexivity. cbn [bind one_pixel nd_data frame_p2w_array validate_z negb map rmap]. unfold p2w_fl.
  rewrite P. do 4 f_equal. unfold cam_point. cbn [fst snd]. f_equal; lra.
Qed.

Lemma cam_outlined : forall z, cam_outline cam_ask z (map (cam_point (Rmin z 100)) (boundary8 4 3)).
Proof.
  intros z. destruct cam_frame as (f & Ef & Ed & Et & P & Hf). destruct cam_size as (Ew & Eh & _). unfold cam_outline, cam_ask. cbn [Cam_Model.do_call snd]. unfold world_boundary_call. rewrite Ef. cbn [bind].
  unfold frame_world_boundary. rewrite Ew, Eh, Hf. unfold frame_pixel_boundary. cbn [pixel_boundary bind]. rewrite Ed, Et. cbn [vz rmap]. f_equal. f_equal. rewrite map_map. apply map_ext. intros p. apply P.
Qed.

Lemma cam_surrounds : forall z, (z <= 60)%R -> surrounds unit demo_dem 1 (map (cam_point (Rmin z 100)) (boundary8 4 3)).
Proof.
  intros z Hz. rewrite Rmin_left by lra.
  assert (A : In (cam_point z (0, 0)%R) (map (cam_point z) (boundary8 4 3))) by (apply in_map; unfold boundary8; cbn [In]; tauto).
  assert (B : In (cam_point z (3, 2)%R) (map (cam_point z) (boundary8 4 3))).
  { apply in_map. destruct (Bound_Proof.boundary_default 4 3 ltac:(lia) ltac:(lia)) as (pts & E & _ & _ & _ & I & _). injection E as <-. apply I. unfold corners.
    replace (3, 2)%R with (IZR 4 - 1, IZR 3 - 1)%R by (f_equal; lra). cbn [In]. tauto. }
  unfold surrounds, demo_dem, cam_point in *. cbn [df_t df_band demo_heights ah aw ta tb tc td te tf fst snd] in *.
  split; [eexists; split; [exact A|cbn [vx vy fst snd]; lra]|]. split; [eexists; split; [exact B|cbn [vx vy fst snd]; lra]|]. split; [eexists; split; [exact A|cbn [vx vy fst snd]; lra]|eexists; split; [exact B|cbn [vx vy fst snd]; lra]].
Qed.

Lemma cam_inside : inside unit (height_in unit (fun _ _ l => l)) tt (cam_centre cam_ask 4 3) (cam_outline cam_ask) tt demo_dem 1.
Proof.
  unfold inside. split; [reflexivity|]. split; [cbn; lia|]. split; [unfold north_up, no_rotation; cbn; lra|].
  split; [exists 0, 0, 50%R; split; [unfold in_im; cbn; lia|reflexivity]|].
  split; [exists (cam_point 0 (2, 3 / 2)%R), (map (cam_point (Rmin (-106.71 * 1) 100)) (boundary8 4 3)), 1%R; split; [exact cam_centred|split; [unfold height_in; cbn; lra|split; [apply cam_outlined|apply cam_surrounds; lra]]]|].
  split; [|intros z; eexists; apply cam_outlined].
  intros r c z Hin Hz. assert (L : (z <= 60)%R) by (clear - Hz; cbn [demo_dem df_band demo_heights aget] in Hz; destruct (r =? 0), (c =? 0); try discriminate; injection Hz as <-; lra). exists (map (cam_point (Rmin (world_height unit (height_in unit (fun _ _ l => l)) tt demo_dem r c z) 100)) (boundary8 4 3)). split; [apply cam_outlined|].
  apply cam_surrounds. unfold world_height, height_in. destruct (aff_apply _ _ _). cbn [vz]. exact L.
Qed.

Lemma same_affine : forall t t', same_position t t' 0 0 -> t = t'.
Proof.
  intros [a b c d e f] [a' b' c' d' e' f'] H. pose proof (H 0 0)%R as H0. pose proof (H 1 0)%R as H1. pose proof (H 0 1)%R as H2. unfold aff_apply in *. cbn [ta tb tc td te tf] in *.
  injection H0 as A1 A2. injection H1 as B1 B2. injection H2 as C1 C2. f_equal; lra.
Qed.

Lemma cam_surfaced : forall o, has_all unit demo_dem 1 o -> exists poly, cam_surface cam_ask (or_dem o) (or_dem_t o) "nearest" poly.
Proof.
  intros o (Hh & Hw & Hv & Ht). apply same_affine in Ht. rewrite Ht. cbn [demo_dem df_t df_band] in *. cbn [demo_heights ah aw] in Hh, Hw.
  destruct cam_size as (Ew & Eh & Ed). destruct cam_frame as (f & Ef & Fd & FT & P & _).
  destruct (Bound_Proof.boundary_points 4 3 400 ltac:(lia) ltac:(lia) ltac:(lia) ltac:(lia)) as (ji & Ej & Hj & _).
  assert (Pj : pixel_boundary_call the_cam (Some 400) = Ok ji).
  { unfold pixel_boundary_call, frame_pixel_boundary. rewrite Ew, Eh, Ej. cbn [bind fr_distort]. rewrite Ed. reflexivity. }
  assert (V : forall u, valued (or_dem o) u -> (50 <= u <= 52)%R).
  { intros u (r & c & Hr & Hc & E). rewrite Hh in Hr. rewrite Hw in Hc. rewrite Hv in E by (split; assumption). clear - E. cbn in E. destruct (r =? 0), (c =? 0); try discriminate; injection E as <-; lra. }
  assert (X : forall r c u, in_im 2 2 r c -> aget demo_heights r c = Num u -> valued (or_dem o) u).
  { intros r c u (Hr & Hc) E. exists r, c. rewrite Hh, Hw. split; [exact Hr|]. split; [exact Hc|]. rewrite Hv by (split; assumption). exact E. }
  assert (SO : surface_ok the_cam flip (V3 10 20 100) "float32" (or_dem o) (Some 400) (Aff 10 0 30 0 (-10) 0) ji 50 52).
  { split; [exact cam_ext|]. split.
    { intros (p & _ & H). rewrite cam_inv in H. unfold mvec, flip, dot in H. cbn [vx vy vz row0 row1 row2] in H. lra. }
    split; [exact Pj|]. split; [split; [apply (X 0 0); [unfold in_im; lia|reflexivity]|intros u Hu; apply V, Hu]|]. split; [split; [apply (X 0 1); [unfold in_im; lia|reflexivity]|intros u Hu; apply V, Hu]|].
    cbn [vz ta tb tc td te tf]. split; [lra|]. split; [unfold cv_dtype; cbn; tauto|]. unfold Cam_Spec.cv_size. rewrite Hh, Hw. repeat split; try lia; lra. }
  assert (OR : forall p, on_ray the_cam p (fun z => cam_point z p)).
  { intros p z. unfold pixel_to_world_call. rewrite Ef. cbn [bind]. replace (validate_pixel_coords _) with (Ok tt : res unit) by reflexivity. cbn [bind nd_data frame_p2w_array validate_z negb map]. unfold p2w_fl.
    rewrite P. destruct p. reflexivity. }
  assert (RU : forall p rr, on_ray the_cam p rr -> forall z, rr z = cam_point z p) by (intros p rr H z; specialize (H z); specialize (OR p z); congruence).
  destruct (Cam_Proof.boundary_surface_ok demo_surf (fun _ => Nan) demo_image (fun _ _ v => v) the_cam flip (V3 10 20 100) "float32" (or_dem o) (Some 400) (Aff 10 0 30 0 (-10) 0) ji 50 52 "nearest" true SO) as (B & _).
  { intros p _. eexists. apply OR. }
  destruct B as (pts & E).
  { intros p rr Hp Hr. rewrite !(RU p rr Hr). cbn [vz]. rewrite Rmin_left by lra. unfold span, cam_point. cbn [vx vy ta te]. rewrite Forall_forall in Hj. destruct (Hj p Hp) as ((J1 & J2) & _).
    apply Rmax_lub; apply Rabs_le; split; lra. }
  assert (M : exists l, pts = map Some l).
  { cbn [Cam_Model.do_call snd] in E. apply rmap_points in E. destruct (view_of demo_surf (fun _ => Nan) demo_image (fun _ _ v => v) unit tt unit (fun _ _ l => l) (fun _ _ _ => []) (MadeFrame the_cam)) as [v|] eqn:Ev.
    2:{ cbn [view_of] in Ev. unfold frame_view in Ev. rewrite Ef in Ev. discriminate. }
    destruct (frame_plain demo_surf (fun _ => Nan) demo_image (fun _ _ v => v) unit tt unit (fun _ _ l => l) (fun _ _ _ => []) the_cam v Ed Ev) as ((_ & _ & _ & Q & _) & _).
    cbn [view_of] in Ev. unfold frame_view in Ev. rewrite Ef in Ev. cbn [bind] in Ev. injection Ev as <-. exact (Q _ _ _ _ _ E). }
  destruct M as (l & ->). exists l. exact E.
Qed.

Lemma cam_processed : forall o, has_all unit demo_dem 1 o ->
  processes unit (fun _ _ _ _ a t => (a, t)) (fun _ _ => []) (fun hw _ => Arr (fst hw) (snd hw) (fun _ _ => true)) (fun _ _ _ _ => (0, 0, 0, 0)%R) (cam_surface cam_ask) o demo_src demo_args.
Proof.
  intros o A. destruct (cam_surfaced o A) as (poly & Hp). destruct A as (Hh & Hw & Hv & Ht). apply same_affine in Ht. cbn [demo_dem df_t df_band] in *. cbn [demo_heights ah aw] in Hh, Hw.
  assert (Hc : or_dem_crs o = or_crs o) by (destruct (or_dem_crs o), (or_crs o); reflexivity).
  assert (Hs : has_size (or_dem_t o) 10 10) by (rewrite Ht; unfold has_size; cbn [ta te]; split; [apply Rabs_pos_eq; lra|rewrite Rabs_left; lra]).
  split; [exists 10%R, 10%R; split; [split; reflexivity|left; auto]|].
  split; [exists Nearest, (or_dem o), (or_dem_t o), poly, 0, 0; split; [apply (S_own _ _ _ Nearest 10%R 10%R); [constructor|split; reflexivity|exact Hc|exact Hs]|]; split; [exact Hp|]|].
  { split; [unfold in_im; rewrite Hh, Hw; lia|]. split; [reflexivity|]. rewrite Hv by (unfold in_im; cbn; lia). discriminate. }
  split; [exists "uint8"; split; [do 2 eexists; reflexivity|split; [left; reflexivity|right; exact I]]|]. split; [discriminate|]. cbn. split; [lia|]. split; [lia|]. split; [left; reflexivity|]. exists Nearest. constructor.
Qed.

(** From the files of C96, image "a.jpg" is rectified on the DEM: the camera sees the centre of the DEM pixel at (35, -5), which has a height of 50, at pixel (17/8, 13/8), to which (2, 2) is
    the nearest. *)
Example C99_case : exists ints exts i m o d u warn, read_int_doc demo_int_doc = Ok ints /\ read_ext_doc unit (fun _ => Some tt) demo_ext_doc = Ok (tt, exts) /\
  snd (demo_get "a.jpg" (scene_init unit unit ints exts [])) = Ok i /\ nth_error (sc_heap unit unit (fst (demo_get "a.jpg" (scene_init unit unit ints exts [])))) i = Some m /\
  demo_new m (Ok demo_src) (Ok demo_dem) PNone 1 = Ok o /\ demo_process m o (Ok demo_src) demo_args u = Ok (d, Ok tt, warn) /\
  exists r c, in_im (d_height d) (d_width d) r c /\ pixel_centre (d_transform d) r c = (35, -5)%R /\ bands (d_raster d) 1 r c = PVal 22.
Proof.
  assert (W : Factory_Spec.without_extension "a.jpg" "a") by (apply (Factory_Spec.extension "a" "jpg"); [discriminate|discriminate|cbn; intuition discriminate]).
  destruct (C99_documents demo_surf (fun _ => Nan) demo_image (fun _ _ v => v) demo_project (fun _ _ p => p) (fun _ _ p => p) unit (fun _ _ => true) (fun _ => Ok tt) tt unit tt (fun _ _ l => l) (fun _ _ _ => [])
    (fun _ _ b => b) (fun _ _ _ _ => (0, 0, 0, 0)%R) (fun _ _ _ _ a t => (a, t)) (fun _ _ => []) (fun hw _ => Arr (fst hw) (snd hw) (fun _ _ => true))) with
    (D := unit) (parse := fun _ : string => Some tt) (int_doc := demo_int_doc) (ext_doc := demo_ext_doc) (crs0 := "EPSG:32635") (d0 := tt) (cams := [("pt", demo_interior)]) (shots := demo_shots)
    (kwargs := @nil (string * mval)) (name := "a.jpg") (s := Shot "a" (Some "pt") (V3 10 20 100) 0 0 0) (c := demo_interior) (before := @nil act) as (ints & exts & i & E1 & E2 & E3 & H).
  - intros [] []. split; auto.
  - exact demo_border.
  - intros K d xy b _. apply demo_projects.
  - reflexivity.
  - exact demo_cameras_in.
  - exact demo_shots_in.
  - cbn. repeat constructor; cbn; intuition discriminate.
  - reflexivity.
  - split; [intros k []|]. split; [reflexivity|]. exists 1%R. reflexivity.
  - apply (same_stem _ _ _ "a"); [|exact W|split; [left; reflexivity|reflexivity]]. intros s [[<-|[<-|[]]] E]; discriminate E.
  - apply (has_one _ _ _ "pt"); [reflexivity|discriminate|left; reflexivity].
  - exact demo_usable.
  - destruct (H []) as (m & Hm & H1 & H2 & H3 & H4).
    { split; [intros n s' []|intros xyz opk []]. }
    { intros j []. }
    assert (Xi : ints = demo_ints) by (unfold demo_ints; rewrite E1; reflexivity). assert (Xe : exts = demo_exts) by (unfold demo_exts; rewrite E2; reflexivity).
    clear H. set (heap := fst (demo_get "a.jpg" (scene_init unit unit ints exts []))). cbv zeta in *. unfold scene_run at 1 in E3.
    change (snd (demo_get "a.jpg" (scene_init unit unit ints exts [])) = Ok i) in E3. change (nth_error (sc_heap unit unit heap) i = Some m) in Hm.
    assert (Hh : heap = fst demo_heap) by (unfold heap, demo_heap; rewrite Xi, Xe; reflexivity).
    assert (Hi : i = 0%nat). { pose proof cam_made as E. unfold demo_heap in E. rewrite <- Xi, <- Xe in E. rewrite E3 in E. injection E as E. exact E. }
    assert (Mc : m = MadeFrame the_cam) by (apply cam_found; rewrite <- Hh, <- Hi; exact Hm).
    assert (A : forall k, snd (scene_use demo_surf (fun _ => Nan) demo_image (fun _ _ v => v) unit unit i k heap) = cam_ask k).
    { intros k. unfold scene_use, cam_ask. rewrite Hm, Mc. destruct (do_call _ _ _ _ the_cam k). reflexivity. }
    destruct (H2 (Ok demo_src) demo_dem PNone tt 1) as (o & Eo & Ho).
    { constructor. left. reflexivity. }
    { generalize cam_inside. apply inside_mono; [intros p Q; unfold cam_centre in *; rewrite <- Q; apply A|intros z l Q; unfold cam_outline in *; rewrite <- Q; apply A]. }
    destruct (H3 o demo_src demo_args) as (h & w & p & Ph & Pw & F).
    { generalize (cam_processed o Ho). apply processes_mono. intros hs t j l Q. unfold cam_surface in *. rewrite <- Q. apply A. }
    set (u := Run (fun _ => (1, 1)) (fun _ _ => false) (fun _ => block_windows h w (1, 1)) (Ras (fun _ _ _ => PNan) (fun _ _ => false))).
    destruct (F u) as (d & r & warn & Ed & Dh & Dw & _ & Dr).
    assert (Ru : runs u d). { unfold runs, u. cbn [u_block u_order fst snd]. rewrite Dh, Dw. split; [lia|]. split; [lia|]. intros _. apply Permutation_refl. }
    assert (Rt : r = Ok tt). { apply Dr; [exact Ru|]. unfold small_tiles, u. cbn. repeat split; lia. }
    subst r. destruct (H4 o (Ok demo_src) demo_args u d warn Ed Ru) as (sf & Es & di & hs & t & poly & r0 & c0 & dt & nodata & Q1 & Q2 & Q3 & _ & Q4 & _ & Q5 & _ & Q6 & Q7 & _ & _ & Q8 & Q9).
    injection Es as <-. exists ints, exts, i, m, o, d, u, warn. split; [exact E1|]. split; [exact E2|]. split; [exact E3|]. split; [exact Hm|]. split; [exact Eo|]. split; [exact Ed|].
    destruct Ho as (Oh & Ow & Ov & Ot). apply same_affine in Ot. cbn [demo_dem df_t df_band] in Oh, Ow, Ov, Ot. cbn [demo_heights ah aw] in Oh, Ow.
    assert (Own : hs = or_dem o /\ t = or_dem_t o).
    { destruct Q2 as [i0 rx ry _ Z1 Z2 Z3|i0 rx ry s0 t0 _ (Z1 & Z2) Z3 Z4]; [auto|]. injection Z4 as <- <-. auto. }
    destruct Own as (-> & ->). rewrite Ot in Q7.
    assert (Wt : wanted (or_dem o) (Arr (ah (or_dem o)) (aw (or_dem o)) (fun _ _ => true)) 0 0).
    { split; [unfold in_im; rewrite Oh, Ow; lia|]. split; [reflexivity|]. rewrite Ov by (unfold in_im; cbn; lia). discriminate. }
    specialize (Q8 0 0 Wt). exists (0 - r0), (0 - c0). split; [exact Q8|].
    assert (Pc : pixel_centre (d_transform d) (0 - r0) (0 - c0) = (35, -5)%R).
    { pose proof (Q7 (IZR (0 - c0) + / 2) (IZR (0 - r0) + / 2))%R as Z. unfold aff_apply in Z. cbn [ta tb tc td te tf] in Z. unfold pixel_centre. rewrite Z, !minus_IZR. f_equal; field. }
    split; [exact Pc|]. specialize (Q9 1 (0 - r0) (0 - c0)). rewrite Pc in Q9. replace (r0 + (0 - r0)) with 0 in Q9 by lia. replace (c0 + (0 - c0)) with 0 in Q9 by lia.
    destruct Q9 as (_ & Q9); [rewrite Q4; cbn; lia|exact Q8|]. destruct (Q9 Wt) as (band & z & (d1 & px & B1 & B2) & B3 & B4). rewrite Ov in B3 by (unfold in_im; cbn; lia). cbn in B3. injection B3 as <-.
    cbn in B1. injection B1 as <- <-. specialize (B4 (Num (17 / 8), Num (13 / 8))%R). cbn [shown] in B4. rewrite B4.
    + rewrite B2. unfold demo_image, demo_cv. cbn [demo_src sf_im if_h if_w ah aw aget].
      repeat (destruct (Rlt_dec _ _); [|exfalso; lra]). rewrite (Bound_Proof.Rfloor_eq (13 / 8 + / 2) 2) by lra. rewrite (Bound_Proof.Rfloor_eq (17 / 8 + / 2) 2) by lra. reflexivity.
    + left. exists (Intr 1 1 (3 / 2) 1), (V3 25 25 50), (5 / 8, 5 / 8)%R. unfold pixel_intr, demo_interior. cbn [in_sensor in_w in_h in_fx in_fy in_cx in_cy kfx kfy kcx kcy sh_pos sh_omega sh_phi sh_kappa].
      split; [unfold Q2R; cbn; repeat split; lra|]. split.
      { unfold seen_at, turned, about_x, about_y, about_z, vadd. cbn. rewrite cos_0, sin_0. f_equal; ring. }
      cbn [vx vy vz]. split; [lra|]. split.
      * unfold distorts, opencv_distorts. cbn. unfold tilted. cbn [fst snd]. rewrite cos_0, sin_0. unfold Q2R. cbn. repeat split; try lra; field.
      * unfold to_pixel. cbn. f_equal; f_equal; lra.
Qed.

(** A DEM to the left of the image. *)
Definition far_dem : demfile unit := DemFile unit 1 tt (Aff 10 0 (-40) 0 (-10) 0) (fun _ => demo_heights).

Example C99_refused_case : demo_new (MadeFrame the_cam) (Ok demo_src) (Ok far_dem) PNone 1 = Err OrthorityError /\ demo_new (MadeFrame the_cam) (Ok demo_src) (Ok far_dem) PNone 2 = Err OrthorityError /\
  demo_new (MadeFrame no_cam) (Ok demo_src) (Ok demo_dem) PNone 1 = Err CameraInitError.
Proof.
  pose proof (fun c => C99_refused demo_surf (fun _ => Nan) demo_image (fun _ _ v => v) unit (fun _ _ => true) (fun _ => Ok tt) tt unit (fun _ _ l => l) (fun _ _ _ => [])
    (fun _ _ b => b) (fun _ _ _ _ => (0, 0, 0, 0)%R) (fun _ _ _ _ a t => (a, t)) (fun _ _ => []) (fun hw _ => Arr (fst hw) (snd hw) (fun _ _ => true)) ltac:(intros [] []; split; auto) c (Ok demo_src)) as R.
  assert (W : world_crs (fun _ => Ok tt) PNone (do s <- Ok demo_src; Ok (sf_crs unit s)) tt) by (constructor; left; reflexivity).
  split; [|split].
  - destruct (R the_cam (Ok far_dem) PNone tt 1) as (_ & R1 & _). destruct (R1 W far_dem eq_refl) as (_ & _ & R2). apply R2. clear R R1 R2.
    split; [reflexivity|]. split; [cbn; lia|]. split; [unfold north_up, no_rotation; cbn; lra|].
    exists (cam_point 0 (2, 3 / 2)%R), 1%R, (map (cam_point (Rmin (-106.71 * 1) 100)) (boundary8 4 3)), (map (cam_point (Rmin (8932.28 * 1) 100)) (boundary8 4 3)).
    destruct cam_size as (Ew & Eh & _). rewrite Ew, Eh. split; [exact cam_centred|]. split; [unfold height_in; cbn; lra|]. split; [apply cam_outlined|]. split; [apply cam_outlined|]. split; [discriminate|].
    right. left. cbn [far_dem df_t df_band demo_heights ah aw tc ta].
    assert (G : forall z p, (z <= 100)%R -> In p (map (cam_point z) (boundary8 4 3)) -> (10 <= vx p)%R).
    { intros z p Hz Hp. apply in_map_iff in Hp. destruct Hp as (q & <- & Hq). destruct (Bound_Proof.boundary_default 4 3 ltac:(lia) ltac:(lia)) as (pts & E & _ & _ & F & _). injection E as <-.
      rewrite Forall_forall in F. destruct (F q Hq) as ((J & _) & _). unfold cam_point. cbn [vx]. pose proof (Rmult_le_pos (fst q) (100 - z) ltac:(lra) ltac:(lra)). lra. }
    intros p Hp. apply in_app_iff in Hp. destruct Hp as [Hp|Hp]; (apply G in Hp; [lra|apply Rmin_r]).
  - destruct (R the_cam (Ok far_dem) PNone tt 2) as (_ & R1 & _). destruct (R1 W far_dem eq_refl) as (R2 & _). apply R2. cbn. lia.
  - destruct (R no_cam (Ok demo_dem) PNone tt 1) as (_ & R1 & _). destruct (R1 W demo_dem eq_refl) as (_ & R2 & _). apply R2; [cbn; lia|reflexivity].
Qed.

(** * Case of an RPC model *)
Definition rpc_file_items : list (pykey * pyval) :=
  [(KStr "err_bias", Validate_Model.PNone); (KStr "line_off", PInt 7); (KStr "samp_off", PInt 3); (KStr "lat_off", PFloat (-5 # 2)); (KStr "long_off", PFloat 24); (KStr "height_off", PFloat 100);
   (KStr "line_scale", PInt 10); (KStr "samp_scale", PInt 11); (KStr "lat_scale", PFloat (1 # 4)); (KStr "long_scale", PFloat 2); (KStr "height_scale", PFloat 500);
   (KStr "line_num_coeff", PList (map (fun n => PFloat (inject_Z n)) (demo_coeffs 2))); (KStr "line_den_coeff", PList (map (fun n => PFloat (inject_Z n)) (demo_coeffs 0)));
   (KStr "samp_num_coeff", PList (map (fun n => PFloat (inject_Z n)) (demo_coeffs 1))); (KStr "samp_den_coeff", PList (map (fun n => PFloat (inject_Z n)) (demo_coeffs 0)))].
Definition rpc_file : pyval := PDict [(KStr "a", PDict [(KStr "cam_type", PStr "rpc"); (KStr "im_size", PList [PInt 20; PInt 30]); (KStr "rpc", PDict rpc_file_items)])].
Definition rpc_image : image_rpc := ImageRpc "a" 20 30 demo_rpc.

Lemma rpc_file_in : rpcs_in rpc_file [rpc_image].
Proof.
  assert (A : forall k v l, kget (KStr k) l = Some v -> at_key (PDict l) k v) by (intros k v l E; exists l; auto).
  eexists. split; [reflexivity|]. split; [cbn; repeat constructor; cbn; tauto|]. constructor; [|constructor]. split; [reflexivity|]. split; [apply A; reflexivity|].
  exists rpc_file_items. split; [apply A; reflexivity|].
  assert (L : forall l, Forall2 is_real (map (fun n => PFloat (inject_Z n)) l) (map IZR l)).
  { induction l as [|n l IH]; cbn; constructor; [|assumption]. replace (IZR n) with (Q2R (inject_Z n)) by (unfold Q2R, inject_Z; cbn; field). constructor. }
  assert (F : forall n, is_real (PFloat (inject_Z n)) (IZR n)) by (intros n; replace (IZR n) with (Q2R (inject_Z n)) by (unfold Q2R, inject_Z; cbn; field); constructor).
  split; [|split].
  - unfold rpc_items. cbv zeta. split; [cbn; repeat constructor; cbn; intuition discriminate|].
    split; [intros k Hk; cbn in Hk; repeat (destruct Hk as [<-|Hk]; [eexists; split; [reflexivity|cbn; tauto]|]); contradiction|].
    split; [intros s v Hs E; cbn in Hs; repeat (destruct Hs as [<-|Hs]; [cbn in E; try discriminate; injection E as <-; auto|]); contradiction|].
    repeat split; try (eexists; split; [reflexivity|exact (real_int _) || exact (real_float _) || exact (F _)]); eexists; (split; [reflexivity|apply L]).
  - intros k v Hk E. cbn in Hk. repeat (destruct Hk as [<-|Hk]; [cbn in E; injection E as <-; eexists; reflexivity|]). contradiction.
  - intros k l Hk E. cbn in Hk. repeat (destruct Hk as [<-|Hk]; [cbn in E; injection E as <-; split; [reflexivity|repeat constructor; eexists; reflexivity]|]). contradiction.
Qed.

(** Positions of the pixels at all heights. *)
Definition rpc_place (_ : rpc) (_ : unit) (l : list ((R * R) * R)) : list (R * R) := map (fun q => (24 + fst (fst q) * 2 / 11, -2 - snd (fst q) / 40)%R) l.
Definition rpc_params := match read_rpc_doc rpc_file with Ok p => p | Err _ => [] end.
Definition rpc_got := snd (rscene_get demo_project (fun _ _ p => p) (fun _ _ p => p) unit (fun _ => Ok tt) tt unit tt (fun _ _ l => l) "a.tif" (rscene_init unit unit rpc_params None None)).
Definition no_rpc : rcam unit unit := RCam unit unit 0 0 demo_rpc tt None.
Definition the_rpc := match rpc_got with Ok (MadeRpc c) => c | _ => no_rpc end.

Lemma rpc_size : rc_w _ _ the_rpc = 20 /\ rc_h _ _ the_rpc = 30 /\ rc_crs _ _ the_rpc = None.
Proof. vm_compute. auto. Qed.
Lemma rpc_found : forall c, rpc_got = Ok (MadeRpc c) -> c = the_rpc.
Proof. intros c E. unfold the_rpc. rewrite E. reflexivity. Qed.
Local Opaque the_rpc.

Notation demo_p2w := (rpc_p2w_call unit tt unit (fun _ _ l => l) rpc_place).
Notation demo_boundary := (rpc_boundary_call unit tt unit (fun _ _ l => l) rpc_place demo_surf (fun _ => Nan)).
Definition rpc_point (z : R) (p : R * R) : vec := V3 (24 + fst p * 2 / 11) (-2 - snd p / 40) z.

Lemma rpc_placed : forall p z, demo_p2w the_rpc (Nd "float64" [2; 1] [num2 p]) (VScalar (Num z)) = Ok [(Num (vx (rpc_point z p)), Num (vy (rpc_point z p)), Num z)].
Proof. intros p z. unfold rpc_p2w_call. destruct rpc_size as (_ & _ & ->). reflexivity. Qed.

(** A DEM under the image. *)
Definition rpc_dem : demfile unit := DemFile unit 1 tt (Aff (1 / 2) 0 25 0 (-1 / 10) (-2.1)) (fun _ => demo_heights).
Definition rpc_src : srcfile unit := SrcFile unit (ImFile 30 20 [("uint8", fun r c => PVal (inject_Z (10 * r + c)))]) None ["gray"].
Definition rpc_args : args := Args (Some (1 / 2, 1 / 10)%R) "nearest" "nearest" false None None None None "cog".

Lemma rpc_outlined : forall z, rpc_outline (demo_boundary the_rpc) z (map (rpc_point z) (boundary8 20 30)).
Proof.
  intros z. unfold rpc_outline, rpc_boundary_call, world_boundary. destruct rpc_size as (-> & -> & _). cbn [pixel_boundary bind]. apply f_equal. rewrite map_map. apply map_ext. intros p. unfold ray_of. rewrite rpc_placed.
  reflexivity.
Qed.

Lemma rpc_surrounds : forall z, surrounds unit rpc_dem 1 (map (rpc_point z) (boundary8 20 30)).
Proof.
  intros z. destruct (Bound_Proof.boundary_default 20 30 ltac:(lia) ltac:(lia)) as (pts & E & _ & _ & _ & I & _). injection E as <-.
  assert (A : In (rpc_point z (0, 0)%R) (map (rpc_point z) (boundary8 20 30))) by (apply in_map, I; unfold corners; cbn [In]; tauto).
  assert (B : In (rpc_point z (19, 29)%R) (map (rpc_point z) (boundary8 20 30))).
  { apply in_map, I. unfold corners. replace (19, 29)%R with (IZR 20 - 1, IZR 30 - 1)%R by (f_equal; lra). cbn [In]. tauto. }
  unfold surrounds, rpc_dem. cbn [df_t df_band demo_heights ah aw ta tb tc td te tf].
  split; [eexists; split; [exact A|unfold rpc_point; cbn [vx vy fst snd]; lra]|]. split; [eexists; split; [exact B|unfold rpc_point; cbn [vx vy fst snd]; lra]|].
  split; [eexists; split; [exact A|unfold rpc_point; cbn [vx vy fst snd]; lra]|eexists; split; [exact B|unfold rpc_point; cbn [vx vy fst snd]; lra]].
Qed.

Lemma rpc_inside : inside unit (height_in unit (fun _ _ l => l)) tt (rpc_centre (demo_p2w the_rpc) 20 30) (rpc_outline (demo_boundary the_rpc)) tt rpc_dem 1.
Proof.
  unfold inside. split; [reflexivity|]. split; [cbn; lia|]. split; [unfold north_up, no_rotation; cbn; lra|].
  split; [exists 0, 0, 50%R; split; [unfold in_im; cbn; lia|reflexivity]|].
  split; [exists (rpc_point 0 (IZR 20 / 2, IZR 30 / 2)%R), (map (rpc_point (-106.71 * 1)) (boundary8 20 30)), 1%R; split; [exact (rpc_placed (IZR 20 / 2, IZR 30 / 2)%R 0)|split; [unfold height_in; cbn; lra|split; [apply rpc_outlined|apply rpc_surrounds]]]|].
  split; [|intros z; eexists; apply rpc_outlined].
  intros r c z _ _. eexists. split; [apply rpc_outlined|apply rpc_surrounds].
Qed.

Lemma rpc_surfaced : forall o, has_all unit rpc_dem 1 o -> exists poly, rpc_surface (demo_boundary the_rpc) (or_dem o) (or_dem_t o) "nearest" poly.
Proof.
  intros o (Hh & Hw & Hv & Ht). apply same_affine in Ht. rewrite Ht. cbn [rpc_dem df_t df_band] in *. cbn [demo_heights ah aw] in Hh, Hw.
  unfold rpc_surface, rpc_boundary_call, world_boundary. destruct rpc_size as (Ew & Eh & _). rewrite Ew, Eh.
  destruct (Bound_Proof.boundary_points 20 30 400 ltac:(lia) ltac:(lia) ltac:(lia) ltac:(lia)) as (ji & -> & _). cbn [bind]. rewrite Hh, Hw. cbn [negb one_of].
  change (negb (one_of "float32" valid_dtypes)) with false. change ((shrt_max <? 2) || (shrt_max <? 2)) with false. cbn match.
  assert (D : aff_det (Aff (1 / 2) 0 25 0 (-1 / 10) (-2.1)) <> 0%R) by (unfold aff_det; cbn [ta tb td te]; lra). destruct (Req_EM_T _ 0) as [E|_]; [contradiction|].
  assert (Z : exists lo hi, z_range (or_dem o) = Ok (lo, hi)).
  { unfold z_range. assert (In 50%R (numbers_of (or_dem o))) by (apply Cam_Proof.numbers_valued; exists 0, 0; rewrite Hh, Hw, Hv by (unfold in_im; cbn; lia); repeat split; try lia).
    destruct (numbers_of (or_dem o)); [contradiction|]. do 2 eexists. reflexivity. }
  destruct Z as (lo & hi & ->). cbn [bind]. unfold world_surf. change (negb (one_of "float32" valid_dtypes)) with false. rewrite Hh, Hw. change ((shrt_max <? 2) || (shrt_max <? 2)) with false. cbn match.
  destruct (Req_EM_T _ 0) as [E|_]; [contradiction|].
  match goal with |- context [mapM ?f ji] => destruct (Cam_Proof.mapM_all_Ok _ _ f ji) as (ys & ->) end; [|exists ys; reflexivity].
  intros p _. unfold ray_of, surf_pixel. cbn [ta te fst snd]. destruct (Req_EM_T (1 / 2) 0) as [E|_]; [lra|]. destruct (Req_EM_T (-1 / 10) 0) as [E|_]; [lra|]. cbn [orb].
  rewrite !rpc_placed. rewrite Hh, Hw. unfold ray_steps, vec_of. cbn [val vx vy ta te].
  assert (N : forall x y : R, ((x - x) / y = 0)%R) by (intros x y; rewrite Rminus_diag_eq by reflexivity; unfold Rdiv; ring). rewrite !N, Rabs_R0, Rmax_left by lra. rewrite (Bound_Proof.Rceil_eq 0 0) by lra.
  eexists. reflexivity.
Qed.

Lemma rpc_processed : forall o, has_all unit rpc_dem 1 o ->
  processes unit (fun _ _ _ _ a t => (a, t)) (fun _ _ => []) (fun hw _ => Arr (fst hw) (snd hw) (fun _ _ => true)) (fun _ _ _ _ => (0, 0, 0, 0)%R) (rpc_surface (demo_boundary the_rpc)) o rpc_src rpc_args.
Proof.
  intros o A. destruct (rpc_surfaced o A) as (poly & Hp). destruct A as (Hh & Hw & Hv & Ht). apply same_affine in Ht. cbn [rpc_dem df_t df_band] in *. cbn [demo_heights ah aw] in Hh, Hw.
  assert (Hc : or_dem_crs o = or_crs o) by (destruct (or_dem_crs o), (or_crs o); reflexivity).
  assert (Hs : has_size (or_dem_t o) (1 / 2) (1 / 10)) by (rewrite Ht; unfold has_size; cbn [ta te]; split; [apply Rabs_pos_eq; lra|rewrite Rabs_left; lra]).
  split; [exists (1 / 2)%R, (1 / 10)%R; split; [split; reflexivity|left; auto]|].
  split; [exists Nearest, (or_dem o), (or_dem_t o), poly, 0, 0; split; [apply (S_own _ _ _ Nearest (1 / 2)%R (1 / 10)%R); [constructor|split; reflexivity|exact Hc|exact Hs]|]; split; [exact Hp|]|].
  { split; [unfold in_im; rewrite Hh, Hw; lia|]. split; [reflexivity|]. rewrite Hv by (unfold in_im; cbn; lia). discriminate. }
  split; [exists "uint8"; split; [do 2 eexists; reflexivity|split; [left; reflexivity|right; exact I]]|]. split; [discriminate|]. cbn. split; [lia|]. split; [lia|]. split; [right; reflexivity|]. exists Nearest. constructor.
Qed.

(** From an RPC parameter file, image "a.tif" is rectified on the DEM: the RPC model has the centre of the DEM pixel at (25.25, -2.15) at pixel (79/8, 21), to which (10, 21) is the nearest. *)
Example C100_case : exists params c o d u warn, read_rpc_doc rpc_file = Ok params /\
  snd (rscene_get demo_project (fun _ _ p => p) (fun _ _ p => p) unit (fun _ => Ok tt) tt unit tt (fun _ _ l => l) "a.tif" (rscene_init unit unit params None None)) = Ok (MadeRpc c) /\
  new_ortho demo_surf (fun _ => Nan) demo_image (fun _ _ v => v) unit (fun _ _ => true) (fun _ => Ok tt) tt unit (fun _ _ l => l) rpc_place (fun _ _ b => b) (MadeRpc c) (Ok rpc_src) (Ok rpc_dem) (PText "EPSG:4979") 1 = Ok o /\
  process_with demo_surf (fun _ => Nan) demo_image (fun _ _ v => v) unit (fun _ _ => true) tt unit (fun _ _ l => l) rpc_place (fun _ _ _ _ => (0, 0, 0, 0)%R) (fun _ _ _ _ a t => (a, t)) (fun _ _ => [])
    (fun hw _ => Arr (fst hw) (snd hw) (fun _ _ => true)) (MadeRpc c) o (Ok rpc_src) rpc_args u = Ok (d, Ok tt, warn) /\
  exists r k, in_im (d_height d) (d_width d) r k /\ pixel_centre (d_transform d) r k = (25.25, -2.15)%R /\ bands (d_raster d) 1 r k = PVal 220.
Proof.
  assert (W : Factory_Spec.without_extension "a.tif" "a") by (apply (Factory_Spec.extension "a" "tif"); [discriminate|discriminate|cbn; intuition discriminate]).
  destruct (C100_documents demo_surf (fun _ => Nan) demo_image (fun _ _ v => v) demo_project (fun _ _ p => p) (fun _ _ p => p) unit (fun _ _ => true) (fun _ => Ok tt) tt unit tt (fun _ _ l => l) rpc_place
    (fun _ _ b => b) (fun _ _ _ _ => (0, 0, 0, 0)%R) (fun _ _ _ _ a t => (a, t)) (fun _ _ => []) (fun hw _ => Arr (fst hw) (snd hw) (fun _ _ => true)) ltac:(intros [] []; split; auto) demo_border
    (fun _ _ v => v) (fun _ _ l => eq_sym (map_id l)) (fun _ _ => eq_refl) rpc_file [rpc_image] None None None "a.tif" rpc_image []) as (params & c & E1 & E2 & _ & H2 & H3 & H4).
  - exact rpc_file_in.
  - apply (rpc_same_stem _ _ _ "a"); [|exact W|split; [left; reflexivity|reflexivity]]. intros e [[<-|[]] E]; discriminate E.
  - unfold Rpc_Spec.valid_rpc. cbn. unfold Q2R. cbn. repeat split; lra.
  - reflexivity.
  - discriminate.
  - assert (Xp : params = rpc_params) by (unfold rpc_params; rewrite E1; reflexivity). change (rscene_run _ _ _ _ _ _ _ _ _ [] ?x) with x in E2.
    assert (Xc : c = the_rpc) by (apply rpc_found; unfold rpc_got; rewrite <- Xp; exact E2).
    destruct (H2 (Ok rpc_src) rpc_dem (PText "EPSG:4979") tt 1) as (o & Eo & Ho).
    { constructor; [discriminate|reflexivity]. }
    { rewrite Xc. exact rpc_inside. }
    destruct (H3 o rpc_src rpc_args) as (h & w & p & Ph & Pw & F).
    { rewrite Xc. exact (rpc_processed o Ho). }
    set (u := Run (fun _ => (1, 1)) (fun _ _ => false) (fun _ => block_windows h w (1, 1)) (Ras (fun _ _ _ => PNan) (fun _ _ => false))).
    destruct (F u) as (d & r & warn & Ed & Dh & Dw & _ & Dr).
    assert (Ru : runs u d). { unfold runs, u. cbn [u_block u_order fst snd]. rewrite Dh, Dw. split; [lia|]. split; [lia|]. intros _. apply Permutation_refl. }
    assert (Rt : r = Ok tt). { apply Dr; [exact Ru|]. unfold small_tiles, u. cbn. repeat split; lia. }
    subst r. destruct (H4 o (Ok rpc_src) rpc_args u d warn Ed Ru) as (sf & Es & di & hs & t & poly & r0 & c0 & dt & nodata & Q1 & Q2 & Q3 & _ & Q4 & _ & Q5 & _ & Q6 & Q7 & _ & _ & Q8 & Q9).
    injection Es as <-. exists params, c, o, d, u, warn. split; [exact E1|]. split; [exact E2|]. split; [exact Eo|]. split; [exact Ed|].
    destruct Ho as (Oh & Ow & Ov & Ot). apply same_affine in Ot. cbn [rpc_dem df_t df_band] in Oh, Ow, Ov, Ot. cbn [demo_heights ah aw] in Oh, Ow.
    assert (Own : hs = or_dem o /\ t = or_dem_t o).
    { destruct Q2 as [i0 rx ry _ Z1 Z2 Z3|i0 rx ry s0 t0 _ (Z1 & Z2) Z3 Z4]; [auto|]. injection Z4 as <- <-. auto. }
    destruct Own as (-> & ->). rewrite Ot in Q7.
    assert (Wt : wanted (or_dem o) (Arr (ah (or_dem o)) (aw (or_dem o)) (fun _ _ => true)) 0 0).
    { split; [unfold in_im; rewrite Oh, Ow; lia|]. split; [reflexivity|]. rewrite Ov by (unfold in_im; cbn; lia). discriminate. }
    specialize (Q8 0 0 Wt). exists (0 - r0), (0 - c0). split; [exact Q8|].
    assert (Pc : pixel_centre (d_transform d) (0 - r0) (0 - c0) = (25.25, -2.15)%R).
    { pose proof (Q7 (IZR (0 - c0) + / 2) (IZR (0 - r0) + / 2))%R as Z. unfold aff_apply in Z. cbn [ta tb tc td te tf] in Z. unfold pixel_centre. rewrite Z, !minus_IZR. f_equal; lra. }
    split; [exact Pc|]. specialize (Q9 1 (0 - r0) (0 - c0)). rewrite Pc in Q9. replace (r0 + (0 - r0)) with 0 in Q9 by lia. replace (c0 + (0 - c0)) with 0 in Q9 by lia.
    destruct Q9 as (_ & Q9); [rewrite Q4; cbn; lia|exact Q8|]. destruct (Q9 Wt) as (band & z & (d1 & px & B1 & B2) & B3 & B4). rewrite Ov in B3 by (unfold in_im; cbn; lia). cbn in B3. injection B3 as <-.
    cbn in B1. injection B1 as <- <-. specialize (B4 (Num (79 / 8), Num 21)%R). cbn [shown] in B4. rewrite B4.
    + rewrite B2. unfold demo_image, demo_cv. cbn [rpc_src sf_im if_h if_w ah aw aget].
      repeat (destruct (Rlt_dec _ _); [|exfalso; lra]). rewrite (Bound_Proof.Rfloor_eq (21 + / 2) 21) by lra. rewrite (Bound_Proof.Rfloor_eq (79 / 8 + / 2) 10) by lra. reflexivity.
    + unfold rpc_pixel, rpc_image, nlong, nlat, nheight, quotient. cbn. unfold Q2R. cbn. split; right; (split; [lra|]); f_equal; lra.
Qed.

Example C100_unknown_case : exists params, read_rpc_doc rpc_file = Ok params /\
  snd (rscene_get demo_project (fun _ _ p => p) (fun _ _ p => p) unit (fun _ => Ok tt) tt unit tt (fun _ _ l => l) "b.tif" (rscene_init unit unit params None None)) = Err ParamError.
Proof.
  destruct (C100_unknown demo_project (fun _ _ p => p) (fun _ _ p => p) unit (fun _ => Ok tt) tt unit tt (fun _ _ l => l) rpc_file [rpc_image] None None "b.tif" "b" []) as (params & E & X).
  - exact rpc_file_in.
  - apply (Factory_Spec.extension "b" "tif"); [discriminate|discriminate|cbn; intuition discriminate].
  - intros e [[<-|[]] E]. discriminate E.
  - intros e [[<-|[]] E]. discriminate E.
  - exists params. split; [exact E|]. cbv zeta in X. cbn [Rscene_Model.rscene_run fold_left] in X. rewrite X. reflexivity.
Qed.
