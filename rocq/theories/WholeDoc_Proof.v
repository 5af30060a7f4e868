(** Proofs about orthorectification from parameter files. *)
From Coq Require Import List String ZArith Reals Bool Lia Lra.
From Verif Require Import Py Flt Mat Grid_Model Remap_Model Remap_Spec Dem_Spec Frame_Model Frame_Spec Undist_Model Bound_Model Rpc_Model Validate_Model Params_Model Params_Spec Factory_Model Cam_Model Cam_Spec
  Rcam_Model Make_Model Make_Spec Proj_Spec Scene_Model Scene_Spec Scene_Proof SceneDoc_Proof Ortho_Model Ortho_Spec Whole_Model Whole_Spec Whole_Proof.
Import ListNotations.
Open Scope string_scope.
Open Scope list_scope.
Open Scope Z_scope.
Local Arguments String.eqb : simpl never.

Section Whole.
Variable cv_surf : string -> arr fl -> fl * fl -> option fl.
Variable cast_nan : string -> fl.
Variable cv_image : string -> arr pix -> fl * fl -> option pix.
Variable convert : string -> string -> pix -> pix.
Variable cv_project cv_undistort fish_undistort : intr -> list R -> R * R -> R * R.
Hypothesis cv_projects : forall K d xy b, In (List.length d) [4; 5; 8; 12; 14]%nat -> opencv_distorts (cv_coefs d) xy b -> num2 (cv_project K d xy) = to_pixel K b.
Hypothesis cv_undistorts : forall K d d' p, In (List.length d) [4; 5; 8; 12; 14]%nat -> In (List.length d') [4; 5; 8; 12; 14]%nat ->
  (forall k, cv_coefs d k = cv_coefs d' k) -> cv_undistort K d p = cv_undistort K d' p.
Variable C : Type.
Variable crs_eqb : C -> C -> bool.
Variable from_string : string -> res C.
Variable rpc_crs : C.
Variable O : Type.
Variable no_options : O.
Variable warp : C -> C -> list vec -> list vec.
Variable rpc_xy : rpc -> O -> list ((R * R) * R) -> list (R * R).
Variable transform_bounds : C -> C -> bounds -> bounds.
Variable bounds_in : Z * Z -> affine -> C -> C -> R * R * R * R.
Variable reproject : interp -> C -> C -> R * R -> arr fl -> affine -> arr fl * affine.
Variable to_pixels : affine -> list (R * R) -> list (Z * Z).
Variable fill_poly : Z * Z -> list (Z * Z) -> arr bool.
Hypothesis crs_same : forall a b, crs_eqb a b = true <-> a = b.
Hypothesis cv_border : forall i b j k, (j <= -1 \/ k <= -1 \/ IZR (aw b) <= j \/ IZR (ah b) <= k)%R -> cv_image i b (Num j, Num k) = None.

Notation scene_get := (scene_get cv_surf cast_nan cv_image convert cv_project cv_undistort fish_undistort C from_string rpc_crs O no_options warp).
Notation scene_use := (scene_use cv_surf cast_nan cv_image convert C O).
Notation scene_run := (scene_run cv_surf cast_nan cv_image convert cv_project cv_undistort fish_undistort C from_string rpc_crs O no_options warp).
Notation view_of := (view_of cv_surf cast_nan cv_image convert C rpc_crs O warp rpc_xy).
Notation new_ortho := (new_ortho cv_surf cast_nan cv_image convert C crs_eqb from_string rpc_crs O warp rpc_xy transform_bounds).
Notation process_with := (process_with cv_surf cast_nan cv_image convert C crs_eqb rpc_crs O warp rpc_xy bounds_in reproject to_pixels fill_poly).
Notation do_call := (do_call cv_surf cast_nan cv_image convert).

Lemma map_some_inj : forall A (l m : list A), map Some l = map Some m -> l = m.
Proof. intros A l. induction l as [|x l IH]; intros [|y m] E; try discriminate; [reflexivity|]. cbn in E. injection E as -> E. f_equal. auto. Qed.

Lemma rmap_points : forall r l, rmap VPoints r = Ok (VPoints l) <-> r = Ok l.
Proof. intros [x|e] l; cbn; split; intros E; try discriminate; congruence. Qed.

(** A frame camera that keeps distortion. *)
Lemma frame_plain : forall cam v, s_distort (fc_st cam) = true -> view_of (MadeFrame cam) = Ok v ->
  let ask k := snd (do_call cam k) in
  plain convert v /\ v_w v = fc_w cam /\ v_h v = fc_h cam /\
  (forall X q, ask (WorldToPixel (one_point (num3 X))) = Ok (VPixels [q]) -> v_pixel v (num3 X) = q) /\
  (forall p, v_centre v p <-> cam_centre ask (fc_w cam) (fc_h cam) p) /\
  (forall z l, v_outline v z l <-> cam_outline ask z l) /\
  (forall hs t i l, v_boundary v (HArray 2 "float32" hs) (Some 400) (Some t) (IEnum i) = Ok (map Some l) <-> cam_surface ask hs t i l).
Proof.
  intros cam v Hd. cbn [Whole_Model.view_of]. unfold frame_view. destruct (test_init cam) as [f|] eqn:Ef; [|discriminate]. cbn [bind]. intros [= <-]. cbv zeta.
  assert (Df : fr_distort f = true). { unfold test_init in Ef. destruct (s_ext (fc_st cam)) as [[r t]|]; [|discriminate]. injection Ef as <-. exact Hd. }
  unfold plain, v_centre, v_outline, cam_centre, cam_outline, cam_surface. cbn [v_distort v_pixel v_read v_boundary v_pixels v_w v_h v_position Cam_Model.do_call snd].
  split; [|split; [reflexivity|split; [reflexivity|split; [|split; [|split]]]]].
  - split; [exact Df|]. split; [intros x y; unfold world_to_pixel; destruct x, y; reflexivity|]. split.
    + intros im l dt nd i. unfold read_call. destruct (read_image convert (Ok im) (Bands l) (Some dt)); [|reflexivity]. rewrite Hd. reflexivity.
    + split.
      * intros z n t i l. unfold world_boundary_call, frame_world_boundary. rewrite Ef. cbn [bind]. destruct (horizon_fov _ _ _); [discriminate|].
        destruct (frame_pixel_boundary _ _ _ _); [|discriminate]. cbn [bind]. destruct (z_range z) as [[lo hi]|]; [|discriminate]. cbn [bind]. destruct (Rlt_dec _ _); [discriminate|].
        destruct (world_surf _ _ _ _ _ _ _ _ _); [|discriminate]. cbn [bind]. intros [= <-]. eauto.
      * unfold pixel_boundary_call, frame_pixel_boundary, pixel_boundary. cbn [bind fr_distort]. rewrite Hd. reflexivity.
  - intros X q. unfold world_to_pixel_call. rewrite Ef. replace (validate_world_coords (one_point (num3 X))) with (Ok tt : res unit) by reflexivity. cbn [bind rmap nd_data one_point map]. intros [= E]. exact E.
  - intros p. unfold pixel_to_world_call. rewrite Ef. cbn. split; intros E; [rewrite E; reflexivity|congruence].
  - intros z l. rewrite rmap_points. reflexivity.
  - intros hs t i l. rewrite rmap_points. reflexivity.
Qed.

Lemma rectified_mono : forall (out out' : arr fl -> affine -> string -> list vec -> Prop) (sees sees' : vec -> fl * fl -> Prop) o s a d,
  (forall hs t i l, out hs t i l -> out' hs t i l) -> (forall X q, sees' X q -> sees X q) ->
  rectified cv_image convert C reproject to_pixels fill_poly out sees o s a d -> rectified cv_image convert C reproject to_pixels fill_poly out' sees' o s a d.
Proof.
  intros out out' sees sees' o s a d Ho Hs (di & hs & t & poly & r0 & c0 & dt & nodata & H1 & H2 & H3 & H).
  exists di, hs, t, poly, r0, c0, dt, nodata. split; [exact H1|]. split; [exact H2|]. split; [apply Ho, H3|]. cbv zeta in *.
  repeat match goal with H : _ /\ _ |- _ /\ _ => destruct H as [? H]; split; [assumption|] end.
  intros b r c Hb Hin. specialize (H b r c Hb Hin). destruct (pixel_centre (d_transform d) r c) as [x y]. destruct H as (A & B). split; [exact A|].
  intros W. destruct (B W) as (band & z & B1 & B2 & B3). exists band, z. split; [exact B1|]. split; [exact B2|]. intros q Hq. apply B3, Hs, Hq.
Qed.

Lemma built_mono : forall height (cen cen' : vec -> Prop) (out out' : R -> list vec -> Prop) crs dem band w h o,
  (forall p, cen p -> cen' p) -> (forall z l, out z l -> out' z l) ->
  built C height transform_bounds rpc_crs cen out crs dem band w h o -> built C height transform_bounds rpc_crs cen' out' crs dem band w h o.
Proof.
  intros height cen cen' out out' crs dem band w h o Hc Ho (B1 & B2 & B3 & B4 & B5). split; [exact B1|]. split; [exact B2|]. split; [exact B3|]. split.
  - intros Nu. destruct (B4 Nu) as (p & scale & all & r1 & c1 & l1 & l2 & rl & cl & zl & rh & ch & zh & q1 & q2 & r0 & c0 & A1 & A2 & A3 & A4 & A5 & A6 & A7 & A8 & A9 & A10 & A11).
    exists p, scale, all, r1, c1, l1, l2, rl, cl, zl, rh, ch, zh, q1, q2, r0, c0. split; [apply Hc, A1|]. split; [exact A2|]. split; [apply Ho, A3|]. split; [apply Ho, A4|].
    split; [exact A5|]. split; [exact A6|]. split; [exact A7|]. split; [exact A8|]. split; [apply Ho, A9|]. split; [apply Ho, A10|]. exact A11.
  - intros Hw Hh. destruct (B5 Hw Hh) as (m & pts & M & D). exists m, pts. split; [exact M|]. destruct (aff_apply _ _ _). destruct D as (D1 & D2). split; [apply Ho, D1|exact D2].
Qed.

Lemma inside_mono : forall height (cen cen' : vec -> Prop) (out out' : R -> list vec -> Prop) crs dem band,
  (forall p, cen p -> cen' p) -> (forall z l, out z l -> out' z l) -> inside C height rpc_crs cen out crs dem band -> inside C height rpc_crs cen' out' crs dem band.
Proof.
  intros height cen cen' out out' crs dem band Hc Ho (B1 & B2 & B3 & B4 & (p & l & sc & P1 & P2 & P3 & P4) & B6 & B7). split; [exact B1|]. split; [exact B2|]. split; [exact B3|]. split; [exact B4|].
  split; [exists p, l, sc; auto|]. split; [intros r c z H1 H2; destruct (B6 r c z H1 H2) as (q & Q1 & Q2); eauto|]. intros z. destruct (B7 z) as (q & Q). eauto.
Qed.

Lemma processes_mono : forall (out out' : arr fl -> affine -> string -> list vec -> Prop) o s a, (forall hs t i l, out hs t i l -> out' hs t i l) ->
  processes C reproject to_pixels fill_poly bounds_in out o s a -> processes C reproject to_pixels fill_poly bounds_in out' o s a.
Proof. intros out out' o s a H (P1 & (di & hs & t & poly & r & c & Q1 & Q2 & Q3) & P3). split; [exact P1|]. split; [exists di, hs, t, poly, r, c; auto|exact P3]. Qed.

(** What is known of a camera in the heap of a scene, for ortho images. *)
Lemma scene_ortho : forall st' i cam c s, nth_error (sc_heap C O st') i = Some (MadeFrame cam) -> s_distort (fc_st cam) = true -> fc_w cam = in_w c -> fc_h cam = in_h c ->
  (forall X, beside (sh_pos s) (sh_omega s) (sh_phi s) (sh_kappa s) X -> snd (do_call cam (WorldToPixel (one_point (num3 X)))) = Ok (VPixels [(Nan, Nan)])) ->
  (forall X q, images c (sh_pos s) (sh_omega s) (sh_phi s) (sh_kappa s) X q -> snd (do_call cam (WorldToPixel (one_point (num3 X)))) = Ok (VPixels [q])) ->
  let ask k := snd (scene_use i k st') in
  exists m, nth_error (sc_heap C O st') i = Some m /\
  (forall src dem crs band o, new_ortho m src dem crs band = Ok o ->
   exists demf w, dem = Ok demf /\ 1 <= band <= df_count C demf /\ world_crs from_string crs (do s <- src; Ok (sf_crs C s)) w /\
   built C (height_in C warp) transform_bounds rpc_crs (cam_centre ask (in_w c) (in_h c)) (cam_outline ask) w demf band (in_w c) (in_h c) o) /\
  (forall src demf crs w band, world_crs from_string crs (do s <- src; Ok (sf_crs C s)) w ->
   inside C (height_in C warp) rpc_crs (cam_centre ask (in_w c) (in_h c)) (cam_outline ask) w demf band ->
   exists o, new_ortho m src (Ok demf) crs band = Ok o /\ has_all C demf band o) /\
  (forall o sf a, processes C reproject to_pixels fill_poly bounds_in (cam_surface ask) o sf a ->
   exists h w p, 0 < h /\ 0 < w /\ forall u, exists d r warn, process_with m o (Ok sf) a u = Ok (d, r, warn) /\ d_height d = h /\ d_width d = w /\ d_profile d = p /\
     (runs u d -> small_tiles C u d -> r = Ok tt)) /\
  (forall o src a u d warn, process_with m o src a u = Ok (d, Ok tt, warn) -> runs u d ->
   exists sf, src = Ok sf /\
   rectified cv_image convert C reproject to_pixels fill_poly (cam_surface ask)
     (fun X q => images c (sh_pos s) (sh_omega s) (sh_phi s) (sh_kappa s) X q \/ beside (sh_pos s) (sh_omega s) (sh_phi s) (sh_kappa s) X /\ q = (Nan, Nan)) o sf a d).
Proof.
  intros st' i cam c s Hn Hd Hw Hh A B ask. unfold ask. clear ask. exists (MadeFrame cam). split; [exact Hn|].
  assert (G : forall k, snd (scene_use i k st') = snd (do_call cam k)).
  { intros k. unfold Scene_Model.scene_use. rewrite Hn. destruct (do_call cam k) as [c' r']. reflexivity. }
  split; [|split; [|split]].
  - intros src dem crs band o E. pose proof (new_ortho_inv _ _ _ _ _ _ _ _ _ _ _ _ _ _ _ _ _ _ E) as (_ & v & _ & _ & _ & Ev & _).
    destruct (frame_plain cam v Hd Ev) as (P & Pw & Ph & _ & Pc & Pz & _).
    pose proof (new_ortho_view cv_surf cast_nan cv_image convert C crs_eqb from_string rpc_crs O warp rpc_xy transform_bounds crs_same (MadeFrame cam) v src dem crs band o Ev P E) as (demf & w & F1 & F2 & F3 & F4).
    exists demf, w. split; [exact F1|]. split; [exact F2|]. split; [exact F3|]. rewrite Pw, Ph, Hw, Hh in F4. revert F4. apply built_mono.
    + intros p Q. apply Pc in Q. rewrite Hw, Hh in Q. unfold cam_centre. rewrite G. exact Q.
    + intros z l Q. apply Pz in Q. unfold cam_outline. rewrite G. exact Q.
  - intros src demf crs w band Ew I. destruct (view_of (MadeFrame cam)) as [v|] eqn:Ev.
    2:{ exfalso. destruct I as (_ & _ & _ & _ & (p & _ & _ & Hq & _) & _). unfold cam_centre in Hq. rewrite G in Hq. cbn [Whole_Model.view_of] in Ev. unfold frame_view in Ev.
        cbn [Cam_Model.do_call snd] in Hq. unfold pixel_to_world_call in Hq. destruct (test_init cam); [discriminate Ev|discriminate Hq]. }
    destruct (frame_plain cam v Hd Ev) as (P & Pw & Ph & _ & Pc & Pz & _). apply (inside_ortho cv_surf cast_nan cv_image convert C crs_eqb from_string rpc_crs O warp rpc_xy transform_bounds crs_same (MadeFrame cam) v src demf crs w band Ev P Ew).
    revert I. apply inside_mono.
    + intros p Q. apply Pc. rewrite Hw, Hh. unfold cam_centre in Q. rewrite G in Q. exact Q.
    + intros z l Q. apply Pz. unfold cam_outline in Q. rewrite G in Q. exact Q.
  - intros o sf a Hpr. destruct (view_of (MadeFrame cam)) as [v|] eqn:Ev.
    2:{ exfalso. destruct Hpr as (_ & (di0 & hs & t & po0 & r0 & c0 & _ & Hq & _) & _). unfold cam_surface in Hq. rewrite G in Hq. cbn [Whole_Model.view_of] in Ev. unfold frame_view in Ev.
        cbn [Cam_Model.do_call snd] in Hq. unfold world_boundary_call in Hq. destruct (test_init cam); [discriminate Ev|discriminate Hq]. }
    destruct (frame_plain cam v Hd Ev) as (P & Pw & Ph & _ & _ & _ & Ps). apply (process_succeeds cv_surf cast_nan cv_image convert C crs_eqb rpc_crs O warp rpc_xy bounds_in reproject to_pixels fill_poly crs_same (MadeFrame cam) v o sf a Ev P).
    revert Hpr. apply processes_mono. intros hs t j l Q. apply Ps. unfold cam_surface in Q. rewrite G in Q. exact Q.
  - intros o src a u d warn E R. destruct (view_of (MadeFrame cam)) as [v|] eqn:Ev; [|unfold Whole_Model.process_with in E; rewrite Ev in E; discriminate].
    destruct (frame_plain cam v Hd Ev) as (P & Pw & Ph & Px & _ & _ & Ps).
    destruct (process_view cv_surf cast_nan cv_image convert C crs_eqb rpc_crs O warp rpc_xy bounds_in reproject to_pixels fill_poly crs_same cv_border (MadeFrame cam) v o src a u d warn Ev P E R) as (sf & F1 & F2).
    exists sf. split; [exact F1|]. revert F2. apply rectified_mono.
    + intros hs t j l Q. apply Ps in Q. unfold cam_surface. rewrite G. exact Q.
    + intros X q [Q|[Q ->]]; apply Px; auto.
Qed.

Theorem documents_ortho : forall D (parse : string -> option D) int_doc ext_doc crs0 d0 cams shots kwargs name s c before,
  cameras_in int_doc cams -> shots_in ext_doc crs0 shots -> NoDup (map sh_name shots) -> parse crs0 = Some d0 -> options kwargs true ->
  shot_of shots name s -> camera_of cams s c -> usable c ->
  exists ints exts i, read_int_doc int_doc = Ok ints /\ read_ext_doc D parse ext_doc = Ok (d0, exts) /\
  let st := scene_run before (scene_init C O ints exts kwargs) in
  snd (scene_get name st) = Ok i /\
  forall later, kept shots s i later -> keeps_distortion (before ++ later) ->
  let st' := scene_run later (fst (scene_get name st)) in
  let ask k := snd (scene_use i k st') in
  exists m, nth_error (sc_heap C O st') i = Some m /\
  (forall src dem crs band o, new_ortho m src dem crs band = Ok o ->
   exists demf w, dem = Ok demf /\ 1 <= band <= df_count C demf /\ world_crs from_string crs (do s <- src; Ok (sf_crs C s)) w /\
   built C (height_in C warp) transform_bounds rpc_crs (cam_centre ask (in_w c) (in_h c)) (cam_outline ask) w demf band (in_w c) (in_h c) o) /\
  (forall src demf crs w band, world_crs from_string crs (do s <- src; Ok (sf_crs C s)) w ->
   inside C (height_in C warp) rpc_crs (cam_centre ask (in_w c) (in_h c)) (cam_outline ask) w demf band ->
   exists o, new_ortho m src (Ok demf) crs band = Ok o /\ has_all C demf band o) /\
  (forall o sf a, processes C reproject to_pixels fill_poly bounds_in (cam_surface ask) o sf a ->
   exists h w p, 0 < h /\ 0 < w /\ forall u, exists d r warn, process_with m o (Ok sf) a u = Ok (d, r, warn) /\ d_height d = h /\ d_width d = w /\ d_profile d = p /\
     (runs u d -> small_tiles C u d -> r = Ok tt)) /\
  (forall o src a u d warn, process_with m o src a u = Ok (d, Ok tt, warn) -> runs u d ->
   exists sf, src = Ok sf /\
   rectified cv_image convert C reproject to_pixels fill_poly (cam_surface ask)
     (fun X q => images c (sh_pos s) (sh_omega s) (sh_phi s) (sh_kappa s) X q \/ beside (sh_pos s) (sh_omega s) (sh_phi s) (sh_kappa s) X /\ q = (Nan, Nan)) o sf a d).
Proof.
  intros D parse int_doc ext_doc crs0 d0 cams shots kwargs name s c before Hi He N Hp Ho Hs Hc U.
  destruct (documents_image_full cv_surf cast_nan cv_image convert cv_project cv_undistort fish_undistort cv_projects cv_undistorts C from_string rpc_crs O no_options warp
    D parse int_doc ext_doc crs0 d0 cams shots kwargs name s c before Hi He N Hp Ho Hs Hc U) as (ints & exts & i & E1 & E2 & E3 & H).
  exists ints, exts, i. split; [exact E1|]. split; [exact E2|]. split; [exact E3|]. cbv zeta in *. intros later L K. destruct (H later L K) as (cam & Hn & Hd & Hw & Hh & A & B).
  exact (scene_ortho _ i cam c s Hn Hd Hw Hh A B).
Qed.

(** * Refused *)
Theorem frame_refused : forall c src dem crs w band,
  ((crs = PNone \/ crs = PText "") -> (do s <- src; Ok (sf_crs C s)) = Ok None -> new_ortho (MadeFrame c) src dem crs band = Err CrsMissingError) /\
  (world_crs from_string crs (do s <- src; Ok (sf_crs C s)) w -> forall demf, dem = Ok demf ->
   (~ 1 <= band <= df_count C demf -> new_ortho (MadeFrame c) src dem crs band = Err OrthorityError) /\
   (1 <= band <= df_count C demf -> s_ext (fc_st c) = None -> new_ortho (MadeFrame c) src dem crs band = Err CameraInitError) /\
   (misses C (height_in C warp) rpc_crs (cam_centre (fun k => snd (do_call c k)) (fc_w c) (fc_h c)) (cam_outline (fun k => snd (do_call c k))) w demf band ->
    new_ortho (MadeFrame c) src dem crs band = Err OrthorityError)) /\
  (s_ext (fc_st c) = None -> forall o a u, process_with (MadeFrame c) o src a u = Err CameraInitError).
Proof.
  intros c src dem crs w band. split; [apply no_crs_refused|]. split; [|intros E o a u; apply init_process_refused, E].
  intros Hw demf ->. split; [intros Hb; apply (band_refused cv_surf cast_nan cv_image convert C crs_eqb from_string rpc_crs O warp rpc_xy transform_bounds _ _ _ _ w); assumption|].
  split; [intros Hb E; apply (init_refused cv_surf cast_nan cv_image convert C crs_eqb from_string rpc_crs O warp rpc_xy transform_bounds _ _ _ _ w); assumption|].
  intros (M1 & M2 & M3 & p & sc & l1 & l2 & Hp & Hsc & O1 & O2 & M4 & M5). unfold cam_centre in Hp. cbn [Cam_Model.do_call snd] in Hp. destruct (test_init c) as [f|] eqn:Ef.
  2:{ unfold pixel_to_world_call in Hp. rewrite Ef in Hp. discriminate Hp. }
  assert (Ev : exists v, view_of (MadeFrame c) = Ok v) by (cbn [Whole_Model.view_of]; unfold frame_view; rewrite Ef; eexists; reflexivity). destruct Ev as (v & Ev).
  apply (misses_refused cv_surf cast_nan cv_image convert C crs_eqb from_string rpc_crs O warp rpc_xy transform_bounds crs_same _ v src demf crs w band Ev Hw).
  cbn [Whole_Model.view_of] in Ev. unfold frame_view in Ev. rewrite Ef in Ev. cbn [bind] in Ev. injection Ev as <-.
  split; [exact M1|]. split; [exact M2|]. split; [exact M3|]. exists p, sc, l1, l2. unfold v_centre, v_outline. cbn [v_position v_w v_h v_boundary].
  split; [unfold pixel_to_world_call in Hp; rewrite Ef in Hp; cbn in Hp; congruence|]. split; [exact Hsc|].
  unfold cam_outline in O1, O2. cbn [Cam_Model.do_call snd] in O1, O2. apply rmap_points in O1, O2. auto.
Qed.
End Whole.
