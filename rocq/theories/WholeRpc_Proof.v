(** Proofs about orthorectification from RPC parameter files. *)
From Coq Require Import List String ZArith Reals Bool Lia Lra.
From Verif Require Import Py Flt Mat Grid_Model Remap_Model Remap_Spec Dem_Spec Frame_Model Undist_Model Bound_Model Rpc_Model Rpc_Spec Validate_Model Params_Model Params_Spec Factory_Model Cam_Model Cam_Spec
  Rcam_Model Rcam_Spec Rcam_Proof Make_Model Make_Spec Rscene_Model Rscene_Spec Rscene_Proof Ortho_Model Ortho_Spec Whole_Model Whole_Spec Whole_Proof WholeDoc_Proof.
Import ListNotations.
Open Scope string_scope.
Open Scope list_scope.
Open Scope Z_scope.
Local Arguments String.eqb : simpl never.

Section Whole.
Variable cv_surf : string -> arr fl -> fl * fl -> option fl.
Variable cast_nan : string -> fl.
Variable cv_image : string -> arr pix -> fl * fl -> option pix.
Variable convert : string -> string -> pix -> pix.
Variable cv_project cv_undistort fish_undistort : intr -> list R -> R * R -> R * R.
Variable C : Type.
Variable crs_eqb : C -> C -> bool.
Variable from_string : string -> res C.
Variable rpc_crs : C.
Variable O : Type.
Variable no_options : O.
Variable warp : C -> C -> list vec -> list vec.
Variable rpc_xy : rpc -> O -> list ((R * R) * R) -> list (R * R).
Variable transform_bounds : C -> C -> bounds -> bounds.
Variable bounds_in : Z * Z -> affine -> C -> C -> R * R * R * R.
Variable reproject : interp -> C -> C -> R * R -> arr fl -> affine -> arr fl * affine.
Variable to_pixels : affine -> list (R * R) -> list (Z * Z).
Variable fill_poly : Z * Z -> list (Z * Z) -> arr bool.
Hypothesis crs_same : forall a b, crs_eqb a b = true <-> a = b.
Hypothesis cv_border : forall i b j k, (j <= -1 \/ k <= -1 \/ IZR (aw b) <= j \/ IZR (ah b) <= k)%R -> cv_image i b (Num j, Num k) = None.
Variable warp1 : C -> C -> vec -> vec.
Hypothesis warp_pointwise : forall a b l, warp a b l = map (warp1 a b) l.
Hypothesis warp_same : forall a v, warp1 a a v = v.

Notation rscene_get := (rscene_get cv_project cv_undistort fish_undistort C from_string rpc_crs O no_options warp).
Notation rscene_run := (rscene_run cv_project cv_undistort fish_undistort C from_string rpc_crs O no_options warp).
Notation view_of := (view_of cv_surf cast_nan cv_image convert C rpc_crs O warp rpc_xy).
Notation new_ortho := (new_ortho cv_surf cast_nan cv_image convert C crs_eqb from_string rpc_crs O warp rpc_xy transform_bounds).
Notation process_with := (process_with cv_surf cast_nan cv_image convert C crs_eqb rpc_crs O warp rpc_xy bounds_in reproject to_pixels fill_poly).
Notation p2w := (rpc_p2w_call C rpc_crs O warp rpc_xy).
Notation boundary := (rpc_boundary_call C rpc_crs O warp rpc_xy cv_surf cast_nan).
Notation to_rpc c := (warp1 (camera_crs C rpc_crs O c) rpc_crs).
Notation rpc_view := (rpc_view cv_surf cast_nan convert C rpc_crs O warp rpc_xy).

Lemma rpc_sees : forall c p, Rpc_Spec.valid_rpc (rc_rpc _ _ c) -> pixel_of (to_rpc c) (rc_rpc _ _ c) p (v_pixel (rpc_view c) p).
Proof.
  intros c p V. cbn [Whole_Model.rpc_view v_pixel].
  destruct (w2p_ok C rpc_crs O warp warp1 warp_pointwise warp_same c (Nd "float64" [3; 1] [p]) V) as (out & -> & F); [split; [exists 1|]; reflexivity|].
  cbn [nd_data] in F. inversion F as [|x q l m Hq Ft]; subst. inversion Ft; subst. exact Hq.
Qed.

Lemma rpc_plain : forall c, Rpc_Spec.valid_rpc (rc_rpc _ _ c) ->
  plain convert (rpc_view c) /\
  (forall X q, rpc_pixel (rc_rpc _ _ c) (to_rpc c X) q -> v_pixel (rpc_view c) (Num (vx X), Num (vy X), Num (vz X)) = q) /\
  (forall p, v_centre (rpc_view c) p <-> rpc_centre (p2w c) (rc_w _ _ c) (rc_h _ _ c) p).
Proof.
  intros c V. split; [|split].
  - unfold plain. split; [reflexivity|]. split; [|split; [reflexivity|split]].
    + intros x y. pose proof (rpc_sees c (x, y, Nan) V) as H. unfold pixel_of in H. destruct x, y; exact H.
    + intros z n t i l. cbn [Whole_Model.rpc_view v_boundary]. unfold rpc_boundary_call, world_boundary. destruct (pixel_boundary _ _ _); [|discriminate]. cbn [bind].
      destruct (negb _); [discriminate|]. destruct (_ || _); [discriminate|]. destruct (Req_EM_T _ _); [discriminate|]. destruct (z_range z); [|discriminate]. cbn [bind]. destruct (world_surf _ _ _ _ _ _ _ _ _); [|discriminate]. cbn [bind]. intros [= <-]. eauto.
    + reflexivity.
  - intros [x y z] q H. pose proof (rpc_sees c (Num x, Num y, Num z) V) as H'. eapply rpc_pixel_fun; [exact H'|exact H].
  - intros p. unfold v_centre, rpc_centre. cbn [Whole_Model.rpc_view v_position v_w v_h]. unfold num2. cbn [fst snd].
    destruct (p2w c _ _) as [[|[[[|x] [|y]] [|z]] [|]]|]; destruct p as [px py pz]; cbn [vx vy vz]; split; intros E; try discriminate E; congruence.
Qed.

Theorem rpc_documents_ortho : forall doc l crs crs' options name e before, rpcs_in doc l -> rpc_for l name e -> Rpc_Spec.valid_rpc (ir_rpc e) ->
  asks_crs from_string (match crs with Some c => c | None => CrsNone C end) crs' -> (forall c, crs' = Some c -> keeps_heights (warp1 rpc_crs c) (ir_rpc e)) ->
  exists params c, read_rpc_doc doc = Ok params /\
  snd (rscene_get name (rscene_run before (rscene_init C O params crs options))) = Ok (MadeRpc c) /\
  (forall src dem wcrs band o, new_ortho (MadeRpc c) src dem wcrs band = Ok o ->
   exists demf w, dem = Ok demf /\ 1 <= band <= df_count C demf /\ world_crs from_string wcrs (do s <- src; Ok (sf_crs C s)) w /\
   built C (height_in C warp) transform_bounds rpc_crs (rpc_centre (p2w c) (ir_w e) (ir_h e)) (rpc_outline (boundary c)) w demf band (ir_w e) (ir_h e) o) /\
  (forall src demf wcrs w band, world_crs from_string wcrs (do s <- src; Ok (sf_crs C s)) w ->
   inside C (height_in C warp) rpc_crs (rpc_centre (p2w c) (ir_w e) (ir_h e)) (rpc_outline (boundary c)) w demf band ->
   exists o, new_ortho (MadeRpc c) src (Ok demf) wcrs band = Ok o /\ has_all C demf band o) /\
  (forall o sf a, processes C reproject to_pixels fill_poly bounds_in (rpc_surface (boundary c)) o sf a ->
   exists h w p, 0 < h /\ 0 < w /\ forall u, exists d r warn, process_with (MadeRpc c) o (Ok sf) a u = Ok (d, r, warn) /\ d_height d = h /\ d_width d = w /\ d_profile d = p /\
     (runs u d -> small_tiles C u d -> r = Ok tt)) /\
  (forall o src a u d warn, process_with (MadeRpc c) o src a u = Ok (d, Ok tt, warn) -> runs u d ->
   exists sf, src = Ok sf /\
   rectified cv_image convert C reproject to_pixels fill_poly (rpc_surface (boundary c))
     (fun X q => rpc_pixel (ir_rpc e) (match crs' with Some w => warp1 w rpc_crs X | None => X end) q) o sf a d).
Proof.
  intros doc l crs crs' options name e before Hd He V Hc Hk.
  destruct (rpc_camera_got cv_project cv_undistort fish_undistort C from_string rpc_crs O no_options warp warp1 warp_pointwise doc l crs crs' options name e before Hd He Hc Hk)
    as (params & c & E1 & E2 & Ew & Eh & Er & Ecrs).
  exists params, c. split; [exact E1|]. split; [exact E2|]. assert (V' : Rpc_Spec.valid_rpc (rc_rpc _ _ c)) by (rewrite Er; exact V).
  destruct (rpc_plain c V') as (P & Px & Pc). split; [|split; [|split]].
  - intros src dem wcrs band o E.
    pose proof (new_ortho_view cv_surf cast_nan cv_image convert C crs_eqb from_string rpc_crs O warp rpc_xy transform_bounds crs_same (MadeRpc c) (rpc_view c) src dem wcrs band o eq_refl P E) as (demf & w & F1 & F2 & F3 & F4).
    exists demf, w. split; [exact F1|]. split; [exact F2|]. split; [exact F3|]. rewrite <- Ew, <- Eh. revert F4. apply built_mono; [apply Pc|]. intros z pts Q. exact Q.
  - intros src demf wcrs w band Hw I. apply (inside_ortho cv_surf cast_nan cv_image convert C crs_eqb from_string rpc_crs O warp rpc_xy transform_bounds crs_same (MadeRpc c) (rpc_view c) src demf wcrs w band eq_refl P Hw).
    revert I. rewrite <- Ew, <- Eh. apply inside_mono; [apply Pc|]. intros z pts Q. exact Q.
  - intros o sf a Hpr. exact (process_succeeds cv_surf cast_nan cv_image convert C crs_eqb rpc_crs O warp rpc_xy bounds_in reproject to_pixels fill_poly crs_same (MadeRpc c) (rpc_view c) o sf a eq_refl P Hpr).
  - intros o src a u d warn E R.
    destruct (process_view cv_surf cast_nan cv_image convert C crs_eqb rpc_crs O warp rpc_xy bounds_in reproject to_pixels fill_poly crs_same cv_border (MadeRpc c) (rpc_view c) o src a u d warn eq_refl P E R) as (sf & F1 & F2).
    exists sf. split; [exact F1|]. revert F2. apply rectified_mono; [intros hs t i pts Q; exact Q|].
    intros X q Q. apply Px. rewrite Er, Ecrs. destruct crs'; [exact Q|]. rewrite warp_same. exact Q.
Qed.

Theorem rpc_refused : forall c src demf crs w band, Rpc_Spec.valid_rpc (rc_rpc _ _ c) -> world_crs from_string crs (do s <- src; Ok (sf_crs C s)) w ->
  (~ 1 <= band <= df_count C demf -> new_ortho (MadeRpc c) src (Ok demf) crs band = Err OrthorityError) /\
  (misses C (height_in C warp) rpc_crs (rpc_centre (p2w c) (rc_w _ _ c) (rc_h _ _ c)) (rpc_outline (boundary c)) w demf band ->
   new_ortho (MadeRpc c) src (Ok demf) crs band = Err OrthorityError).
Proof.
  intros c src demf crs w band V Hw. split; [intros Hb; apply (band_refused cv_surf cast_nan cv_image convert C crs_eqb from_string rpc_crs O warp rpc_xy transform_bounds _ _ _ _ w); assumption|].
  intros (M1 & M2 & M3 & p & sc & l1 & l2 & Hp & M). destruct (rpc_plain c V) as (_ & _ & Pc).
  apply (misses_refused cv_surf cast_nan cv_image convert C crs_eqb from_string rpc_crs O warp rpc_xy transform_bounds crs_same (MadeRpc c) (rpc_view c) src demf crs w band eq_refl Hw).
  split; [exact M1|]. split; [exact M2|]. split; [exact M3|]. exists p, sc, l1, l2. split; [apply Pc, Hp|exact M].
Qed.
End Whole.
