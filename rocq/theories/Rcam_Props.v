(** Property theorems: C93 RPC cameras, C94 boundary and remapping of RPC cameras, and GCP cameras. *)
From Coq Require Import String List Reals QArith ZArith Bool Lra Lia.
From Verif Require Import Py Flt Mat Grid_Model Remap_Model Remap_Spec Frame_Model Bound_Model Rpc_Model Rpc_Spec Rpc_Proof Cam_Model Cam_Spec Rcam_Model Rcam_Spec Rcam_Proof.
Import ListNotations.
Open Scope string_scope.
Open Scope list_scope.
Open Scope Z_scope.

Section Props.
Variable C : Type.
Variable parse_crs : string -> res C.
Variable rpc_crs : C.
Variable O : Type.
Variable no_options : O.
Variable warp : C -> C -> list vec -> list vec.
Variable rpc_xy : rpc -> O -> list ((R * R) * R) -> list (R * R).
Notation rpc_init := (rpc_init C parse_crs rpc_crs O no_options warp).
Notation camera_crs := (camera_crs C rpc_crs O).
Notation world_to_pixel := (rpc_w2p_call C rpc_crs O warp).
Notation pixel_to_world_z := (rpc_p2w_call C rpc_crs O warp rpc_xy).
Notation world_boundary := (rpc_boundary_call C rpc_crs O warp rpc_xy).
Notation remap := (rpc_remap_call C rpc_crs O warp).

(** GDAL transforms points one by one, and not at all between equal CRSs; and inverts the RPC model pixel by pixel. *)
Variable warp1 : C -> C -> vec -> vec.
Variable xy1 : rpc -> O -> R * R -> R -> R * R.
Hypothesis warp_pointwise : forall a b l, warp a b l = map (warp1 a b) l.
Hypothesis warp_same : forall a v, warp1 a a v = v.
Hypothesis xy_pointwise : forall r o l, rpc_xy r o l = map (fun p => xy1 r o (fst p) (snd p)) l.

(** C93: a camera is made from an RPC object or a complete dictionary, and has the CRS asked for, or that of RPC coordinates, ... *)
Theorem C93_made : forall w h a r o crs crs', means_rpc a r -> asks_crs parse_crs crs crs' ->
  (forall c, crs' = Some c -> keeps_heights (warp1 rpc_crs c) r) ->
  exists c, rpc_init w h a o crs = Ok c /\ rc_w _ _ c = w /\ rc_h _ _ c = h /\ rc_rpc _ _ c = r /\
  rc_options _ _ c = match o with Some o => o | None => no_options end /\
  camera_crs c = match crs' with Some c => c | None => rpc_crs end.
Proof. exact (init_ok C parse_crs rpc_crs O no_options warp warp1 warp_pointwise). Qed.

(** C93: ... but not with a CRS that changes heights, or from a dictionary with missing or unknown names. *)
Theorem C93_not_made : 
  (forall w h a r o crs c, means_rpc a r -> asks_crs parse_crs crs (Some c) -> ~ keeps_heights (warp1 rpc_crs c) r ->
   rpc_init w h a o crs = Err OrthorityError) /\
  (forall w h d o crs, ~ complete d -> rpc_init w h (RpcDict d) o crs = Err TypeError).
Proof. exact (conj (init_bad_crs C parse_crs rpc_crs O no_options warp warp1 warp_pointwise) (init_bad_dict C parse_crs rpc_crs O no_options warp)). Qed.

(** C93: each column of the result is the RPC00B pixel of that column's point, in RPC coordinates; a NaN anywhere in the point gives a NaN pixel, and
    does not affect other columns. *)
Theorem C93_world_to_pixel : forall (c : rcam C O) xyz, valid_rpc (rc_rpc _ _ c) ->
  (world_array xyz -> exists out, world_to_pixel c xyz = Ok out /\ Forall2 (pixel_of (warp1 (camera_crs c) rpc_crs) (rc_rpc _ _ c)) (nd_data xyz) out) /\
  (~ world_array xyz -> world_to_pixel c xyz = Err ValueError).
Proof.
  exact (fun c xyz V => conj (w2p_ok C rpc_crs O warp warp1 warp_pointwise warp_same c xyz V) (w2p_refused C rpc_crs O warp c xyz)).
Qed.

(** C93: each column is GDAL's position of its own pixel and height, in the camera's CRS, and NaN when one of them is. *)
Theorem C93_pixel_to_world : forall (c : rcam C O) ji z,
  (pixel_array ji -> heights_for z (List.length (nd_data ji)) -> ~ integers z ->
   exists out, pixel_to_world_z c ji z = Ok out /\
   Forall2 (position_of (xy1 (rc_rpc _ _ c) (rc_options _ _ c)) (warp1 rpc_crs (camera_crs c))) (paired (nd_data ji) z) out) /\
  (~ pixel_array ji -> pixel_to_world_z c ji z = Err ValueError) /\
  (match z with VScalar _ => False | VVec _ zs => ~ heights_for z (List.length (nd_data ji)) /\ List.length zs <> 1%nat | VNd => True end ->
   pixel_to_world_z c ji z = Err ValueError).
Proof.
  exact (fun c ji z => conj (p2w_ok C rpc_crs O warp rpc_xy warp1 xy1 warp_pointwise warp_same xy_pointwise c ji z) (p2w_refused C rpc_crs O warp rpc_xy c ji z)).
Qed.

(** C93: but heights of an integer type are refused, also when they are as many as the pixels, and so is an array of one height for several pixels. *)
Theorem C93_heights_refuted : forall (c : rcam C O) ji, pixel_array ji ->
  (forall zs, heights_for (VVec true zs) (List.length (nd_data ji)) -> pixel_to_world_z c ji (VVec true zs) = Err ValueError) /\
  (forall i h, List.length (nd_data ji) <> 1%nat -> pixel_to_world_z c ji (VVec i [h]) = Err IndexError).
Proof. exact (fun c ji A => conj (fun zs => integer_heights C rpc_crs O warp rpc_xy c ji zs A) (fun i h => one_height C rpc_crs O warp rpc_xy c ji i h A)). Qed.

(** C93: projecting pixels to the world and back gives the pixels, where GDAL's positions are seen at them, and its CRS transforms are inverses. *)
Theorem C93_round_trip : forall (c : rcam C O) ji z, valid_rpc (rc_rpc _ _ c) -> pixel_array ji -> heights_for z (List.length (nd_data ji)) -> ~ integers z ->
  (forall v, warp1 (camera_crs c) rpc_crs (warp1 rpc_crs (camera_crs c) v) = v) ->
  (forall j i h, In ((Num j, Num i), Num h) (paired (nd_data ji) z) ->
     let xy := xy1 (rc_rpc _ _ c) (rc_options _ _ c) (j, i) h in rpc_pixel (rc_rpc _ _ c) (V3 (fst xy) (snd xy) h) (Num j, Num i)) ->
  exists xyz, pixel_to_world_z c ji z = Ok xyz /\
  exists out, world_to_pixel c (Nd "float64" [3; Z.of_nat (List.length xyz)] xyz) = Ok out /\ Forall2 same_pixel (paired (nd_data ji) z) out.
Proof. exact (round_trip C rpc_crs O warp rpc_xy warp1 xy1 warp_pointwise warp_same xy_pointwise). Qed.

(** C94: the boundary at a height is the projection of the image's boundary pixels. *)
Theorem C94_boundary_height : forall cv_surf cast_nan (c : rcam C O) h n t i ji, pixel_boundary (rc_w _ _ c) (rc_h _ _ c) n = Ok ji ->
  exists pts, world_boundary cv_surf cast_nan c (HScalar h) n t i = Ok (map Some pts) /\
  pixel_to_world_z c (Nd "float64" [2; Z.of_nat (List.length ji)] (map num2 ji)) (VScalar (Num h)) = Ok (map fl_vec pts).
Proof. exact (boundary_scalar_is_projection C rpc_crs O warp rpc_xy warp1 xy1 warp_pointwise warp_same xy_pointwise). Qed.

(** C94: on a surface, each of its points is on the pixel's ray between the heights of the surface, and is the first sample under it. *)
Theorem C94_boundary_surface : forall cv_surf cast_nan (c : rcam C O) dtype z n t i pts, world_boundary cv_surf cast_nan c (HArray 2 dtype z) n t (IEnum i) = Ok pts ->
  exists ji low high t', t = Some t' /\ pixel_boundary (rc_w _ _ c) (rc_h _ _ c) n = Ok ji /\ lowest z low /\ highest z high /\
  Forall2 (fun p o => exists rr q, o = Some q /\
    (forall h, pixel_to_world_z c (Nd "float64" [2; 1] [num2 p]) (VScalar (Num h)) = Ok [fl_vec (rr h)]) /\
    meets cv_surf i dtype z t' low high rr q) ji pts.
Proof. exact (boundary_surface_rays C rpc_crs O warp rpc_xy warp1 xy1 warp_pointwise warp_same xy_pointwise). Qed.

(** C94: every pixel of a remapped band is OpenCV's value at the pixel where the camera sees the grid point, or nodata; the mask is true exactly where
    all bands are nodata. *)
Theorem C94_remap : forall cv_image (c : rcam C O) im x y z v i h w, valid_rpc (rc_rpc _ _ c) ->
  grid_ok x -> grid_ok y -> grid_ok z -> image_array im -> grids x y z -> interp_name i -> image_ok im h w -> usable_sizes h w (ah (nd_data x)) (aw (nd_data x)) ->
  exists bands mask, remap cv_image c im x y z (Some v) i = Ok (bands, mask) /\
  Forall2 (fun b out => ah out = ah (nd_data x) /\ aw out = aw (nd_data x) /\ forall row col, 0 <= row < ah (nd_data x) -> 0 <= col < aw (nd_data x) ->
     value_in cv_image (pixel_of (warp1 (camera_crs c) rpc_crs) (rc_rpc _ _ c)) (nd_data x) (nd_data y) (nd_data z) v i b row col (aget out row col)) (nd_data im) bands /\
  ah mask = ah (nd_data x) /\ aw mask = aw (nd_data x) /\
  forall row col, aget mask row col = true <-> forall out, In out bands -> is_nodata v (aget out row col).
Proof.
  exact (fun cv_image c im x y z v i h w V => remap_base cv_image _ _ im x y z v i h w (fun xyz => w2p_ok C rpc_crs O warp warp1 warp_pointwise warp_same c xyz V)).
Qed.

(** C94: images and grids of other types or shapes are a ValueError. *)
Theorem C94_remap_refused : forall cv_image (c : rcam C O) im x y z v i,
  ~ (image_array im /\ grids x y z) -> remap cv_image c im x y z (Some v) i = Err ValueError.
Proof. exact (fun cv_image c => remap_base_refused cv_image _). Qed.

(** C94: GCP cameras: projecting to the world and back gives the pixels, where GDAL's transforms are inverses of each other. *)
Theorem C94_gcp_round_trip : forall gcp_rowcol gcp_xy rc1 gxy1,
  (forall g l, gcp_rowcol g l = map (rc1 g) l) -> (forall g l, gcp_xy g l = map (fun p => gxy1 g (fst p) (snd p)) l) ->
  forall (c : gcam) ji z, pixel_array ji -> heights_for z (List.length (nd_data ji)) -> ~ integers z ->
  (forall p h, In (p, h) (paired (nd_data ji) z) -> exists j i k, (p, h) = ((Num j, Num i), Num k) /\
     let xy := gxy1 (gc_gcps c) (j, i) k in rc1 (gc_gcps c) (V3 (fst xy) (snd xy) k) = (i + / 2, j + / 2)%R) ->
  exists xyz, gcp_p2w_call gcp_xy c ji z = Ok xyz /\
  gcp_w2p_call gcp_rowcol c (Nd "float64" [3; Z.of_nat (List.length xyz)] xyz) = Ok (map fst (paired (nd_data ji) z)).
Proof. exact gcp_round_trip. Qed.

(** C94: GCP objects are kept as they are; but GCPs given as dictionaries, as documented, are always a ValueError. *)
Theorem C94_gcp_dicts_refuted : forall w h gs,
  (exists c, gcp_init w h (map (fun g => GcpObject (g_ji g) (g_xyz g)) gs) = Ok c /\ gc_gcps c = gs /\ gc_w c = w /\ gc_h c = h) /\
  (forall gs', (exists d, In (GcpDict d) gs') -> gcp_init w h gs' = Err ValueError).
Proof. exact (fun w h gs => conj (gcp_objects w h gs) (fun gs' => gcp_dicts w h gs')). Qed.

End Props.

Print Assumptions C93_made.
Print Assumptions C93_not_made.
Print Assumptions C93_world_to_pixel.
Print Assumptions C93_pixel_to_world.
Print Assumptions C93_heights_refuted.
Print Assumptions C93_round_trip.
Print Assumptions C94_boundary_height.
Print Assumptions C94_boundary_surface.
Print Assumptions C94_remap.
Print Assumptions C94_remap_refused.
Print Assumptions C94_gcp_round_trip.
Print Assumptions C94_gcp_dicts_refuted.

(** * Cases *)
Definition demo_dict : dict rval :=
  [("err_bias", RNone); ("line_off", RNum (line_off demo)); ("samp_off", RNum (samp_off demo)); ("lat_off", RNum (lat_off demo)); ("long_off", RNum (long_off demo));
   ("height_off", RNum (height_off demo)); ("line_scale", RNum (line_scale demo)); ("samp_scale", RNum (samp_scale demo)); ("lat_scale", RNum (lat_scale demo));
   ("long_scale", RNum (long_scale demo)); ("height_scale", RNum (height_scale demo)); ("line_num_coeff", RSeq (line_num demo)); ("line_den_coeff", RSeq (line_den demo));
   ("samp_num_coeff", RSeq (samp_num demo)); ("samp_den_coeff", RSeq (samp_den demo))].

(** Two CRSs, of which one is shifted by 100 in x; [true] is that of the RPC model. *)
Definition shift1 (a b : bool) (v : vec) : vec :=
  if Bool.eqb a b then v else if b then V3 (vx v - 100) (vy v) (vz v) else V3 (vx v + 100) (vy v) (vz v).
Definition shift_many (a b : bool) (l : list vec) : list vec := map (shift1 a b) l.
Definition same_xy (r : rpc) (o : unit) (l : list ((R * R) * R)) : list (R * R) := map (fun p => fst p) l.
Definition demo_cam : rcam bool unit := RCam bool unit 4 3 demo tt (Some false).

Example C93_case : complete demo_dict /\ holds_rpc demo_dict demo /\ keeps_heights (shift1 true false) demo /\
  rpc_init bool (fun _ => Ok false) true unit tt shift_many 4 3 (RpcDict demo_dict) None (CrsStr bool "EPSG:3857") = Ok demo_cam.
Proof.
  assert (H : complete demo_dict) by (split; intros k Hk; cbn in Hk |- *; tauto).
  assert (K : keeps_heights (shift1 true false) demo) by (intros h _; reflexivity).
  split; [exact H|]. split; [unfold holds_rpc; cbn; tauto|]. split; [exact K|].
  destruct (C93_made bool (fun _ => Ok false) true unit tt shift_many shift1 (fun _ _ _ => eq_refl) 4 3 (RpcDict demo_dict) demo None (CrsStr bool "EPSG:3857") (Some false)) as (c & E & E1 & E2 & E3 & E4 & E5).
  - split; [exact H|unfold holds_rpc; cbn; tauto].
  - right. split; [discriminate|]. exists false. auto.
  - intros c E. injection E as <-. exact K.
  - rewrite E. destruct c as [w h r [] crs]. cbn in *. subst. f_equal. unfold demo_cam. f_equal. destruct crs as [[]|]; try discriminate; reflexivity.
Qed.

Example C93_projected : exists out, rpc_w2p_call bool true unit shift_many demo_cam (Nd "float64" [3; 3] [(Num 107, Num 5, Num 9); (Num 1, Nan, Num 2); (Num 90, Num 1, Num 0)]) = Ok out /\
  out = [(Num 7, Num 5); (Nan, Nan); (Num (-10), Num 1)].
Proof.
  destruct (C93_world_to_pixel bool true unit shift_many shift1 (fun _ _ _ => eq_refl) (fun a v => ltac:(unfold shift1; rewrite eqb_reflx; reflexivity)) demo_cam
    (Nd "float64" [3; 3] [(Num 107, Num 5, Num 9); (Num 1, Nan, Num 2); (Num 90, Num 1, Num 0)]) demo_valid) as [H _].
  destruct H as (out & E & F); [split; [exists 3; reflexivity|reflexivity]|]. exists out. split; [exact E|]. cbn [nd_data] in F.
  inversion F as [|? a ? l H1 F1]; subst. inversion F1 as [|? b ? l2 H2 F2]; subst. inversion F2 as [|? d ? l3 H3 F3]; subst. inversion F3; subst.
  cbn in H1, H2, H3. subst b.
  assert (S : forall x y z q, rpc_pixel demo (V3 x y z) q -> q = (Num x, Num y)).
  { intros x y z q Hq. apply (rpc_pixel_fun demo (V3 x y z)); [exact Hq|]. pose proof (demo_sees x y z) as Hs. unfold sees in Hs. cbn in Hs. pose proof (finite_pixel demo (V3 x y z) demo_valid) as Fp.
    unfold fl_vec in Fp. cbn [vx vy vz] in Fp. cbn in Fp, Hs. rewrite Hs in Fp. exact Fp. }
  apply S in H1. apply S in H3. subst. repeat f_equal; lra.
Qed.

Example C93_round : heights_for (VVec false [Num 1; Nan]) 2 /\ ~ integers (VVec false [Num 1; Nan]) /\
  paired [(Num 3, Num 4); (Num 5, Num 6)] (VVec false [Num 1; Nan]) = [((Num 3, Num 4), Num 1); ((Num 5, Num 6), Nan)] /\
  forall j i h, rpc_pixel demo (V3 j i h) (Num j, Num i).
Proof.
  split; [left; reflexivity|]. split; [intros []|]. split; [reflexivity|]. intros x y z.
  pose proof (demo_sees x y z) as Hs. unfold sees in Hs. pose proof (finite_pixel demo (V3 x y z) demo_valid) as Fp. unfold fl_vec in Fp. rewrite Hs in Fp. exact Fp.
Qed.

Example C94_case : exists ji pts, pixel_boundary 4 3 None = Ok ji /\
  rpc_boundary_call bool true unit shift_many same_xy (fun _ _ _ => None) (fun _ => Nan) demo_cam (HScalar 7) None None (IEnum "cubic") = Ok pts /\
  nth 0 pts None = Some (V3 (0 + 100) 0 7) /\ List.length pts = 8%nat.
Proof. eexists. eexists. split; [reflexivity|]. split; [reflexivity|]. split; reflexivity. Qed.
