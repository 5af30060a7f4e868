(** Proofs about orthos of frame cameras, with or without distortion. *)
From Coq Require Import List String ZArith Reals Bool Lia Lra.
From Verif Require Import Py Flt Mat Grid_Model Grid_Spec Profile_Spec Remap_Model Remap_Spec Dem_Model Dem_Spec Frame_Model Undist_Model Bound_Model Bound_Spec Rpc_Model Cam_Model Rcam_Model Make_Model
  Proj_Spec Ortho_Model Ortho_Spec Ortho_Proof Whole_Model Whole_Spec Whole_Proof WholeDoc_Proof Survey_Spec.
From Verif Require Bound_Proof Remap_Proof Grid_Proof.
Import ListNotations.
Open Scope string_scope.
Open Scope list_scope.
Open Scope Z_scope.
Local Arguments String.eqb : simpl never.

Section Survey.
Variable cv_surf : string -> arr fl -> fl * fl -> option fl.
Variable cast_nan : string -> fl.
Variable cv_image : string -> arr pix -> fl * fl -> option pix.
Variable convert : string -> string -> pix -> pix.
Variable C : Type.
Variable crs_eqb : C -> C -> bool.
Variable from_string : string -> res C.
Variable rpc_crs : C.
Variable O : Type.
Variable warp : C -> C -> list vec -> list vec.
Variable rpc_xy : rpc -> O -> list ((R * R) * R) -> list (R * R).
Variable transform_bounds : C -> C -> bounds -> bounds.
Variable bounds_in : Z * Z -> affine -> C -> C -> R * R * R * R.
Variable reproject : interp -> C -> C -> R * R -> arr fl -> affine -> arr fl * affine.
Variable to_pixels : affine -> list (R * R) -> list (Z * Z).
Variable fill_poly : Z * Z -> list (Z * Z) -> arr bool.
Hypothesis crs_same : forall a b, crs_eqb a b = true <-> a = b.
Hypothesis cv_border : forall i b j k, (j <= -1 \/ k <= -1 \/ IZR (aw b) <= j \/ IZR (ah b) <= k)%R -> cv_image i b (Num j, Num k) = None.

Notation view_of := (view_of cv_surf cast_nan cv_image convert C rpc_crs O warp rpc_xy).
Notation new_ortho := (new_ortho cv_surf cast_nan cv_image convert C crs_eqb from_string rpc_crs O warp rpc_xy transform_bounds).
Notation process_with := (process_with cv_surf cast_nan cv_image convert C crs_eqb rpc_crs O warp rpc_xy bounds_in reproject to_pixels fill_poly).
Notation do_call := (do_call cv_surf cast_nan cv_image convert).

(** The view of a frame camera, by its calls. *)
Lemma frame_calls : forall cam v, view_of (MadeFrame cam) = Ok v ->
  let ask k := snd (do_call cam k) in
  v_w v = fc_w cam /\ v_h v = fc_h cam /\ v_distort v = s_distort (fc_st cam) /\ v_pinhole v = fc_pinhole cam /\
  (forall x y, v_pixel v (x, y, Nan) = (Nan, Nan)) /\
  (forall X, cam_sees ask X (v_pixel v (num3 X))) /\
  (forall im ix dt nd i, ask (ReadC im ix (Some dt) (Some nd) i) = rmap VImage (v_read v im ix dt nd i)) /\
  (forall z n t i l, v_boundary v (HArray 2 "float32" z) n (Some t) i = Ok l -> exists pts, l = map Some pts) /\
  (exists ji, v_pixels v = Ok ji /\ ask (PixelBoundary None) = Ok (VBoundary ji)) /\
  (forall p, v_centre v p <-> cam_centre ask (fc_w cam) (fc_h cam) p) /\
  (forall z l, v_outline v z l <-> cam_outline ask z l) /\
  (forall hs t i l, v_boundary v (HArray 2 "float32" hs) (Some 400) (Some t) (IEnum i) = Ok (map Some l) <-> cam_surface ask hs t i l).
Proof.
  intros cam v. cbn [Whole_Model.view_of]. unfold frame_view. destruct (test_init cam) as [f|] eqn:Ef; [|discriminate]. cbn [bind]. intros [= <-]. cbv zeta.
  unfold v_centre, v_outline, cam_centre, cam_outline, cam_surface, cam_sees. cbn [v_distort v_pinhole v_pixel v_read v_boundary v_pixels v_w v_h v_position Cam_Model.do_call snd].
  split; [reflexivity|]. split; [reflexivity|]. split.
  { unfold test_init in Ef. destruct (s_ext (fc_st cam)) as [[r t]|]; [|discriminate]. injection Ef as <-. reflexivity. }
  split; [reflexivity|]. split; [intros x y; unfold world_to_pixel; destruct x, y; reflexivity|]. split.
  { intros X. unfold world_to_pixel_call. rewrite Ef. reflexivity. }
  split. { intros im ix dt nd i. destruct (read_call _ _ _ _ _ _ _ _) as [c' r]. reflexivity. }
  split.
  { intros z n t i l. unfold world_boundary_call, frame_world_boundary. rewrite Ef. cbn [bind]. destruct (horizon_fov _ _ _); [discriminate|].
    destruct (frame_pixel_boundary _ _ _ _); [|discriminate]. cbn [bind]. destruct (z_range z) as [[lo hi]|]; [|discriminate]. cbn [bind]. destruct (Rlt_dec _ _); [discriminate|].
    destruct (world_surf _ _ _ _ _ _ _ _ _); [|discriminate]. cbn [bind]. intros [= <-]. eauto. }
  split. { unfold pixel_boundary_call, frame_pixel_boundary, pixel_boundary. cbn [bind fr_distort rmap]. eauto. }
  split; [|split].
  - intros p. unfold pixel_to_world_call. rewrite Ef. cbn. split; intros E; [rewrite E; reflexivity|congruence].
  - intros z l. rewrite rmap_points. reflexivity.
  - intros hs t i l. rewrite rmap_points. reflexivity.
Qed.

(** * Reading *)
Definition one_band (im : imfile) (dt : string) (b : Z) : res (arr pix) :=
  if (b <? 1) then Err IndexError
  else match nth_error (if_bands im) (Z.to_nat (b - 1)) with
       | Some (d, px) => Ok (Arr (if_h im) (if_w im) (fun r c => convert d dt (px r c)))
       | None => Err IndexError
       end.

Lemma mapM_in : forall A B (f : A -> res B) l m x, mapM f l = Ok m -> In x l -> exists y, f x = Ok y.
Proof.
  intros A B f l. induction l as [|a l IH]; intros m x E H; [destruct H|]. cbn [mapM] in E. destruct (f a) as [y|] eqn:Ea; [|discriminate]. cbn [bind] in E.
  destruct (mapM f l) as [m'|] eqn:Em; [|discriminate]. destruct H as [<-|H]; [eauto|]. exact (IH m' x eq_refl H).
Qed.

(** A band can be read by itself when it can be with others. *)
Lemma read_one : forall cam im g dt nd i a b, dt <> "" -> snd (read_call cv_image convert cam (Ok im) (Bands g) (Some dt) (Some nd) i) = Ok a -> In b g ->
  exists shape band, snd (read_call cv_image convert cam (Ok im) (Bands [b]) (Some dt) (Some nd) i) = Ok (Nd dt shape [band]).
Proof.
  intros cam im g dt nd i a b Hdt. unfold read_call, read_image. cbn [bind]. destruct (String.eqb_spec dt "") as [|_]; [contradiction|]. cbn [bind band_list].
  change (fun b0 : Z => if b0 <? 1 then Err IndexError else match nth_error (if_bands im) (Z.to_nat (b0 - 1)) with Some (d, px) => Ok (Arr (if_h im) (if_w im) (fun r c : Z => convert d dt (px r c))) | None => Err IndexError end)
    with (one_band im dt).
  destruct (mapM (one_band im dt) g) as [data|] eqn:Em; [|discriminate]. cbn [bind]. intros E Hb. destruct (mapM_in _ _ _ _ _ _ Em Hb) as (bd & Eb). cbn [mapM]. rewrite Eb. cbn [bind List.length].
  destruct (s_distort (fc_st cam)); [eexists; eexists; reflexivity|].
  unfold validate_image in *. cbn [nd_dtype nd_shape] in *. destruct (negb (one_of dt valid_dtypes)) eqn:E1; [discriminate|]. destruct ((shrt_max <? if_h im) || (shrt_max <? if_w im)) eqn:E2; [discriminate|].
  destruct (read (fc_pinhole cam) (fc_lens cam) (fc_st cam)) as [st maps]. cbn [snd] in *. unfold undistort_im in *. unfold validate_image in *. cbn [nd_dtype nd_shape nd_data] in *. rewrite E1, E2 in *. cbn [bind] in *.
  destruct maps as [m|]; [|eexists; eexists; reflexivity].
  match type of E with context [mapM ?f data] => destruct (mapM f data) as [out|] eqn:Eo; [|discriminate]; assert (X : exists y, f bd = Ok y) end.
  { apply (mapM_in _ _ _ _ _ bd Eo). clear -Em Eb Hb. revert data Em. induction g as [|x g IH]; intros data Em; [destruct Hb|]. cbn [mapM] in Em.
    destruct (one_band im dt x) as [y|] eqn:Ex; [|discriminate]. cbn [bind] in Em. destruct (mapM (one_band im dt) g) as [m'|]; [|discriminate]. injection Em as <-.
    destruct Hb as [->|Hb]; [left; congruence|right; exact (IH Hb m' eq_refl)]. }
  destruct X as (y & X). cbn [mapM]. rewrite X. cbn [bind]. eexists; eexists; reflexivity.
Qed.

Lemma dtype_cases : forall dt nd, nodata_of dt nd -> dt = "float32" \/ dt = "float64" \/ dt = "uint8" \/ dt = "uint16" \/ dt = "int16".
Proof. intros dt nd []; auto. Qed.

Theorem frame_shows : forall cam o src a u d warn, process_with (MadeFrame cam) o src a u = Ok (d, Ok tt, warn) -> runs u d ->
  exists s, src = Ok s /\
  shows cv_image C reproject to_pixels fill_poly (fun k => snd (do_call cam k)) (s_distort (fc_st cam)) (fc_pinhole cam) o s a u d.
Proof.
  intros cam o src a u d warn. unfold Whole_Model.process_with. destruct (view_of (MadeFrame cam)) as [v|] eqn:Ev; [|discriminate]. cbn [bind].
  destruct (frame_calls cam v Ev) as (_ & _ & Hd & Hpin & Hnan & Hsees & Hread & Hsome & _ & _ & _ & Hsurf). cbv zeta in Hsees, Hread, Hsurf.
  set (ask := fun k => snd (do_call cam k)) in *.
  destruct src as [s|]; [|discriminate]. cbn [bind].
  destruct (source_of C s) as [srcs|] eqn:Es; [|discriminate]. cbn [bind].
  destruct (interp_of (a_dem_interp a)) as [di|] eqn:Ei; [|discriminate]. cbn [bind]. apply interp_of_iff in Ei.
  destruct (reproject_dem C crs_eqb bounds_in reproject o di (resolution_of C o a)) as [[hs t]|] eqn:Er; [|discriminate]. cbn [bind].
  apply (reproject_dem_surface C crs_eqb bounds_in reproject crs_same _ _ _ _ _ Ei) in Er.
  destruct (boundary_on v hs t di) as [l|] eqn:El; [|discriminate]. cbn [bind]. intros E (U1 & U2 & U3).
  assert (Hcount : s_count srcs = Z.of_nat (List.length (if_bands (sf_im C s))) /\ 1 <= s_count srcs /\ s_colorinterp srcs = sf_colors C s /\ exists px l, if_bands (sf_im C s) = (s_dtype srcs, px) :: l).
  { unfold source_of in Es. destruct (if_bands (sf_im C s)) as [|[dt px] bs]; [discriminate|]. injection Es as <-. cbn [s_count s_colorinterp s_dtype List.length]. repeat split; try lia. eauto. }
  destruct Hcount as (N1 & N2 & N3 & px0 & bs0 & N4).
  pose proof (process_inv C crs_eqb bounds_in reproject (sample cv_image) to_pixels fill_poly crs_same _ _ _ _ _ _ _ E) as (_ & _ & _ & _ & _ & _ & _ & _ & _ & _ & G1 & _ & _ & _ & G2 & G3 & _ & G4 & _).
  pose proof (process_no_fail C crs_eqb bounds_in reproject (sample cv_image) to_pixels fill_poly crs_same _ _ _ _ _ _ E) as NF.
  pose proof (process_positive C crs_eqb bounds_in reproject (sample cv_image) to_pixels fill_poly crs_same _ _ _ _ _ _ _ E) as (Ph & Pw).
  cbn [w_source w_block w_order w_fail world_of] in NF, G1, G2, G3, G4. specialize (NF N2 U1 U2 U3).
  destruct (Hsome _ _ _ _ _ El) as (poly & ->). pose proof El as El'. unfold boundary_on in El. rewrite (interp_str_name _ _ Ei) in El. apply Hsurf in El.
  assert (Eb : image_polygon to_pixels fill_poly (view_camera v (sf_im C s)) hs t di = fill_poly (ah hs, aw hs) (to_pixels t (map xy_of poly))).
  { unfold image_polygon, view_camera. cbn [k_boundary]. rewrite El', xy_flat. reflexivity. }
  (* the band that is read *)
  assert (Bd : forall i nd b, interp_name (a_interp a) i -> nodata_of (dtype_of a srcs) nd -> 1 <= b <= d_count d ->
    cam_reads ask (sf_im C s) (dtype_of a srcs) nd (a_interp a) b (k_read (view_camera v (sf_im C s)) i (dtype_of a srcs) nd b)).
  { intros i nd b Hi Hnd Hb. rewrite G2 in Hb.
    assert (exists g, In g (index_list (s_count srcs) (a_per_band a)) /\ In b g) as (g & Hg & Hbg).
    { destruct (a_per_band a); unfold index_list; [exists [b]|eexists]; (split; [|try (left; reflexivity)]).
      - apply in_map_iff. exists b. split; [reflexivity|]. apply Grid_Proof.py_range_In; [lia|]. split; [lia|]. exists (b - 1). lia.
      - left. reflexivity.
      - apply Grid_Proof.py_range_In; [lia|]. split; [lia|]. exists (b - 1). lia. }
    assert (exists win, In win (block_windows (d_height d) (d_width d) (u_block u (d_profile d)))) as (win & Hwin).
    { destruct (u_block u (d_profile d)) as [bh bw]. cbn [fst snd] in U1, U2.
      destruct (Grid_Proof.block_windows_cover (d_height d) (d_width d) bh bw U1 U2 0 0) as (win & Hw & _); [unfold in_im; lia|]. eauto. }
    specialize (NF g win Hg Hwin). apply orb_false_iff in NF. destruct NF as (_ & NF). rewrite (proj2 (interp_of_iff _ _) Hi) in NF. fold (dtype_of a srcs) in NF.
    assert (Hl : lookup (KStr (dtype_of a srcs)) Remap_Model.nodata_vals = Ok nd) by (destruct Hnd; reflexivity). rewrite Hl in NF. unfold tile_fails in NF. rewrite (interp_str_name _ _ Hi) in NF.
    destruct (v_read v (Ok (sf_im C s)) (Bands g) (dtype_of a srcs) nd (a_interp a)) as [rd|] eqn:Erd; [|discriminate].
    assert (Hne : dtype_of a srcs <> "") by (intros X; rewrite X in Hnd; inversion Hnd).
    assert (Vr : forall ix, v_read v (Ok (sf_im C s)) ix (dtype_of a srcs) nd (a_interp a) = snd (read_call cv_image convert cam (Ok (sf_im C s)) ix (Some (dtype_of a srcs)) (Some nd) (a_interp a))).
    { clear -Ev. cbn [Whole_Model.view_of] in Ev. unfold frame_view in Ev. destruct (test_init cam); [|discriminate]. injection Ev as <-. reflexivity. }
    rewrite Vr in Erd. destruct (read_one _ _ _ _ _ _ _ b Hne Erd Hbg) as (shape & band & Eband). rewrite <- Vr in Eband.
    exists shape. unfold ask. rewrite Hread, Eband. cbn [rmap]. unfold view_camera. cbn [k_read]. rewrite (interp_str_name _ _ Hi), Eband. reflexivity. }
  (* a value as seen *)
  set (dt := dtype_of a srcs) in *.
  assert (Val : forall i nd r0 c0 b r c w, interp_name (a_interp a) i -> nodata_of dt nd -> 1 <= b <= d_count d ->
    let (x, y) := pixel_centre (d_transform d) r c in
    wanted hs (fill_poly (ah hs, aw hs) (to_pixels t (map xy_of poly))) (r0 + r) (c0 + c) ->
    (w = seen (sample cv_image) (view_camera v (sf_im C s)) i dt nd b x y (aget hs (r0 + r) (c0 + c)) <->
     exists z band q, aget hs (r0 + r) (c0 + c) = Num z /\ cam_reads ask (sf_im C s) dt nd (a_interp a) b band /\ cam_sees ask (V3 x y z) q /\ shown cv_image (a_interp a) band nd q w)).
  { intros i nd r0 c0 b r c w Hi Hnd Hb. destruct (pixel_centre (d_transform d) r c) as [x y]. intros (_ & _ & Nz). destruct (aget hs (r0 + r) (c0 + c)) as [|z]; [contradiction|].
    specialize (Bd i nd b Hi Hnd Hb). unfold seen. set (band := k_read _ _ _ _ _) in *. specialize (Hsees (V3 x y z)). cbn [num3 vx vy vz] in Hsees.
    change (k_w2p (view_camera v (sf_im C s)) (Num x, Num y, Num z)) with (v_pixel v (num3 (V3 x y z))).
    assert (Sh : forall q w, shown cv_image (a_interp a) band nd q w <-> w = match q with (Num j, Num i') => match sample cv_image i band j i' with Some v => v | None => nd end | _ => nd end).
    { intros [[|j] [|k]] w'; cbn [shown]; try reflexivity. unfold sample. rewrite (interp_str_name _ _ Hi). reflexivity. }
    split.
    - intros ->. exists z, band, (v_pixel v (num3 (V3 x y z))). split; [reflexivity|]. split; [exact Bd|]. split; [exact Hsees|]. apply Sh. reflexivity.
    - intros (z' & band' & q & [= <-] & (sh & B1) & Q & S). destruct Bd as (sh' & B2). rewrite B1 in B2. injection B2 as _ Ebd. subst band'. unfold cam_sees in Q, Hsees. rewrite Q in Hsees. injection Hsees as ->.
      apply Sh in S. exact S. }
  exists s. split; [reflexivity|].
  assert (Dec : (s_distort (fc_st cam) = false /\ fc_pinhole cam = false /\ a_interp a <> "nearest" /\ (dt = "uint8" \/ dt = "uint16" \/ dt = "int16")) \/
    ~ (s_distort (fc_st cam) = false /\ fc_pinhole cam = false /\ a_interp a <> "nearest" /\ (dt = "uint8" \/ dt = "uint16" \/ dt = "int16"))).
  { destruct (s_distort (fc_st cam)); [right; intros (X & _); discriminate|]. destruct (fc_pinhole cam); [right; intros (_ & X & _); discriminate|].
    destruct (string_dec (a_interp a) "nearest") as [|Nn]; [right; intros (_ & _ & X & _); contradiction|].
    destruct (string_dec dt "uint8"); [left; auto 10|]. destruct (string_dec dt "uint16"); [left; auto 10|]. destruct (string_dec dt "int16"); [left; auto 10|]. right. intros (_ & _ & _ & [X|[X|X]]); contradiction. }
  destruct Dec as [(D1 & D2 & D3 & D4)|Nb].
  - pose proof (process_dilated C crs_eqb bounds_in reproject (sample cv_image) to_pixels fill_poly crs_same (border cv_image cv_border) o (view_camera v (sf_im C s)) a
      (world_of C v s srcs a u) d warn) as P. cbn [w_source w_block w_order world_of view_camera k_distort k_pinhole] in P. rewrite Hd, Hpin in P.
    specialize (P (fun x y => Hnan x y) E N2 U1 U2 U3 D1 D2 D3 D4). destruct P as (di' & hs' & t' & r0 & c0 & i & nd & P1 & P2 & P3 & P4 & _ & _ & P5 & P6).
    destruct (surface_unique C bounds_in reproject (sample cv_image) to_pixels fill_poly _ _ _ _ _ _ _ _ Er P1) as (<- & -> & ->).
    fold (view_camera v (sf_im C s)) in P5, P6. rewrite Eb in P5, P6. fold dt in P3, P6.
    exists di, hs, t, poly, r0, c0, dt, nd. split; [exact Ei|]. split; [exact Er|]. split; [exact El|]. cbv zeta.
    split; [exact G1|]. split; [rewrite G2; exact N1|]. split; [rewrite G4; exact N3|].
    split; [unfold type_for, dt, dtype_of; destruct (a_dtype a); [reflexivity|eauto]|].
    split; [exact G3|]. split; [exact P3|]. split; [exact P4|]. split; [exact Ph|]. split; [exact Pw|]. split; [exact P5|].
    intros b r c Hb Hin. split; [intros N; destruct N; auto|]. intros _. cbv zeta in P6.
    intros kw kh win Hkw Hkh Hw1 Hw2. specialize (P6 kw kh b r c win Hkw Hkh Hb Hin Hw1 Hw2).
    assert (V : forall b' r' c' w, 1 <= b' <= d_count d ->
      (Ortho_Spec.plain (sample cv_image) (view_camera v (sf_im C s)) i dt nd (d_transform d) hs (fill_poly (ah hs, aw hs) (to_pixels t (map xy_of poly))) r0 c0 b' r' c' w <->
       let (x, y) := pixel_centre (d_transform d) r' c' in
       (~ wanted hs (fill_poly (ah hs, aw hs) (to_pixels t (map xy_of poly))) (r0 + r') (c0 + c') -> w = nd) /\
       (wanted hs (fill_poly (ah hs, aw hs) (to_pixels t (map xy_of poly))) (r0 + r') (c0 + c') ->
        exists z band q, aget hs (r0 + r') (c0 + c') = Num z /\ cam_reads ask (sf_im C s) dt nd (a_interp a) b' band /\ cam_sees ask (V3 x y z) q /\ shown cv_image (a_interp a) band nd q w))).
    { intros b' r' c' w Hb'. unfold Ortho_Spec.plain. specialize (Val i nd r0 c0 b' r' c' w P2 P3 Hb'). destruct (pixel_centre (d_transform d) r' c') as [x y]. split.
      - intros (V1 & V2). split; [exact V2|]. intros W. apply (Val W), (V1 W).
      - intros (V1 & V2). split; [|exact V1]. intros W. apply (Val W), (V2 W). }
    destruct P6 as (Q1 & Q2). split.
    + intros (r' & c' & W1 & W2 & W3). apply Q1. exists r', c'. split; [exact W1|]. split; [exact W2|]. intros b' Hb' Hpb. destruct (W3 b' Hb' Hpb) as (w & X1 & X2). exists w. split; [apply (V b' r' c' w Hb'), X1|exact X2].
    + intros N. apply (V b r c _ Hb), Q2. intros (r' & c' & W1 & W2 & W3). apply N. exists r', c'. split; [exact W1|]. split; [exact W2|]. intros b' Hb' Hpb. destruct (W3 b' Hb' Hpb) as (w & X1 & X2).
      exists w. split; [apply (V b' r' c' w Hb'), X1|exact X2].
  - assert (Hdil : s_distort (fc_st cam) = true \/ fc_pinhole cam = true \/ a_interp a = "nearest" \/ dt = "float32" \/ dt = "float64").
    { destruct (s_distort (fc_st cam)); [auto|]. destruct (fc_pinhole cam); [auto|]. destruct (string_dec (a_interp a) "nearest") as [|Nn]; [auto|].
      pose proof E as E'. apply process_inv in E'; [|exact crs_same]. destruct E' as (? & ? & ? & ? & ? & ? & ? & _ & _ & _ & _ & _ & _ & _ & _ & _ & _ & _ & HR). destruct (HR eq_refl) as (i & nd & _ & Hnd & _).
      cbn [w_source world_of] in Hnd. fold dt in Hnd. destruct (dtype_cases _ _ Hnd) as [X|[X|X]]; auto. exfalso. apply Nb. auto. }
    pose proof (process_end_to_end C crs_eqb bounds_in reproject (sample cv_image) to_pixels fill_poly crs_same (border cv_image cv_border) o (view_camera v (sf_im C s)) a
      (world_of C v s srcs a u) d warn) as P. cbn [w_source w_block w_order world_of view_camera k_distort k_pinhole] in P. rewrite Hd, Hpin in P.
    specialize (P (fun x y => Hnan x y) E N2 U1 U2 U3 Hdil). destruct P as (di' & hs' & t' & r0 & c0 & i & nd & P1 & P2 & P3 & P4 & _ & _ & P5 & P6).
    destruct (surface_unique C bounds_in reproject (sample cv_image) to_pixels fill_poly _ _ _ _ _ _ _ _ Er P1) as (<- & -> & ->).
    fold (view_camera v (sf_im C s)) in P5, P6. rewrite Eb in P5, P6. fold dt in P3, P6.
    exists di, hs, t, poly, r0, c0, dt, nd. split; [exact Ei|]. split; [exact Er|]. split; [exact El|]. cbv zeta.
    split; [exact G1|]. split; [rewrite G2; exact N1|]. split; [rewrite G4; exact N3|].
    split; [unfold type_for, dt, dtype_of; destruct (a_dtype a); [reflexivity|eauto]|].
    split; [exact G3|]. split; [exact P3|]. split; [exact P4|]. split; [exact Ph|]. split; [exact Pw|]. split; [exact P5|].
    intros b r c Hb Hin. split; [|intros X; contradiction]. intros _. specialize (P6 b r c Hb Hin). specialize (Val i nd r0 c0 b r c (bands (d_raster d) b r c) P2 P3 Hb).
    destruct (pixel_centre (d_transform d) r c) as [x y]. destruct P6 as (Q1 & Q2). split; [exact Q2|]. intros W. apply (Val W), (Q1 W).
Qed.

(** * Calls that have a result *)
Lemma frame_readable : forall cam v im, view_of (MadeFrame cam) = Ok v -> if_h im < 32767 -> if_w im < 32767 ->
  (s_distort (fc_st cam) = false -> 0 < fc_w cam < 32767 /\ 0 < fc_h cam < 32767) -> readable v im.
Proof.
  intros cam v im Ev Hh Hwd Hc g dt nm i Hdt Hi Hg nodata.
  assert (Vr : forall ix, v_read v (Ok im) ix dt nodata nm = snd (read_call cv_image convert cam (Ok im) ix (Some dt) (Some nodata) nm)).
  { clear -Ev. cbn [Whole_Model.view_of] in Ev. unfold frame_view in Ev. destruct (test_init cam); [|discriminate]. injection Ev as <-. reflexivity. }
  rewrite Vr. clear Vr. assert (Hne : dt <> "") by (intros ->; repeat destruct Hdt as [Hdt|Hdt]; discriminate).
  destruct (read_bands convert im g dt Hne Hg) as (data & E & F). unfold read_call. rewrite E.
  assert (V : forall l : list (arr pix), validate_image (Nd dt [Z.of_nat (List.length data); if_h im; if_w im] l) = Ok tt).
  { intros l. unfold validate_image. cbn [nd_dtype nd_shape]. replace (one_of dt valid_dtypes) with true by (destruct Hdt as [->|[->|[->|[->| ->]]]]; reflexivity). cbn [negb].
    replace (shrt_max <? if_h im) with false by (symmetry; apply Z.ltb_ge; unfold shrt_max; lia). replace (shrt_max <? if_w im) with false by (symmetry; apply Z.ltb_ge; unfold shrt_max; lia). reflexivity. }
  assert (Fd : Forall (fun b : arr pix => ah b < 32767 /\ aw b < 32767) data) by (eapply Forall_impl; [|exact F]; cbn; intros b (-> & ->); lia).
  destruct (s_distort (fc_st cam)) eqn:Ed; cbn [snd].
  - eexists. split; [reflexivity|]. split; [apply V|exact Fd].
  - rewrite V. destruct (read (fc_pinhole cam) (fc_lens cam) (fc_st cam)) as [st maps]. cbn [snd]. unfold undistort_im. rewrite V. cbn [bind].
    destruct maps as [m|]; [|eexists; split; [reflexivity|split; [apply V|exact Fd]]]. destruct (Hc eq_refl) as (W1 & W2).
    assert (X : exists out, mapM (fun b => do i0 <- interp_get nm; cv_remap (cv_image i0) b (map_array (FCam (fc_pinhole cam) (fc_lens cam) (fc_w cam) (fc_h cam) st) m) (Arr (ah b) (aw b) (fun _ _ => nodata))) data = Ok out /\
      Forall (fun b : arr pix => ah b < 32767 /\ aw b < 32767) out).
    { clear -Fd W1 W2 Hi. assert (In_ : interp_get nm = Ok nm) by (destruct Hi; reflexivity).
      match goal with |- context [mapM ?f data] => assert (Fb : forall b, ah b < 32767 /\ aw b < 32767 -> exists y, f b = Ok y /\ ah y < 32767 /\ aw y < 32767); [|revert Fb; generalize f; intros fb Fb] end.
      { intros b (B1 & B2). rewrite In_. cbn [bind]. unfold cv_remap, map_array. cbn [ah aw fc_h fc_w]. replace (cv_sizes (ah b) (aw b) (fc_h cam) (fc_w cam)) with true.
        2:{ symmetry. unfold cv_sizes. rewrite !(proj2 (Z.ltb_lt _ _)); try reflexivity; unfold shrt_max; lia. }
        cbn [negb]. destruct (_ && _); eexists; (split; [reflexivity|]); cbn [ah aw]; auto. }
      clear -Fd Fb. induction Fd as [|b l B _ (out & IH & Fo)]; [exists []; split; [reflexivity|constructor]|]. destruct (Fb b B) as (y & Ey & By). cbn [mapM]. rewrite Ey. cbn [bind]. rewrite IH. cbn [bind].
      eexists. split; [reflexivity|]. constructor; auto. }
    destruct X as (out & Eo & Fo). cbn [nd_data]. rewrite Eo. cbn [bind nd_dtype nd_shape]. eexists. split; [reflexivity|]. split; [apply V|exact Fo].
Qed.

Theorem frame_succeeds : forall cam o sf a, (s_distort (fc_st cam) = false -> 0 < fc_w cam < 32767 /\ 0 < fc_h cam < 32767) ->
  processes C reproject to_pixels fill_poly bounds_in (cam_surface (fun k => snd (do_call cam k))) o sf a ->
  exists h w p, 0 < h /\ 0 < w /\ forall u, exists d r warn, process_with (MadeFrame cam) o (Ok sf) a u = Ok (d, r, warn) /\ d_height d = h /\ d_width d = w /\ d_profile d = p /\
    (runs u d -> small_tiles C u d -> r = Ok tt).
Proof.
  intros cam o sf a Hc Hpr. destruct (view_of (MadeFrame cam)) as [v|] eqn:Ev.
  2:{ exfalso. destruct Hpr as (_ & (di0 & hs & t & po0 & r0 & c0 & _ & Hq & _) & _). unfold cam_surface in Hq. cbn [Whole_Model.view_of] in Ev. unfold frame_view in Ev.
      cbn [Cam_Model.do_call snd] in Hq. unfold world_boundary_call in Hq. destruct (test_init cam); [discriminate Ev|discriminate Hq]. }
  destruct (frame_calls cam v Ev) as (_ & _ & _ & _ & _ & _ & _ & _ & _ & _ & _ & Hsurf).
  apply (process_succeeds_gen cv_surf cast_nan cv_image convert C crs_eqb rpc_crs O warp rpc_xy bounds_in reproject to_pixels fill_poly crs_same (MadeFrame cam) v o sf a Ev).
  - destruct Hpr as (_ & _ & _ & _ & Hh & Hwd & _). apply (frame_readable cam); assumption.
  - revert Hpr. apply processes_mono. intros hs t j l Q. apply Hsurf, Q.
Qed.

(** * Construction *)
Theorem frame_built : forall cam src dem crs band o, new_ortho (MadeFrame cam) src dem crs band = Ok o ->
  exists demf w, dem = Ok demf /\ 1 <= band <= df_count C demf /\ world_crs from_string crs (do s <- src; Ok (sf_crs C s)) w /\
  built_for C (height_in C warp) transform_bounds rpc_crs (fun k => snd (do_call cam k)) (fc_w cam) (fc_h cam) w demf band o.
Proof.
  intros cam src dem crs band o E. apply new_ortho_inv in E. destruct E as (demf & v & Ew & -> & Hb & Ev & Ed & Eg).
  destruct (frame_calls cam v Ev) as (Hw & Hh & _ & _ & _ & _ & _ & _ & (ji & Ej & Ej') & Hcen & Hout & _). cbv zeta in *.
  exists demf, (or_crs o). split; [reflexivity|]. split; [exact Hb|]. split; [exact Ew|].
  destruct (init_dem_part C crs_eqb rpc_crs warp transform_bounds crs_same _ _ _ _ _ _ _ Ed) as (D1 & D2 & D3).
  split; [reflexivity|]. split; [exact D1|]. split; [exact D2|]. split.
  - intros Nu. destruct (D3 Nu) as (p & scale & all & r1 & c1 & l1 & l2 & rl & cl & zl & rh & ch & zh & q1 & q2 & r0 & c0 & A1 & A2 & A3 & A4 & A5 & A6 & A7 & A8 & A9 & A10 & A11).
    exists p, scale, all, r1, c1, l1, l2, rl, cl, zl, rh, ch, zh, q1, q2, r0, c0. split; [apply Hcen, A1|]. split; [exact A2|]. split; [apply Hout, A3|]. split; [apply Hout, A4|].
    split; [exact A5|]. split; [exact A6|]. split; [exact A7|]. split; [exact A8|]. split; [apply Hout, A9|]. split; [apply Hout, A10|]. exact A11.
  - unfold Whole_Model.gsd in Eg. rewrite Ej in Eg. cbn [bind] in Eg. destruct (numbers_of (or_dem o)) as [|z0 zs] eqn:En; [discriminate|]. rewrite <- En in Eg.
    destruct (aff_apply (or_dem_t o) _ _) as [x y] eqn:Ea. destruct (v_boundary v _ None None (IEnum "cubic")) as [xyz|] eqn:Eb; [|discriminate]. cbn [bind] in Eg.
    destruct (all_some xyz) as [pts|] eqn:Es; [|discriminate]. injection Eg as Eg. apply all_some_is in Es. subst xyz.
    exists (median (numbers_of (or_dem o))), pts, ji. split; [apply median_is; rewrite En; discriminate|]. split; [exact Ej'|]. rewrite Ea. rewrite D1 in Eb. split; [apply Hout, Eb|].
    intros q q' Nz. assert (Ar : (0 < area_poly ji)%R). { rewrite (Bound_Proof.area_poly_signed ji q'). apply Rabs_pos_lt, Nz. }
    pose proof (Bound_Proof.gsd_area ji (map (fun p => (vx p, vy p)) pts) Ar) as (G1 & G2 & _). rewrite <- Eg. split; [exact G2|].
    rewrite <- !Bound_Proof.area_poly_signed. exact G1.
Qed.

Theorem frame_inside : forall cam src demf crs w band, world_crs from_string crs (do s <- src; Ok (sf_crs C s)) w ->
  inside C (height_in C warp) rpc_crs (cam_centre (fun k => snd (do_call cam k)) (fc_w cam) (fc_h cam)) (cam_outline (fun k => snd (do_call cam k))) w demf band ->
  exists o, new_ortho (MadeFrame cam) src (Ok demf) crs band = Ok o /\ has_all C demf band o.
Proof.
  intros cam src demf crs w band Ew I. destruct (view_of (MadeFrame cam)) as [v|] eqn:Ev.
  2:{ exfalso. destruct I as (_ & _ & _ & _ & (p & _ & _ & Hq & _) & _). unfold cam_centre in Hq. cbn [Whole_Model.view_of] in Ev. unfold frame_view in Ev.
      cbn [Cam_Model.do_call snd] in Hq. unfold pixel_to_world_call in Hq. destruct (test_init cam); [discriminate Ev|discriminate Hq]. }
  destruct (frame_calls cam v Ev) as (_ & _ & _ & _ & _ & _ & _ & _ & (ji & Ej & _) & Hcen & Hout & _).
  apply (inside_ortho_gen cv_surf cast_nan cv_image convert C crs_eqb from_string rpc_crs O warp rpc_xy transform_bounds crs_same (MadeFrame cam) v src demf crs w band Ev); [eauto|exact Ew|].
  revert I. apply inside_mono; [intros p Q; apply Hcen, Q|intros z l Q; apply Hout, Q].
Qed.

(** Bands that are read have the size of the image. *)
Lemma mapM_out : forall A B (f : A -> res B) (P : B -> Prop) l m, mapM f l = Ok m -> (forall x y, In x l -> f x = Ok y -> P y) -> List.length m = List.length l /\ Forall P m.
Proof.
  intros A B f P l. induction l as [|x l IH]; intros m E H; cbn [mapM] in E; [injection E as <-; split; [reflexivity|constructor]|].
  destruct (f x) as [y|] eqn:Ey; [|discriminate]. cbn [bind] in E. destruct (mapM f l) as [ys|] eqn:Es; [|discriminate]. cbn [bind] in E. injection E as <-.
  destruct (IH ys eq_refl) as (L & F); [intros x' y' Hx; apply H; right; exact Hx|]. split; [cbn; congruence|]. constructor; [apply (H x y); [left; reflexivity|exact Ey]|exact F].
Qed.

Lemma read_sizes : forall cam im g dt nd i a, dt <> "" -> snd (read_call cv_image convert cam (Ok im) (Bands g) (Some dt) (Some nd) i) = Ok a ->
  List.length (nd_data a) = List.length g /\ Forall (fun b => ah b = if_h im /\ aw b = if_w im) (nd_data a).
Proof.
  intros cam im g dt nd i a Hdt. unfold read_call, read_image. cbn [bind]. destruct (String.eqb_spec dt "") as [|_]; [contradiction|]. cbn [bind band_list].
  change (fun b0 : Z => if b0 <? 1 then Err IndexError else match nth_error (if_bands im) (Z.to_nat (b0 - 1)) with Some (d, px) => Ok (Arr (if_h im) (if_w im) (fun r c : Z => convert d dt (px r c))) | None => Err IndexError end)
    with (one_band im dt).
  destruct (mapM (one_band im dt) g) as [data|] eqn:Em; [|discriminate]. cbn [bind].
  assert (D : List.length data = List.length g /\ Forall (fun b => ah b = if_h im /\ aw b = if_w im) data).
  { apply (mapM_out _ _ _ _ _ _ Em). intros x y _ Hy. unfold one_band in Hy. destruct (x <? 1); [discriminate|]. destruct (nth_error _ _) as [[d px]|]; [|discriminate]. injection Hy as <-. auto. }
  destruct (s_distort (fc_st cam)); [intros E; injection E as <-; exact D|].
  destruct (validate_image _) as [x1|]; [|discriminate]. destruct (read (fc_pinhole cam) (fc_lens cam) (fc_st cam)) as [st maps]. cbn [snd]. unfold undistort_im.
  destruct (validate_image _) as [x2|]; [|discriminate]. cbn [bind]. destruct maps as [m|]; [|intros E; injection E as <-; exact D]. cbn [nd_data].
  match goal with |- context [mapM ?f data] => destruct (mapM f data) as [out|] eqn:Eo; [|discriminate] end. cbn [bind]. intros E. injection E as <-. cbn [nd_data].
  destruct D as (L & F). rewrite Forall_forall in F. rewrite <- L. apply (mapM_out _ _ _ _ _ _ Eo). intros x y Hx Hy. cbn beta in Hy. destruct (interp_get i); [|discriminate]. cbn [bind] in Hy.
  unfold cv_remap in Hy. destruct (negb _); [discriminate|]. destruct (_ && _)%bool; injection Hy as <-; cbn [ah aw]; apply F, Hx.
Qed.

(** An image is not made of a source that is too large for OpenCV. *)
Theorem frame_fits : forall cam o s a u d warn, process_with (MadeFrame cam) o (Ok s) a u = Ok (d, Ok tt, warn) -> runs u d ->
  if_h (sf_im C s) < 32767 /\ if_w (sf_im C s) < 32767 /\ forall win, In win (block_windows (d_height d) (d_width d) (u_block u (d_profile d))) -> height win < 32767 /\ width win < 32767.
Proof.
  intros cam o s a u d warn. unfold Whole_Model.process_with. destruct (view_of (MadeFrame cam)) as [v|] eqn:Ev; [|discriminate]. cbn [bind].
  destruct (source_of C s) as [srcs|] eqn:Es; [|discriminate]. cbn [bind].
  destruct (interp_of (a_dem_interp a)) as [di|] eqn:Ei; [|discriminate]. cbn [bind].
  destruct (reproject_dem C crs_eqb bounds_in reproject o di (resolution_of C o a)) as [[hs t]|] eqn:Er; [|discriminate]. cbn [bind].
  destruct (boundary_on v hs t di) as [l|] eqn:El; [|discriminate]. cbn [bind]. intros E (U1 & U2 & U3).
  assert (N2 : 1 <= s_count srcs) by (unfold source_of in Es; destruct (if_bands (sf_im C s)) as [|[dt px] bs]; [discriminate|]; injection Es as <-; cbn [s_count]; lia).
  destruct (process_inv C crs_eqb bounds_in reproject (sample cv_image) to_pixels fill_poly crs_same _ _ _ _ _ _ _ E) as (di0 & s0 & st0 & dem0 & t0 & p0 & wm0 & _ & _ & _ & _ & _ & _ & _ & _ & _ & _ & _ & G).
  destruct (G eq_refl) as (i & nd & Hi & Hnd & _). cbn [w_source world_of] in Hnd. clear G.
  pose proof (process_no_fail C crs_eqb bounds_in reproject (sample cv_image) to_pixels fill_poly crs_same _ _ _ _ _ _ E) as NF.
  pose proof (process_positive C crs_eqb bounds_in reproject (sample cv_image) to_pixels fill_poly crs_same _ _ _ _ _ _ _ E) as (Ph & Pw).
  cbn [w_source w_block w_order w_fail world_of] in NF. specialize (NF N2 U1 U2 U3).
  assert (exists g, In g (index_list (s_count srcs) (a_per_band a)) /\ In 1 g) as (g & Hg & Hbg).
  { destruct (a_per_band a); unfold index_list; [exists [1]|eexists]; (split; [|try (left; reflexivity)]).
    - apply in_map_iff. exists 1. split; [reflexivity|]. apply Grid_Proof.py_range_In; [lia|]. split; [lia|]. exists 0. lia.
    - left. reflexivity.
    - apply Grid_Proof.py_range_In; [lia|]. split; [lia|]. exists 0. lia. }
  assert (W : forall win, In win (block_windows (d_height d) (d_width d) (u_block u (d_profile d))) ->
    (if_h (sf_im C s) < 32767 /\ if_w (sf_im C s) < 32767) /\ height win < 32767 /\ width win < 32767).
  { intros win Hwin. specialize (NF g win Hg Hwin). apply orb_false_iff in NF. destruct NF as (_ & NF). rewrite (proj2 (interp_of_iff _ _) Hi) in NF. fold (dtype_of a srcs) in NF.
    assert (Hl : lookup (KStr (dtype_of a srcs)) Remap_Model.nodata_vals = Ok nd) by (destruct Hnd; reflexivity). rewrite Hl in NF. unfold tile_fails in NF. rewrite (interp_str_name _ _ Hi) in NF.
    destruct (v_read v (Ok (sf_im C s)) (Bands g) (dtype_of a srcs) nd (a_interp a)) as [rd|] eqn:Erd; [|discriminate].
    assert (Hne : dtype_of a srcs <> "") by (intros X; rewrite X in Hnd; inversion Hnd).
    assert (Vr : v_read v (Ok (sf_im C s)) (Bands g) (dtype_of a srcs) nd (a_interp a) = snd (read_call cv_image convert cam (Ok (sf_im C s)) (Bands g) (Some (dtype_of a srcs)) (Some nd) (a_interp a))).
    { clear -Ev. cbn [Whole_Model.view_of] in Ev. unfold frame_view in Ev. destruct (test_init cam); [|discriminate]. injection Ev as <-. reflexivity. }
    rewrite Vr in Erd. destruct (read_sizes _ _ _ _ _ _ _ Hne Erd) as (Ln & F). destruct (validate_image rd); [|discriminate].
    destruct (nd_data rd) as [|b bs]; [destruct g; [destruct Hbg|discriminate]|]. inversion F as [|? ? (Fh & Fw) _]; subst. cbn [existsb] in NF. apply orb_false_iff in NF. destruct NF as (NF & _).
    apply negb_false_iff in NF. apply Cam_Proof.cv_sizes_iff in NF. unfold Cam_Spec.usable_sizes, Cam_Spec.cv_size in NF. rewrite <- Fh, <- Fw. lia. }
  assert (exists win, In win (block_windows (d_height d) (d_width d) (u_block u (d_profile d)))) as (win & Hwin).
  { destruct (u_block u (d_profile d)) as [bh bw]. cbn [fst snd] in U1, U2.
    destruct (Grid_Proof.block_windows_cover (d_height d) (d_width d) bh bw U1 U2 0 0) as (win & Hw & _); [unfold in_im; lia|]. eauto. }
  destruct (W win Hwin) as ((W1 & W2) & _). split; [exact W1|]. split; [exact W2|]. intros win' Hw. apply W, Hw.
Qed.
End Survey.
