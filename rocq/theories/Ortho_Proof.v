(** Proofs about orthorectification end to end. *)
From Coq Require Import List String ZArith QArith Reals Bool Lia Lra Permutation.
From Verif Require Import Py Flt Grid_Model Grid_Spec Grid_Proof Profile_Model Profile_Spec Profile_Proof Remap_Model Remap_Spec Remap_Proof Dem_Model Dem_Spec Dem_Proof
  Ortho_Model Ortho_Spec.
Import ListNotations.
Open Scope string_scope.
Open Scope list_scope.
Open Scope Z_scope.
Local Arguments String.eqb : simpl never.

Lemma interp_of_iff : forall s i, interp_of s = Ok i <-> interp_name s i.
Proof.
  intros s i. unfold interp_of. cbn. split.
  - repeat match goal with |- context[String.eqb s ?x] =>
      let H := fresh in destruct (String.eqb s x) eqn:H; [apply String.eqb_eq in H; subst; cbn; intros [= <-]; constructor|] end.
    discriminate.
  - intros []; reflexivity.
Qed.

Lemma interp_of_err : forall s, (forall i, ~ interp_name s i) <-> interp_of s = Err ValueError.
Proof.
  intros s. split.
  - intros H. destruct (interp_of s) eqn:E; [exfalso; eapply H; apply interp_of_iff; eassumption|].
    unfold interp_of in E. destruct (find _ _); inversion E; reflexivity.
  - intros H i Hi. apply interp_of_iff in Hi. congruence.
Qed.

Lemma nodata_iff : forall dt nd, lookup (KStr dt) Remap_Model.nodata_vals = Ok nd <-> nodata_of dt nd.
Proof.
  intros dt nd. cbn. split.
  - repeat match goal with |- context[String.eqb dt ?x] =>
      let H := fresh in destruct (String.eqb dt x) eqn:H; [apply String.eqb_eq in H; subst; cbn; intros [= <-]; constructor|] end.
    discriminate.
  - intros []; reflexivity.
Qed.

Lemma Req_b_iff : forall x y, Req_b x y = true <-> x = y.
Proof. intros. unfold Req_b. destruct (Req_EM_T x y); split; congruence. Qed.

Lemma Rgtb_iff : forall x y, Rgtb x y = true <-> (x > y)%R.
Proof. intros. unfold Rgtb. destruct (Rgt_dec x y); split; congruence. Qed.

Section Ortho.
Variable C : Type.
Variable crs_eqb : C -> C -> bool.
Variable from_string : string -> res C.
Variable bounds_in : Z * Z -> affine -> C -> C -> R * R * R * R.
Variable reproject : interp -> C -> C -> R * R -> arr fl -> affine -> arr fl * affine.
Variable cv_sample : interp -> arr pix -> R -> R -> option pix.
Variable to_pixels : affine -> list (R * R) -> list (Z * Z).
Variable fill_poly : Z * Z -> list (Z * Z) -> arr bool.
Hypothesis crs_eqb_iff : forall a b, crs_eqb a b = true <-> a = b.

Notation process := (process C crs_eqb bounds_in reproject cv_sample to_pixels fill_poly).
Notation reproject_dem := (reproject_dem C crs_eqb bounds_in reproject).

(** * CRS *)
Lemma parse_crs_ok : forall p src c, parse_crs C from_string p src = Ok c <-> world_crs from_string p src c.
Proof.
  intros p src c. destruct p as [|s|c']; cbn; split.
  - destruct src as [[c'|]|]; cbn; try discriminate. intros [= ->]. apply W_source; auto.
  - intros H. inversion H; subst. reflexivity.
  - destruct (String.eqb_spec s "") as [->|Hs].
    + destruct src as [[c'|]|]; cbn; try discriminate. intros [= ->]. apply W_source; auto.
    + intros H. constructor; assumption.
  - intros H. inversion H; subst.
    + destruct (String.eqb_spec s "") as [->|]; [congruence|assumption].
    + destruct H0 as [H0|H0]; inversion H0; subst. reflexivity.
  - intros [= ->]. constructor.
  - intros H. inversion H; subst; [reflexivity|]. destruct H0; discriminate.
Qed.

Theorem init_crs : forall p src get_dem get_gsd o,
  ortho_init C from_string true p src get_dem get_gsd = Ok o ->
  world_crs from_string p src (or_crs o) /\
  get_dem (or_crs o) = Ok (or_dem o, or_dem_t o, or_dem_crs o) /\
  or_gsd o = get_gsd (or_crs o) (or_dem o) (or_dem_t o) (or_dem_crs o).
Proof.
  intros p src gd gg o. unfold ortho_init. cbn [negb]. destruct (parse_crs _ _ _ _) as [c|] eqn:E; [|discriminate]. cbn.
  destruct (gd c) as [[[d t] dc]|] eqn:G; [|discriminate]. cbn. intros [= <-]. cbn.
  split; [apply parse_crs_ok; assumption|]. split; [assumption|reflexivity].
Qed.

Theorem init_no_crs : forall src p get_dem get_gsd, p = PNone \/ p = PText "" -> src = Ok None ->
  ortho_init C from_string true p src get_dem get_gsd = Err CrsMissingError.
Proof. intros src p gd gg [->| ->] ->; reflexivity. Qed.

Theorem init_crs_missing : forall src p get_dem get_gsd,
  (forall s, from_string s <> Err CrsMissingError) -> (forall c, get_dem c <> Err CrsMissingError) -> src <> Err CrsMissingError ->
  ortho_init C from_string true p src get_dem get_gsd = Err CrsMissingError ->
  (p = PNone \/ p = PText "") /\ src = Ok None.
Proof.
  intros src p gd gg Hs Hd Hsrc. unfold ortho_init. cbn [negb]. destruct (parse_crs _ _ _ _) as [c|e] eqn:E.
  - cbn. destruct (gd c) as [[[d t] dc]|] eqn:G; cbn; [discriminate|]. intros [= ->]. apply Hd in G. contradiction.
  - cbn. intros [= ->]. destruct p as [|s|c]; cbn in E.
    + destruct src as [[c|]|]; cbn in E; try discriminate; [auto|congruence].
    + destruct (String.eqb_spec s "") as [->|]; [|apply Hs in E; contradiction].
      destruct src as [[c|]|]; cbn in E; try discriminate; [auto|congruence].
    + discriminate.
Qed.

(** * The surface *)
Lemma pixel_size_iff : forall (o : ortho C) a rx ry, resolution_of C o a = (rx, ry) <-> pixel_size o a rx ry.
Proof.
  intros o a rx ry. unfold resolution_of, pixel_size. destruct (a_resolution a) as [[x y]|]; split.
  all: first [intros [= <- <-]; auto | intros [-> ->]; reflexivity].
Qed.

Lemma own_surface : forall (o : ortho C) rx ry,
  crs_eqb (or_dem_crs o) (or_crs o) && (Req_b rx (Rabs (ta (or_dem_t o))) && Req_b ry (Rabs (te (or_dem_t o)))) = true <->
  or_dem_crs o = or_crs o /\ has_size (or_dem_t o) rx ry.
Proof.
  intros. rewrite !andb_true_iff, !Req_b_iff, crs_eqb_iff. unfold has_size. split; intros (A & B & D); repeat split; congruence.
Qed.

Lemma reproject_dem_surface : forall o a i s t, interp_name (a_dem_interp a) i ->
  reproject_dem o i (resolution_of C o a) = Ok (s, t) -> surface reproject o a i s t.
Proof.
  intros o a i s t Hi. destruct (resolution_of C o a) as [rx ry] eqn:ER. apply pixel_size_iff in ER.
  unfold Ortho_Model.reproject_dem. cbn [fst snd].
  destruct (crs_eqb _ _ && _) eqn:E.
  - intros [= <- <-]. apply own_surface in E. destruct E. econstructor; eassumption.
  - destruct (bounds_in _ _ _ _) as [[[x0 y0] x1] y1]. destruct (_ || _); [discriminate|]. intros [= H].
    apply S_reprojected with (rx := rx) (ry := ry); try assumption.
    intros H'. apply own_surface in H'. congruence.
Qed.

(** C71: error of a resolution that is too large. *)
Theorem resolution_error : forall o k a w i rx ry, interp_name (a_dem_interp a) i -> pixel_size o a rx ry ->
  ~ (or_dem_crs o = or_crs o /\ has_size (or_dem_t o) rx ry) ->
  (let '(x0, y0, x1, y1) := bounds_in (ah (or_dem o), aw (or_dem o)) (or_dem_t o) (or_dem_crs o) (or_crs o) in
   rx > x1 - x0 \/ ry > y1 - y0)%R ->
  process o k a w = Err OrthorityError.
Proof.
  intros o k a w i rx ry Hi Hp Hn Hb. unfold Ortho_Model.process. apply interp_of_iff in Hi. rewrite Hi. cbn [bind].
  apply pixel_size_iff in Hp. rewrite Hp. unfold Ortho_Model.reproject_dem. cbn [fst snd].
  destruct (crs_eqb _ _ && _) eqn:E; [apply own_surface in E; contradiction|].
  destruct (bounds_in _ _ _ _) as [[[x0 y0] x1] y1].
  replace (_ || _) with true; [reflexivity|]. symmetry. apply orb_true_iff. rewrite !Rgtb_iff. assumption.
Qed.

(** * The dataset *)
Definition image_polygon (k : camera) (s : arr fl) (st : affine) (di : interp) : arr bool :=
  fill_poly (ah s, aw s) (to_pixels st (k_boundary k s st di)).

Lemma process_inv : forall o k a w d r warn, process o k a w = Ok (d, r, warn) ->
  exists di s st dem t p wm, surface reproject o a di s st /\
  mask_dem s st (to_pixels st (k_boundary k s st di)) (image_polygon k s st di) true true = Ok (dem, t, warn) /\
  let dt := dtype_of a (w_source w) in
  create_profile (a_driver a) (s_count (w_source w), ah dem, aw dem) dt (a_compress a) (a_write_mask a) (a_options a) = Ok (p, wm) /\
  d_crs d = or_crs o /\ d_transform d = t /\ d_height d = ah dem /\ d_width d = aw dem /\ d_count d = s_count (w_source w) /\
  d_dtype d = dt /\ d_profile d = p /\ d_colorinterp d = s_colorinterp (w_source w) /\
  (r = Ok tt -> exists i nd, interp_name (a_interp a) i /\ nodata_of dt nd /\
    ortho_remap (make_job C cv_sample o k (w_source w) dt nd i dem t wm (w_block w p) (w_fail w)) (a_per_band a) (w_order w) (w_empty w)
    = (d_raster d, Ok tt)).
Proof.
  intros o k a w d r warn. unfold Ortho_Model.process.
  destruct (interp_of (a_dem_interp a)) as [di|] eqn:EI; [|discriminate]. cbn [bind].
  destruct (reproject_dem o di _) as [[s st]|] eqn:ER; [|discriminate]. cbn [bind].
  unfold crop_to_image. destruct (mask_dem _ _ _ _ _ _) as [[[dem t] wn]|] eqn:EM; [|discriminate]. cbn [bind].
  unfold write_ortho. set (dt := match a_dtype a with Some d => d | None => _ end).
  destruct (create_profile _ _ _ _ _ _) as [[p wm]|] eqn:EP; [|discriminate]. cbn [bind].
  intros H. exists di, s, st, dem, t, p, wm. apply interp_of_iff in EI.
  split; [apply reproject_dem_surface; assumption|].
  assert (HW : wn = warn).
  { destruct (interp_of (a_interp a)); [|inversion H; reflexivity].
    destruct (lookup _ _); [|inversion H; reflexivity]. destruct (ortho_remap _ _ _ _). inversion H; reflexivity. }
  subst wn. split; [assumption|]. cbv zeta. split; [assumption|].
  change (dtype_of a (w_source w)) with dt.
  destruct (interp_of (a_interp a)) as [i|] eqn:EI'; [|inversion H; subst; cbn; repeat split; discriminate].
  destruct (lookup _ _) as [nd|] eqn:EN; [|inversion H; subst; cbn; repeat split; discriminate].
  destruct (ortho_remap _ _ _ _) as [ras rr] eqn:EO. inversion H; subst; clear H. cbn. repeat (split; [reflexivity|]).
  intros ->. exists i, nd. split; [apply interp_of_iff; assumption|]. split; [apply nodata_iff; assumption|]. assumption.
Qed.

Lemma surface_size : reprojects_to_size reproject -> forall o a i s t, positive_size o a -> surface reproject o a i s t ->
  exists rx ry, pixel_size o a rx ry /\ has_size t rx ry.
Proof.
  intros Hc o a i s t Hpos H. destruct H; exists rx, ry; (split; [assumption|]); [assumption|].
  destruct (Hpos rx ry) as [P1 P2]; [assumption|].
  specialize (Hc i (or_dem_crs o) (or_crs o) rx ry (or_dem o) (or_dem_t o) P1 P2). rewrite H2 in Hc. assumption.
Qed.

Lemma surface_unique : forall o a i i' s s' t t', surface reproject o a i s t -> surface reproject o a i' s' t' -> i = i' /\ s' = s /\ t' = t.
Proof.
  assert (I : forall n i i', interp_name n i -> interp_name n i' -> i = i').
  { intros n i i' A B. apply interp_of_iff in A, B. congruence. }
  assert (P : forall (o : ortho C) a rx ry rx' ry', pixel_size o a rx ry -> pixel_size o a rx' ry' -> rx = rx' /\ ry = ry').
  { intros o a rx ry rx' ry' A B. apply pixel_size_iff in A, B. rewrite A in B. injection B as -> ->. auto. }
  intros o a i i' s s' t t' A B. destruct A; destruct B.
  all: match goal with X : pixel_size _ _ ?x ?y, Y : pixel_size _ _ ?x' ?y' |- _ => tryif constr_eq X Y then fail else destruct (P _ _ _ _ _ _ X Y); subst end.
  all: match goal with X : interp_name _ ?i, Y : interp_name _ ?i' |- _ => tryif constr_eq X Y then fail else pose proof (I _ _ _ X Y); subst end.
  all: try (exfalso; tauto). all: repeat split; try reflexivity; congruence.
Qed.

Lemma same_position_linear : forall t' t r0 c0, same_position t' t r0 c0 -> ta t' = ta t /\ tb t' = tb t /\ td t' = td t /\ te t' = te t.
Proof.
  intros t' t r0 c0 H. pose proof (H 0%R 0%R) as H0. pose proof (H 1%R 0%R) as H1. pose proof (H 0%R 1%R) as H2.
  unfold aff_apply in *. injection H0 as A B. injection H1 as D E. injection H2 as F G. repeat split; lra.
Qed.

Theorem process_grid : reprojects_to_size reproject -> forall o k a w d r warn, positive_size o a -> process o k a w = Ok (d, r, warn) ->
  d_crs d = or_crs o /\ d_count d = s_count (w_source w) /\ d_dtype d = dtype_of a (w_source w) /\
  d_colorinterp d = s_colorinterp (w_source w) /\
  exists rx ry, pixel_size o a rx ry /\ has_size (d_transform d) rx ry.
Proof.
  intros Hc o k a w d r warn Hsz H. apply process_inv in H.
  destruct H as (di & s & st & dem & t & p & wm & Hs & HM & HP & H1 & H2 & H3 & H4 & H5 & H6 & H7 & H8 & _).
  repeat (split; [assumption|]). destruct (surface_size Hc _ _ _ _ _ Hsz Hs) as (rx & ry & Hp & Hz). exists rx, ry. split; [assumption|].
  apply mask_dem_ok in HM. destruct HM as (r0 & c0 & Hpos & _). apply same_position_linear in Hpos.
  destruct Hpos as (A & _ & _ & E). rewrite H2. unfold has_size in *. rewrite A, E. assumption.
Qed.

(** The value at a pixel of the dataset. *)
Lemma ortho_value_seen : forall o k src dt nd i dem t wm block fail b r c, transparent_border (cv_sample i) ->
  let job := make_job C cv_sample o k src dt nd i dem t wm block fail in
  let (x, y) := pixel_centre t r c in
  ortho_value job b r c = seen cv_sample k i dt nd b x y (aget dem r c).
Proof.
  intros o k src dt nd i dem t wm block fail b r c Ht. cbv zeta. unfold ortho_value.
  cbn [o_transform make_job]. destruct (pixel_centre t r c) as [x y]. unfold source_value, seen. cbn.
  destruct (k_w2p k _) as [[|j] [|i']]; cbn; try reflexivity; rewrite Ht; try reflexivity; lra.
Qed.

Theorem process_end_to_end : (forall i, transparent_border (cv_sample i)) ->
  forall o k a w d warn, no_height_unseen k -> process o k a w = Ok (d, Ok tt, warn) ->
  1 <= s_count (w_source w) -> 0 < fst (w_block w (d_profile d)) -> 0 < snd (w_block w (d_profile d)) ->
  (forall g, Permutation (w_order w g) (block_windows (d_height d) (d_width d) (w_block w (d_profile d)))) ->
  let dt := dtype_of a (w_source w) in
  k_distort k = true \/ k_pinhole k = true \/ a_interp a = "nearest" \/ dt = "float32" \/ dt = "float64" ->
  exists di s st r0 c0 i nd,
    surface reproject o a di s st /\ interp_name (a_interp a) i /\ nodata_of dt nd /\
    same_position (d_transform d) st r0 c0 /\ 0 < d_height d /\ 0 < d_width d /\
    (forall r c, wanted s (image_polygon k s st di) r c -> in_im (d_height d) (d_width d) (r - r0) (c - c0)) /\
    forall b r c, in_range (d_count d) b -> in_im (d_height d) (d_width d) r c ->
    let (x, y) := pixel_centre (d_transform d) r c in
    (wanted s (image_polygon k s st di) (r0 + r) (c0 + c) ->
     bands (d_raster d) b r c = seen cv_sample k i dt nd b x y (aget s (r0 + r) (c0 + c))) /\
    (~ wanted s (image_polygon k s st di) (r0 + r) (c0 + c) -> bands (d_raster d) b r c = nd).
Proof.
  intros Ht o k a w d warn Hk H Hc Hb1 Hb2 Ho dt Hdil. apply process_inv in H.
  destruct H as (di & s & st & dem & t & p & wm & Hs & HM & HP & H1 & H2 & H3 & H4 & H5 & H6 & H7 & H8 & HR).
  destruct (HR eq_refl) as (i & nd & Hi & Hnd & HO). clear HR. fold dt in Hnd, HO, HP.
  pose proof (mask_dem_ok _ _ _ _ _ _ _ _ HM) as (r0 & c0 & Hpos & A0 & B0 & A1 & B1 & Hwant & Hrest & (ca & Wa) & _).
  destruct (Hwant _ _ Wa) as (D1 & D2 & _).
  exists di, s, st, r0, c0, i, nd. rewrite H2, H3, H4, H5.
  repeat (split; [assumption||lia|]). split.
  { intros r c W. destruct (Hwant _ _ W) as (E1 & E2 & _). unfold in_im. lia. }
  intros b r c Hb Hin.
  set (job := make_job _ _ _ _ _ _ _ _ _ _ _ _ _) in HO.
  assert (Hwf : well_formed job).
  { unfold well_formed, job. cbn. rewrite <- H7. repeat split; lia. }
  assert (Hsch : schedule job (w_order w)).
  { intros g. unfold job. cbn. rewrite <- H7, <- H3, <- H4. apply Ho. }
  assert (Hnd' : ~ dilation_applies (o_cfg job) (o_nodata job)).
  { unfold dilation_applies, job. cbn. intros (X1 & X2 & X3 & X4).
    destruct Hdil as [D|[D|[D|D]]]; [congruence|congruence| |].
    - rewrite D in Hi. inversion Hi; subst. discriminate.
    - apply X3. destruct D as [D|D]; rewrite D in Hnd; inversion Hnd; reflexivity. }
  pose proof (remap_value_pixelwise job _ _ _ _ Hwf Hsch Hnd' HO b r c Hb Hin) as HV.
  pose proof (ortho_value_seen o k (w_source w) dt nd i dem t wm (w_block w p) (w_fail w) b r c (Ht i)) as HS. cbv zeta in HS.
  fold job in HS. destruct (pixel_centre t r c) as [x y]. rewrite HV, HS. clear HV HS.
  unfold in_im in Hin. split.
  - intros W. destruct (Hwant _ _ W) as (_ & _ & HA). replace (r0 + r - r0) with r in HA by lia. replace (c0 + c - c0) with c in HA by lia.
    rewrite HA. reflexivity.
  - intros W. rewrite (Hrest r c); [|lia|lia|assumption]. unfold seen. rewrite Hk. reflexivity.
Qed.

Lemma wanted_dec : forall s image r c, wanted s image r c \/ ~ wanted s image r c.
Proof.
  intros s image r c. unfold wanted, in_im. destruct (aget s r c) as [|z]; [right; intros (_ & _ & H); now apply H|]. destruct (aget image r c); [|right; intros (_ & H & _); discriminate H].
  destruct (Z_le_dec 0 r), (Z_lt_dec r (ah s)), (Z_le_dec 0 c), (Z_lt_dec c (aw s)); try (right; lia). left. repeat split; try assumption. discriminate.
Qed.

(** With dilation. *)
Theorem process_dilated : (forall i, transparent_border (cv_sample i)) ->
  forall o k a w d warn, no_height_unseen k -> process o k a w = Ok (d, Ok tt, warn) ->
  1 <= s_count (w_source w) -> 0 < fst (w_block w (d_profile d)) -> 0 < snd (w_block w (d_profile d)) ->
  (forall g, Permutation (w_order w g) (block_windows (d_height d) (d_width d) (w_block w (d_profile d)))) ->
  let dt := dtype_of a (w_source w) in
  k_distort k = false -> k_pinhole k = false -> a_interp a <> "nearest" -> dt = "uint8" \/ dt = "uint16" \/ dt = "int16" ->
  exists di s st r0 c0 i nd,
    surface reproject o a di s st /\ interp_name (a_interp a) i /\ nodata_of dt nd /\ same_position (d_transform d) st r0 c0 /\
    0 < d_height d /\ 0 < d_width d /\
    (forall r c, wanted s (image_polygon k s st di) r c -> in_im (d_height d) (d_width d) (r - r0) (c - c0)) /\
    let value := plain cv_sample k i dt nd (d_transform d) s (image_polygon k s st di) r0 c0 in
    forall kw kh b r c win, spans (or_gsd o) (Rabs (ta (d_transform d))) kw -> spans (or_gsd o) (Rabs (te (d_transform d))) kh -> in_range (d_count d) b -> in_im (d_height d) (d_width d) r c ->
    In win (block_windows (d_height d) (d_width d) (w_block w (d_profile d))) -> in_win win r c ->
    let near := exists r' c', in_win win r' c' /\ under_kernel kw kh r c r' c' /\
      forall b', in_range (d_count d) b' -> (a_per_band a = true -> b' = b) -> exists v, value b' r' c' v /\ is_nodata nd v in
    (near -> bands (d_raster d) b r c = nd) /\ (~ near -> value b r c (bands (d_raster d) b r c)).
Proof.
  intros Ht o k a w d warn Hk H Hc Hb1 Hb2 Ho dt K1 K2 K3 K4. apply process_inv in H.
  destruct H as (di & s & st & dem & t & p & wm & Hs & HM & HP & H1 & H2 & H3 & H4 & H5 & H6 & H7 & H8 & HR).
  destruct (HR eq_refl) as (i & nd & Hi & Hnd & HO). clear HR. fold dt in Hnd, HO, HP.
  pose proof (mask_dem_ok _ _ _ _ _ _ _ _ HM) as (r0 & c0 & Hpos & A0 & B0 & A1 & B1 & Hwant & Hrest & (ca & Wa) & _).
  destruct (Hwant _ _ Wa) as (D1 & D2 & _).
  exists di, s, st, r0, c0, i, nd. rewrite H2, H3, H4, H5, H7. repeat (split; [assumption||lia|]). split.
  { intros r c W. destruct (Hwant _ _ W) as (E1 & E2 & _). unfold in_im. lia. }
  cbv zeta. intros kw kh b r c win Hkw Hkh Hb Hin Hw1 Hw2. pose proof (kernel_unique _ _ _ _ Hkw Hkh) as EK.
  set (job := make_job _ _ _ _ _ _ _ _ _ _ _ _ _) in HO.
  assert (Hwf : well_formed job).
  { unfold well_formed, job. cbn. rewrite <- H7. repeat split; lia. }
  assert (Hsch : schedule job (w_order w)).
  { intros g. unfold job. cbn. rewrite <- H7, <- H3, <- H4. apply Ho. }
  assert (HD : dilation_applies (o_cfg job) (o_nodata job)).
  { unfold dilation_applies, job. cbn. repeat split; [exact K1| | |exact K2].
    - destruct Hi; try reflexivity. destruct (K3 eq_refl).
    - destruct K4 as [D|[D|D]]; rewrite D in Hnd; inversion Hnd; discriminate. }
  set (value := plain cv_sample k i dt nd t s (image_polygon k s st di) r0 c0).
  assert (HV : forall b' r' c', in_im (ah dem) (aw dem) r' c' -> value b' r' c' (ortho_value job b' r' c')).
  { intros b' r' c' Hin'. pose proof (ortho_value_seen o k (w_source w) dt nd i dem t wm (w_block w p) (w_fail w) b' r' c' (Ht i)) as HS. cbv zeta in HS. fold job in HS.
    unfold value, plain. destruct (pixel_centre t r' c') as [x y]. rewrite HS. unfold in_im in Hin'. split.
    - intros W. destruct (Hwant _ _ W) as (_ & _ & HA). replace (r0 + r' - r0) with r' in HA by lia. replace (c0 + c' - c0) with c' in HA by lia. now rewrite HA.
    - intros W. rewrite (Hrest r' c'); [|lia|lia|assumption]. unfold seen. now rewrite Hk. }
  assert (HU : forall b' r' c' v, in_im (ah dem) (aw dem) r' c' -> value b' r' c' v -> v = ortho_value job b' r' c').
  { intros b' r' c' v Hin' [V1 V2]. destruct (HV b' r' c' Hin') as [O1 O2].
    assert (DW : wanted s (image_polygon k s st di) (r0 + r') (c0 + c') \/ ~ wanted s (image_polygon k s st di) (r0 + r') (c0 + c'))  by apply wanted_dec.
    destruct DW as [W|W]; [rewrite (V1 W), (O1 W)|rewrite (V2 W), (O2 W)]; reflexivity. }
  assert (Htile : tile_of job r c win) by (split; [exact Hw1|exact Hw2]).
  assert (Hsub : forall r' c', in_win win r' c' -> in_im (ah dem) (aw dem) r' c') 
    by (intros r' c' Hx; destruct (w_block w p) as [bh bw] eqn:EB; rewrite H7, EB in Hb1, Hb2; destruct (block_windows_bounds _ _ bh bw Hb1 Hb2 win Hw1) as (_ & _ & G); unfold in_win, in_im in *; lia).
  destruct (remap_value_dilated job _ _ _ _ Hwf Hsch HD HO b r c win Hb Hin Htile) as [R1 R2].
  assert (HB : blurred_k job win (group_bands_of job (a_per_band a) b) r c <->
    exists r' c', in_win win r' c' /\ under_kernel kw kh r c r' c' /\
      forall b', in_range (s_count (w_source w)) b' -> (a_per_band a = true -> b' = b) -> exists v, value b' r' c' v /\ is_nodata nd v).
  { unfold blurred_k, blurred. change (o_gsd job) with (or_gsd o). change (o_transform job) with t. rewrite EK. cbn [fst snd]. split; intros (r' & c' & W1 & W2 & W3); exists r', c'; (split; [exact W1|]); (split; [exact W2|]).
    - intros b' Hb' Hpb. exists (ortho_value job b' r' c'). split; [apply HV; now apply Hsub|]. apply W3. unfold group_bands_of. destruct (a_per_band a); [now apply Hpb|exact Hb'].
    - intros b' Hg. destruct (W3 b') as (v & V1 & V2).
      + unfold group_bands_of in Hg. destruct (a_per_band a); [now subst b'|exact Hg].
      + intros E. unfold group_bands_of in Hg. now rewrite E in Hg.
      + rewrite <- (HU b' r' c' v (Hsub _ _ W1) V1). exact V2. }
  cbv zeta. rewrite <- HB. split; [exact R1|]. intros N. rewrite (R2 N). now apply HV.
Qed.

Lemma process_positive : forall o k a w d r warn, process o k a w = Ok (d, r, warn) -> 0 < d_height d /\ 0 < d_width d.
Proof.
  intros o k a w d r warn H. apply process_inv in H.
  destruct H as (di & s & st & dem & t & p & wm & Hs & HM & HP & H1 & H2 & H3 & H4 & H5 & H6 & H7 & H8 & HR).
  pose proof (mask_dem_ok _ _ _ _ _ _ _ _ HM) as (r0 & c0 & Hpos & A0 & B0 & A1 & B1 & Hwant & Hrest & (ca & Wa) & _).
  destruct (Hwant _ _ Wa) as (D1 & D2 & _). lia.
Qed.

(** A call that succeeds has had no tile task that fails. *)
Theorem process_no_fail : forall o k a w d warn, process o k a w = Ok (d, Ok tt, warn) ->
  1 <= s_count (w_source w) -> 0 < fst (w_block w (d_profile d)) -> 0 < snd (w_block w (d_profile d)) ->
  (forall g, Permutation (w_order w g) (block_windows (d_height d) (d_width d) (w_block w (d_profile d)))) ->
  forall g win, In g (index_list (s_count (w_source w)) (a_per_band a)) -> In win (block_windows (d_height d) (d_width d) (w_block w (d_profile d))) -> w_fail w g win = false.
Proof.
  intros o k a w d warn H Hc Hb1 Hb2 Ho g win Hg Hw. apply process_inv in H.
  destruct H as (di & s & st & dem & t & p & wm & Hs & HM & HP & H1 & H2 & H3 & H4 & H5 & H6 & H7 & H8 & HR).
  destruct (HR eq_refl) as (i & nd & Hi & Hnd & HO). clear HR.
  pose proof (mask_dem_ok _ _ _ _ _ _ _ _ HM) as (r0 & c0 & Hpos & A0 & B0 & A1 & B1 & Hwant & Hrest & (ca & Wa) & _).
  destruct (Hwant _ _ Wa) as (D1 & D2 & _).
  set (job := make_job _ _ _ _ _ _ _ _ _ _ _ _ _) in HO.
  assert (Hwf : well_formed job).
  { unfold well_formed, job. cbn. rewrite <- H7. repeat split; lia. }
  assert (Hsch : schedule job (w_order w)).
  { intros g'. unfold job. cbn. rewrite <- H7, <- H3, <- H4. apply Ho. }
  destruct (w_fail w g win) eqn:E; [|reflexivity]. exfalso.
  destruct (remap_result job (a_per_band a) (w_order w) (w_empty w) Hwf Hsch) as (_ & X). rewrite HO in X. cbn [snd] in X.
  enough (Ok tt = Err RuntimeError :> res unit) by discriminate. apply X. intros Y. specialize (Y g win Hg).
  assert (Hw' : In win (block_windows (o_height job) (o_width job) (o_block job))) by (unfold job; cbn; rewrite <- H7, <- H3, <- H4; exact Hw).
  specialize (Y Hw'). unfold job in Y. cbn in Y. congruence.
Qed.

(** With dilation, pixels outside the surface are nodata all the same. *)
Theorem process_outside : (forall i, transparent_border (cv_sample i)) ->
  forall o k a w d warn, no_height_unseen k -> process o k a w = Ok (d, Ok tt, warn) ->
  1 <= s_count (w_source w) -> 0 < fst (w_block w (d_profile d)) -> 0 < snd (w_block w (d_profile d)) ->
  (forall g, Permutation (w_order w g) (block_windows (d_height d) (d_width d) (w_block w (d_profile d)))) ->
  exists di s st r0 c0 nd,
    surface reproject o a di s st /\ nodata_of (dtype_of a (w_source w)) nd /\ same_position (d_transform d) st r0 c0 /\
    forall b r c, in_range (d_count d) b -> in_im (d_height d) (d_width d) r c ->
    ~ wanted s (image_polygon k s st di) (r0 + r) (c0 + c) -> bands (d_raster d) b r c = nd.
Proof.
  intros Ht o k a w d warn Hk H Hc Hb1 Hb2 Ho. apply process_inv in H.
  destruct H as (di & s & st & dem & t & p & wm & Hs & HM & HP & H1 & H2 & H3 & H4 & H5 & H6 & H7 & H8 & HR).
  destruct (HR eq_refl) as (i & nd & Hi & Hnd & HO). clear HR.
  pose proof (mask_dem_ok _ _ _ _ _ _ _ _ HM) as (r0 & c0 & Hpos & A0 & B0 & A1 & B1 & Hwant & Hrest & (ca & Wa) & _).
  destruct (Hwant _ _ Wa) as (D1 & D2 & _).
  exists di, s, st, r0, c0, nd. rewrite H2, H3, H4, H5. repeat (split; [assumption|]).
  intros b r c Hb Hin Hw.
  set (job := make_job _ _ _ _ _ _ _ _ _ _ _ _ _) in HO.
  assert (Hwf : well_formed job).
  { unfold well_formed, job. cbn. rewrite <- H7. repeat split; lia. }
  assert (Hsch : schedule job (w_order w)).
  { intros g. unfold job. cbn. rewrite <- H7, <- H3, <- H4. apply Ho. }
  apply (ortho_off_image job _ _ _ _ Hwf Hsch (Ht i) HO b r c Hb Hin). unfold job. cbn.
  rewrite (Hrest r c); [|unfold in_im in Hin; lia|unfold in_im in Hin; lia|assumption]. rewrite Hk. exact I.
Qed.

(** When there is a dataset, and when the call succeeds. *)
Theorem process_creates : forall o k a w,
  (exists x, process o k a w = Ok x) <->
  pixel_fits bounds_in o a /\
  (exists di s st, surface reproject o a di s st /\ exists r c, wanted s (image_polygon k s st di) r c) /\
  supported_dtype (dtype_of a (w_source w)) /\ (a_driver a = "gtiff" \/ a_driver a = "cog") /\
  (~ no_options (a_options a) \/ compress_ok (dtype_of a (w_source w)) (a_compress a)).
Proof.
  intros o k a w. split.
  - intros [x H]. destruct x as [[d r] warn]. pose proof (process_inv _ _ _ _ _ _ _ H) as (di & s & st & dem & t & p & wm & Hs & HM & HP & _).
    split; [|split].
    + unfold Ortho_Model.process in H. destruct (interp_of (a_dem_interp a)); [|discriminate]. cbn [bind] in H.
      destruct (resolution_of C o a) as [rx ry] eqn:ER. apply pixel_size_iff in ER. exists rx, ry. split; [assumption|].
      unfold Ortho_Model.reproject_dem in H. cbn [fst snd] in H.
      destruct (crs_eqb _ _ && _) eqn:E; [left; apply own_surface in E; assumption|]. right.
      destruct (bounds_in _ _ _ _) as [[[x0 y0] x1] y1]. destruct (Rgtb rx _ || _) eqn:EB; [discriminate|].
      apply orb_false_iff in EB. destruct EB as [E1 E2]. split; apply Rnot_gt_le; intros X; apply Rgtb_iff in X; congruence.
    + exists di, s, st. split; [assumption|].
      pose proof (mask_dem_ok _ _ _ _ _ _ _ _ HM) as (r0 & c0 & _ & _ & _ & _ & _ & _ & _ & (ca & Wa) & _). exists r0, ca. assumption.
    + apply accepts with (shape := (s_count (w_source w), ah dem, aw dem)) (wm := a_write_mask a). eexists. exact HP.
  - intros ((rx & ry & Hp & Hfit) & (di & s & st & Hs & r & c & Hw) & Hdt & Hdr & Hco).
    assert (Hi : interp_name (a_dem_interp a) di) by (inversion Hs; assumption).
    unfold Ortho_Model.process. rewrite (proj2 (interp_of_iff _ _) Hi). cbn [bind].
    destruct (reproject_dem o di (resolution_of C o a)) as [[s' st']|e] eqn:ER.
    2:{ exfalso. apply pixel_size_iff in Hp. rewrite Hp in ER. unfold Ortho_Model.reproject_dem in ER. cbn [fst snd] in ER.
        destruct (crs_eqb _ _ && _) eqn:E; [discriminate|].
        destruct Hfit as [Hfit|Hfit]; [apply own_surface in Hfit; congruence|].
        destruct (bounds_in _ _ _ _) as [[[x0 y0] x1] y1]. destruct (Rgtb rx _ || _) eqn:EB; [|discriminate].
        apply orb_true_iff in EB. rewrite !Rgtb_iff in EB. lra. }
    cbn [bind]. pose proof (reproject_dem_surface o a di s' st' Hi ER) as Hs'.
    destruct (surface_unique _ _ _ _ _ _ _ _ Hs Hs') as (_ & -> & ->).
    unfold crop_to_image. destruct (mask_dem _ _ _ _ _ _) as [[[dem t] warn]|e] eqn:EM.
    2:{ exfalso. assert (e = OrthorityError). { clear - EM. unfold mask_dem in EM. destruct (_ =? 0); [inversion EM; reflexivity|discriminate]. }
        subst e. apply mask_dem_error in EM. apply EM. exists r, c. exact Hw. }
    cbn [bind]. unfold write_ortho.
    destruct (proj2 (accepts (a_driver a) (s_count (w_source w), ah dem, aw dem) (dtype_of a (w_source w)) (a_compress a)
                      (a_write_mask a) (a_options a)) (conj Hdt (conj Hdr Hco))) as [[p wm] HP].
    unfold dtype_of in HP. rewrite HP. cbn [bind].
    destruct (interp_of (a_interp a)); [|eexists; reflexivity]. destruct (lookup _ _); [|eexists; reflexivity].
    destruct (ortho_remap _ _ _ _). eexists; reflexivity.
Qed.

Theorem process_result_on : forall o k a w d r warn, process o k a w = Ok (d, r, warn) ->
  1 <= s_count (w_source w) -> 0 < fst (w_block w (d_profile d)) -> 0 < snd (w_block w (d_profile d)) ->
  (forall g, Permutation (w_order w g) (block_windows (d_height d) (d_width d) (w_block w (d_profile d)))) ->
  (forall g win, In g (index_list (s_count (w_source w)) (a_per_band a)) -> In win (block_windows (d_height d) (d_width d) (w_block w (d_profile d))) -> w_fail w g win = false) ->
  r = Ok tt <-> exists i, interp_name (a_interp a) i.
Proof.
  intros o k a w d r warn H Hc Hb1 Hb2 Ho Hf. split.
  - intros ->. apply process_inv in H.
    destruct H as (di & s & st & dem & t & p & wm & _ & _ & _ & _ & _ & _ & _ & _ & _ & _ & _ & HR).
    destruct (HR eq_refl) as (i & nd & Hi & _). exists i. assumption.
  - intros [i Hi]. pose proof (process_inv _ _ _ _ _ _ _ H) as (di & s & st & dem & t & p & wm & Hs & HM & HP & H1 & H2 & H3 & H4 & H5 & H6 & H7 & H8 & _).
    unfold Ortho_Model.process in H.
    destruct (interp_of (a_dem_interp a)) as [di'|] eqn:EI; [|discriminate]. cbn [bind] in H.
    destruct (reproject_dem o di' _) as [[s' st']|] eqn:ER; [|discriminate]. cbn [bind] in H.
    destruct (crop_to_image _ _ _ _ _ _) as [[[dem' t'] warn']|] eqn:EM; [|discriminate]. cbn [bind] in H.
    unfold write_ortho in H. rewrite (proj2 (interp_of_iff _ _) Hi) in H.
    destruct (create_profile _ _ _ _ _ _) as [[p' wm']|] eqn:EP; [|discriminate]. cbn [bind] in H.
    assert (exists nd, lookup (KStr (dtype_of a (w_source w))) Remap_Model.nodata_vals = Ok nd) as [nd Hnd].
    { assert (supported_dtype (dtype_of a (w_source w))) as HS.
      { apply (accepts (a_driver a) (s_count (w_source w), ah dem, aw dem) (dtype_of a (w_source w)) (a_compress a)
                      (a_write_mask a) (a_options a)). eexists; exact HP. }
      destruct HS as [->|[->|[->|[->| ->]]]]; eexists; reflexivity. }
    unfold dtype_of in Hnd. rewrite Hnd in H.
    set (job := make_job _ _ _ _ _ _ _ _ _ _ _ _ _) in H.
    destruct (ortho_remap job _ _ _) as [ras rr] eqn:EO. injection H as Hd Hr _. subst r.
    unfold crop_to_image in EM. pose proof (mask_dem_ok _ _ _ _ _ _ _ _ EM) as (r0 & c0 & Hpos & A0 & B0 & A1 & B1 & Hwant & _ & (ca & Wa) & _).
    destruct (Hwant _ _ Wa) as (D1 & D2 & _).
    rewrite <- Hd in Hb1, Hb2, Ho, Hf. cbn in Hb1, Hb2, Ho, Hf.
    assert (Hwf : well_formed job) by (unfold well_formed, job; cbn; repeat split; lia).
    assert (Hsch : schedule job (w_order w)) by (intros g; unfold job; cbn; apply Ho).
    destruct (remap_result job (a_per_band a) (w_order w) (w_empty w) Hwf Hsch) as [A _].
    rewrite EO in A. apply A. intros g win Hg Hwn. apply Hf; assumption.
Qed.

Theorem process_result : forall o k a w d r warn, process o k a w = Ok (d, r, warn) ->
  1 <= s_count (w_source w) -> 0 < fst (w_block w (d_profile d)) -> 0 < snd (w_block w (d_profile d)) ->
  (forall g, Permutation (w_order w g) (block_windows (d_height d) (d_width d) (w_block w (d_profile d)))) ->
  (forall g win, w_fail w g win = false) ->
  r = Ok tt <-> exists i, interp_name (a_interp a) i.
Proof. intros o k a w d r warn H Hc Hb1 Hb2 Ho Hf. apply (process_result_on o k a w d r warn H Hc Hb1 Hb2 Ho). auto. Qed.

Theorem resolution_too_large : forall o k a w i, interp_name (a_dem_interp a) i -> ~ pixel_fits bounds_in o a ->
  process o k a w = Err OrthorityError.
Proof.
  intros o k a w i Hi Hn. destruct (resolution_of C o a) as [rx ry] eqn:ER. apply pixel_size_iff in ER.
  apply resolution_error with (i := i) (rx := rx) (ry := ry); try assumption.
  - intros H. apply Hn. exists rx, ry. auto.
  - destruct (bounds_in _ _ _ _) as [[[x0 y0] x1] y1] eqn:EB.
    destruct (Rle_dec rx (x1 - x0)) as [L1|L1]; [|left; lra]. destruct (Rle_dec ry (y1 - y0)) as [L2|L2]; [|right; lra].
    exfalso. apply Hn. exists rx, ry. split; [assumption|]. right. rewrite EB. auto.
Qed.

Theorem off_surface : forall o k a w i s st, surface reproject o a i s st -> pixel_fits bounds_in o a ->
  (forall r c, ~ wanted s (image_polygon k s st i) r c) -> process o k a w = Err OrthorityError.
Proof.
  intros o k a w i s st Hs (rx & ry & Hp & Hfit) Hw.
  assert (Hi : interp_name (a_dem_interp a) i) by (inversion Hs; assumption).
  unfold Ortho_Model.process. rewrite (proj2 (interp_of_iff _ _) Hi). cbn [bind].
  destruct (reproject_dem o i (resolution_of C o a)) as [[s' st']|e] eqn:ER.
  2:{ exfalso. apply pixel_size_iff in Hp. rewrite Hp in ER. unfold Ortho_Model.reproject_dem in ER. cbn [fst snd] in ER.
      destruct (crs_eqb _ _ && _) eqn:E; [discriminate|].
      destruct Hfit as [Hfit|Hfit]; [apply own_surface in Hfit; congruence|].
      destruct (bounds_in _ _ _ _) as [[[x0 y0] x1] y1]. destruct (Rgtb rx _ || _) eqn:EB; [|discriminate].
      apply orb_true_iff in EB. rewrite !Rgtb_iff in EB. lra. }
  cbn [bind]. pose proof (reproject_dem_surface o a i s' st' Hi ER) as Hs'.
  destruct (surface_unique _ _ _ _ _ _ _ _ Hs Hs') as (_ & -> & ->).
  unfold crop_to_image. rewrite (proj1 (mask_dem_error _ _ _ _ _ _)); [reflexivity|].
  intros (r & c & H). apply (Hw r c). exact H.
Qed.

Theorem bad_dem_interp : forall o k a w, (forall i, ~ interp_name (a_dem_interp a) i) -> process o k a w = Err ValueError.
Proof. intros o k a w H. apply interp_of_err in H. unfold Ortho_Model.process. rewrite H. reflexivity. Qed.

(** * Calls on one object *)
Notation calls := (calls C crs_eqb bounds_in reproject cv_sample to_pixels fill_poly).
Notation process_h := (process_h C crs_eqb bounds_in reproject cv_sample to_pixels fill_poly).

Lemma hget_app : forall h a v, (a < List.length h)%nat -> hget (h ++ [v]) a = hget h a.
Proof. intros. unfold hget. apply app_nth1. assumption. Qed.

Lemma hget_last : forall h v, hget (h ++ [v]) (List.length h) = v.
Proof. intros. unfold hget. rewrite app_nth2 by lia. rewrite Nat.sub_diag. reflexivity. Qed.

Lemma hset_length : forall h a v, List.length (hset h a v) = List.length h.
Proof. induction h as [|x h IH]; intros [|a] v; cbn; auto. Qed.

Lemma hget_hset_other : forall h a b v, a <> b -> hget (hset h a v) b = hget h b.
Proof.
  unfold hget. induction h as [|x h IH]; intros [|a] [|b] v Hab; cbn; try reflexivity; try lia. apply IH. lia.
Qed.

Lemma process_h_spec : forall o dem k a w h, (dem < List.length h)%nat -> hget h dem = or_dem o ->
  snd (process_h o dem k a w h) = process o k a w /\
  (dem < List.length (fst (process_h o dem k a w h)))%nat /\ hget (fst (process_h o dem k a w h)) dem = or_dem o.
Proof.
  intros o dem k a w h Hl Hg. unfold Ortho_Model.process_h, Ortho_Model.process, reproject_dem_h.
  destruct (interp_of (a_dem_interp a)) as [di|]; cbn [bind]; [|auto].
  replace (Ort (or_crs o) (hget h dem) (or_dem_t o) (or_dem_crs o) (or_gsd o)) with o by (rewrite Hg; destruct o; reflexivity).
  destruct (reproject_dem o di (resolution_of C o a)) as [[s st]|]; cbn [bind]; [|auto].
  unfold crop_to_image_h. rewrite hget_last.
  destruct (crop_to_image to_pixels fill_poly k s st di) as [[[a' t'] warn]|]; cbn [bind fst snd].
  - split; [reflexivity|]. rewrite hset_length, app_length. cbn. split; [lia|].
    rewrite hget_hset_other by lia. rewrite hget_app by assumption. assumption.
  - split; [reflexivity|]. rewrite app_length. cbn. split; [lia|]. rewrite hget_app by assumption. assumption.
Qed.

Theorem calls_independent : forall o dem k l h, (dem < List.length h)%nat -> hget h dem = or_dem o ->
  calls o dem k l h = map (fun aw => process o k (fst aw) (snd aw)) l.
Proof.
  intros o dem k l. induction l as [|[a w] l IH]; intros h Hl Hg; [reflexivity|]. cbn.
  pose proof (process_h_spec o dem k a w h Hl Hg) as (A & B & D).
  destruct (process_h o dem k a w h) as [h' r]. cbn in *. rewrite A, IH by assumption. reflexivity.
Qed.

(** The view that [_mask_dem] returns shows the changed array. *)
Theorem view_of_base : forall k dem t i a t' warn, crop_to_image to_pixels fill_poly k dem t i = Ok (a, t', warn) ->
  exists r0 c0, same_position t' t r0 c0 /\ sub_array a (mask_base to_pixels fill_poly k dem t i) r0 c0.
Proof.
  intros k dem t i a t' warn H. unfold crop_to_image in H.
  pose proof (mask_dem_ok _ _ _ _ _ _ _ _ H) as Hok.
  unfold mask_dem in H. unfold mask_base. set (m := Arr (ah dem) (aw dem) _) in *. cbn [negb] in H.
  destruct (asum m =? 0); [discriminate|]. injection H as <- <- _.
  set (r0 := lmin (any_rows m)) in *. set (r1 := lmax (any_rows m)) in *.
  set (c0 := lmin (any_cols m)) in *. set (c1 := lmax (any_cols m)) in *.
  destruct Hok as (r0' & c0' & Hpos & X1 & X2 & X3 & X4 & _ & _ & (ca & Wa) & _ & (ra & Wb) & _).
  assert (P : same_position (aff_pretranslate t (IZR c0) (IZR r0)) t r0 c0).
  { intros x y. unfold aff_pretranslate, aff_apply. cbn. f_equal; ring. }
  assert (W : forall r c, wanted dem (fill_poly (ah dem, aw dem) (to_pixels t (k_boundary k dem t i))) r c ->
              in_im (ah m) (aw m) r c /\ aget m r c = true).
  { intros r c. apply wanted_mask. }
  assert (Nr : any_rows m <> []).
  { intros E. apply W in Wa. assert (In r0' (any_rows m)) by (apply any_rows_In; exists ca; assumption). rewrite E in *. contradiction. }
  assert (Nc : any_cols m <> []).
  { intros E. apply W in Wb. assert (In c0' (any_cols m)) by (apply any_cols_In; exists ra; assumption). rewrite E in *. contradiction. }
  destruct (lmin_spec _ Nr) as [R0 _]. destruct (lmax_spec _ Nr) as [R1 R1'].
  destruct (lmin_spec _ Nc) as [C0 _]. destruct (lmax_spec _ Nc) as [C1 C1'].
  fold r0 in R0. fold r1 in R1, R1'. fold c0 in C0. fold c1 in C1, C1'.
  pose proof (R1' _ R0) as L1. pose proof (C1' _ C0) as L2.
  apply any_rows_In in R0, R1. apply any_cols_In in C0, C1.
  destruct R0 as (? & [R0 _] & _), R1 as (? & [R1 _] & _), C0 as (? & [_ C0] & _), C1 as (? & [_ C1] & _). cbn in R0, R1, C0, C1.
  exists r0, c0. split; [exact P|]. unfold sub_array. cbn. repeat (split; [lia|]).
  intros r c Hr Hc. rewrite (Z.add_comm r r0), (Z.add_comm c c0).
  replace ((r0 <=? r0 + r) && (r0 + r <? r1 + 1) && (c0 <=? c0 + c) && (c0 + c <? c1 + 1)) with true.
  2:{ symmetry. rewrite !andb_true_iff. repeat split; [apply Z.leb_le|apply Z.ltb_lt|apply Z.leb_le|apply Z.ltb_lt]; lia. }
  cbn [andb]. destruct (aget _ _ _ && _); reflexivity.
Qed.
End Ortho.

(** * A concrete call *)
Definition demo_camera_with (flag : bool) : camera :=
  Cam (fun p => match p with (x, y, Nan) => (Nan, Nan) | (x, y, Num _) => (x, y) end) flag flag
      (fun _ _ _ b => Arr 30 30 (fun _ _ => PVal (inject_Z b))) (fun _ _ _ => []).
Definition demo_camera : camera := demo_camera_with true.
Definition demo_sample (i : interp) (im : arr pix) (x y : R) : option pix :=
  if Rle_dec x (-1) then None else if Rle_dec (IZR (aw im)) x then None else
  if Rle_dec y (-1) then None else if Rle_dec (IZR (ah im)) y then None else Some (aget im 0 0).
Definition demo_ortho : ortho nat :=
  Ort 1%nat (Arr 3 4 (fun r c => if (r =? 1) && (c =? 1) then Nan else Num 100)) (Aff 2 0 10 0 (-2) 20) 1%nat 2.
Definition demo_args (resolution : option (R * R)) : args :=
  Args resolution "cubic" "cubic" true None None None None "gtiff".
Definition demo_world (h w : Z) : world :=
  World (Src 2 "uint8" ["red"; "green"]) (fun _ => (2, 2)) (fun _ _ => false) (fun _ => rev (block_windows h w (2, 2))) empty_ras.
(** The image covers rows 1 on and columns 0 to 2. *)
Definition demo_poly (shape : Z * Z) (l : list (Z * Z)) : arr bool := Arr (fst shape) (snd shape) (fun r c => (1 <=? r) && (c <=? 2)).
Definition demo_reproject (i : interp) (c c' : nat) (r : R * R) (a : arr fl) (t : affine) : arr fl * affine :=
  (a, Aff (fst r) 0 (tc t) 0 (- snd r) (tf t)).
Definition demo_bounds (s : Z * Z) (t : affine) (c c' : nat) : R * R * R * R := (10, 14, 18, 20)%R.

Lemma demo_sample_border : forall i, transparent_border (demo_sample i).
Proof.
  intros i im j i' H. unfold demo_sample. repeat match goal with |- context [Rle_dec ?a ?b] => destruct (Rle_dec a b) end; try reflexivity.
  exfalso. tauto.
Qed.

Lemma demo_surface : forall res, res = None \/ res = Some (5, 4)%R ->
  exists t, reproject_dem nat Nat.eqb demo_bounds demo_reproject demo_ortho Cubic (resolution_of nat demo_ortho (demo_args res)) = Ok (or_dem demo_ortho, t).
Proof.
  intros res [->| ->]; cbn [resolution_of demo_args a_resolution]; unfold reproject_dem; cbn [fst snd demo_ortho or_gsd or_crs or_dem_crs or_dem_t or_dem ta te Nat.eqb].
  - replace (Req_b 2 (Rabs 2)) with true by (symmetry; apply Req_b_iff; rewrite Rabs_pos_eq; lra).
    replace (Req_b 2 (Rabs (-2))) with true by (symmetry; apply Req_b_iff; rewrite Rabs_left; lra). cbn. eexists. reflexivity.
  - replace (Req_b 5 (Rabs 2)) with false. 2:{ symmetry. apply not_true_is_false. rewrite Req_b_iff, Rabs_pos_eq; lra. }
    cbn -[Rgtb]. replace (Rgtb 5 (18 - 10)) with false. 2:{ symmetry. apply not_true_is_false. rewrite Rgtb_iff. lra. }
    replace (Rgtb 4 (20 - 14)) with false. 2:{ symmetry. apply not_true_is_false. rewrite Rgtb_iff. lra. }
    cbn. eexists. reflexivity.
Qed.

Lemma demo_crop : forall t, exists dem t' warn,
  mask_dem (or_dem demo_ortho) t [] (demo_poly (3, 4) []) true true = Ok (dem, t', warn) /\ ah dem = 2 /\ aw dem = 3.
Proof. intros t. eexists _, _, _. split; [reflexivity|]. split; reflexivity. Qed.

Lemma demo_call : forall flag res, res = None \/ res = Some (5, 4)%R ->
  exists d warn, process nat Nat.eqb demo_bounds demo_reproject demo_sample (fun _ _ => []) demo_poly
                    demo_ortho (demo_camera_with flag) (demo_args res) (demo_world 2 3) = Ok (d, Ok tt, warn) /\
  d_height d = 2 /\ d_width d = 3 /\ d_count d = 2 /\ w_block (demo_world 2 3) (d_profile d) = (2, 2) /\
  forall g, Permutation (w_order (demo_world 2 3) g) (block_windows (d_height d) (d_width d) (2, 2)).
Proof.
  intros flag res Hr. destruct (demo_surface res Hr) as [t Ht].
  destruct (demo_crop t) as (dem & t' & warn & Hm & H1 & H2).
  assert (HP : exists d r, process nat Nat.eqb demo_bounds demo_reproject demo_sample (fun _ _ => []) demo_poly
                    demo_ortho (demo_camera_with flag) (demo_args res) (demo_world 2 3) = Ok (d, r, warn) /\ d_height d = 2 /\ d_width d = 3 /\ d_count d = 2).
  { unfold process. cbn [demo_args a_dem_interp]. change (interp_of "cubic") with (Ok Cubic). cbn [bind]. rewrite Ht. cbn [bind].
    unfold crop_to_image. cbn [k_boundary demo_camera_with].
    change (ah (or_dem demo_ortho), aw (or_dem demo_ortho)) with (3, 4). rewrite Hm. cbn [bind]. unfold write_ortho.
    destruct (proj2 (accepts "gtiff" (2, ah dem, aw dem) "uint8" None None None)) as [[p wm] HP].
    { split; [left; reflexivity|]. split; [left; reflexivity|right; exact I]. }
    cbn [demo_args demo_world w_source s_count s_dtype s_colorinterp a_dtype a_driver a_compress a_write_mask a_options a_interp a_per_band].
    rewrite HP. cbn [bind]. change (interp_of "cubic") with (Ok Cubic). cbv beta iota.
    change (lookup (KStr "uint8") Remap_Model.nodata_vals) with (Ok (PVal 0)). cbv beta iota.
    destruct (ortho_remap _ _ _ _) as [ras r]. eexists _, _. split; [reflexivity|]. cbn. auto. }
  destruct HP as (d & r & HP & D1 & D2 & D3). exists d, warn.
  assert (Hperm : forall g, Permutation (w_order (demo_world 2 3) g) (block_windows (d_height d) (d_width d) (2, 2))).
  { intros g. rewrite D1, D2. apply Permutation_sym. apply Permutation_rev. }
  replace r with (Ok tt : Py.res unit) in HP.
  2:{ symmetry. apply (process_result nat Nat.eqb demo_bounds demo_reproject demo_sample (fun _ _ => []) demo_poly Nat.eqb_eq _ _ _ _ _ _ _ HP).
      all: try (cbn; lia). { exact Hperm. } exists Cubic. constructor. }
  split; [assumption|]. repeat (split; [assumption || reflexivity|]). assumption.
Qed.

Lemma demo_fits : pixel_fits demo_bounds demo_ortho (demo_args (Some (5, 4)%R)) /\ ~ pixel_fits demo_bounds demo_ortho (demo_args (Some (9, 4)%R)) /\
  world_crs (fun s => if String.eqb s "EPSG:1" then Ok 1%nat else Err ValueError) (PText "EPSG:1") (Ok (Some 2%nat)) 1%nat.
Proof.
  split; [|split].
  - exists 5%R, 4%R. split; [split; reflexivity|]. right. cbn. lra.
  - intros (rx & ry & [-> ->] & [[_ [H _]]|H]); cbn in H; [|lra]. rewrite (Rabs_pos_eq 2) in H by lra. lra.
  - apply W_text; [discriminate|reflexivity].
Qed.

Lemma demo_sizes : reprojects_to_size demo_reproject /\ positive_size demo_ortho (demo_args None) /\
  positive_size demo_ortho (demo_args (Some (5, 4)%R)).
Proof.
  split; [|split].
  - intros i c c' rx ry a t H1 H2. unfold has_size. cbn. rewrite Rabs_Ropp, !Rabs_pos_eq by lra. auto.
  - intros rx ry [-> ->]. cbn. lra.
  - intros rx ry [-> ->]. lra.
Qed.
