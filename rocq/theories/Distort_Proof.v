(** Proofs about distorting images and pixels. *)
From Coq Require Import String List Reals ZArith Bool Lia Lra.
From Verif Require Import Py Py_Proof Flt Mat Remap_Model Rot_Model Rot_Proof Frame_Model Frame_Spec Frame_Proof Undist_Model Undist_Proof Bound_Model Bound_Proof Cam_Model Cam_Spec Cam_Proof Proj_Spec Distort_Model Distort_Spec.
Import ListNotations.
Open Scope string_scope.
Open Scope list_scope.
Open Scope Z_scope.

Section Distort.
Variable cv_surf : string -> arr fl -> fl * fl -> option fl.
Variable cast_nan : string -> fl.
Variable cv_image : string -> arr pix -> fl * fl -> option pix.
Variable convert : string -> string -> pix -> pix.
Variable round32 : R -> R.
Notation do_call := (do_call cv_surf cast_nan cv_image convert).
Notation run_calls := (run_calls cv_surf cast_nan cv_image convert).
Notation seen := (seen cv_surf cast_nan cv_image convert).
Notation distort_image := (distort_image cv_image round32).

(** A point that is seen has one direction. *)
Lemma seen_dir : forall c P, (exists b q, seen c b P (num2 q)) -> exists xy, (forall q, seen c true P q <-> q = l_fwd (fc_lens c) xy) /\
  (forall q, seen c false P q <-> q = num2 (k_apply (s_ku (fc_st c)) xy)).
Proof.
  intros c P (b & q0 & H). unfold Distort_Spec.seen in H. cbn in H. unfold world_to_pixel_call, test_init in H. cbn in H. destruct (s_ext (fc_st c)) as [[r t]|] eqn:Ex; [|discriminate]. cbn in H.
  destruct (Req_EM_T _ 0) as [E|E]; [discriminate|]. clear H. eexists (_, _). split; intros q; unfold Distort_Spec.seen; cbn; unfold world_to_pixel_call, test_init; cbn; rewrite Ex; cbn;
    (destruct (Req_EM_T _ 0) as [E'|E']; [contradiction|]); (split; [intros Q; injection Q as <-; reflexivity|intros ->; reflexivity]).
Qed.

Lemma seen_fun : forall c b P q q', seen c b P q -> seen c b P q' -> q = q'.
Proof. intros c b P q q' A B. unfold Distort_Spec.seen in *. rewrite A in B. injection B as <-. reflexivity. Qed.

Lemma clip_axis_spec : forall size v, 0 < size -> nearest_in size v (clip_axis size v).
Proof.
  intros size [|x] Hs; [reflexivity|]. cbn. assert (0 <= IZR size - 1)%R by (apply IZR_lt, Zlt_le_succ, IZR_le in Hs || idtac; apply IZR_le in Hs || idtac; assert (1 <= IZR size)%R by (apply IZR_le; lia); lra).
  eexists. split; [reflexivity|]. split; [intros Q; rewrite Rmax_left, Rmin_left by lra; reflexivity|]. split; intros Q.
  - rewrite Rmax_right, Rmin_left by lra. reflexivity.
  - rewrite Rmin_right; [reflexivity|]. pose proof (Rmax_l x 0). lra.
Qed.

Theorem distort_pixels_ok : forall c ji clip, 0 < fc_w c -> 0 < fc_h c -> kfx (s_ku (fc_st c)) <> 0%R -> kfy (s_ku (fc_st c)) <> 0%R -> pixel_array ji ->
  exists out, distort_pixels c ji clip = Ok out /\
  Forall2 (fun p q => forall P, seen c false P (num2 p) -> exists q0, seen c true P q0 /\ (if clip then clipped (fc_w c) (fc_h c) q0 q else q = q0)) (nd_data ji) out.
Proof.
  intros c ji clip Hw Hh Fx Fy (n & En). unfold distort_pixels, validate_pixel_coords. rewrite En. cbn [bind]. eexists. split; [reflexivity|].
  assert (X : forall p P, seen c false P (num2 p) -> seen c true P (l_fwd (fc_lens c) (k_solve (s_ku (fc_st c)) p))).
  { intros p P H. destruct (seen_dir c P) as (xy & Ht & Hf); [eauto|]. apply Ht. f_equal. apply Hf in H. assert (p = k_apply (s_ku (fc_st c)) xy) as ->.
    { destruct p. unfold num2, k_apply in *. cbn in *. injection H as -> ->. reflexivity. }
    apply k_solve_apply; assumption. }
  destruct clip.
  - rewrite map_map. induction (nd_data ji) as [|p l IH]; [constructor|]. cbn [map]. constructor; [|exact IH]. intros P H. eexists. split; [exact (X p P H)|]. split; apply clip_axis_spec; assumption.
  - induction (nd_data ji) as [|p l IH]; [constructor|]. cbn [map]. constructor; [|exact IH]. intros P H. eexists. split; [exact (X p P H)|reflexivity].
Qed.

Lemma undistorts : forall c p P, found_view (fc_lens c) p -> seen c true P (num2 p) -> seen c false P (num2 (k_apply (s_ku (fc_st c)) (l_inv (fc_lens c) p))).
Proof.
  intros c p P Fv H. destruct (seen_dir c P) as (xy & Ht & Hf); [eauto|]. apply Hf. apply Ht in H. rewrite (Fv xy (eq_sym H)). reflexivity.
Qed.

Theorem undistort_pixels_ok : forall c ji clip, 0 < fc_w c -> 0 < fc_h c -> pixel_array ji -> (forall p, In p (nd_data ji) -> found_view (fc_lens c) p) ->
  exists out, undistort_pixels c ji clip = Ok out /\
  Forall2 (fun p q => forall P, seen c true P (num2 p) -> exists q0, seen c false P q0 /\ (if clip then clipped (fc_w c) (fc_h c) q0 q else q = q0)) (nd_data ji) out.
Proof.
  intros c ji clip Hw Hh (n & En) Fv. unfold undistort_pixels, validate_pixel_coords. rewrite En. cbn [bind]. eexists. split; [reflexivity|].
  destruct clip.
  - rewrite map_map. induction (nd_data ji) as [|p l IH]; [constructor|]. cbn [map]. constructor; [|apply IH; intros q Hq; apply Fv; right; exact Hq].
    intros P H. eexists. split; [exact (undistorts c p P (Fv p (or_introl eq_refl)) H)|]. split; apply clip_axis_spec; assumption.
  - induction (nd_data ji) as [|p l IH]; [constructor|]. cbn [map]. constructor; [|apply IH; intros q Hq; apply Fv; right; exact Hq].
    intros P H. eexists. split; [exact (undistorts c p P (Fv p (or_introl eq_refl)) H)|reflexivity].
Qed.

Theorem pixels_refused : forall c ji clip, ~ pixel_array ji -> distort_pixels c ji clip = Err ValueError /\ undistort_pixels c ji clip = Err ValueError.
Proof.
  intros c ji clip N. unfold distort_pixels, undistort_pixels. assert (V : validate_pixel_coords ji = Err ValueError); [|rewrite V; split; reflexivity].
  unfold validate_pixel_coords, pixel_array in *. destruct (nd_shape ji) as [|z l]; [reflexivity|]. destruct z as [|[q|[q|q|]|]|q]; try reflexivity.
  destruct l as [|n [|m l]]; try reflexivity. exfalso. apply N. exists n. reflexivity.
Qed.

(** * Images *)
Lemma mapM_map_Ok : forall A B (f : A -> res B) g l, (forall x, In x l -> f x = Ok (g x)) -> mapM f l = Ok (map g l).
Proof. intros A B f g l. induction l as [|x l IH]; intros H; [reflexivity|]. cbn. rewrite (H x (or_introl eq_refl)). cbn. rewrite IH by (intros y Hy; apply H; right; exact Hy). reflexivity. Qed.

Lemma interp_ok : forall i, interp_name i -> interp_get i = Ok i.
Proof. intros i H. unfold interp_get. assert (one_of i interps = true) as ->; [|reflexivity]. apply existsb_exists. exists i. split; [exact H|apply String.eqb_refl]. Qed.

Lemma distort_bands : forall c im nodata i, image_ok im (fc_h c) (fc_w c) -> interp_name i -> 0 < fc_w c < 32767 -> 0 < fc_h c < 32767 ->
  distort_image c im nodata i = Ok (Nd (nd_dtype im) (nd_shape im) (map (fun b => Arr (fc_h c) (fc_w c) (fun row col =>
    let p := k_apply (s_ku (fc_st c)) (l_inv (fc_lens c) (whole row col)) in
    match cv_image i b (Num (round32 (fst p)), Num (round32 (snd p))) with Some v => v | None => nodata end)) (nd_data im))).
Proof.
  intros c im nodata i (Sh & Fa) Hi Hw Hh. unfold Distort_Model.distort_image. rewrite Sh, !Z.eqb_refl. cbn [andb].
  assert (M : mapM (fun b => do i0 <- interp_get i; cv_remap (cv_image i0) b (undistorted_maps round32 c) (Arr (ah b) (aw b) (fun _ _ => nodata))) (nd_data im) =
    Ok (map (fun b => Arr (fc_h c) (fc_w c) (fun row col => let p := k_apply (s_ku (fc_st c)) (l_inv (fc_lens c) (whole row col)) in
      match cv_image i b (Num (round32 (fst p)), Num (round32 (snd p))) with Some v => v | None => nodata end)) (nd_data im))).
  { apply mapM_map_Ok. intros b Hb. destruct (proj1 (Forall_forall _ _) Fa b Hb) as [Eh Ew]. rewrite (interp_ok i Hi). cbn [bind]. unfold cv_remap, cv_sizes, undistorted_maps, shrt_max. cbn [ah aw aget].
    rewrite Eh, Ew, !Z.eqb_refl. cbn [andb]. rewrite !(proj2 (Z.ltb_lt _ _)) by lia. reflexivity. }
  rewrite M. cbn [bind]. reflexivity.
Qed.

Theorem distort_ok : forall c im nodata i, image_ok im (fc_h c) (fc_w c) -> interp_name i -> 0 < fc_w c < 32767 -> 0 < fc_h c < 32767 ->
  exists out, distort_image c im nodata i = Ok out /\ nd_dtype out = nd_dtype im /\ image_ok out (fc_h c) (fc_w c) /\
  Forall2 (fun b o => forall row col, inside (fc_h c) (fc_w c) row col -> found_view (fc_lens c) (whole row col) ->
    forall P p, seen c true P (num2 (whole row col)) -> seen c false P (num2 p) ->
    match cv_image i b (Num (round32 (fst p)), Num (round32 (snd p))) with Some v => aget o row col = v | None => aget o row col = nodata end) (nd_data im) (nd_data out).
Proof.
  intros c im nodata i Io Hi Hw Hh. eexists. split; [apply distort_bands; assumption|]. split; [reflexivity|]. destruct Io as [Sh Fa]. split.
  - split; [cbn [nd_shape nd_data]; rewrite map_length; exact Sh|]. cbn [nd_data]. clear. induction (nd_data im); constructor; [split; reflexivity|assumption].
  - cbn [nd_data]. clear - Hi. induction (nd_data im) as [|b l IH]; [constructor|]. cbn [map]. constructor; [|exact IH]. intros row col In_ Fv P p St Sf. cbn [aget].
    pose proof (seen_fun _ _ _ _ _ (undistorts c (whole row col) P Fv St) Sf) as E. destruct p as [pj pi]. unfold num2 in E. cbn in E. injection E as E1 E2. cbv zeta. cbn [fst snd] in *.
    unfold k_apply in *. cbn [fst snd] in *. rewrite E1, E2. destruct (cv_image i b _); reflexivity.
Qed.

Theorem distort_refused : forall c im nodata i n h w, nd_shape im = [n; h; w] ->
  (h <> fc_h c \/ w <> fc_w c -> distort_image c im nodata i = Err ValueError) /\
  (h = fc_h c -> w = fc_w c -> nd_data im <> [] -> ~ interp_name i -> distort_image c im nodata i = Err KeyError).
Proof.
  intros c im nodata i n h w Sh. unfold Distort_Model.distort_image. rewrite Sh. split.
  - intros H. assert ((w =? fc_w c) && (h =? fc_h c) = false) as ->; [|reflexivity]. apply andb_false_iff. destruct H as [H|H]; [right|left]; apply Z.eqb_neq; exact H.
  - intros -> -> Nd Ni. rewrite !Z.eqb_refl. cbn [andb]. destruct (nd_data im) as [|b l]; [contradiction|]. cbn [mapM]. assert (interp_get i = Err KeyError) as ->; [|reflexivity].
    unfold interp_get. destruct (one_of i interps) eqn:E; [|reflexivity]. exfalso. apply Ni. apply existsb_exists in E. destruct E as (x & Hx & Ex). apply String.eqb_eq in Ex. subst x. exact Hx.
Qed.

(** Whole numbers of image sizes are float32 numbers. *)
Hypothesis round_whole : forall n, 0 <= n < 32767 -> round32 (IZR n) = IZR n.

Theorem pinhole_same : forall size focal sensor cx cy (p : pose) d a c0 ks im nodata i out,
  frame_init true pinhole size focal sensor cx cy (fst p) (snd p) d a = Ok c0 -> let c := run_calls c0 ks in
  kfx (s_ku (fc_st c0)) <> 0%R -> kfy (s_ku (fc_st c0)) <> 0%R -> image_ok im (fc_h c) (fc_w c) -> 0 < fc_w c < 32767 -> 0 < fc_h c < 32767 -> interp_name i -> exact_at_pixels (cv_image i) ->
  distort_image c im nodata i = Ok out ->
  Forall2 (fun b o => forall row col, inside (fc_h c) (fc_w c) row col -> aget o row col = aget b row col) (nd_data im) (nd_data out).
Proof.
  intros size focal sensor cx cy p d a c0 ks im nodata i out Hf c Fx Fy Io Hw Hh Hi Ex E.
  rewrite (distort_bands c im nodata i Io Hi Hw Hh) in E. injection E as <-. cbn [nd_data].
  destruct (run_like cv_surf cast_nan cv_image convert _ _ _ _ _ _ _ ks c0 p d a c0 Hf (init_like _ _ _ _ _ _ _ _ _ _ _ Hf)) as (c2 & H2 & L).
  fold c in L. destruct L as (_ & L2 & L3 & L4 & _ & L6 & _).
  assert (Ku : fc_lens c = pinhole (s_ku (fc_st c)) /\ s_ku (fc_st c) = s_ku (fc_st c0)).
  { rewrite L2, L6. clear - H2 Hf. unfold frame_init in *. destruct size as [|w [|h rest]]; try discriminate. destruct (get_intrinsic w h focal sensor cx cy) as [k|]; [|discriminate]. cbn [bind] in *.
    destruct (get_extrinsic (fst p) (snd p)) as [e|]; [|discriminate]. destruct (get_extrinsic _ _) as [e2|] in H2; [|discriminate]. cbn in *. injection H2 as <-. injection Hf as <-. split; reflexivity. }
  destruct Ku as [K1 K2]. rewrite K1. cbn [pinhole l_inv]. rewrite <- K2 in Fx, Fy. destruct Io as [_ Fa]. induction Fa as [|b l (Eh & Ew) Fa IH]; [constructor|]. cbn [map]. constructor; [|exact IH].
  intros row col [I1 I2]. cbn [aget]. cbv zeta. change (l_inv (pinhole (s_ku (fc_st c))) (whole row col)) with (k_solve (s_ku (fc_st c)) (whole row col)). pose proof (k_apply_solve _ (whole row col) Fx Fy) as K. unfold k_apply, whole at 3 in K. injection K as Kx Ky. unfold k_apply, k_solve, whole. cbn [fst snd]. cbn [whole fst snd] in Kx, Ky. rewrite Kx, Ky. rewrite !round_whole by lia.
  change (Num (IZR col), Num (IZR row)) with (num2 (whole row col)). rewrite (Ex b row col) by (unfold inside; rewrite Eh, Ew; split; assumption). reflexivity.
Qed.

(** Distorting, and then reading the image without distortion. *)
Theorem round_trip : forall lens_of size focal sensor cx cy (p : pose) d a c0 ks im nodata i out,
  frame_init false lens_of size focal sensor cx cy (fst p) (snd p) d a = Ok c0 -> let c := run_calls c0 (ks ++ [SetDistortC false]) in
  kfx (s_ku (fc_st c)) <> 0%R -> kfy (s_ku (fc_st c)) <> 0%R -> image_ok im (fc_h c) (fc_w c) -> cv_dtype (nd_dtype im) -> nd_data im <> [] ->
  0 < fc_w c < 32767 -> 0 < fc_h c < 32767 -> interp_name i -> exact_at_pixels (cv_image i) -> (forall t x, convert t t x = x) ->
  distort_image c im nodata i = Ok out ->
  exists back, snd (do_call c (ReadC (Ok (ImFile (fc_h c) (fc_w c) (map (fun b => (nd_dtype im, aget b)) (nd_data out)))) AllBands None (Some nodata) i)) = Ok (VImage back) /\ nd_dtype back = nd_dtype im /\ nd_shape back = nd_shape im /\
  Forall2 (fun b o => forall row col row' col' P, inside (fc_h c) (fc_w c) row col -> inside (fc_h c) (fc_w c) row' col' -> found_view (fc_lens c) (whole row' col') ->
    seen c false P (num2 (whole row col)) -> seen c true P (num2 (whole row' col')) -> aget o row col = aget b row col) (nd_data im) (nd_data back).
Proof.
  intros lens_of size focal sensor cx cy p d a c0 ks im nodata i out Hf c Fx Fy Io Hd Hn Hw Hh Hi Ex Cv E.
  remember (snd (do_call c (ReadC (Ok (ImFile (fc_h c) (fc_w c) (map (fun b => (nd_dtype im, aget b)) (nd_data out)))) AllBands None (Some nodata) i))) as res eqn:Rd.
  rewrite (distort_bands c im nodata i Io Hi Hw Hh) in E. injection E as <-.
  assert (L : exists c2, like c c2 /\ fc_pinhole c = false /\ s_distort (fc_st c) = false).
  { destruct (run_like cv_surf cast_nan cv_image convert _ _ _ _ _ _ _ (ks ++ [SetDistortC false]) c0 p d a c0 Hf (init_like _ _ _ _ _ _ _ _ _ _ _ Hf)) as (c2 & H2 & L).
    exists c2. split; [exact L|]. split.
    - destruct L as (L1 & _). unfold c. rewrite L1. clear - H2. unfold frame_init in H2. destruct size as [|w [|h rest]]; try discriminate. destruct (get_intrinsic _ _ _ _ _ _); [|discriminate]. cbn [bind] in H2.
      destruct (get_extrinsic _ _); [|discriminate]. injection H2 as <-. reflexivity.
    - unfold c, Cam_Model.run_calls. rewrite fold_left_app. reflexivity. }
  destruct L as (c2 & L & Pn & Ds). clear Hf. clearbody c. destruct Io as [Sh Fa].
  set (bands := map _ (nd_data im)) in Rd.
  assert (RI : read_image convert (Ok (ImFile (fc_h c) (fc_w c) (map (fun b => (nd_dtype im, aget b)) bands))) AllBands None =
    Ok (Nd (nd_dtype im) [Z.of_nat (List.length bands); fc_h c; fc_w c] (map (fun o => Arr (fc_h c) (fc_w c) (fun r k => convert (nd_dtype im) (nd_dtype im) (aget o r k))) bands))).
  { assert (Bn : bands <> []) by (unfold bands; destruct (nd_data im); [contradiction|discriminate]). clearbody bands.
    unfold read_image. cbn [bind if_bands if_h if_w]. destruct bands as [|b0 bs] eqn:Eb; [contradiction|]. rewrite <- Eb. clear Rd.
    assert (match map (fun b => (nd_dtype im, aget b)) bands with (d0, _) :: _ => Ok d0 | [] => Err IndexError end = Ok (nd_dtype im)) as -> by (rewrite Eb; reflexivity). cbn [bind band_list].
    rewrite map_length.
    assert (G : forall l k, (forall n, nth_error l n = nth_error bands (n + k)) -> (k + List.length l = List.length bands)%nat ->
      mapM (fun b => if b <? 1 then Err IndexError else match nth_error (map (fun b1 => (nd_dtype im, aget b1)) bands) (Z.to_nat (b - 1)) with
        Some (d0, px) => Ok (Arr (fc_h c) (fc_w c) (fun r k0 => convert d0 (nd_dtype im) (px r k0))) | None => Err IndexError end) (map Z.of_nat (seq (S k) (List.length l))) =
      Ok (map (fun o => Arr (fc_h c) (fc_w c) (fun r k0 => convert (nd_dtype im) (nd_dtype im) (aget o r k0))) l)).
    { induction l as [|x l IH]; intros k Hl Lk; [reflexivity|]. cbn [List.length seq map mapM]. rewrite (proj2 (Z.ltb_ge _ _)) by lia. replace (Z.to_nat (Z.of_nat (S k) - 1)) with k by lia.
      rewrite nth_error_map. pose proof (Hl 0%nat) as H0. cbn in H0. rewrite <- H0. cbn [option_map bind]. rewrite (IH (S k)); [reflexivity| |cbn in Lk; lia].
      intros n. specialize (Hl (S n)). cbn [nth_error] in Hl. rewrite Hl. replace (S n + k)%nat with (n + S k)%nat by lia. reflexivity. }
    rewrite (G bands 0%nat); [|intros n; f_equal; lia|lia]. cbn [bind]. rewrite map_length. reflexivity. }
  cbn [Cam_Model.do_call snd] in Rd. unfold read_call in Rd. cbn [nd_data] in Rd. rewrite RI, Ds in Rd. set (file := Nd _ _ _) in Rd.
  assert (V : validate_image file = Ok tt).
  { unfold validate_image, file. cbn [nd_dtype nd_shape]. assert (one_of (nd_dtype im) valid_dtypes = true) as -> by (apply existsb_exists; exists (nd_dtype im); split; [exact Hd|apply String.eqb_refl]).
    cbn [negb]. unfold shrt_max. rewrite (proj2 (Z.ltb_ge 32767 (fc_h c))), (proj2 (Z.ltb_ge 32767 (fc_w c))) by lia. reflexivity. }
  rewrite V in Rd. unfold read in Rd. rewrite Ds, Pn in Rd.
  assert (Mp : match s_maps (fc_st c) with Some m => Some m | None => Some (undistort_maps (fc_lens c) (s_ku (fc_st c))) end = Some (undistort_maps (fc_lens c) (s_ku (fc_st c)))).
  { destruct L as (_ & _ & _ & _ & _ & _ & _ & _ & _ & [->|[_ ->]]); reflexivity. }
  rewrite Mp in Rd. cbn [snd] in Rd. unfold undistort_im in Rd. rewrite V in Rd. cbn [bind] in Rd.
  assert (Q : mapM (fun b => do i0 <- interp_get i; cv_remap (cv_image i0) b (map_array (FCam false (fc_lens c) (fc_w c) (fc_h c) (Cam (s_alpha (fc_st c)) (s_ku (fc_st c)) (Some (undistort_maps (fc_lens c) (s_ku (fc_st c)))) false (s_ext (fc_st c))))
      (undistort_maps (fc_lens c) (s_ku (fc_st c)))) (Arr (ah b) (aw b) (fun _ _ => nodata))) (nd_data file) =
    Ok (map (fun b => Arr (fc_h c) (fc_w c) (fun row col => match cv_image i b (undistort_maps (fc_lens c) (s_ku (fc_st c)) (whole row col)) with Some x => x | None => nodata end)) (nd_data file))).
  { apply mapM_map_Ok. intros b Hb. unfold file in Hb. cbn [nd_data] in Hb. apply in_map_iff in Hb. destruct Hb as (o & <- & _). rewrite (interp_ok i Hi). cbn [bind].
    unfold cv_remap, cv_sizes, map_array, shrt_max. cbn [ah aw aget fc_h fc_w]. rewrite !Z.eqb_refl. cbn [andb]. rewrite !(proj2 (Z.ltb_lt _ _)) by lia. reflexivity. }
  rewrite Ds in Rd || idtac. rewrite Q in Rd. cbn [bind rmap snd] in Rd. subst res. eexists. split; [reflexivity|]. split; [reflexivity|]. split.
  - unfold file, bands. cbn [nd_shape]. rewrite map_length. symmetry. exact Sh.
  - unfold file, bands. cbn [nd_data]. rewrite !map_map. clear - Fa Ex Cv Fx Fy Hw Hh round_whole. induction Fa as [|b l (Eh & Ew) Fa IH]; [constructor|]. cbn [map]. constructor; [|exact IH].
    intros row col row' col' P Hp Hp' Fv Sf St. cbn [aget].
    destruct (seen_dir c P) as (xy & Ht & Hff); [eauto|]. pose proof (proj1 (Hff _) Sf) as E1. pose proof (proj1 (Ht _) St) as E2.
    assert (W : whole row col = k_apply (s_ku (fc_st c)) xy). { destruct (whole row col) as [u w]. unfold num2, k_apply in *. cbn in *. injection E1 as -> ->. reflexivity. }
    unfold undistort_maps. rewrite W, (k_solve_apply _ _ Fx Fy), <- E2. rewrite Ex by (cbn [ah aw]; exact Hp'). cbn [aget]. rewrite Cv. cbv zeta.
    rewrite (Fv xy (eq_sym E2)). unfold k_apply, whole in W. injection W as W1 W2. rewrite <- W1, <- W2. destruct Hp as [Hp1 Hp2]. rewrite !round_whole by lia.
    change (Num (IZR col), Num (IZR row)) with (num2 (whole row col)). rewrite (Ex b row col) by (unfold inside; rewrite Eh, Ew; split; assumption). reflexivity.
Qed.
End Distort.

(** * A camera whose lens turns the image upside down *)
Open Scope R_scope.
Definition turning (k : intr) : lens := Lens (fun xy => num2 (k_apply k (- fst xy, - snd xy))) (fun p => let q := k_solve k p in (- fst q, - snd q)).
Definition turned : fcam := FCam false (turning (Intr 1 1 1 1)) 3 3 (Cam 1 (Intr 1 1 1 1) None true (Some (flip_yz, V3 0 0 0))).

Lemma turned_ku : undistort_intrinsic (l_inv (turning (Intr 1 1 1 1))) 3 3 1 = Intr 1 1 1 1.
Proof.
  unfold undistort_intrinsic. destruct (get_rectangles _ 3 3) as [inner outer] eqn:G. unfold get_rectangles in G. cbv zeta in G. apply (f_equal snd) in G. cbn [snd] in G. subst outer.
  assert (V : forall s, In s grid9 -> 0 <= INR (fst s) <= 8 /\ 0 <= INR (snd s) <= 8).
  { intros [a b] H. apply in_prod_iff in H. destruct H as [Ha Hb]. apply in_seq in Ha, Hb. cbn [fst snd]. repeat split; try apply pos_INR.
    - replace 8 with (INR 8) by (cbn; lra). apply le_INR. lia.
    - replace 8 with (INR 8) by (cbn; lra). apply le_INR. lia. }
  assert (C : In (0%nat, 0%nat) grid9 /\ In (8%nat, 8%nat) grid9) by (split; apply in_prod_iff; split; apply in_seq; lia). destruct C as [C0 C8].
  assert (X1 : rmin (all_x (l_inv (turning (Intr 1 1 1 1))) 3 3) = -1).
  { apply rmin_eq; [apply in_map_iff; exists (8%nat, 8%nat); split; [cbn; lra|exact C8]|]. intros x Hx. apply in_map_iff in Hx. destruct Hx as (s & <- & Hs). destruct (V s Hs). cbn. lra. }
  assert (X2 : rmax (all_x (l_inv (turning (Intr 1 1 1 1))) 3 3) = 1).
  { apply rmax_eq; [apply in_map_iff; exists (0%nat, 0%nat); split; [cbn; lra|exact C0]|]. intros x Hx. apply in_map_iff in Hx. destruct Hx as (s & <- & Hs). destruct (V s Hs). cbn. lra. }
  assert (Y1 : rmin (all_y (l_inv (turning (Intr 1 1 1 1))) 3 3) = -1).
  { apply rmin_eq; [apply in_map_iff; exists (8%nat, 8%nat); split; [cbn; lra|exact C8]|]. intros x Hx. apply in_map_iff in Hx. destruct Hx as (s & <- & Hs). destruct (V s Hs). cbn. lra. }
  assert (Y2 : rmax (all_y (l_inv (turning (Intr 1 1 1 1))) 3 3) = 1).
  { apply rmax_eq; [apply in_map_iff; exists (0%nat, 0%nat); split; [cbn; lra|exact C0]|]. intros x Hx. apply in_map_iff in Hx. destruct Hx as (s & <- & Hs). destruct (V s Hs). cbn. lra. }
  cbn [off_x off_y size_x size_y]. rewrite X1, X2, Y1, Y2. assert (clip01 1 = 1) as -> by (unfold clip01; rewrite Rmax_left, Rmin_left by lra; reflexivity). replace (1 - 1) with 0 by ring. rewrite !Rmult_0_r. f_equal; field.
Qed.

Lemma turned_init : frame_init false turning [3; 3]%Z [1%R] (Some [3%R; 3%R]) 0 0 (Some [0%R; 0%R; 0%R]) (Some [0%R; 0%R; 0%R]) true 1 = Ok turned.
Proof.
  unfold frame_init. unfold get_intrinsic. cbn [bind pair_of fst snd get_extrinsic].
  assert (E : Intr (1 * IZR 3 / 3) (1 * IZR 3 / 3) ((IZR 3 - 1) / 2 + IZR (Z.max 3 3) * 0) ((IZR 3 - 1) / 2 + IZR (Z.max 3 3) * 0) = Intr 1 1 1 1) by (f_equal; cbn; field).
  rewrite E. assert (F : extrinsic_rotation (0%R, 0%R, 0%R) = flip_yz).
  { unfold extrinsic_rotation, opk_to_rotation. rewrite cos_0, sin_0. meq; ring. }
  rewrite F. unfold turned, cam_init. rewrite turned_ku. reflexivity.
Qed.

Lemma turned_found : forall p, found_view (turning (Intr 1 1 1 1)) p.
Proof. intros [j i] [x y] H. cbn in *. injection H as <- <-. f_equal; lra. Qed.

(** The nearest pixel. *)
Definition nearest (i : string) (b : arr pix) (p : fl * fl) : option pix :=
  match p with
  | (Num x, Num y) => let col := (up (x - 1 / 2))%Z in let row := (up (y - 1 / 2))%Z in
    if ((0 <=? row) && (row <? ah b) && (0 <=? col) && (col <? aw b))%Z then Some (aget b row col) else None
  | _ => None
  end.

Lemma nearest_exact : forall i, exact_at_pixels (nearest i).
Proof.
  intros i b row col [[H1 H2] [H3 H4]]. unfold nearest, whole, num2. cbn [fst snd]. assert (U : forall n, up (IZR n - 1 / 2) = n) by (intros n; symmetry; apply tech_up; lra). rewrite !U.
  rewrite (proj2 (Z.leb_le _ _) H1), (proj2 (Z.ltb_lt _ _) H2), (proj2 (Z.leb_le _ _) H3), (proj2 (Z.ltb_lt _ _) H4). reflexivity.
Qed.
