(** Property theorems: C105 distorting images and pixels. *)
From Coq Require Import String List Reals QArith ZArith Lra Lia.
From Verif Require Import Py Flt Mat Remap_Model Frame_Model Frame_Proof Rot_Model Undist_Model Cam_Model Cam_Spec Cam_Proof Proj_Spec Distort_Model Distort_Spec Distort_Proof.
Import ListNotations.
Open Scope string_scope.
Open Scope list_scope.
Open Scope Z_scope.

Section Props.
Variable cv_surf : string -> arr fl -> fl * fl -> option fl.
Variable cast_nan : string -> fl.
Variable cv_image : string -> arr pix -> fl * fl -> option pix.
Variable convert : string -> string -> pix -> pix.
Variable round32 : R -> R.
Notation do_call := (do_call cv_surf cast_nan cv_image convert).
Notation run_calls := (run_calls cv_surf cast_nan cv_image convert).
Notation seen := (seen cv_surf cast_nan cv_image convert).
Notation distort_image := (distort_image cv_image round32).

(** C105: a distorted image has the type and size of the image it is made from, and at each pixel where the camera sees a world point, the value of the image where the camera without
    distortion sees that point, or nodata when that is not in the image. *)
Theorem C105_image : forall c im nodata i, image_ok im (fc_h c) (fc_w c) -> interp_name i -> 0 < fc_w c < 32767 -> 0 < fc_h c < 32767 ->
  exists out, distort_image c im nodata i = Ok out /\ nd_dtype out = nd_dtype im /\ image_ok out (fc_h c) (fc_w c) /\
  Forall2 (fun b o => forall row col, inside (fc_h c) (fc_w c) row col -> found_view (fc_lens c) (whole row col) ->
    forall P p, seen c true P (num2 (whole row col)) -> seen c false P (num2 p) ->
    match cv_image i b (Num (round32 (fst p)), Num (round32 (snd p))) with Some v => aget o row col = v | None => aget o row col = nodata end) (nd_data im) (nd_data out).
Proof. exact (distort_ok cv_surf cast_nan cv_image convert round32). Qed.

(** C105: images of another size, and unknown interpolations, are refused. *)
Theorem C105_refused : forall c im nodata i n h w, nd_shape im = [n; h; w] ->
  (h <> fc_h c \/ w <> fc_w c -> distort_image c im nodata i = Err ValueError) /\
  (h = fc_h c -> w = fc_w c -> nd_data im <> [] -> ~ interp_name i -> distort_image c im nodata i = Err KeyError).
Proof. exact (distort_refused cv_image round32). Qed.

(** C105: a pinhole camera does not change an image, whatever was done with the camera before. *)
Theorem C105_pinhole : (forall n, 0 <= n < 32767 -> round32 (IZR n) = IZR n) ->
  forall size focal sensor cx cy (p : pose) d a c0 ks im nodata i out,
  frame_init true pinhole size focal sensor cx cy (fst p) (snd p) d a = Ok c0 -> let c := run_calls c0 ks in
  kfx (s_ku (fc_st c0)) <> 0%R -> kfy (s_ku (fc_st c0)) <> 0%R -> image_ok im (fc_h c) (fc_w c) -> 0 < fc_w c < 32767 -> 0 < fc_h c < 32767 -> interp_name i -> exact_at_pixels (cv_image i) ->
  distort_image c im nodata i = Ok out ->
  Forall2 (fun b o => forall row col, inside (fc_h c) (fc_w c) row col -> aget o row col = aget b row col) (nd_data im) (nd_data out).
Proof. exact (pinhole_same cv_surf cast_nan cv_image convert round32). Qed.

(** C105: reading a distorted image without distortion gives the pixels of the image it was made from, wherever a world point is seen at a whole pixel with distortion and without. *)
Theorem C105_round_trip : (forall n, 0 <= n < 32767 -> round32 (IZR n) = IZR n) ->
  forall lens_of size focal sensor cx cy (p : pose) d a c0 ks im nodata i out,
  frame_init false lens_of size focal sensor cx cy (fst p) (snd p) d a = Ok c0 -> let c := run_calls c0 (ks ++ [SetDistortC false]) in
  kfx (s_ku (fc_st c)) <> 0%R -> kfy (s_ku (fc_st c)) <> 0%R -> image_ok im (fc_h c) (fc_w c) -> cv_dtype (nd_dtype im) -> nd_data im <> [] ->
  0 < fc_w c < 32767 -> 0 < fc_h c < 32767 -> interp_name i -> exact_at_pixels (cv_image i) -> (forall t x, convert t t x = x) ->
  distort_image c im nodata i = Ok out ->
  exists back, snd (do_call c (ReadC (Ok (ImFile (fc_h c) (fc_w c) (map (fun b => (nd_dtype im, aget b)) (nd_data out)))) AllBands None (Some nodata) i)) = Ok (VImage back) /\
  nd_dtype back = nd_dtype im /\ nd_shape back = nd_shape im /\
  Forall2 (fun b o => forall row col row' col' P, inside (fc_h c) (fc_w c) row col -> inside (fc_h c) (fc_w c) row' col' -> found_view (fc_lens c) (whole row' col') ->
    seen c false P (num2 (whole row col)) -> seen c true P (num2 (whole row' col')) -> aget o row col = aget b row col) (nd_data im) (nd_data back).
Proof. exact (round_trip cv_surf cast_nan cv_image convert round32). Qed.

(** C105: pixels are distorted to where the camera sees the same world points with distortion, and moved into the image when clipped. *)
Theorem C105_distort_pixels : forall c ji clip, 0 < fc_w c -> 0 < fc_h c -> kfx (s_ku (fc_st c)) <> 0%R -> kfy (s_ku (fc_st c)) <> 0%R -> pixel_array ji ->
  exists out, distort_pixels c ji clip = Ok out /\
  Forall2 (fun p q => forall P, seen c false P (num2 p) -> exists q0, seen c true P q0 /\ (if clip then clipped (fc_w c) (fc_h c) q0 q else q = q0)) (nd_data ji) out.
Proof. exact (distort_pixels_ok cv_surf cast_nan cv_image convert). Qed.

(** C105: pixels are undistorted to where the camera sees the same world points without distortion. *)
Theorem C105_undistort_pixels : forall c ji clip, 0 < fc_w c -> 0 < fc_h c -> pixel_array ji -> (forall p, In p (nd_data ji) -> found_view (fc_lens c) p) ->
  exists out, undistort_pixels c ji clip = Ok out /\
  Forall2 (fun p q => forall P, seen c true P (num2 p) -> exists q0, seen c false P q0 /\ (if clip then clipped (fc_w c) (fc_h c) q0 q else q = q0)) (nd_data ji) out.
Proof. exact (undistort_pixels_ok cv_surf cast_nan cv_image convert). Qed.

(** C105: pixels that are not a 2 by N array are refused. *)
Theorem C105_pixels_refused : forall c ji clip, ~ pixel_array ji -> distort_pixels c ji clip = Err ValueError /\ undistort_pixels c ji clip = Err ValueError.
Proof. exact pixels_refused. Qed.
End Props.
Print Assumptions C105_image.
Print Assumptions C105_refused.
Print Assumptions C105_pinhole.
Print Assumptions C105_round_trip.
Print Assumptions C105_distort_pixels.
Print Assumptions C105_undistort_pixels.
Print Assumptions C105_pixels_refused.

(** * Cases *)
Definition d_surf : string -> arr fl -> fl * fl -> option fl := fun _ _ _ => None.
Definition d_zero : string -> fl := fun _ => Num 0.
Definition d_same : string -> string -> pix -> pix := fun _ _ v => v.
Definition d_im : nd (list (arr pix)) := Nd "uint8" [1; 3; 3] [Arr 3 3 (fun r c => PVal (inject_Z (r * 3 + c)))].

Lemma turned_sees : seen d_surf d_zero nearest d_same turned true (V3 1 1 (-1)) (num2 (whole 2 0)) /\ seen d_surf d_zero nearest d_same turned false (V3 1 1 (-1)) (num2 (whole 0 2)).
Proof.
  split; unfold Distort_Spec.seen; cbn; unfold world_to_pixel_call, test_init; cbn; (match goal with |- context [Req_EM_T ?a 0] => destruct (Req_EM_T a 0) as [E|E]; [exfalso; clear - E; unfold dot, vsub in E; cbn in E; lra|] end);
  unfold num2, whole, k_apply; cbn [fst snd]; unfold dot, vsub; cbn [vx vy vz]; cbn [kfx kfy kcx kcy]; (assert (V : forall a b c d, a = c -> b = d -> Ok (VPixels [(Num a, Num b)]) = Ok (VPixels [(Num c, Num d)])) by (intros; subst; reflexivity)); apply V; field; lra.
Qed.

(** A world point is seen at column 0 of row 2 by a camera that turns its images upside down, and at column 2 of row 0 without distortion: the distorted image has the value of the second pixel
    at the first, and reading it without distortion gives that value back; the pinhole camera keeps the image. *)
Example C105_case : exists out b back o,
  distort_image nearest (fun x => x) turned d_im (PVal 99%Q) "nearest" = Ok out /\ nd_data out = [b] /\ aget b 2 0 = PVal 2%Q /\
  frame_init false turning [3; 3] [1%R] (Some [3%R; 3%R]) 0 0 (Some [0%R; 0%R; 0%R]) (Some [0%R; 0%R; 0%R]) true 1 = Ok turned /\
  let c := run_calls d_surf d_zero nearest d_same turned [SetDistortC false] in
  snd (do_call d_surf d_zero nearest d_same c (ReadC (Ok (ImFile 3 3 [("uint8", aget b)])) AllBands None (Some (PVal 99%Q)) "nearest")) = Ok (VImage back) /\ nd_data back = [o] /\ aget o 0 2 = PVal 2%Q /\
  exists same s, distort_image nearest (fun x => x) low_fcam d_im (PVal 99%Q) "nearest" = Ok same /\ nd_data same = [s] /\ aget s 0 2 = PVal 2%Q.
Proof.
  assert (Io : image_ok d_im 3 3) by (split; [reflexivity|constructor; [split; reflexivity|constructor]]).
  assert (Iw : inside 3 3 2 0 /\ inside 3 3 0 2) by (unfold inside; lia). destruct Iw as [Iw1 Iw2]. assert (B : 0 < 3 < 32767) by lia.
  assert (In_ : interp_name "nearest") by (left; reflexivity). pose proof turned_sees as [S1 S2].
  destruct (C105_image d_surf d_zero nearest d_same (fun x => x) turned d_im (PVal 99%Q) "nearest" Io In_ B B) as (out & E & _ & _ & F).
  destruct (nd_data out) as [|b l] eqn:Eo; [inversion F|]. inversion F as [|? ? ? ? Fb Fl]; subst. inversion Fl; subst. clear F Fl.
  specialize (Fb 2 0 Iw1 (turned_found _) _ _ S1 S2). change (Num (fst (whole 0 2)), Num (snd (whole 0 2))) with (num2 (whole 0 2)) in Fb. rewrite (nearest_exact "nearest" (Arr 3 3 (fun r c => PVal (inject_Z (r * 3 + c)))) 0 2 Iw2) in Fb.
  destruct (C105_round_trip d_surf d_zero nearest d_same (fun x => x) (fun _ _ => eq_refl) turning [3; 3] [1%R] (Some [3%R; 3%R]) 0%R 0%R (Some [0%R; 0%R; 0%R], Some [0%R; 0%R; 0%R]) true 1%R turned []
    d_im (PVal 99%Q) "nearest" out turned_init R1_neq_R0 R1_neq_R0 Io (or_introl eq_refl) ltac:(discriminate) B B In_ (nearest_exact "nearest") (fun _ _ => eq_refl) E) as (back & Eb & _ & _ & F).
  destruct (nd_data back) as [|o l] eqn:Ebk; [inversion F|]. inversion F as [|? ? ? ? Fo Fl]; subst. inversion Fl; subst. clear F Fl.
  specialize (Fo 0 2 2 0 (V3 1 1 (-1)) Iw2 Iw1 (turned_found _) S2 S1).
  assert (Same : exists same, distort_image nearest (fun x => x) low_fcam d_im (PVal 99%Q) "nearest" = Ok same) by (eexists; reflexivity). destruct Same as (sm & Es).
  pose proof (C105_pinhole d_surf d_zero nearest d_same (fun x => x) (fun _ _ => eq_refl) [3; 3] [1%R] (Some [3%R; 3%R]) 0%R 0%R (Some [0%R; 0%R; 0%R], Some [0%R; 0%R; 0%R]) true 1%R low_fcam []
    d_im (PVal 99%Q) "nearest" sm low_fcam_init R1_neq_R0 R1_neq_R0 Io B B In_ (nearest_exact "nearest") Es) as F.
  destruct (nd_data sm) as [|s l] eqn:Esm; [inversion F|]. inversion F as [|? ? ? ? Fs Fl]; subst. inversion Fl; subst. clear F Fl.
  exists out, b, back, o. split; [exact E|]. split; [exact Eo|]. split; [exact Fb|]. split; [exact turned_init|]. cbv zeta. rewrite Eo in Eb. split; [exact Eb|]. split; [exact Ebk|]. split; [exact Fo|].
  exists sm, s. split; [exact Es|]. split; [exact Esm|]. exact (Fs 0 2 Iw2).
Qed.

Example C105_pixels_case : exists p q,
  distort_pixels turned (Nd "float64" [2; 2] [(2, 0); (4, -1)]%R) true = Ok [p; q] /\ p = num2 (0, 2)%R /\ fst q = Num 0 /\ snd q = Num 2 /\
  distort_pixels turned (Nd "float64" [3; 1] [(2, 0)]%R) true = Err ValueError.
Proof.
  assert (M : forall x n, (x <= 0 -> n = 0)%R -> (0 <= x <= 2 -> n = x)%R -> (2 <= x -> n = 2)%R -> Num (Rmin (Rmax x 0) (3 - 1)) = Num n).
  { intros x n H1 H2 H3. f_equal. apply Rmax_case_strong; intros; apply Rmin_case_strong; intros; lra. }
  eexists _, _. split; [reflexivity|]. split; [unfold clip_fl, num2; cbn; f_equal; apply M; intros; lra|]. split; [cbn; apply M; intros; lra|]. split; [cbn; apply M; intros; lra|reflexivity].
Qed.
