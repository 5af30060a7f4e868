(** Property theorems: C87 histories and exterior parameters, C88 arguments, C89 world boundary, C90 reading of camera objects. *)
From Coq Require Import String List Reals QArith ZArith Lra Lia.
From Verif Require Import Py Flt Mat Grid_Model Remap_Model Rot_Model Frame_Model Frame_Spec Undist_Model Bound_Model Bound_Spec Bound_Proof Cam_Model Cam_Spec Cam_Proof.
Import ListNotations.
Open Scope string_scope.
Open Scope list_scope.
Open Scope Z_scope.

Section Props.
Variable cv_surf : string -> arr fl -> fl * fl -> option fl.
Variable cast_nan : string -> fl.
Variable cv_image : string -> arr pix -> fl * fl -> option pix.
Variable convert : string -> string -> pix -> pix.
Notation do_call := (do_call cv_surf cast_nan cv_image convert).
Notation run_calls := (run_calls cv_surf cast_nan cv_image convert).

(** C87: after any history of calls, every call gives what it gives on a new camera with the last alpha, the last [distort] and the last
    accepted exterior parameters. *)
Theorem C87_history : forall pin lens_of im_size focal sensor cx cy (p : pose) d a c ks,
  frame_init pin lens_of im_size focal sensor cx cy (fst p) (snd p) d a = Ok c ->
  exists c', frame_init pin lens_of im_size focal sensor cx cy (fst (pose_after ks p)) (snd (pose_after ks p)) (distort_after ks d) (alpha_after ks a) = Ok c' /\
  forall k, snd (do_call (run_calls c ks) k) = snd (do_call c' k).
Proof. exact (history cv_surf cast_nan cv_image convert). Qed.

(** C87: the position is that of the last accepted exterior parameters, if they are complete. *)
Theorem C87_position : forall pin lens_of im_size focal sensor cx cy (p : pose) d a c ks,
  frame_init pin lens_of im_size focal sensor cx cy (fst p) (snd p) d a = Ok c ->
  snd (do_call (run_calls c ks) Pos) = Ok (VPos (position (pose_after ks p))).
Proof.
  exact (fun pin lens_of im_size focal sensor cx cy p d a c ks H =>
    f_equal (fun v => Ok (VPos v)) (position_after cv_surf cast_nan cv_image convert pin lens_of im_size focal sensor cx cy p d a c ks H)).
Qed.

(** C87: exterior parameters with wrong lengths are a ValueError, both for a new camera and for one in use. *)
Theorem C87_refused : forall c xyz opk, refused (xyz, opk) = true <-> do_call c (UpdateC xyz opk) = (c, Err ValueError).
Proof.
  intros c xyz opk. pose proof (refused_spec (xyz, opk)) as R. cbn [fst snd] in R. cbn [Cam_Model.do_call]. split; intros H.
  - apply R in H. rewrite H. reflexivity.
  - apply R. destruct (get_extrinsic xyz opk) as [e|e]; [discriminate|congruence].
Qed.

(** C87: a camera without exterior parameters refuses every projection with CameraInitError, before it looks at the arguments; remapping never
    works, and is a CameraInitError for usable arguments. *)
Theorem C87_uninitialised : forall c, pos c = None ->
  (forall xyz, snd (do_call c (WorldToPixel xyz)) = Err CameraInitError) /\
  (forall ji z, snd (do_call c (PixelToWorld ji z)) = Err CameraInitError) /\
  (forall z n t i clip, snd (do_call c (WorldBoundary z n t i clip)) = Err CameraInitError) /\
  (forall im x y z nodata i k, (forall v, snd (do_call c (Remap im x y z nodata i k)) <> Ok v) /\
     (image_array im -> grids x y z -> nodata <> None -> snd (do_call c (Remap im x y z nodata i k)) = Err CameraInitError)).
Proof. exact (uninitialised cv_surf cast_nan cv_image convert). Qed.

(** C87: and one with exterior parameters never raises it. *)
Theorem C87_initialised : forall c T k, pos c = Some T -> (forall f ix t nodata i, k <> ReadC f ix t nodata i) ->
  snd (do_call c k) <> Err CameraInitError.
Proof. exact (initialised cv_surf cast_nan cv_image convert). Qed.

(** C87: image boundaries and reading do not depend on exterior parameters, nor need them. *)
Theorem C87_pose_irrelevant : forall pin lens_of im_size focal sensor cx cy (p1 p2 : pose) d a c1 c2,
  frame_init pin lens_of im_size focal sensor cx cy (fst p1) (snd p1) d a = Ok c1 ->
  frame_init pin lens_of im_size focal sensor cx cy (fst p2) (snd p2) d a = Ok c2 ->
  (forall n, snd (do_call c1 (PixelBoundary n)) = snd (do_call c2 (PixelBoundary n))) /\
  (forall f ix t nodata i, snd (do_call c1 (ReadC f ix t nodata i)) = snd (do_call c2 (ReadC f ix t nodata i))).
Proof. exact (pose_irrelevant cv_surf cast_nan cv_image convert). Qed.

(** C88: [world_to_pixel] takes 3-by-N float64 arrays, and projects each point on its own; else it is a ValueError. *)
Theorem C88_world_to_pixel : forall c T xyz, pos c = Some T ->
  (~ world_array xyz -> snd (do_call c (WorldToPixel xyz)) = Err ValueError) /\
  (world_array xyz -> exists l, snd (do_call c (WorldToPixel xyz)) = Ok (VPixels l) /\ List.length l = List.length (nd_data xyz) /\
     forall k p, nth_error (nd_data xyz) k = Some p ->
     exists q, nth_error l k = Some q /\ snd (do_call c (WorldToPixel (Nd "float64" [3; 1] [p]))) = Ok (VPixels [q])).
Proof. exact (world_to_pixel_args cv_surf cast_nan cv_image convert). Qed.

(** C88: [pixel_to_world_z] takes 2-by-N arrays and heights that broadcast with them, and projects each pair on its own; else it is a ValueError. *)
Theorem C88_pixel_to_world : forall c T ji z, pos c = Some T ->
  let n := List.length (nd_data ji) in
  let m := List.length (zlist z) in
  (~ (pixel_array ji /\ compatible z n) -> snd (do_call c (PixelToWorld ji z)) = Err ValueError) /\
  (pixel_array ji -> compatible z n -> exists l, snd (do_call c (PixelToWorld ji z)) = Ok (VPoints l) /\ List.length l = out_len n m /\
     forall k p h, (k < List.length l)%nat ->
     nth_error (nd_data ji) (if Nat.eqb n 1 then 0 else k)%nat = Some p -> nth_error (zlist z) (if Nat.eqb m 1 then 0 else k)%nat = Some h ->
     exists q, nth_error l k = Some q /\ snd (do_call c (PixelToWorld (Nd (nd_dtype ji) [2; 1] [p]) (ZScalar h))) = Ok (VPoints [q])).
Proof. exact (pixel_to_world_args cv_surf cast_nan cv_image convert). Qed.

(** C88: [remap] with a nodata value takes images and grids of the right types and shapes, and gives bands and a mask of the shape of the
    grids; else it is a ValueError.  Images or grids that pass its checks but that OpenCV does not take end as OpenCV's own error. *)
Theorem C88_remap : forall c T im x y z v i k, pos c = Some T -> grid_ok x -> grid_ok y -> grid_ok z ->
  (~ (image_array im /\ grids x y z) -> snd (do_call c (Remap im x y z (Some v) i k)) = Err ValueError) /\
  (image_array im -> grids x y z -> interp_name i ->
   forall h w, image_ok im h w -> nd_data im <> [] ->
   (~ usable_sizes h w (ah (nd_data x)) (aw (nd_data x)) -> snd (do_call c (Remap im x y z (Some v) i k)) = Err ExternalError) /\
   (usable_sizes h w (ah (nd_data x)) (aw (nd_data x)) ->
    exists bands mask, snd (do_call c (Remap im x y z (Some v) i k)) = Ok (VRemap (bands, mask)) /\
    List.length bands = List.length (nd_data im) /\ Forall (fun b => ah b = ah (nd_data x) /\ aw b = aw (nd_data x)) bands /\
    ah mask = ah (nd_data x) /\ aw mask = aw (nd_data x))).
Proof. exact (remap_args cv_surf cast_nan cv_image convert). Qed.

(** C88: so an image of 32767 rows passes the check for images that are too large, which should let through smaller ones only, and is
    OpenCV's error. *)
Theorem C88_largest_image_refuted : forall c T im x y z v i k w, pos c = Some T -> grid_ok x -> grid_ok y -> grid_ok z ->
  cv_dtype (nd_dtype im) -> grids x y z -> interp_name i -> w <= 32767 -> image_ok im 32767 w -> nd_data im <> [] ->
  snd (do_call c (Remap im x y z (Some v) i k)) = Err ExternalError.
Proof.
  exact (fun c T im x y z v i k w H Gx Gy Gz Hd G Hi Hw Ok Ne =>
    proj1 (proj2 (remap_args cv_surf cast_nan cv_image convert c T im x y z v i k H Gx Gy Gz)
      (conj Hd (ex_intro _ _ (ex_intro _ _ (ex_intro _ _ (conj (proj1 Ok) (conj (Z.le_refl 32767) Hw)))))) G Hi 32767 w Ok Ne)
      (fun U => Z.lt_irrefl 32767 (proj1 (proj2 (proj2 (proj2 (proj2 U))))))).
Qed.

(** C89: the boundary on a surface has one point for each boundary pixel, in order and on its ray, between the surface's minimum and its
    maximum (or the camera's height); for floating point surfaces it is the first of its ray's samples that is under the surface,
    or else the lowest. *)
Theorem C89_surface : forall c T dtype z n t i clip pts, pos c = Some T ->
  snd (do_call c (WorldBoundary (HArray 2 dtype z) n t (IEnum i) clip)) = Ok (VPoints pts) ->
  exists ji low high t', t = Some t' /\ snd (do_call c (PixelBoundary n)) = Ok (VBoundary ji) /\ lowest z low /\ highest z high /\ (low <= vz T)%R /\
  let top := if clip then Rmin high (vz T) else high in
  Forall2 (fun p o => exists rr q, o = Some q /\ on_ray c p rr /\ (low <= vz q <= top)%R /\ q = rr (vz q) /\ stands_for cv_surf i dtype z t' low top rr q) ji pts.
Proof. exact (boundary_surface cv_surf cast_nan cv_image convert). Qed.

(** C89: there is such a boundary for usable arguments and rays of less than 32766 surface pixels.  A longer ray is OpenCV's error (the limit on the number of
    samples is larger than what OpenCV takes), and an interpolation given by name, as documented, is an AttributeError. *)
Theorem C89_surface_refuted : forall c r T dtype z n t ji low high i (clip : bool), surface_ok c r T dtype z n t ji low high ->
  let top := if clip then Rmin high (vz T) else high in
  (forall p, In p ji -> exists rr, on_ray c p rr) ->
  ((forall p rr, In p ji -> on_ray c p rr -> (span t (rr top) (rr low) <= 32765)%R) ->
   exists pts, snd (do_call c (WorldBoundary (HArray 2 dtype z) n (Some t) (IEnum i) clip)) = Ok (VPoints pts)) /\
  ((exists p rr, In p ji /\ on_ray c p rr /\ ~ (span t (rr top) (rr low) <= 32765)%R) ->
   snd (do_call c (WorldBoundary (HArray 2 dtype z) n (Some t) (IEnum i) clip)) = Err ExternalError) /\
  (ji <> [] -> snd (do_call c (WorldBoundary (HArray 2 dtype z) n (Some t) (IStr i) clip)) = Err AttributeError).
Proof. exact (boundary_surface_ok cv_surf cast_nan cv_image convert). Qed.

(** C89: errors, and the boundary at one height: that of projecting the boundary pixels to it, or to the camera's height if that is lower. *)
Theorem C89_errors : forall c r T z n t i clip, s_ext (fc_st c) = Some (r, T) ->
  (sees_horizon c r -> snd (do_call c (WorldBoundary z n t i clip)) = Err OrthorityError) /\
  (forall ji, ~ sees_horizon c r -> snd (do_call c (PixelBoundary n)) = Ok (VBoundary ji) ->
   (z = HOther \/ (exists k dtype a, z = HArray k dtype a /\ (k <> 2%nat \/ t = None \/ (forall v, ~ valued a v) \/ (exists low, lowest a low /\ (vz T < low)%R))) ->
    snd (do_call c (WorldBoundary z n t i clip)) = Err ValueError) /\
   (forall h, z = HScalar h -> snd (do_call c (WorldBoundary z n t i clip)) =
      snd (do_call c (PixelToWorld (Nd "float64" [2; Z.of_nat (List.length ji)] (map num2 ji)) (ZScalar (Num (if clip then Rmin h (vz T) else h))))))).
Proof. exact (boundary_errors cv_surf cast_nan cv_image convert). Qed.

(** C89: with an integer surface the points outside it are not at its minimum, but at its maximum if that is not above the integer that NaN is
    converted to. *)
Theorem C89_integer_surface_refuted : forall c T dtype z n t i clip pts v, pos c = Some T ->
  snd (do_call c (WorldBoundary (HArray 2 dtype z) n (Some t) (IEnum i) clip)) = Ok (VPoints pts) ->
  ~ In dtype ["float32"; "float64"] -> cast_nan dtype = Num v ->
  exists ji low high, snd (do_call c (PixelBoundary n)) = Ok (VBoundary ji) /\ lowest z low /\ highest z high /\
  let top := if clip then Rmin high (vz T) else high in
  Forall2 (fun p o => exists rr q, o = Some q /\ on_ray c p rr /\
    ((forall xy, cv_surf i z xy = None) -> (top <= v)%R -> q = rr top)) ji pts.
Proof. exact (integer_outside cv_surf cast_nan cv_image convert). Qed.

(** C90: with [distort] reading gives the bands asked for, in that order, in the data type asked for (that of the first band by default); a band that is not in the file is
    an IndexError. *)
Theorem C90_distorted : forall c im_file ix dtype nodata i, s_distort (fc_st c) = true ->
  (forall v, snd (do_call c (ReadC im_file ix dtype nodata i)) = Ok v ->
   exists im d bs data, im_file = Ok im /\ read_dtype im dtype d /\ asked ix (List.length (if_bands im)) bs /\
   v = VImage (Nd d [Z.of_nat (List.length bs); if_h im; if_w im] data) /\ Forall2 (holds_band convert im d) bs data) /\
  (forall im d bs, im_file = Ok im -> read_dtype im dtype d -> asked ix (List.length (if_bands im)) bs ->
   Forall (fun b => 1 <= b <= Z.of_nat (List.length (if_bands im))) bs ->
   exists v, snd (do_call c (ReadC im_file ix dtype nodata i)) = Ok v) /\
  (forall im d bs, im_file = Ok im -> read_dtype im dtype d -> asked ix (List.length (if_bands im)) bs ->
   ~ Forall (fun b => 1 <= b <= Z.of_nat (List.length (if_bands im))) bs ->
   snd (do_call c (ReadC im_file ix dtype nodata i)) = Err IndexError).
Proof. exact (read_distorted cv_surf cast_nan cv_image convert). Qed.

(** C90: without it, and after any history, each pixel is the distorted image at the pixel where the distorted camera images what the undistorted one
    images there, or nodata outside the image; a pinhole camera gives the image as it is.  But the default nodata is a KeyError, and an image that does not have
    the camera's size comes back as nodata only. *)
Theorem C90_undistorted_refuted : forall pin lens_of im_size focal sensor cx cy (p : pose) d a c ks im_file ix dtype i v src,
  frame_init pin lens_of im_size focal sensor cx cy (fst p) (snd p) d a = Ok c -> distort_after ks d = false ->
  snd (do_call (run_calls c (ks ++ [SetDistortC true])) (ReadC im_file ix dtype None i)) = Ok (VImage src) -> cv_dtype (nd_dtype src) ->
  let w := fc_w c in let h := fc_h c in
  (image_array src -> snd (do_call (run_calls c ks) (ReadC im_file ix dtype None i)) = Err KeyError) /\
  (~ image_array src -> snd (do_call (run_calls c ks) (ReadC im_file ix dtype (Some v) i)) = Err ValueError) /\
  (pin = true -> image_array src -> snd (do_call (run_calls c ks) (ReadC im_file ix dtype (Some v) i)) = Ok (VImage src)) /\
  (pin = false -> interp_name i -> 0 < w < 32767 -> 0 < h < 32767 ->
   let ku := s_ku (fc_st (run_calls c ks)) in kfx ku <> 0%R -> kfy ku <> 0%R ->
   exists m, is_source_map cv_surf cast_nan cv_image convert c ks m /\
   forall n, nd_shape src = [n; h; w] ->
   exists out, snd (do_call (run_calls c ks) (ReadC im_file ix dtype (Some v) i)) = Ok (VImage out) /\ undistorted cv_image i v m src out) /\
  (pin = false -> interp_name i -> 0 < w < 32767 -> 0 < h < 32767 ->
   forall n h' w', nd_shape src = [n; h'; w'] -> h' < 32767 -> w' < 32767 -> (h', w') <> (h, w) ->
   exists out, snd (do_call (run_calls c ks) (ReadC im_file ix dtype (Some v) i)) = Ok (VImage out) /\ nd_shape out = nd_shape src /\
   Forall (fun b => ah b = h' /\ aw b = w' /\ forall r col, aget b r col = v) (nd_data out)).
Proof. exact (read_undistorted cv_surf cast_nan cv_image convert). Qed.
End Props.
Print Assumptions C87_history.
Print Assumptions C87_position.
Print Assumptions C87_refused.
Print Assumptions C87_uninitialised.
Print Assumptions C87_initialised.
Print Assumptions C87_pose_irrelevant.
Print Assumptions C88_world_to_pixel.
Print Assumptions C88_pixel_to_world.
Print Assumptions C88_remap.
Print Assumptions C88_largest_image_refuted.
Print Assumptions C89_surface.
Print Assumptions C89_surface_refuted.
Print Assumptions C89_errors.
Print Assumptions C89_integer_surface_refuted.
Print Assumptions C90_distorted.
Print Assumptions C90_undistorted_refuted.

(** C88: the image size is cut to its first two values before its length is checked, so more values are not an error. *)
Theorem C88_im_size_refuted : forall pin lens_of w h rest focal sensor cx cy xyz opk d a,
  frame_init pin lens_of (w :: h :: rest) focal sensor cx cy xyz opk d a = frame_init pin lens_of [w; h] focal sensor cx cy xyz opk d a.
Proof. exact im_size_unchecked. Qed.
Print Assumptions C88_im_size_refuted.

(** * Cases *)
Definition no_surf : string -> arr fl -> fl * fl -> option fl := fun _ _ _ => None.
Definition flat_surf : string -> arr fl -> fl * fl -> option fl := fun _ _ _ => Some (Num (-420)).
Definition zero : string -> fl := fun _ => Num 0.
Definition no_image : string -> arr pix -> fl * fl -> option pix := fun _ _ _ => None.
Definition same : string -> string -> pix -> pix := fun _ _ v => v.

Example C87_case : frame_init true pinhole [3; 3] [1%R] (Some [3%R; 3%R]) 0 0 (Some [0%R; 0%R; 0%R]) (Some [0%R; 0%R; 0%R]) true 1 = Ok low_fcam /\
  let ks := [UpdateC None None; UpdateC (Some [1%R; 2%R]) (Some [0%R; 0%R; 0%R])] in
  let ks' := ks ++ [UpdateC (Some [1%R; 2%R; 3%R]) (Some [0%R; 0%R; 0%R]); SetAlphaC 0; SetDistortC false; UpdateC (Some []) (Some [])] in
  position (pose_after ks (Some [0%R; 0%R; 0%R], Some [0%R; 0%R; 0%R])) = None /\
  position (pose_after ks' (Some [0%R; 0%R; 0%R], Some [0%R; 0%R; 0%R])) = Some (V3 1 2 3) /\ distort_after ks' true = false /\ alpha_after ks' 1 = 0%R /\
  pos (run_calls no_surf zero no_image same low_fcam ks) = None /\ pos (run_calls no_surf zero no_image same low_fcam ks') = Some (V3 1 2 3).
Proof. split; [exact low_fcam_init|]. repeat split. Qed.

Example C88_case :
  let grid := fun n => Nd "float64" [n; 2] (Arr n 2 (fun _ _ => Num 0%R)) in
  let image := fun n => Nd "uint8" [1; n; 2] [Arr n 2 (fun _ _ => PVal 7%Q)] in
  world_array (Nd "float64" [3; 1] [(Num 1%R, Num 2%R, Num 3%R)]) /\ ~ world_array (Nd "float32" [3; 1] [(Num 1%R, Num 2%R, Num 3%R)]) /\
  grids (grid 5) (grid 5) (grid 5) /\ ~ grids (grid 5) (grid 6) (grid 5) /\ usable_sizes 3 2 5 2 /\
  (exists b m, snd (do_call no_surf zero no_image same low_fcam (Remap (image 3) (grid 5) (grid 5) (grid 5) (Some (PVal 0%Q)) "cubic" (3, 3))) = Ok (VRemap (b, m))) /\
  image_array (image 32767) /\
  snd (do_call no_surf zero no_image same low_fcam (Remap (image 32767) (grid 5) (grid 5) (grid 5) (Some (PVal 0%Q)) "cubic" (3, 3))) = Err ExternalError /\
  snd (do_call no_surf zero no_image same low_fcam (Remap (image 3) (grid 0) (grid 0) (grid 0) (Some (PVal 0%Q)) "cubic" (3, 3))) = Err ExternalError.
Proof.
  cbv zeta. split; [split; [exists 1; reflexivity|reflexivity]|]. split; [intros [_ H]; discriminate|].
  split; [split; [exists 5, 2; auto|cbn; tauto]|]. split; [intros H; destruct H as [(m & n & E1 & E2 & _) _]; cbn in *; congruence|].
  split; [unfold usable_sizes, cv_size; lia|]. split; [eexists _, _; reflexivity|]. split; [split; [cbn; auto|exists 1, 32767, 2; split; [reflexivity|lia]]|]. split; reflexivity.
Qed.

Example C89_case : exists pts,
  snd (do_call flat_surf zero no_image same low_fcam (WorldBoundary (HArray 2 "float32" two_heights) None (Some low_dem) (IEnum "cubic") true)) = Ok (VPoints pts) /\
  List.length pts = 8%nat /\
  snd (do_call flat_surf zero no_image same low_fcam (WorldBoundary (HArray 2 "float32" two_heights) None (Some low_dem) (IStr "cubic") true)) = Err AttributeError.
Proof.
  assert (S : surface_ok low_fcam flip_yz (V3 0 0 0) "float32" two_heights None low_dem (boundary8 3 3) (-430) (-400)) by (apply low_surface; cbn; auto).
  assert (O : forall p, In p (boundary8 3 3) -> exists rr, on_ray low_fcam p rr) by (intros p _; eexists; apply low_fcam_ray).
  destruct (C89_surface_refuted flat_surf zero no_image same low_fcam flip_yz (V3 0 0 0) "float32" two_heights None low_dem (boundary8 3 3) (-430) (-400) "cubic" true S O) as (A & _ & B).
  destruct (A (fun p rr => low_span p rr true)) as (pts & E). exists pts. split; [exact E|]. split; [|apply B; discriminate].
  destruct (C89_surface flat_surf zero no_image same low_fcam (V3 0 0 0) _ _ _ _ _ _ _ eq_refl E) as (ji & low & high & t & _ & J & _ & _ & _ & F). cbn in J. injection J as <-.
  symmetry. exact (F2len _ _ _ _ _ F).
Qed.

(** The DEM is nowhere near the image, so all points should be at its minimum, -430; they are at its maximum, -400. *)
Example C89_integer_case : exists pts,
  snd (do_call no_surf zero no_image same low_fcam (WorldBoundary (HArray 2 "int16" two_heights) None (Some low_dem) (IEnum "cubic") true)) = Ok (VPoints pts) /\
  List.length pts = 8%nat /\ Forall (fun o => exists q, o = Some q /\ vz q = (-400)%R) pts.
Proof.
  assert (S : surface_ok low_fcam flip_yz (V3 0 0 0) "int16" two_heights None low_dem (boundary8 3 3) (-430) (-400)) by (apply low_surface; cbn; auto).
  assert (O : forall p, In p (boundary8 3 3) -> exists rr, on_ray low_fcam p rr) by (intros p _; eexists; apply low_fcam_ray).
  destruct (C89_surface_refuted no_surf zero no_image same low_fcam flip_yz (V3 0 0 0) "int16" two_heights None low_dem (boundary8 3 3) (-430) (-400) "cubic" true S O) as (A & _ & _).
  destruct (A (fun p rr => low_span p rr true)) as (pts & E). exists pts. split; [exact E|].
  destruct (C89_integer_surface_refuted no_surf zero no_image same low_fcam (V3 0 0 0) "int16" two_heights None low_dem "cubic" true pts 0 eq_refl E) as (ji & low & high & J & _ & Hh & F);
    [cbn; intros [X|[X|[]]]; discriminate|reflexivity|]. cbn in J. injection J as <-. split; [symmetry; exact (F2len _ _ _ _ _ F)|].
  rewrite (highest_unique _ _ _ Hh (proj2 two_heights_range)) in F. cbn [vz] in F. rewrite Rmin_left in F by lra. clear -F.
  induction F as [|p o ji pts (rr & q & E & O & H) F IH]; constructor; [|exact IH]. exists q. split; [exact E|].
  rewrite (H (fun _ => eq_refl) ltac:(lra)). pose proof (low_fcam_ray p) as O'. specialize (O (-400)%R). specialize (O' (-400)%R). cbv beta in O'. rewrite O in O'. injection O' as ->. reflexivity.
Qed.

Definition two_bands : imfile := ImFile 2 2 [("uint8", fun r c => PVal 1%Q); ("uint8", fun r c => PVal 2%Q)].

Example C90_case :
  (exists a b, snd (do_call no_surf zero no_image same low_fcam (ReadC (Ok two_bands) (Bands [2; 1]) None None "cubic")) = Ok (VImage (Nd "uint8" [2; 2; 2] [a; b])) /\
     aget a 0 0 = PVal 2%Q /\ aget b 0 0 = PVal 1%Q) /\
  snd (do_call no_surf zero no_image same low_fcam (ReadC (Ok two_bands) (Bands [3]) None None "cubic")) = Err IndexError /\
  let low := run_calls no_surf zero no_image same low_fcam [SetDistortC false] in
  snd (do_call no_surf zero no_image same low (ReadC (Ok two_bands) AllBands None None "cubic")) = Err KeyError /\
  (exists im, snd (do_call no_surf zero no_image same low (ReadC (Ok two_bands) AllBands None (Some (PVal 0%Q)) "cubic")) = Ok (VImage im)) /\
  (* a lens camera of 3 by 3 pixels gives nodata for the whole image *)
  exists c, frame_init false pinhole [3; 3] [1%R] (Some [3%R; 3%R]) 0 0 None None false 1 = Ok c /\
  exists a b, snd (do_call no_surf zero (fun _ _ _ => Some (PVal 9%Q)) same c (ReadC (Ok two_bands) AllBands None (Some (PVal 0%Q)) "cubic")) = Ok (VImage (Nd "uint8" [2; 2; 2] [a; b])) /\
  aget a 0 0 = PVal 0%Q /\ aget b 1 1 = PVal 0%Q.
Proof.
  split; [eexists _, _; repeat split|]. split; [reflexivity|]. split; [reflexivity|]. split; [eexists; reflexivity|].
  eexists. split; [reflexivity|]. eexists _, _. repeat split.
Qed.
