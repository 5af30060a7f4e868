(** Property theorems: C91 projection from the arguments of a camera, C92 contents of remapped images. *)
From Coq Require Import String List Reals QArith ZArith Lra Lia.
From Verif Require Import Py Flt Mat Rot_Model Rot_Spec Rot_Proof Remap_Model Remap_Spec Frame_Model Frame_Spec Frame_Proof Undist_Model Cam_Model Cam_Spec Cam_Proof Cam_Props Proj_Spec Proj_Proof.
Import ListNotations.
Open Scope string_scope.
Open Scope list_scope.
Open Scope Z_scope.

Section Props.
Variable cv_surf : string -> arr fl -> fl * fl -> option fl.
Variable cast_nan : string -> fl.
Variable cv_image : string -> arr pix -> fl * fl -> option pix.
Variable convert : string -> string -> pix -> pix.
Notation do_call := (do_call cv_surf cast_nan cv_image convert).
Notation run_calls := (run_calls cv_surf cast_nan cv_image convert).

(** C91: a new camera projects every world point by its position, angles, focal length, sensor and image size as given: through the lens of its class with distortion,
    and as an ideal pinhole without. *)
Theorem C91_world_to_pixel : forall pin lens_of w h focal sensor cx cy x y z o p k d a c,
  frame_init pin lens_of [w; h] focal sensor cx cy (Some [x; y; z]) (Some [o; p; k]) d a = Ok c ->
  exists K, intrinsics w h focal sensor cx cy K /\
  forall P, exists v q, seen_at (V3 x y z) o p k v P /\ (forall v', seen_at (V3 x y z) o p k v' P -> v' = v) /\
  snd (do_call c (WorldToPixel (one_point (num3 P)))) = Ok (VPixels [q]) /\
  (vz v = 0%R -> q = (Nan, Nan)) /\
  (vz v <> 0%R -> let xy := (vx v / vz v, vy v / vz v)%R in
   (d = true -> q = l_fwd (lens_of K) xy) /\
   (d = false -> pin = true -> q = to_pixel K xy) /\
   (d = false -> pin = false -> q = to_pixel (undistort_intrinsic (l_inv (lens_of K)) w h a) xy)).
Proof. exact (projects cv_surf cast_nan cv_image convert). Qed.

(** C91: so a Brown camera is the OpenCV model. *)
Theorem C91_brown : forall inv k1 k2 p1 p2 k3 w h focal sensor cx cy x y z o p k a c,
  frame_init false (fun K => Lens (brown_fwd K k1 k2 p1 p2 k3) (inv K)) [w; h] focal sensor cx cy (Some [x; y; z]) (Some [o; p; k]) true a = Ok c ->
  exists K, intrinsics w h focal sensor cx cy K /\
  forall P v, seen_at (V3 x y z) o p k v P -> vz v <> 0%R ->
  snd (do_call c (WorldToPixel (one_point (num3 P)))) = Ok (VPixels [to_pixel K (opencv_distort [k1; k2; p1; p2; k3] (vx v / vz v, vy v / vz v)%R)]).
Proof.
  intros inv k1 k2 p1 p2 k3 w h focal sensor cx cy x y z o p k a c H. destruct (projects cv_surf cast_nan cv_image convert _ _ _ _ _ _ _ _ _ _ _ _ _ _ _ _ _ H) as (K & HK & A).
  exists K. split; [exact HK|]. intros P v Hv Nv. destruct (A P) as (v0 & q & _ & U & E & _ & B). rewrite (U v Hv) in *. destruct (B Nv) as [Q _]. rewrite E, (Q eq_refl).
  cbn [l_fwd]. unfold brown_fwd. rewrite brown_is_opencv5. reflexivity.
Qed.

(** C91: NaN coordinates are NaN pixels. *)
Theorem C91_nan : forall c T p, pos c = Some T -> (let '(x, y, z) := p in x = Nan \/ y = Nan \/ z = Nan) ->
  snd (do_call c (WorldToPixel (one_point p))) = Ok (VPixels [(Nan, Nan)]).
Proof. exact (projects_nan cv_surf cast_nan cv_image convert). Qed.

(** C91: and it projects pixels back to the point of their ray at the given height; none if the ray is level. *)
Theorem C91_pixel_to_world : forall pin lens_of w h focal sensor cx cy x y z o p k d a c,
  frame_init pin lens_of [w; h] focal sensor cx cy (Some [x; y; z]) (Some [o; p; k]) d a = Ok c ->
  exists K, intrinsics w h focal sensor cx cy K /\
  forall j i height,
  let K' := if pin then K else undistort_intrinsic (l_inv (lens_of K)) w h a in
  let xy := if d then l_inv (lens_of K) (j, i) else ((j - kcx K') / kfx K', (i - kcy K') / kfy K')%R in
  let dir := turned o p k (V3 (fst xy) (snd xy) 1) in
  exists q, snd (do_call c (PixelToWorld (one_pixel (Num j, Num i)) (ZScalar (Num height)))) = Ok (VPoints [q]) /\
  (vz dir = 0%R -> q = None) /\
  (vz dir <> 0%R -> exists P s, q = Some P /\ P = vadd (V3 x y z) (vscale s dir) /\ vz P = height).
Proof. exact (back_projects cv_surf cast_nan cv_image convert). Qed.

(** C92: after any history, a remapped image has at each grid point the image where the camera sees that point, or nodata, and its mask is where no band has a value; for
    undistorted images, where nodata may have been mixed in, the surroundings of these points are masked and nodata too. *)
Theorem C92_remap : forall pin lens_of im_size focal sensor cx cy (p : pose) d a c0 ks T im x y z v i k h w,
  frame_init pin lens_of im_size focal sensor cx cy (fst p) (snd p) d a = Ok c0 ->
  position (pose_after ks p) = Some T ->
  grid_ok x -> grid_ok y -> grid_ok z -> image_array im -> grids x y z -> interp_name i -> image_ok im h w ->
  usable_sizes h w (ah (nd_data x)) (aw (nd_data x)) ->
  let c := run_calls c0 ks in
  let val := value_at cv_surf cast_nan cv_image convert c (nd_data x) (nd_data y) (nd_data z) v i in
  let empty := empty cv_surf cast_nan cv_image convert c (nd_data x) (nd_data y) (nd_data z) v i (nd_data im) in
  let near := near_empty cv_surf cast_nan cv_image convert c (nd_data x) (nd_data y) (nd_data z) v i (nd_data im) k in
  let blurred := blurs pin (distort_after ks d) i v in
  exists bands mask, snd (do_call c (Remap im x y z (Some v) i k)) = Ok (VRemap (bands, mask)) /\
  Forall2 (fun b out => ah out = ah (nd_data x) /\ aw out = aw (nd_data x) /\ forall row col, 0 <= row < ah (nd_data x) -> 0 <= col < aw (nd_data x) ->
     (~ blurred \/ ~ near row col -> val b row col (aget out row col)) /\ (blurred -> near row col -> aget out row col = v)) (nd_data im) bands /\
  ah mask = ah (nd_data x) /\ aw mask = aw (nd_data x) /\
  forall row col, 0 <= row < ah (nd_data x) -> 0 <= col < aw (nd_data x) ->
    (blurred -> (aget mask row col = true <-> near row col)) /\ (~ blurred -> (aget mask row col = true <-> empty row col)).
Proof. exact (remap_contents cv_surf cast_nan cv_image convert). Qed.

(** C92: the default nodata, documented as chosen by the data type, is a KeyError for every usable image and grid. *)
Theorem C92_default_nodata_refuted : forall c im x y z i k, image_array im -> grids x y z -> snd (do_call c (Remap im x y z None i k)) = Err KeyError.
Proof. exact (remap_default cv_surf cast_nan cv_image convert). Qed.
End Props.
Print Assumptions C91_world_to_pixel.
Print Assumptions C91_brown.
Print Assumptions C91_nan.
Print Assumptions C91_pixel_to_world.
Print Assumptions C92_remap.
Print Assumptions C92_default_nodata_refuted.

(** A camera at the origin with a focal length of 1 pixel and its principal point at (1, 1) sees a point 100 under it, 10 to the right and 20 to the
    top of the image. *)
Example C91_case : seen_at (V3 0 0 0) 0 0 0 (V3 10 (-20) 100) (V3 10 20 (-100)) /\
  frame_init true pinhole [3; 3] [1%R] (Some [3%R; 3%R]) 0 0 (Some [0%R; 0%R; 0%R]) (Some [0%R; 0%R; 0%R]) true 1 = Ok low_fcam /\
  exists j i, snd (do_call no_surf zero no_image same low_fcam (WorldToPixel (one_point (num3 (V3 10 20 (-100)))))) = Ok (VPixels [(Num j, Num i)]) /\ j = (11 / 10)%R /\ i = (8 / 10)%R.
Proof.
  assert (S : seen_at (V3 0 0 0) 0 0 0 (V3 10 (-20) 100) (V3 10 20 (-100))).
  { unfold seen_at, turned, about_x, about_y, about_z, vadd. cbn. rewrite cos_0, sin_0. apply vec_eq; cbn; ring. }
  split; [exact S|]. split; [exact low_fcam_init|].
  destruct (C91_world_to_pixel no_surf zero no_image same _ _ _ _ _ _ _ _ _ _ _ _ _ _ _ _ _ low_fcam_init) as (K & HK & A).
  destruct (A (V3 10 20 (-100))) as (v & q & _ & U & E & _ & B). rewrite <- (U _ S) in B. destruct (B ltac:(cbn; lra)) as [Q _]. rewrite E, (Q eq_refl).
  destruct HK as (fx & fy & Hf & (sw & sh & Hs & Kx & Ky) & Cx & Cy). injection Hs as <- <-. specialize (Kx ltac:(lra)). specialize (Ky ltac:(lra)).
  assert (F : fx = 1%R /\ fy = 1%R) by (destruct Hf as [Hf|[Hf ->]]; [discriminate|injection Hf as <-; auto]). destruct F as [-> ->].
  exists (kfx K * (10 / 100) + kcx K)%R, (kfy K * (-20 / 100) + kcy K)%R. split; [reflexivity|]. cbn in Cx, Cy. split; [rewrite Kx, Cx|rewrite Ky, Cy]; lra.
Qed.

(** An image of ones is sampled at the first of two grid points; the camera does not see the other, which is NaN. *)
Example C92_case :
  let one := fun i (b : arr pix) ji => match ji with (Num j, _) => if Rlt_dec j 0 then None else Some (aget b 0 0) | _ => None end in
  let x := Nd "float64" [1; 2] (Arr 1 2 (fun _ c => if c =? 0 then Num 0%R else Nan)) in
  let y := Nd "float64" [1; 2] (Arr 1 2 (fun _ _ => Num 0%R)) in
  let z := Nd "float32" [1; 2] (Arr 1 2 (fun _ _ => Num (-100)%R)) in
  let im := Nd "uint8" [1; 3; 3] [Arr 3 3 (fun _ _ => PVal 1%Q)] in
  grids x y z /\ image_array im /\ image_ok im 3 3 /\ usable_sizes 3 3 1 2 /\
  (exists b m, snd (do_call no_surf zero one same low_fcam (Remap im x y z (Some (PVal 0%Q)) "cubic" (3, 3))) = Ok (VRemap ([b], m)) /\
     aget b 0 0 = PVal 1%Q /\ aget m 0 0 = false /\ aget b 0 1 = PVal 0%Q /\ aget m 0 1 = true) /\
  snd (do_call no_surf zero one same low_fcam (Remap im x y z None "cubic" (3, 3))) = Err KeyError.
Proof.
  cbv zeta. split; [split; [exists 1, 2; auto|cbn; tauto]|]. split; [split; [cbn; auto|exists 1, 3, 3; split; [reflexivity|lia]]|].
  split; [split; [reflexivity|repeat constructor]|]. split; [unfold usable_sizes, cv_size; lia|]. split; [|reflexivity].
  eexists _, _. split; [reflexivity|]. cbn [aget]. cbn -[Rlt_dec Req_EM_T Rplus Rmult Rminus Ropp Rdiv Rinv].
  destruct (Req_EM_T (dot (V3 0 0 (-1)) (vsub (V3 0 0 (-100)) (V3 0 0 0))) 0) as [E|_]; [exfalso; revert E; unfold dot, vsub; cbn [vx vy vz]; lra|].
  cbn -[Rlt_dec Req_EM_T Rplus Rmult Rminus Ropp Rdiv Rinv].
  repeat match goal with |- context [Rlt_dec ?a 0] => destruct (Rlt_dec a 0) as [L|L]; [try (exfalso; revert L; unfold dot, vsub; cbn [vx vy vz]; lra)|try (exfalso; apply L; lra)] end.
  all: destruct (Rlt_dec (-1) 0) as [_|L1]; [|exfalso; apply L1; lra].
  all: repeat split.
Qed.
