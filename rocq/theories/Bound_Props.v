(** Property theorems: C38 image boundary, C39 surface intersection, C40 ground sampling distance, C61 DEM window. *)
From Coq Require Import List Reals ZArith Lra Lia.
From Verif Require Import Py Flt Mat Grid_Model Remap_Model Dem_Model Rot_Model Rot_Proof Frame_Model Frame_Spec Frame_Proof
  Undist_Model Undist_Spec Undist_Proof Bound_Model Bound_Spec Bound_Proof.
Import ListNotations.
Open Scope R_scope.

(** C38: by default the corners and side mid-points. *)
Theorem C38_default : forall w h, (1 <= w)%Z -> (1 <= h)%Z ->
  exists pts, pixel_boundary w h None = Ok pts /\ pixel_boundary w h (Some 0%Z) = Ok pts /\ length pts = 8%nat /\
  Forall (on_edge w h) pts /\ incl (corners w h) pts /\ incl (side_mids w h) pts.
Proof. exact boundary_default. Qed.
Print Assumptions C38_default.

(** C38: else points on the image's edge, their number even and within 2 of that asked for, leaving no point of the edge
    further from them than two times the ideal spacing, and with the corners unless the image is thin. *)
Theorem C38_points : forall w h n, (1 <= w)%Z -> (1 <= h)%Z -> (2 < w + h)%Z -> (0 < n)%Z ->
  exists pts, pixel_boundary w h (Some n) = Ok pts /\ Forall (on_edge w h) pts /\
  (n - 2 <= Z.of_nat (length pts) <= n + 2)%Z /\ Z.Even (Z.of_nat (length pts)) /\
  ((3 <= n)%Z -> forall q, on_edge w h q -> exists p, In p pts /\ dist1 p q * IZR n <= 2 * perimeter w h) /\
  ((n * (Z.min w h - 1) > (w - 1) + (h - 1))%Z -> incl (corners w h) pts).
Proof. exact boundary_points. Qed.
Print Assumptions C38_points.

(** C38: a negative number of points is a ValueError, unless it rounds to none on every side. *)
Theorem C38_negative : forall w h n, (1 <= w)%Z -> (1 <= h)%Z -> (2 < w + h)%Z -> (n <= -4)%Z ->
  pixel_boundary w h (Some n) = Err ValueError.
Proof. exact boundary_negative. Qed.
Print Assumptions C38_negative.

(** C38: the number of points is never exact for odd numbers; for 2 points on a square image there are none; and thin
    images lose corners with the 400 points that are used for the ortho boundary. *)
Theorem C38_count_refuted : forall w h n pts, (1 <= w)%Z -> (1 <= h)%Z -> (2 < w + h)%Z -> (0 < n)%Z -> Z.Odd n ->
  pixel_boundary w h (Some n) = Ok pts -> Z.of_nat (length pts) <> n.
Proof. exact boundary_odd. Qed.
Print Assumptions C38_count_refuted.

Theorem C38_empty_refuted : forall w, (2 <= w)%Z -> pixel_boundary w w (Some 2%Z) = Ok [].
Proof. exact boundary_empty. Qed.
Print Assumptions C38_empty_refuted.

Theorem C38_corner_refuted : exists pts, pixel_boundary 1000 2 (Some 400%Z) = Ok pts /\ ~ In (IZR 1000 - 1, 0) pts.
Proof. exact boundary_drops_corner. Qed.
Print Assumptions C38_corner_refuted.

(** C38: the boundary in the undistorted image is inside it, for every lens. *)
Theorem C38_undistorted_in_image : forall c w h num_pts pts, (1 <= w)%Z -> (1 <= h)%Z ->
  frame_pixel_boundary c w h num_pts = Ok pts -> fr_distort c = false -> Forall (in_image w h) pts.
Proof. exact frame_boundary_in. Qed.
Print Assumptions C38_undistorted_in_image.

(** C38: with alpha 1, it is the undistorted image boundary, without clipping. *)
Theorem C38_alpha_one : forall l alpha r t w h, (1 < w)%Z -> (1 < h)%Z -> 1 <= alpha ->
  nonempty (fst (get_rectangles (l_inv l) w h)) -> nonempty (snd (get_rectangles (l_inv l) w h)) ->
  let ku := undistort_intrinsic (l_inv l) w h alpha in
  frame_pixel_boundary (Frame l ku false r t) w h None = Ok (map (fun p => k_apply ku (l_inv l p)) (boundary8 w h)).
Proof. exact boundary_alpha_one. Qed.
Print Assumptions C38_alpha_one.

Example C38_case : (7 * (Z.min 640 480 - 1) > (640 - 1) + (480 - 1))%Z /\
  exists pts, pixel_boundary 640 480 (Some 7%Z) = Ok pts /\ length pts = 6%nat.
Proof. split; [reflexivity|]. eexists. split; reflexivity. Qed.

(** C39: the point returned is the first sample of the ray, going down, at or below the surface; if there is none, it is
    the last sample. *)
Theorem C39_first_intersection : forall p2w surf t zh zw min_z max_z,
  let n := Z.to_nat (ray_steps (p2w max_z) (p2w min_z) t (max_ray_steps zh zw)) in
  let sample k := p2w (sample_z max_z min_z n k) in
  exists k, (k < n)%nat /\ pixel_to_world_surf p2w surf t zh zw min_z max_z = sample k /\
  ((below surf (sample k) /\ forall j, (j < k)%nat -> ~ below surf (sample j)) \/
   (k = (n - 1)%nat /\ forall j, (j < n)%nat -> ~ below surf (sample j))).
Proof. exact first_intersection. Qed.
Print Assumptions C39_first_intersection.

(** C39: the samples go from the maximum to the minimum height ... *)
Theorem C39_sample_range : forall max_z min_z n, (2 <= n)%nat ->
  sample_z max_z min_z n (n - 1) = min_z /\ sample_z max_z min_z n 0 = max_z.
Proof. exact lowest_sample. Qed.
Print Assumptions C39_sample_range.

(** C39: ... no more than a DEM pixel apart on a straight ray, unless there are too many ... *)
Theorem C39_spacing : forall p2w t zh zw min_z max_z, straight p2w -> ta t <> 0 -> te t <> 0 ->
  let n := Z.to_nat (ray_steps (p2w max_z) (p2w min_z) t (max_ray_steps zh zw)) in
  let sample k := p2w (sample_z max_z min_z n k) in
  (Z.of_nat n < max_ray_steps zh zw)%Z ->
  forall k, (S k < n)%nat ->
  Rabs (vx (sample (S k)) - vx (sample k)) <= Rabs (ta t) /\ Rabs (vy (sample (S k)) - vy (sample k)) <= Rabs (te t).
Proof. exact sample_spacing. Qed.
Print Assumptions C39_spacing.

(** C39: ... and frame camera rays are straight. *)
Theorem C39_frame_rays : forall c ji, vz (ray c ji) <> 0 ->
  exists p2w, straight p2w /\ forall z, pixel_to_world_z c ji z = Some (p2w z).
Proof. exact frame_ray_straight. Qed.
Print Assumptions C39_frame_rays.

(** C39: a vertical ray has one sample, so its point is at the maximum height and not on the surface (or the minimum, as
    documented for points outside the DEM). *)
Theorem C39_vertical_refuted : forall p2w surf t zh zw min_z max_z,
  vx (p2w max_z) = vx (p2w min_z) -> vy (p2w max_z) = vy (p2w min_z) ->
  pixel_to_world_surf p2w surf t zh zw min_z max_z = p2w max_z.
Proof. exact vertical_ray. Qed.
Print Assumptions C39_vertical_refuted.

Example C39_case : let p2w z := V3 (3 * z) 0 z in
  straight p2w /\ Z.to_nat (ray_steps (p2w 2) (p2w 0) (Aff 2 0 0 0 (-2) 0) (max_ray_steps 10 10)) = 4%nat.
Proof.
  cbn zeta. split; [exists 0, 3, 0, 0; intros z; f_equal; ring|]. unfold ray_steps. cbn [vx vy ta te].
  replace ((3 * 0 - 3 * 2) / 2) with (- (3)) by field. rewrite Rminus_0_r. unfold Rdiv at 1. rewrite Rmult_0_l, Rabs_R0, Rabs_Ropp, Rabs_pos_eq by lra.
  rewrite Rmax_left by lra. rewrite (Rceil_eq 3 3) by lra. reflexivity.
Qed.

(** C40: polygon areas are those of the triangles to any point. *)
Theorem C40_area : forall l o, area_poly l = Rabs (signed_area o l).
Proof. exact area_poly_signed. Qed.
Print Assumptions C40_area.

(** C40: the resolution squared times the image area is the footprint area. *)
Theorem C40_preserves_area : forall ji xy, 0 < area_poly ji ->
  let gsd := gsd_of ji xy in gsd * gsd * area_poly ji = area_poly xy /\ 0 <= gsd /\ (0 < area_poly xy -> 0 < gsd).
Proof. exact gsd_area. Qed.
Print Assumptions C40_preserves_area.

Theorem C40_image_area : forall w h, (1 <= w)%Z -> (1 <= h)%Z -> area_poly (boundary8 w h) = (IZR w - 1) * (IZR h - 1).
Proof. exact area_boundary8. Qed.
Print Assumptions C40_image_area.

(** C40: for a nadir pinhole camera, the height above ground over the focal length (in pixels; geometric mean if they
    differ). *)
Theorem C40_nadir : forall k d r t w h z, 0 < kfx k -> 0 < kfy k -> nadir r -> (1 < w)%Z -> (1 < h)%Z -> z < vz t ->
  get_gsd (Frame (pinhole k) k d r t) w h z = Ok (Some ((vz t - z) / sqrt (kfx k * kfy k))) /\
  (kfy k = kfx k -> get_gsd (Frame (pinhole k) k d r t) w h z = Ok (Some ((vz t - z) / kfx k))).
Proof.
  exact (fun k d r t w h z Fx Fy Hr Hw Hh Hz => conj (nadir_gsd k d r t w h z Fx Fy Hr Hw Hh Hz) (fun E => nadir_gsd_f k d r t w h z Fx E Hr Hw Hh Hz)).
Qed.
Print Assumptions C40_nadir.

Example C40_case : nadir flip_yz /\
  get_gsd (Frame (pinhole (Intr 1000 1000 50 40)) (Intr 1000 1000 50 40) true flip_yz (V3 5 6 100)) 101 81 0 = Ok (Some (100 / 1000)).
Proof.
  assert (N : nadir flip_yz) by (split; [apply flip_rotation|unfold flip_yz; meq; ring]). split; [exact N|].
  destruct (C40_nadir (Intr 1000 1000 50 40) true flip_yz (V3 5 6 100) 101 81 0) as [_ H]; cbn [kfx kfy vz]; try lra; try lia; [exact N|].
  specialize (H eq_refl). rewrite H. cbn [kfx vz]. rewrite Rminus_0_r. reflexivity.
Qed.

(** C61: heights inside the first range give a window inside the first window, so the second crop keeps all of it. *)
Theorem C61_window_nested : forall c w h to_dem dh dw t z0 z3 z1 z2 w2,
  horizon_fov c w h = false ->
  (forall ji p, frame_pixel_boundary c w h None = Ok ji -> In p ji -> vz (ray c p) <> 0) ->
  (forall b b', bounds_within b b' -> bounds_within (to_dem b) (to_dem b')) ->
  0 < ta t -> te t < 0 -> z0 <= z1 <= z3 -> z0 <= z2 <= z3 ->
  get_win_at_zs c w h to_dem dh dw t [z1; z2] = Ok w2 ->
  exists w1, get_win_at_zs c w h to_dem dh dw t [z0; z3] = Ok w1 /\ within w2 w1 /\ win_intersection w2 w1 = Ok w2.
Proof. exact window_nested. Qed.
Print Assumptions C61_window_nested.

(** C61: the first range holds all land above the geoid, in any height unit: what is read covers the image on any such surface. *)
Theorem C61_land : forall c w h to_dem dh dw t scale h1 h2 w2,
  horizon_fov c w h = false ->
  (forall ji p, frame_pixel_boundary c w h None = Ok ji -> In p ji -> vz (ray c p) <> 0) ->
  (forall b b', bounds_within b b' -> bounds_within (to_dem b) (to_dem b')) ->
  0 < ta t -> te t < 0 -> 0 < scale -> land_height h1 -> land_height h2 ->
  get_win_at_zs c w h to_dem dh dw t [h1 * scale; h2 * scale] = Ok w2 ->
  exists w1, get_win_at_zs c w h to_dem dh dw t (init_zs scale) = Ok w1 /\ within w2 w1 /\ win_intersection w2 w1 = Ok w2.
Proof. exact window_land. Qed.
Print Assumptions C61_land.

(** C61: heights below the first range (land lower than 106.71 below the reference surface, e.g. the Dead Sea) give a
    larger window, of which only the first is read: here 22 by 22 of 86 by 86 pixels. *)
Theorem C61_low_land_refuted : exists w1 w2,
  get_win_at_zs low_cam 3 3 (fun b => b) 100 100 low_dem (init_zs 1) = Ok w1 /\
  get_win_at_zs low_cam 3 3 (fun b => b) 100 100 low_dem [-430; -430] = Ok w2 /\
  w1 = Win 39 39 22 22 /\ w2 = Win 7 7 86 86 /\ win_intersection w2 w1 = Ok w1.
Proof. exact low_dem_cropped. Qed.
Print Assumptions C61_low_land_refuted.

Example C61_case : exists w1 w2,
  get_win_at_zs low_cam 3 3 (fun b => b) 100 100 low_dem [-106.71; 8932.28] = Ok w1 /\
  get_win_at_zs low_cam 3 3 (fun b => b) 100 100 low_dem [-55; -33] = Ok w2 /\ within w2 w1.
Proof.
  exists (Win 39 39 22 22), (Win 44 44 12 12). split; [apply (low_win _ _ 39 61); lia || lra|]. split; [apply (low_win _ _ 44 56); lia || lra|].
  unfold within. cbn. lia.
Qed.
