(** Model of image and world boundaries (orthority/camera.py), and of the ground sampling distance and DEM window found
    from them (orthority/ortho.py). *)
From Coq Require Import List Reals ZArith Bool.
From Verif Require Import Py Flt Mat Grid_Model Remap_Model Dem_Model Rot_Model Frame_Model Undist_Model.
Import ListNotations.
Open Scope R_scope.

(** * Pixel boundary *)

(** [np.round(p / q)], for q > 0: halves go to even.  (The float division is taken as exact.) *)
Definition round_div (p q : Z) : Z :=
  let d := Z.div p q in
  let r := Z.modulo p q in
  if (2 * r <? q)%Z then d else if (q <? 2 * r)%Z then (d + 1)%Z else if Z.even d then d else (d + 1)%Z.

(** [np.linspace(a, b, n, endpoint=False)] of 2D points: ValueError for a negative number. *)
Definition linspace_open (a b : Z * Z) (n : Z) : res (list (R * R)) :=
  if (n <? 0)%Z then Err ValueError
  else Ok (map (fun k => (IZR (fst a) + INR k * (IZR (fst b - fst a) / IZR n),
                          IZR (snd a) + INR k * (IZR (snd b - snd a) / IZR n)))
               (seq 0 (Z.to_nat n))).

(** camera.py:215-234 [rect_boundary], for an image of more than one pixel. *)
Definition side_count (w h num_pts : Z) (a b : Z * Z) : Z :=
  let perim := (2 * ((w - 1) + (h - 1)))%Z in
  let dist := (Z.abs (fst b - fst a) + Z.abs (snd b - snd a))%Z in
  round_div (num_pts * dist) perim.

Definition rect_boundary (w h num_pts : Z) : res (list (R * R)) :=
  let br := (w - 1, h - 1)%Z in
  let side a b := linspace_open a b (side_count w h num_pts a b) in
  do s0 <- side (0, 0)%Z (fst br, 0)%Z;
  do s1 <- side (fst br, 0)%Z br;
  do s2 <- side br (0, snd br)%Z;
  do s3 <- side (0, snd br)%Z (0, 0)%Z;
  Ok (s0 ++ s1 ++ s2 ++ s3).

(** camera.py:200-243 [pixel_boundary]. *)
Definition pixel_boundary (w h : Z) (num_pts : option Z) : res (list (R * R)) :=
  match num_pts with
  | None | Some 0%Z => Ok (boundary8 w h)
  | Some n => rect_boundary w h n
  end.

(** [np.clip(ji.T, a_min=(0, 0), a_max=im_size - 1)] *)
Definition clip_pixel (w h : Z) (ji : R * R) : R * R :=
  (Rmin (Rmax (fst ji) 0) (IZR w - 1), Rmin (Rmax (snd ji) 0) (IZR h - 1)).

(** camera.py:894-906 [_undistort_pixel] with [clip=True]. *)
Definition undistort_pixel (c : frame) (w h : Z) (ji : R * R) : R * R :=
  clip_pixel w h (k_apply (fr_ku c) (l_inv (fr_lens c) ji)).

(** camera.py:940-958 [FrameCamera.pixel_boundary]. *)
Definition frame_pixel_boundary (c : frame) (w h : Z) (num_pts : option Z) : res (list (R * R)) :=
  do ji <- pixel_boundary w h num_pts;
  Ok (if fr_distort c then ji else map (undistort_pixel c w h) ji).

(** * World boundary *)

(** camera.py:1005-1013: [FrameCamera.world_boundary] at a scalar height; an infinite or NaN point is [None]. *)
Definition world_boundary_z (c : frame) (w h : Z) (num_pts : option Z) (clip : bool) (z : R) : res (list (option vec)) :=
  if horizon_fov c w h then Err OrthorityError
  else
    do ji <- frame_pixel_boundary c w h num_pts;
    let z := if clip then Rmin z (vz (fr_T c)) else z in
    Ok (map (fun p => pixel_to_world_z c p z) ji).

(** ** Intersection with a surface *)

(** [np.linspace(a, b, n)], for n > 0. *)
Definition linspace (a b : R) (n : nat) : list R :=
  match n with
  | 1%nat => [a]
  | _ => map (fun k => a + INR k * ((b - a) / INR (n - 1))) (seq 0 n)
  end.

(** camera.py:133-135: limit on the number of samples, for a surface of the given size. *)
Definition max_ray_steps (zh zw : Z) : Z := Z.max (2 * Z.sqrt (zh * zh + zw * zw)) 32767.

(** camera.py:145-146 *)
Definition ray_steps (start stop : vec) (t : affine) (max_steps : Z) : Z :=
  Z.min (Rceil (Rmax (Rabs ((vx stop - vx start) / ta t)) (Rabs ((vy stop - vy start) / te t))) + 1) max_steps.

(** Whether a ray sample is at or below the surface; [surf] interpolates the DEM at a world position (cv2.remap), NaN
    outside it. *)
Definition hits (surf : R * R -> fl) (p : vec) : bool :=
  match surf (vx p, vy p) with
  | Num s => if Rle_dec (vz p) s then true else false
  | Nan => false
  end.

(** camera.py:103-165 [_pixel_to_world_surf] for one pixel, where [p2w] is [pixel_to_world_z] of the pixel, finite at
    all heights. *)
Definition ray_samples (p2w : R -> vec) (t : affine) (zh zw : Z) (min_z max_z : R) : list vec :=
  let steps := ray_steps (p2w max_z) (p2w min_z) t (max_ray_steps zh zw) in
  map p2w (linspace max_z min_z (Z.to_nat steps)).

Definition pixel_to_world_surf (p2w : R -> vec) (surf : R * R -> fl) (t : affine) (zh zw : Z) (min_z max_z : R) : vec :=
  let ray_xyz := ray_samples p2w t zh zw min_z max_z in
  match find (hits surf) ray_xyz with
  | Some p => p
  | None => last ray_xyz (p2w max_z)
  end.

(** * Ground sampling distance *)

Definition dot_list (xs ys : list R) : R := fold_right Rplus 0 (map (fun p => fst p * snd p) (combine xs ys)).
(** [np.roll(l, -1)] *)
Definition roll {A} (l : list A) : list A := match l with [] => [] | x :: l' => l' ++ [x] end.

(** ortho.py:212-218 [area_poly]. *)
Definition area_poly (l : list (R * R)) : R :=
  / 2 * Rabs (dot_list (map fst l) (roll (map snd l)) - dot_list (roll (map fst l)) (map snd l)).

(** ortho.py:207-232 [_get_gsd], from the boundaries on. *)
Definition gsd_of (ji world_xy : list (R * R)) : R := sqrt (area_poly world_xy / area_poly ji).

Fixpoint all_some {A} (l : list (option A)) : option (list A) :=
  match l with
  | [] => Some []
  | Some x :: l' => option_map (cons x) (all_some l')
  | None :: _ => None
  end.

(** ortho.py:222-232 for a frame camera, where [world_z] is the DEM median in the world CRS; a NaN is [None]. *)
Definition get_gsd (c : frame) (w h : Z) (world_z : R) : res (option R) :=
  do ji <- frame_pixel_boundary c w h None;
  do xyz <- world_boundary_z c w h None true world_z;
  Ok (option_map (fun l => gsd_of ji (map (fun p => (vx p, vy p)) l)) (all_some xyz)).

(** * DEM window *)

Record bounds := Bounds { b_left : R; b_bottom : R; b_right : R; b_top : R }.

(** ortho.py:161: bounds of world points. *)
Definition bounds_of (l : list vec) : bounds :=
  Bounds (rmin (map vx l)) (rmin (map vy l)) (rmax (map vx l)) (rmax (map vy l)).

Definition Rfloor (x : R) : Z := (up x - 1)%Z.

(** ortho.py:167-173 for a DEM with a north up transform: rasterio's window of the bounds, its intersection with the DEM
    and [expand_window_to_grid].  This is [get_win] of Dem_Model over the reals: there the ceiling is that of the
    width plus the fractional offset, which is that of the end minus the whole offset. *)
Definition win_of_bounds (dem_h dem_w : Z) (t : affine) (b : bounds) : res window :=
  let c0 := Rmax 0 ((b_left b - tc t) / ta t) in
  let c1 := Rmin (IZR dem_w) ((b_right b - tc t) / ta t) in
  let r0 := Rmax 0 ((b_top b - tf t) / te t) in
  let r1 := Rmin (IZR dem_h) ((b_bottom b - tf t) / te t) in
  if (if Rlt_dec c0 c1 then true else false) && (if Rlt_dec r0 r1 then true else false)
  then Ok (Win (Rfloor c0) (Rfloor r0) (Rceil c1 - Rfloor c0) (Rceil r1 - Rfloor r0))
  else Err OrthorityError.

(** ortho.py:156-173 [get_win_at_zs], where [to_dem] transforms bounds to the DEM CRS.  Infinite bounds are an error
    of rasterio. *)
Definition get_win_at_zs (c : frame) (w h : Z) (to_dem : bounds -> bounds) (dem_h dem_w : Z) (t : affine) (zs : list R)
    : res window :=
  do pts <- mapM (fun z => world_boundary_z c w h None true z) zs;
  match all_some (concat pts) with
  | None => Err WindowError
  | Some xyz => win_of_bounds dem_h dem_w t (to_dem (bounds_of xyz))
  end.

(** ortho.py:79-83, 175: the heights of the first window. *)
Definition init_zs (z_scale : R) : list R := [(-106.71) * z_scale; (8850 + 82.28) * z_scale].
