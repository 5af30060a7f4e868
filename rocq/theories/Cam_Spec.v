(** Vocabulary for the properties of camera calls. *)
From Coq Require Import String List Reals ZArith.
From Verif Require Import Py Flt Mat Remap_Model Frame_Model Undist_Model Bound_Spec Cam_Model.
Import ListNotations.
Open Scope string_scope.
Open Scope list_scope.
Open Scope Z_scope.

(** * Settings after a history of calls: the last ones given *)
Definition alpha_after (ks : list call) (a0 : R) : R := fold_left (fun a k => match k with SetAlphaC a' => a' | _ => a end) ks a0.
Definition distort_after (ks : list call) (d0 : bool) : bool :=
  fold_left (fun d k => match k with SetDistortC d' => d' | _ => d end) ks d0.

(** A pose as it is given; it is refused when both its parts are given and they do not have three values each. *)
Definition pose := (option (list R) * option (list R))%type.
Definition refused (p : pose) : bool :=
  match p with
  | (Some xyz, Some opk) => negb (Nat.eqb (List.length xyz) 3 && Nat.eqb (List.length opk) 3)
  | _ => false
  end.
Definition pose_after (ks : list call) (p0 : pose) : pose :=
  fold_left (fun p k => match k with UpdateC xyz opk => if refused (xyz, opk) then p else (xyz, opk) | _ => p end) ks p0.

(** The camera position of a pose, if it is complete. *)
Definition position (p : pose) : option vec := match p with (Some [x; y; z], Some _) => Some (V3 x y z) | _ => None end.

(** * Arguments *)

(** 3-by-N float64 world coordinates, 2-by-N pixel coordinates, and what makes N that of the contents. *)
Definition world_array {A} (a : nd A) : Prop := (exists n, nd_shape a = [3; n]) /\ nd_dtype a = "float64".
Definition pixel_array {A} (a : nd A) : Prop := exists n, nd_shape a = [2; n].

(** The data types OpenCV can remap. *)
Definition cv_dtype (s : string) : Prop := In s ["uint8"; "uint16"; "int16"; "float32"; "float64"].

(** An image that passes the checks, and one that OpenCV can take. *)
Definition image_array {A} (a : nd A) : Prop := cv_dtype (nd_dtype a) /\ exists n h w, nd_shape a = [n; h; w] /\ h <= 32767 /\ w <= 32767.

Definition interp_name (s : string) : Prop := In s ["nearest"; "average"; "bilinear"; "cubic"; "lanczos"].

(** World coordinate grids of one shape. *)
Definition grids (x y z : nd (arr fl)) : Prop :=
  (exists m n, nd_shape x = [m; n] /\ nd_shape y = [m; n] /\ nd_shape z = [m; n]) /\
  nd_dtype x = "float64" /\ nd_dtype y = "float64" /\ In (nd_dtype z) ["float16"; "float32"; "float64"].

(** Arrays that are what their shape says. *)
Definition grid_ok (x : nd (arr fl)) : Prop := nd_shape x = [ah (nd_data x); aw (nd_data x)].
Definition image_ok (im : nd (list (arr pix))) (h w : Z) : Prop :=
  nd_shape im = [Z.of_nat (List.length (nd_data im)); h; w] /\ Forall (fun b => ah b = h /\ aw b = w) (nd_data im).

(** Sizes that [cv2.remap] takes. *)
Definition cv_size (n : Z) : Prop := n < 32767.
Definition usable_sizes (h w m n : Z) : Prop := 0 < m /\ 0 < n /\ cv_size m /\ cv_size n /\ cv_size h /\ cv_size w.

(** * Surfaces *)

(** The lowest and highest of the values of an array that are not NaN. *)
Definition valued (z : arr fl) (v : R) : Prop := exists r c, 0 <= r < ah z /\ 0 <= c < aw z /\ aget z r c = Num v.
Definition lowest (z : arr fl) (v : R) : Prop := valued z v /\ forall u, valued z u -> (v <= u)%R.
Definition highest (z : arr fl) (v : R) : Prop := valued z v /\ forall u, valued z u -> (u <= v)%R.

(** The height of a surface at a world position: OpenCV's at the pixel (j, i) whose centre is there. *)
Definition height_at (cv : fl * fl -> option fl) (t : affine) (xy : R * R) (h : R) : Prop :=
  exists j i, aff_apply t (j + / 2) (i + / 2) = xy /\ cv (Num j, Num i) = Some (Num h).

(** A point at or below the surface. *)
Definition under (cv : fl * fl -> option fl) (t : affine) (p : vec) : Prop := exists h, height_at cv t (vx p, vy p) h /\ (vz p <= h)%R.

(** Heights of [n] samples from [top] down to [low]. *)
Definition sample_height (top low : R) (n k : nat) : R := (top - INR k * (top - low) / INR (n - 1))%R.

(** The point of a pixel's ray that stands for its intersection with the surface: the first of [n] samples from [top] down that is at
    or below the surface, or the last sample if there is none. *)
Definition first_under (ray : R -> vec) (cv : fl * fl -> option fl) (t : affine) (top low : R) (n : nat) (p : vec) : Prop :=
  exists k, (k < n)%nat /\ p = ray (sample_height top low n k) /\
  ((under cv t p /\ forall j, (j < k)%nat -> ~ under cv t (ray (sample_height top low n j))) \/
   (k = (n - 1)%nat /\ forall j, (j < n)%nat -> ~ under cv t (ray (sample_height top low n j)))).

(** The ray of a pixel: its world position for any height. *)
Definition on_ray (c : fcam) (p : R * R) (ray : R -> vec) : Prop :=
  forall h, pixel_to_world_call c (Nd "float64" [2; 1] [(Num (fst p), Num (snd p))]) (ZScalar (Num h)) = Ok [Some (ray h)].

(** The ray of a corner or of the middle of a side of the image does not go down, for rotation [r]. *)
Definition sees_horizon (c : fcam) (r : mat) : Prop :=
  exists p, In p (corners (fc_w c) (fc_h c) ++ side_mids (fc_w c) (fc_h c)) /\
  let xy := l_inv (fc_lens c) p in (0 <= vz (mvec r (V3 (fst xy) (snd xy) 1)))%R.

(** Number of DEM pixels that a ray spans, going from a height to another. *)
Definition span (t : affine) (a b : vec) : R := Rmax (Rabs ((vx b - vx a) / ta t)) (Rabs ((vy b - vy a) / te t)).

(** [q] stands for the intersection of ray [rr] with surface [z]: it is one of a number of samples that are not further than a pixel of the
    surface apart in x and in y, the first one under it if there is any. *)
Definition stands_for (cv_surf : string -> arr fl -> fl * fl -> option fl) (i dtype : string) (z : arr fl) (t : affine) (low top : R) (rr : R -> vec) (q : vec) : Prop :=
  exists m, 1 <= Z.of_nat m < 32767 /\
  (forall k, (S k < m)%nat -> let a := rr (sample_height top low m k) in let b := rr (sample_height top low m (S k)) in
     (Rabs (vx b - vx a) <= Rabs (ta t))%R /\ (Rabs (vy b - vy a) <= Rabs (te t))%R) /\
  (In dtype ["float32"; "float64"] -> first_under rr (cv_surf i z) t top low m q).

(** What is needed for a boundary on a surface, apart from the lengths of the rays. *)
Definition surface_ok (c : fcam) (r : mat) (T : vec) (dtype : string) (z : arr fl) (n : option Z) (t : affine) (ji : list (R * R)) (low high : R) : Prop :=
  s_ext (fc_st c) = Some (r, T) /\ ~ sees_horizon c r /\ pixel_boundary_call c n = Ok ji /\ lowest z low /\ highest z high /\ (low <= vz T)%R /\
  cv_dtype dtype /\ cv_size (ah z) /\ cv_size (aw z) /\ ta t <> 0%R /\ te t <> 0%R /\ (ta t * te t - tb t * td t)%R <> 0%R.

(** * Reading *)

(** The bands asked for, 1 based. *)
Definition asked (ix : indexes) (n : nat) (bs : list Z) : Prop :=
  match ix with
  | AllBands => bs = map (fun k => Z.of_nat (S k)) (seq 0 n)
  | OneBand b => bs = [b]
  | Bands l => bs = l
  end.

(** The data type of the result: the one given, or that of the first band. *)
Definition read_dtype (im : imfile) (dtype : option string) (d : string) : Prop :=
  match dtype with
  | Some s => if String.eqb s "" then option_map fst (nth_error (if_bands im) 0) = Some d else d = s
  | None => option_map fst (nth_error (if_bands im) 0) = Some d
  end.

(** Array [a] holds band [b] of the file, in data type [d]. *)
Definition holds_band (convert : string -> string -> pix -> pix) (im : imfile) (d : string) (b : Z) (a : arr pix) : Prop :=
  exists bd px, 1 <= b /\ nth_error (if_bands im) (Z.to_nat (b - 1)) = Some (bd, px) /\ ah a = if_h im /\ aw a = if_w im /\
  forall r c, aget a r c = convert bd d (px r c).

(** What undistortion does to an image [src], with the source pixel [m] of each pixel. *)
Definition undistorted (cv_image : string -> arr pix -> fl * fl -> option pix) (i : string) (v : pix) (m : R * R -> fl * fl) (src out : nd (list (arr pix))) : Prop :=
  nd_dtype out = nd_dtype src /\ nd_shape out = nd_shape src /\
  Forall2 (fun b o => ah o = ah b /\ aw o = aw b /\
    forall r col, aget o r col = match cv_image i b (m (IZR col, IZR r)) with Some x => x | None => v end) (nd_data src) (nd_data out).

(** The map of the source pixels: where the undistorted camera images a point at (j, i), the distorted one images it at [m (j, i)]. *)
Definition is_source_map (cv_surf : string -> arr fl -> fl * fl -> option fl) (cast_nan : string -> fl)
    (cv_image : string -> arr pix -> fl * fl -> option pix) (convert : string -> string -> pix -> pix) (c : fcam) (ks : list call) (m : R * R -> fl * fl) : Prop :=
  forall xyz opk pt j i, refused (Some xyz, Some opk) = false ->
  snd (do_call cv_surf cast_nan cv_image convert (run_calls cv_surf cast_nan cv_image convert c (ks ++ [UpdateC (Some xyz) (Some opk); SetDistortC false])) (WorldToPixel (Nd "float64" [3; 1] [pt]))) = Ok (VPixels [(Num j, Num i)]) ->
  snd (do_call cv_surf cast_nan cv_image convert (run_calls cv_surf cast_nan cv_image convert c (ks ++ [UpdateC (Some xyz) (Some opk); SetDistortC true])) (WorldToPixel (Nd "float64" [3; 1] [pt]))) = Ok (VPixels [m (j, i)]).
