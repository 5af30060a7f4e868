(** Cameras as described by named parameters, and where they image world points (C95, C96). *)
From Coq Require Import String List Reals QArith Qreals ZArith.
From Verif Require Import Py Flt Mat Frame_Model Frame_Spec Undist_Model Undist_Spec Validate_Model Params_Model Rpc_Model Cam_Spec Rcam_Spec Proj_Spec.
Import ListNotations.
Open Scope string_scope.
Open Scope list_scope.
Open Scope Z_scope.

(** * Descriptions *)

(** A frame camera: its type, image size, focal lengths, sensor size, principal point offsets, and distortion coefficients by name. *)
Record interior := Interior {
  in_type : camtype; in_w : Z; in_h : Z; in_fx : R; in_fy : R; in_sensor : option (R * R); in_cx : R; in_cy : R; in_coef : string -> R }.

(** Focal lengths, sizes and sensor sizes are positive or at least not zero. *)
Definition usable (c : interior) : Prop :=
  0 < in_w c /\ 0 < in_h c /\ in_fx c <> 0%R /\ in_fy c <> 0%R /\ (forall sw sh, in_sensor c = Some (sw, sh) -> sw <> 0%R /\ sh <> 0%R).

(** Focal lengths and principal point in pixels. *)
Definition pixel_intr (c : interior) (K : intr) : Prop :=
  match in_sensor c with
  | Some (sw, sh) => kfx K = (in_fx c / sw * IZR (in_w c))%R /\ kfy K = (in_fy c / sh * IZR (in_h c))%R
  | None => kfx K = (in_fx c * IZR (in_w c))%R /\ kfy K = (in_fy c * IZR (in_w c))%R
  end /\
  kcx K = ((IZR (in_w c) - 1) / 2 + in_cx c * IZR (Z.max (in_w c) (in_h c)))%R /\
  kcy K = ((IZR (in_h c) - 1) / 2 + in_cy c * IZR (Z.max (in_w c) (in_h c)))%R.

(** * Distortion *)

(** A tilted sensor (OpenCV documentation of calib3d). *)
Definition tilted (tx ty : R) (a b : R * R) : Prop :=
  let u := (cos ty * fst a + sin ty * sin tx * snd a - sin ty * cos tx)%R in
  let v := (cos tx * snd a + sin tx)%R in
  let s := (sin ty * fst a - cos ty * sin tx * snd a + cos ty * cos tx)%R in
  s <> 0%R /\ (s * fst b = cos ty * cos tx * u + sin ty * cos tx * s)%R /\ (s * snd b = cos ty * cos tx * v - sin tx * s)%R.

(** OpenCV's model of distortion (same documentation), with coefficients by name. *)
Definition opencv_distorts (c : string -> R) (a b : R * R) : Prop :=
  let (x, y) := a in
  let r2 := (x ^ 2 + y ^ 2)%R in
  let num := (1 + c "k1" * r2 + c "k2" * r2 ^ 2 + c "k3" * r2 ^ 3)%R in
  let den := (1 + c "k4" * r2 + c "k5" * r2 ^ 2 + c "k6" * r2 ^ 3)%R in
  den <> 0%R /\
  tilted (c "tx") (c "ty")
    (x * (num / den) + 2 * c "p1" * x * y + c "p2" * (r2 + 2 * x ^ 2) + c "s1" * r2 + c "s2" * r2 ^ 2,
     y * (num / den) + c "p1" * (r2 + 2 * y ^ 2) + 2 * c "p2" * x * y + c "s3" * r2 + c "s4" * r2 ^ 2)%R b.

(** OpenCV's fisheye model: a point at angle theta off the axis is at radius theta_d. *)
Definition fisheye_distorts (c : string -> R) (a b : R * R) : Prop :=
  let (x, y) := a in
  let r := sqrt (x ^ 2 + y ^ 2) in
  let theta := atan r in
  let theta_d := (theta * (1 + c "k1" * theta ^ 2 + c "k2" * theta ^ 4 + c "k3" * theta ^ 6 + c "k4" * theta ^ 8))%R in
  r <> 0%R /\ b = (x * theta_d / r, y * theta_d / r)%R.

Definition distorts (c : interior) (a b : R * R) : Prop :=
  match in_type c with
  | Cpinhole => b = a
  | Cbrown | Copencv => opencv_distorts (in_coef c) a b
  | Cfisheye => fisheye_distorts (in_coef c) a b
  | Crpc => False
  end.

(** Coefficients in the order OpenCV takes them in; those left out are zero. *)
Fixpoint by_name (names : list string) (d : list R) (k : string) : R :=
  match names, d with n :: names', x :: d' => if String.eqb n k then x else by_name names' d' k | _, _ => 0%R end.
Definition cv_coefs : list R -> string -> R :=
  by_name ["k1"; "k2"; "p1"; "p2"; "k3"; "k4"; "k5"; "k6"; "s1"; "s2"; "s3"; "s4"; "tx"; "ty"].

(** * Where a camera images points *)

(** Point [X], seen by a camera of interior [c] and pose (x, y, z), (omega, phi, kappa), is imaged at pixel [q]: with distortion. *)
Definition images (c : interior) (t : vec) (o p k : R) (X : vec) (q : fl * fl) : Prop :=
  exists K v b, pixel_intr c K /\ seen_at t o p k v X /\ vz v <> 0%R /\ distorts c (vx v / vz v, vy v / vz v)%R b /\ q = to_pixel K b.

(** The point is in the plane through the camera that is parallel to its image. *)
Definition beside (t : vec) (o p k : R) (X : vec) : Prop := exists v, seen_at t o p k v X /\ vz v = 0%R.

(** * Without distortion *)

(** The inverse of the lens: OpenCV's, for the intrinsics and the coefficients. *)
Definition lens_inverse (cv_undistort fish_undistort : intr -> list R -> R * R -> R * R) (c : interior) (f : R * R -> R * R) : Prop :=
  exists K, pixel_intr c K /\
  match in_type c with
  | Cbrown | Copencv => exists d, In (List.length d) [4; 5; 8; 12; 14]%nat /\ (forall k, cv_coefs d k = in_coef c k) /\ f = cv_undistort K d
  | Cfisheye => f = fish_undistort K (map (in_coef c) ["k1"; "k2"; "k3"; "k4"])
  | Cpinhole | Crpc => False
  end.

(** [K] maps a rectangle of camera coordinates to the image. *)
Definition fits (w h : Z) (r : rect) (K : intr) : Prop :=
  kfx K = ((IZR w - 1) / size_x r)%R /\ kfy K = ((IZR h - 1) / size_y r)%R /\ (kfx K * off_x r + kcx K = 0)%R /\ (kfy K * off_y r + kcy K = 0)%R.

(** Intrinsics without distortion: between those of the rectangle that has image data everywhere (alpha 0), and of the one with all image data
    (alpha 1), for samples of the image. *)
Definition undistorted (f : R * R -> R * R) (w h : Z) (alpha : R) (K : intr) : Prop :=
  exists inner outer K0 K1 a, inside_sides f w h inner /\ bounds_samples f w h outer /\ fits w h inner K0 /\ fits w h outer K1 /\
  (alpha <= 0 -> a = 0)%R /\ (0 <= alpha <= 1 -> a = alpha)%R /\ (1 <= alpha -> a = 1)%R /\
  (kfx K = kfx K0 * (1 - a) + kfx K1 * a)%R /\ (kfy K = kfy K0 * (1 - a) + kfy K1 * a)%R /\
  (kcx K = kcx K0 * (1 - a) + kcx K1 * a)%R /\ (kcy K = kcy K0 * (1 - a) + kcy K1 * a)%R.

(** * Keyword arguments *)

Inductive is_real : pyval -> R -> Prop :=
| real_int : forall z, is_real (PInt z) (IZR z)
| real_float : forall q, is_real (PFloat q) (Q2R q).

(** A tuple or list of numbers. *)
Definition is_reals (v : mval) (l : list R) : Prop := exists vs, (v = MTup vs \/ v = MV (PList vs)) /\ Forall2 is_real vs l.

(** A number, that is [default] when it is not given. *)
Definition number_at (kw : dict mval) (k : string) (default x : R) : Prop :=
  match dget k kw with Some v => exists p, v = MV p /\ is_real p x | None => x = default end.

(** Numbers that may be left out or None. *)
Definition numbers_at (kw : dict mval) (k : string) (l : option (list R)) : Prop :=
  match dget k kw with
  | None | Some (MV PNone) => l = None
  | Some v => exists l', l = Some l' /\ is_reals v l'
  end.

(** The distortion coefficients of a camera type. *)
Definition coefficient (t : camtype) (k : string) : Prop :=
  match t with
  | Cpinhole | Crpc => False
  | Cbrown => In k ["k1"; "k2"; "p1"; "p2"; "k3"]
  | Cfisheye => In k ["k1"; "k2"; "k3"; "k4"]
  | Copencv => In k ["k1"; "k2"; "p1"; "p2"; "k3"; "k4"; "k5"; "k6"; "s1"; "s2"; "s3"; "s4"; "tx"; "ty"]
  end.

(** The keywords of a camera type. *)
Definition keyword (t : camtype) (k : string) : Prop :=
  In k ["cam_type"; "im_size"; "focal_len"; "sensor_size"; "cx"; "cy"; "xyz"; "opk"; "distort"; "alpha"] \/ coefficient t k.

(** A camera type, by its member or its name. *)
Definition names_type (v : mval) (t : camtype) : Prop := v = MCam t \/ exists s, v = MV (PStr s) /\ s = cam_value t.

(** Keyword arguments that describe a camera of interior [c], with a pose (complete or not), [distort] and [alpha]. *)
Record describes (kw : dict mval) (c : interior) (p : pose) (d : bool) (a : R) : Prop := {
  d_frame : in_type c <> Crpc;
  d_known : forall k, In k (map fst kw) -> keyword (in_type c) k;
  d_type : exists v, dget "cam_type" kw = Some v /\ names_type v (in_type c);
  d_size : exists v, dget "im_size" kw = Some v /\ (v = MTup [PInt (in_w c); PInt (in_h c)] \/ v = MV (PList [PInt (in_w c); PInt (in_h c)]));
  d_focal : exists v, dget "focal_len" kw = Some v /\
    ((exists x, v = MV x /\ is_real x (in_fx c) /\ in_fy c = in_fx c) \/ (is_reals v [in_fx c] /\ in_fy c = in_fx c) \/ is_reals v [in_fx c; in_fy c]);
  d_sensor : numbers_at kw "sensor_size" (match in_sensor c with Some (sw, sh) => Some [sw; sh] | None => None end);
  d_cx : number_at kw "cx" 0 (in_cx c);
  d_cy : number_at kw "cy" 0 (in_cy c);
  d_coefs : forall k, coefficient (in_type c) k -> number_at kw k 0 (in_coef c k);
  d_others : forall k, ~ coefficient (in_type c) k -> in_coef c k = 0%R;
  d_xyz : numbers_at kw "xyz" (fst p);
  d_opk : numbers_at kw "opk" (snd p);
  d_distort : match dget "distort" kw with Some v => v = MV (PBool d) | None => d = true end;
  d_alpha : number_at kw "alpha" 1 a
}.

(** RPC parameters as keyword arguments: an image size, and a dictionary with a number or numbers for each name. *)
Definition rpc_items (items : list (pykey * pyval)) (r : rpc) : Prop :=
  let num k x := exists v, kget (KStr k) items = Some v /\ is_real v x in
  let nums k l := exists vs, kget (KStr k) items = Some (PList vs) /\ Forall2 is_real vs l in
  NoDup (map fst items) /\
  (forall k, In k (map fst items) -> exists s, k = KStr s /\ In s (scalar_names ++ coeff_names ++ error_names)) /\
  (forall s v, In s error_names -> kget (KStr s) items = Some v -> v = PNone \/ exists x, is_real v x) /\
  num "long_off" (long_off r) /\ num "lat_off" (lat_off r) /\ num "height_off" (height_off r) /\
  num "long_scale" (long_scale r) /\ num "lat_scale" (lat_scale r) /\ num "height_scale" (height_scale r) /\
  num "samp_off" (samp_off r) /\ num "line_off" (line_off r) /\ num "samp_scale" (samp_scale r) /\ num "line_scale" (line_scale r) /\
  nums "samp_num_coeff" (samp_num r) /\ nums "samp_den_coeff" (samp_den r) /\
  nums "line_num_coeff" (line_num r) /\ nums "line_den_coeff" (line_den r).

Definition describes_rpc (kw : dict mval) (w h : Z) (r : rpc) : Prop :=
  (forall k, In k (map fst kw) -> In k ["cam_type"; "im_size"; "rpc"]) /\
  (exists v, dget "cam_type" kw = Some v /\ names_type v Crpc) /\
  (exists v, dget "im_size" kw = Some v /\ (v = MTup [PInt w; PInt h] \/ v = MV (PList [PInt w; PInt h]))) /\
  exists items, dget "rpc" kw = Some (MV (PDict items)) /\ rpc_items items r.
