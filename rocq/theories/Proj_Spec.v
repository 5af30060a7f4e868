(** What the calls of a frame camera compute, in terms of the arguments it was made with (C91, C92). *)
From Coq Require Import String List Reals ZArith.
From Verif Require Import Py Flt Mat Rot_Spec Remap_Model Remap_Spec Frame_Model Undist_Model Cam_Model.
Import ListNotations.
Open Scope string_scope.
Open Scope list_scope.
Open Scope Z_scope.

(** A camera at [t], that looks down with its image top to the y axis and is then turned by kappa, phi and omega, has point [P]
    at [v] in its axes (right, down, forward). *)
Definition turned (o p k : R) (v : vec) : vec := about_x o (about_y p (about_z k (V3 (vx v) (- vy v) (- vz v)))).
Definition seen_at (t : vec) (o p k : R) (v P : vec) : Prop := P = vadd t (turned o p k v).

(** Focal lengths and principal point in pixels. *)
Definition intrinsics (w h : Z) (focal : list R) (sensor : option (list R)) (cx cy : R) (K : intr) : Prop :=
  exists fx fy, (focal = [fx; fy] \/ (focal = [fx] /\ fy = fx)) /\
  match sensor with
  | None => kfx K = (fx * IZR w)%R /\ kfy K = (fy * IZR w)%R
  | Some s => exists sw sh, s = [sw; sh] /\ (sw <> 0 -> kfx K = fx / sw * IZR w)%R /\ (sh <> 0 -> kfy K = fy / sh * IZR h)%R
  end /\
  kcx K = ((IZR w - 1) / 2 + cx * IZR (Z.max w h))%R /\ kcy K = ((IZR h - 1) / 2 + cy * IZR (Z.max w h))%R.

Definition num3 (p : vec) : fl * fl * fl := (Num (vx p), Num (vy p), Num (vz p)).

(** The pixel of a point of the image plane. *)
Definition to_pixel (K : intr) (xy : R * R) : fl * fl := (Num (kfx K * fst xy + kcx K)%R, Num (kfy K * snd xy + kcy K)%R).

(** Arrays with one point or pixel. *)
Definition one_point (p : fl * fl * fl) : nd (list (fl * fl * fl)) := Nd "float64" [3; 1] [p].
Definition one_pixel (p : fl * fl) : nd (list (fl * fl)) := Nd "float64" [2; 1] [p].

(** * Remapping *)
Section Remapped.
Variable cv_surf : string -> arr fl -> fl * fl -> option fl.
Variable cast_nan : string -> fl.
Variable cv_image : string -> arr pix -> fl * fl -> option pix.
Variable convert : string -> string -> pix -> pix.
Variable c : fcam.
Variables x y z : arr fl.
Variable nodata : pix.
Variable interp : string.
Variable im : list (arr pix).

Definition or_m1 (v : fl) : fl := match v with Num a => Num a | Nan => Num (-1) end.

(** The image value for grid point (row, col): OpenCV's interpolation where the camera sees the point (NaN pixels are at -1,
    outside of the image), or nodata. *)
Definition value_at (b : arr pix) (row col : Z) (v : pix) : Prop :=
  exists j i, snd (do_call cv_surf cast_nan cv_image convert c (WorldToPixel (one_point (aget x row col, aget y row col, aget z row col)))) = Ok (VPixels [(j, i)]) /\
  match cv_image interp b (or_m1 j, or_m1 i) with Some u => v = u | None => v = nodata end.

(** No band has a value there. *)
Definition empty (row col : Z) : Prop := forall b, In b im -> exists v, value_at b row col v /\ is_nodata nodata v.

(** Empty, or next to an empty grid point, for a kernel (width, height). *)
Definition near_empty (kernel : Z * Z) (row col : Z) : Prop :=
  exists row' col', 0 <= row' < ah x /\ 0 <= col' < aw x /\ under_kernel (fst kernel) (snd kernel) row col row' col' /\ empty row' col'.
End Remapped.

(** Undistorting has mixed nodata into the pixels around it, unless the image was not resampled or nodata is NaN. *)
Definition blurs (pin distort : bool) (interp : string) (nodata : pix) : Prop :=
  pin = false /\ distort = false /\ interp <> "nearest" /\ nodata <> PNan.
