(** What distorting images and pixels means (C105). *)
From Coq Require Import String List Reals ZArith.
From Verif Require Import Py Flt Mat Remap_Model Frame_Model Cam_Model Proj_Spec.
Import ListNotations.
Open Scope string_scope.
Open Scope list_scope.
Open Scope Z_scope.

Section Seen.
Variable cv_surf : string -> arr fl -> fl * fl -> option fl.
Variable cast_nan : string -> fl.
Variable cv_image : string -> arr pix -> fl * fl -> option pix.
Variable convert : string -> string -> pix -> pix.

(** The pixel where a camera sees a world point, with distortion switched on or off. *)
Definition seen (c : fcam) (distort : bool) (P : vec) (q : fl * fl) : Prop :=
  let c' := run_calls cv_surf cast_nan cv_image convert c [SetDistortC distort] in
  snd (do_call cv_surf cast_nan cv_image convert c' (WorldToPixel (one_point (num3 P)))) = Ok (VPixels [q]).
End Seen.

(** One direction only is seen at a pixel, and is the one that OpenCV finds. *)
Definition found_view (l : lens) (ji : R * R) : Prop := forall xy, l_fwd l xy = num2 ji -> l_inv l ji = xy.

(** Row and column as a pixel, and the ones of an image. *)
Definition whole (row col : Z) : R * R := (IZR col, IZR row).
Definition inside (h w row col : Z) : Prop := 0 <= row < h /\ 0 <= col < w.

(** Interpolation at a pixel gives its value. *)
Definition exact_at_pixels (sample : arr pix -> fl * fl -> option pix) : Prop :=
  forall b row col, inside (ah b) (aw b) row col -> sample b (num2 (whole row col)) = Some (aget b row col).

(** Coordinates moved to the nearest of the image; NaN stays NaN. *)
Definition nearest_in (size : Z) (v v' : fl) : Prop :=
  match v with
  | Nan => v' = Nan
  | Num x => exists y, v' = Num y /\ ((0 <= x <= IZR size - 1)%R -> y = x) /\ ((x < 0)%R -> y = 0%R) /\ ((IZR size - 1 < x)%R -> y = (IZR size - 1)%R)
  end.
Definition clipped (w h : Z) (q q' : fl * fl) : Prop := nearest_in w (fst q) (fst q') /\ nearest_in h (snd q) (snd q').
