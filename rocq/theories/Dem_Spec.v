(** Vocabulary for DEM window and crop properties. *)
From Coq Require Import List ZArith QArith Reals.
From Verif Require Import Py Flt Grid_Model Grid_Spec Remap_Model.
Open Scope Z_scope.

(** [a] is the part of [dem] from (r0, c0) on: inside it, with the same values. *)
Definition sub_array {A} (a dem : arr A) (r0 c0 : Z) : Prop :=
  0 <= r0 /\ 0 <= c0 /\ 0 < ah a /\ 0 < aw a /\ r0 + ah a <= ah dem /\ c0 + aw a <= aw dem /\
  forall r c, 0 <= r < ah a -> 0 <= c < aw a -> aget a r c = aget dem (r0 + r) (c0 + c).

(** Transform [t'] of an array starting at (r0, c0) puts every position where [t] does. *)
Definition same_position (t' t : affine) (r0 c0 : Z) : Prop :=
  forall x y : R, aff_apply t' x y = aff_apply t (x + IZR c0) (y + IZR r0).

(** The (real) point (x, y) in pixel coordinates is strictly inside a window. *)
Definition inside (f : fwindow) (x y : Q) : Prop :=
  (fcol_off f < x < fcol_off f + fwidth f)%Q /\ (frow_off f < y < frow_off f + fheight f)%Q.

(** An area of the DEM is requested. *)
Definition overlaps (dem_h dem_w : Z) (f : fwindow) : Prop :=
  exists x y, inside f x y /\ inside (FWin 0 0 (inject_Z dem_w) (inject_Z dem_h)) x y.

(** Pixel (r, c) touches a window. *)
Definition touches (f : fwindow) (r c : Z) : Prop :=
  exists x y, inside f x y /\ (inject_Z c <= x <= inject_Z (c + 1))%Q /\ (inject_Z r <= y <= inject_Z (r + 1))%Q.

(** A DEM pixel inside the image boundary and not NaN. *)
Definition wanted (dem : arr fl) (poly : arr bool) (r c : Z) : Prop :=
  in_im (ah dem) (aw dem) r c /\ aget poly r c = true /\ aget dem r c <> Nan.
