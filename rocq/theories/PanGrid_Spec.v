(** Vocabulary for the pan-sharpening grid and validity properties. *)
From Coq Require Import List ZArith QArith.
From Verif Require Import Py Grid_Model Dtype_Model PanGrid_Model.
Import ListNotations.
Open Scope Z_scope.

Definition north_up (t : qaff) : Prop := (qb t == 0 /\ qd t == 0 /\ 0 < qa t /\ qe t < 0)%Q.

(** A georeferenced image has a CRS or a geotransform other than the identity. *)
Definition georeferenced (i : image) : Prop :=
  im_crs i <> None \/
  ~ (qa (im_t i) == 1 /\ qb (im_t i) == 0 /\ qc (im_t i) == 0 /\ qd (im_t i) == 0 /\ qe (im_t i) == 1 /\ qf (im_t i) == 0)%Q.

(** A raster image of positive size. *)
Definition sized (i : image) : Prop := 0 < im_w i /\ 0 < im_h i.

(** World point (x, y) lies on the grid of the given transform and size. *)
Definition on_grid (t : qaff) (w h : Z) (x y : Q) : Prop :=
  exists j i : Q, (0 <= j <= inject_Z w /\ 0 <= i <= inject_Z h /\ fst (qapply t j i) == x /\ snd (qapply t j i) == y)%Q.

(** ... and not on its edge. *)
Definition within_grid (t : qaff) (w h : Z) (x y : Q) : Prop :=
  exists j i : Q, (0 < j < inject_Z w /\ 0 < i < inject_Z h /\ fst (qapply t j i) == x /\ snd (qapply t j i) == y)%Q.

(** World point (x, y) is strictly inside bounds. *)
Definition in_bounds (b : qbounds) (x y : Q) : Prop := (q_left b < x < q_right b /\ q_bottom b < y < q_top b)%Q.

(** A grid is a whole pixel part of another. *)
Definition part_of (t : qaff) (w h : Z) (src : qaff) (sw sh : Z) : Prop :=
  exists c0 r0 : Z, 0 <= c0 /\ 0 <= r0 /\ 0 < w /\ 0 < h /\ c0 + w <= sw /\ r0 + h <= sh /\
  forall j i : Q, (fst (qapply t j i) == fst (qapply src (j + inject_Z c0) (i + inject_Z r0)) /\
                   snd (qapply t j i) == snd (qapply src (j + inject_Z c0) (i + inject_Z r0)))%Q.

(** [transform_bounds] encloses what it should: places inside bounds in one CRS are inside the transformed bounds. *)
Definition encloses (transform_bounds : option Z -> option Z -> qbounds -> res qbounds) (c1 c2 : option Z)
    (same_place : Q * Q -> Q * Q -> Prop) : Prop :=
  forall b b' x y x' y', transform_bounds c1 c2 b = Ok b' -> same_place (x, y) (x', y') -> in_bounds b x y -> in_bounds b' x' y'.

(** The nodata value of output data types (C09). *)
Definition dtype_nodata (d : dtype) : option (option Q) :=
  match d with
  | U8 | U16 => Some (Some 0%Q)
  | I16 => Some (Some (inject_Z (-32768)))
  | F32 | F64 => Some None
  | _ => None
  end.
Definition output_type (d : dtype) : Prop := dtype_nodata d <> None.
