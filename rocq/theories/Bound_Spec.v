(** Vocabulary for the boundary properties. *)
From Coq Require Import List Reals ZArith.
From Verif Require Import Py Flt Mat Grid_Model Remap_Model Frame_Model Frame_Spec Undist_Model Bound_Model.
Import ListNotations.
Open Scope R_scope.

(** On the rectangle through the centres of the corner pixels. *)
Definition on_edge (w h : Z) (ji : R * R) : Prop :=
  in_image w h ji /\ (fst ji = 0 \/ fst ji = IZR w - 1 \/ snd ji = 0 \/ snd ji = IZR h - 1).

Definition corners (w h : Z) : list (R * R) :=
  [(0, 0); (IZR w - 1, 0); (IZR w - 1, IZR h - 1); (0, IZR h - 1)].

Definition side_mids (w h : Z) : list (R * R) :=
  [((IZR w - 1) / 2, 0); (IZR w - 1, (IZR h - 1) / 2); ((IZR w - 1) / 2, IZR h - 1); (0, (IZR h - 1) / 2)].

Definition perimeter (w h : Z) : R := 2 * ((IZR w - 1) + (IZR h - 1)).

(** Distance along axes. *)
Definition dist1 (p q : R * R) : R := Rabs (fst p - fst q) + Rabs (snd p - snd q).

(** A point at or below the surface. *)
Definition below (surf : R * R -> fl) (p : vec) : Prop := exists s, surf (vx p, vy p) = Num s /\ vz p <= s.

(** Height of sample [k] of [n] from [max_z] down to [min_z]. *)
Definition sample_z (max_z min_z : R) (n k : nat) : R := max_z - INR k * (max_z - min_z) / INR (n - 1).

(** A straight ray: the world position is linear in height. *)
Definition straight (p2w : R -> vec) : Prop := exists ox dx oy dy, forall z, p2w z = V3 (ox + z * dx) (oy + z * dy) z.

(** Signed area of a triangle, and of a polygon as the sum of the triangles from a point [o] to its edges. *)
Definition tri (o p q : R * R) : R :=
  ((fst p - fst o) * (snd q - snd o) - (fst q - fst o) * (snd p - snd o)) / 2.

Fixpoint fan (o first : R * R) (l : list (R * R)) : R :=
  match l with
  | [] => 0
  | [p] => tri o p first
  | p :: (q :: _) as l' => tri o p q + fan o first l'
  end.
Definition signed_area (o : R * R) (l : list (R * R)) : R := match l with [] => 0 | p :: _ => fan o p l end.

(** A camera looking straight down. *)
Definition nadir (r : mat) : Prop := rotation r /\ mvec r (V3 0 0 1) = V3 0 0 (-1).

(** Window containment, by pixels. *)
Definition within (a b : window) : Prop :=
  (col_off b <= col_off a /\ col_off a + width a <= col_off b + width b /\
   row_off b <= row_off a /\ row_off a + height a <= row_off b + height b)%Z.

Definition bounds_within (a b : bounds) : Prop :=
  b_left b <= b_left a /\ b_right a <= b_right b /\ b_bottom b <= b_bottom a /\ b_top a <= b_top b.

(** Ellipsoidal height of land: at most 8850 above the geoid and not below it, where the geoid is from 106.71 below to 82.28 above the
    ellipsoid. *)
Definition land_height (h : R) : Prop :=
  exists above_geoid geoid, 0 <= above_geoid <= 8850 /\ - (106.71) <= geoid <= 82.28 /\ h = above_geoid + geoid.
