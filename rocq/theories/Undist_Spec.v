(** Vocabulary for the undistortion properties. *)
From Coq Require Import List Reals ZArith.
From Verif Require Import Flt Mat Frame_Model Frame_Spec Undist_Model.
Import ListNotations.
Open Scope R_scope.

(** The settings that an object has after a history: the last ones given. *)
Definition last_alpha {E} (ops : list (op E)) (a0 : R) : R :=
  fold_left (fun a o => match o with SetAlpha a' => a' | _ => a end) ops a0.
Definition last_distort {E} (ops : list (op E)) (d0 : bool) : bool :=
  fold_left (fun d o => match o with SetDistort d' => d' | _ => d end) ops d0.

Definition last_ext {E} (ops : list (op E)) (e0 : option E) : option E :=
  fold_left (fun e o => match o with Update e' => Some e' | _ => e end) ops e0.

(** The sampled source pixels: a 9 by 9 grid over the image, edges included. *)
Definition sample_pixel (w h : Z) (a b : nat) : R * R := (INR a / 8 * (IZR w - 1), INR b / 8 * (IZR h - 1)).

(** A point of the image plane inside a rectangle. *)
Definition in_rect (r : rect) (xy : R * R) : Prop :=
  off_x r <= fst xy <= off_x r + size_x r /\ off_y r <= snd xy <= off_y r + size_y r.

Definition nonempty (r : rect) : Prop := 0 < size_x r /\ 0 < size_y r.

(** Bounding rectangle of the undistorted samples. *)
Definition bounds_samples (p2c : R * R -> R * R) (w h : Z) (r : rect) : Prop :=
  (forall a b, (a <= 8)%nat -> (b <= 8)%nat -> in_rect r (p2c (sample_pixel w h a b))) /\
  (exists a b, (a <= 8)%nat /\ (b <= 8)%nat /\ fst (p2c (sample_pixel w h a b)) = off_x r) /\
  (exists a b, (a <= 8)%nat /\ (b <= 8)%nat /\ fst (p2c (sample_pixel w h a b)) = off_x r + size_x r) /\
  (exists a b, (a <= 8)%nat /\ (b <= 8)%nat /\ snd (p2c (sample_pixel w h a b)) = off_y r) /\
  (exists a b, (a <= 8)%nat /\ (b <= 8)%nat /\ snd (p2c (sample_pixel w h a b)) = off_y r + size_y r).

(** The largest rectangle between the undistorted samples of the four image sides. *)
Definition inside_sides (p2c : R * R -> R * R) (w h : Z) (r : rect) : Prop :=
  (forall b, (b <= 8)%nat -> fst (p2c (sample_pixel w h 0 b)) <= off_x r) /\
  (forall b, (b <= 8)%nat -> off_x r + size_x r <= fst (p2c (sample_pixel w h 8 b))) /\
  (forall a, (a <= 8)%nat -> snd (p2c (sample_pixel w h a 0)) <= off_y r) /\
  (forall a, (a <= 8)%nat -> off_y r + size_y r <= snd (p2c (sample_pixel w h a 8))) /\
  (exists b, (b <= 8)%nat /\ fst (p2c (sample_pixel w h 0 b)) = off_x r) /\
  (exists b, (b <= 8)%nat /\ fst (p2c (sample_pixel w h 8 b)) = off_x r + size_x r) /\
  (exists a, (a <= 8)%nat /\ snd (p2c (sample_pixel w h a 0)) = off_y r) /\
  (exists a, (a <= 8)%nat /\ snd (p2c (sample_pixel w h a 8)) = off_y r + size_y r).
