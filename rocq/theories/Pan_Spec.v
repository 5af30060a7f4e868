(** Vocabulary for the pan-sharpening properties. *)
From Coq Require Import List Reals ZArith Sorted.
From Verif Require Import Py Flt Pan_Model.
Import ListNotations.
Open Scope R_scope.

(** [vs] are the band values (pan first) of the pixels that are valid in all bands, in order. *)
Inductive selects : list pixel -> list (list R) -> Prop :=
| sel_nil : selects [] []
| sel_valid x xs l vs : selects l vs -> selects ((Num x, map Num xs) :: l) ((x :: xs) :: vs)
| sel_skip p l vs : fst p = Nan \/ In Nan (snd p) -> selects l vs -> selects (p :: l) vs.

(** Mean and unbiased covariance of quantities of pixels. *)
Definition avg {A} (f : A -> R) (vs : list A) : R := suml f vs / INR (length vs).
Definition covar {A} (f g : A -> R) (vs : list A) : R :=
  suml (fun v => (f v - avg f vs) * (g v - avg g vs)) vs / (INR (length vs) - 1).

(** The simulated pan of a pixel: weighted sum of its MS values. *)
Definition sim_pan (w : list R) (v : list R) : R := dotl w (tl v).

(** The covariance of a set of pixels, of bands. *)
Definition band_cov (vs : list (list R)) (k l : nat) : R := covar (band k) (band l) vs.
Definition band_mean (vs : list (list R)) (k : nat) : R := avg (band k) vs.

(** A positive definite matrix of [n] bands. *)
Definition pos_def (n : nat) (c : nat -> nat -> R) : Prop :=
  (forall i j, (i < n)%nat -> (j < n)%nat -> c i j = c j i) /\
  forall u : nat -> R, (exists i, (i < n)%nat /\ u i <> 0) -> 0 < sumn n (fun i => sumn n (fun j => u i * u j * c i j)).

(** The multispectral band indexes to use: those of the user, or all non-alpha bands in order. *)
Definition chosen_indexes (alpha : list bool) (user : option (list Z)) (idx : list Z) : Prop :=
  match user with
  | Some (i :: l) => idx = i :: l
  | _ => StronglySorted Z.lt idx /\
         forall i, In i idx <-> (1 <= i <= Z.of_nat (length alpha))%Z /\ nth (Z.to_nat (i - 1)) alpha false = false
  end.
