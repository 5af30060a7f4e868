(** Model of the pan-sharpening statistics, parameters and transforms of orthority/pan_sharp.py, over the reals.  Numpy
    arrays of band statistics are functions of band indices.  Rounding is not modelled. *)
From Coq Require Import List Reals ZArith Bool.
From Verif Require Import Py Flt.
Import ListNotations.
Open Scope R_scope.

(** [sum(f(i) for i in range(n))]. *)
Fixpoint sumn (n : nat) (f : nat -> R) : R := match n with O => 0 | S n' => sumn n' f + f n' end.

(** [sum(f(x) for x in l)]. *)
Fixpoint suml {A} (f : A -> R) (l : list A) : R := match l with [] => 0 | x :: l' => f x + suml f l' end.

(** [np.dot] of two lists. *)
Definition dotl (xs ys : list R) : R := suml (fun p => fst p * snd p) (combine xs ys).

(** * Statistics *)

(** A pixel of the pan and multispectral (MS) images, as read: pan value and MS values. *)
Definition pixel := (fl * list fl)%type.

(** The values of a pixel (pan first), if it is not masked: pan_sharp.py:258-264.  The working nodata is NaN (line 64). *)
Fixpoint nums (l : list fl) : option (list R) :=
  match l with
  | [] => Some []
  | Nan :: _ => None
  | Num x :: l' => option_map (cons x) (nums l')
  end.
Definition pixel_values (p : pixel) : option (list R) := nums (fst p :: snd p).

Fixpoint valid_values (l : list pixel) : list (list R) :=
  match l with
  | [] => []
  | p :: l' => match pixel_values p with Some v => v :: valid_values l' | None => valid_values l' end
  end.

(** Value of band [k], where band 0 is pan. *)
Definition band (k : nat) (v : list R) : R := nth k v 0.

Record stats := Stats { s_n : nat; s_mean : nat -> R; s_prod : nat -> nat -> R }.

(** pan_sharp.py:242-271 [get_tile_stats] of a tile's pixels. *)
Definition tile_stats (tile : list pixel) : stats :=
  let vs := valid_values tile in
  let n := length vs in
  let mean := fun k => if Nat.eqb n 0 then 0 else suml (band k) vs / INR n in
  Stats n mean (fun k l => suml (fun v => (band k v - mean k) * (band l v - mean l)) vs).

(** pan_sharp.py:298-305: aggregation of a tile's statistics. *)
Definition accumulate (s t : stats) : stats :=
  if Nat.ltb 0 (s_n t) then
    let d := fun k => s_mean t k - s_mean s k in
    let n' := (s_n s + s_n t)%nat in
    Stats n'
      (fun k => s_mean s k + d k * INR (s_n t) / INR n')
      (fun k l => s_prod s k l + (s_prod t k l + d k * d l * (INR (s_n s) * INR (s_n t)) / (INR (s_n s) + INR (s_n t))))
  else s.

Definition no_stats : stats := Stats 0 (fun _ => 0) (fun _ _ => 0).

(** pan_sharp.py:274-309 [_get_stats]: [results] are the results of the tile tasks in the order they complete.  A failed
    task is a RuntimeError. *)
Definition tile_result (t : res (list pixel)) : res stats := rmap tile_stats t.

Fixpoint gather (results : list (res stats)) (s : stats) : res stats :=
  match results with
  | [] => Ok s
  | Ok t :: rest => gather rest (accumulate s t)
  | Err _ :: _ => Err RuntimeError
  end.

Definition get_stats (tiles : list (res (list pixel))) : res ((nat -> R) * (nat -> nat -> fl)) :=
  do s <- gather (map tile_result tiles) no_stats;
  Ok (s_mean s, fun k l => fdiv (Num (s_prod s k l)) (Num (INR (s_n s) - 1))).

(** * Weights *)

Section Weights.

(** [np.linalg.lstsq(a, b)[0]]. *)
Variable lstsq : list (list R) -> list R -> list R.

Definition anyb (p : R -> bool) (l : list R) : bool := existsb p l.
Definition Rneg (x : R) : bool := if Rlt_dec x 0 then true else false.
Definition Rpos (x : R) : bool := if Rlt_dec 0 x then true else false.
Definition clip0 (x : R) : R := if Rlt_dec x 0 then 0 else x.

(** [np.where(weights > 0)[0]]. *)
Definition where_pos (w : list R) : list nat := filter (fun i => Rpos (nth i w 0)) (seq 0 (length w)).

(** [weights[idx] = vals]. *)
Fixpoint set_at {A} (i : nat) (x : A) (l : list A) : list A :=
  match l, i with
  | [], _ => []
  | _ :: l', O => x :: l'
  | y :: l', S i' => y :: set_at i' x l'
  end.
Fixpoint scatter (idx : list nat) (vals w : list R) : list R :=
  match idx, vals with i :: idx', v :: vals' => scatter idx' vals' (set_at i v w) | _, _ => w end.

(** pan_sharp.py:319-356 [get_weights], up to normalisation, for [nb] bands.  Covariance indices are 1 based for MS bands.
    Numpy's [squeeze] of a single weight to a scalar is not modelled. *)
Definition raw_weights (nb : nat) (cov : nat -> nat -> R) (weights : option (list R)) : list R :=
  let weights :=
    match weights with
    | Some w => w
    | None =>
      let sub idx := map (fun i => map (fun j => cov (S i) (S j)) idx) idx in
      let rhs idx := map (fun i => cov 0%nat (S i)) idx in
      let all := seq 0 nb in
      let w := lstsq (sub all) (rhs all) in
      if anyb Rneg w then
        let idx := where_pos w in
        let w' := lstsq (sub idx) (rhs idx) in
        if forallb (fun x => negb (Rneg x)) w' then scatter idx w' (map clip0 w) else w
      else w
    end in
  if anyb Rneg weights then map clip0 weights else weights.

(** pan_sharp.py:356: [weights / weights.sum()]; all NaN when the sum is zero. *)
Definition get_weights (nb : nat) (cov : nat -> nat -> R) (weights : option (list R)) : list fl :=
  let w := raw_weights nb cov weights in
  map (fun x => fdiv (Num x) (Num (suml (fun y => y) w))) w.

End Weights.

(** * Gram-Schmidt *)

(** [(u.reshape(-1, 1).dot(v.reshape(1, -1)) * cov).sum()]. *)
Definition bil (n : nat) (cov : nat -> nat -> R) (u v : nat -> R) : R :=
  sumn n (fun i => sumn n (fun j => u i * v j * cov i j)).

(** [u.dot(v)]. *)
Definition dotn (n : nat) (u v : nat -> R) : R := sumn n (fun i => u i * v i).

(** [np.any(a != 0)]. *)
Definition any_nonzero (n : nat) (a : nat -> R) : bool :=
  existsb (fun i => if Req_EM_T (a i) 0 then false else true) (seq 0 n).

(** pan_sharp.py:374-378: one coefficient.  Division by a zero variance gives NaN in numpy, and is not modelled: theorems
    about estimated coefficients assume a positive definite covariance, where it can not happen. *)
Definition gs_coeff (n : nat) (cov : nat -> nat -> R) (k : nat) (a : nat -> R) : R :=
  if any_nonzero n a then dotn n a (cov k) / bil n cov a a else 0.

(** pan_sharp.py:365-371: the vectors [a[0], ..., a[k]]. *)
Fixpoint gs_vectors (n : nat) (cov : nat -> nat -> R) (w : nat -> R) (k : nat) : list (nat -> R) :=
  match k with
  | O => [w]
  | S k' =>
    let a := gs_vectors n cov w k' in
    a ++ [fun m => (if Nat.eqb m k' then 1 else 0) - suml (fun v => gs_coeff n cov k' v * v m) a]
  end.

(** pan_sharp.py:358-379 [get_gs_coeffs], for the MS covariance. *)
Definition gs_coeffs (n : nat) (cov : nat -> nat -> R) (w : list R) : list (list R) :=
  map (fun k => map (gs_coeff n cov k) (gs_vectors n cov (fun m => nth m w 0) k)) (seq 0 n).

(** pan_sharp.py:381-403 [get_pan_norm].  Division by a zero standard deviation is not modelled. *)
Definition pan_norm (nb : nat) (means : nat -> R) (cov : nat -> nat -> R) (w : list R) : R * R :=
  let pan_mean := means 0%nat in
  let pan_std := sqrt (cov 0%nat 0%nat) in
  let wf := fun m => nth m w 0 in
  let pan_sim_mean := dotn nb wf (fun m => means (S m)) in
  let pan_sim_std := sqrt (bil nb (fun i j => cov (S i) (S j)) wf wf) in
  let gain := pan_sim_std / pan_std in
  (gain, pan_sim_mean - gain * pan_mean).

(** * Transforms *)

(** pan_sharp.py:436-453 [gs_foward], for one pixel: [gs] are the components so far. *)
Fixpoint gs_fwd (ms means : list R) (coeffs : list (list R)) (gs : list R) : list R :=
  match ms, means, coeffs with
  | m :: ms', mu :: means', phi :: coeffs' => gs_fwd ms' means' coeffs' (gs ++ [m - mu - dotl phi gs])
  | _, _, _ => gs
  end.

(** pan_sharp.py:455-473 [gs_reverse], for one pixel: [gs] are the components up to the current one. *)
Fixpoint gs_rev (means : list R) (coeffs : list (list R)) (gs rest : list R) : list R :=
  match rest, means, coeffs with
  | g :: rest', mu :: means', phi :: coeffs' => (g + mu + dotl phi gs) :: gs_rev means' coeffs' (gs ++ [g]) rest'
  | _, _, _ => []
  end.

Record params := Params { p_means : list R; p_coeffs : list (list R); p_weights : list R; p_gain : R; p_bias : R }.

(** pan_sharp.py:418-478 [_process_tile_array], for one pixel; [p_means] are [means[1:]]. *)
Definition process_pixel (p : params) (pan : R) (ms : list R) : list R :=
  let gs := gs_fwd ms (p_means p) (p_coeffs p) [dotl (p_weights p) ms] in
  gs_rev (p_means p) (p_coeffs p) [p_gain p * pan + p_bias p] (tl gs).

(** pan_sharp.py:311-416 [_get_params], given the normalised weights. *)
Definition get_params (nb : nat) (means : nat -> R) (cov : nat -> nat -> R) (w : list R) : params :=
  let (gain, bias) := pan_norm nb means cov w in
  Params (map (fun m => means (S m)) (seq 0 nb)) (gs_coeffs nb (fun i j => cov (S i) (S j)) w) w gain bias.

(** pan_sharp.py:631-641 in [process]: parameters from the tile statistics.  A NaN covariance is not propagated past here. *)
Definition fval (x : fl) : R := match x with Num r => r | Nan => 0 end.
Definition estimate (nb : nat) (tiles : list (res (list pixel))) (w : list R) : res params :=
  do mc <- get_stats tiles;
  Ok (get_params nb (fst mc) (fun k l => fval (snd mc k l)) w).

(** * Validation *)

(** pan_sharp.py:186-226 [_validate_pan_ms_params].  [alpha] tells for each MS band whether it is an alpha band. *)
Definition default_indexes (alpha : list bool) : list Z :=
  map (fun bi => Z.of_nat bi + 1)%Z (filter (fun bi => negb (nth bi alpha false)) (seq 0 (length alpha))).

Definition validate_params (pan_count : Z) (alpha : list bool) (pan_index : Z) (ms_indexes : option (list Z))
  (weights : option (list R)) : res (list Z * option (list R)) :=
  if ((pan_index <=? 0) || (pan_count <? pan_index))%Z then Err OrthorityError else
  let ms_indexes := match ms_indexes with None | Some [] => default_indexes alpha | Some l => l end in
  if existsb (fun i => (i <=? 0)%Z) ms_indexes || existsb (fun i => (Z.of_nat (length alpha) <? i)%Z) ms_indexes
  then Err OrthorityError else
  let weights := match weights with None | Some [] => None | Some w => Some w end in
  match weights with
  | None => Ok (ms_indexes, None)
  | Some w =>
    if negb (Nat.eqb (length w) (length ms_indexes)) then Err OrthorityError
    else if anyb Rneg w then Err OrthorityError
    else Ok (ms_indexes, Some w)
  end.
