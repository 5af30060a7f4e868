(** Property theorems: C29 RPC projection, C30 shift refinement, C31 shift and drift refinement. *)
From Coq Require Import List Reals Lra Lia.
From Verif Require Import Py Flt Mat Rpc_Model Rpc_Spec Rpc_Proof.
Import ListNotations.
Open Scope R_scope.

(** C29: the RPC00B model, wherever its denominators are not zero. *)
Theorem C29_rpc00b : forall r v, valid_rpc r ->
  rpc00b (samp_den r) (nlong r v) (nlat r v) (nheight r v) <> 0 ->
  rpc00b (line_den r) (nlong r v) (nlat r v) (nheight r v) <> 0 ->
  rpc_world_to_pixel None r (Num (vx v), Num (vy v), Num (vz v)) =
  (Num (rpc00b (samp_num r) (nlong r v) (nlat r v) (nheight r v) / rpc00b (samp_den r) (nlong r v) (nlat r v) (nheight r v)
        * samp_scale r + samp_off r),
   Num (rpc00b (line_num r) (nlong r v) (nlat r v) (nheight r v) / rpc00b (line_den r) (nlong r v) (nlat r v) (nheight r v)
        * line_scale r + line_off r)).
Proof. exact rpc_value. Qed.
Print Assumptions C29_rpc00b.

(** C29: it is undefined exactly where a denominator is zero, and only on that axis. *)
Theorem C29_undefined : forall r v, valid_rpc r ->
  (fst (rpc_world_to_pixel None r (Num (vx v), Num (vy v), Num (vz v))) = Nan <->
   rpc00b (samp_den r) (nlong r v) (nlat r v) (nheight r v) = 0) /\
  (snd (rpc_world_to_pixel None r (Num (vx v), Num (vy v), Num (vz v))) = Nan <->
   rpc00b (line_den r) (nlong r v) (nlat r v) (nheight r v) = 0).
Proof. exact rpc_undefined. Qed.
Print Assumptions C29_undefined.

(** C29: with a CRS, it is the RPC model of the coordinates in the RPC CRS. *)
Theorem C29_crs : forall w r v,
  rpc_world_to_pixel (Some w) r (Num (vx v), Num (vy v), Num (vz v)) =
  rpc_world_to_pixel None r (Num (vx (w v)), Num (vy (w v)), Num (vz (w v))).
Proof. exact rpc_crs. Qed.
Print Assumptions C29_crs.

(** C29: a NaN coordinate gives a NaN pixel. *)
Theorem C29_nan : forall warp r x y z, x = Nan \/ y = Nan \/ z = Nan -> rpc_world_to_pixel warp r (x, y, z) = (Nan, Nan).
Proof. exact rpc_nan. Qed.
Print Assumptions C29_nan.

(** C29: a CRS is accepted exactly when it preserves heights 0 and 1 at the RPC centre. *)
Theorem C29_crs_heights : forall w r, validate_crs w r = Ok tt <->
  vz (w (V3 (long_off r) (lat_off r) 0)) = 0 /\ vz (w (V3 (long_off r) (lat_off r) 1)) = 1.
Proof. exact validate_crs_ok. Qed.
Print Assumptions C29_crs_heights.

Example C29_case : valid_rpc demo /\ forall v, rpc00b (samp_den demo) (nlong demo v) (nlat demo v) (nheight demo v) <> 0.
Proof. split; [exact demo_valid|]. intros v. unfold rpc00b, rpc00b_terms, demo. cbn. lra. Qed.

(** C30: refining by shift moves every projected pixel by the mean residual of the GCPs. *)
Theorem C30_moves : forall lstsq r gcps jis, valid_rpc r -> gcps <> [] -> sees_gcps r gcps jis ->
  exists r', refine_rpc lstsq r gcps Shift = Ok (Some r') /\ valid_rpc r' /\
    forall warp p, rpc_world_to_pixel warp r' p =
      (fadd (fst (rpc_world_to_pixel warp r p)) (Num (total res_j gcps jis / INR (length gcps))),
       fadd (snd (rpc_world_to_pixel warp r p)) (Num (total res_i gcps jis / INR (length gcps)))).
Proof. exact shift_moves. Qed.
Print Assumptions C30_moves.

(** C30: the residuals of the refined model have a zero mean. *)
Theorem C30_zero_mean : forall lstsq r r' gcps jis, valid_rpc r -> gcps <> [] -> sees_gcps r gcps jis ->
  refine_rpc lstsq r gcps Shift = Ok (Some r') ->
  exists jis', sees_gcps r' gcps jis' /\ total res_j gcps jis' = 0 /\ total res_i gcps jis' = 0.
Proof. exact shift_zero_mean. Qed.
Print Assumptions C30_zero_mean.

(** C30: a single GCP is seen exactly. *)
Theorem C30_single : forall lstsq r r' g, valid_rpc r -> (exists ji, sees r (g_xyz g) ji) ->
  refine_rpc lstsq r [g] Shift = Ok (Some r') -> sees r' (g_xyz g) (g_ji g).
Proof. exact shift_single. Qed.
Print Assumptions C30_single.

(** C30: refining again with the same GCPs changes nothing. *)
Theorem C30_idempotent : forall lstsq r r' gcps jis, valid_rpc r -> gcps <> [] -> sees_gcps r gcps jis ->
  refine_rpc lstsq r gcps Shift = Ok (Some r') -> refine_rpc lstsq r' gcps Shift = Ok (Some r').
Proof. exact shift_idempotent. Qed.
Print Assumptions C30_idempotent.

(** C30: [refine_rpc] leaves every existing object as it is, and returns a new one. *)
Theorem C30_input_unchanged : forall lstsq heap a gcps m heap' res, refine_obj lstsq heap a gcps m = (heap', res) ->
  (forall b v, nth_error heap b = Some v -> nth_error heap' b = Some v) /\
  (forall a', res = Ok (Some a') -> nth_error heap a' = None /\
     exists v v', nth_error heap a = Some v /\ nth_error heap' a' = Some v' /\ refine_rpc lstsq v gcps m = Ok (Some v')).
Proof. exact refine_obj_frame. Qed.
Print Assumptions C30_input_unchanged.

(** C30: but a camera factory that is refined replaces the RPC model in the parameter dictionary it was given. *)
Theorem C30_factory_input_refuted : forall lstsq,
  exists heap params find heap' params',
    refine_shared lstsq find Shift heap params = (heap', params', Ok tt) /\ params' <> params /\
    exists a a' v v', params = [a] /\ params' = [a'] /\ nth_error heap a = Some v /\ nth_error heap' a' = Some v' /\
      sees v (V3 0 0 0) (0, 0) /\ sees v' (V3 0 0 0) (5, 7).
Proof. exact shared_params_change. Qed.
Print Assumptions C30_factory_input_refuted.

Example C30_case : sees_gcps demo [Gcp (3, 4) (V3 1 1 0); Gcp (5, 6) (V3 2 2 9)] [(1, 1); (2, 2)].
Proof. constructor; [apply demo_sees|]. constructor; [apply demo_sees|constructor]. Qed.

(** C31: one affine function of the projected pixel per axis. *)
Theorem C31_affine : forall lstsq, solves_normal_equations lstsq -> forall r gcps jis,
  valid_rpc r -> (2 <= length gcps)%nat -> sees_gcps r gcps jis ->
  exists r' a b c d, refine_rpc lstsq r gcps ShiftDrift = Ok (Some r') /\ valid_rpc r' /\
    (forall warp p, rpc_world_to_pixel warp r' p =
      (fadd (fmul (Num a) (fst (rpc_world_to_pixel warp r p))) (Num b),
       fadd (fmul (Num c) (snd (rpc_world_to_pixel warp r p))) (Num d))).
Proof.
  intros lstsq Hl r gcps jis Hv Hn Hs. destruct (drift_affine lstsq Hl r gcps jis Hv Hn Hs) as (r' & a & b & c & d & H1 & H2 & H3 & _).
  exact (ex_intro _ r' (ex_intro _ a (ex_intro _ b (ex_intro _ c (ex_intro _ d (conj H1 (conj H2 H3))))))).
Qed.
Print Assumptions C31_affine.

(** C31: residuals sum to zero, and are orthogonal to the original projection. *)
Theorem C31_normal : forall lstsq, solves_normal_equations lstsq -> forall r r' gcps jis,
  valid_rpc r -> (2 <= length gcps)%nat -> sees_gcps r gcps jis -> refine_rpc lstsq r gcps ShiftDrift = Ok (Some r') ->
  exists jis', sees_gcps r' gcps jis' /\ length jis' = length jis /\
    total res_j gcps jis' = 0 /\ total res_i gcps jis' = 0 /\
    lsum (fun x e => x * e) (map fst jis) (map (fun p => res_j (fst p) (snd p)) (combine gcps jis')) = 0 /\
    lsum (fun x e => x * e) (map snd jis) (map (fun p => res_i (fst p) (snd p)) (combine gcps jis')) = 0.
Proof. exact drift_normal. Qed.
Print Assumptions C31_normal.

(** C31: no other affine correction of the original projections has a smaller sum of squared residuals. *)
Theorem C31_optimal : forall lstsq, solves_normal_equations lstsq -> forall r r' gcps jis jis',
  valid_rpc r -> (2 <= length gcps)%nat -> sees_gcps r gcps jis ->
  refine_rpc lstsq r gcps ShiftDrift = Ok (Some r') -> sees_gcps r' gcps jis' ->
  forall a b c d,
    total (fun g ji => res_j g ji ^ 2) gcps jis' <= total (fun g ji => (fst (g_ji g) - (a * fst ji + b)) ^ 2) gcps jis /\
    total (fun g ji => res_i g ji ^ 2) gcps jis' <= total (fun g ji => (snd (g_ji g) - (c * snd ji + d)) ^ 2) gcps jis.
Proof. exact drift_optimal. Qed.
Print Assumptions C31_optimal.

(** C31: GCPs related to the projections by some affine correction are seen exactly. *)
Theorem C31_exact : forall lstsq, solves_normal_equations lstsq -> forall r r' gcps jis a b c d,
  valid_rpc r -> (2 <= length gcps)%nat -> sees_gcps r gcps jis -> refine_rpc lstsq r gcps ShiftDrift = Ok (Some r') ->
  Forall2 (fun g ji => g_ji g = (a * fst ji + b, c * snd ji + d)) gcps jis ->
  Forall (fun g => sees r' (g_xyz g) (g_ji g)) gcps.
Proof. exact drift_exact. Qed.
Print Assumptions C31_exact.

(** A solver that meets the contract exists. *)
Example C31_case : solves_normal_equations lstsq_closed.
Proof. exact lstsq_closed_solves. Qed.

(** C49, for RPC refinement: refused exactly with no GCPs for a shift, or fewer than two for shift and drift. *)
Theorem C49_rpc_counts : forall lstsq m r gcps e, refine_rpc lstsq r gcps m = Err e <->
  e = ValueError /\ (length gcps < match m with Shift => 1 | ShiftDrift => 2 end)%nat.
Proof.
  intros. split; [|intros [-> H]; exact (refine_too_few lstsq m r gcps H)].
  intros H. destruct (refine_err lstsq m r gcps e H). now split.
Qed.
Print Assumptions C49_rpc_counts.
