(** Specification of the RPC00B model and of least squares corrections. *)
From Coq Require Import List Reals.
From Verif Require Import Flt Mat Rpc_Model.
Import ListNotations.
Open Scope R_scope.

(** The terms of the RPC00B cubic polynomial in normalised longitude L, latitude P and height H, in the order of the
    standard. *)
Definition rpc00b_terms (L P H : R) : list R :=
  [1; L; P; H; L*P; L*H; P*H; L^2; P^2; H^2; P*L*H; L^3; L*P^2; L*H^2; L^2*P; P^3; P*H^2; L^2*H; P^2*H; H^3].

(** The value of the polynomial with given coefficients. *)
Fixpoint weighted (cs ts : list R) : R :=
  match cs, ts with c :: cs', t :: ts' => c * t + weighted cs' ts' | _, _ => 0 end.
Definition rpc00b (cs : list R) (L P H : R) : R := weighted cs (rpc00b_terms L P H).

(** Normalised coordinates of a point. *)
Definition nlong (r : rpc) (v : vec) : R := (vx v - long_off r) / long_scale r.
Definition nlat (r : rpc) (v : vec) : R := (vy v - lat_off r) / lat_scale r.
Definition nheight (r : rpc) (v : vec) : R := (vz v - height_off r) / height_scale r.

(** A valid RPC: 20 coefficients each and non-zero scales. *)
Definition valid_rpc (r : rpc) : Prop :=
  length (samp_num r) = 20%nat /\ length (samp_den r) = 20%nat /\
  length (line_num r) = 20%nat /\ length (line_den r) = 20%nat /\
  long_scale r <> 0 /\ lat_scale r <> 0 /\ height_scale r <> 0 /\ samp_scale r <> 0 /\ line_scale r <> 0.

(** The pixel [ji] where [r] sees [v]. *)
Definition sees (r : rpc) (v : vec) (ji : R * R) : Prop :=
  rpc_world_to_pixel None r (Num (vx v), Num (vy v), Num (vz v)) = (Num (fst ji), Num (snd ji)).

(** The pixels where [r] sees the GCPs. *)
Definition sees_gcps (r : rpc) (gcps : list gcp) (jis : list (R * R)) : Prop :=
  Forall2 (fun g ji => sees r (g_xyz g) ji) gcps jis.

(** Sum of [f] over GCPs and their projections. *)
Fixpoint total (f : gcp -> R * R -> R) (gcps : list gcp) (jis : list (R * R)) : R :=
  match gcps, jis with g :: gcps', ji :: jis' => f g ji + total f gcps' jis' | _, _ => 0 end.

(** Sample and line residuals of a GCP. *)
Definition res_j (g : gcp) (ji : R * R) : R := fst (g_ji g) - fst ji.
Definition res_i (g : gcp) (ji : R * R) : R := snd (g_ji g) - snd ji.

(** Contract of the solver: the normal equations of [y = m * x + c]. *)
Fixpoint lsum (f : R -> R -> R) (xs ys : list R) : R :=
  match xs, ys with x :: xs', y :: ys' => f x y + lsum f xs' ys' | _, _ => 0 end.
Definition solves_normal_equations (lstsq : list R -> list R -> R * R) : Prop :=
  forall xs ys, length xs = length ys ->
    let (m, c) := lstsq xs ys in
    lsum (fun x y => y - (m * x + c)) xs ys = 0 /\ lsum (fun x y => (y - (m * x + c)) * x) xs ys = 0.
