(** Proofs about the RPC model. *)
From Coq Require Import List Reals ZArith Bool Lra Lia.
From Verif Require Import Py Flt Mat Rpc_Model Rpc_Spec.
Import ListNotations.
Open Scope R_scope.

Ltac list20 c H :=
  do 20 (destruct c as [|? c]; [discriminate H|]); destruct c; [clear H|discriminate H].

Lemma poly_rpc00b c x y z : length c = 20%nat -> poly x y z c = rpc00b c x y z.
Proof. intros H. list20 c H. unfold poly, rpc00b, rpc00b_terms, weighted, nth. ring. Qed.

Lemma weighted_refine mc : forall num den ts, length num = length den ->
  weighted (refine_num mc num den) ts = fst mc * weighted num ts + snd mc * weighted den ts.
Proof.
  induction num as [|n num IH]; intros [|d den] ts H; try discriminate H.
  - cbn. destruct ts; ring.
  - destruct ts as [|t ts]; [cbn; ring|]. change (refine_num mc (n :: num) (d :: den)) with
      ((n * fst mc + d * snd mc) :: refine_num mc num den).
    cbn [weighted]. rewrite IH; [ring|]. now injection H.
Qed.

Lemma refine_num_length mc num den : length num = length den -> length (refine_num mc num den) = length num.
Proof. intros H. unfold refine_num, map2. rewrite map_length, combine_length, H. lia. Qed.

Lemma poly_refine mc num den x y z : length num = 20%nat -> length den = 20%nat ->
  poly x y z (refine_num mc num den) = fst mc * poly x y z num + snd mc * poly x y z den.
Proof.
  intros H1 H2. rewrite !poly_rpc00b; try assumption.
  - apply weighted_refine. congruence.
  - rewrite refine_num_length; congruence.
Qed.

Definition axis_value (p : fl * fl * fl) (num den : list R) (s o : R) : fl :=
  fadd (fmul (fdiv (polyf p num) (polyf p den)) (Num s)) (Num o).

(** The affine function of pixels for the affine function of normalised coordinates. *)
Definition pix_off (mc : R * R) (s o : R) : R := o - fst mc * o + s * snd mc.

Lemma axis_value_refine mc p num den s o : length num = 20%nat -> length den = 20%nat ->
  axis_value p (refine_num mc num den) den s o =
  fadd (fmul (Num (fst mc)) (axis_value p num den s o)) (Num (pix_off mc s o)).
Proof.
  intros H1 H2. unfold axis_value. destruct p as [[[|x] [|y]] [|z]]; try reflexivity.
  cbn [polyf fdiv]. destruct (Req_EM_T (poly x y z den) 0) as [E|E]; [reflexivity|].
  rewrite poly_refine by assumption. unfold fadd, fmul, flift2, pix_off. f_equal. field. exact E.
Qed.

Definition warped (warp : option (vec -> vec)) (p : fl * fl * fl) : fl * fl * fl :=
  match warp with
  | None => p
  | Some w => match p with
              | (Num x, Num y, Num z) => let q := w (V3 x y z) in (Num (vx q), Num (vy q), Num (vz q))
              | _ => (Nan, Nan, Nan)
              end
  end.

Definition norm_pt (r : rpc) (p : fl * fl * fl) : fl * fl * fl :=
  let '(x, y, z) := p in
  (normalise (long_off r) (long_scale r) x, normalise (lat_off r) (lat_scale r) y, normalise (height_off r) (height_scale r) z).

Lemma w2p_eq warp r p : rpc_world_to_pixel warp r p =
  (axis_value (norm_pt r (warped warp p)) (samp_num r) (samp_den r) (samp_scale r) (samp_off r),
   axis_value (norm_pt r (warped warp p)) (line_num r) (line_den r) (line_scale r) (line_off r)).
Proof. unfold rpc_world_to_pixel. fold (warped warp p). destruct (warped warp p) as [[x y] z]. reflexivity. Qed.

(** * C29 *)

Lemma normalise_num o s x : s <> 0 -> normalise o s (Num x) = Num ((x - o) / s).
Proof. intros H. unfold normalise. cbn. destruct (Req_EM_T s 0); [contradiction|reflexivity]. Qed.

Lemma norm_pt_num r v : valid_rpc r -> norm_pt r (fl_vec v) = (Num (nlong r v), Num (nlat r v), Num (nheight r v)).
Proof.
  intros (_ & _ & _ & _ & H1 & H2 & H3 & _). unfold norm_pt, fl_vec. now rewrite !normalise_num by assumption.
Qed.

Lemma rpc_value r v : valid_rpc r ->
  rpc00b (samp_den r) (nlong r v) (nlat r v) (nheight r v) <> 0 ->
  rpc00b (line_den r) (nlong r v) (nlat r v) (nheight r v) <> 0 ->
  rpc_world_to_pixel None r (fl_vec v) =
  (Num (rpc00b (samp_num r) (nlong r v) (nlat r v) (nheight r v) / rpc00b (samp_den r) (nlong r v) (nlat r v) (nheight r v)
        * samp_scale r + samp_off r),
   Num (rpc00b (line_num r) (nlong r v) (nlat r v) (nheight r v) / rpc00b (line_den r) (nlong r v) (nlat r v) (nheight r v)
        * line_scale r + line_off r)).
Proof.
  intros Hv H1 H2. rewrite w2p_eq. cbn [warped]. rewrite norm_pt_num by assumption.
  destruct Hv as (L1 & L2 & L3 & L4 & _). unfold axis_value. cbn [polyf fdiv].
  rewrite !poly_rpc00b by assumption.
  destruct (Req_EM_T _ 0) as [E|E] in |- *; [contradiction|].
  destruct (Req_EM_T _ 0) as [E'|E'] in |- *; [contradiction|]. reflexivity.
Qed.

Lemma rpc_undefined r v : valid_rpc r ->
  (fst (rpc_world_to_pixel None r (fl_vec v)) = Nan <-> rpc00b (samp_den r) (nlong r v) (nlat r v) (nheight r v) = 0) /\
  (snd (rpc_world_to_pixel None r (fl_vec v)) = Nan <-> rpc00b (line_den r) (nlong r v) (nlat r v) (nheight r v) = 0).
Proof.
  intros Hv. rewrite w2p_eq. cbn [warped fst snd]. rewrite norm_pt_num by assumption.
  destruct Hv as (L1 & L2 & L3 & L4 & _). unfold axis_value. cbn [polyf fdiv].
  rewrite !poly_rpc00b by assumption. split.
  - destruct (Req_EM_T _ 0); cbn; split; intros; try assumption; try reflexivity; try discriminate; contradiction.
  - destruct (Req_EM_T _ 0); cbn; split; intros; try assumption; try reflexivity; try discriminate; contradiction.
Qed.

Lemma rpc_crs w r v : rpc_world_to_pixel (Some w) r (fl_vec v) = rpc_world_to_pixel None r (fl_vec (w v)).
Proof. rewrite !w2p_eq. cbn [warped fl_vec]. destruct v. reflexivity. Qed.

Lemma rpc_nan warp r x y z : x = Nan \/ y = Nan \/ z = Nan -> rpc_world_to_pixel warp r (x, y, z) = (Nan, Nan).
Proof.
  intros H. rewrite w2p_eq. assert (E : forall num den s o, axis_value (norm_pt r (warped warp (x, y, z))) num den s o = Nan).
  { intros. unfold axis_value. destruct warp; destruct x, y, z; cbn [warped norm_pt]; unfold normalise; cbn;
    try reflexivity; try (destruct H as [H|[H|H]]; discriminate H);
    repeat (destruct (Req_EM_T _ 0); cbn; try reflexivity). }
  now rewrite !E.
Qed.

Lemma validate_crs_ok w r : validate_crs w r = Ok tt <->
  vz (w (V3 (long_off r) (lat_off r) 0)) = 0 /\ vz (w (V3 (long_off r) (lat_off r) 1)) = 1.
Proof.
  unfold validate_crs. cbn. destruct (Req_EM_T _ 0) as [E|E]; cbn; [|split; [discriminate|intros [? _]; contradiction]].
  destruct (Req_EM_T _ 1) as [F|F]; cbn; split; try discriminate; try (intros [_ ?]; contradiction); intros; auto.
Qed.

(** * Refinement *)

Lemma numbers_map {A} (f : A -> R) l : numbers (map (fun a => Num (f a)) l) = Some (map f l).
Proof. induction l as [|a l IH]; cbn; [reflexivity|]. now rewrite IH. Qed.

Lemma norm_axis_num {A} (f : A -> R) o s l : s <> 0 ->
  norm_axis o s (map (fun a => Num (f a)) l) = Some (map (fun a => (f a - o) / s) l).
Proof.
  intros H. unfold norm_axis. rewrite map_map.
  rewrite (map_ext _ (fun a => Num ((f a - o) / s))); [apply numbers_map|]. intros a. now apply normalise_num.
Qed.

Definition refined (r : rpc) (tj ti : R * R) : rpc :=
  Rpc (long_off r) (lat_off r) (height_off r) (long_scale r) (lat_scale r) (height_scale r)
      (samp_off r) (line_off r) (samp_scale r) (line_scale r)
      (refine_num tj (samp_num r) (samp_den r)) (samp_den r) (refine_num ti (line_num r) (line_den r)) (line_den r).

Lemma refined_w2p warp r tj ti p : valid_rpc r ->
  rpc_world_to_pixel warp (refined r tj ti) p =
  (fadd (fmul (Num (fst tj)) (fst (rpc_world_to_pixel warp r p))) (Num (pix_off tj (samp_scale r) (samp_off r))),
   fadd (fmul (Num (fst ti)) (snd (rpc_world_to_pixel warp r p))) (Num (pix_off ti (line_scale r) (line_off r)))).
Proof.
  intros (L1 & L2 & L3 & L4 & _). rewrite !w2p_eq. cbn [fst snd].
  rewrite <- !axis_value_refine by assumption. unfold refined. reflexivity.
Qed.

Lemma refined_valid r tj ti : valid_rpc r -> valid_rpc (refined r tj ti).
Proof.
  intros (L1 & L2 & L3 & L4 & H). unfold valid_rpc, refined. cbn [samp_num samp_den line_num line_den long_scale lat_scale height_scale samp_scale line_scale].
  rewrite !refine_num_length by congruence. tauto.
Qed.

Section Ref.
Variable lstsq : list R -> list R -> R * R.

Definition nj (r : rpc) (ji : R * R) : R := (fst ji - samp_off r) / samp_scale r.
Definition ni (r : rpc) (ji : R * R) : R := (snd ji - line_off r) / line_scale r.

Definition tform_j m r gcps jis := axis_tform lstsq m (map (nj r) jis) (map (fun g => nj r (g_ji g)) gcps).
Definition tform_i m r gcps jis := axis_tform lstsq m (map (ni r) jis) (map (fun g => ni r (g_ji g)) gcps).

Definition min_gcps (m : refine_method) : nat := match m with Shift => 1 | ShiftDrift => 2 end.

Lemma sees_map r gcps jis : sees_gcps r gcps jis ->
  map (fun g => rpc_world_to_pixel None r (fl_vec (g_xyz g))) gcps = map (fun ji => (Num (fst ji), Num (snd ji))) jis.
Proof. induction 1 as [|g ji gcps jis H _ IH]; [reflexivity|]. cbn [map]. rewrite IH. unfold sees in H. unfold fl_vec. now rewrite H. Qed.

Lemma refine_eq m r gcps jis : valid_rpc r -> (min_gcps m <= length gcps)%nat -> sees_gcps r gcps jis ->
  refine_rpc lstsq r gcps m = Ok (Some (refined r (tform_j m r gcps jis) (tform_i m r gcps jis))).
Proof.
  intros Hv Hn Hs. unfold refine_rpc. fold (min_gcps m).
  replace (Nat.ltb (length gcps) (min_gcps m)) with false by (symmetry; now apply Nat.ltb_ge).
  rewrite (sees_map _ _ _ Hs), !map_map. cbn [fst snd].
  destruct Hv as (_ & _ & _ & _ & _ & _ & _ & H1 & H2).
  rewrite (norm_axis_num (fun ji : R * R => fst ji)) by assumption.
  rewrite (norm_axis_num (fun ji : R * R => snd ji)) by assumption.
  rewrite (norm_axis_num (fun g => fst (g_ji g))) by assumption.
  rewrite (norm_axis_num (fun g => snd (g_ji g))) by assumption.
  reflexivity.
Qed.

Lemma refine_too_few m r gcps : (length gcps < min_gcps m)%nat -> refine_rpc lstsq r gcps m = Err ValueError.
Proof. intros H. unfold refine_rpc. fold (min_gcps m). now rewrite (proj2 (Nat.ltb_lt _ _) H). Qed.

Lemma refine_err m r gcps e : refine_rpc lstsq r gcps m = Err e -> (length gcps < min_gcps m)%nat /\ e = ValueError.
Proof.
  unfold refine_rpc. fold (min_gcps m). destruct (Nat.ltb _ _) eqn:E.
  - intros H. injection H as <-. split; [now apply Nat.ltb_lt|reflexivity].
  - intros H. destruct (norm_axis _ _ _) in H; [destruct (norm_axis _ _ _) in H|]; try discriminate H.
    destruct (norm_axis _ _ _) in H; [destruct (norm_axis _ _ _) in H|]; discriminate H.
Qed.

(** Projections of the refined model. *)
Definition app2 (a b c d : R) (ji : R * R) : R * R := (a * fst ji + b, c * fst (snd ji, 0) + d).

Lemma refined_sees r tj ti v ji : valid_rpc r -> sees r v ji ->
  sees (refined r tj ti) v (fst tj * fst ji + pix_off tj (samp_scale r) (samp_off r),
                            fst ti * snd ji + pix_off ti (line_scale r) (line_off r)).
Proof. intros Hv Hs. unfold sees in *. rewrite refined_w2p by assumption. rewrite Hs. reflexivity. Qed.

Lemma refined_sees_gcps r tj ti gcps jis : valid_rpc r -> sees_gcps r gcps jis ->
  sees_gcps (refined r tj ti) gcps
    (map (fun ji => (fst tj * fst ji + pix_off tj (samp_scale r) (samp_off r),
                     fst ti * snd ji + pix_off ti (line_scale r) (line_off r))) jis).
Proof. intros Hv. induction 1 as [|g ji gcps jis H _ IH]; [constructor|]. cbn [map]. constructor; [now apply refined_sees|exact IH]. Qed.

End Ref.

Lemma sees_gcps_length r gcps jis : sees_gcps r gcps jis -> length gcps = length jis.
Proof. induction 1; cbn; congruence. Qed.

Lemma sees_fun r v a b : sees r v a -> sees r v b -> a = b.
Proof. unfold sees. intros H1 H2. rewrite H1 in H2. injection H2 as E1 E2. destruct a, b. cbn in *. congruence. Qed.

Lemma sees_gcps_fun r gcps a b : sees_gcps r gcps a -> sees_gcps r gcps b -> a = b.
Proof.
  intros H. revert b. induction H as [|g ji gcps jis H _ IH]; intros b Hb; inversion Hb; subst; [reflexivity|].
  f_equal; [eapply sees_fun; eassumption|]. now apply IH.
Qed.

(** * Shift *)

Lemma mean_axis (f : R * R -> R) (fg : gcp -> R) o s gcps jis : s <> 0 -> length gcps = length jis -> gcps <> [] ->
  s * mean (map2 Rminus (map (fun g => (fg g - o) / s) gcps) (map (fun ji => (f ji - o) / s) jis)) =
  total (fun g ji => fg g - f ji) gcps jis / INR (length gcps).
Proof.
  intros Hs HL Hne. unfold mean.
  assert (EL : length (map2 Rminus (map (fun g => (fg g - o) / s) gcps) (map (fun ji => (f ji - o) / s) jis)) = length gcps).
  { unfold map2. rewrite map_length, combine_length, !map_length. lia. }
  rewrite EL.
  assert (ES : sum (map2 Rminus (map (fun g => (fg g - o) / s) gcps) (map (fun ji => (f ji - o) / s) jis)) * s =
               total (fun g ji => fg g - f ji) gcps jis).
  { clear EL Hne. revert jis HL. induction gcps as [|g gcps IH]; intros [|ji jis] HL; try discriminate HL; cbn.
    - ring.
    - cbn in HL. injection HL as HL. specialize (IH jis HL). unfold map2 in IH. rewrite <- IH. unfold sum. field. exact Hs. }
  rewrite <- ES. field. destruct gcps; [contradiction|]. apply not_0_INR. discriminate.
Qed.

Section Shift.
Variable lstsq : list R -> list R -> R * R.

Definition mean_res (f : gcp -> R * R -> R) (gcps : list gcp) (jis : list (R * R)) : R := total f gcps jis / INR (length gcps).

Lemma shift_tform r gcps jis : valid_rpc r -> gcps <> [] -> sees_gcps r gcps jis ->
  let tj := tform_j lstsq Shift r gcps jis in
  let ti := tform_i lstsq Shift r gcps jis in
  fst tj = 1 /\ pix_off tj (samp_scale r) (samp_off r) = mean_res res_j gcps jis /\
  fst ti = 1 /\ pix_off ti (line_scale r) (line_off r) = mean_res res_i gcps jis.
Proof.
  intros Hv Hne Hs. cbn zeta. destruct Hv as (_ & _ & _ & _ & _ & _ & _ & H1 & H2).
  unfold tform_j, tform_i, axis_tform, pix_off, mean_res. cbn [fst snd].
  pose proof (sees_gcps_length _ _ _ Hs) as HL. unfold nj, ni.
  rewrite (mean_axis (fun ji => fst ji) (fun g => fst (g_ji g))) by assumption.
  rewrite (mean_axis (fun ji => snd ji) (fun g => snd (g_ji g))) by assumption.
  unfold res_j, res_i. repeat split; ring.
Qed.

Lemma shift_moves r gcps jis : valid_rpc r -> gcps <> [] -> sees_gcps r gcps jis ->
  exists r', refine_rpc lstsq r gcps Shift = Ok (Some r') /\ valid_rpc r' /\
    forall warp p, rpc_world_to_pixel warp r' p =
      (fadd (fst (rpc_world_to_pixel warp r p)) (Num (mean_res res_j gcps jis)),
       fadd (snd (rpc_world_to_pixel warp r p)) (Num (mean_res res_i gcps jis))).
Proof.
  intros Hv Hne Hs. eexists. split; [|split].
  - apply refine_eq; [assumption| |exact Hs]. destruct gcps; [contradiction|cbn; lia].
  - now apply refined_valid.
  - intros warp p. rewrite refined_w2p by assumption.
    destruct (shift_tform r gcps jis Hv Hne Hs) as (E1 & E2 & E3 & E4). rewrite E1, E2, E3, E4.
    destruct (rpc_world_to_pixel warp r p) as [[|j] [|i]]; cbn; repeat f_equal; ring.
Qed.

Lemma total_shift (f : gcp -> R * R -> R) (sh : R * R -> R * R) d gcps jis : length gcps = length jis ->
  (forall g ji, f g (sh ji) = f g ji - d) -> total f gcps (map sh jis) = total f gcps jis - INR (length gcps) * d.
Proof.
  intros HL H. revert jis HL. induction gcps as [|g gcps IH]; intros [|ji jis] HL; try discriminate HL.
  - cbn. ring.
  - injection HL as HL. cbn [map total]. rewrite H, IH by assumption. cbn [length]. rewrite S_INR. ring.
Qed.

Lemma shift_sees r r' gcps jis : valid_rpc r -> gcps <> [] -> sees_gcps r gcps jis -> refine_rpc lstsq r gcps Shift = Ok (Some r') ->
  sees_gcps r' gcps (map (fun ji => (fst ji + mean_res res_j gcps jis, snd ji + mean_res res_i gcps jis)) jis).
Proof.
  intros Hv Hne Hs E. destruct (shift_moves r gcps jis Hv Hne Hs) as (r2 & E2 & _ & H). rewrite E in E2. injection E2 as <-.
  revert Hs. generalize (mean_res res_j gcps jis) (mean_res res_i gcps jis) H. intros a b H' Hs. clear - H' Hs.
  induction Hs as [|g ji gcps jis Hg _ IH]; [constructor|]. cbn [map]. constructor; [|exact IH].
  unfold sees in *. rewrite H', Hg. reflexivity.
Qed.

Lemma shift_zero_mean r r' gcps jis : valid_rpc r -> gcps <> [] -> sees_gcps r gcps jis ->
  refine_rpc lstsq r gcps Shift = Ok (Some r') ->
  exists jis', sees_gcps r' gcps jis' /\ total res_j gcps jis' = 0 /\ total res_i gcps jis' = 0.
Proof.
  intros Hv Hne Hs E. eexists. split; [eapply shift_sees; eassumption|].
  pose proof (sees_gcps_length _ _ _ Hs) as HL.
  assert (N : INR (length gcps) <> 0). { destruct gcps; [contradiction|]. apply not_0_INR. discriminate. }
  split.
  - rewrite (total_shift _ _ (mean_res res_j gcps jis)); [|assumption|intros; unfold res_j; cbn; ring].
    unfold mean_res. field. exact N.
  - rewrite (total_shift _ _ (mean_res res_i gcps jis)); [|assumption|intros; unfold res_i; cbn; ring].
    unfold mean_res. field. exact N.
Qed.

Lemma shift_single r r' g : valid_rpc r -> (exists ji, sees r (g_xyz g) ji) -> refine_rpc lstsq r [g] Shift = Ok (Some r') ->
  sees r' (g_xyz g) (g_ji g).
Proof.
  intros Hv [ji Hji] E.
  assert (Hs : sees_gcps r [g] [ji]) by (constructor; [assumption|constructor]).
  pose proof (shift_sees r r' [g] [ji] Hv ltac:(discriminate) Hs E) as H. cbn [map] in H. inversion H; subst.
  assert (EE : (fst ji + mean_res res_j [g] [ji], snd ji + mean_res res_i [g] [ji]) = g_ji g).
  { rewrite (surjective_pairing (g_ji g)). unfold mean_res, res_j, res_i. cbn. f_equal; field. }
  now rewrite <- EE.
Qed.

Lemma refine_num_id num den : length num = length den -> refine_num (1, 0) num den = num.
Proof.
  revert den. induction num as [|n num IH]; intros [|d den] H; try discriminate H; [reflexivity|].
  injection H as H. change (refine_num (1, 0) (n :: num) (d :: den)) with ((n * 1 + d * 0) :: refine_num (1, 0) num den).
  rewrite IH by assumption. f_equal. ring.
Qed.

Lemma shift_idempotent r r' gcps jis : valid_rpc r -> gcps <> [] -> sees_gcps r gcps jis ->
  refine_rpc lstsq r gcps Shift = Ok (Some r') -> refine_rpc lstsq r' gcps Shift = Ok (Some r').
Proof.
  intros Hv Hne Hs E. destruct (shift_zero_mean r r' gcps jis Hv Hne Hs E) as (jis' & Hs' & Z1 & Z2).
  destruct (shift_moves r gcps jis Hv Hne Hs) as (r2 & E2 & Hv' & _). rewrite E in E2. injection E2 as <-.
  rewrite (refine_eq lstsq Shift r' gcps jis' Hv' ltac:(destruct gcps; [contradiction|cbn; lia]) Hs').
  destruct (shift_tform r' gcps jis' Hv' Hne Hs') as (T1 & T2 & T3 & T4).
  unfold mean_res in T2, T4. rewrite Z1 in T2. rewrite Z2 in T4.
  destruct Hv' as (L1 & L2 & L3 & L4 & _ & _ & _ & S1 & S2).
  assert (Ej : tform_j lstsq Shift r' gcps jis' = (1, 0)).
  { rewrite (surjective_pairing (tform_j _ _ _ _ _)). rewrite T1. f_equal.
    unfold pix_off in T2. rewrite T1 in T2.
    apply (Rmult_eq_reg_l (samp_scale r')); [|assumption]. lra. }
  assert (Ei : tform_i lstsq Shift r' gcps jis' = (1, 0)).
  { rewrite (surjective_pairing (tform_i _ _ _ _ _)). rewrite T3. f_equal.
    unfold pix_off in T4. rewrite T3 in T4.
    apply (Rmult_eq_reg_l (line_scale r')); [|assumption]. lra. }
  rewrite Ej, Ei. do 2 f_equal. unfold refined. rewrite !refine_num_id by congruence. now destruct r'.
Qed.
End Shift.

(** * Shift and drift *)

Lemma lsum_axis (fa : R -> R -> R) (fx : R * R -> R) (fg : gcp -> R) gcps jis :
  lsum fa (map fx jis) (map fg gcps) = total (fun g ji => fa (fx ji) (fg g)) gcps jis.
Proof.
  revert jis. induction gcps as [|g gcps IH]; intros [|ji jis]; try reflexivity. cbn. now rewrite IH.
Qed.

Lemma total_ext f g gcps jis : (forall a b, f a b = g a b) -> total f gcps jis = total g gcps jis.
Proof. intros H. revert jis. induction gcps as [|x gcps IH]; intros [|y jis]; try reflexivity. cbn. now rewrite H, IH. Qed.

Lemma total_lin a b f g gcps jis : total (fun x y => a * f x y + b * g x y) gcps jis = a * total f gcps jis + b * total g gcps jis.
Proof. revert jis. induction gcps as [|x gcps IH]; intros [|y jis]; cbn; try ring. rewrite IH. ring. Qed.

Lemma total_nonneg f gcps jis : (forall a b, 0 <= f a b) -> 0 <= total f gcps jis.
Proof.
  intros H. revert jis. induction gcps as [|x gcps IH]; intros [|y jis]; cbn; try lra. specialize (H x y). specialize (IH jis). lra.
Qed.

Lemma total_map f h gcps jis : total f gcps (map h jis) = total (fun g ji => f g (h ji)) gcps jis.
Proof. revert jis. induction gcps as [|x gcps IH]; intros [|y jis]; try reflexivity. cbn. now rewrite IH. Qed.

Lemma optimal_axis (x : R * R -> R) (y : gcp -> R) a b gcps jis :
  total (fun g ji => y g - (a * x ji + b)) gcps jis = 0 ->
  total (fun g ji => (y g - (a * x ji + b)) * x ji) gcps jis = 0 ->
  forall a' b', total (fun g ji => (y g - (a * x ji + b)) ^ 2) gcps jis <= total (fun g ji => (y g - (a' * x ji + b')) ^ 2) gcps jis.
Proof.
  intros H1 H2 a' b'.
  rewrite (total_ext (fun g ji => (y g - (a' * x ji + b')) ^ 2)
    (fun g ji => 1 * (1 * (y g - (a * x ji + b)) ^ 2 + 1 * ((a - a') * x ji + (b - b')) ^ 2) +
                 2 * ((a - a') * ((y g - (a * x ji + b)) * x ji) + (b - b') * (y g - (a * x ji + b))))) by (intros; ring).
  rewrite total_lin, total_lin, total_lin, H1, H2.
  pose proof (total_nonneg (fun (g : gcp) ji => ((a - a') * x ji + (b - b')) ^ 2) gcps jis ltac:(intros; apply pow2_ge_0)). lra.
Qed.

Lemma total_scal s f gcps jis : total (fun x y => s * f x y) gcps jis = s * total f gcps jis.
Proof. revert jis. induction gcps as [|x gcps IH]; intros [|y jis]; cbn; try ring. rewrite IH. ring. Qed.

(** Normal equations of one axis, in pixels. *)
Lemma normal_axis lstsq (x : R * R -> R) (y : gcp -> R) o s gcps jis :
  solves_normal_equations lstsq -> s <> 0 -> length gcps = length jis ->
  let t := lstsq (map (fun ji => (x ji - o) / s) jis) (map (fun g => (y g - o) / s) gcps) in
  total (fun g ji => y g - (fst t * x ji + pix_off t s o)) gcps jis = 0 /\
  total (fun g ji => (y g - (fst t * x ji + pix_off t s o)) * x ji) gcps jis = 0.
Proof.
  intros Hl Hs HL. cbn zeta.
  specialize (Hl (map (fun ji => (x ji - o) / s) jis) (map (fun g => (y g - o) / s) gcps) ltac:(rewrite !map_length; congruence)).
  destruct (lstsq _ _) as [m c]. rewrite !lsum_axis in Hl. destruct Hl as [H1 H2]. unfold pix_off. cbn [fst snd].
  assert (E1 : total (fun g ji => y g - (m * x ji + (o - m * o + s * c))) gcps jis = 0).
  { rewrite (total_ext _ (fun g ji => s * ((y g - o) / s - (m * ((x ji - o) / s) + c)))) by (intros; field; exact Hs).
    rewrite total_scal, H1. ring. }
  split; [exact E1|].
  rewrite (total_ext _ (fun g ji => (s * s) * (((y g - o) / s - (m * ((x ji - o) / s) + c)) * ((x ji - o) / s)) +
                                    o * (y g - (m * x ji + (o - m * o + s * c))))) by (intros; field; exact Hs).
  rewrite total_lin, H2, E1. ring.
Qed.

Section Drift.
Variable lstsq : list R -> list R -> R * R.
Hypothesis Hl : solves_normal_equations lstsq.

Lemma drift_affine r gcps jis : valid_rpc r -> (2 <= length gcps)%nat -> sees_gcps r gcps jis ->
  exists r' a b c d, refine_rpc lstsq r gcps ShiftDrift = Ok (Some r') /\ valid_rpc r' /\
    (forall warp p, rpc_world_to_pixel warp r' p =
      (fadd (fmul (Num a) (fst (rpc_world_to_pixel warp r p))) (Num b),
       fadd (fmul (Num c) (snd (rpc_world_to_pixel warp r p))) (Num d))) /\
    sees_gcps r' gcps (map (fun ji => (a * fst ji + b, c * snd ji + d)) jis) /\
    (total (fun g ji => fst (g_ji g) - (a * fst ji + b)) gcps jis = 0 /\
     total (fun g ji => (fst (g_ji g) - (a * fst ji + b)) * fst ji) gcps jis = 0) /\
    (total (fun g ji => snd (g_ji g) - (c * snd ji + d)) gcps jis = 0 /\
     total (fun g ji => (snd (g_ji g) - (c * snd ji + d)) * snd ji) gcps jis = 0).
Proof.
  intros Hv Hn Hs. set (tj := tform_j lstsq ShiftDrift r gcps jis). set (ti := tform_i lstsq ShiftDrift r gcps jis).
  exists (refined r tj ti), (fst tj), (pix_off tj (samp_scale r) (samp_off r)), (fst ti), (pix_off ti (line_scale r) (line_off r)).
  pose proof (sees_gcps_length _ _ _ Hs) as HL.
  pose proof Hv as (_ & _ & _ & _ & _ & _ & _ & S1 & S2).
  split; [|split; [|split; [|split; [|split]]]].
  - now apply refine_eq.
  - now apply refined_valid.
  - intros. now apply refined_w2p.
  - now apply refined_sees_gcps.
  - exact (normal_axis lstsq (fun ji => fst ji) (fun g => fst (g_ji g)) _ _ gcps jis Hl S1 HL).
  - exact (normal_axis lstsq (fun ji => snd ji) (fun g => snd (g_ji g)) _ _ gcps jis Hl S2 HL).
Qed.

Lemma drift_normal r r' gcps jis : valid_rpc r -> (2 <= length gcps)%nat -> sees_gcps r gcps jis ->
  refine_rpc lstsq r gcps ShiftDrift = Ok (Some r') ->
  exists jis', sees_gcps r' gcps jis' /\ length jis' = length jis /\
    total res_j gcps jis' = 0 /\ total res_i gcps jis' = 0 /\
    lsum (fun x e => x * e) (map fst jis) (map (fun p => res_j (fst p) (snd p)) (combine gcps jis')) = 0 /\
    lsum (fun x e => x * e) (map snd jis) (map (fun p => res_i (fst p) (snd p)) (combine gcps jis')) = 0.
Proof.
  intros Hv Hn Hs E. destruct (drift_affine r gcps jis Hv Hn Hs) as (r2 & a & b & c & d & E2 & _ & _ & H & (J1 & J2) & I1 & I2).
  rewrite E in E2. injection E2 as <-. eexists. split; [exact H|]. split; [apply map_length|].
  split; [rewrite total_map; exact J1|]. split; [rewrite total_map; exact I1|].
  split.
  - rewrite <- J2. clear. revert jis. induction gcps as [|g gcps IH]; intros [|ji jis]; try reflexivity.
    cbn [map combine lsum total fst snd]. rewrite IH. unfold res_j. cbn [fst]. ring.
  - rewrite <- I2. clear. revert jis. induction gcps as [|g gcps IH]; intros [|ji jis]; try reflexivity.
    cbn [map combine lsum total fst snd]. rewrite IH. unfold res_i. cbn [fst snd]. ring.
Qed.

Lemma drift_optimal r r' gcps jis jis' : valid_rpc r -> (2 <= length gcps)%nat -> sees_gcps r gcps jis ->
  refine_rpc lstsq r gcps ShiftDrift = Ok (Some r') -> sees_gcps r' gcps jis' ->
  forall a b c d,
    total (fun g ji => res_j g ji ^ 2) gcps jis' <= total (fun g ji => (fst (g_ji g) - (a * fst ji + b)) ^ 2) gcps jis /\
    total (fun g ji => res_i g ji ^ 2) gcps jis' <= total (fun g ji => (snd (g_ji g) - (c * snd ji + d)) ^ 2) gcps jis.
Proof.
  intros Hv Hn Hs E Hs' a' b' c' d'.
  destruct (drift_affine r gcps jis Hv Hn Hs) as (r2 & a & b & c & d & E2 & _ & _ & H & (J1 & J2) & I1 & I2).
  rewrite E in E2. injection E2 as <-. rewrite (sees_gcps_fun _ _ _ _ Hs' H), !total_map. unfold res_j, res_i. cbn [fst snd].
  split.
  - exact (optimal_axis (fun ji => fst ji) (fun g => fst (g_ji g)) a b gcps jis J1 J2 a' b').
  - exact (optimal_axis (fun ji => snd ji) (fun g => snd (g_ji g)) c d gcps jis I1 I2 c' d').
Qed.

Lemma total_sq_zero f gcps jis : length gcps = length jis -> total (fun g ji => f g ji ^ 2) gcps jis <= 0 ->
  Forall2 (fun g ji => f g ji = 0) gcps jis.
Proof.
  revert jis. induction gcps as [|g gcps IH]; intros [|ji jis] HL H; try discriminate HL; [constructor|].
  injection HL as HL. cbn [total] in H.
  pose proof (total_nonneg (fun g ji => f g ji ^ 2) gcps jis ltac:(intros; apply pow2_ge_0)).
  pose proof (pow2_ge_0 (f g ji)). constructor.
  - assert (E : f g ji ^ 2 = 0) by lra. destruct (Req_dec (f g ji) 0) as [|Z]; [assumption|]. exfalso. apply (pow_nonzero _ 2 Z E).
  - apply IH; [assumption|lra].
Qed.

(** If some affine correction is exact, the refinement is. *)
Lemma drift_exact r r' gcps jis a b c d : valid_rpc r -> (2 <= length gcps)%nat -> sees_gcps r gcps jis ->
  refine_rpc lstsq r gcps ShiftDrift = Ok (Some r') ->
  Forall2 (fun g ji => g_ji g = (a * fst ji + b, c * snd ji + d)) gcps jis ->
  Forall (fun g => sees r' (g_xyz g) (g_ji g)) gcps.
Proof.
  intros Hv Hn Hs E HA.
  destruct (drift_normal r r' gcps jis Hv Hn Hs E) as (jis' & Hs' & _).
  destruct (drift_optimal r r' gcps jis jis' Hv Hn Hs E Hs' a b c d) as [Oj Oi].
  assert (Zj : total (fun g ji => (fst (g_ji g) - (a * fst ji + b)) ^ 2) gcps jis = 0).
  { clear - HA. induction HA as [|g ji gcps jis H _ IH]; [reflexivity|]. cbn [total]. rewrite IH, H. cbn [fst]. ring. }
  assert (Zi : total (fun g ji => (snd (g_ji g) - (c * snd ji + d)) ^ 2) gcps jis = 0).
  { clear - HA. induction HA as [|g ji gcps jis H _ IH]; [reflexivity|]. cbn [total]. rewrite IH, H. cbn [snd]. ring. }
  rewrite Zj in Oj. rewrite Zi in Oi. pose proof (sees_gcps_length _ _ _ Hs') as HL.
  apply total_sq_zero in Oj; [|exact HL]. apply total_sq_zero in Oi; [|exact HL]. clear - Oj Oi Hs'.
  induction Hs' as [|g ji gcps jis H _ IH]; [constructor|]. inversion Oj; subst. inversion Oi; subst. constructor; [|now apply IH].
  unfold res_j, res_i in *. assert (EE : ji = g_ji g). { destruct ji, (g_ji g). cbn in *. f_equal; lra. } now rewrite <- EE.
Qed.
End Drift.

(** A solver that meets the contract: the closed form of the least squares line. *)
Definition lstsq_closed (xs ys : list R) : R * R :=
  let n := INR (length xs) in
  let mx := sum xs / n in
  let my := sum ys / n in
  let sxx := lsum (fun x _ => (x - mx) * (x - mx)) xs ys in
  let sxy := lsum (fun x y => (x - mx) * (y - my)) xs ys in
  let m := if Req_EM_T sxx 0 then 0 else sxy / sxx in
  (m, my - m * mx).

Lemma lsum_lin a b f g xs ys : lsum (fun x y => a * f x y + b * g x y) xs ys = a * lsum f xs ys + b * lsum g xs ys.
Proof. revert ys. induction xs as [|x xs IH]; intros [|y ys]; cbn; try ring. rewrite IH. ring. Qed.
Lemma lsum_ext f g xs ys : (forall a b, f a b = g a b) -> lsum f xs ys = lsum g xs ys.
Proof. intros H. revert ys. induction xs as [|x xs IH]; intros [|y ys]; try reflexivity. cbn. now rewrite H, IH. Qed.
Lemma lsum_fst xs ys : length xs = length ys -> lsum (fun x _ => x) xs ys = sum xs.
Proof. revert ys. induction xs as [|x xs IH]; intros [|y ys] H; try discriminate H; [reflexivity|]. injection H as H. cbn. now rewrite IH. Qed.
Lemma lsum_snd xs ys : length xs = length ys -> lsum (fun _ y => y) xs ys = sum ys.
Proof. revert ys. induction xs as [|x xs IH]; intros [|y ys] H; try discriminate H; [reflexivity|]. injection H as H. cbn. now rewrite IH. Qed.
Lemma lsum_const c xs ys : length xs = length ys -> lsum (fun _ _ => c) xs ys = INR (length xs) * c.
Proof.
  revert ys. induction xs as [|x xs IH]; intros [|y ys] H; try discriminate H; [cbn; ring|]. injection H as H.
  cbn [lsum length]. rewrite IH by assumption. rewrite S_INR. ring.
Qed.
Lemma lsum_sq_zero f xs ys : lsum (fun x y => f x y * f x y) xs ys = 0 -> forall g, lsum (fun x y => f x y * g x y) xs ys = 0.
Proof.
  assert (NN : forall xs ys, 0 <= lsum (fun x y => f x y * f x y) xs ys).
  { clear. intros xs. induction xs as [|x xs IH]; intros [|y ys]; cbn; try lra. specialize (IH ys). pose proof (Rle_0_sqr (f x y)). unfold Rsqr in *. lra. }
  revert ys. induction xs as [|x xs IH]; intros [|y ys] H g; try reflexivity. cbn [lsum] in *.
  pose proof (Rle_0_sqr (f x y)) as Q. unfold Rsqr in Q. specialize (NN xs ys).
  assert (E : f x y * f x y = 0) by lra. assert (E' : f x y = 0) by (destruct (Rmult_integral _ _ E); assumption).
  rewrite IH by lra. rewrite E'. ring.
Qed.

Lemma lstsq_closed_solves : solves_normal_equations lstsq_closed.
Proof.
  intros xs ys HL. unfold lstsq_closed. cbv zeta.
  set (n := INR (length xs)). set (mx := sum xs / n). set (my := sum ys / n).
  set (sxx := lsum (fun x _ => (x - mx) * (x - mx)) xs ys). set (sxy := lsum (fun x y => (x - mx) * (y - my)) xs ys).
  set (m := if Req_EM_T sxx 0 then 0 else sxy / sxx).
  destruct xs as [|x0 xs0]; [destruct ys; [cbn; split; reflexivity|discriminate HL]|].
  assert (Hn : n <> 0) by (apply not_0_INR; discriminate).
  set (xs := x0 :: xs0) in *. clearbody xs. clear x0 xs0.
  assert (X0 : lsum (fun x _ => x - mx) xs ys = 0).
  { rewrite (lsum_ext _ (fun x (y : R) => 1 * x + (-1) * mx)) by (intros; ring).
    rewrite (lsum_lin 1 (-1) (fun x _ => x) (fun _ _ => mx)), lsum_fst, lsum_const by assumption.
    unfold mx. fold n. field. exact Hn. }
  assert (Y0 : lsum (fun _ y => y - my) xs ys = 0).
  { rewrite (lsum_ext _ (fun x y => 1 * y + (-1) * my)) by (intros; ring).
    rewrite (lsum_lin 1 (-1) (fun _ y => y) (fun _ _ => my)), lsum_snd, lsum_const by assumption.
    unfold my. fold n. field. exact Hn. }
  assert (N1 : lsum (fun x y => y - (m * x + (my - m * mx))) xs ys = 0).
  { rewrite (lsum_ext _ (fun x y => 1 * (y - my) + (- m) * (x - mx))) by (intros; ring).
    rewrite (lsum_lin 1 (- m) (fun _ y => y - my) (fun x _ => x - mx)), X0, Y0. ring. }
  split; [exact N1|].
  assert (M : sxy - m * sxx = 0).
  { unfold m. destruct (Req_EM_T sxx 0) as [Z|Z].
    - unfold sxy. rewrite (lsum_sq_zero (fun x _ => x - mx)); [lra|]. exact Z.
    - field. exact Z. }
  rewrite (lsum_ext _ (fun x y => 1 * (1 * ((x - mx) * (y - my)) + (- m) * ((x - mx) * (x - mx))) + mx * (y - (m * x + (my - m * mx))))) by (intros; ring).
  rewrite (lsum_lin 1 mx (fun x y => 1 * ((x - mx) * (y - my)) + (- m) * ((x - mx) * (x - mx))) (fun x y => y - (m * x + (my - m * mx)))), N1.
  rewrite (lsum_lin 1 (- m) (fun x y => (x - mx) * (y - my)) (fun x _ => (x - mx) * (x - mx))). fold sxy sxx. lra.
Qed.

(** * Objects *)

Lemma set_obj_other heap a v b : (b < a)%nat -> (b < length heap)%nat -> nth_error (set_obj heap a v) b = nth_error heap b.
Proof.
  intros H1 H2. unfold set_obj. rewrite nth_error_app1 by (rewrite firstn_length; lia).
  rewrite <- (firstn_skipn a heap) at 2. symmetry. apply nth_error_app1. rewrite firstn_length. lia.
Qed.

Lemma set_obj_last (heap : list rpc) (v v' : rpc) : set_obj (heap ++ [v]) (length heap) v' = heap ++ [v'].
Proof.
  unfold set_obj. rewrite skipn_all2 by (rewrite app_length; cbn; lia).
  rewrite firstn_app, Nat.sub_diag, firstn_all. cbn [firstn]. now rewrite app_nil_r.
Qed.

Lemma refine_obj_frame lstsq heap a gcps m heap' res : refine_obj lstsq heap a gcps m = (heap', res) ->
  (forall b v, nth_error heap b = Some v -> nth_error heap' b = Some v) /\
  (forall a', res = Ok (Some a') -> nth_error heap a' = None /\
     exists v v', nth_error heap a = Some v /\ nth_error heap' a' = Some v' /\ refine_rpc lstsq v gcps m = Ok (Some v')).
Proof.
  unfold refine_obj. destruct (nth_error heap a) as [v|] eqn:E; [|intros H; injection H as <- <-; split; [auto|discriminate]].
  destruct (refine_rpc lstsq v gcps m) as [[v'|]|e] eqn:F; intros H; injection H as <- <-;
    [|split; [auto|discriminate]|split; [auto|discriminate]].
  rewrite set_obj_last. split.
  - intros b w Hb. rewrite nth_error_app1; [assumption|]. apply nth_error_Some. congruence.
  - intros a' Ha. injection Ha as <-. split; [apply nth_error_None; lia|].
    exists v, v'. split; [reflexivity|]. split; [|assumption]. rewrite nth_error_app2, Nat.sub_diag by lia. reflexivity.
Qed.

(** A small RPC: sample = longitude, line = latitude, and a constant denominator. *)
Definition zeros (n : nat) : list R := repeat 0 n.
Definition demo : rpc :=
  Rpc 0 0 0 1 1 1 0 0 1 1 (0 :: 1 :: zeros 18) (1 :: zeros 19) (0 :: 0 :: 1 :: zeros 17) (1 :: zeros 19).

Lemma demo_valid : valid_rpc demo.
Proof. unfold valid_rpc, demo. cbn. repeat split; lra. Qed.

Lemma demo_sees x y z : sees demo (V3 x y z) (x, y).
Proof.
  unfold sees. change (Num (vx (V3 x y z)), Num (vy (V3 x y z)), Num (vz (V3 x y z))) with (fl_vec (V3 x y z)).
  rewrite rpc_value by (first [exact demo_valid | unfold rpc00b, rpc00b_terms, demo, nlong, nlat, nheight; cbn; lra]).
  unfold rpc00b, rpc00b_terms, demo, nlong, nlat, nheight. cbn. f_equal; f_equal; field.
Qed.

Lemma shared_params_change lstsq :
  exists heap params find heap' params',
    refine_shared lstsq find Shift heap params = (heap', params', Ok tt) /\ params' <> params /\
    exists a a' v v', params = [a] /\ params' = [a'] /\ nth_error heap a = Some v /\ nth_error heap' a' = Some v' /\
      sees v (V3 0 0 0) (0, 0) /\ sees v' (V3 0 0 0) (5, 7).
Proof.
  set (g := Gcp (5, 7) (V3 0 0 0)).
  assert (Hs : sees_gcps demo [g] [(0, 0)]) by (constructor; [apply demo_sees|constructor]).
  destruct (shift_moves lstsq demo [g] _ demo_valid ltac:(discriminate) Hs) as (r' & E & _ & _).
  exists [demo], [0%nat], (fun _ => [g]). eexists. eexists. split.
  - cbn [refine_shared]. unfold refine_obj. cbn [nth_error]. rewrite E. cbn. reflexivity.
  - split; [discriminate|]. exists 0%nat, 1%nat, demo, r'. repeat (split; [reflexivity|]). split; [apply demo_sees|].
    exact (shift_single lstsq demo r' g demo_valid (ex_intro _ _ (demo_sees 0 0 0)) E).
Qed.
