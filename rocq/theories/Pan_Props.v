(** Property theorems: C41 statistics, C42 injection, C43 normalisation, C44 orthogonality, C45 weights, C46 validation. *)
From Coq Require Import List Reals ZArith Lra Lia Permutation.
From Verif Require Import Py Flt Pan_Model Pan_Spec Pan_Proof.
Import ListNotations.
Open Scope R_scope.

(** C41: for any tiles completing in any order, the statistics are the mean and unbiased covariance of all valid pixels. *)
Theorem C41_stats : forall tiles order vs, Permutation order tiles -> selects (concat tiles) vs -> (2 <= length vs)%nat ->
  exists means cov, get_stats (map Ok order) = Ok (means, cov) /\
  (forall k, means k = avg (band k) vs) /\ (forall k l, cov k l = Num (covar (band k) (band l) vs)).
Proof. exact stats_ok. Qed.
Print Assumptions C41_stats.

(** C41: a tile that can not be read always fails the whole with a RuntimeError, whichever order tiles complete in. *)
Theorem C41_failure : forall tiles, (exists e, In (Err e) tiles) <-> get_stats tiles = Err RuntimeError.
Proof. exact stats_fail. Qed.
Print Assumptions C41_failure.

(** C41, finding: with fewer than two valid pixels nothing is raised; the covariance is zero, or NaN. *)
Theorem C41_few_refuted : forall tiles vs, selects (concat tiles) vs -> (length vs <= 1)%nat ->
  exists means cov, get_stats (map Ok tiles) = Ok (means, cov) /\
  (length vs = 0%nat -> forall k l, means k = 0 /\ cov k l = Num 0) /\ (length vs = 1%nat -> forall k l, cov k l = Nan).
Proof. exact stats_few. Qed.
Print Assumptions C41_few_refuted.

(** Two tiles of pan and two MS bands, with two pixels not valid. *)
Definition px (p a b : R) : pixel := (Num p, [Num a; Num b]).
Definition tile1 : list pixel := [px 1 1 0; (Nan, [Num 1; Num 1]); px 2 (-1) 0].
Definition tile2 : list pixel := [(Num 1, [Num 1; Nan]); px 3 0 1; px 4 0 (-1)].
Definition pts : list (list R) := [[1; 1; 0]; [2; -1; 0]; [3; 0; 1]; [4; 0; -1]].

Example C41_case : selects (concat [tile1; tile2]) pts /\ (2 <= length pts)%nat /\ Permutation [tile2; tile1] [tile1; tile2].
Proof.
  split; [|split; [cbn; lia|apply perm_swap]]. cbn.
  apply (sel_valid 1 [1; 0]). apply sel_skip; [now left|]. apply (sel_valid 2 [-1; 0]). apply sel_skip; [right; cbn; auto|].
  apply (sel_valid 3 [0; 1]). apply (sel_valid 4 [0; -1]). constructor.
Qed.

(** C42: for any parameters, an output band is the input band plus its gain times the difference between the normalised and
    simulated pan. *)
Theorem C42_injection : forall p pan ms b,
  length (p_means p) = length ms -> length (p_coeffs p) = length ms -> (b < length ms)%nat ->
  nth b (process_pixel p pan ms) 0 =
  nth b ms 0 + nth 0 (nth b (p_coeffs p) []) 0 * (p_gain p * pan + p_bias p - dotl (p_weights p) ms).
Proof. exact process_value. Qed.
Print Assumptions C42_injection.

(** C42: with estimated parameters, the gain is the regression coefficient of the band on the simulated pan. *)
Theorem C42_gain : forall nb tiles order vs w p b pan ms,
  Permutation order tiles -> selects (concat tiles) vs -> (forall v, In v vs -> length v = S nb) -> (2 <= length vs)%nat ->
  pos_def nb (fun k l => band_cov vs (S k) (S l)) ->
  length w = nb -> (exists x, In x w /\ x <> 0) -> estimate nb (map Ok order) w = Ok p -> length ms = nb -> (b < nb)%nat ->
  nth b (process_pixel p pan ms) 0 = nth b ms 0 +
    covar (band (S b)) (sim_pan w) vs / covar (sim_pan w) (sim_pan w) vs * (p_gain p * pan + p_bias p - dotl w ms).
Proof. exact sharpen_gain. Qed.
Print Assumptions C42_gain.

(** C42: where the normalised pan is the simulated pan, the output is the input. *)
Theorem C42_identity : forall p pan ms, length (p_means p) = length ms -> length (p_coeffs p) = length ms ->
  p_gain p * pan + p_bias p = dotl (p_weights p) ms -> process_pixel p pan ms = ms.
Proof. exact process_identity. Qed.
Print Assumptions C42_identity.

Example C42_case : process_pixel (Params [10; 20] [[2]; [3; 5]] [1/2; 1/2] 2 1) 7 [4; 6] = [24; 36].
Proof. cbv [process_pixel gs_fwd gs_rev dotl combine suml fst snd tl app p_means p_coeffs p_weights p_gain p_bias]. repeat f_equal; field. Qed.

(** C43: the normalised pan has the mean and variance of the simulated pan, with a positive gain, and sharpening the data the
    parameters are estimated from leaves the band means unchanged. *)
Theorem C43_norm : forall nb tiles order vs w p,
  Permutation order tiles -> selects (concat tiles) vs -> (forall v, In v vs -> length v = S nb) -> (2 <= length vs)%nat ->
  pos_def nb (fun k l => band_cov vs (S k) (S l)) ->
  length w = nb -> covar (band 0) (band 0) vs <> 0 -> estimate nb (map Ok order) w = Ok p ->
  let pan' := fun v => p_gain p * band 0 v + p_bias p in
  avg pan' vs = avg (sim_pan w) vs /\ covar pan' pan' vs = covar (sim_pan w) (sim_pan w) vs /\ 0 <= p_gain p /\
  forall b, (b < nb)%nat -> avg (fun v => nth b (process_pixel p (band 0 v) (tl v)) 0) vs = avg (band (S b)) vs.
Proof. exact sharpen_norm. Qed.
Print Assumptions C43_norm.

Example C43_case : covar (band 0) (band 0) pts = 5 / 3 /\ exists p, estimate 2 (map Ok [tile2; tile1]) [1/4; 3/4] = Ok p.
Proof.
  split; [cbv [covar avg suml pts band nth length INR]; field|]. destruct C41_case as (H1 & H2 & H3).
  eexists. exact (estimate_ok 2 _ _ _ _ H3 H1 H2).
Qed.

(** C44: the Gram-Schmidt components of the data are uncorrelated. *)
Theorem C44_uncorrelated : forall nb w means vs i j,
  length w = nb -> length means = nb -> (forall v, In v vs -> length v = S nb) -> (2 <= length vs)%nat ->
  pos_def nb (fun k l => band_cov vs (S k) (S l)) -> (i <= nb)%nat -> (j <= nb)%nat -> i <> j ->
  covar (fun v => nth i (gs_fwd (tl v) means (gs_coeffs nb (fun k l => band_cov vs (S k) (S l)) w) [dotl w (tl v)]) 0)
        (fun v => nth j (gs_fwd (tl v) means (gs_coeffs nb (fun k l => band_cov vs (S k) (S l)) w) [dotl w (tl v)]) 0) vs = 0.
Proof. exact components_uncorrelated. Qed.
Print Assumptions C44_uncorrelated.

Example C44_case : pos_def 2 (fun k l => band_cov pts (S k) (S l)).
Proof.
  assert (E : forall i j, (i < 2)%nat -> (j < 2)%nat -> band_cov pts (S i) (S j) = if Nat.eqb i j then 2 / 3 else 0).
  { intros i j Hi Hj. destruct i as [|[|i]]; destruct j as [|[|j]]; try lia; cbv [band_cov covar avg suml pts band nth length INR Nat.eqb]; field. }
  split.
  - intros i j Hi Hj. rewrite !E by assumption. now rewrite Nat.eqb_sym.
  - intros u (i & Hi & Hu). cbn [sumn]. rewrite !E by lia. cbn [Nat.eqb].
    assert (0 < u 0%nat * u 0%nat + u 1%nat * u 1%nat); [|lra].
    pose proof (Rle_0_sqr (u 0%nat)) as P0. pose proof (Rle_0_sqr (u 1%nat)) as P1. unfold Rsqr in *.
    destruct i as [|[|i]]; [| |lia]; apply Rsqr_pos_lt in Hu; unfold Rsqr in Hu; lra.
Qed.

(** C45: the weights are one per band, non-negative and sum to one; or all NaN, when no band has a positive weight before
    normalisation. *)
Theorem C45_weights : forall lstsq nb cov ws, (forall a b, length (lstsq a b) = length b) -> (forall w, ws = Some w -> length w = nb) ->
  (exists w, get_weights lstsq nb cov ws = map Num w /\ length w = nb /\ Forall (fun x => 0 <= x) w /\ suml (fun y => y) w = 1) \/
  (get_weights lstsq nb cov ws = repeat Nan nb /\ Forall (fun x => x = 0) (raw_weights lstsq nb cov ws)).
Proof. exact weights_ok. Qed.
Print Assumptions C45_weights.

(** C45: weights of the user are used in proportion. *)
Theorem C45_user : forall lstsq nb cov w i, Forall (fun x => 0 <= x) w -> (exists x, In x w /\ x <> 0) -> (i < length w)%nat ->
  nth i (get_weights lstsq nb cov (Some w)) Nan = Num (nth i w 0 / suml (fun y => y) w).
Proof. exact weights_user. Qed.
Print Assumptions C45_user.

(** C45: bands whose first least squares estimate is not positive get no weight; if there are no negative estimates, the
    weights are in proportion to the estimates. *)
Theorem C45_estimate : forall lstsq nb cov i w, get_weights lstsq nb cov None = map Num w ->
  nth i (first_estimate lstsq nb cov) 0 <= 0 -> nth i w 0 = 0.
Proof. exact weights_positive_bands. Qed.
Print Assumptions C45_estimate.

Theorem C45_proportion : forall lstsq nb cov, Forall (fun x => 0 <= x) (first_estimate lstsq nb cov) ->
  get_weights lstsq nb cov None = get_weights lstsq nb cov (Some (first_estimate lstsq nb cov)).
Proof. exact weights_plain. Qed.
Print Assumptions C45_proportion.

(** C45, finding: all-zero user weights are accepted, and give NaN. *)
Theorem C45_zero_refuted : forall lstsq cov nb, (0 < nb)%nat ->
  validate_params 1 (repeat false nb) 1 None (Some (repeat 0 nb)) = Ok (default_indexes (repeat false nb), Some (repeat 0 nb)) /\
  get_weights lstsq nb cov (Some (repeat 0 nb)) = repeat Nan nb.
Proof. exact zero_weights. Qed.
Print Assumptions C45_zero_refuted.

Example C45_case : get_weights (fun _ b => b) 3 (fun _ l => nth l [0; 3; -1; 1] 0) None = [Num (3/4); Num 0; Num (1/4)].
Proof.
  cbv [get_weights raw_weights seq map anyb existsb Rneg orb nth forallb where_pos filter Rpos length set_at scatter clip0 negb andb fdiv suml].
  repeat match goal with |- context [Rlt_dec ?a ?b] => destruct (Rlt_dec a b); try lra end.
  cbn.
  repeat match goal with |- context [Rlt_dec ?a ?b] => destruct (Rlt_dec a b); try lra end.
  repeat match goal with |- context [Req_EM_T ?a ?b] => destruct (Req_EM_T a b); try lra end.
  repeat f_equal; field.
Qed.

(** C46: parameters are accepted exactly when indexes are in the images and weights, if any, are one per band and not
    negative; default indexes are the non-alpha bands in order.  Everything else is an OrthorityError. *)
Theorem C46_valid : forall pc alpha pi mi ws idx ws',
  validate_params pc alpha pi mi ws = Ok (idx, ws') <->
  (1 <= pi <= pc)%Z /\ chosen_indexes alpha mi idx /\ Forall (fun i => (1 <= i <= Z.of_nat (length alpha))%Z) idx /\
  ((ws = None \/ ws = Some []) /\ ws' = None \/
   exists w, ws = Some w /\ w <> [] /\ ws' = Some w /\ length w = length idx /\ Forall (fun x => 0 <= x) w).
Proof. exact validate_ok. Qed.
Print Assumptions C46_valid.

Theorem C46_error : forall pc alpha pi mi ws e, validate_params pc alpha pi mi ws = Err e -> e = OrthorityError.
Proof. exact validate_err. Qed.
Print Assumptions C46_error.

Example C46_case : validate_params 1 [false; false; false; true] 1 None None = Ok ([1; 2; 3]%Z, None) /\
  validate_params 1 [false] 2 None None = Err OrthorityError.
Proof. split; reflexivity. Qed.
