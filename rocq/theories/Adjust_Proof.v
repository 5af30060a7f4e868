(** Proofs about refined RPC camera factories. *)
From Coq Require Import String List Reals ZArith Bool Lia Lra.
From Verif Require Import Py Py_Proof Flt Mat Rpc_Model Rpc_Spec Rpc_Proof Factory_Model Factory_Spec Factory_Proof Read_Model Read_Spec Read_Proof Frame_Model Cam_Model Cam_Spec Rcam_Model Rcam_Spec Rcam_Proof
  Adjust_Model Adjust_Spec.
From Verif Require Table_Proof Exif_Proof Cam_Proof SceneDoc_Proof.
Import ListNotations.
Open Scope string_scope.
Open Scope list_scope.
Open Scope R_scope.
Local Arguments String.eqb : simpl never.

Ltac pairs := cbn; apply f_equal2; try reflexivity; apply (f_equal Num); ring.

(** * GCPs *)

Lemma sees_pixel : forall r v ji, valid_rpc r -> (sees r v ji <-> rpc_pixel r v (Num (fst ji), Num (snd ji))).
Proof.
  intros r v ji V. unfold sees. change (Num (vx v), Num (vy v), Num (vz v)) with (fl_vec v). pose proof (finite_pixel r v V) as H. split.
  - intros <-. exact H.
  - intros H'. exact (rpc_pixel_fun _ _ _ _ H H').
Qed.

Lemma fit_position : forall g, g_xyz (fit_gcp g) = position g /\ g_ji (fit_gcp g) = og_ji g.
Proof. intros g. unfold fit_gcp, position. destruct (og_xyz g) as [[x y] z]. split; reflexivity. Qed.

Lemma seen_sees : forall r g jis, valid_rpc r -> (seen_gcps r g jis <-> sees_gcps r (map fit_gcp g) jis).
Proof.
  intros r g jis V. split; intros H.
  - induction H as [|a ji g jis H _ IH]; cbn; constructor; [|exact IH]. apply sees_pixel; [exact V|]. rewrite (proj1 (fit_position a)). exact H.
  - remember (map fit_gcp g) as l eqn:E. revert g E. induction H as [|a ji l jis H _ IH]; intros [|x g] E; try discriminate; [constructor|].
    cbn in E. injection E as -> ->. constructor; [|apply IH; reflexivity]. rewrite <- (proj1 (fit_position x)). apply sees_pixel; assumption.
Qed.

Lemma total_over : forall (f : gcp -> R * R -> R) (h : R * R -> R * R -> R) g jis, (forall a ji, f a ji = h (g_ji a) ji) ->
  total f (map fit_gcp g) jis = sum_over h g jis.
Proof.
  intros f h g jis E. revert jis. induction g as [|a g IH]; intros [|ji jis]; cbn; try reflexivity. rewrite E, IH, (proj2 (fit_position a)). reflexivity.
Qed.

Lemma seen_length : forall r g jis, seen_gcps r g jis -> List.length g = List.length jis.
Proof. intros r g jis H. induction H; cbn; congruence. Qed.

(** * Dictionaries *)

Lemma to_dict_means : forall t, means_rpc (RpcDict (rpc_to_dict t)) (fst t).
Proof.
  intros [r [b n]]. split; [split|].
  - intros k Hk. cbn in Hk |- *. tauto.
  - intros k Hk. cbn in Hk |- *. tauto.
  - cbv zeta. repeat split.
Qed.

Lemma refine_shape : forall lstsq r g m r', refine_rpc lstsq r g m = Ok (Some r') ->
  r' = Rpc (long_off r) (lat_off r) (height_off r) (long_scale r) (lat_scale r) (height_scale r) (samp_off r) (line_off r) (samp_scale r) (line_scale r)
         (samp_num r') (samp_den r) (line_num r') (line_den r).
Proof.
  intros lstsq r g m r'. unfold refine_rpc. destruct (Nat.ltb _ _); [discriminate|].
  destruct (norm_axis _ _ _); [destruct (norm_axis _ _ _)|]; try discriminate. destruct (norm_axis _ _ _); [destruct (norm_axis _ _ _)|]; try discriminate.
  intros [= <-]. reflexivity.
Qed.

Lemma means_num : forall d r k v, means_rpc (RpcDict d) r -> In k coeff_names -> complete (dset k v d).
Proof.
  intros d r k v ((K1 & K2) & _) Hk. split.
  - intros k' Hk'. apply In_dkeys_dset. right. apply K1, Hk'.
  - intros k' Hk'. apply In_dkeys_dset in Hk'. destruct Hk' as [->|Hk']; [|apply K2, Hk']. apply in_or_app. right. apply in_or_app. left. exact Hk.
Qed.

Lemma means_num2 : forall d r k v k' v', means_rpc (RpcDict d) r -> In k coeff_names -> In k' coeff_names -> complete (dset k' v' (dset k v d)).
Proof.
  intros d r k v k' v' M Hk Hk'. destruct (means_num d r k v M Hk) as [K1 K2]. split.
  - intros n Hn. apply In_dkeys_dset. right. apply K1, Hn.
  - intros n Hn. apply In_dkeys_dset in Hn. destruct Hn as [->|Hn]; [|apply K2, Hn]. apply in_or_app. right. apply in_or_app. left. exact Hk'.
Qed.

Lemma refine_dict_means : forall lstsq m d g r r', means_rpc (RpcDict d) r -> refine_rpc lstsq r (map fit_gcp g) m = Ok (Some r') ->
  exists d', refine_dict lstsq m d g = Ok d' /\ means_rpc (RpcDict d') r'.
Proof.
  intros lstsq m d g r r' M E. unfold refine_dict. pose proof M as M'. destruct M' as [K H]. rewrite (dict_rpc d r K H). cbn [bind]. rewrite E. cbn [bind].
  eexists. split; [reflexivity|]. rewrite (refine_shape _ _ _ _ _ E). split.
  - eapply (means_num2 _ r _ _ _ _ M); cbn; tauto.
  - unfold holds_rpc in *. cbn [long_off lat_off height_off long_scale lat_scale height_scale samp_off line_off samp_scale line_scale samp_num samp_den line_num line_den].
    destruct H as (A1 & A2 & A3 & A4 & A5 & A6 & A7 & A8 & A9 & A10 & A11 & A12 & A13 & A14).
    repeat (first [rewrite dget_dset_eq|rewrite dget_dset_neq by discriminate]). repeat (split; [first [assumption|reflexivity]|]). first [assumption|reflexivity].
Qed.

(** And conversely. *)
Lemma refine_dict_inv : forall lstsq m d g r d', means_rpc (RpcDict d) r -> refine_dict lstsq m d g = Ok d' ->
  exists r', refine_rpc lstsq r (map fit_gcp g) m = Ok (Some r') /\ means_rpc (RpcDict d') r'.
Proof.
  intros lstsq m d g r d' M E. pose proof M as M'. destruct M' as [K H]. pose proof E as E'. unfold refine_dict in E. rewrite (dict_rpc d r K H) in E. cbn [bind] in E.
  destruct (refine_rpc lstsq r (map fit_gcp g) m) as [[r'|]|] eqn:Er; cbn [bind] in E; try discriminate. exists r'. split; [reflexivity|].
  destruct (refine_dict_means _ _ _ _ _ _ M Er) as (d2 & E2 & M2). congruence.
Qed.

(** * The model of an image, call by call *)
Section Chain.
Variable lstsq : list R -> list R -> R * R.
Variable name : string.

Inductive chain : rpc -> list call -> rpc -> Prop :=
| ch_end : forall r, chain r [] r
| ch_get : forall r n cs r', chain r cs r' -> chain r (Get n :: cs) r'
| ch_skip : forall r m gcps cs r', (forall g, ~ gcps_for gcps name g) -> chain r cs r' -> chain r (Refine m gcps :: cs) r'
| ch_refine : forall r m gcps g r1 cs r', gcps_for gcps name g -> refine_rpc lstsq r (map fit_gcp g) m = Ok (Some r1) -> chain r1 cs r' ->
    chain r (Refine m gcps :: cs) r'.

(** The projection by a model as an affine function of that of another. *)
Definition affine (r rk : rpc) (a b c d : R) : Prop :=
  valid_rpc rk /\ long_off rk = long_off r /\ lat_off rk = lat_off r /\
  forall warp p, rpc_world_to_pixel warp rk p = (fadd (fmul (Num a) (fst (rpc_world_to_pixel warp r p))) (Num b), fadd (fmul (Num c) (snd (rpc_world_to_pixel warp r p))) (Num d)).

Lemma affine_refl : forall r, valid_rpc r -> affine r r 1 0 1 0.
Proof. intros r V. repeat split; try apply V. intros warp p. destruct (rpc_world_to_pixel warp r p) as [[|j] [|i]]; pairs. Qed.

Lemma affine_trans : forall r r1 r2 a b c d a' b' c' d', affine r r1 a b c d -> affine r1 r2 a' b' c' d' -> affine r r2 (a' * a) (a' * b + b') (c' * c) (c' * d + d').
Proof.
  intros r r1 r2 a b c d a' b' c' d' (V1 & L1 & P1 & H1) (V2 & L2 & P2 & H2). split; [exact V2|]. split; [congruence|]. split; [congruence|].
  intros warp p. rewrite H2, H1. destruct (rpc_world_to_pixel warp r p) as [[|j] [|i]]; pairs.
Qed.

Lemma affine_sees : forall r rk a b c d v ji, affine r rk a b c d -> sees r v ji -> sees rk v (a * fst ji + b, c * snd ji + d).
Proof. intros r rk a b c d v ji (_ & _ & _ & H) S. unfold sees in *. rewrite H, S. reflexivity. Qed.

Lemma affine_seen : forall r rk a b c d g jis, valid_rpc r -> affine r rk a b c d -> seen_gcps r g jis -> seen_gcps rk g (map (fun ji => (a * fst ji + b, c * snd ji + d)) jis).
Proof.
  intros r rk a b c d g jis V A H. assert (Vk : valid_rpc rk) by apply A. induction H as [|x ji g jis H _ IH]; [constructor|]. cbn [map]. constructor; [|exact IH].
  apply sees_pixel; [exact Vk|]. eapply affine_sees; [exact A|]. apply sees_pixel; assumption.
Qed.

Lemma refine_affine : forall m r g jis, valid_rpc r -> (min_gcps m <= List.length g)%nat -> seen_gcps r g jis ->
  exists r' a b c d, refine_rpc lstsq r (map fit_gcp g) m = Ok (Some r') /\ affine r r' a b c d.
Proof.
  intros m r g jis V L H. apply (proj1 (seen_sees _ _ _ V)) in H. assert (L' : (min_gcps m <= List.length (map fit_gcp g))%nat) by (rewrite map_length; exact L).
  pose proof (refine_eq lstsq m r _ jis V L' H) as E. eexists. do 4 eexists. split; [exact E|]. split; [apply refined_valid, V|]. split; [reflexivity|]. split; [reflexivity|].
  intros warp p. apply (refined_w2p warp r _ _ p V).
Qed.

Lemma refined_enough : forall m r g r', refine_rpc lstsq r g m = Ok (Some r') -> (min_gcps m <= List.length g)%nat.
Proof. intros m r g r' E. destruct (Nat.le_gt_cases (min_gcps m) (List.length g)) as [L|L]; [exact L|]. rewrite (refine_too_few lstsq m r g L) in E. discriminate. Qed.

Notation all_seen := (all_seen name).

Lemma chain_affine : forall cs r rk rn a b c d, valid_rpc r -> all_seen r cs -> affine r rk a b c d -> chain rk cs rn -> exists a' b' c' d', affine r rn a' b' c' d'.
Proof.
  intros cs r rk rn a b c d V S A H. revert a b c d A. induction H as [rk|rk n cs rn H IH|rk m gcps cs rn Hn H IH|rk m gcps g r1 cs rn Hg E H IH]; intros a b c d A.
  - eauto 6.
  - eapply IH; [|exact A]. intros m gcps g Hin. apply (S m gcps g). right. exact Hin.
  - eapply IH; [|exact A]. intros m' gcps' g Hin. apply (S m' gcps' g). right. exact Hin.
  - destruct (S m gcps g (or_introl eq_refl) Hg) as (jis & Hs). pose proof (affine_seen _ _ _ _ _ _ _ _ V A Hs) as Hk.
    pose proof (refined_enough _ _ _ _ E) as L. rewrite map_length in L. destruct (refine_affine m rk g _ (proj1 A) L Hk) as (r2 & a2 & b2 & c2 & d2 & E2 & A2).
    rewrite E in E2. injection E2 as <-. eapply IH; [|exact (affine_trans _ _ _ _ _ _ _ _ _ _ _ A A2)]. intros m' gcps' g' Hin. apply (S m' gcps' g'). right. exact Hin.
Qed.

(** Shifts. *)
Definition shifted (r rk : rpc) (s t : R) : Prop := affine r rk 1 s 1 t.

Notation all_shifts := (all_shifts name).

Lemma gcps_for_fun : forall G (gcps : dict (list G)) n a b, gcps_for gcps n a -> gcps_for gcps n b -> a = b.
Proof. intros G gcps n a b [A _] [B _]. apply get_by_name_iff in A, B. congruence. Qed.

Lemma shift_step : forall r rk s t g jis r1, valid_rpc r -> g <> [] -> shifted r rk s t -> seen_gcps r g jis -> refine_rpc lstsq rk (map fit_gcp g) Shift = Ok (Some r1) ->
  shifted r r1 (sum_over columns g jis / INR (List.length g)) (sum_over rows g jis / INR (List.length g)).
Proof.
  intros r rk s t g jis r1 V Ng A Hs E. pose proof (affine_seen _ _ _ _ _ _ _ _ V A Hs) as Hk. pose proof (proj1 A) as Vk.
  apply (proj1 (seen_sees _ _ _ Vk)) in Hk. assert (Nm : map fit_gcp g <> []) by (destruct g; [contradiction|discriminate]).
  destruct (shift_moves lstsq rk _ _ Vk Nm Hk) as (r2 & E2 & V2 & H2). rewrite E in E2. injection E2 as <-.
  destruct A as (_ & LA & PA & HA). pose proof (refine_shape _ _ _ _ _ E) as Sh. split; [exact V2|]. split; [rewrite Sh; exact LA|]. split; [rewrite Sh; exact PA|].
  assert (Nn : INR (List.length g) <> 0) by (destruct g; [contradiction|]; apply not_0_INR; discriminate).
  pose proof (seen_length _ _ _ Hs) as Ln.
  assert (G : forall (f : R * R -> R * R -> R) (w : R), (forall x ji, f x (1 * fst ji + s, 1 * snd ji + t) = f x ji - w) ->
    sum_over f g (map (fun ji => (1 * fst ji + s, 1 * snd ji + t)) jis) / INR (List.length g) + w = sum_over f g jis / INR (List.length g)).
  { intros f w Hf. assert (X : sum_over f g (map (fun ji => (1 * fst ji + s, 1 * snd ji + t)) jis) = sum_over f g jis - INR (List.length g) * w).
    { clear - Hf Ln. revert jis Ln. induction g as [|x g IH]; intros [|ji jis] Ln; try discriminate Ln; [cbn; ring|]. injection Ln as Ln. cbn [map sum_over List.length]. rewrite Hf, (IH _ Ln), S_INR. ring. }
    rewrite X. field. exact Nn. }
  intros warp p. rewrite H2, HA. unfold mean_res. rewrite map_length.
  rewrite (total_over res_j columns), (total_over res_i rows) by (intros; reflexivity).
  rewrite <- (G columns s) by (intros; unfold columns; cbn; ring). rewrite <- (G rows t) by (intros; unfold rows; cbn; ring).
  destruct (rpc_world_to_pixel warp r p) as [[|j] [|i]]; pairs.
Qed.

Lemma last_cons : forall k cs m g, last_refined name cs m g -> last_refined name (k :: cs) m g.
Proof. intros k cs m g (b & gc & a & -> & H). exists (k :: b), gc, a. split; [reflexivity|exact H]. Qed.

Lemma chain_shift : forall cs r rk rn s t, valid_rpc r -> all_seen r cs -> all_shifts cs -> shifted r rk s t -> chain rk cs rn ->
  exists s' t', shifted r rn s' t' /\ ((never_refined name cs /\ s' = s /\ t' = t) \/ (exists m g, last_refined name cs m g /\ mean_offset r g s' t')).
Proof.
  intros cs r rk rn s t V S Al A H. revert s t A. induction H as [rk|rk n cs rn H IH|rk m gcps cs rn Hn H IH|rk m gcps g r1 cs rn Hg E H IH]; intros s t A.
  - exists s, t. split; [exact A|]. left. split; [intros m gcps g []|auto].
  - destruct (fun X Y => IH X Y s t A) as (s' & t' & A' & D); [intros m gcps g Hin; apply (S m gcps g); right; exact Hin|intros m gcps g Hin; apply (Al m gcps g); right; exact Hin|].
    exists s', t'. split; [exact A'|]. destruct D as [(N & D)|(m & g & L & D)]; [left|right].
    + split; [|exact D]. intros m gcps g [X|X]; [discriminate|exact (N m gcps g X)].
    + exists m, g. split; [apply last_cons, L|exact D].
  - destruct (fun X Y => IH X Y s t A) as (s' & t' & A' & D); [intros m' gcps' g Hin; apply (S m' gcps' g); right; exact Hin|intros m' gcps' g Hin; apply (Al m' gcps' g); right; exact Hin|].
    exists s', t'. split; [exact A'|]. destruct D as [(N & D)|(m' & g & L & D)]; [left|right].
    + split; [|exact D]. intros m' gcps' g [X|X]; [injection X as <- <-; apply Hn|exact (N m' gcps' g X)].
    + exists m', g. split; [apply last_cons, L|exact D].
  - destruct (S m gcps g (or_introl eq_refl) Hg) as (jis & Hs). pose proof (Al m gcps g (or_introl eq_refl) Hg) as ->.
    pose proof (shift_step _ _ _ _ _ _ _ V (proj2 Hg) A Hs E) as A1.
    destruct (fun X Y => IH X Y _ _ A1) as (s' & t' & A' & D); [intros m' gcps' g' Hin; apply (S m' gcps' g'); right; exact Hin|intros m' gcps' g' Hin; apply (Al m' gcps' g'); right; exact Hin|].
    exists s', t'. split; [exact A'|]. right. destruct D as [(N & -> & ->)|(m' & g' & L & D)].
    + exists Shift, g. split; [exists [], gcps, cs; split; [reflexivity|split; [exact Hg|exact N]]|]. exists jis. split; [exact Hs|].
      assert (Nn : INR (List.length g) <> 0) by (destruct Hg as [_ Ng]; destruct g; [contradiction|]; apply not_0_INR; discriminate). split; field; exact Nn.
    + exists m', g'. split; [apply last_cons, L|exact D].
Qed.

(** Residuals after the last refinement. *)
Lemma chain_last : forall cs r rk rn a b c d m g, valid_rpc r -> all_seen r cs -> affine r rk a b c d -> chain rk cs rn -> last_refined name cs m g ->
  exists r1 a' b' c' d', affine r r1 a' b' c' d' /\ refine_rpc lstsq r1 (map fit_gcp g) m = Ok (Some rn).
Proof.
  intros cs r rk rn a b c d m g V S A H (bf & gcps & af & -> & Hg & Na).
  assert (Skip : forall af r0 rn, (forall m' gcps' g', In (Refine m' gcps') af -> ~ gcps_for gcps' name g') -> chain r0 af rn -> rn = r0).
  { clear. intros af r0 rn N H. induction H as [|r n cs r' H IH|r m gcps cs r' Hn H IH|r m gcps g r1 cs r' Hg E H IH]; [reflexivity| | |].
    - apply IH. intros m' gcps' g' X. apply (N m' gcps' g'). right. exact X.
    - apply IH. intros m' gcps' g' X. apply (N m' gcps' g'). right. exact X.
    - exfalso. exact (N m gcps g (or_introl eq_refl) Hg). }
  revert rk a b c d A H. induction bf as [|k bf IH]; intros rk a b c d A H.
  - cbn in H. inversion H; subst; [exfalso; match goal with X : forall g, ~ _ |- _ => exact (X g Hg) end|].
    match goal with X : gcps_for gcps name ?g' |- _ => pose proof (gcps_for_fun _ _ _ _ _ Hg X) as <- end.
    match goal with X : chain ?x af rn |- _ => rewrite (Skip af x rn Na X) end. do 5 eexists. split; [exact A|assumption].
  - assert (S' : all_seen r (bf ++ Refine m gcps :: af)) by (intros m' gcps' g' Hin; apply (S m' gcps' g'); right; exact Hin).
    cbn in H. inversion H as [|? ? ? ? H1|? m1 ? ? ? Hn H1|? m1 gc1 g1 r1 ? ? Hg1 E1 H1]; subst; try (eapply IH; eassumption).
    destruct (S m1 gc1 g1 (or_introl eq_refl) Hg1) as (jis & Hs). pose proof (affine_seen _ _ _ _ _ _ _ _ V A Hs) as Hk.
    pose proof (refined_enough _ _ _ _ E1) as L. rewrite map_length in L. destruct (refine_affine m1 rk g1 _ (proj1 A) L Hk) as (r2 & a2 & b2 & c2 & d2 & E2 & A2).
    rewrite E1 in E2. injection E2 as <-. eapply IH; [exact S'|exact (affine_trans _ _ _ _ _ _ _ _ _ _ _ A A2)|exact H1].
Qed.

Hypothesis solves : solves_normal_equations lstsq.

Lemma zero_residuals : forall r1 rn m g jis, valid_rpc r1 -> g <> [] -> seen_gcps r1 g jis -> refine_rpc lstsq r1 (map fit_gcp g) m = Ok (Some rn) ->
  exists jis', seen_gcps rn g jis' /\ sum_over columns g jis' = 0 /\ sum_over rows g jis' = 0.
Proof.
  intros r1 rn m g jis V Ng Hs E. pose proof (refined_enough _ _ _ _ E) as L. apply (proj1 (seen_sees _ _ _ V)) in Hs.
  assert (Vn : valid_rpc rn). { rewrite (refine_eq lstsq m r1 _ jis V L Hs) in E. injection E as <-. apply refined_valid, V. }
  assert (X : exists jis', sees_gcps rn (map fit_gcp g) jis' /\ total res_j (map fit_gcp g) jis' = 0 /\ total res_i (map fit_gcp g) jis' = 0).
  { destruct m.
    - apply (shift_zero_mean lstsq r1 rn _ jis V); [destruct g; [contradiction|discriminate]|exact Hs|exact E].
    - destruct (drift_normal lstsq solves r1 rn _ jis V L Hs E) as (jis' & A1 & _ & A2 & A3 & _). exists jis'. auto. }
  destruct X as (jis' & A1 & A2 & A3). exists jis'. split; [apply seen_sees; assumption|]. rewrite (total_over res_j columns) in A2 by reflexivity. rewrite (total_over res_i rows) in A3 by reflexivity. auto.
Qed.
End Chain.

(** * Reading *)
Lemma read_last : forall F V (filename : F -> string) (task : F -> res (string * V)) w files d name f v,
  reads_as task w files (Ok d) -> (forall f n v, task f = Ok (n, v) -> n = filename f) -> last_file filename files name f -> task f = Ok (name, v) -> dget name d = Some v.
Proof.
  intros F V filename task w files d name f v (items & Fi & _ & Hg) Hn (bf & af & -> & Ef & Na) Et. rewrite Hg.
  apply Forall2_app_inv_l in Fi. destruct Fi as (i1 & i2 & F1 & F2 & ->). inversion F2 as [|? it ? i3 E3 F3]; subst. rewrite Et in E3. injection E3 as <-.
  apply Table_Proof.last_named_split. exists i1, i3. split; [reflexivity|]. intros Hin. apply in_map_iff in Hin. destruct Hin as ([k x] & Ek & Hin). cbn in Ek. subst k.
  assert (X : exists g, In g af /\ task g = Ok (filename f, x)).
  { clear - F3 Hin. induction F3 as [|g y af i3 E Fr IH]; [destruct Hin|]. destruct Hin as [->|Hin]; [exists g; split; [left; reflexivity|exact E]|]. destruct (IH Hin) as (g' & A & B). exists g'. split; [right; exact A|exact B]. }
  destruct X as (g & Hg1 & Eg). apply (Na g Hg1). symmetry. exact (Hn _ _ _ Eg).
Qed.

Section Factory.
Variable C : Type.
Variable parse_crs : string -> res C.
Variable rpc_crs : C.
Variable O : Type.
Variable no_options : O.
Variable warp : C -> C -> list vec -> list vec.
Variable lstsq : list R -> list R -> R * R.
Variable crs : crs_arg C.
Variable options : option O.
Variable F : Type.
Variable filename : F -> string.
Notation create := (create C parse_crs rpc_crs O no_options warp crs options).
Notation calls := (calls C parse_crs rpc_crs O no_options warp lstsq crs options).
Notation w2p := (rpc_w2p_call C rpc_crs O warp).

Lemma images_state : forall open_im files evs st, from_images C O F filename open_im files evs = Some (Ok st) -> (forall f, In f files -> last_part (filename f) (filename f)) ->
  rinv create st /\ filenames C O st = first_names (map filename files) /\
  (forall name f w h t, last_file filename files name f -> open_im f = Ok (w, h, Some t) -> dget name (r_param st) = Some ((w, h), rpc_to_dict t)).
Proof.
  intros open_im files evs st E Hb. unfold from_images in E. destruct (read_im_rpc_param filename open_im files evs) as [[d|]|] eqn:Er; try discriminate. injection E as <-.
  apply rpc_reads in Er. set (task := fun f => _) in Er.
  assert (Hn : forall f n v, task f = Ok (n, v) -> n = filename f). { intros f n v. unfold task. destruct (open_im f) as [[s [t|]]|]; try discriminate. intros [= <- <-]. reflexivity. }
  assert (Kd : map fst d = first_names (map filename files)).
  { destruct Er as (items & Fi & -> & _). f_equal. clear - Fi Hn. induction Fi as [|f [n v] files items E Fr IH]; [reflexivity|]. cbn. f_equal; [exact (Hn _ _ _ E)|exact IH]. }
  assert (Km : dkeys (map (fun p => (fst p, (fst (snd p), rpc_to_dict (snd (snd p))))) d) = first_names (map filename files)).
  { rewrite <- Kd. clear. induction d as [|[k v] d IH]; [reflexivity|]. cbn. rewrite IH. reflexivity. }
  split; [|split].
  - apply rpc_init_inv. split; [rewrite Km; apply NoDup_first_names|]. intros n Hin. rewrite Km in Hin. apply In_first_names, in_map_iff in Hin. destruct Hin as (f & <- & Hf).
    apply path_name_last, Hb, Hf.
  - exact Km.
  - intros name f w h t L Eo. pose proof L as (bf & af & _ & Ef & _). cbn [r_param Factory_Model.rpc_init].
    rewrite (Exif_Proof.dget_map _ _ (fun v => (fst v, rpc_to_dict (snd v)))).
    rewrite (read_last _ _ filename task _ files d name f (w, h, t) Er Hn L); [reflexivity|]. unfold task. rewrite Eo, Ef. reflexivity.
Qed.

Lemma calls_chain : forall name cs st st' size d r, rinv create st -> calls cs st = Ok st' -> dget name (r_param st) = Some (size, d) -> means_rpc (RpcDict d) r ->
  rinv create st' /\ exists d' r', dget name (r_param st') = Some (size, d') /\ means_rpc (RpcDict d') r' /\ chain lstsq name r cs r'.
Proof.
  intros name. induction cs as [|[n|m gcps] cs IH]; intros st st' size d r I E Hd M.
  - cbn in E. injection E as <-. split; [exact I|]. exists d, r. split; [exact Hd|]. split; [exact M|constructor].
  - cbn [Adjust_Model.calls] in E. destruct (rpc_get_inv create n st I) as [I1 I2]. destruct (IH _ _ size d r I1 E) as (J & d' & r' & A1 & A2 & A3); [congruence|exact M|].
    split; [exact J|]. exists d', r'. split; [exact A1|]. split; [exact A2|constructor; exact A3].
  - cbn [Adjust_Model.calls] in E. destruct (rpc_refine (refine_dict lstsq m) gcps st) as [st1 [u|]] eqn:Er; [|discriminate].
    destruct (rpc_refine_spec create (refine_dict lstsq m) gcps st I) as (I1 & _ & I3). rewrite Er in I1, I3. cbn [fst snd] in I1, I3. destruct u.
    destruct (I3 eq_refl name size d Hd) as [K1 K2]. destruct (get_by_name name gcps) as [[|x g]|] eqn:Eg.
    + assert (N : forall g, ~ gcps_for gcps name g). { intros g [Hg Ng]. apply get_by_name_iff in Hg. congruence. }
      destruct (IH _ _ size d r I1 E (K2 N) M) as (J & d' & r' & A1 & A2 & A3). split; [exact J|]. exists d', r'. split; [exact A1|]. split; [exact A2|apply ch_skip; assumption].
    + assert (Hg : gcps_for gcps name (x :: g)) by (split; [apply get_by_name_iff; exact Eg|discriminate]).
      destruct (K1 _ Hg) as (d1 & E1 & Hd1). destruct (refine_dict_inv _ _ _ _ _ _ M E1) as (r1 & Er1 & M1).
      destruct (IH _ _ size d1 r1 I1 E Hd1 M1) as (J & d' & r' & A1 & A2 & A3). split; [exact J|]. exists d', r'. split; [exact A1|]. split; [exact A2|]. eapply ch_refine; eassumption.
    + assert (N : forall g, ~ gcps_for gcps name g). { intros g [Hg Ng]. apply get_by_name_iff in Hg. congruence. }
      destruct (IH _ _ size d r I1 E (K2 N) M) as (J & d' & r' & A1 & A2 & A3). split; [exact J|]. exists d', r'. split; [exact A1|]. split; [exact A2|apply ch_skip; assumption].
Qed.

Variable warp1 : C -> C -> vec -> vec.
Hypothesis warp_pointwise : forall a b l, warp a b l = map (warp1 a b) l.
Hypothesis warp_same : forall a v, warp1 a a v = v.

Notation world_of := (world_crs rpc_crs).

Lemma camera_after : forall open_im files evs st0 cs st name f w h r e crs',
  from_images C O F filename open_im files evs = Some (Ok st0) -> (forall f, In f files -> last_part (filename f) (filename f)) ->
  last_file filename files name f -> open_im f = Ok (w, h, Some (r, e)) -> valid_rpc r -> asks_crs parse_crs crs crs' -> (forall c, crs' = Some c -> keeps_heights (warp1 rpc_crs c) r) ->
  all_seen name r cs -> calls cs st0 = Ok st ->
  exists cam rn, snd (rpc_get create name st) = Ok cam /\ rc_w _ _ cam = w /\ rc_h _ _ cam = h /\ camera_crs C rpc_crs O cam = world_of crs' /\ rc_rpc _ _ cam = rn /\ chain lstsq name r cs rn.
Proof.
  clear warp_same. intros open_im files evs st0 cs st name f w h r e crs' E0 Hb L Eo V Ac Kh S Ec. destruct (images_state _ _ _ _ E0 Hb) as (I & _ & Hd).
  specialize (Hd name f w h (r, e) L Eo). destruct (calls_chain name cs st0 st _ _ r I Ec Hd (to_dict_means (r, e))) as (J & d' & rn & A1 & A2 & A3).
  destruct (chain_affine lstsq name cs r r rn 1 0 1 0 V S (affine_refl r V) A3) as (a & b & c & d & (_ & L1 & L2 & _)).
  destruct (init_ok C parse_crs rpc_crs O no_options warp warp1 warp_pointwise w h (RpcDict d') rn options crs crs' A2 Ac) as (cam & Ei & R1 & R2 & R3 & _ & R4).
  { intros c' Ec' k Hk. rewrite L1, L2. exact (Kh c' Ec' k Hk). }
  exists cam, rn. split; [|repeat split; assumption]. rewrite (rpc_get_current create st name (w, h) d' J A1). exact Ei.
Qed.

Lemma pixels_after : forall cam r rn a b c d xyz, rc_rpc _ _ cam = rn -> valid_rpc r -> affine r rn a b c d -> world_array xyz ->
  exists out, w2p cam xyz = Ok out /\ Forall2 (fun p q => exists q0, pixel_of (warp1 (camera_crs C rpc_crs O cam) rpc_crs) r p q0 /\ stretched a b c d q0 q) (nd_data xyz) out.
Proof.
  intros cam r rn a b c d xyz E V A W. assert (Vn : valid_rpc (rc_rpc _ _ cam)) by (rewrite E; apply A).
  destruct (w2p_ok C rpc_crs O warp warp1 warp_pointwise warp_same cam xyz Vn W) as (out & Eo & Fo). exists out. split; [exact Eo|].
  eapply Cam_Proof.Forall2_weaken; [|exact Fo]. clear Fo Eo. intros p q Hq. rewrite E in Hq. unfold pixel_of in *.
  assert (N : q = (Nan, Nan) -> exists q0 : pt2, q0 = (Nan, Nan) /\ stretched a b c d q0 q) by (intros ->; exists (Nan, Nan); repeat split).
  destruct p as [[[|x] [|y]] [|z]]; try (exact (N Hq)). set (v := warp1 _ _ _) in *. exists (rpc_world_to_pixel None r (fl_vec v)). split; [apply finite_pixel, V|].
  pose proof (rpc_pixel_fun _ _ _ _ Hq (finite_pixel rn v (proj1 A))) as ->. destruct A as (_ & _ & _ & H). rewrite H.
  destruct (rpc_world_to_pixel None r (fl_vec v)) as [[|j] [|i]]; split; reflexivity.
Qed.

Lemma stretched_moved : forall s t q q', stretched 1 s 1 t q q' -> moved s t q q'.
Proof. intros s t [[|j] [|i]] q' [A B]; cbn in *; (split; cbn; [rewrite A|rewrite B]); try reflexivity; f_equal; ring. Qed.

Theorem shift_pixels : forall open_im files evs st0 cs st name f w h r e crs',
  from_images C O F filename open_im files evs = Some (Ok st0) -> (forall f, In f files -> last_part (filename f) (filename f)) ->
  last_file filename files name f -> open_im f = Ok (w, h, Some (r, e)) -> valid_rpc r -> asks_crs parse_crs crs crs' -> (forall c, crs' = Some c -> keeps_heights (warp1 rpc_crs c) r) ->
  all_seen name r cs -> all_shifts name cs -> calls cs st0 = Ok st ->
  exists cam dj di, snd (rpc_get create name st) = Ok cam /\ rc_w _ _ cam = w /\ rc_h _ _ cam = h /\ camera_crs C rpc_crs O cam = world_of crs' /\ offset_after r name cs dj di /\
  forall xyz, world_array xyz -> exists out, w2p cam xyz = Ok out /\
    Forall2 (fun p q => exists q0, pixel_of (warp1 (world_of crs') rpc_crs) r p q0 /\ moved dj di q0 q) (nd_data xyz) out.
Proof.
  intros open_im files evs st0 cs st name f w h r e crs' E0 Hb L Eo V Ac Kh S Sh Ec.
  destruct (camera_after _ _ _ _ _ _ _ _ _ _ _ _ _ E0 Hb L Eo V Ac Kh S Ec) as (cam & rn & A1 & A2 & A3 & A4 & A5 & A6).
  destruct (chain_shift lstsq name cs r r rn 0 0 V S Sh (affine_refl r V) A6) as (dj & di & A & D). exists cam, dj, di. repeat (split; [assumption|]).
  intros xyz W. destruct (pixels_after cam r rn _ _ _ _ xyz A5 V A W) as (out & X1 & X2). exists out. split; [exact X1|]. rewrite A4 in X2.
  eapply Cam_Proof.Forall2_weaken; [|exact X2]. intros p q (q0 & Y1 & Y2). exists q0. split; [exact Y1|]. apply stretched_moved, Y2.
Qed.

Theorem refined_pixels : solves_normal_equations lstsq -> forall open_im files evs st0 cs st name f w h r e crs',
  from_images C O F filename open_im files evs = Some (Ok st0) -> (forall f, In f files -> last_part (filename f) (filename f)) ->
  last_file filename files name f -> open_im f = Ok (w, h, Some (r, e)) -> valid_rpc r -> asks_crs parse_crs crs crs' -> (forall c, crs' = Some c -> keeps_heights (warp1 rpc_crs c) r) ->
  all_seen name r cs -> calls cs st0 = Ok st ->
  exists cam a b c d, snd (rpc_get create name st) = Ok cam /\ rc_w _ _ cam = w /\ rc_h _ _ cam = h /\ camera_crs C rpc_crs O cam = world_of crs' /\
  (forall xyz, world_array xyz -> exists out, w2p cam xyz = Ok out /\
     Forall2 (fun p q => exists q0, pixel_of (warp1 (world_of crs') rpc_crs) r p q0 /\ stretched a b c d q0 q) (nd_data xyz) out) /\
  (forall m g, last_refined name cs m g -> exists jis, seen_gcps r g jis /\
     let refined := map (fun ji => (a * fst ji + b, c * snd ji + d)) jis in sum_over columns g refined = 0 /\ sum_over rows g refined = 0).
Proof.
  intros Sv open_im files evs st0 cs st name f w h r e crs' E0 Hb L Eo V Ac Kh S Ec.
  destruct (camera_after _ _ _ _ _ _ _ _ _ _ _ _ _ E0 Hb L Eo V Ac Kh S Ec) as (cam & rn & A1 & A2 & A3 & A4 & A5 & A6).
  destruct (chain_affine lstsq name cs r r rn 1 0 1 0 V S (affine_refl r V) A6) as (a & b & c & d & A). exists cam, a, b, c, d. repeat (split; [assumption|]). split.
  - intros xyz W. destruct (pixels_after cam r rn _ _ _ _ xyz A5 V A W) as (out & X1 & X2). exists out. split; [exact X1|]. rewrite A4 in X2. exact X2.
  - intros m g Lr. destruct (chain_last lstsq name cs r r rn 1 0 1 0 m g V S (affine_refl r V) A6 Lr) as (r1 & a1 & b1 & c1 & d1 & Q1 & Q2).
    pose proof Lr as (bf & gcps & af & Ecs & Hg & _). destruct (S m gcps g) as (jis & Hs); [rewrite Ecs; apply in_or_app; right; left; reflexivity|exact Hg|].
    exists jis. split; [exact Hs|]. cbv zeta. destruct (zero_residuals lstsq Sv r1 rn m g _ (proj1 Q1) (proj2 Hg) (affine_seen _ _ _ _ _ _ _ _ V Q1 Hs) Q2) as (jis' & Z1 & Z2 & Z3).
    pose proof (affine_seen _ _ _ _ _ _ _ _ V A Hs) as Z4. apply seen_sees in Z1; [|apply A]. apply seen_sees in Z4; [|apply A].
    rewrite (sees_gcps_fun _ _ _ _ Z4 Z1). split; assumption.
Qed.

(** The last shift-drift refinement after shifts only. *)
Lemma chain_split : forall name bf af r rn, chain lstsq name r (bf ++ af) rn -> exists r1, chain lstsq name r bf r1 /\ chain lstsq name r1 af rn.
Proof.
  intros name bf. induction bf as [|k bf IH]; intros af r rn H; [exists r; split; [constructor|exact H]|]. cbn in H.
  inversion H as [|? ? ? ? H1|? m1 ? ? ? Hn H1|? m1 gc1 g1 r1 ? ? Hg1 E1 H1]; subst; destruct (IH _ _ _ H1) as (r2 & A & B); exists r2; (split; [|exact B]).
  - constructor. exact A.
  - apply ch_skip; assumption.
  - eapply ch_refine; eassumption.
Qed.

Theorem drift_pixels : solves_normal_equations lstsq -> forall open_im files evs st0 bf gcps af st name f w h r e crs' g,
  from_images C O F filename open_im files evs = Some (Ok st0) -> (forall f, In f files -> last_part (filename f) (filename f)) ->
  last_file filename files name f -> open_im f = Ok (w, h, Some (r, e)) -> valid_rpc r -> asks_crs parse_crs crs crs' -> (forall c, crs' = Some c -> keeps_heights (warp1 rpc_crs c) r) ->
  all_seen name r (bf ++ Refine ShiftDrift gcps :: af) -> all_shifts name bf -> gcps_for gcps name g -> never_refined name af -> calls (bf ++ Refine ShiftDrift gcps :: af) st0 = Ok st ->
  exists cam a b c d jis, snd (rpc_get create name st) = Ok cam /\ seen_gcps r g jis /\ best_fit columns fst a b g jis /\ best_fit rows snd c d g jis /\
  (forall xyz, world_array xyz -> exists out, w2p cam xyz = Ok out /\
     Forall2 (fun p q => exists q0, pixel_of (warp1 (world_of crs') rpc_crs) r p q0 /\ stretched a b c d q0 q) (nd_data xyz) out).
Proof.
  intros Sv open_im files evs st0 bf gcps af st name f w h r e crs' g E0 Hb L Eo V Ac Kh S Sh Hg Na Ec.
  destruct (camera_after _ _ _ _ _ _ _ _ _ _ _ _ _ E0 Hb L Eo V Ac Kh S Ec) as (cam & rn & A1 & _ & _ & A4 & A5 & A6).
  destruct (chain_split _ _ _ _ _ A6) as (r1 & B1 & B2).
  assert (Sb : all_seen name r bf) by (intros m gc g' Hin; apply (S m gc g'); apply in_or_app; left; exact Hin).
  destruct (chain_shift lstsq name bf r r r1 0 0 V Sb Sh (affine_refl r V) B1) as (s & t & A & _).
  destruct (S ShiftDrift gcps g) as (jis & Hs); [apply in_or_app; right; left; reflexivity|exact Hg|].
  pose proof (affine_seen _ _ _ _ _ _ _ _ V A Hs) as Hk. pose proof (proj1 A) as V1.
  assert (Lr : last_refined name (Refine ShiftDrift gcps :: af) ShiftDrift g) by (exists [], gcps, af; repeat split; try apply Hg; exact Na).
  assert (S1 : all_seen name r (Refine ShiftDrift gcps :: af)) by (intros m gc g' Hin; apply (S m gc g'); apply in_or_app; right; exact Hin).
  assert (Er : refine_rpc lstsq r1 (map fit_gcp g) ShiftDrift = Ok (Some rn)).
  { clear - B2 Hg Na. inversion B2 as [|? ? ? ? H1|? m1 ? ? ? Hn H1|? m1 gc1 g1 r2 ? ? Hg1 E1 H1]; subst; [exfalso; exact (Hn g Hg)|].
    rewrite (gcps_for_fun _ _ _ _ _ Hg Hg1). rewrite E1. do 2 f_equal. clear - H1 Na. induction H1 as [|r n cs r' H IH|r m gcps cs r' Hn H IH|r m gcps g r1 cs r' Hg E H IH]; [reflexivity| | |].
    - apply IH. intros m' gcps' g' X. apply (Na m' gcps' g'). right. exact X.
    - apply IH. intros m' gcps' g' X. apply (Na m' gcps' g'). right. exact X.
    - exfalso. exact (Na m gcps g (or_introl eq_refl) Hg). }
  pose proof (refined_enough _ _ _ _ _ Er) as Ln. pose proof (proj1 (seen_sees _ _ _ V1) Hk) as Hk1.
  assert (Ln' : (min_gcps ShiftDrift <= List.length g)%nat) by (rewrite map_length in Ln; exact Ln).
  destruct (refine_affine lstsq ShiftDrift r1 g _ V1 Ln' Hk) as (r2 & a & b & c & d & E2 & A2). rewrite Er in E2. injection E2 as <-.
  pose proof (affine_trans _ _ _ _ _ _ _ _ _ _ _ A A2) as A3. pose proof (affine_seen _ _ _ _ _ _ _ _ V A3 Hs) as Hn.
  pose proof (drift_optimal lstsq Sv r1 rn _ _ _ V1 Ln Hk1 Er (proj1 (seen_sees _ _ _ (proj1 A3)) Hn)) as Op.
  exists cam, (a * 1), (a * s + b), (c * 1), (c * t + d), jis. split; [exact A1|]. split; [exact Hs|].
  assert (TJ : forall (k : gcp -> R * R -> R) (kk : R * R -> R * R -> R) (u v u' v' : R), (forall x ji, k x (u * fst ji + v, u' * snd ji + v') = kk (g_ji x) ji) -> forall jis,
    total k (map fit_gcp g) (map (fun ji => (u * fst ji + v, u' * snd ji + v')) jis) = sum_over kk g jis).
  { clear. intros k kk u v u' v' E. induction g as [|x g IH]; intros [|ji jis]; cbn [map total sum_over]; try reflexivity. rewrite E, (proj2 (fit_position x)), IH. reflexivity. }
  split; [|split].
  - intros a' b'. destruct (Op a' (b' - a' * s) 0 0) as [X _].
    rewrite (TJ _ (fun p q => (columns p (a * 1 * fst q + (a * s + b), a * 1 * fst q + (a * s + b))) ^ 2)) in X by (intros; unfold res_j, columns; cbn [fst snd]; ring).
    rewrite (TJ _ (fun p q => (columns p (a' * fst q + b', a' * fst q + b')) ^ 2)) in X by (intros; unfold columns; cbn [fst snd]; ring). exact X.
  - intros c' d'. destruct (Op 0 0 c' (d' - c' * t)) as [_ X].
    rewrite (TJ _ (fun p q => (rows p (c * 1 * snd q + (c * t + d), c * 1 * snd q + (c * t + d))) ^ 2)) in X by (intros; unfold res_i, rows; cbn [fst snd]; ring).
    rewrite (TJ _ (fun p q => (rows p (c' * snd q + d', c' * snd q + d')) ^ 2)) in X by (intros; unfold rows; cbn [fst snd]; ring). exact X.
  - intros xyz W. destruct (pixels_after cam r rn _ _ _ _ xyz A5 V A3 W) as (out & X1 & X2). exists out. split; [exact X1|]. rewrite A4 in X2. exact X2.
Qed.

(** Success. *)
Lemma loop_ok : forall (m : refine_method) gcps items st, (forall f v, In (f, v) items -> path_name f = f) ->
  (forall f z q g, In (f, (z, q)) items -> gcps_for gcps f g -> exists q', refine_dict lstsq m q g = Ok q') ->
  snd (refine_loop (Z * Z) (dict rval) (oty_gcp R) (rcam C O) (refine_dict lstsq m) gcps items st) = Ok tt.
Proof.
  clear warp_pointwise warp_same. intros m gcps. induction items as [|[f [z q]] items IH]; intros st Hp H; [reflexivity|]. cbn [refine_loop]. rewrite (Hp f (z, q) (or_introl eq_refl)).
  assert (R1 : forall st, snd (refine_loop (Z * Z) (dict rval) (oty_gcp R) (rcam C O) (refine_dict lstsq m) gcps items st) = Ok tt).
  { intros st'. apply IH; [intros f' v Hin; apply (Hp f' v); right; exact Hin|]. intros f' z' q' g Hin. apply (H f' z' q' g). right. exact Hin. }
  destruct (get_by_name f gcps) as [[|x g]|] eqn:E; try apply R1. destruct (H f z q (x :: g) (or_introl eq_refl)) as (q' & Eq); [split; [apply get_by_name_iff, E|discriminate]|].
  rewrite Eq. apply R1.
Qed.

Lemma calls_ok : forall cs st, rinv create st ->
  (forall name size d, dget name (r_param st) = Some (size, d) -> exists r rk a b c e, means_rpc (RpcDict d) rk /\ valid_rpc r /\ affine r rk a b c e /\ all_seen name r cs) ->
  (forall m gcps name g, In (Refine m gcps) cs -> In name (filenames C O st) -> gcps_for gcps name g -> enough m g) ->
  exists st', calls cs st = Ok st' /\ filenames C O st' = filenames C O st.
Proof.
  clear warp_pointwise warp_same. induction cs as [|[n|m gcps] cs IH]; intros st I H En.
  - exists st. split; reflexivity.
  - destruct (rpc_get_inv create n st I) as [I1 I2]. cbn [Adjust_Model.calls]. destruct (IH (fst (rpc_get create n st)) I1) as (st' & E & Ef).
    + rewrite I2. intros name size d Hd. destruct (H name size d Hd) as (r & rk & a & b & c & e & X1 & X2 & X3 & X4). exists r, rk, a, b, c, e. repeat (split; [assumption|]).
      intros m gcps g Hin. apply (X4 m gcps g). right. exact Hin.
    + unfold filenames. rewrite I2. intros m gcps name g Hin. apply En. right. exact Hin.
    + exists st'. split; [exact E|]. rewrite Ef. unfold filenames. rewrite I2. reflexivity.
  - cbn [Adjust_Model.calls]. destruct (rpc_refine_spec create (refine_dict lstsq m) gcps st I) as (I1 & I2 & I3).
    assert (Step : forall name size d g, dget name (r_param st) = Some (size, d) -> gcps_for gcps name g -> exists r rk a b c e r' d', refine_dict lstsq m d g = Ok d' /\
      means_rpc (RpcDict d') r' /\ valid_rpc r /\ affine r rk a b c e /\ (exists a' b' c' e', affine r r' a' b' c' e') /\ all_seen name r cs).
    { intros name size d g Hd Hg. destruct (H name size d Hd) as (r & rk & a & b & c & e & X1 & X2 & X3 & X4). destruct (X4 m gcps g (or_introl eq_refl) Hg) as (jis & Hs).
      assert (Le : (min_gcps m <= List.length g)%nat). { assert (Y : enough m g) by (eapply En; [left; reflexivity|apply (in_map fst _ (name, (size, d))), dget_In, Hd|exact Hg]). destruct m; exact Y. }
      destruct (refine_affine lstsq m rk g _ (proj1 X3) Le (affine_seen _ _ _ _ _ _ _ _ X2 X3 Hs)) as (r' & a2 & b2 & c2 & d2 & Er & A2).
      destruct (refine_dict_means _ _ _ _ _ _ X1 Er) as (d' & Ed & M'). exists r, rk, a, b, c, e, r', d'. repeat (split; [assumption|]). split.
      - pose proof (affine_trans _ _ _ _ _ _ _ _ _ _ _ X3 A2) as Z. eauto 6.
      - intros m' gcps' g' Hin. apply (X4 m' gcps' g'). right. exact Hin. }
    assert (Ok1 : snd (rpc_refine (refine_dict lstsq m) gcps st) = Ok tt).
    { unfold rpc_refine. apply loop_ok.
      - intros f v Hin. destruct I as (_ & P & _). apply P. apply (in_map fst _ (f, v)), Hin.
      - intros f z q g Hin Hg. cbn [r_param] in Hin. destruct I as (N & _). destruct (Step f z q g) as (? & ? & ? & ? & ? & ? & ? & d' & Y & _); [apply SceneDoc_Proof.dget_of_In; assumption|exact Hg|]. exists d'. exact Y. }
    destruct (rpc_refine (refine_dict lstsq m) gcps st) as [st1 o] eqn:Er. cbn [fst snd] in *. subst o. destruct (IH st1 I1) as (st' & E & Ef).
    + intros name size d Hd. assert (Hin : In name (dkeys (r_param st))) by (rewrite <- I2; apply (in_map fst _ (name, (size, d))), dget_In, Hd).
      assert (X : exists v, dget name (r_param st) = Some v). { destruct (dget name (r_param st)) as [v|] eqn:Ev; [eauto|]. exfalso. apply dget_None in Ev. exact (Ev Hin). }
      destruct X as ([size0 d0] & Hd0). destruct (I3 eq_refl name size0 d0 Hd0) as [K1 K2]. destruct (get_by_name name gcps) as [[|x g]|] eqn:Eg.
      * assert (N : forall g, ~ gcps_for gcps name g). { intros g [Hg Ng]. apply get_by_name_iff in Hg. congruence. }
        rewrite (K2 N) in Hd. injection Hd as <- <-. destruct (H name size0 d0 Hd0) as (r & rk & a & b & c & e & X1 & X2 & X3 & X4). exists r, rk, a, b, c, e. repeat (split; [assumption|]).
        intros m' gcps' g Hi. apply (X4 m' gcps' g). right. exact Hi.
      * assert (Hg : gcps_for gcps name (x :: g)) by (split; [apply get_by_name_iff; exact Eg|discriminate]).
        destruct (Step name size0 d0 _ Hd0 Hg) as (r & rk & a & b & c & e & r' & d' & Y1 & Y2 & Y3 & Y4 & (a' & b' & c' & e' & Y5) & Y6). destruct (K1 _ Hg) as (d1 & Z1 & Z2).
        rewrite Z2 in Hd. injection Hd as <- <-. rewrite Z1 in Y1. injection Y1 as <-. exists r, r', a', b', c', e'. repeat (split; [assumption|]). exact Y6.
      * assert (N : forall g, ~ gcps_for gcps name g). { intros g [Hg Ng]. apply get_by_name_iff in Hg. congruence. }
        rewrite (K2 N) in Hd. injection Hd as <- <-. destruct (H name size0 d0 Hd0) as (r & rk & a & b & c & e & X1 & X2 & X3 & X4). exists r, rk, a, b, c, e. repeat (split; [assumption|]).
        intros m' gcps' g Hi. apply (X4 m' gcps' g). right. exact Hi.
    + unfold filenames. rewrite I2. intros m' gcps' name g Hin. apply En. right. exact Hin.
    + exists st'. split; [exact E|]. rewrite Ef. exact I2.
Qed.

Theorem images_load : forall open_im files evs, Read_Spec.complete files evs -> (forall f, In f files -> last_part (filename f) (filename f)) ->
  (forall f, In f files -> exists w h r e, open_im f = Ok (w, h, Some (r, e)) /\ valid_rpc r) ->
  exists st0, from_images C O F filename open_im files evs = Some (Ok st0) /\ filenames C O st0 = first_names (map filename files) /\
  forall cs, (forall name f w h r e, last_file filename files name f -> open_im f = Ok (w, h, Some (r, e)) -> all_seen name r cs) ->
    (forall m gcps name g, In (Refine m gcps) cs -> In name (map filename files) -> gcps_for gcps name g -> enough m g) ->
    exists st, calls cs st0 = Ok st /\ filenames C O st = first_names (map filename files).
Proof.
  clear warp_pointwise warp_same. intros open_im files evs Hc Hb Ho. destruct (pool_ends _ _ (im_rpc_task filename open_im) [FileNotFoundError; ParamError] files evs Hc) as (out & Eo).
  pose proof Eo as Er. change (read_im_rpc_param filename open_im files evs = Some out) in Er. pose proof Er as Rd. apply rpc_reads in Rd. destruct out as [d|ex].
  2:{ exfalso. destruct Rd as (bf & f & af & e' & -> & _ & Et & _). destruct (Ho f) as (w & h & r & e & Eq & _); [apply in_or_app; right; left; reflexivity|]. rewrite Eq in Et. discriminate. }
  eexists. assert (E0 : from_images C O F filename open_im files evs = Some (Ok (Factory_Model.rpc_init (map (fun p => (fst p, (fst (snd p), rpc_to_dict (snd (snd p))))) d)))) by (unfold from_images; cbv [rpc_tags] in *; rewrite Er; reflexivity).
  split; [exact E0|]. destruct (images_state _ _ _ _ E0 Hb) as (I & K & G). split; [exact K|]. intros cs Sn En. rewrite <- K. apply calls_ok; [exact I| |].
  - intros name size dd Hd. assert (Hin : In name (first_names (map filename files))) by (rewrite <- K; apply (in_map fst _ (name, (size, dd))), dget_In, Hd).
    apply (proj1 (In_first_names _ _)) in Hin. assert (X : exists f, last_file filename files name f).
    { clear - Hin. induction files as [|f files IH]; [destruct Hin|]. destruct (in_dec string_dec name (map filename files)) as [H|H].
      - destruct (IH H) as (g & bf & af & -> & X1 & X2). exists g, (f :: bf), af. repeat split; assumption.
      - destruct Hin as [<-|Hin]; [|contradiction]. exists f, [], files. repeat split. intros g Hg E. apply H. rewrite <- E. apply in_map, Hg. }
    destruct X as (f & L). pose proof L as (bf & af & Ef & _). destruct (Ho f) as (w & h & r & e & Eq & V); [rewrite Ef; apply in_or_app; right; left; reflexivity|].
    rewrite (G name f w h (r, e) L Eq) in Hd. injection Hd as <- <-. exists r, r, 1, 0, 1, 0. split; [apply (to_dict_means (r, e))|]. split; [exact V|]. split; [apply affine_refl, V|].
    exact (Sn name f w h r e L Eq).
  - rewrite K. intros m gcps name g Hin Hn. apply (proj1 (In_first_names _ _)) in Hn. exact (En m gcps name g Hin Hn).
Qed.

Theorem images_refused : forall open_im before f after evs, Read_Spec.complete (before ++ f :: after) evs ->
  (forall g, In g before -> exists w h t, open_im g = Ok (w, h, Some t)) ->
  (forall size, open_im f = Ok (size, None) -> from_images C O F filename open_im (before ++ f :: after) evs = Some (Err ParamError)) /\
  (open_im f = Err FileNotFoundError -> from_images C O F filename open_im (before ++ f :: after) evs = Some (Err FileNotFoundError)) /\
  (forall e, open_im f = Err e -> e <> FileNotFoundError -> e <> ParamError -> from_images C O F filename open_im (before ++ f :: after) evs = Some (Err RuntimeError)).
Proof.
  clear warp_pointwise warp_same. intros open_im before f after evs Hc Hb. set (files := before ++ f :: after) in *.
  destruct (pool_ends _ _ (im_rpc_task filename open_im) [FileNotFoundError; ParamError] files evs Hc) as (out & Er).
  change (read_im_rpc_param filename open_im files evs = Some out) in Er. pose proof Er as Rd. apply rpc_reads in Rd. set (task := fun f => _) in Rd. set (wrap := fun e : exn => _) in Rd.
  assert (X : forall e, task f = Err e -> from_images C O F filename open_im files evs = Some (Err (wrap e))).
  { intros e Et. assert (Q : out = Err (wrap e)); [|unfold from_images; cbv [rpc_tags] in *; rewrite Er, Q; reflexivity].
    eapply (reads_as_unique _ _ task wrap files); [exact Rd|]. exists before, f, after, e. split; [reflexivity|]. split; [|split; [exact Et|reflexivity]].
    intros g Hg. destruct (Hb g Hg) as (w & h & t & Eg). unfold task. rewrite Eg. eauto. }
  split; [|split].
  - intros size E. refine (X ParamError _). unfold task. rewrite E. destruct size. reflexivity.
  - intros E. refine (X FileNotFoundError _). unfold task. rewrite E. reflexivity.
  - intros e E N1 N2. rewrite (X e) by (unfold task; rewrite E; reflexivity). unfold wrap. destruct e; congruence || reflexivity.
Qed.

(** GCPs of image tags. *)
Theorem tags_pixels : forall D (open_gcps : F -> res (list (rio_gcp R) * D)) is_lla to_lla open_im files evs gfiles gevs gcps st0 st name f f' w h r e crs',
  (forall c l l', to_lla c l = Ok l' -> List.length l' = List.length l) ->
  from_images C O F filename open_im files evs = Some (Ok st0) -> (forall f, In f files -> last_part (filename f) (filename f)) ->
  last_file filename files name f -> open_im f = Ok (w, h, Some (r, e)) -> valid_rpc r -> asks_crs parse_crs crs crs' -> (forall c, crs' = Some c -> keeps_heights (warp1 rpc_crs c) r) ->
  read_im_gcps filename open_gcps is_lla to_lla gfiles gevs = Some (Ok gcps) -> last_file filename gfiles name f' ->
  (forall g, tag_gcps open_gcps is_lla to_lla f' g -> exists jis, seen_gcps r g jis) ->
  calls [Refine Shift gcps] st0 = Ok st ->
  exists cam g dj di, snd (rpc_get create name st) = Ok cam /\ tag_gcps open_gcps is_lla to_lla f' g /\ mean_offset r g dj di /\
  forall xyz, world_array xyz -> exists out, w2p cam xyz = Ok out /\
    Forall2 (fun p q => exists q0, pixel_of (warp1 (world_of crs') rpc_crs) r p q0 /\ moved dj di q0 q) (nd_data xyz) out.
Proof.
  intros D open_gcps is_lla to_lla open_im files evs gfiles gevs gcps st0 st name f f' w h r e crs' Hl E0 Hb L Eo V Ac Kh Eg Lg Sn Ec.
  apply gcps_reads in Eg. set (task := im_gcp_task filename open_gcps is_lla to_lla) in Eg.
  assert (T : forall f n g, task f = Ok (n, g) -> n = filename f /\ tag_gcps open_gcps is_lla to_lla f g).
  { intros f0 n g Et. destruct (im_gcp_values _ _ _ _ _ _ _ _ _ _ Hl Et) as (tags & cr & xyz & X1 & X2 & X3 & X4 & X5 & X6 & X7 & _). split; [exact X3|]. exists tags, cr, xyz.
    split; [exact X1|]. split; [exact X2|]. split; [destruct (is_lla cr); [apply X4|apply X5]; reflexivity|]. split; assumption. }
  pose proof Lg as (bf & af & Ef & Nf & _). pose proof Eg as (items & Fi & _). destruct (SceneDoc_Proof.F2_left _ _ _ _ _ f' Fi) as ([n g] & _ & Et); [rewrite Ef; apply in_or_app; right; left; reflexivity|].
  destruct (T _ _ _ Et) as [En Tg]. rewrite Nf in En. subst n. assert (Hd : dget name gcps = Some g). { eapply (read_last _ _ filename task); [exact Eg|intros f0 n v Q; exact (proj1 (T _ _ _ Q))|exact Lg|exact Et]. }
  assert (Ng : g <> []). { destruct Tg as (tags & cr & xyz & _ & Nt & _ & X & _). intros ->. destruct tags; [contradiction|discriminate X]. }
  assert (U : forall g', gcps_for gcps name g' -> g' = g). { intros g' [Hg' _]. apply get_by_name_iff in Hg'. unfold get_by_name in Hg'. rewrite Hd in Hg'. congruence. }
  assert (Hg : gcps_for gcps name g). { split; [|exact Ng]. apply get_by_name_iff. unfold get_by_name. rewrite Hd. reflexivity. }
  destruct (shift_pixels open_im files evs st0 [Refine Shift gcps] st name f w h r e crs' E0 Hb L Eo V Ac Kh) as (cam & dj & di & A1 & _ & _ & _ & A5 & A6); [| |exact Ec|].
  - intros m gc g' [X|[]] Hg'. injection X as <- <-. rewrite (U g' Hg'). apply Sn, Tg.
  - intros m gc g' [X|[]] _. injection X as <- <-. reflexivity.
  - exists cam, g, dj, di. split; [exact A1|]. split; [exact Tg|]. split; [|exact A6]. destruct A5 as [(N & _)|(m & g' & (b1 & gc & a1 & X & Hg' & _) & Mo)].
    + exfalso. exact (N Shift gcps g (or_introl eq_refl) Hg).
    + destruct b1 as [|k b1]; [|destruct b1; discriminate X]. injection X as <- <- <-. rewrite <- (U g' Hg'). exact Mo.
Qed.
End Factory.
