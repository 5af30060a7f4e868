From Coq Require Import List ZArith QArith Qround Qabs Bool Lia Lqa.
From Verif Require Import Dtype_Model Dtype_Spec.
Import ListNotations.
Open Scope Z_scope.

Lemma np_round_spec : forall x, nearest_even x (np_round x).
Proof.
  intros x. unfold nearest_even, np_round.
  pose proof (Qfloor_le x) as F1. pose proof (Qlt_floor x) as F2. rewrite inject_Z_plus in F2.
  change (inject_Z 1) with (1#1) in F2.
  set (f := Qfloor x) in *.
  destruct (Qcompare_spec (x - inject_Z f) (1 # 2)) as [E|L|G].
  - destruct (Z.even f) eqn:Ev.
    + split; [|intros _; assumption].
      rewrite Qabs_pos; lra.
    + split.
      * rewrite inject_Z_plus. change (inject_Z 1) with (1#1).
        rewrite Qabs_neg; lra.
      * intros _. rewrite Z.even_add, Ev. reflexivity.
  - split.
    + rewrite Qabs_pos; lra.
    + rewrite Qabs_pos by lra. intros; exfalso; lra.
  - rewrite inject_Z_plus. change (inject_Z 1) with (1#1). split.
    + rewrite Qabs_neg; lra.
    + rewrite Qabs_neg by lra. intros; exfalso; lra.
Qed.

Lemma Qabs_le_iff : forall x y, (Qabs x <= y)%Q <-> (- y <= x <= y)%Q.
Proof. intros. apply Qabs_Qle_condition. Qed.

Lemma nearest_even_unique : forall x n m, nearest_even x n -> nearest_even x m -> n = m.
Proof.
  intros x n m (A & A') (B & B').
  pose proof A as A0. pose proof B as B0.
  apply Qabs_le_iff in A. apply Qabs_le_iff in B.
  assert (inject_Z (n - m) <= 1)%Q as H1.
  { unfold Z.sub. rewrite inject_Z_plus, inject_Z_opp. lra. }
  assert (inject_Z (m - n) <= 1)%Q as H2.
  { unfold Z.sub. rewrite inject_Z_plus, inject_Z_opp. lra. }
  change 1%Q with (inject_Z 1) in H1, H2. rewrite <- Zle_Qle in H1, H2.
  destruct (Z.eq_dec n m) as [|Hne]; [assumption|exfalso].
  assert (Hc : n = m + 1 \/ m = n + 1) by lia.
  assert (Hn : Z.even n = true).
  { apply A'. destruct Hc as [->| ->].
    - rewrite inject_Z_plus in *. change (inject_Z 1) with (1#1) in *.
      rewrite Qabs_neg; lra.
    - rewrite inject_Z_plus in *. change (inject_Z 1) with (1#1) in *.
      rewrite Qabs_pos; lra. }
  assert (Hm : Z.even m = true).
  { apply B'. destruct Hc as [->| ->].
    - rewrite inject_Z_plus in *. change (inject_Z 1) with (1#1) in *.
      rewrite Qabs_pos; lra.
    - rewrite inject_Z_plus in *. change (inject_Z 1) with (1#1) in *.
      rewrite Qabs_neg; lra. }
  destruct Hc as [->| ->]; rewrite Z.even_add in *; [rewrite Hm in Hn|rewrite Hn in Hm]; discriminate.
Qed.

Lemma trunc_inject : forall n, trunc (inject_Z n) = n.
Proof. intros. unfold trunc. destruct (Qle_bool 0 (inject_Z n)); [apply Qfloor_Z|apply Qceiling_Z]. Qed.

Lemma trunc_comp : forall x y, (x == y)%Q -> trunc x = trunc y.
Proof.
  intros x y E. unfold trunc. rewrite (Qfloor_comp _ _ E), (Qceiling_comp _ _ E).
  assert (Qle_bool 0 x = Qle_bool 0 y) as ->; [|reflexivity].
  destruct (Qle_bool 0 x) eqn:A, (Qle_bool 0 y) eqn:B; try reflexivity.
  - apply Qle_bool_iff in A. rewrite E in A. apply Qle_bool_iff in A. congruence.
  - apply Qle_bool_iff in B. rewrite <- E in B. apply Qle_bool_iff in B. congruence.
Qed.

Lemma info_lt : forall d, info_min d < info_max d.
Proof. intros []; vm_compute; reflexivity. Qed.

Lemma astype_in_range : forall d n, is_floating d = false -> info_min d <= n <= info_max d ->
  (astype_unsafe d (inject_Z n) = inject_Z n).
Proof.
  intros d n Hf Hr. unfold astype_unsafe. rewrite Hf, trunc_inject. f_equal.
  rewrite Z.mod_small by lia. lia.
Qed.

Lemma astype_comp : forall d x y, (x == y)%Q -> (astype_unsafe d x == astype_unsafe d y)%Q.
Proof.
  intros. unfold astype_unsafe. destruct (is_floating d); [assumption|]. rewrite (trunc_comp _ _ H). reflexivity.
Qed.

Lemma Qclip_inject : forall lo hi n, lo <= hi ->
  (Qclip (inject_Z lo) (inject_Z hi) (inject_Z n) == inject_Z (Z.max lo (Z.min hi n)))%Q.
Proof.
  intros lo hi n Hlh. unfold Qclip.
  destruct (Qle_bool (inject_Z n) (inject_Z lo)) eqn:A.
  - apply Qle_bool_iff in A. rewrite <- Zle_Qle in A. rewrite Z.max_l by lia. reflexivity.
  - assert (~ n <= lo). { intro H. rewrite Zle_Qle in H. apply Qle_bool_iff in H. congruence. }
    destruct (Qle_bool (inject_Z hi) (inject_Z n)) eqn:B.
    + apply Qle_bool_iff in B. rewrite <- Zle_Qle in B. rewrite Z.min_l, Z.max_r by lia. reflexivity.
    + assert (~ hi <= n). { intro H'. rewrite Zle_Qle in H'. apply Qle_bool_iff in H'. congruence. }
      rewrite Z.min_r, Z.max_r by lia. reflexivity.
Qed.

Lemma Qle_bool_comp : forall a b c d, (a == b)%Q -> (c == d)%Q -> Qle_bool a c = Qle_bool b d.
Proof.
  intros a b c d E F. destruct (Qle_bool a c) eqn:A, (Qle_bool b d) eqn:B; try reflexivity.
  - apply Qle_bool_iff in A. rewrite E, F in A. apply Qle_bool_iff in A. congruence.
  - apply Qle_bool_iff in B. rewrite <- E, <- F in B. apply Qle_bool_iff in B. congruence.
Qed.

Lemma Qclip_comp : forall lo hi x y, (x == y)%Q -> (Qclip lo hi x == Qclip lo hi y)%Q.
Proof.
  intros lo hi x y E. unfold Qclip.
  rewrite (Qle_bool_comp x y lo lo E (Qeq_refl _)), (Qle_bool_comp hi hi x y (Qeq_refl _) E).
  destruct (Qle_bool y lo); [reflexivity|]. destruct (Qle_bool hi y); [reflexivity|assumption].
Qed.

(** Casts that numpy calls safe keep the range. *)
Lemma safe_range : forall a b, can_cast_safe a b = true -> is_floating b = false ->
  is_floating a = false /\ info_min b <= info_min a /\ info_max a <= info_max b.
Proof.
  intros a b H Hb. destruct a, b; try (vm_compute in Hb; discriminate); try (vm_compute in H; discriminate);
    vm_compute; repeat split; try reflexivity; discriminate.
Qed.

Lemma nearest_even_int : forall x n, (x == inject_Z n)%Q -> nearest_even x n.
Proof.
  intros x n E. unfold nearest_even. split.
  - rewrite Qabs_le_iff. lra.
  - intros H. exfalso. assert (Qabs (x - inject_Z n) == 0)%Q as Z0.
    { rewrite Qabs_pos; lra. }
    rewrite Z0 in H. discriminate.
Qed.

(** [holds] in terms of the model's limits. *)
Definition holds_m (d : dtype) (x : Q) : Prop :=
  (inject_Z (info_min d) <= x <= inject_Z (info_max d))%Q /\
  (is_floating d = false -> exists n, (x == inject_Z n)%Q).

Lemma convert_int : forall src dst x,
  holds_m src x -> is_floating dst = false ->
  exists n, nearest_even x n /\
    (convert_elem src dst x == inject_Z (Z.max (info_min dst) (Z.min (info_max dst) n)))%Q.
Proof.
  intros src dst x (Hr & Hi) Hd. unfold convert_elem. rewrite Hd. cbn [negb].
  pose proof (info_lt dst) as Hlt.
  destruct (can_cast_safe src dst) eqn:Hs; cbn [negb andb].
  - (* safe cast: integer in range *)
    destruct (safe_range _ _ Hs Hd) as (Hsi & Hmin & Hmax).
    destruct (Hi Hsi) as (n & En). exists n. split; [apply nearest_even_int; assumption|].
    rewrite (astype_comp _ _ _ En). rewrite En in Hr. rewrite <- !Zle_Qle in Hr.
    rewrite astype_in_range by (try assumption; lia).
    rewrite Z.min_r, Z.max_r by lia. reflexivity.
  - destruct (is_floating src) eqn:Hsf; cbn [andb].
    + exists (np_round x). split; [apply np_round_spec|].
      assert ((info_min src <? info_min dst) || (info_max dst <? info_max src) = true) as ->.
      { destruct src; try discriminate Hsf; destruct dst; try discriminate Hd; vm_compute; reflexivity. }
      rewrite (astype_comp _ _ _ (Qclip_inject _ _ _ (Z.lt_le_incl _ _ Hlt))).
      rewrite astype_in_range by (try assumption; lia). reflexivity.
    + destruct (Hi eq_refl) as (n & En). exists n. split; [apply nearest_even_int; assumption|].
      destruct ((info_min src <? info_min dst) || (info_max dst <? info_max src)) eqn:Hc.
      * rewrite (astype_comp _ _ _ (Qclip_comp _ _ _ _ En)).
        rewrite (astype_comp _ _ _ (Qclip_inject _ _ _ (Z.lt_le_incl _ _ Hlt))).
        rewrite astype_in_range by (try assumption; lia). reflexivity.
      * apply orb_false_iff in Hc. destruct Hc as [Hc1 Hc2]. apply Z.ltb_ge in Hc1, Hc2.
        rewrite (astype_comp _ _ _ En). rewrite En in Hr. rewrite <- !Zle_Qle in Hr.
        rewrite astype_in_range by (try assumption; lia).
        rewrite Z.min_r, Z.max_r by lia. reflexivity.
Qed.

Lemma convert_float : forall src dst x, is_floating dst = true -> convert_elem src dst x = x.
Proof.
  intros src dst x Hd. unfold convert_elem. rewrite Hd. cbn [negb].
  rewrite !andb_false_r. unfold astype_unsafe. rewrite Hd. reflexivity.
Qed.

Lemma convert_array_int : forall src dst xs,
  is_floating dst = false -> (forall x, In x xs -> holds_m src x) ->
  Forall2 (fun x y => exists n, nearest_even x n /\
             (y == inject_Z (Z.max (info_min dst) (Z.min (info_max dst) n)))%Q)
          xs (convert_array_dtype src dst xs).
Proof.
  intros src dst xs Hd Hx. unfold convert_array_dtype. induction xs as [|x xs IH]; constructor.
  - apply convert_int; [apply Hx; left; reflexivity|assumption].
  - apply IH. intros y Hy. apply Hx. right. assumption.
Qed.

Lemma convert_float_array : forall src dst xs, is_floating dst = true -> convert_array_dtype src dst xs = xs.
Proof.
  intros. unfold convert_array_dtype. rewrite <- (map_id xs) at 2. apply map_ext. intros. apply convert_float. assumption.
Qed.

Lemma convert_representable : forall src dst x,
  holds_m src x -> holds_m dst x -> (convert_elem src dst x == x)%Q.
Proof.
  intros src dst x Hs Hd. destruct (is_floating dst) eqn:Hf.
  - rewrite convert_float by assumption. reflexivity.
  - destruct (convert_int src dst x Hs Hf) as (n & Hn & E). rewrite E.
    destruct Hd as (Hr & Hi). destruct (Hi Hf) as (m & Em).
    assert (n = m) by (eapply nearest_even_unique; [eassumption|apply nearest_even_int; assumption]). subst m.
    rewrite Em in Hr. rewrite <- !Zle_Qle in Hr. rewrite Z.min_r, Z.max_r by lia. symmetry. assumption.
Qed.

Lemma nearest_even_mono : forall x y n m, (x <= y)%Q -> nearest_even x n -> nearest_even y m -> n <= m.
Proof.
  intros x y n m Hle Hx Hy. destruct (Z_le_gt_dec n m) as [|Hgt]; [assumption|exfalso].
  destruct Hx as (A & A'). destruct Hy as (B & B').
  apply Qabs_le_iff in A. apply Qabs_le_iff in B.
  assert (m + 1 <= n) as H1 by lia. rewrite Zle_Qle, inject_Z_plus in H1. change (inject_Z 1) with (1#1) in H1.
  assert (E : (x == y)%Q) by lra.
  assert (n = m); [|lia].
  eapply nearest_even_unique with (x := x); split; try assumption.
  - apply Qabs_le_iff; lra.
  - apply Qabs_le_iff; lra.
  - rewrite E. assumption.
Qed.

Lemma convert_monotone : forall src dst x y,
  holds_m src x -> holds_m src y -> (x <= y)%Q -> (convert_elem src dst x <= convert_elem src dst y)%Q.
Proof.
  intros src dst x y Hx Hy Hle. destruct (is_floating dst) eqn:Hf.
  - rewrite !convert_float by assumption. assumption.
  - destruct (convert_int src dst x Hx Hf) as (n & Hn & E). destruct (convert_int src dst y Hy Hf) as (m & Hm & F).
    rewrite E, F, <- Zle_Qle. pose proof (nearest_even_mono _ _ _ _ Hle Hn Hm). lia.
Qed.

Lemma convert_nearest : forall src dst x k,
  holds_m src x -> is_floating dst = false -> info_min dst <= k <= info_max dst ->
  holds_m dst (convert_elem src dst x) /\
  (Qabs (x - convert_elem src dst x) <= Qabs (x - inject_Z k))%Q.
Proof.
  intros src dst x k Hx Hf Hk.
  destruct (convert_int src dst x Hx Hf) as (n & Hn & E).
  set (r := Z.max (info_min dst) (Z.min (info_max dst) n)) in *.
  assert (info_min dst <= r <= info_max dst) as Hr by lia.
  split.
  - split.
    + rewrite E. rewrite <- !Zle_Qle. exact Hr.
    + intros _. exists r. exact E.
  - rewrite E. destruct Hn as (Hn & _). apply Qabs_le_iff in Hn.
    destruct (Z.eq_dec r k) as [->|Hne]; [apply Qle_refl|].
    assert (Hcase : (r < k /\ (x <= inject_Z r + (1#2))%Q) \/ (k < r /\ (inject_Z r - (1#2) <= x)%Q)).
    { destruct (Z_lt_le_dec r k).
      - left. split; [assumption|]. assert (n <= r) as L by lia. rewrite Zle_Qle in L. lra.
      - right. split; [lia|]. assert (r <= n) as L by lia. rewrite Zle_Qle in L. lra. }
    destruct Hcase as [[L B]|[L B]].
    + assert (r + 1 <= k) as L' by lia. rewrite Zle_Qle, inject_Z_plus in L'. change (inject_Z 1) with (1#1) in L'.
      apply Qle_trans with (inject_Z k - x)%Q.
      * apply Qabs_le_iff. split; lra.
      * rewrite <- Qabs_opp. eapply Qle_trans; [|apply Qle_Qabs]. lra.
    + assert (k + 1 <= r) as L' by lia. rewrite Zle_Qle, inject_Z_plus in L'. change (inject_Z 1) with (1#1) in L'.
      apply Qle_trans with (x - inject_Z k)%Q; [|apply Qle_Qabs].
      apply Qabs_le_iff. split; lra.
Qed.

(** * In terms of the specification *)
Lemma lo_eq : forall d, lo d = info_min d.
Proof. intros []; vm_compute; reflexivity. Qed.
Lemma hi_eq : forall d, hi d = info_max d.
Proof. intros []; vm_compute; reflexivity. Qed.
Lemma integer_iff : forall d, integer_type d <-> is_floating d = false.
Proof. intros []; unfold integer_type; cbn; split; intros H; try reflexivity; try exact I; try discriminate; contradiction. Qed.
Lemma float_iff : forall d, float_type d <-> is_floating d = true.
Proof. intros d. unfold float_type. rewrite integer_iff. destruct (is_floating d); split; congruence. Qed.
Lemma holds_iff : forall d x, holds d x <-> holds_m d x.
Proof. intros d x. unfold holds, holds_m. rewrite lo_eq, hi_eq, integer_iff. reflexivity. Qed.

Theorem convert_array_int_s : forall src dst xs,
  integer_type dst -> (forall x, In x xs -> holds src x) ->
  Forall2 (fun x y => exists n, nearest_even x n /\ (y == inject_Z (Z.max (lo dst) (Z.min (hi dst) n)))%Q)
          xs (convert_array_dtype src dst xs).
Proof.
  intros src dst xs Hi Hx. rewrite lo_eq, hi_eq. apply convert_array_int; [apply integer_iff; assumption|].
  intros x Hin. apply holds_iff. auto.
Qed.

Theorem convert_nearest_s : forall src dst x k,
  holds src x -> integer_type dst -> lo dst <= k <= hi dst ->
  holds dst (convert_elem src dst x) /\ (Qabs (x - convert_elem src dst x) <= Qabs (x - inject_Z k))%Q.
Proof.
  intros src dst x k Hx Hi Hk. rewrite lo_eq, hi_eq in Hk. rewrite (holds_iff dst).
  apply convert_nearest; [apply holds_iff|apply integer_iff|]; assumption.
Qed.

Theorem convert_float_s : forall src dst xs, float_type dst -> convert_array_dtype src dst xs = xs.
Proof. intros src dst xs H. apply convert_float_array, float_iff, H. Qed.

Theorem convert_representable_s : forall src dst x,
  holds src x -> holds dst x -> (convert_elem src dst x == x)%Q.
Proof. intros src dst x. rewrite !holds_iff. apply convert_representable. Qed.

Theorem convert_monotone_s : forall src dst x y,
  holds src x -> holds src y -> (x <= y)%Q -> (convert_elem src dst x <= convert_elem src dst y)%Q.
Proof. intros src dst x y. rewrite !holds_iff. apply convert_monotone. Qed.
