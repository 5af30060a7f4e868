From Coq Require Import List ZArith QArith Qround Bool FinFun Sorted Lia Lqa.
From Verif Require Import Grid_Model Grid_Spec.
Import ListNotations.
Open Scope Z_scope.

(** * Ranges *)

Lemma py_range_In : forall start stop step x,
  0 < step ->
  In x (py_range start stop step) <->
  (start <= x < stop /\ exists k, 0 <= k /\ x = start + k * step).
Proof.
  intros start stop step x Hs. unfold py_range. rewrite in_map_iff. split.
  - intros (k & <- & Hin). apply in_seq in Hin.
    assert (Hk : Z.of_nat k < (stop - start + step - 1) / step) by lia.
    assert (Z.of_nat k + 1 <= (stop - start + step - 1) / step) as H1 by lia.
    assert ((Z.of_nat k + 1) * step <= stop - start + step - 1).
    { pose proof (Z.mul_div_le (stop - start + step - 1) step Hs). nia. }
    split; [nia|]. exists (Z.of_nat k); lia.
  - intros ((Hlo & Hhi) & k & Hk & ->). exists (Z.to_nat k). rewrite Z2Nat.id by lia. split; [reflexivity|].
    apply in_seq. split; [lia|]. cbn.
    assert (k + 1 <= (stop - start + step - 1) / step).
    { apply Z.div_le_lower_bound; nia. }
    lia.
Qed.

Lemma py_range_NoDup : forall start stop step, 0 < step -> NoDup (py_range start stop step).
Proof.
  intros. unfold py_range. apply FinFun.Injective_map_NoDup; [|apply seq_NoDup].
  intros a b E. nia.
Qed.

Lemma py_range_In_block : forall stop step x,
  0 < step -> 0 <= x < stop ->
  exists s, In s (py_range 0 stop step) /\ s <= x < s + step.
Proof.
  intros stop step x Hs Hx. exists (x / step * step).
  pose proof (Z.mul_div_le x step Hs). pose proof (Z.mod_pos_bound x step Hs).
  pose proof (Z.div_mod x step). pose proof (Z.div_pos x step).
  split; [|nia]. apply py_range_In; [assumption|]. split; [nia|]. exists (x / step). lia.
Qed.

Lemma block_unique : forall step a b x,
  0 < step -> 0 <= a -> 0 <= b -> a * step <= x < a * step + step -> b * step <= x < b * step + step -> a = b.
Proof. intros. nia. Qed.

Lemma product_In : forall A B (xs : list A) (ys : list B) p,
  In p (product xs ys) <-> In (fst p) xs /\ In (snd p) ys.
Proof.
  intros A B xs ys [a b]. unfold product. rewrite in_flat_map. cbn. split.
  - intros (x & Hx & Hy). apply in_map_iff in Hy. destruct Hy as (y & E & Hy). inversion E; subst; auto.
  - intros (Ha & Hb). exists a. split; [assumption|]. apply in_map_iff. exists b; auto.
Qed.

Lemma NoDup_app_intro : forall A (l m : list A),
  NoDup l -> NoDup m -> (forall x, In x l -> ~ In x m) -> NoDup (l ++ m).
Proof.
  induction l as [|a l IH]; cbn; intros m Hl Hm Hd; [assumption|].
  inversion Hl; subst. constructor.
  - rewrite in_app_iff. intros [?|?]; [contradiction|]. apply (Hd a); auto.
  - apply IH; auto.
Qed.

Lemma product_NoDup : forall A B (xs : list A) (ys : list B),
  NoDup xs -> NoDup ys -> NoDup (product xs ys).
Proof.
  induction xs as [|x xs IH]; intros ys Hx Hy; cbn; [constructor|].
  inversion Hx; subst. apply NoDup_app_intro.
  - apply FinFun.Injective_map_NoDup; [|assumption]. intros a b E; inversion E; reflexivity.
  - apply IH; assumption.
  - intros p Hp Hp'. apply in_map_iff in Hp. destruct Hp as (y & <- & _).
    apply product_In in Hp'. cbn in Hp'. tauto.
Qed.

Lemma block_windows_In : forall H W bh bw w,
  0 < bh -> 0 < bw ->
  In w (block_windows H W (bh, bw)) <->
  exists kx ky, 0 <= kx /\ 0 <= ky /\ kx * bw < W /\ ky * bh < H /\
    w = Win (kx * bw) (ky * bh) (Z.min (kx * bw + bw) W - kx * bw) (Z.min (ky * bh + bh) H - ky * bh).
Proof.
  intros H W bh bw w Hh Hw. unfold block_windows. cbn [fst snd]. rewrite in_map_iff. split.
  - intros ((x & y) & <- & Hin). apply product_In in Hin. cbn in Hin. destruct Hin as [Hx Hy].
    apply py_range_In in Hx; [|assumption]. apply py_range_In in Hy; [|assumption].
    destruct Hx as (Bx & kx & Hkx & Ex). destruct Hy as (By & ky & Hky & Ey).
    exists kx, ky. rewrite !Z.add_0_l in *. subst. repeat split; try assumption; lia.
  - intros (kx & ky & Hkx & Hky & Bx & By & ->). exists (kx * bw, ky * bh). split; [reflexivity|].
    apply product_In. cbn. rewrite !py_range_In by assumption. split; (split; [nia|]).
    + exists kx; lia.
    + exists ky; lia.
Qed.

Lemma block_windows_cover : forall H W bh bw,
  0 < bh -> 0 < bw ->
  forall r c, in_im H W r c ->
  exists w, In w (block_windows H W (bh, bw)) /\ in_win w r c /\
    forall w', In w' (block_windows H W (bh, bw)) -> in_win w' r c -> w' = w.
Proof.
  intros H W bh bw Hh Hw r c [Hr Hc].
  destruct (py_range_In_block W bw c Hw Hc) as (x & Hx & Bx).
  destruct (py_range_In_block H bh r Hh Hr) as (y & Hy & By).
  apply py_range_In in Hx; [|assumption]. apply py_range_In in Hy; [|assumption].
  destruct Hx as (Bx' & kx & Hkx & Ex). destruct Hy as (By' & ky & Hky & Ey).
  rewrite Z.add_0_l in *. subst x y.
  exists (Win (kx * bw) (ky * bh) (Z.min (kx * bw + bw) W - kx * bw) (Z.min (ky * bh + bh) H - ky * bh)).
  split; [|split].
  - apply block_windows_In; try assumption. exists kx, ky. repeat split; try assumption; lia.
  - unfold in_win; cbn. lia.
  - intros w' Hin Hw'. apply block_windows_In in Hin; try assumption.
    destruct Hin as (kx' & ky' & ? & ? & ? & ? & ->). unfold in_win in Hw'; cbn in Hw'.
    assert (kx' = kx) by (apply (block_unique bw _ _ c); lia).
    assert (ky' = ky) by (apply (block_unique bh _ _ r); lia).
    subst. reflexivity.
Qed.

Lemma block_windows_bounds : forall H W bh bw,
  0 < bh -> 0 < bw ->
  forall w, In w (block_windows H W (bh, bw)) ->
  0 < width w <= bw /\ 0 < height w <= bh /\
  0 <= col_off w /\ col_off w + width w <= W /\ 0 <= row_off w /\ row_off w + height w <= H.
Proof.
  intros H W bh bw Hh Hw w Hin. apply block_windows_In in Hin; try assumption.
  destruct Hin as (kx & ky & ? & ? & ? & ? & ->). cbn. nia.
Qed.

Lemma block_windows_NoDup : forall H W bh bw, 0 < bh -> 0 < bw -> NoDup (block_windows H W (bh, bw)).
Proof.
  intros. unfold block_windows. cbn [fst snd].
  apply FinFun.Injective_map_NoDup.
  - intros [x y] [x' y'] E. inversion E. reflexivity.
  - apply product_NoDup; apply py_range_NoDup; assumption.
Qed.

Lemma py_range_head : forall stop step, 0 < step -> 0 < stop -> exists t, py_range 0 stop step = 0 :: t.
Proof.
  intros stop step Hs Hp. unfold py_range.
  destruct (Z.to_nat ((stop - 0 + step - 1) / step)) eqn:E.
  - exfalso. assert (1 <= (stop - 0 + step - 1) / step) by (apply Z.div_le_lower_bound; lia). lia.
  - cbn. eexists. reflexivity.
Qed.

Lemma block_windows_first : forall H W bh bw,
  0 < bh -> 0 < bw -> 0 < H -> 0 < W ->
  exists w ws, block_windows H W (bh, bw) = w :: ws /\
    col_off w = 0 /\ row_off w = 0 /\
    forall w', In w' (block_windows H W (bh, bw)) -> width w' <= width w /\ height w' <= height w.
Proof.
  intros H W bh bw Hh Hw HH HW.
  assert (exists ws, block_windows H W (bh, bw) = Win 0 0 (Z.min bw W) (Z.min bh H) :: ws) as (ws & E).
  { unfold block_windows. cbn [fst snd].
    destruct (py_range_head W bw Hw HW) as (tx & ->). destruct (py_range_head H bh Hh HH) as (ty & ->).
    cbn. rewrite !Z.sub_0_r. eexists. reflexivity. }
  exists (Win 0 0 (Z.min bw W) (Z.min bh H)), ws. split; [assumption|]. split; [reflexivity|]. split; [reflexivity|].
  intros w' Hin. apply block_windows_In in Hin; try assumption.
  destruct Hin as (kx & ky & ? & ? & ? & ? & ->). cbn. nia.
Qed.

(** * Window expansion *)

Lemma inject_Z_minus : forall a b, (inject_Z (a - b) == inject_Z a - inject_Z b)%Q.
Proof. intros. unfold Z.sub. rewrite inject_Z_plus, inject_Z_opp. reflexivity. Qed.

Lemma axis_contains : forall (c w : Q) (e : Z),
  let lo := Qfloor (c - inject_Z e)%Q in
  let n := Qceiling (w + inject_Z (2 * e) + (c - inject_Z e - inject_Z lo))%Q in
  (inject_Z lo <= c - inject_Z e)%Q /\ (c + w + inject_Z e <= inject_Z (lo + n))%Q.
Proof.
  intros c w e lo n. split; [apply Qfloor_le|].
  pose proof (Qle_ceiling (w + inject_Z (2 * e) + (c - inject_Z e - inject_Z lo))%Q) as Hc. fold n in Hc.
  rewrite inject_Z_plus. rewrite inject_Z_mult in Hc. change (inject_Z 2) with (2#1) in Hc. lra.
Qed.

Lemma axis_minimal : forall (c w : Q) (e : Z) (lo' n' : Z),
  let lo := Qfloor (c - inject_Z e)%Q in
  let n := Qceiling (w + inject_Z (2 * e) + (c - inject_Z e - inject_Z lo))%Q in
  (inject_Z lo' <= c - inject_Z e)%Q -> (c + w + inject_Z e <= inject_Z (lo' + n'))%Q ->
  lo' <= lo /\ lo + n <= lo' + n'.
Proof.
  intros c w e lo' n' lo n H1 H2. split.
  - apply Qfloor_resp_le in H1. rewrite Qfloor_Z in H1. exact H1.
  - assert (H3 : (w + inject_Z (2 * e) + (c - inject_Z e - inject_Z lo) <= inject_Z (lo' + n' - lo))%Q).
    { rewrite inject_Z_minus. rewrite inject_Z_mult. change (inject_Z 2) with (2#1). lra. }
    apply Qceiling_resp_le in H3. rewrite Qceiling_Z in H3. fold n in H3. lia.
Qed.

Lemma expand_contains : forall f er ec,
  contains_grown (expand_window_to_grid f (er, ec)) f er ec.
Proof.
  intros f er ec. unfold contains_grown, expand_window_to_grid. cbn.
  pose proof (axis_contains (fcol_off f) (fwidth f) ec) as (A & B).
  pose proof (axis_contains (frow_off f) (fheight f) er) as (C & D).
  cbn in *. repeat split; assumption.
Qed.

Lemma expand_minimal : forall f er ec w,
  contains_grown w f er ec -> win_incl (expand_window_to_grid f (er, ec)) w.
Proof.
  intros f er ec w (A & B & C & D). unfold win_incl, expand_window_to_grid. cbn.
  pose proof (axis_minimal (fcol_off f) (fwidth f) ec _ _ A B).
  pose proof (axis_minimal (frow_off f) (fheight f) er _ _ C D).
  cbn in *. tauto.
Qed.

(** * Overviews *)

Lemma overview_level_iff : forall h w n mlp k,
  1 <= h -> 1 <= w -> 1 <= mlp -> 1 <= k ->
  In (2 ^ k) (overview_levels h w n mlp) <-> (k <= n /\ 2 ^ (Z.log2 mlp) <= Z.min h w / 2 ^ k).
Proof.
  intros h w n mlp k Hh Hw Hm Hk. unfold overview_levels. rewrite in_map_iff.
  assert (P2 : 0 < 2 ^ k) by (apply Z.pow_pos_nonneg; lia).
  assert (L0 : 0 <= Z.log2 mlp) by apply Z.log2_nonneg.
  assert (Hdiv : 2 ^ Z.log2 mlp <= Z.min h w / 2 ^ k <-> Z.log2 mlp + k <= Z.min (Z.log2 h) (Z.log2 w)).
  { split.
    - intros H. assert (2 ^ (Z.log2 mlp + k) <= Z.min h w).
      { rewrite Z.pow_add_r by lia. pose proof (Z.mul_div_le (Z.min h w) (2 ^ k) P2). nia. }
      apply Z.min_glb; (apply Z.log2_le_pow2; [lia|]); lia.
    - intros H. apply Z.div_le_lower_bound; [assumption|].
      rewrite Z.mul_comm, <- Z.pow_add_r by lia.
      apply Z.min_glb; (apply Z.log2_le_pow2; [lia|]); lia. }
  rewrite Hdiv. split.
  - intros (m & E & Hin). apply py_range_In in Hin; [|lia]. destruct Hin as (B & _).
    apply Z.pow_inj_r in E; [|lia|lia|lia]. subst. lia.
  - intros (H1 & H2). exists k. split; [reflexivity|]. apply py_range_In; [lia|]. split; [lia|]. exists (k - 1). lia.
Qed.

Lemma overview_In_pow : forall h w n mlp l,
  In l (overview_levels h w n mlp) -> exists k, 1 <= k <= n /\ l = 2 ^ k.
Proof.
  intros h w n mlp l Hin. unfold overview_levels in Hin. apply in_map_iff in Hin.
  destruct Hin as (k & <- & Hk). apply py_range_In in Hk; [|lia]. exists k. split; [lia|reflexivity].
Qed.

Lemma build_overviews_iff : forall h w, 1 <= h -> 1 <= w -> forall l,
  In l (build_overviews h w) <-> exists k, 1 <= k <= 8 /\ l = 2 ^ k /\ 256 <= Z.min h w / l.
Proof.
  intros h w Hh Hw l. unfold build_overviews. split.
  - intros Hin. destruct (overview_In_pow _ _ _ _ _ Hin) as (k & Hk & ->).
    apply overview_level_iff in Hin; try lia. exists k. split; [assumption|]. split; [reflexivity|].
    destruct Hin as [_ Hin]. exact Hin.
  - intros (k & Hk & -> & Hd). apply overview_level_iff; try lia. split; [lia|]. exact Hd.
Qed.

(** Any limits: the minimum is taken as the power of two at or below it. *)
Lemma overview_limits : forall h w n m, 1 <= h -> 1 <= w -> 1 <= m -> forall l,
  (forall j, 0 <= j -> m = 2 ^ j -> In l (overview_levels h w n m) <-> exists k, 1 <= k <= n /\ l = 2 ^ k /\ m <= Z.min h w / l) /\
  (In l (overview_levels h w n m) -> m < 2 * (Z.min h w / l)).
Proof.
  intros h w n m Hh Hw Hm l. split.
  - intros j Hj E. assert (El : 2 ^ Z.log2 m = m) by (rewrite E, Z.log2_pow2 by lia; reflexivity). split.
    + intros Hin. destruct (overview_In_pow _ _ _ _ _ Hin) as (k & Hk & ->). exists k. split; [lia|]. split; [reflexivity|].
      apply overview_level_iff in Hin; try lia.
    + intros (k & Hk & -> & Hd). apply overview_level_iff; try lia.
  - intros Hin. destruct (overview_In_pow _ _ _ _ _ Hin) as (k & Hk & ->). apply overview_level_iff in Hin; try lia.
    destruct (Z.log2_spec m) as (_ & U); [lia|]. rewrite Z.pow_succ_r in U by apply Z.log2_nonneg. lia.
Qed.

Lemma overview_too_small : forall n m, 1 <= n -> 1 <= m -> (forall j, 0 <= j -> m <> 2 ^ j) ->
  exists h w l, 1 <= h /\ 1 <= w /\ In l (overview_levels h w n m) /\ Z.min h w / l < m.
Proof.
  intros n m Hn Hm Np. set (j := Z.log2 m). assert (J : 0 <= j) by apply Z.log2_nonneg.
  assert (P : 0 < 2 ^ j) by (apply Z.pow_pos_nonneg; lia). exists (2 ^ j * 2 ^ 1), (2 ^ j * 2 ^ 1), (2 ^ 1).
  assert (D : Z.min (2 ^ j * 2 ^ 1) (2 ^ j * 2 ^ 1) / 2 ^ 1 = 2 ^ j) by (rewrite Z.min_id; apply Z.div_mul; discriminate).
  split; [lia|]. split; [lia|]. rewrite D. split.
  - apply overview_level_iff; try lia; try (change (2 ^ 1) with 2; lia). rewrite D. fold j. lia.
  - destruct (Z.log2_spec m) as (L & _); [lia|]. fold j in L. specialize (Np j J). lia.
Qed.

Lemma map_seq_sorted : forall (f : nat -> Z) n s,
  (forall a b, (a < b)%nat -> f a < f b) -> Sorted.StronglySorted Z.lt (map f (seq s n)).
Proof.
  induction n as [|n IH]; intros s Hf; cbn; constructor.
  - apply IH; assumption.
  - apply Forall_forall. intros x Hx. apply in_map_iff in Hx. destruct Hx as (k & <- & Hk).
    apply in_seq in Hk. apply Hf. lia.
Qed.

Lemma build_overviews_sorted : forall h w, Sorted.StronglySorted Z.lt (build_overviews h w).
Proof.
  intros. unfold build_overviews, overview_levels, py_range. rewrite map_map. apply map_seq_sorted.
  intros a b Hab. apply Z.pow_lt_mono_r; lia.
Qed.

(** * UTM *)

Lemma utm_zone : forall lat lon,
  exists zone, 1 <= zone <= 60 /\ in_utm_zone zone lon /\
    ((0 <= lat)%Q -> utm_crs_from_latlon lat lon = 32600 + zone) /\
    ((lat < 0)%Q -> utm_crs_from_latlon lat lon = 32700 + zone).
Proof.
  intros lat lon. set (fl := Qfloor ((lon + 180) / 6)%Q).
  exists (fl mod 60 + 1).
  pose proof (Z.mod_pos_bound fl 60 ltac:(lia)) as B.
  split; [lia|]. split; [|split].
  - exists (- (fl / 60)).
    pose proof (Qfloor_le ((lon + 180) / 6)%Q) as F1. pose proof (Qlt_floor ((lon + 180) / 6)%Q) as F2.
    fold fl in F1, F2.
    pose proof (Z.div_mod fl 60 ltac:(lia)) as D.
    assert (E : fl mod 60 = fl - 60 * (fl / 60)) by lia. rewrite E.
    set (q := fl / 60) in *.
    assert (G1 : (inject_Z fl * 6 <= lon + 180)%Q).
    { apply (Qmult_le_compat_r _ _ 6) in F1; [|lra]. unfold Qdiv in F1.
      setoid_replace ((lon + 180) * / 6 * 6)%Q with (lon + 180)%Q in F1 by field. exact F1. }
    assert (G2 : (lon + 180 < inject_Z (fl + 1) * 6)%Q).
    { assert (0 < 6)%Q as P by lra. apply (Qmult_lt_r _ _ 6 P) in F2. unfold Qdiv in F2.
      setoid_replace ((lon + 180) * / 6 * 6)%Q with (lon + 180)%Q in F2 by field. exact F2. }
    rewrite inject_Z_plus in G2. change (inject_Z 1) with (1#1) in G2.
    split.
    + replace (6 * (fl - 60 * q + 1 - 1) - 180) with (6 * fl + 360 * - q - 180) by lia.
      rewrite inject_Z_minus, inject_Z_plus, (inject_Z_mult 6 fl). change (inject_Z 6) with (6#1). change (inject_Z 180) with (180#1). lra.
    + replace (6 * (fl - 60 * q + 1) - 180) with (6 * fl + 360 * - q + 6 - 180) by lia.
      rewrite inject_Z_minus, !inject_Z_plus, (inject_Z_mult 6 fl). change (inject_Z 6) with (6#1). change (inject_Z 180) with (180#1). lra.
  - intros H. unfold utm_crs_from_latlon. fold fl. apply Qle_bool_iff in H. rewrite H. reflexivity.
  - intros H. unfold utm_crs_from_latlon. fold fl. destruct (Qle_bool 0 lat) eqn:E; [|reflexivity].
    apply Qle_bool_iff in E. exfalso. lra.
Qed.

(** The zone that contains a longitude is unique, so the specification pins the zone down. *)
Lemma in_utm_zone_unique : forall z1 z2 lon,
  1 <= z1 <= 60 -> 1 <= z2 <= 60 -> in_utm_zone z1 lon -> in_utm_zone z2 lon -> z1 = z2.
Proof.
  intros z1 z2 lon H1 H2 (k1 & A1 & B1) (k2 & A2 & B2).
  assert (L1 : (inject_Z (6 * (z1 - 1) - 180 - 360 * k1) < inject_Z (6 * z2 - 180 - 360 * k2))%Q).
  { rewrite !(inject_Z_minus _ (360 * _)). lra. }
  assert (L2 : (inject_Z (6 * (z2 - 1) - 180 - 360 * k2) < inject_Z (6 * z1 - 180 - 360 * k1))%Q).
  { rewrite !(inject_Z_minus _ (360 * _)). lra. }
  rewrite <- Zlt_Qlt in L1, L2. lia.
Qed.
