From Coq Require Import List Reals ZArith Bool Lra Lia Psatz.
From Verif Require Import Py Py_Proof Flt Mat Grid_Model Remap_Model Remap_Proof Dem_Model Rot_Model Rot_Proof Frame_Model Frame_Spec Frame_Proof
  Undist_Model Undist_Spec Undist_Proof Bound_Model Bound_Spec.
Import ListNotations.
Open Scope R_scope.

(** * Rounding *)
Lemma round_div_bound : forall p q, (0 < q)%Z -> (2 * p - q <= 2 * (q * round_div p q) <= 2 * p + q)%Z.
Proof.
  intros p q Hq. unfold round_div. pose proof (Z.div_mod p q ltac:(lia)) as E. pose proof (Z.mod_pos_bound p q Hq) as B.
  set (d := (p / q)%Z) in *. set (r := (p mod q)%Z) in *. clearbody d r.
  destruct (Z.ltb_spec (2 * r) q); [nia|]. destruct (Z.ltb_spec q (2 * r)); [nia|]. destruct (Z.even d); nia.
Qed.
Lemma round_div_nonneg : forall p q, (0 < q)%Z -> (0 <= p)%Z -> (0 <= round_div p q)%Z.
Proof. intros p q Hq Hp. pose proof (round_div_bound p q Hq). nia. Qed.

(** * Sides *)
Definition pt (a b : Z * Z) (t : R) : R * R :=
  (IZR (fst a) + t * (IZR (fst b) - IZR (fst a)), IZR (snd a) + t * (IZR (snd b) - IZR (snd a))).
Definition seg (a b : Z * Z) (n : nat) : list (R * R) := map (fun k => pt a b (INR k / INR n)) (seq 0 n).

Lemma linspace_seg : forall a b n, (0 <= n)%Z -> linspace_open a b n = Ok (seg a b (Z.to_nat n)).
Proof.
  intros a b n Hn. unfold linspace_open. destruct (Z.ltb_spec n 0); [lia|]. f_equal. unfold seg. apply map_ext_in. intros k Hk.
  apply in_seq in Hk. assert (IZR n <> 0). { intros E. apply eq_IZR in E. lia. }
  unfold pt. rewrite (INR_IZR_INZ (Z.to_nat n)), Z2Nat.id, !minus_IZR by lia. f_equal; field; assumption.
Qed.

Lemma seg_in : forall a b n p, In p (seg a b n) <-> exists k, (k < n)%nat /\ p = pt a b (INR k / INR n).
Proof.
  intros a b n p. unfold seg. rewrite in_map_iff. split.
  - intros (k & <- & Hk). apply in_seq in Hk. exists k. split; [lia|reflexivity].
  - intros (k & Hk & ->). exists k. split; [reflexivity|]. apply in_seq. lia.
Qed.

Definition len1 (a b : Z * Z) : R := Rabs (IZR (fst b) - IZR (fst a)) + Rabs (IZR (snd b) - IZR (snd a)).

Lemma pt_dist : forall a b s t, dist1 (pt a b s) (pt a b t) = Rabs (s - t) * len1 a b.
Proof.
  intros a b s t. unfold dist1, pt, len1. cbn [fst snd].
  replace (IZR (fst a) + s * (IZR (fst b) - IZR (fst a)) - (IZR (fst a) + t * (IZR (fst b) - IZR (fst a)))) with ((s - t) * (IZR (fst b) - IZR (fst a))) by ring.
  replace (IZR (snd a) + s * (IZR (snd b) - IZR (snd a)) - (IZR (snd a) + t * (IZR (snd b) - IZR (snd a)))) with ((s - t) * (IZR (snd b) - IZR (snd a))) by ring.
  rewrite !Rabs_mult. ring.
Qed.

Lemma dist1_tri : forall p q r, dist1 p r <= dist1 p q + dist1 q r.
Proof.
  intros [px py] [qx qy] [rx ry]. unfold dist1. cbn [fst snd].
  pose proof (Rabs_triang (px - qx) (qx - rx)) as A. pose proof (Rabs_triang (py - qy) (qy - ry)) as B.
  replace (px - qx + (qx - rx)) with (px - rx) in A by ring. replace (py - qy + (qy - ry)) with (py - ry) in B by ring. lra.
Qed.

Lemma cell : forall m x, (1 <= m)%nat -> 0 <= x <= INR m -> exists k, (k < m)%nat /\ INR k <= x <= INR k + 1.
Proof.
  induction m as [|m IH]; intros x Hm Hx; [lia|]. rewrite S_INR in Hx. destruct (Rle_dec x (INR m)) as [L|L].
  - destruct m as [|m]; [exists 0%nat; cbn in *; split; [lia|lra]|]. destruct (IH x) as (k & Hk & B); [lia|lra|]. exists k. split; [lia|lra].
  - exists m. split; [lia|lra].
Qed.

Lemma seg_near : forall a b m t, (1 <= m)%nat -> 0 <= t <= 1 -> exists p, In p (seg a b m) /\ dist1 p (pt a b t) * INR m <= len1 a b.
Proof.
  intros a b m t Hm Ht. assert (M : 1 <= INR m) by (apply (le_INR 1); lia). destruct (cell m (t * INR m)) as (k & Hk & B); [lia|nra|].
  exists (pt a b (INR k / INR m)). split; [apply seg_in; exists k; auto|]. rewrite pt_dist.
  assert (L : 0 <= len1 a b) by (unfold len1; pose proof (Rabs_pos (IZR (fst b) - IZR (fst a))); pose proof (Rabs_pos (IZR (snd b) - IZR (snd a))); lra).
  assert (E : Rabs (INR k / INR m - t) * INR m <= 1).
  { rewrite <- (Rabs_pos_eq (INR m)) at 2 by lra. rewrite <- Rabs_mult. replace ((INR k / INR m - t) * INR m) with (INR k - t * INR m) by (field; lra). apply Rabs_le. lra. }
  nra.
Qed.

Lemma boundary_some : forall w h n, (0 < n)%Z -> pixel_boundary w h (Some n) = rect_boundary w h n.
Proof. intros w h [|n|n] H; [lia|reflexivity|lia]. Qed.

Section Rect.
Variables w h n : Z.
Hypothesis Hw : (1 <= w)%Z.
Hypothesis Hh : (1 <= h)%Z.
Hypothesis Hwh : (2 < w + h)%Z.
Hypothesis Hn : (0 < n)%Z.
Let a := (w - 1)%Z.
Let b := (h - 1)%Z.
Let P := (2 * (a + b))%Z.
Let ca := round_div (n * a) P.
Let cb := round_div (n * b) P.

Lemma counts : side_count w h n (0, 0)%Z (a, 0)%Z = ca /\ side_count w h n (a, 0)%Z (a, b) = cb /\
  side_count w h n (a, b) (0%Z, b) = ca /\ side_count w h n (0%Z, b) (0, 0)%Z = cb.
Proof.
  unfold side_count, ca, cb, P. cbn [fst snd]. assert (0 <= a)%Z by (unfold a; lia). assert (0 <= b)%Z by (unfold b; lia).
  fold a b. repeat split; f_equal; f_equal; lia.
Qed.

Lemma ca_bound : (2 * (n * a) - P <= 2 * (P * ca) <= 2 * (n * a) + P)%Z /\ (0 <= ca)%Z.
Proof. unfold ca, P, a, b. split; [apply round_div_bound; lia|apply round_div_nonneg; [lia|nia]]. Qed.
Lemma cb_bound : (2 * (n * b) - P <= 2 * (P * cb) <= 2 * (n * b) + P)%Z /\ (0 <= cb)%Z.
Proof. unfold cb, P, a, b. split; [apply round_div_bound; lia|apply round_div_nonneg; [lia|nia]]. Qed.

Definition rect_pts : list (R * R) :=
  seg (0, 0)%Z (a, 0)%Z (Z.to_nat ca) ++ seg (a, 0)%Z (a, b) (Z.to_nat cb) ++
  seg (a, b) (0%Z, b) (Z.to_nat ca) ++ seg (0%Z, b) (0, 0)%Z (Z.to_nat cb).

Lemma rect_eq : rect_boundary w h n = Ok rect_pts.
Proof.
  destruct counts as (C0 & C1 & C2 & C3). destruct ca_bound as [_ Ca]. destruct cb_bound as [_ Cb].
  unfold rect_boundary. cbn zeta. cbn [fst snd]. fold a b. rewrite C0, C1, C2, C3. rewrite !linspace_seg by assumption. reflexivity.
Qed.

Lemma boundary_eq : pixel_boundary w h (Some n) = Ok rect_pts.
Proof. rewrite boundary_some by lia. apply rect_eq. Qed.

Lemma seg_length : forall x y m, length (seg x y m) = m.
Proof. intros. unfold seg. rewrite map_length, seq_length. reflexivity. Qed.

Lemma rect_length : Z.of_nat (length rect_pts) = (2 * (ca + cb))%Z.
Proof. unfold rect_pts. rewrite !app_length, !seg_length. destruct ca_bound as [_ Ca]. destruct cb_bound as [_ Cb]. lia. Qed.

Lemma total_bound : (n - 2 <= 2 * (ca + cb) <= n + 2)%Z.
Proof.
  destruct ca_bound as [Ca _]. destruct cb_bound as [Cb _].
  assert (E : (2 * (n * a) + 2 * (n * b) = n * P)%Z) by (unfold P; ring). assert (HP : (0 < P)%Z) by (unfold P, a, b; lia). nia.
Qed.

Lemma pt_edge : forall k m (x y : Z * Z), (k < m)%nat -> In (x, y) [((0, 0)%Z, (a, 0)%Z); ((a, 0)%Z, (a, b)); ((a, b), (0%Z, b)); ((0%Z, b), (0, 0)%Z)] ->
  on_edge w h (pt x y (INR k / INR m)).
Proof.
  intros k m x y Hk Hs. assert (T : 0 <= INR k / INR m <= 1).
  { apply lt_INR in Hk. pose proof (pos_INR k). split; [apply Rmult_le_pos; [lra|apply Rlt_le, Rinv_0_lt_compat; lra]|].
    apply (Rmult_le_reg_r (INR m)); [lra|]. unfold Rdiv. rewrite Rmult_assoc, Rinv_l; lra. }
  set (t := INR k / INR m) in *. clearbody t. unfold a, b in Hs. unfold on_edge, in_image.
  assert (A : 0 <= IZR w - 1) by (apply IZR_le in Hw; lra). assert (B : 0 <= IZR h - 1) by (apply IZR_le in Hh; lra).
  cbn [In] in Hs. destruct Hs as [E|[E|[E|[E|[]]]]]; injection E as <- <-; unfold pt; cbn [fst snd]; rewrite ?minus_IZR.
  - split; [split; nra|right; right; left; lra].
  - split; [split; nra|right; left; lra].
  - split; [split; nra|right; right; right; lra].
  - split; [split; nra|left; lra].
Qed.

Lemma rect_on_edge : Forall (on_edge w h) rect_pts.
Proof.
  apply Forall_forall. intros p Hp. unfold rect_pts in Hp. rewrite !in_app_iff in Hp.
  destruct Hp as [Hp|[Hp|[Hp|Hp]]]; apply seg_in in Hp; destruct Hp as (k & Hk & ->); apply pt_edge; auto; cbn; tauto.
Qed.

Lemma side_near : forall (x y : Z * Z) c d t, (0 <= c)%Z -> (1 <= c)%Z -> len1 x y = IZR d -> (2 * (n * d) - P <= 2 * (P * c))%Z -> 0 <= t <= 1 ->
  exists p, In p (seg x y (Z.to_nat c)) /\ dist1 p (pt x y t) * IZR n <= 3 / 2 * IZR P.
Proof.
  intros x y c d t Hc Hc1 HL HB Ht. destruct (seg_near x y (Z.to_nat c) t) as (p & Hp & D); [lia|assumption|].
  exists p. split; [exact Hp|]. rewrite INR_IZR_INZ, Z2Nat.id in D by lia. rewrite HL in D.
  assert (HP : (0 < P)%Z) by (unfold P, a, b; lia). apply IZR_lt in HP.
  apply IZR_le in HB. rewrite minus_IZR, !mult_IZR in HB. apply IZR_le in Hc1. pose proof (IZR_lt _ _ Hn) as N.
  set (e := dist1 p (pt x y t)) in *. clearbody e.
  apply (Rmult_le_reg_r (IZR c)); [lra|]. replace (e * IZR n * IZR c) with (e * IZR c * IZR n) by ring.
  apply Rle_trans with (IZR d * IZR n); [apply Rmult_le_compat_r; lra|]. nra.
Qed.

Lemma side_cover : forall (x y z : Z * Z) c c' d d' t pts,
  (0 <= c)%Z -> (0 <= c')%Z -> (1 <= c \/ 1 <= c')%Z -> len1 x y = IZR d' -> len1 y z = IZR d ->
  (2 * (n * d) - P <= 2 * (P * c))%Z -> (2 * (n * d') - P <= 2 * (P * c'))%Z ->
  (forall p, In p (seg x y (Z.to_nat c')) -> In p pts) -> (forall p, In p (seg y z (Z.to_nat c)) -> In p pts) ->
  0 <= t <= 1 -> exists p, In p pts /\ dist1 p (pt y z t) * IZR n <= 2 * IZR P.
Proof.
  intros x y z c c' d d' t pts Hc Hc' Hor HL' HL HB HB' I' I Ht. assert (HP : (0 < P)%Z) by (unfold P, a, b; lia). apply IZR_lt in HP.
  destruct (Z.le_gt_cases 1 c) as [L|L].
  - destruct (side_near y z c d t) as (p & Hp & D); try assumption. exists p. split; [apply I, Hp|lra].
  - assert (c = 0)%Z by lia. subst c. destruct Hor as [Hor|Hor]; [lia|].
    destruct (side_near x y c' d' 1) as (p & Hp & D); try assumption; [lra|]. exists p. split; [apply I', Hp|].
    assert (E : pt x y 1 = pt y z 0) by (unfold pt; f_equal; ring). rewrite E in D.
    pose proof (dist1_tri p (pt y z 0) (pt y z t)) as T. rewrite (pt_dist y z 0 t), HL in T.
    apply IZR_le in HB. rewrite minus_IZR, !mult_IZR in HB. pose proof (IZR_lt _ _ Hn) as N.
    assert (A : Rabs (0 - t) <= 1) by (apply Rabs_le; lra). assert (D0 : 0 <= IZR d).
    { rewrite <- HL. unfold len1. pose proof (Rabs_pos (IZR (fst z) - IZR (fst y))). pose proof (Rabs_pos (IZR (snd z) - IZR (snd y))). lra. }
    assert (dist1 p (pt y z t) <= dist1 p (pt y z 0) + IZR d) by nra. nra.
Qed.

Lemma edge_side : forall q, on_edge w h q -> exists t, 0 <= t <= 1 /\
  (q = pt (0, 0)%Z (a, 0)%Z t \/ q = pt (a, 0)%Z (a, b) t \/ q = pt (a, b) (0%Z, b) t \/ q = pt (0%Z, b) (0, 0)%Z t).
Proof.
  intros [j i] [[Hj Hi] He]. cbn [fst snd] in *.
  assert (U : forall v m, 0 <= v <= IZR m - 1 -> exists t, 0 <= t <= 1 /\ v = t * (IZR m - 1)).
  { intros v m Hv. destruct (Req_dec (IZR m - 1) 0) as [E|E]; [exists 0; split; [lra|nra]|]. exists (v / (IZR m - 1)). split; [|field; lra].
    split; [apply Rmult_le_pos; [lra|apply Rlt_le, Rinv_0_lt_compat; lra]|]. apply (Rmult_le_reg_r (IZR m - 1)); [lra|].
    unfold Rdiv. rewrite Rmult_assoc, Rinv_l; lra. }
  unfold a, b, pt. cbn [fst snd]. rewrite !minus_IZR. destruct He as [E|[E|[E|E]]]; subst.
  - destruct (U i h Hi) as (t & Ht & ->). exists (1 - t). split; [lra|]. right. right. right. f_equal; ring.
  - destruct (U i h Hi) as (t & Ht & ->). exists t. split; [lra|]. right. left. f_equal; ring.
  - destruct (U j w Hj) as (t & Ht & ->). exists t. split; [lra|]. left. f_equal; ring.
  - destruct (U j w Hj) as (t & Ht & ->). exists (1 - t). split; [lra|]. right. right. left. f_equal; ring.
Qed.

Lemma rect_cover : (3 <= n)%Z -> forall q, on_edge w h q -> exists p, In p rect_pts /\ dist1 p q * IZR n <= 2 * perimeter w h.
Proof.
  intros H3 q Hq. destruct ca_bound as [Ba Ca]. destruct cb_bound as [Bb Cb]. pose proof total_bound as TB.
  assert (Hor : (1 <= ca \/ 1 <= cb)%Z) by lia.
  assert (EP : perimeter w h = IZR P). { unfold perimeter, P, a, b. rewrite mult_IZR, plus_IZR, !minus_IZR. ring. }
  rewrite EP. assert (A : 0 <= IZR a) by (apply IZR_le; unfold a; lia). assert (B : 0 <= IZR b) by (apply IZR_le; unfold b; lia).
  assert (L0 : len1 (0, 0)%Z (a, 0)%Z = IZR a) by (unfold len1; cbn [fst snd]; rewrite !Rminus_0_r, Rabs_R0, Rabs_pos_eq by assumption; ring).
  assert (L1 : len1 (a, 0)%Z (a, b) = IZR b) by (unfold len1; cbn [fst snd]; rewrite Rminus_diag_eq, Rabs_R0, Rminus_0_r, Rabs_pos_eq by (assumption || reflexivity); ring).
  assert (L2 : len1 (a, b) (0%Z, b) = IZR a) by (unfold len1; cbn [fst snd]; rewrite (Rminus_diag_eq (IZR b)), Rabs_R0, Rminus_0_l, Rabs_Ropp, Rabs_pos_eq by (assumption || reflexivity); ring).
  assert (L3 : len1 (0%Z, b) (0, 0)%Z = IZR b) by (unfold len1; cbn [fst snd]; rewrite (Rminus_diag_eq 0), Rabs_R0, Rminus_0_l, Rabs_Ropp, Rabs_pos_eq by (assumption || reflexivity); ring).
  destruct (edge_side q Hq) as (t & Ht & [E|[E|[E|E]]]); subst q; unfold rect_pts.
  - apply side_cover with (x := (0%Z, b)) (c := ca) (c' := cb) (d := a) (d' := b); try assumption; try tauto; intros p Hp; rewrite !in_app_iff; tauto.
  - apply side_cover with (x := (0, 0)%Z) (c := cb) (c' := ca) (d := b) (d' := a); try assumption; try tauto; intros p Hp; rewrite !in_app_iff; tauto.
  - apply side_cover with (x := (a, 0)%Z) (c := ca) (c' := cb) (d := a) (d' := b); try assumption; try tauto; intros p Hp; rewrite !in_app_iff; tauto.
  - apply side_cover with (x := (a, b)) (c := cb) (c' := ca) (d := b) (d' := a); try assumption; try tauto; intros p Hp; rewrite !in_app_iff; tauto.
Qed.

Lemma rect_corners : (2 * (n * Z.min a b) > P)%Z -> incl (corners w h) rect_pts.
Proof.
  intros H. assert (HP : (0 < P)%Z) by (unfold P, a, b; lia). destruct ca_bound as [Ba Ca]. destruct cb_bound as [Bb Cb].
  assert (1 <= ca)%Z by nia. assert (1 <= cb)%Z by nia.
  assert (S : forall x y c, (1 <= c)%Z -> In (IZR (fst x), IZR (snd x)) (seg x y (Z.to_nat c))).
  { intros x y c Hc. apply seg_in. exists 0%nat. split; [lia|]. unfold pt. cbn [INR]. unfold Rdiv. rewrite Rmult_0_l. f_equal; ring. }
  intros p Hp. unfold corners in Hp. unfold rect_pts. rewrite !in_app_iff. cbn [In] in Hp.
  destruct Hp as [<-|[<-|[<-|[<-|[]]]]].
  - left. apply (S (0, 0)%Z). assumption.
  - right. left. pose proof (S (a, 0)%Z (a, b) cb) as Q. cbn [fst snd] in Q. unfold a at 1 in Q. rewrite minus_IZR in Q. apply Q. assumption.
  - right. right. left. pose proof (S (a, b)%Z (0%Z, b) ca) as Q. cbn [fst snd] in Q. unfold a at 1, b at 1 in Q. rewrite !minus_IZR in Q. apply Q. assumption.
  - right. right. right. pose proof (S (0%Z, b)%Z (0, 0)%Z cb) as Q. cbn [fst snd] in Q. unfold b at 1 in Q. rewrite !minus_IZR in Q. apply Q. assumption.
Qed.
End Rect.

Theorem boundary_points : forall w h n, (1 <= w)%Z -> (1 <= h)%Z -> (2 < w + h)%Z -> (0 < n)%Z ->
  exists pts, pixel_boundary w h (Some n) = Ok pts /\ Forall (on_edge w h) pts /\
  (n - 2 <= Z.of_nat (length pts) <= n + 2)%Z /\ Z.Even (Z.of_nat (length pts)) /\
  ((3 <= n)%Z -> forall q, on_edge w h q -> exists p, In p pts /\ dist1 p q * IZR n <= 2 * perimeter w h) /\
  ((n * (Z.min w h - 1) > (w - 1) + (h - 1))%Z -> incl (corners w h) pts).
Proof.
  intros w h n Hw Hh Hwh Hn. exists (rect_pts w h n). split; [apply boundary_eq; assumption|]. split; [apply rect_on_edge; assumption|].
  rewrite rect_length by assumption. split; [apply total_bound; assumption|]. split; [eexists; reflexivity|].
  split; [intros H3; apply rect_cover; assumption|]. intros H. apply rect_corners; try assumption.
  replace (Z.min (w - 1) (h - 1))%Z with (Z.min w h - 1)%Z by lia. lia.
Qed.

Theorem boundary_default : forall w h, (1 <= w)%Z -> (1 <= h)%Z ->
  exists pts, pixel_boundary w h None = Ok pts /\ pixel_boundary w h (Some 0%Z) = Ok pts /\ length pts = 8%nat /\
  Forall (on_edge w h) pts /\ incl (corners w h) pts /\ incl (side_mids w h) pts.
Proof.
  intros w h Hw Hh. exists (boundary8 w h). split; [reflexivity|]. split; [reflexivity|]. split; [reflexivity|].
  assert (A : 0 <= IZR w - 1) by (apply IZR_le in Hw; lra). assert (B : 0 <= IZR h - 1) by (apply IZR_le in Hh; lra).
  split; [|split].
  - unfold boundary8. repeat apply Forall_cons; try apply Forall_nil; unfold on_edge, in_image; cbn [fst snd]; (split; [split; lra|tauto]).
  - intros p Hp. unfold corners in Hp. cbn [In] in Hp. unfold boundary8. cbn [In]. tauto.
  - intros p Hp. unfold side_mids in Hp. cbn [In] in Hp. unfold boundary8. cbn [In]. tauto.
Qed.

Theorem boundary_odd : forall w h n pts, (1 <= w)%Z -> (1 <= h)%Z -> (2 < w + h)%Z -> (0 < n)%Z -> Z.Odd n ->
  pixel_boundary w h (Some n) = Ok pts -> Z.of_nat (length pts) <> n.
Proof.
  intros w h n pts Hw Hh Hwh Hn Ho H E. rewrite boundary_eq in H by assumption. injection H as <-. rewrite rect_length in E by assumption.
  destruct Ho as [k Hk]. lia.
Qed.

Theorem boundary_empty : forall w, (2 <= w)%Z -> pixel_boundary w w (Some 2%Z) = Ok [].
Proof.
  intros w Hw. rewrite boundary_eq by lia. f_equal. assert (E : round_div (2 * (w - 1)) (2 * (w - 1 + (w - 1))) = 0%Z).
  { pose proof (round_div_bound (2 * (w - 1)) (2 * (w - 1 + (w - 1))) ltac:(lia)) as B.
    unfold round_div. rewrite Z.div_small, Z.mod_small by lia.
    destruct (Z.ltb_spec (2 * (2 * (w - 1))) (2 * (w - 1 + (w - 1)))); [lia|].
    destruct (Z.ltb_spec (2 * (w - 1 + (w - 1))) (2 * (2 * (w - 1)))); [lia|]. reflexivity. }
  unfold rect_pts. rewrite E. reflexivity.
Qed.

Theorem boundary_drops_corner : exists pts, pixel_boundary 1000 2 (Some 400%Z) = Ok pts /\ ~ In (IZR 1000 - 1, 0) pts.
Proof.
  exists (rect_pts 1000 2 400). split; [apply boundary_eq; lia|].
  unfold rect_pts. replace (round_div (400 * (1000 - 1)) (2 * (1000 - 1 + (2 - 1)))) with 200%Z by reflexivity.
  replace (round_div (400 * (2 - 1)) (2 * (1000 - 1 + (2 - 1)))) with 0%Z by reflexivity.
  rewrite !in_app_iff. intros [H|[H|[H|H]]]; try (apply seg_in in H; destruct H as (k & Hk & _); lia); apply seg_in in H; destruct H as (k & Hk & E); unfold pt in E; cbn [fst snd] in E; injection E as E1 E2.
  - apply lt_INR in Hk. replace (INR (Z.to_nat 200)) with 200 in * by (rewrite INR_IZR_INZ; reflexivity).
    replace (IZR (1000 - 1)) with 999 in E1 by reflexivity. lra.
  - replace (IZR (2 - 1)) with 1 in E2 by reflexivity. lra.
Qed.

(** * Frame cameras *)
Lemma clip_in : forall w h ji, (1 <= w)%Z -> (1 <= h)%Z -> in_image w h (clip_pixel w h ji).
Proof.
  intros w h [j i] Hw Hh. apply IZR_le in Hw, Hh. unfold in_image, clip_pixel. cbn [fst snd].
  unfold Rmin, Rmax. destruct (Rle_dec j 0); destruct (Rle_dec i 0); destruct (Rle_dec _ (IZR w - 1)); destruct (Rle_dec _ (IZR h - 1)); lra.
Qed.
Lemma clip_id : forall w h ji, in_image w h ji -> clip_pixel w h ji = ji.
Proof.
  intros w h [j i] [Hj Hi]. unfold clip_pixel. cbn [fst snd] in *.
  rewrite (Rmax_left j), (Rmax_left i), Rmin_left, Rmin_left by lra. reflexivity.
Qed.

Theorem frame_boundary_in : forall c w h num_pts pts, (1 <= w)%Z -> (1 <= h)%Z ->
  frame_pixel_boundary c w h num_pts = Ok pts -> fr_distort c = false -> Forall (in_image w h) pts.
Proof.
  intros c w h num_pts pts Hw Hh H D. unfold frame_pixel_boundary in H. destruct (pixel_boundary w h num_pts) as [ji|]; [|discriminate].
  cbn [bind] in H. rewrite D in H. injection H as <-. apply Forall_forall. intros p Hp. apply in_map_iff in Hp. destruct Hp as (q & <- & _).
  apply clip_in; assumption.
Qed.

Lemma boundary8_samples : forall w h p, In p (boundary8 w h) -> exists x y, (x <= 8)%nat /\ (y <= 8)%nat /\ p = sample_pixel w h x y.
Proof.
  intros w h p Hp. unfold boundary8 in Hp. cbn [In] in Hp. unfold sample_pixel.
  destruct Hp as [<-|[<-|[<-|[<-|[<-|[<-|[<-|[<-|[]]]]]]]]];
    [exists 0%nat, 0%nat|exists 4%nat, 0%nat|exists 8%nat, 0%nat|exists 8%nat, 4%nat|exists 8%nat, 8%nat|exists 4%nat, 8%nat|exists 0%nat, 8%nat|exists 0%nat, 4%nat];
    (split; [lia|]; split; [lia|]; cbn [INR]; f_equal; field).
Qed.

Theorem boundary_alpha_one : forall l alpha r t w h, (1 < w)%Z -> (1 < h)%Z -> 1 <= alpha ->
  nonempty (fst (get_rectangles (l_inv l) w h)) -> nonempty (snd (get_rectangles (l_inv l) w h)) ->
  let ku := undistort_intrinsic (l_inv l) w h alpha in
  frame_pixel_boundary (Frame l ku false r t) w h None = Ok (map (fun p => k_apply ku (l_inv l p)) (boundary8 w h)).
Proof.
  intros l alpha r t w h Hw Hh Ha Hi Ho ku. unfold frame_pixel_boundary. cbn [pixel_boundary bind fr_distort]. f_equal.
  apply map_ext_in. intros p Hp. unfold undistort_pixel. cbn [fr_ku fr_lens]. apply clip_id.
  destruct (boundary8_samples w h p Hp) as (x & y & Hx & Hy & ->). apply alpha_one_keeps_all; assumption.
Qed.

(** * Surface intersection *)
Lemma hits_iff : forall surf p, hits surf p = true <-> below surf p.
Proof.
  intros surf p. unfold hits, below. destruct (surf (vx p, vy p)) as [|s]; [split; [discriminate|intros (s & E & _); discriminate]|].
  destruct (Rle_dec (vz p) s) as [L|L]; split; try discriminate; try reflexivity; intros H.
  - exists s. auto.
  - destruct H as (s' & E & H). injection E as <-. contradiction.
Qed.

Lemma find_or_last : forall A (f : A -> bool) l d, l <> [] -> exists k, (k < length l)%nat /\
  (match find f l with Some p => p | None => last l d end) = nth k l d /\
  ((f (nth k l d) = true /\ forall j, (j < k)%nat -> f (nth j l d) = false) \/
   (k = (length l - 1)%nat /\ forall j, (j < length l)%nat -> f (nth j l d) = false)).
Proof.
  intros A f l d. induction l as [|x l IH]; intros H; [contradiction|]. cbn [find]. destruct (f x) eqn:E.
  - exists 0%nat. cbn. split; [lia|]. split; [reflexivity|]. left. split; [exact E|lia].
  - destruct l as [|y l].
    + exists 0%nat. cbn. split; [lia|]. split; [reflexivity|]. right. split; [lia|]. intros j Hj. assert (j = 0)%nat by lia. subst. exact E.
    + destruct IH as (k & Hk & R1 & R2); [discriminate|]. exists (S k). change (last (x :: y :: l) d) with (last (y :: l) d). 
      split; [cbn in *; lia|]. split; [exact R1|]. destruct R2 as [[R2 R3]|[R2 R3]]; [left|right].
      * split; [exact R2|]. intros [|j] Hj; [exact E|]. cbn. apply R3. lia.
      * split; [cbn in *; lia|]. intros [|j] Hj; [exact E|]. cbn. apply R3. cbn in *. lia.
Qed.

Lemma linspace_length : forall a b n, length (linspace a b n) = n.
Proof. intros a b [|[|n]]; [reflexivity|reflexivity|]. unfold linspace. rewrite map_length, seq_length. reflexivity. Qed.
Lemma linspace_nth : forall a b n k d, (k < n)%nat -> nth k (linspace a b n) d = sample_z a b n k.
Proof.
  intros a b n k d Hk. unfold sample_z. destruct n as [|[|n]]; [lia| |].
  - assert (k = 0)%nat by lia. subst. cbn. unfold Rdiv. ring.
  - unfold linspace. rewrite (nth_indep _ d (a + INR 0 * ((b - a) / INR (S (S n) - 1)))) by (rewrite map_length, seq_length; exact Hk).
    rewrite (map_nth (fun k => a + INR k * ((b - a) / INR (S (S n) - 1)))), seq_nth by exact Hk. cbn [plus]. unfold Rdiv. ring.
Qed.

Lemma Rceil_nonneg : forall x, 0 <= x -> (0 <= Rceil x)%Z.
Proof. intros x H. destruct (Rceil_bound x) as [B _]. apply le_IZR. lra. Qed.

Lemma ray_steps_pos : forall a b t m, (1 <= m)%Z -> (1 <= ray_steps a b t m)%Z.
Proof.
  intros a b t m Hm. unfold ray_steps. match goal with |- context [Rceil ?x] => assert (0 <= Rceil x)%Z end; [|lia].
  apply Rceil_nonneg. eapply Rle_trans; [apply Rabs_pos|apply Rmax_l].
Qed.

Theorem first_intersection : forall p2w surf t zh zw min_z max_z,
  let n := Z.to_nat (ray_steps (p2w max_z) (p2w min_z) t (max_ray_steps zh zw)) in
  let sample k := p2w (sample_z max_z min_z n k) in
  exists k, (k < n)%nat /\ pixel_to_world_surf p2w surf t zh zw min_z max_z = sample k /\
  ((below surf (sample k) /\ forall j, (j < k)%nat -> ~ below surf (sample j)) \/
   (k = (n - 1)%nat /\ forall j, (j < n)%nat -> ~ below surf (sample j))).
Proof.
  intros p2w surf t zh zw min_z max_z n sample.
  assert (Hn : (1 <= n)%nat). { unfold n. pose proof (ray_steps_pos (p2w max_z) (p2w min_z) t (max_ray_steps zh zw)) as Q. unfold max_ray_steps in *. lia. }
  unfold pixel_to_world_surf, ray_samples. fold n.
  assert (L : length (map p2w (linspace max_z min_z n)) = n) by (rewrite map_length, linspace_length; reflexivity).
  assert (Nth : forall k, (k < n)%nat -> nth k (map p2w (linspace max_z min_z n)) (p2w max_z) = sample k).
  { intros k Hk. rewrite map_nth, linspace_nth by exact Hk. reflexivity. }
  destruct (find_or_last _ (hits surf) (map p2w (linspace max_z min_z n)) (p2w max_z)) as (k & Hk & R1 & R2).
  { intros E. rewrite E in L. cbn in L. lia. }
  rewrite L in Hk, R2. exists k. split; [exact Hk|]. rewrite Nth in R1 by exact Hk. split; [exact R1|].
  assert (F : forall j, (j < n)%nat -> hits surf (nth j (map p2w (linspace max_z min_z n)) (p2w max_z)) = false -> ~ below surf (sample j)).
  { intros j Hj E B. rewrite Nth in E by exact Hj. apply hits_iff in B. congruence. }
  destruct R2 as [[R2 R3]|[R2 R3]]; [left|right].
  - split; [rewrite Nth in R2 by exact Hk; apply hits_iff, R2|]. intros j Hj. apply F; [lia|]. apply R3, Hj.
  - split; [exact R2|]. intros j Hj. apply F; [exact Hj|]. apply R3, Hj.
Qed.

Theorem sample_spacing : forall p2w t zh zw min_z max_z, straight p2w -> ta t <> 0 -> te t <> 0 ->
  let n := Z.to_nat (ray_steps (p2w max_z) (p2w min_z) t (max_ray_steps zh zw)) in
  let sample k := p2w (sample_z max_z min_z n k) in
  (Z.of_nat n < max_ray_steps zh zw)%Z ->
  forall k, (S k < n)%nat ->
  Rabs (vx (sample (S k)) - vx (sample k)) <= Rabs (ta t) /\ Rabs (vy (sample (S k)) - vy (sample k)) <= Rabs (te t).
Proof.
  intros p2w t zh zw min_z max_z (ox & dx & oy & dy & Hs) Ha He n sample Hlim k Hk.
  assert (A : 0 < Rabs (ta t)) by (apply Rabs_pos_lt; assumption). assert (E : 0 < Rabs (te t)) by (apply Rabs_pos_lt; assumption).
  assert (B : Rmax (Rabs ((vx (p2w min_z) - vx (p2w max_z)) / ta t)) (Rabs ((vy (p2w min_z) - vy (p2w max_z)) / te t)) <= INR (n - 1)).
  { unfold n in Hlim |- *. unfold ray_steps in *. set (m := Rmax _ _) in *. clearbody m.
    pose proof (Rceil_bound m) as [C _]. eapply Rle_trans; [exact C|]. rewrite INR_IZR_INZ. apply IZR_le. lia. }
  assert (N : 0 < INR (n - 1)) by (apply lt_0_INR; lia).
  assert (SZ : sample_z max_z min_z n (S k) - sample_z max_z min_z n k = (min_z - max_z) / INR (n - 1)).
  { unfold sample_z. rewrite S_INR. field. lra. }
  rewrite !Hs in B. unfold sample. rewrite !Hs. cbn [vx vy] in *.
  assert (Ax : forall o d a, 0 < Rabs a -> a <> 0 -> Rabs ((o + min_z * d - (o + max_z * d)) / a) <= INR (n - 1) ->
    Rabs (o + sample_z max_z min_z n (S k) * d - (o + sample_z max_z min_z n k * d)) <= Rabs a).
  { intros o d a Hp Ha' H. replace (o + sample_z max_z min_z n (S k) * d - (o + sample_z max_z min_z n k * d)) with ((sample_z max_z min_z n (S k) - sample_z max_z min_z n k) * d) by ring.
    rewrite SZ. replace ((o + min_z * d - (o + max_z * d)) / a) with ((min_z - max_z) * d * / a) in H by (field; assumption).
    rewrite Rabs_mult, Rabs_inv in H. replace ((min_z - max_z) / INR (n - 1) * d) with ((min_z - max_z) * d * / INR (n - 1)) by (field; lra).
    rewrite Rabs_mult, Rabs_inv, (Rabs_pos_eq (INR (n - 1))) by lra. set (q := Rabs ((min_z - max_z) * d)) in *. clearbody q.
    apply (Rmult_le_reg_r (INR (n - 1))); [exact N|]. rewrite Rmult_assoc, Rinv_l, Rmult_1_r by lra.
    apply (Rmult_le_compat_r (Rabs a)) in H; [|lra]. rewrite Rmult_assoc, Rinv_l, Rmult_1_r in H by lra. lra. }
  split; apply Ax; try assumption.
  - eapply Rle_trans; [apply Rmax_l|exact B].
  - eapply Rle_trans; [apply Rmax_r|exact B].
Qed.

Theorem lowest_sample : forall max_z min_z n, (2 <= n)%nat -> sample_z max_z min_z n (n - 1) = min_z /\ sample_z max_z min_z n 0 = max_z.
Proof. intros max_z min_z n Hn. unfold sample_z. assert (INR (n - 1) <> 0) by (apply not_0_INR; lia). split; [field; assumption|cbn; field; assumption]. Qed.

Theorem vertical_ray : forall p2w surf t zh zw min_z max_z,
  vx (p2w max_z) = vx (p2w min_z) -> vy (p2w max_z) = vy (p2w min_z) ->
  pixel_to_world_surf p2w surf t zh zw min_z max_z = p2w max_z.
Proof.
  intros p2w surf t zh zw min_z max_z Ex Ey. unfold pixel_to_world_surf, ray_samples, ray_steps. rewrite Ex, Ey.
  rewrite !Rminus_diag_eq by reflexivity. unfold Rdiv. rewrite !Rmult_0_l, Rabs_R0. rewrite Rmax_left by lra.
  replace (Rceil 0) with 0%Z. 2:{ pose proof (Rceil_bound 0) as [B1 B2]. apply le_IZR in B1. rewrite Rplus_0_l in B2. apply lt_IZR in B2. lia. }
  replace (Z.min (0 + 1) (max_ray_steps zh zw)) with 1%Z by (unfold max_ray_steps; lia). change (Z.to_nat 1) with 1%nat. cbn [linspace map find last]. destruct (hits surf (p2w max_z)); reflexivity.
Qed.

(** The rays of a frame camera are straight. *)
Theorem frame_ray_straight : forall c ji, vz (ray c ji) <> 0 ->
  exists p2w, straight p2w /\ forall z, pixel_to_world_z c ji z = Some (p2w z).
Proof.
  intros c ji H. exists (fun z => V3 (vx (fr_T c) - vz (fr_T c) / vz (ray c ji) * vx (ray c ji) + z * (vx (ray c ji) / vz (ray c ji)))
                                     (vy (fr_T c) - vz (fr_T c) / vz (ray c ji) * vy (ray c ji) + z * (vy (ray c ji) / vz (ray c ji))) z).
  split; [eexists _, _, _, _; reflexivity|]. intros z. unfold pixel_to_world_z. destruct (Req_EM_T _ _); [contradiction|].
  f_equal. unfold vadd, vscale. cbn [vx vy vz]. f_equal; field; exact H.
Qed.

(** * Areas *)
Definition cr (p q : R * R) : R := fst p * snd q - fst q * snd p.

Lemma fan_dot : forall l f, l <> [] ->
  dot_list (map fst l) (map snd (tl l) ++ [snd f]) - dot_list (map fst (tl l) ++ [fst f]) (map snd l) = 2 * fan (0, 0) f l.
Proof.
  induction l as [|p [|q l] IH]; intros f H; [contradiction| |].
  - unfold dot_list, fan, tri. cbn. field.
  - specialize (IH f ltac:(discriminate)). cbn [tl map app] in *. unfold dot_list in *. cbn [combine map fold_right fst snd] in *.
    change (fan (0, 0) f (p :: q :: l)) with (tri (0, 0) p q + fan (0, 0) f (q :: l)). rewrite Rmult_plus_distr_l. rewrite <- IH. unfold tri. cbn [fst snd]. field.
Qed.

Lemma fan_origin : forall o l f, l <> [] -> fan o f l = fan (0, 0) f l + cr o (hd f l) / 2 - cr o f / 2.
Proof.
  intros o. induction l as [|p [|q l] IH]; intros f H; [contradiction| |].
  - unfold fan, tri, cr. cbn. field.
  - change (fan o f (p :: q :: l)) with (tri o p q + fan o f (q :: l)). change (fan (0, 0) f (p :: q :: l)) with (tri (0, 0) p q + fan (0, 0) f (q :: l)).
    rewrite IH by discriminate. cbn [hd]. unfold tri, cr. cbn [fst snd]. field.
Qed.

Theorem area_poly_signed : forall l o, area_poly l = Rabs (signed_area o l).
Proof.
  intros [|p l] o.
  - unfold area_poly, dot_list. cbn. rewrite Rminus_0_r, Rabs_R0. ring.
  - unfold signed_area. rewrite fan_origin by discriminate. cbn [hd]. replace (fan (0, 0) p (p :: l) + cr o p / 2 - cr o p / 2) with (fan (0, 0) p (p :: l)) by ring.
    pose proof (fan_dot (p :: l) p ltac:(discriminate)) as H. cbn [tl] in H. unfold area_poly. cbn [map roll] in *. rewrite H.
    rewrite Rabs_mult, (Rabs_pos_eq 2) by lra. field.
Qed.

Definition aff2 (a b c d e f : R) (p : R * R) : R * R := (a * fst p + b * snd p + c, d * fst p + e * snd p + f).

Lemma fan_aff : forall a b c d e f o first l,
  fan (aff2 a b c d e f o) (aff2 a b c d e f first) (map (aff2 a b c d e f) l) = (a * e - b * d) * fan o first l.
Proof.
  intros a b c d e f o first. induction l as [|p [|q l] IH]; [cbn; ring| |].
  - cbn [map fan]. unfold tri, aff2. cbn [fst snd]. field.
  - change (fan (aff2 a b c d e f o) (aff2 a b c d e f first) (map (aff2 a b c d e f) (p :: q :: l))) with
      (tri (aff2 a b c d e f o) (aff2 a b c d e f p) (aff2 a b c d e f q) + fan (aff2 a b c d e f o) (aff2 a b c d e f first) (map (aff2 a b c d e f) (q :: l))).
    rewrite IH. change (fan o first (p :: q :: l)) with (tri o p q + fan o first (q :: l)). unfold tri, aff2. cbn [fst snd]. field.
Qed.

Lemma area_aff : forall a b c d e f l, area_poly (map (aff2 a b c d e f) l) = Rabs (a * e - b * d) * area_poly l.
Proof.
  intros a b c d e f l. rewrite (area_poly_signed (map _ l) (aff2 a b c d e f (0, 0))), (area_poly_signed l (0, 0)). destruct l as [|p l].
  - cbn. rewrite Rabs_R0. ring.
  - unfold signed_area. cbn [map]. change (aff2 a b c d e f p :: map (aff2 a b c d e f) l) with (map (aff2 a b c d e f) (p :: l)).
    rewrite fan_aff, Rabs_mult. reflexivity.
Qed.

Lemma area_boundary8 : forall w h, (1 <= w)%Z -> (1 <= h)%Z -> area_poly (boundary8 w h) = (IZR w - 1) * (IZR h - 1).
Proof.
  intros w h Hw Hh. rewrite (area_poly_signed _ (0, 0)). apply IZR_le in Hw, Hh. rewrite <- (Rabs_pos_eq ((IZR w - 1) * (IZR h - 1))) by nra.
  f_equal. unfold signed_area, boundary8, fan, tri. cbn [fst snd]. field.
Qed.

Lemma area_nonneg : forall l, 0 <= area_poly l.
Proof. intros l. rewrite (area_poly_signed l (0, 0)). apply Rabs_pos. Qed.

Theorem gsd_area : forall ji xy, 0 < area_poly ji ->
  let gsd := gsd_of ji xy in gsd * gsd * area_poly ji = area_poly xy /\ 0 <= gsd /\ (0 < area_poly xy -> 0 < gsd).
Proof.
  intros ji xy H gsd. unfold gsd, gsd_of. assert (Q : 0 <= area_poly xy / area_poly ji). { apply Rmult_le_pos; [apply area_nonneg|apply Rlt_le, Rinv_0_lt_compat, H]. }
  split; [rewrite sqrt_sqrt by exact Q; field; lra|]. split; [apply sqrt_pos|]. intros Hp. apply sqrt_lt_R0. apply Rdiv_lt_0_compat; assumption.
Qed.

(** * Nadir cameras *)
Lemma nadir_entries : forall r, nadir r -> exists a b d e, r = mk a b 0 d e 0 0 0 (-1) /\ a * e - b * d = -1.
Proof.
  intros [[a b c] [d e f] [g h i]] [[Ho Hd] Hz].
  assert (c = 0 /\ f = 0 /\ i = -1) as (-> & -> & ->).
  { unfold mvec, dot in Hz. cbn in Hz. injection Hz as E1 E2 E3. lra. }
  assert (g = 0 /\ h = 0) as [-> ->].
  { unfold mmul, mtr, mvec, dot, mI, mk in Ho. cbn in Ho. injection Ho as ? ? E1 ? ? E2 ? ? ?. lra. }
  exists a, b, d, e. split; [reflexivity|]. unfold det, dot, cross in Hd. cbn in Hd. lra.
Qed.

Lemma all_some_map : forall A B (f : A -> option B) (g : A -> B) l, (forall x, In x l -> f x = Some (g x)) -> all_some (map f l) = Some (map g l).
Proof. intros A B f g l. induction l as [|x l IH]; intros H; [reflexivity|]. cbn. rewrite H by (left; reflexivity). rewrite IH by (intros; apply H; right; assumption). reflexivity. Qed.

Lemma pinhole_boundary : forall k d r t w h, (1 <= w)%Z -> (1 <= h)%Z -> kfx k <> 0 -> kfy k <> 0 ->
  frame_pixel_boundary (Frame (pinhole k) k d r t) w h None = Ok (boundary8 w h).
Proof.
  intros k d r t w h Hw Hh Hx Hy. unfold frame_pixel_boundary. cbn [pixel_boundary bind fr_distort]. destruct d; [reflexivity|]. f_equal.
  rewrite <- (map_id (boundary8 w h)) at 2. apply map_ext_in. intros p Hp. unfold undistort_pixel. cbn [fr_ku fr_lens pinhole l_inv].
  rewrite k_apply_solve by assumption. apply clip_id. destruct (boundary_default w h Hw Hh) as (pts & E & _ & _ & F & _). injection E as <-.
  rewrite Forall_forall in F. apply F, Hp.
Qed.

Lemma pinhole_ray : forall k d r t ji, ray (Frame (pinhole k) k d r t) ji = mvec r (V3 (fst (k_solve k ji)) (snd (k_solve k ji)) 1).
Proof. intros k d r t ji. unfold ray, active_lens. cbn [fr_distort fr_lens fr_ku fr_R]. destruct d; reflexivity. Qed.

Theorem nadir_gsd : forall k d r t w h z, 0 < kfx k -> 0 < kfy k -> nadir r -> (1 < w)%Z -> (1 < h)%Z -> z < vz t ->
  get_gsd (Frame (pinhole k) k d r t) w h z = Ok (Some ((vz t - z) / sqrt (kfx k * kfy k))).
Proof.
  intros k d r t w h z Fx Fy Hr Hw Hh Hz. destruct (nadir_entries r Hr) as (a & b & p & e & -> & Hdet). set (c := Frame _ _ _ _ _).
  assert (RZ : forall ji, vz (ray c ji) = -1) by (intros ji; unfold c; rewrite pinhole_ray; unfold mvec, dot, mk; cbn; ring).
  assert (HF : horizon_fov c w h = false).
  { unfold horizon_fov. apply not_true_is_false. intros E. apply existsb_exists in E. destruct E as (ji & _ & E). destruct (Rle_dec _ _) as [L|L]; [|discriminate].
    unfold c, mvec, dot, mk in L. cbn in L. lra. }
  unfold get_gsd, world_boundary_z. rewrite HF. unfold c at 1. rewrite pinhole_boundary by (lia || lra). cbn [bind].
  unfold c at 1. rewrite pinhole_boundary by (lia || lra). cbn [bind]. rewrite Rmin_left by (cbn; lra).
  set (g := fun ji => vadd (vscale (vz t - z) (ray c ji)) t).
  rewrite (all_some_map _ _ _ g).
  2:{ intros ji _. unfold pixel_to_world_z. rewrite RZ. destruct (Req_EM_T (-1) 0); [exfalso; lra|]. f_equal. unfold g. f_equal. f_equal. cbn [c fr_T]. field. }
  cbn [option_map]. f_equal. f_equal. unfold gsd_of. rewrite map_map. set (H := vz t - z). assert (HH : 0 < H) by (unfold H; lra).
  rewrite (map_ext_in _ (aff2 (H * a / kfx k) (H * b / kfy k) (vx t - H * a * kcx k / kfx k - H * b * kcy k / kfy k)
                            (H * p / kfx k) (H * e / kfy k) (vy t - H * p * kcx k / kfx k - H * e * kcy k / kfy k))).
  2:{ intros [j i] _. unfold g, c. rewrite pinhole_ray. unfold aff2, mvec, dot, mk, k_solve, vadd, vscale. cbn [vx vy vz row0 row1 row2 fst snd]. fold H.
      f_equal; field; lra. }
  rewrite area_aff, area_boundary8 by lia. apply IZR_lt in Hw, Hh.
  replace (H * a / kfx k * (H * e / kfy k) - H * b / kfy k * (H * p / kfx k)) with (H * H / (kfx k * kfy k) * (a * e - b * p)) by (field; lra).
  rewrite Hdet, Rabs_mult. replace (Rabs (-1)) with 1 by (rewrite Rabs_left; lra). rewrite Rmult_1_r.
  assert (0 < H * H / (kfx k * kfy k)) by (apply Rdiv_lt_0_compat; nra). rewrite Rabs_pos_eq by lra.
  replace (H * H / (kfx k * kfy k) * ((IZR w - 1) * (IZR h - 1)) / ((IZR w - 1) * (IZR h - 1))) with (H * H / (kfx k * kfy k)) by (field; split; [|split]; nra).
  rewrite sqrt_div_alt by nra. rewrite sqrt_square by lra. reflexivity.
Qed.

Corollary nadir_gsd_f : forall k d r t w h z, 0 < kfx k -> kfy k = kfx k -> nadir r -> (1 < w)%Z -> (1 < h)%Z -> z < vz t ->
  get_gsd (Frame (pinhole k) k d r t) w h z = Ok (Some ((vz t - z) / kfx k)).
Proof.
  intros k d r t w h z Fx Fy Hr Hw Hh Hz. rewrite nadir_gsd by (assumption || lra). rewrite Fy, sqrt_square by lra. reflexivity.
Qed.

(** * DEM window *)
Lemma Rfloor_bound : forall x, IZR (Rfloor x) <= x < IZR (Rfloor x) + 1.
Proof. intros x. unfold Rfloor. destruct (archimed x). rewrite minus_IZR. lra. Qed.
Lemma Rfloor_mono : forall x y, x <= y -> (Rfloor x <= Rfloor y)%Z.
Proof. intros x y H. destruct (Rfloor_bound x), (Rfloor_bound y). assert (IZR (Rfloor x) < IZR (Rfloor y + 1)) by (rewrite plus_IZR; lra). apply lt_IZR in H4. lia. Qed.
Lemma Rceil_mono : forall x y, x <= y -> (Rceil x <= Rceil y)%Z.
Proof. intros x y H. destruct (Rceil_bound x), (Rceil_bound y). assert (IZR (Rceil x) < IZR (Rceil y + 1)) by (rewrite plus_IZR; lra). apply lt_IZR in H4. lia. Qed.
Lemma Rfloor_eq : forall x z, IZR z <= x < IZR z + 1 -> Rfloor x = z.
Proof. intros x z H. destruct (Rfloor_bound x) as [B1 B2]. assert (A : IZR (Rfloor x) < IZR (z + 1)) by (rewrite plus_IZR; lra). assert (B : IZR z < IZR (Rfloor x + 1)) by (rewrite plus_IZR; lra). apply lt_IZR in A, B. lia. Qed.
Lemma Rceil_eq : forall x z, IZR z - 1 < x <= IZR z -> Rceil x = z.
Proof. intros x z H. destruct (Rceil_bound x) as [B1 B2]. assert (A : IZR (Rceil x) < IZR (z + 1)) by (rewrite plus_IZR; lra). assert (B : IZR (z - 1) < IZR (Rceil x)) by (rewrite minus_IZR; lra). apply lt_IZR in A, B. lia. Qed.

Lemma win_mono : forall H W t b2 b1 w2, 0 < ta t -> te t < 0 -> bounds_within b2 b1 -> win_of_bounds H W t b2 = Ok w2 ->
  exists w1, win_of_bounds H W t b1 = Ok w1 /\ within w2 w1 /\ win_intersection w2 w1 = Ok w2.
Proof.
  intros H W t b2 b1 w2 Ha He (B1 & B2 & B3 & B4) Hw. unfold win_of_bounds in *.
  assert (ML : forall x y, x <= y -> (x - tc t) / ta t <= (y - tc t) / ta t).
  { intros x y L. unfold Rdiv. apply Rmult_le_compat_r; [apply Rlt_le, Rinv_0_lt_compat; lra|lra]. }
  assert (MT : forall x y, x <= y -> (y - tf t) / te t <= (x - tf t) / te t).
  { intros x y L. unfold Rdiv. assert (/ te t < 0) by (apply Rinv_lt_0_compat; lra). nra. }
  pose proof (ML _ _ B1) as M1. pose proof (ML _ _ B2) as M2. pose proof (MT _ _ B3) as M3. pose proof (MT _ _ B4) as M4.
  set (l1 := (b_left b1 - tc t) / ta t) in *. set (l2 := (b_left b2 - tc t) / ta t) in *. set (r1 := (b_right b1 - tc t) / ta t) in *. set (r2 := (b_right b2 - tc t) / ta t) in *.
  set (t1 := (b_top b1 - tf t) / te t) in *. set (t2 := (b_top b2 - tf t) / te t) in *. set (u1 := (b_bottom b1 - tf t) / te t) in *. set (u2 := (b_bottom b2 - tf t) / te t) in *.
  clearbody l1 l2 r1 r2 t1 t2 u1 u2.
  assert (C1 : Rmax 0 l1 <= Rmax 0 l2) by (apply Rle_max_compat_l; lra). assert (C2 : Rmin (IZR W) r2 <= Rmin (IZR W) r1) by (apply Rle_min_compat_l; lra).
  assert (C3 : Rmax 0 t1 <= Rmax 0 t2) by (apply Rle_max_compat_l; lra). assert (C4 : Rmin (IZR H) u2 <= Rmin (IZR H) u1) by (apply Rle_min_compat_l; lra).
  set (a1 := Rmax 0 l1) in *. set (a2 := Rmax 0 l2) in *. set (c1 := Rmin (IZR W) r1) in *. set (c2 := Rmin (IZR W) r2) in *.
  set (d1 := Rmax 0 t1) in *. set (d2 := Rmax 0 t2) in *. set (e1 := Rmin (IZR H) u1) in *. set (e2 := Rmin (IZR H) u2) in *.
  clearbody a1 a2 c1 c2 d1 d2 e1 e2.
  destruct (Rlt_dec a2 c2) as [L1|L1]; [|discriminate]. destruct (Rlt_dec d2 e2) as [L2|L2]; [|discriminate]. cbn [andb] in Hw. injection Hw as <-.
  destruct (Rlt_dec a1 c1) as [L3|L3]; [|lra]. destruct (Rlt_dec d1 e1) as [L4|L4]; [|lra]. cbn [andb]. eexists. split; [reflexivity|].
  pose proof (Rfloor_mono _ _ C1). pose proof (Rceil_mono _ _ C2). pose proof (Rfloor_mono _ _ C3). pose proof (Rceil_mono _ _ C4).
  assert (P1 : (Rfloor a2 < Rceil c2)%Z). { destruct (Rfloor_bound a2), (Rceil_bound c2). apply lt_IZR. lra. }
  assert (P2 : (Rfloor d2 < Rceil e2)%Z). { destruct (Rfloor_bound d2), (Rceil_bound e2). apply lt_IZR. lra. }
  split; [unfold within; cbn [col_off row_off width height]; lia|]. unfold win_intersection. cbn [col_off row_off width height].
  match goal with |- context [(0 <? ?x)%Z && (0 <? ?y)%Z] => destruct (Z.ltb_spec 0 x); [|lia]; destruct (Z.ltb_spec 0 y); [|lia] end.
  cbn [andb]. f_equal. f_equal; lia.
Qed.

Definition p2w_tot (c : frame) (z : R) (ji : R * R) : vec := vadd (vscale ((z - vz (fr_T c)) / vz (ray c ji)) (ray c ji)) (fr_T c).

Lemma between : forall (c : frame) ji z0 z z3, z0 <= z <= z3 ->
  (Rmin (vx (p2w_tot c z0 ji)) (vx (p2w_tot c z3 ji)) <= vx (p2w_tot c z ji) <= Rmax (vx (p2w_tot c z0 ji)) (vx (p2w_tot c z3 ji))) /\
  (Rmin (vy (p2w_tot c z0 ji)) (vy (p2w_tot c z3 ji)) <= vy (p2w_tot c z ji) <= Rmax (vy (p2w_tot c z0 ji)) (vy (p2w_tot c z3 ji))).
Proof.
  intros c ji z0 z z3 H. unfold p2w_tot, vadd, vscale. cbn [vx vy]. set (T := fr_T c). set (r := ray c ji). clearbody T r.
  assert (G : forall d o, Rmin ((z0 - vz T) / vz r * d + o) ((z3 - vz T) / vz r * d + o) <= (z - vz T) / vz r * d + o <= Rmax ((z0 - vz T) / vz r * d + o) ((z3 - vz T) / vz r * d + o)).
  { intros d o. set (s := / vz r * d). replace ((z0 - vz T) / vz r * d) with ((z0 - vz T) * s) by (unfold s, Rdiv; ring).
    replace ((z3 - vz T) / vz r * d) with ((z3 - vz T) * s) by (unfold s, Rdiv; ring). replace ((z - vz T) / vz r * d) with ((z - vz T) * s) by (unfold s, Rdiv; ring).
    clearbody s. destruct (Rle_dec 0 s).
    - rewrite Rmin_left, Rmax_right by nra. nra.
    - rewrite Rmin_right, Rmax_left by nra. nra. }
  split; apply G.
Qed.

Lemma world_boundary_tot : forall c w h z ji, horizon_fov c w h = false -> frame_pixel_boundary c w h None = Ok ji ->
  Forall (fun p => vz (ray c p) <> 0) ji ->
  world_boundary_z c w h None true z = Ok (map (fun p => Some (p2w_tot c (Rmin z (vz (fr_T c))) p)) ji).
Proof.
  intros c w h z ji HF Hj Hr. unfold world_boundary_z. rewrite HF, Hj. cbn [bind]. f_equal. apply map_ext_in. intros p Hp.
  rewrite Forall_forall in Hr. specialize (Hr p Hp). unfold pixel_to_world_z. destruct (Req_EM_T _ _); [contradiction|]. reflexivity.
Qed.

Lemma all_some_app : forall A (l1 l2 : list (option A)) r1 r2, all_some l1 = Some r1 -> all_some l2 = Some r2 -> all_some (l1 ++ l2) = Some (r1 ++ r2).
Proof.
  intros A l1. induction l1 as [|[x|] l1 IH]; intros l2 r1 r2 H1 H2; cbn in *; [injection H1 as <-; exact H2| |discriminate].
  destruct (all_some l1) as [r|] eqn:E; [|discriminate]. injection H1 as <-. rewrite (IH l2 r r2 eq_refl H2). reflexivity.
Qed.

Lemma win_at_two : forall c w h to_dem dh dw t z1 z2 ji, horizon_fov c w h = false -> frame_pixel_boundary c w h None = Ok ji ->
  Forall (fun p => vz (ray c p) <> 0) ji ->
  let m z := Rmin z (vz (fr_T c)) in
  get_win_at_zs c w h to_dem dh dw t [z1; z2] =
  win_of_bounds dh dw t (to_dem (bounds_of (map (p2w_tot c (m z1)) ji ++ map (p2w_tot c (m z2)) ji))).
Proof.
  intros c w h to_dem dh dw t z1 z2 ji HF Hj Hr m. unfold get_win_at_zs. cbn [mapM]. rewrite !(world_boundary_tot c w h _ ji) by assumption. cbn [bind concat].
  rewrite app_nil_r. fold (m z1) (m z2).
  rewrite (all_some_app _ _ _ (map (p2w_tot c (m z1)) ji) (map (p2w_tot c (m z2)) ji)); [reflexivity| |]; apply all_some_map; reflexivity.
Qed.

Lemma Rmin_mono_l : forall x y t, x <= y -> Rmin x t <= Rmin y t.
Proof. intros x y t H. unfold Rmin. destruct (Rle_dec x t), (Rle_dec y t); lra. Qed.

Theorem window_nested : forall c w h to_dem dh dw t z0 z3 z1 z2 w2,
  horizon_fov c w h = false ->
  (forall ji p, frame_pixel_boundary c w h None = Ok ji -> In p ji -> vz (ray c p) <> 0) ->
  (forall b b', bounds_within b b' -> bounds_within (to_dem b) (to_dem b')) ->
  0 < ta t -> te t < 0 -> z0 <= z1 <= z3 -> z0 <= z2 <= z3 ->
  get_win_at_zs c w h to_dem dh dw t [z1; z2] = Ok w2 ->
  exists w1, get_win_at_zs c w h to_dem dh dw t [z0; z3] = Ok w1 /\ within w2 w1 /\ win_intersection w2 w1 = Ok w2.
Proof.
  intros c w h to_dem dh dw t z0 z3 z1 z2 w2 HF Hr Hm Ha He H1 H2 Hw.
  destruct (frame_pixel_boundary c w h None) as [ji|e] eqn:Hj; [|discriminate Hj].
  assert (Hr' : Forall (fun p => vz (ray c p) <> 0) ji). { apply Forall_forall. intros p Hp. apply (Hr ji p); auto. }
  rewrite (win_at_two c w h to_dem dh dw t z1 z2 ji) in Hw by assumption. rewrite (win_at_two c w h to_dem dh dw t z0 z3 ji) by assumption. cbn zeta in *.
  set (m z := Rmin z (vz (fr_T c))) in *.
  apply win_mono with (b2 := to_dem (bounds_of (map (p2w_tot c (m z1)) ji ++ map (p2w_tot c (m z2)) ji))); try assumption. apply Hm.
  assert (Hne : ji <> []). { unfold frame_pixel_boundary in Hj. cbn [pixel_boundary bind] in Hj. injection Hj as <-. destruct (fr_distort c); discriminate. }
  assert (M1 : m z0 <= m z1 <= m z3) by (split; apply Rmin_mono_l; lra). assert (M2 : m z0 <= m z2 <= m z3) by (split; apply Rmin_mono_l; lra).
  set (L := map (p2w_tot c (m z1)) ji ++ map (p2w_tot c (m z2)) ji). set (L' := map (p2w_tot c (m z0)) ji ++ map (p2w_tot c (m z3)) ji).
  assert (NL : L <> []). { unfold L. destruct ji; [contradiction|discriminate]. }
  assert (K : forall v, In v L -> exists p, In p ji /\ exists z, m z0 <= z <= m z3 /\ v = p2w_tot c z p).
  { intros v Hv. unfold L in Hv. apply in_app_iff in Hv. destruct Hv as [Hv|Hv]; apply in_map_iff in Hv; destruct Hv as (p & <- & Hp); exists p; (split; [exact Hp|]); eexists; (split; [|reflexivity]); assumption. }
  assert (In0 : forall p, In p ji -> In (p2w_tot c (m z0) p) L') by (intros p Hp; apply in_app_iff; left; apply in_map; exact Hp).
  assert (In3 : forall p, In p ji -> In (p2w_tot c (m z3) p) L') by (intros p Hp; apply in_app_iff; right; apply in_map; exact Hp).
  assert (Mn : forall f : vec -> R, (forall p z, m z0 <= z <= m z3 -> Rmin (f (p2w_tot c (m z0) p)) (f (p2w_tot c (m z3) p)) <= f (p2w_tot c z p)) ->
     rmin (map f L') <= rmin (map f L)).
  { intros f Hf. assert (N : map f L <> []) by (destruct L; [contradiction|discriminate]). pose proof (rmin_in _ N) as Hi. apply in_map_iff in Hi.
    destruct Hi as (v & E & Hv). rewrite <- E. destruct (K v Hv) as (p & Hp & z & Hz & ->). eapply Rle_trans; [|apply (Hf p z Hz)].
    apply Rmin_glb; apply rmin_le, in_map; auto. }
  assert (Mx : forall f : vec -> R, (forall p z, m z0 <= z <= m z3 -> f (p2w_tot c z p) <= Rmax (f (p2w_tot c (m z0) p)) (f (p2w_tot c (m z3) p))) ->
     rmax (map f L) <= rmax (map f L')).
  { intros f Hf. assert (N : map f L <> []) by (destruct L; [contradiction|discriminate]). pose proof (rmax_in _ N) as Hi. apply in_map_iff in Hi.
    destruct Hi as (v & E & Hv). rewrite <- E. destruct (K v Hv) as (p & Hp & z & Hz & ->). eapply Rle_trans; [apply (Hf p z Hz)|].
    apply Rmax_lub; apply rmax_ge, in_map; auto. }
  unfold bounds_within, bounds_of. cbn [b_left b_right b_top b_bottom].
  split; [|split; [|split]]; [apply Mn|apply Mx|apply Mn|apply Mx]; intros p z Hz; apply (between c p (m z0) z (m z3) Hz).
Qed.

(** ** A DEM below the first range *)
Lemma rmin_eq : forall l m, In m l -> (forall x, In x l -> m <= x) -> rmin l = m.
Proof. intros l m H1 H2. apply Rle_antisym; [apply rmin_le, H1|]. apply H2, rmin_in. intros ->. exact H1. Qed.
Lemma rmax_eq : forall l m, In m l -> (forall x, In x l -> x <= m) -> rmax l = m.
Proof. intros l m H1 H2. apply Rle_antisym; [|apply rmax_ge, H1]. apply H2, rmax_in. intros ->. exact H1. Qed.

Definition low_cam : frame := Frame (pinhole (Intr 1 1 1 1)) (Intr 1 1 1 1) true flip_yz (V3 0 0 0).
Definition low_dem : affine := Aff 10 0 (-500) 0 (-10) 500.

Lemma low_p2w : forall z j i, p2w_tot low_cam z (j, i) = V3 (- z * (j - 1)) (z * (i - 1)) z.
Proof. intros z j i. unfold p2w_tot, ray, active_lens, low_cam, pinhole, k_solve, flip_yz. cbn. meq; field. Qed.

Lemma low_bounds : forall z1 z2, z1 <= z2 <= 0 ->
  bounds_of (map (p2w_tot low_cam z1) (boundary8 3 3) ++ map (p2w_tot low_cam z2) (boundary8 3 3)) = Bounds z1 z1 (- z1) (- z1).
Proof.
  intros z1 z2 H. unfold boundary8. cbn [map app]. rewrite !low_p2w. unfold bounds_of. cbn [map vx vy]. f_equal.
  - apply rmin_eq; [left; ring|]. intros x Hx. cbn [In] in Hx. repeat (destruct Hx as [<-|Hx]; [lra|]). contradiction.
  - apply rmin_eq; [do 5 right; left; lra|]. intros x Hx. cbn [In] in Hx. repeat (destruct Hx as [<-|Hx]; [lra|]). contradiction.
  - apply rmax_eq; [do 2 right; left; lra|]. intros x Hx. cbn [In] in Hx. repeat (destruct Hx as [<-|Hx]; [lra|]). contradiction.
  - apply rmax_eq; [left; lra|]. intros x Hx. cbn [In] in Hx. repeat (destruct Hx as [<-|Hx]; [lra|]). contradiction.
Qed.

Lemma low_horizon : horizon_fov low_cam 3 3 = false.
Proof.
  unfold horizon_fov, boundary8. cbn [existsb].
  repeat match goal with |- context [Rle_dec 0 ?x] => destruct (Rle_dec 0 x) as [L|_]; [exfalso; revert L; unfold mvec, dot, low_cam, flip_yz, mk; cbn; lra|] end.
  reflexivity.
Qed.
Lemma low_rays : Forall (fun p => vz (ray low_cam p) <> 0) (boundary8 3 3).
Proof. apply Forall_forall. intros [j i] _. unfold ray, low_cam, active_lens, flip_yz, mk, mvec, dot. cbn. lra. Qed.

Lemma low_win : forall z1 z2 a b, z1 <= z2 -> -500 <= z1 <= 0 -> (0 <= a)%Z -> (b <= 100)%Z ->
  IZR a <= (z1 + 500) / 10 < IZR a + 1 -> IZR b - 1 < (- z1 + 500) / 10 <= IZR b -> z1 < 0 ->
  get_win_at_zs low_cam 3 3 (fun x => x) 100 100 low_dem [z1; z2] = Ok (Win a a (b - a) (b - a)).
Proof.
  intros z1 z2 a b H12 H1 Ha Hb H2 H3 H0.
  rewrite (win_at_two low_cam 3 3 (fun x => x) 100 100 low_dem z1 z2 (boundary8 3 3) low_horizon eq_refl low_rays). cbn zeta.
  change (vz (fr_T low_cam)) with 0. rewrite (Rmin_left z1 0) by lra. rewrite low_bounds by (split; [apply Rmin_glb; lra|apply Rmin_r]).
  unfold win_of_bounds, low_dem. cbn [b_left b_right b_top b_bottom ta tc te tf].
  replace ((- z1 - 500) / -10) with ((z1 + 500) / 10) by field. replace ((z1 - 500) / -10) with ((- z1 + 500) / 10) by field.
  replace ((z1 - -500) / 10) with ((z1 + 500) / 10) by field. replace ((- z1 - -500) / 10) with ((- z1 + 500) / 10) by field.
  rewrite Rmax_right by lra. rewrite Rmin_right by lra. destruct (Rlt_dec _ _) as [_|L]; [|lra]. cbn [andb].
  rewrite (Rfloor_eq _ a), (Rceil_eq _ b) by lra. reflexivity.
Qed.

Theorem window_land c w h to_dem dh dw t scale h1 h2 w2 :
  horizon_fov c w h = false ->
  (forall ji p, frame_pixel_boundary c w h None = Ok ji -> In p ji -> vz (ray c p) <> 0) ->
  (forall b b', bounds_within b b' -> bounds_within (to_dem b) (to_dem b')) ->
  0 < ta t -> te t < 0 -> 0 < scale -> land_height h1 -> land_height h2 ->
  get_win_at_zs c w h to_dem dh dw t [h1 * scale; h2 * scale] = Ok w2 ->
  exists w1, get_win_at_zs c w h to_dem dh dw t (init_zs scale) = Ok w1 /\ within w2 w1 /\ win_intersection w2 w1 = Ok w2.
Proof.
  intros A B D E F G (m1 & g1 & H1 & H2 & ->) (m2 & g2 & H3 & H4 & ->) W.
  apply (window_nested c w h to_dem dh dw t _ _ ((m1 + g1) * scale) ((m2 + g2) * scale)); auto; split; apply Rmult_le_compat_r; lra.
Qed.

Theorem low_dem_cropped : exists w1 w2,
  get_win_at_zs low_cam 3 3 (fun b => b) 100 100 low_dem (init_zs 1) = Ok w1 /\
  get_win_at_zs low_cam 3 3 (fun b => b) 100 100 low_dem [-430; -430] = Ok w2 /\
  w1 = Win 39 39 22 22 /\ w2 = Win 7 7 86 86 /\ win_intersection w2 w1 = Ok w1.
Proof.
  exists (Win 39 39 22 22), (Win 7 7 86 86). split; [|split; [|split; [|split]]]; try reflexivity.
  - unfold init_zs. apply (low_win _ _ 39 61); lia || lra.
  - apply (low_win _ _ 7 93); lia || lra.
Qed.

Theorem boundary_negative : forall w h n, (1 <= w)%Z -> (1 <= h)%Z -> (2 < w + h)%Z -> (n <= -4)%Z ->
  pixel_boundary w h (Some n) = Err ValueError.
Proof.
  intros w h n Hw Hh Hwh Hn. destruct n as [|n|n]; try lia. cbn [pixel_boundary]. set (m := Z.neg n) in *. clearbody m.
  unfold rect_boundary. set (P := (2 * ((w - 1) + (h - 1)))%Z).
  assert (N : forall a b, (2 * (Z.abs (fst b - fst a) + Z.abs (snd b - snd a)) >= (w - 1) + (h - 1))%Z ->
                linspace_open a b (side_count w h m a b) = Err ValueError).
  { intros a b Hd. unfold linspace_open, side_count. fold P.
    pose proof (round_div_bound (m * (Z.abs (fst b - fst a) + Z.abs (snd b - snd a))) P ltac:(unfold P; lia)) as B.
    destruct (Z.ltb_spec (round_div (m * (Z.abs (fst b - fst a) + Z.abs (snd b - snd a))) P) 0) as [_|L]; [reflexivity|].
    exfalso. unfold P in *. set (D := (Z.abs _ + Z.abs _)%Z) in *. assert (0 <= D)%Z by (unfold D; lia). clearbody D.
    set (r := round_div _ _) in *. clearbody r. assert (m * D <= -4 * D)%Z by nia.
    assert (0 <= 2 * (w - 1 + (h - 1)) * r)%Z by nia. lia. }
  destruct (Z.leb_spec (h - 1) (w - 1)) as [L|L].
  - rewrite (N (0, 0)%Z) by (cbn [fst snd]; lia). reflexivity.
  - destruct (linspace_open (0, 0)%Z _ _) as [s0|e] eqn:E.
    + cbn [bind]. rewrite N by (cbn [fst snd]; lia). reflexivity.
    + cbn [bind]. unfold linspace_open in E. destruct (_ <? 0)%Z; inversion E. reflexivity.
Qed.
