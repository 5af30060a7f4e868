From Coq Require Import List Reals ZArith Bool Lra Lia Psatz.
From Verif Require Import Py Flt Mat Rot_Model Rot_Proof Frame_Model Frame_Spec Frame_Proof Undist_Model Undist_Spec.
Import ListNotations.
Open Scope R_scope.

(** * min and max *)
Lemma rmin_le : forall l x, In x l -> rmin l <= x.
Proof.
  induction l as [|a [|b l] IH]; intros x H; [destruct H|destruct H as [->|[]]; cbn; lra|].
  change (rmin (a :: b :: l)) with (Rmin a (rmin (b :: l))). destruct H as [->|H]; [apply Rmin_l|].
  apply Rle_trans with (rmin (b :: l)); [apply Rmin_r|apply IH; exact H].
Qed.
Lemma rmin_in : forall l, l <> [] -> In (rmin l) l.
Proof.
  induction l as [|a [|b l] IH]; intros H; [contradiction|left; reflexivity|].
  change (rmin (a :: b :: l)) with (Rmin a (rmin (b :: l))). unfold Rmin. destruct (Rle_dec _ _); [left; reflexivity|right; apply IH; discriminate].
Qed.
Lemma rmax_ge : forall l x, In x l -> x <= rmax l.
Proof.
  induction l as [|a [|b l] IH]; intros x H; [destruct H|destruct H as [->|[]]; cbn; lra|].
  change (rmax (a :: b :: l)) with (Rmax a (rmax (b :: l))). destruct H as [->|H]; [apply Rmax_l|].
  apply Rle_trans with (rmax (b :: l)); [apply IH; exact H|apply Rmax_r].
Qed.
Lemma rmax_in : forall l, l <> [] -> In (rmax l) l.
Proof.
  induction l as [|a [|b l] IH]; intros H; [contradiction|left; reflexivity|].
  change (rmax (a :: b :: l)) with (Rmax a (rmax (b :: l))). unfold Rmax. destruct (Rle_dec _ _); [right; apply IH; discriminate|left; reflexivity].
Qed.

Lemma in_grid9 : forall a b, In (a, b) grid9 <-> (a <= 8)%nat /\ (b <= 8)%nat.
Proof. intros a b. unfold grid9. rewrite in_prod_iff, !in_seq. lia. Qed.

Lemma grid_xy_sample : forall p2c w h a b, grid_xy p2c w h (a, b) = p2c (sample_pixel w h a b).
Proof. intros. unfold grid_xy, sample_pixel. f_equal. cbn [fst snd]. f_equal; field. Qed.

Lemma all_x_in : forall p2c w h a b, (a <= 8)%nat -> (b <= 8)%nat -> In (fst (p2c (sample_pixel w h a b))) (all_x p2c w h).
Proof. intros p2c w h a b Ha Hb. rewrite <- grid_xy_sample. unfold all_x. apply (in_map (fun s => fst (grid_xy p2c w h s))). apply in_grid9. tauto. Qed.
Lemma all_y_in : forall p2c w h a b, (a <= 8)%nat -> (b <= 8)%nat -> In (snd (p2c (sample_pixel w h a b))) (all_y p2c w h).
Proof. intros p2c w h a b Ha Hb. rewrite <- grid_xy_sample. unfold all_y. apply (in_map (fun s => snd (grid_xy p2c w h s))). apply in_grid9. tauto. Qed.
Lemma all_x_inv : forall p2c w h x, In x (all_x p2c w h) -> exists a b, (a <= 8)%nat /\ (b <= 8)%nat /\ fst (p2c (sample_pixel w h a b)) = x.
Proof. intros p2c w h x Hx. apply in_map_iff in Hx. destruct Hx as ([a b] & <- & Hg). apply in_grid9 in Hg. exists a, b. rewrite grid_xy_sample. tauto. Qed.
Lemma all_y_inv : forall p2c w h x, In x (all_y p2c w h) -> exists a b, (a <= 8)%nat /\ (b <= 8)%nat /\ snd (p2c (sample_pixel w h a b)) = x.
Proof. intros p2c w h x Hx. apply in_map_iff in Hx. destruct Hx as ([a b] & <- & Hg). apply in_grid9 in Hg. exists a, b. rewrite grid_xy_sample. tauto. Qed.
Lemma col_x_in : forall p2c w h n b, (n <= 8)%nat -> (b <= 8)%nat -> In (fst (p2c (sample_pixel w h n b))) (col_x p2c w h n).
Proof.
  intros p2c w h n b Hn Hb. rewrite <- grid_xy_sample. unfold col_x. apply (in_map (fun s => fst (grid_xy p2c w h s))). apply filter_In.
  split; [apply in_grid9; tauto|apply Nat.eqb_refl].
Qed.
Lemma row_y_in : forall p2c w h n a, (n <= 8)%nat -> (a <= 8)%nat -> In (snd (p2c (sample_pixel w h a n))) (row_y p2c w h n).
Proof.
  intros p2c w h n b Hn Hb. rewrite <- grid_xy_sample. unfold row_y. apply (in_map (fun s => snd (grid_xy p2c w h s))). apply filter_In.
  split; [apply in_grid9; tauto|apply Nat.eqb_refl].
Qed.
Lemma col_x_inv : forall p2c w h n x, In x (col_x p2c w h n) -> exists b, (b <= 8)%nat /\ fst (p2c (sample_pixel w h n b)) = x.
Proof.
  intros p2c w h n x Hx. apply in_map_iff in Hx. destruct Hx as ([a b] & <- & Hg). apply filter_In in Hg. destruct Hg as [Hg He].
  apply in_grid9 in Hg. apply Nat.eqb_eq in He. cbn [fst] in He. subst a. exists b. rewrite grid_xy_sample. tauto.
Qed.
Lemma row_y_inv : forall p2c w h n x, In x (row_y p2c w h n) -> exists a, (a <= 8)%nat /\ snd (p2c (sample_pixel w h a n)) = x.
Proof.
  intros p2c w h n x Hx. apply in_map_iff in Hx. destruct Hx as ([a b] & <- & Hg). apply filter_In in Hg. destruct Hg as [Hg He].
  apply in_grid9 in Hg. apply Nat.eqb_eq in He. cbn [snd] in He. subst b. exists a. rewrite grid_xy_sample. tauto.
Qed.
Lemma nonnil_in : forall (A : Type) (x : A) l, In x l -> l <> [].
Proof. intros A x l H ->. exact H. Qed.

Lemma rects_eq : forall p2c w h, get_rectangles p2c w h =
  (Rect (rmax (col_x p2c w h 0)) (rmax (row_y p2c w h 0)) (rmin (col_x p2c w h 8) - rmax (col_x p2c w h 0)) (rmin (row_y p2c w h 8) - rmax (row_y p2c w h 0)),
   Rect (rmin (all_x p2c w h)) (rmin (all_y p2c w h)) (rmax (all_x p2c w h) - rmin (all_x p2c w h)) (rmax (all_y p2c w h) - rmin (all_y p2c w h))).
Proof. reflexivity. Qed.
Opaque all_x all_y col_x row_y rmin rmax.

Lemma outer_bounds : forall p2c w h, bounds_samples p2c w h (snd (get_rectangles p2c w h)).
Proof.
  intros p2c w h. rewrite rects_eq. cbn [snd].
  assert (Nx : all_x p2c w h <> []) by (eapply nonnil_in, (all_x_in p2c w h 0 0); lia).
  assert (Ny : all_y p2c w h <> []) by (eapply nonnil_in, (all_y_in p2c w h 0 0); lia).
  unfold bounds_samples, in_rect. cbn [off_x off_y size_x size_y]. rewrite !Rplus_minus.
  split; [|split; [|split; [|split]]].
  - intros a b Ha Hb. split; split; [apply rmin_le, all_x_in|apply rmax_ge, all_x_in|apply rmin_le, all_y_in|apply rmax_ge, all_y_in]; auto.
  - apply all_x_inv, rmin_in, Nx.
  - apply all_x_inv, rmax_in, Nx.
  - apply all_y_inv, rmin_in, Ny.
  - apply all_y_inv, rmax_in, Ny.
Qed.

Lemma inner_sides : forall p2c w h, inside_sides p2c w h (fst (get_rectangles p2c w h)).
Proof.
  intros p2c w h. rewrite rects_eq. cbn [fst].
  assert (Nx : forall n, (n <= 8)%nat -> col_x p2c w h n <> []) by (intros n Hn; eapply nonnil_in, (col_x_in p2c w h n 0); lia).
  assert (Ny : forall n, (n <= 8)%nat -> row_y p2c w h n <> []) by (intros n Hn; eapply nonnil_in, (row_y_in p2c w h n 0); lia).
  unfold inside_sides. cbn [off_x off_y size_x size_y]. rewrite !Rplus_minus.
  split; [intros b Hb; apply rmax_ge, col_x_in; lia|]. split; [intros b Hb; apply rmin_le, col_x_in; lia|].
  split; [intros b Hb; apply rmax_ge, row_y_in; lia|]. split; [intros b Hb; apply rmin_le, row_y_in; lia|].
  split; [apply col_x_inv, rmax_in, Nx; lia|]. split; [apply col_x_inv, rmin_in, Nx; lia|].
  split; [apply row_y_inv, rmax_in, Ny; lia|apply row_y_inv, rmin_in, Ny; lia].
Qed.
Opaque get_rectangles.

(** * alpha *)
Lemma clip01_id : forall a, 0 <= a <= 1 -> clip01 a = a.
Proof. intros a H. unfold clip01. rewrite Rmax_left, Rmin_left by (try rewrite Rmax_left; lra). reflexivity. Qed.
Lemma clip01_idem : forall a, clip01 (clip01 a) = clip01 a.
Proof. intros a. apply clip01_id. unfold clip01, Rmin, Rmax. destruct (Rle_dec a 0); destruct (Rle_dec _ 1); lra. Qed.

Lemma undistort_clip : forall p2c w h alpha, undistort_intrinsic p2c w h alpha = undistort_intrinsic p2c w h (clip01 alpha).
Proof. intros. unfold undistort_intrinsic. rewrite clip01_idem. reflexivity. Qed.

Lemma clip01_range : forall a, 0 <= clip01 a <= 1.
Proof. intros a. unfold clip01, Rmin, Rmax. destruct (Rle_dec a 0); destruct (Rle_dec _ 1); lra. Qed.
Lemma clip01_low : forall a, a <= 0 -> clip01 a = 0.
Proof. intros a H. unfold clip01. rewrite Rmax_right, Rmin_left by lra. reflexivity. Qed.
Lemma clip01_high : forall a, 1 <= a -> clip01 a = 1.
Proof. intros a H. unfold clip01. rewrite Rmax_left by lra. rewrite Rmin_right by lra. reflexivity. Qed.

(** One axis of the blend: the pixel coordinate of [x]. *)
Lemma blend_axis : forall n io is oo os a x,
  0 < n -> 0 < is -> 0 < os -> oo <= io -> io + is <= oo + os -> 0 <= a <= 1 ->
  let f0 := n / is in let f1 := n / os in
  let f := f0 * (1 - a) + f1 * a in
  let c := - f0 * io * (1 - a) + - f1 * oo * a in
  0 < f /\ (0 <= f * x + c -> oo <= x) /\ (f * x + c <= n -> x <= oo + os) /\
  (io <= x -> 0 <= f * x + c) /\ (x <= io + is -> f * x + c <= n) /\
  (a = 1 -> oo <= x -> 0 <= f * x + c) /\ (a = 1 -> x <= oo + os -> f * x + c <= n) /\
  (a = 0 -> 0 <= f * x + c -> io <= x) /\ (a = 0 -> f * x + c <= n -> x <= io + is).
Proof.
  intros n io is oo os a x Hn His Hos H1 H2 Ha f0 f1 f c.
  assert (F0 : 0 < f0) by (apply Rdiv_lt_0_compat; lra). assert (F1 : 0 < f1) by (apply Rdiv_lt_0_compat; lra).
  assert (N0 : f0 * is = n) by (unfold f0; field; lra). assert (N1 : f1 * os = n) by (unfold f1; field; lra).
  assert (E1 : f * x + c = (1 - a) * (f0 * (x - io)) + a * (f1 * (x - oo))) by (unfold f, c; ring).
  assert (E2 : n - (f * x + c) = (1 - a) * (f0 * (io + is - x)) + a * (f1 * (oo + os - x))).
  { rewrite E1. replace n with ((1 - a) * (f0 * is) + a * (f1 * os)) by (rewrite N0, N1; ring). ring. }
  assert (F : 0 < f). { unfold f. destruct (Rle_dec a (/ 2)); nra. }
  assert (P : forall u v, u < 0 -> v < 0 -> (1 - a) * (f0 * u) + a * (f1 * v) < 0).
  { intros u v Hu Hv. assert (f0 * u < 0) by nra. assert (f1 * v < 0) by nra. destruct (Rle_dec a (/ 2)); nra. }
  assert (Q : forall u v, 0 <= u -> 0 <= v -> 0 <= (1 - a) * (f0 * u) + a * (f1 * v)).
  { intros u v Hu Hv. assert (0 <= f0 * u) by nra. assert (0 <= f1 * v) by nra. nra. }
  clearbody f c f0 f1. split; [exact F|]. split; [|split; [|split; [|split; [|split; [|split; [|split]]]]]].
  - intros H. destruct (Rle_dec oo x) as [L|L]; [exact L|exfalso]. pose proof (P (x - io) (x - oo) ltac:(lra) ltac:(lra)). lra.
  - intros H. destruct (Rle_dec x (oo + os)) as [L|L]; [exact L|exfalso]. pose proof (P (io + is - x) (oo + os - x) ltac:(lra) ltac:(lra)). lra.
  - intros H. rewrite E1. apply Q; lra.
  - intros H. pose proof (Q (io + is - x) (oo + os - x) ltac:(lra) ltac:(lra)). lra.
  - intros -> H. rewrite E1. nra.
  - intros -> H. assert (0 <= f1 * (oo + os - x)) by nra. lra.
  - intros -> H. rewrite E1 in H. nra.
  - intros -> H. assert (0 <= f0 * (io + is - x)) by lra. nra.
Qed.

Section Alpha.
Variables (p2c : R * R -> R * R) (w h : Z) (alpha : R).
Let inner := fst (get_rectangles p2c w h).
Let outer := snd (get_rectangles p2c w h).
Hypothesis Hw : (1 < w)%Z.
Hypothesis Hh : (1 < h)%Z.
Hypothesis Hin : nonempty inner.
Hypothesis Hout : nonempty outer.

Lemma inner_in_outer : off_x outer <= off_x inner /\ off_x inner + size_x inner <= off_x outer + size_x outer /\
  off_y outer <= off_y inner /\ off_y inner + size_y inner <= off_y outer + size_y outer.
Proof.
  pose proof (outer_bounds p2c w h) as (O & _). fold outer in O.
  pose proof (inner_sides p2c w h) as (_ & _ & _ & _ & (b1 & B1 & E1) & (b2 & B2 & E2) & (b3 & B3 & E3) & (b4 & B4 & E4)).
  fold inner in E1, E2, E3, E4. clearbody inner outer.
  destruct (O 0%nat b1) as [O1 _]; [lia|lia|]. destruct (O 8%nat b2) as [O2 _]; [lia|lia|].
  destruct (O b3 0%nat) as [_ O3]; [lia|lia|]. destruct (O b4 8%nat) as [_ O4]; [lia|lia|]. lra.
Qed.

Lemma ku_eq : let a := clip01 alpha in
  undistort_intrinsic p2c w h alpha =
  Intr ((IZR w - 1) / size_x inner * (1 - a) + (IZR w - 1) / size_x outer * a)
       ((IZR h - 1) / size_y inner * (1 - a) + (IZR h - 1) / size_y outer * a)
       (- ((IZR w - 1) / size_x inner) * off_x inner * (1 - a) + - ((IZR w - 1) / size_x outer) * off_x outer * a)
       (- ((IZR h - 1) / size_y inner) * off_y inner * (1 - a) + - ((IZR h - 1) / size_y outer) * off_y outer * a).
Proof. unfold inner, outer. unfold undistort_intrinsic. destruct (get_rectangles p2c w h). reflexivity. Qed.

Lemma view : let ku := undistort_intrinsic p2c w h alpha in
  0 < kfx ku /\ 0 < kfy ku /\
  forall xy, 
  (in_image w h (k_apply ku xy) -> in_rect outer xy) /\
  (in_rect inner xy -> in_image w h (k_apply ku xy)) /\
  (1 <= alpha -> in_rect outer xy -> in_image w h (k_apply ku xy)) /\
  (alpha <= 0 -> in_image w h (k_apply ku xy) -> in_rect inner xy).
Proof.
  cbn zeta. rewrite ku_eq. destruct inner_in_outer as (I1 & I2 & I3 & I4).
  assert (W : 0 < IZR w - 1). { apply IZR_lt in Hw. lra. } assert (H : 0 < IZR h - 1). { apply IZR_lt in Hh. lra. }
  destruct Hin as [S1 S2], Hout as [S3 S4]. pose proof (clip01_range alpha) as HA.
  assert (A0 : alpha <= 0 -> clip01 alpha = 0) by apply clip01_low. assert (A1 : 1 <= alpha -> clip01 alpha = 1) by apply clip01_high.
  assert (BX := fun x => blend_axis (IZR w - 1) (off_x inner) (size_x inner) (off_x outer) (size_x outer) (clip01 alpha) x W S1 S3 I1 I2 HA).
  assert (BY := fun y => blend_axis (IZR h - 1) (off_y inner) (size_y inner) (off_y outer) (size_y outer) (clip01 alpha) y H S2 S4 I3 I4 HA).
  cbn zeta in BX, BY. unfold k_apply, in_image, in_rect. cbn [kfx kfy kcx kcy fst snd].
  split; [apply (BX 0)|]. split; [apply (BY 0)|]. intros [x y]. cbn [fst snd].
  destruct (BX x) as (_ & X1 & X2 & X3 & X4 & X5 & X6 & X7 & X8). destruct (BY y) as (_ & Y1 & Y2 & Y3 & Y4 & Y5 & Y6 & Y7 & Y8).
  split; [intros [[J1 J2] [J3 J4]]; split; split; [apply X1|apply X2|apply Y1|apply Y2]; assumption|].
  split; [intros [[J1 J2] [J3 J4]]; split; split; [apply X3|apply X4|apply Y3|apply Y4]; assumption|].
  split; [intros L [[J1 J2] [J3 J4]]; specialize (A1 L); split; split; [apply X5|apply X6|apply Y5|apply Y6]; assumption|].
  intros L [[J1 J2] [J3 J4]]; specialize (A0 L); split; split; [apply X7|apply X8|apply Y7|apply Y8]; assumption.
Qed.
End Alpha.

Theorem alpha_one_keeps_all : forall p2c w h alpha a b, (1 < w)%Z -> (1 < h)%Z ->
  nonempty (fst (get_rectangles p2c w h)) -> nonempty (snd (get_rectangles p2c w h)) ->
  1 <= alpha -> (a <= 8)%nat -> (b <= 8)%nat ->
  in_image w h (k_apply (undistort_intrinsic p2c w h alpha) (p2c (sample_pixel w h a b))).
Proof.
  intros p2c w h alpha a b Hw Hh Hi Ho H1 Ha Hb. destruct (view p2c w h alpha Hw Hh Hi Ho) as (_ & _ & V).
  apply V; [assumption|]. apply outer_bounds; assumption.
Qed.

Theorem view_between : forall p2c w h alpha ji, (1 < w)%Z -> (1 < h)%Z ->
  let inner := fst (get_rectangles p2c w h) in let outer := snd (get_rectangles p2c w h) in
  nonempty inner -> nonempty outer ->
  let ku := undistort_intrinsic p2c w h alpha in
  in_image w h ji -> in_rect outer (k_solve ku ji) /\ (alpha <= 0 -> in_rect inner (k_solve ku ji)).
Proof.
  intros p2c w h alpha ji Hw Hh inner outer Hi Ho ku Hji. destruct (view p2c w h alpha Hw Hh Hi Ho) as (F1 & F2 & V).
  fold ku in F1, F2, V. specialize (V (k_solve ku ji)). rewrite k_apply_solve in V by lra. split; [apply V; assumption|].
  intros Ha. apply V; assumption.
Qed.

Theorem inner_always_seen : forall p2c w h alpha xy, (1 < w)%Z -> (1 < h)%Z ->
  let inner := fst (get_rectangles p2c w h) in
  nonempty inner -> nonempty (snd (get_rectangles p2c w h)) ->
  in_rect inner xy -> in_image w h (k_apply (undistort_intrinsic p2c w h alpha) xy).
Proof. intros p2c w h alpha xy Hw Hh inner Hi Ho Hxy. destruct (view p2c w h alpha Hw Hh Hi Ho) as (_ & _ & V). destruct (V xy) as (_ & V2 & _). exact (V2 Hxy). Qed.

(** * No distortion *)
Lemma pinhole_rects : forall k w h, 0 < kfx k -> 0 < kfy k -> (1 < w)%Z -> (1 < h)%Z ->
  let r := Rect (- kcx k / kfx k) (- kcy k / kfy k) ((IZR w - 1) / kfx k) ((IZR h - 1) / kfy k) in
  get_rectangles (k_solve k) w h = (r, r).
Proof.
  intros k w h Fx Fy Hw Hh r.
  assert (W : 0 < IZR w - 1). { apply IZR_lt in Hw. lra. } assert (H : 0 < IZR h - 1). { apply IZR_lt in Hh. lra. }
  assert (X0 : forall b, fst (k_solve k (sample_pixel w h 0 b)) = off_x r) by (intros; unfold k_solve, sample_pixel, r; cbn; field; lra).
  assert (X8 : forall b, fst (k_solve k (sample_pixel w h 8 b)) = off_x r + size_x r) by (intros; unfold k_solve, sample_pixel, r; cbn; field; lra).
  assert (Y0 : forall a, snd (k_solve k (sample_pixel w h a 0)) = off_y r) by (intros; unfold k_solve, sample_pixel, r; cbn; field; lra).
  assert (Y8 : forall a, snd (k_solve k (sample_pixel w h a 8)) = off_y r + size_y r) by (intros; unfold k_solve, sample_pixel, r; cbn; field; lra).
  pose proof (inner_sides (k_solve k) w h) as (_ & _ & _ & _ & (b1 & _ & E1) & (b2 & _ & E2) & (b3 & _ & E3) & (b4 & _ & E4)).
  pose proof (outer_bounds (k_solve k) w h) as (O & (a1 & c1 & A1 & C1 & O1) & (a2 & c2 & A2 & C2 & O2) & (a3 & c3 & A3 & C3 & O3) & (a4 & c4 & A4 & C4 & O4)).
  assert (SX : forall a c, (a <= 8)%nat -> off_x r <= fst (k_solve k (sample_pixel w h a c)) <= off_x r + size_x r).
  { intros a c Ha. apply le_INR in Ha. cbn [INR] in Ha. replace (1 + 1 + 1 + 1 + 1 + 1 + 1 + 1) with 8 in Ha by ring. pose proof (pos_INR a).
    unfold k_solve, sample_pixel, r. cbn. unfold Rdiv. rewrite <- Rmult_plus_distr_r.
    assert (0 < / kfx k) by (apply Rinv_0_lt_compat; lra). split; apply Rmult_le_compat_r; nra. }
  assert (SY : forall a c, (c <= 8)%nat -> off_y r <= snd (k_solve k (sample_pixel w h a c)) <= off_y r + size_y r).
  { intros a c Ha. apply le_INR in Ha. cbn [INR] in Ha. replace (1 + 1 + 1 + 1 + 1 + 1 + 1 + 1) with 8 in Ha by ring. pose proof (pos_INR c).
    unfold k_solve, sample_pixel, r. cbn. unfold Rdiv. rewrite <- Rmult_plus_distr_r.
    assert (0 < / kfy k) by (apply Rinv_0_lt_compat; lra). split; apply Rmult_le_compat_r; nra. }
  destruct (get_rectangles (k_solve k) w h) as [[i1 i2 i3 i4] [o1 o2 o3 o4]]. cbn [fst snd off_x off_y size_x size_y] in *.
  rewrite X0 in E1. rewrite X8 in E2. rewrite Y0 in E3. rewrite Y8 in E4.
  destruct (O 0%nat 0%nat) as [P1 P2]; [lia|lia|]. destruct (O 8%nat 8%nat) as [P3 P4]; [lia|lia|].
  unfold in_rect in P1, P2, P3, P4. cbn [fst snd off_x off_y size_x size_y] in *.
  rewrite X0 in P1. rewrite Y0 in P2. rewrite X8 in P3. rewrite Y8 in P4.
  pose proof (SX a1 c1 A1). pose proof (SX a2 c2 A2). pose proof (SY a3 c3 C3). pose proof (SY a4 c4 C4).
  clearbody r. destruct r as [r1 r2 r3 r4]. cbn [off_x off_y size_x size_y] in *.
  f_equal; f_equal; lra.
Qed.

Theorem no_distortion_same : forall k w h alpha, 0 < kfx k -> 0 < kfy k -> (1 < w)%Z -> (1 < h)%Z ->
  undistort_intrinsic (k_solve k) w h alpha = k.
Proof.
  intros k w h alpha Fx Fy Hw Hh. unfold undistort_intrinsic. rewrite (pinhole_rects k w h Fx Fy Hw Hh). cbn [off_x off_y size_x size_y].
  assert (W : 0 < IZR w - 1). { apply IZR_lt in Hw. lra. } assert (H : 0 < IZR h - 1). { apply IZR_lt in Hh. lra. }
  destruct k as [fx fy cx cy]. cbn [kfx kfy kcx kcy] in *. f_equal; field; lra.
Qed.

(** * The object *)
Section State.
Variable E : Type.
Variables (K : intr) (l : lens) (w h : Z).
Notation ku_of := (undistort_intrinsic (l_inv l) w h).

Definition inv (pin : bool) (c : cam E) : Prop :=
  s_ku c = (if pin then K else ku_of (s_alpha c)) /\
  (s_maps c = None \/ pin = false /\ s_maps c = Some (undistort_maps l (s_ku c))).

Lemma init_inv : forall pin alpha d e, inv pin (cam_init pin K l w h alpha d e).
Proof. intros. split; [reflexivity|left; reflexivity]. Qed.

Lemma step_inv : forall pin c (o : op E), inv pin c -> inv pin (step pin l w h c o).
Proof.
  intros pin c o [H1 H2]. destruct o as [a|b|e|]; cbn [step].
  - unfold set_alpha. destruct pin; cbn [negb andb].
    + split; [exact H1|]. destruct H2 as [H2|[H2 _]]; [left; exact H2|discriminate].
    + destruct (Req_EM_T a (s_alpha c)) as [->|Hn].
      * split; [exact H1|exact H2].
      * split; [reflexivity|left; reflexivity].
  - split; assumption.
  - split; assumption.
  - unfold read. destruct (s_distort c); [split; assumption|]. split; [exact H1|].
    cbn [fst s_maps s_ku]. destruct H2 as [H2|[Hp H2]]; rewrite H2; [|right; auto]. destruct pin; [left; reflexivity|right; auto].
Qed.

Lemma run_inv : forall pin (ops : list (op E)) c, inv pin c -> inv pin (run pin l w h ops c).
Proof. intros pin ops. unfold run. induction ops as [|o ops IH]; intros c H; [exact H|]. cbn. apply IH, step_inv, H. Qed.

Lemma step_alpha : forall pin c (o : op E), s_alpha (step pin l w h c o) = match o with SetAlpha a => a | _ => s_alpha c end /\
  s_distort (step pin l w h c o) = match o with SetDistort d => d | _ => s_distort c end.
Proof.
  intros pin c [a|b|e|]; cbn; try (split; reflexivity).
  - unfold set_alpha. destruct (negb pin && _); split; reflexivity.
  - unfold read. destruct (s_distort c) eqn:D; cbn; rewrite ?D; split; reflexivity.
Qed.

Lemma run_settings : forall pin (ops : list (op E)) (c : cam E), s_alpha (run pin l w h ops c) = last_alpha ops (s_alpha c) /\
  s_distort (run pin l w h ops c) = last_distort ops (s_distort c).
Proof.
  intros pin ops. unfold run, last_alpha, last_distort. induction ops as [|o ops IH]; intros c; [split; reflexivity|]. cbn.
  destruct (step_alpha pin c o) as [A B]. destruct (IH (step pin l w h c o)) as [C D]. rewrite C, D, A, B. split; reflexivity.
Qed.

Lemma run_ext : forall pin (ops : list (op E)) (c : cam E), s_ext (run pin l w h ops c) = last_ext ops (s_ext c).
Proof.
  intros pin ops. unfold run, last_ext. induction ops as [|o ops IH]; intros c; [reflexivity|]. cbn. rewrite IH.
  f_equal. destruct o; cbn; try reflexivity.
  - unfold set_alpha. destruct (_ && _); reflexivity.
  - unfold read. destruct (s_distort c); reflexivity.
Qed.

Theorem settings_kept : forall pin alpha0 d0 (e0 : option E) (ops : list (op E)),
  let c := run pin l w h ops (cam_init pin K l w h alpha0 d0 e0) in
  s_alpha c = last_alpha ops alpha0 /\ s_distort c = last_distort ops d0 /\ s_ext c = last_ext ops e0.
Proof.
  intros pin alpha0 d0 e0 ops c. destruct (run_settings pin ops (cam_init pin K l w h alpha0 d0 e0)) as [A B].
  split; [exact A|]. split; [exact B|]. apply run_ext.
Qed.

Theorem never_stale : forall alpha0 d0 (e0 : option E) (ops : list (op E)),
  let c := run false l w h ops (cam_init false K l w h alpha0 d0 e0) in
  let alpha := last_alpha ops alpha0 in
  s_alpha c = alpha /\ s_ku c = ku_of alpha /\
  snd (read false l c) = if last_distort ops d0 then None else Some (undistort_maps l (ku_of alpha)).
Proof.
  intros alpha0 d0 e0 ops c alpha. destruct (run_settings false ops (cam_init false K l w h alpha0 d0 e0)) as [A B].
  fold c in A, B. cbn in A, B. fold alpha in A. pose proof (run_inv false ops _ (init_inv false alpha0 d0 e0)) as [I1 I2]. fold c in I1, I2.
  cbn in I1. rewrite A in I1. split; [exact A|]. split; [exact I1|]. unfold read. rewrite B. destruct (last_distort ops d0); [reflexivity|].
  cbn [snd]. destruct I2 as [I2|[_ I2]]; rewrite I2, I1; reflexivity.
Qed.

Theorem pinhole_never_undistorts : forall alpha0 d0 (e0 : option E) (ops : list (op E)),
  let c := run true l w h ops (cam_init true K l w h alpha0 d0 e0) in
  s_ku c = K /\ snd (read true l c) = None.
Proof.
  intros alpha0 d0 e0 ops c. pose proof (run_inv true ops _ (init_inv true alpha0 d0 e0)) as [I1 I2]. fold c in I1, I2.
  split; [exact I1|]. unfold read. destruct (s_distort c); [reflexivity|]. cbn. destruct I2 as [I2|[I2 _]]; [rewrite I2; reflexivity|discriminate].
Qed.
End State.

(** * The undistorted image and the undistorted model *)
Theorem undistorted_consistent : forall l ku r t p ji, kfx ku <> 0 -> kfy ku <> 0 ->
  world_to_pixel (Frame l ku false r t) p = num2 ji ->
  undistort_maps l ku ji = world_to_pixel (Frame l ku true r t) p.
Proof.
  intros l ku r t [[[|x] [|y]] [|z]] ji Fx Fy H; try discriminate. unfold world_to_pixel in *. cbn [fr_R fr_T] in *.
  destruct (Req_EM_T _ _) as [E|E]; [discriminate|]. unfold active_lens in *. cbn [fr_distort fr_lens fr_ku] in *. cbn [pinhole l_fwd] in H.
  unfold undistort_maps. f_equal. set (xy := (_, _)) in *. assert (ji = k_apply ku xy).
  { unfold num2 in H. injection H as H1 H2. destruct ji. cbn [fst snd] in *. unfold k_apply. rewrite <- H1, <- H2. reflexivity. }
  subst ji. apply k_solve_apply; assumption.
Qed.

Theorem alpha_limits : forall p2c w h alpha,
  (alpha <= 0 -> undistort_intrinsic p2c w h alpha = undistort_intrinsic p2c w h 0) /\
  (1 <= alpha -> undistort_intrinsic p2c w h alpha = undistort_intrinsic p2c w h 1).
Proof.
  intros p2c w h alpha. rewrite (undistort_clip p2c w h alpha), (undistort_clip p2c w h 0), (undistort_clip p2c w h 1).
  split; intros H; [rewrite (clip01_low alpha H), (clip01_low 0)by lra|rewrite (clip01_high alpha H), (clip01_high 1) by lra]; reflexivity.
Qed.

(** * Example *)
Definition barrel (ji : R * R) : R * R :=
  let x := fst ji - 4 in let y := snd ji - 4 in
  (x * (100 + x * x + y * y), y * (100 + x * x + y * y)).

Lemma barrel_nonempty : nonempty (fst (get_rectangles barrel 9 9)) /\ nonempty (snd (get_rectangles barrel 9 9)).
Proof.
  assert (S : forall a b, sample_pixel 9 9 a b = (INR a, INR b)) by (intros; unfold sample_pixel; f_equal; field).
  assert (I8 : INR 8 = 8) by (cbn; ring).
  pose proof (inner_sides barrel 9 9) as (_ & _ & _ & _ & (b1 & B1 & E1) & (b2 & B2 & E2) & (b3 & B3 & E3) & (b4 & B4 & E4)).
  pose proof (inner_in_outer barrel 9 9) as (I1 & I2 & I3 & I4).
  set (r := fst (get_rectangles barrel 9 9)) in *. set (o := snd (get_rectangles barrel 9 9)) in *. clearbody r o.
  rewrite S in E1, E2, E3, E4. rewrite I8 in E2, E4. change (INR 0) with 0 in E1, E3. unfold barrel in E1, E2, E3, E4. cbn [fst snd] in E1, E2, E3, E4.
  assert (N : nonempty r).
  { pose proof (Rle_0_sqr (INR b1 - 4)) as Q1; pose proof (Rle_0_sqr (INR b2 - 4)) as Q2.
    pose proof (Rle_0_sqr (INR b3 - 4)) as Q3; pose proof (Rle_0_sqr (INR b4 - 4)) as Q4.
    unfold Rsqr in Q1, Q2, Q3, Q4. unfold nonempty. split; lra. }
  split; [exact N|].
  destruct N as [N1 N2]. split; lra.
Qed.
