From Coq Require Import Reals Rtrigo Ratan Lra Psatz.
From Verif Require Import Mat Rot_Model Rot_Spec.
Open Scope R_scope.

Ltac mcbn := cbv beta iota zeta delta [mk mmul mtr mvec dot vadd vsub vscale cross mI det flip_yz vx vy vz row0 row1 row2] in *.
Lemma vec_eq : forall a b c d e f, a = d -> b = e -> c = f -> V3 a b c = V3 d e f.
Proof. intros; subst; reflexivity. Qed.
Lemma mat_eq : forall a b c d e f, a = d -> b = e -> c = f -> M3 a b c = M3 d e f.
Proof. intros; subst; reflexivity. Qed.
Ltac meq := cbv beta iota zeta delta [mk mmul mtr mvec dot vadd vsub vscale cross mI det flip_yz vx vy vz row0 row1 row2]; repeat (apply mat_eq || apply vec_eq).

(** * Trigonometry *)
Lemma sin2_cos2' : forall a, sin a * sin a + cos a * cos a = 1.
Proof. intros a. pose proof (sin2_cos2 a) as H. unfold Rsqr in H. exact H. Qed.

Lemma sqrt_pos2 : forall x y, (x <> 0 \/ y <> 0) -> 0 < x * x + y * y.
Proof. intros x y [H|H]; [assert (0 < x * x) by nra|assert (0 < y * y) by nra]; nra. Qed.

Lemma cos_atan_pos : forall t, cos (atan t) = 1 / sqrt (1 + t * t).
Proof. intros t. rewrite cos_atan. unfold Rsqr. reflexivity. Qed.
Lemma sin_atan_pos : forall t, sin (atan t) = t / sqrt (1 + t * t).
Proof. intros t. rewrite sin_atan. unfold Rsqr. reflexivity. Qed.

Lemma sqrt_ratio : forall x y, 0 < x -> sqrt (x * x + y * y) = x * sqrt (1 + y / x * (y / x)).
Proof.
  intros x y Hx. replace (x * x + y * y) with ((x * x) * (1 + y / x * (y / x))) by (field; lra).
  rewrite sqrt_mult_alt by nra. rewrite sqrt_square by lra. reflexivity.
Qed.

Lemma sqrt1_pos : forall t, 0 < sqrt (1 + t * t).
Proof. intros t. apply sqrt_lt_R0. nra. Qed.

(** [atan2] gives the angle of the point. *)
Lemma atan2_cos_sin : forall y x, (x <> 0 \/ y <> 0) ->
  cos (atan2 y x) = x / sqrt (x * x + y * y) /\ sin (atan2 y x) = y / sqrt (x * x + y * y).
Proof.
  intros y x Hxy. unfold atan2. destruct (Rlt_dec 0 x) as [Hx|Hx].
  - rewrite (sqrt_ratio x y Hx), cos_atan_pos, sin_atan_pos. pose proof (sqrt1_pos (y / x)). split; field; split; lra.
  - destruct (Rlt_dec x 0) as [Hx'|Hx'].
    + assert (E : sqrt (x * x + y * y) = - x * sqrt (1 + y / x * (y / x))).
      { replace (x * x + y * y) with (- x * - x + - y * - y) by ring. rewrite sqrt_ratio by lra. f_equal. f_equal. f_equal. field. lra. }
      rewrite E. pose proof (sqrt1_pos (y / x)).
      assert (A : cos (atan (y / x) + PI) = x / (- x * sqrt (1 + y / x * (y / x))) /\ sin (atan (y / x) + PI) = y / (- x * sqrt (1 + y / x * (y / x)))).
      { rewrite neg_cos, neg_sin, cos_atan_pos, sin_atan_pos. split; field; split; lra. }
      destruct (Rle_dec 0 y); [exact A|].
      replace (atan (y / x) - PI) with (atan (y / x) + PI - 2 * PI) by ring.
      rewrite cos_minus, sin_minus, cos_2PI, sin_2PI. destruct A as [A1 A2]. rewrite A1, A2. split; ring.
    + assert (x = 0) by lra. subst x. destruct (Rlt_dec 0 y) as [Hy|Hy].
      * rewrite cos_PI2, sin_PI2. replace (0 * 0 + y * y) with (y * y) by ring. rewrite sqrt_square by lra. split; field; lra.
      * destruct (Rlt_dec y 0) as [Hy'|Hy']; [|exfalso; lra].
        rewrite cos_neg, sin_neg, cos_PI2, sin_PI2. replace (0 * 0 + y * y) with (- y * - y) by ring.
        rewrite sqrt_square by lra. split; field; lra.
Qed.

Lemma atan2_range : forall y x, - PI < atan2 y x <= PI.
Proof.
  intros y x. unfold atan2. pose proof PI_RGT_0 as HP.
  destruct (Rlt_dec 0 x) as [Hx|Hx].
  - destruct (atan_bound (y / x)). lra.
  - destruct (Rlt_dec x 0) as [Hx'|Hx'].
    + pose proof (atan_bound (y / x)) as [B1 B2]. destruct (Rle_dec 0 y) as [Hy|Hy].
      * assert (Hle : y / x <= 0). { apply Rmult_le_reg_r with (- x); [lra|]. unfold Rdiv. replace (y * / x * - x) with (- y) by (field; lra). lra. }
        split; [lra|]. destruct Hle as [Hlt|He].
        -- pose proof (atan_increasing _ _ Hlt). rewrite atan_0 in H. lra.
        -- rewrite He, atan_0. lra.
      * assert (Hlt : 0 < y / x). { apply Rmult_lt_reg_r with (- x); [lra|]. unfold Rdiv. replace (y * / x * - x) with (- y) by (field; lra). lra. }
        pose proof (atan_increasing _ _ Hlt). rewrite atan_0 in H. lra.
    + repeat (destruct (Rlt_dec _ _)); lra.
Qed.

(** Angles in (-pi, pi] are determined by their sine and cosine. *)
Lemma angle_unique : forall a b, - PI < a <= PI -> - PI < b <= PI -> cos a = cos b -> sin a = sin b -> a = b.
Proof.
  intros a b Ha Hb Hc Hs. pose proof PI_RGT_0 as HP.
  assert (E : cos (a - b) = 1). { rewrite cos_minus, Hc, Hs. pose proof (sin2_cos2' b). lra. }
  assert (S0 : sin (a - b) = 0). { rewrite sin_minus, Hc, Hs. ring. }
  destruct (Rlt_dec (a - b) 0) as [L|L].
  - exfalso. destruct (Rlt_dec (- PI) (a - b)) as [L2|L2].
    + assert (0 < sin (- (a - b))) by (apply sin_gt_0; lra). rewrite sin_neg in H. lra.
    + destruct (Req_EM_T (a - b) (- PI)) as [Q|Q].
      * rewrite Q, cos_neg, cos_PI in E. lra.
      * assert (0 < sin (a - b + 2 * PI)) by (apply sin_gt_0; lra). rewrite sin_plus, sin_2PI, cos_2PI in H. lra.
  - destruct (Req_EM_T (a - b) 0) as [Z|Z]; [lra|]. exfalso. destruct (Rlt_dec (a - b) PI) as [L2|L2].
    + assert (0 < sin (a - b)) by (apply sin_gt_0; lra). lra.
    + destruct (Req_EM_T (a - b) PI) as [Q|Q].
      * rewrite Q, cos_PI in E. lra.
      * assert (sin (a - b) < 0). { apply sin_lt_0; lra. } lra.
Qed.

Lemma atan2_polar : forall r t, 0 < r -> - PI < t <= PI -> atan2 (r * sin t) (r * cos t) = t.
Proof.
  intros r t Hr Ht. assert (Hne : r * cos t <> 0 \/ r * sin t <> 0).
  { destruct (Req_EM_T (cos t) 0) as [Z|Z]; [right|left]; [|nra]. pose proof (sin2_cos2' t). intros F. assert (sin t = 0) by nra. nra. }
  destruct (atan2_cos_sin (r * sin t) (r * cos t) Hne) as [C1 S1].
  assert (Q : sqrt (r * cos t * (r * cos t) + r * sin t * (r * sin t)) = r).
  { replace (r * cos t * (r * cos t) + r * sin t * (r * sin t)) with (r * r * (sin t * sin t + cos t * cos t)) by ring.
    rewrite sin2_cos2', Rmult_1_r. apply sqrt_square. lra. }
  rewrite Q in C1, S1. apply angle_unique; [apply atan2_range|assumption| |].
  - rewrite C1. field. lra.
  - rewrite S1. field. lra.
Qed.

(** * C20 *)
Theorem opk_rotates : forall o p k v, mvec (opk_to_rotation o p k) v = about_x o (about_y p (about_z k v)).
Proof. intros o p k [x y z]. unfold opk_to_rotation, about_x, about_y, about_z. meq; ring. Qed.

Theorem rpy_rotates : forall r p y v, mvec (rpy_to_rotation r p y) v = about_z y (about_y p (about_x r v)).
Proof. intros r p y [a b c]. unfold rpy_to_rotation, about_x, about_y, about_z. meq; ring. Qed.

Lemma mmul_assoc : forall a b c, mmul (mmul a b) c = mmul a (mmul b c).
Proof. intros [[] [] []] [[] [] []] [[] [] []]. meq; ring. Qed.
Lemma mmul_tr : forall a b, mtr (mmul a b) = mmul (mtr b) (mtr a).
Proof. intros [[] [] []] [[] [] []]. meq; ring. Qed.
Lemma mmul_I : forall a, mmul mI a = a.
Proof. intros [[] [] []]. meq; ring. Qed.
Lemma mmul_I_r : forall a, mmul a mI = a.
Proof. intros [[] [] []]. meq; ring. Qed.
Lemma mtr_tr : forall a, mtr (mtr a) = a.
Proof. intros [[] [] []]. reflexivity. Qed.
Lemma det_mul : forall a b, det (mmul a b) = det a * det b.
Proof. intros [[] [] []] [[] [] []]. meq. ring. Qed.
Lemma det_tr : forall a, det (mtr a) = det a.
Proof. intros [[] [] []]. meq. ring. Qed.
Lemma mvec_mmul : forall a b v, mvec (mmul a b) v = mvec a (mvec b v).
Proof. intros [[] [] []] [[] [] []] []. meq; ring. Qed.
Lemma mvec_I : forall v, mvec mI v = v.
Proof. intros []. meq; ring. Qed.

Lemma rotation_mul : forall a b, rotation a -> rotation b -> rotation (mmul a b).
Proof.
  intros a b [A1 A2] [B1 B2]. split.
  - rewrite mmul_tr, mmul_assoc, <- (mmul_assoc (mtr a)), A1, mmul_I. exact B1.
  - rewrite det_mul, A2, B2. ring.
Qed.

(** Cofactors: a rotation is its own cofactor matrix. *)
Lemma rot_cof : forall a, rotation a ->
  row0 a = cross (row1 a) (row2 a) /\ row1 a = cross (row2 a) (row0 a) /\ row2 a = cross (row0 a) (row1 a).
Proof.
  intros [[a b c] [d e f] [g h i]] [H1 H2]. mcbn.
  injection H1 as E1 E2 E3 E4 E5 E6 E7 E8 E9. split; [|split]; apply vec_eq.
  all: match goal with |- ?x = ?rhs => transitivity (1 * x); [ring|rewrite <- H2] end.
  - transitivity ((e * i - f * h) * (a * a + d * d + g * g) + (f * g - d * i) * (b * a + e * d + h * g) + (d * h - e * g) * (c * a + f * d + i * g)); [ring|rewrite E1, E2, E3; ring].
  - transitivity ((e * i - f * h) * (a * b + d * e + g * h) + (f * g - d * i) * (b * b + e * e + h * h) + (d * h - e * g) * (c * b + f * e + i * h)); [ring|rewrite E4, E5, E6; ring].
  - transitivity ((e * i - f * h) * (a * c + d * f + g * i) + (f * g - d * i) * (b * c + e * f + h * i) + (d * h - e * g) * (c * c + f * f + i * i)); [ring|rewrite E7, E8, E9; ring].
  - transitivity ((h * c - i * b) * (a * a + d * d + g * g) + (i * a - g * c) * (b * a + e * d + h * g) + (g * b - h * a) * (c * a + f * d + i * g)); [ring|rewrite E1, E2, E3; ring].
  - transitivity ((h * c - i * b) * (a * b + d * e + g * h) + (i * a - g * c) * (b * b + e * e + h * h) + (g * b - h * a) * (c * b + f * e + i * h)); [ring|rewrite E4, E5, E6; ring].
  - transitivity ((h * c - i * b) * (a * c + d * f + g * i) + (i * a - g * c) * (b * c + e * f + h * i) + (g * b - h * a) * (c * c + f * f + i * i)); [ring|rewrite E7, E8, E9; ring].
  - transitivity ((b * f - c * e) * (a * a + d * d + g * g) + (c * d - a * f) * (b * a + e * d + h * g) + (a * e - b * d) * (c * a + f * d + i * g)); [ring|rewrite E1, E2, E3; ring].
  - transitivity ((b * f - c * e) * (a * b + d * e + g * h) + (c * d - a * f) * (b * b + e * e + h * h) + (a * e - b * d) * (c * b + f * e + i * h)); [ring|rewrite E4, E5, E6; ring].
  - transitivity ((b * f - c * e) * (a * c + d * f + g * i) + (c * d - a * f) * (b * c + e * f + h * i) + (a * e - b * d) * (c * c + f * f + i * i)); [ring|rewrite E7, E8, E9; ring].
Qed.

(** A rotation's rows are orthonormal too. *)
Lemma rotation_tr : forall a, rotation a -> mmul a (mtr a) = mI /\ rotation (mtr a).
Proof.
  intros a H. assert (E : mmul a (mtr a) = mI).
  { pose proof (rot_cof a H) as (C0 & C1 & C2). destruct H as [_ D]. destruct a as [r0 r1 r2]. cbn [row0 row1 row2] in *.
    unfold det in D. cbn [row0 row1 row2] in D.
    assert (P00 : dot r0 r0 = 1) by (rewrite <- D; f_equal; exact C0).
    assert (P11 : dot r1 r1 = 1) by (rewrite <- D; rewrite C1 at 2; destruct r0, r1, r2; meq; ring).
    assert (P22 : dot r2 r2 = 1) by (rewrite <- D; rewrite C2 at 2; destruct r0, r1, r2; meq; ring).
    assert (P01 : dot r0 r1 = 0) by (rewrite C1; destruct r0, r1, r2; meq; ring).
    assert (P02 : dot r0 r2 = 0) by (rewrite C2; destruct r0, r1, r2; meq; ring).
    assert (P12 : dot r1 r2 = 0) by (rewrite C2; destruct r0, r1, r2; meq; ring).
    unfold mmul. rewrite mtr_tr. unfold mvec, mI, mk. cbn [row0 row1 row2].
    repeat (apply mat_eq || apply vec_eq); try assumption.
    - destruct r0, r1; unfold dot in *; cbn in *; lra.
    - destruct r0, r2; unfold dot in *; cbn in *; lra.
    - destruct r1, r2; unfold dot in *; cbn in *; lra. }
  split; [exact E|]. split; [rewrite mtr_tr; exact E|]. rewrite det_tr. apply H.
Qed.

Lemma rot_x_rotation : forall a, rotation (mk 1 0 0  0 (cos a) (- sin a)  0 (sin a) (cos a)).
Proof. intros a. pose proof (sin2_cos2' a). split; [meq; try ring; lra|meq; lra]. Qed.
Lemma rot_y_rotation : forall a, rotation (mk (cos a) 0 (sin a)  0 1 0  (- sin a) 0 (cos a)).
Proof. intros a. pose proof (sin2_cos2' a). split; [meq; try ring; lra|meq; lra]. Qed.
Lemma rot_z_rotation : forall a, rotation (mk (cos a) (- sin a) 0  (sin a) (cos a) 0  0 0 1).
Proof. intros a. pose proof (sin2_cos2' a). split; [meq; try ring; lra|meq; lra]. Qed.

Theorem opk_rotation : forall o p k, rotation (opk_to_rotation o p k).
Proof. intros. apply rotation_mul; [apply rotation_mul|]; [apply rot_x_rotation|apply rot_y_rotation|apply rot_z_rotation]. Qed.
Theorem rpy_rotation : forall r p y, rotation (rpy_to_rotation r p y).
Proof. intros. apply rotation_mul; [apply rotation_mul|]; [apply rot_z_rotation|apply rot_y_rotation|apply rot_x_rotation]. Qed.

Lemma flip_rotation : rotation flip_yz.
Proof. split; meq; ring. Qed.
Lemma flip_flip : mmul flip_yz flip_yz = mI.
Proof. meq; ring. Qed.

(** * C21 *)
Lemma opk_entries : forall o p k, opk_to_rotation o p k =
  mk (cos p * cos k) (- (cos p * sin k)) (sin p)
     (cos o * sin k + sin o * sin p * cos k) (cos o * cos k - sin o * sin p * sin k) (- (sin o * cos p))
     (sin o * sin k - cos o * sin p * cos k) (sin o * cos k + cos o * sin p * sin k) (cos o * cos p).
Proof. intros. unfold opk_to_rotation. meq; ring. Qed.

Theorem rotation_opk_rotation : forall r o p k, rotation r -> Rabs (vz (row0 r)) < 1 ->
  rotation_to_opk r = (o, p, k) -> opk_to_rotation o p k = r.
Proof.
  intros r o p k Hr Hab Hopk. pose proof (rot_cof r Hr) as (C0 & C1 & C2). pose proof (rotation_tr r Hr) as [Hrr _].
  destruct r as [[a b c] [d e f] [g h i]]. destruct Hr as [H1 _].
  mcbn.
  injection H1 as E1 E2 E3 E4 E5 E6 E7 E8 E9. injection Hrr as F1 F2 F3 F4 F5 F6 F7 F8 F9.
  injection C0 as A0 A1 A2. injection C1 as B0 B1 B2. injection C2 as D0 D1 D2.
  unfold rotation_to_opk in Hopk. cbn [vx vy vz row0 row1 row2] in Hopk. injection Hopk as Ho Hp Hk.
  apply Rabs_def2 in Hab.
  set (q := sqrt (1 - c * c)).
  assert (Hq : 0 < q) by (apply sqrt_lt_R0; nra).
  assert (Hqq : q * q = 1 - c * c) by (apply sqrt_sqrt; nra).
  assert (Sp : sin p = c) by (subst p; apply sin_asin; lra).
  assert (Cp : cos p = q). { subst p. rewrite cos_asin by lra. unfold q, Rsqr. reflexivity. }
  assert (N1 : f * f + i * i = q * q) by lra.
  assert (N2 : a * a + b * b = q * q) by lra.
  assert (Co : cos o = i / q /\ sin o = - f / q).
  { subst o. replace q with (sqrt (i * i + - f * - f)).
    - apply atan2_cos_sin. destruct (Req_EM_T i 0); [right|left]; [|assumption]. intros Z. assert (f = 0) by lra. subst. nra.
    - replace (i * i + - f * - f) with (q * q) by lra. apply sqrt_square. lra. }
  assert (Ck : cos k = a / q /\ sin k = - b / q).
  { subst k. replace q with (sqrt (a * a + - b * - b)).
    - apply atan2_cos_sin. destruct (Req_EM_T a 0); [right|left]; [|assumption]. intros Z. assert (b = 0) by lra. subst. nra.
    - replace (a * a + - b * - b) with (q * q) by lra. apply sqrt_square. lra. }
  destruct Co as [Co So], Ck as [Ck Sk].
  rewrite opk_entries, Co, So, Ck, Sk, Sp, Cp. unfold mk.
  assert (Hdiv : forall x y, x = y * (q * q) -> x / (q * q) = y) by (intros x y ->; field; lra).
  repeat (apply mat_eq || apply vec_eq); try (field; lra); try reflexivity.
  - replace (i / q * (- b / q) + - f / q * c * (a / q)) with ((- (b * i) - a * c * f) / (q * q)) by (field; lra).
    apply Hdiv. rewrite Hqq. transitivity (d - h * c - a * c * f); [lra|rewrite D1; ring].
  - replace (i / q * (a / q) - - f / q * c * (- b / q)) with ((a * i - b * c * f) / (q * q)) by (field; lra).
    apply Hdiv. rewrite Hqq. transitivity (e + g * c - b * c * f); [lra|rewrite D0; ring].
  - replace (- f / q * (- b / q) - i / q * c * (a / q)) with ((b * f - a * c * i) / (q * q)) by (field; lra).
    apply Hdiv. rewrite Hqq. transitivity (g + c * e - a * c * i); [lra|rewrite B1; ring].
  - replace (- f / q * (a / q) + i / q * c * (- b / q)) with ((- (a * f) - b * c * i) / (q * q)) by (field; lra).
    apply Hdiv. rewrite Hqq. transitivity (h - c * d - b * c * i); [lra|rewrite B0; ring].
Qed.

Theorem opk_rotation_opk : forall o p k, - PI < o <= PI -> - (PI / 2) < p < PI / 2 -> - PI < k <= PI ->
  rotation_to_opk (opk_to_rotation o p k) = (o, p, k).
Proof.
  intros o p k Ho Hp Hk. rewrite opk_entries. unfold rotation_to_opk, mk. cbn [vx vy vz row0 row1 row2].
  assert (Hc : 0 < cos p) by (apply cos_gt_0; lra).
  replace (- - (sin o * cos p)) with (cos p * sin o) by ring. replace (cos o * cos p) with (cos p * cos o) by ring.
  replace (- - (cos p * sin k)) with (cos p * sin k) by ring.
  rewrite !atan2_polar by assumption. rewrite asin_sin by lra. reflexivity.
Qed.

(** Gimbal lock: every such rotation is read as one of two. *)
Theorem gimbal_lock : forall r, rotation r -> vz (row0 r) = 1 ->
  rotation_to_opk r = (0, PI / 2, 0).
Proof.
  intros r Hr H1. pose proof (rotation_tr r Hr) as [Hrr _]. destruct Hr as [HtR _].
  destruct r as [[a b c] [d e f] [g h i]].
  mcbn. subst c.
  injection HtR as E1 E2 E3 E4 E5 E6 E7 E8 E9. injection Hrr as F1 F2 F3 F4 F5 F6 F7 F8 F9.
  assert (a = 0 /\ b = 0) as [-> ->] by (split; nra). assert (f = 0 /\ i = 0) as [-> ->] by (split; nra).
  unfold rotation_to_opk. cbn [vx vy vz row0 row1 row2].
  assert (A : atan2 (- 0) 0 = 0) by (unfold atan2; repeat (destruct (Rlt_dec _ _)); lra).
  rewrite A, asin_1. reflexivity.
Qed.

Theorem gimbal_lock_lost : exists o k, - PI < o <= PI /\ - PI < k <= PI /\
  let r := opk_to_rotation o (PI / 2) k in
  let '(o', p', k') := rotation_to_opk r in opk_to_rotation o' p' k' <> r.
Proof.
  exists 0, (PI / 2). pose proof PI_RGT_0. split; [lra|]. split; [lra|]. cbn zeta.
  rewrite gimbal_lock; [|apply opk_rotation|rewrite opk_entries; cbn; apply sin_PI2].
  intros E. rewrite !opk_entries in E. apply (f_equal (fun m => vx (row1 m))) in E. cbn in E.
  rewrite sin_0, cos_0, sin_PI2, cos_PI2 in E. lra.
Qed.

(** * C22 *)
Theorem cv_ext_preserves : forall t r ref p xyz opk, rotation r -> Rabs (vx (row2 r)) < 1 ->
  cv_ext_to_oty_ext t r ref = (xyz, opk) ->
  frame_camera_coords (extrinsic_rotation opk) xyz p =
  cv_camera_coords r t (match ref with Some q => vsub p q | None => p end).
Proof.
  intros t r ref p xyz [[o ph] k] Hr Hab H. unfold cv_ext_to_oty_ext in H.
  pose proof (f_equal fst H) as Hxyz. pose proof (f_equal snd H) as Hopk. cbn [fst snd] in Hxyz, Hopk. clear H.
  destruct (rotation_tr r Hr) as [Hrr Htr].
  assert (Hrot : rotation (mmul (mtr r) flip_yz)) by (apply rotation_mul; [assumption|apply flip_rotation]).
  assert (E : opk_to_rotation o ph k = mmul (mtr r) flip_yz).
  { apply rotation_opk_rotation; [assumption| |assumption]. clear - Hab. destruct r as [[a b c] [d e f] [g h i]].
    match goal with |- Rabs ?x < 1 => replace x with (- g) end.
    - rewrite Rabs_Ropp. exact Hab.
    - meq. ring. }
  unfold extrinsic_rotation, frame_camera_coords, cv_camera_coords. rewrite E, mmul_assoc, flip_flip, mmul_I_r, mtr_tr.
  assert (V : forall q, mvec r (vsub p (vadd (vscale (-1) (mvec (mtr r) t)) q)) = vadd (mvec r (vsub p q)) t).
  { intros q. transitivity (vadd (mvec r (vsub p q)) (mvec r (mvec (mtr r) t))).
    - destruct r as [[] [] []], t, p, q. meq; ring.
    - rewrite <- mvec_mmul, Hrr, mvec_I. reflexivity. }
  destruct ref as [q|]; subst xyz; [apply V|].
  specialize (V (V3 0 0 0)). replace (vsub p (V3 0 0 0)) with p in V by (destruct p; meq; ring).
  rewrite <- V. f_equal. destruct r as [[] [] []], t, p. meq; ring.
Qed.

(** * C23 *)
Lemma north_frame : forall d, vz d = 0 -> dot d d <> 0 ->
  let m := sqrt (dot d d) in
  let x_np := V3 (vx d / m) (vy d / m) (vz d / m) in
  let c := mtr (M3 x_np (cross (V3 0 0 (-1)) x_np) (V3 0 0 (-1))) in
  rotation c.
Proof.
  intros [x y z] Hz Hd m x_np c. cbn in Hz. subst z.
  assert (Hp : 0 < x * x + y * y). { unfold dot in Hd. cbn in Hd. nra. }
  assert (Hm : m * m = x * x + y * y). { unfold m, dot. cbn. replace (x * x + y * y + 0 * 0) with (x * x + y * y) by ring. apply sqrt_sqrt. lra. }
  assert (Hm0 : m <> 0) by (intros Z; rewrite Z in Hm; lra). clearbody m.
  assert (Hn : x / m * (x / m) + y / m * (y / m) = 1).
  { replace (x / m * (x / m) + y / m * (y / m)) with ((x * x + y * y) / (m * m)) by (field; assumption). rewrite Hm. field. lra. }
  subst c x_np. cbn [vx vy vz]. replace (0 / m) with 0 by (field; assumption).
  set (u := x / m) in *. set (v := y / m) in *. clearbody u v. split; meq; nra || lra.
Qed.

(** The rotation from navigation axes (north, east, down) at [lla] to world axes. *)
Definition nav_to_world (lat lon alt : R) (to_world : R -> R -> R -> vec) : mat :=
  let d := vsub (to_world (lat + / 10000000) lon alt) (to_world (lat - / 10000000) lon alt) in
  let m := sqrt (dot d d) in
  let x_np := V3 (vx d / m) (vy d / m) (vz d / m) in
  mtr (M3 x_np (cross (V3 0 0 (-1)) x_np) (V3 0 0 (-1))).

Lemma rpy_to_opk_eq : forall roll pitch yaw lat lon alt tw c, rpy_to_opk roll pitch yaw lat lon alt tw c =
  rotation_to_opk (mmul (mmul (nav_to_world lat lon alt tw) (rpy_to_rotation roll pitch yaw)) (match c with Some c => c | None => mk 0 1 0  1 0 0  0 0 (-1) end)).
Proof. reflexivity. Qed.

Definition horizontal (lat lon alt : R) (to_world : R -> R -> R -> vec) : Prop :=
  let d := vsub (to_world (lat + / 10000000) lon alt) (to_world (lat - / 10000000) lon alt) in
  vz d = 0 /\ dot d d <> 0.

Lemma nav_rotation : forall lat lon alt tw, horizontal lat lon alt tw -> rotation (nav_to_world lat lon alt tw).
Proof. intros lat lon alt tw [H1 H2]. apply north_frame; assumption. Qed.

Theorem rpy_opk_rotation : forall roll pitch yaw lat lon alt tw c o p k,
  horizontal lat lon alt tw ->
  let cc := match c with Some c => c | None => mk 0 1 0  1 0 0  0 0 (-1) end in
  rotation cc ->
  let full := mmul (mmul (nav_to_world lat lon alt tw) (rpy_to_rotation roll pitch yaw)) cc in
  Rabs (vz (row0 full)) < 1 ->
  rpy_to_opk roll pitch yaw lat lon alt tw c = (o, p, k) -> opk_to_rotation o p k = full.
Proof.
  intros roll pitch yaw lat lon alt tw c o p k Hh cc Hc full Hab H. rewrite rpy_to_opk_eq in H. fold cc in H. fold full in H.
  apply rotation_opk_rotation; [|assumption|assumption].
  apply rotation_mul; [apply rotation_mul; [apply nav_rotation; assumption|apply rpy_rotation]|assumption].
Qed.

Theorem rpy_level : forall yaw lat lon alt tw, - PI <= yaw < PI ->
  (let d := vsub (tw (lat + / 10000000) lon alt) (tw (lat - / 10000000) lon alt) in vx d = 0 /\ 0 < vy d /\ vz d = 0) ->
  rpy_to_opk 0 0 yaw lat lon alt tw None = (0, 0, - yaw).
Proof.
  intros yaw lat lon alt tw Hy (Hx & Hyy & Hz). rewrite rpy_to_opk_eq.
  set (d := vsub (tw (lat + / 10000000) lon alt) (tw (lat - / 10000000) lon alt)) in *.
  assert (E : nav_to_world lat lon alt tw = mk 0 1 0  1 0 0  0 0 (-1)).
  { unfold nav_to_world. fold d. destruct d as [x y z]. cbn in Hx, Hyy, Hz. subst x z.
    assert (S1 : sqrt (dot (V3 0 y 0) (V3 0 y 0)) = y).
    { unfold dot. cbn. replace (0 * 0 + y * y + 0 * 0) with (y * y) by ring. apply sqrt_square. lra. }
    rewrite S1. meq; field; lra. }
  rewrite E. replace (mmul (mmul (mk 0 1 0 1 0 0 0 0 (-1)) (rpy_to_rotation 0 0 yaw)) (mk 0 1 0 1 0 0 0 0 (-1)))
    with (opk_to_rotation 0 0 (- yaw)).
  - apply opk_rotation_opk; pose proof PI_RGT_0; lra.
  - unfold opk_to_rotation, rpy_to_rotation. rewrite sin_0, cos_0, cos_neg, sin_neg. meq; ring.
Qed.

Lemma north_is_frame : forall lat lon alt tw nx ny, north_is lat lon alt tw nx ny ->
  horizontal lat lon alt tw /\ nav_to_world lat lon alt tw = mk nx ny 0  ny (- nx) 0  0 0 (-1).
Proof.
  intros lat lon alt tw nx ny (Hn & s & Hs & E). unfold horizontal, nav_to_world. rewrite E.
  assert (D : dot (V3 (s * nx) (s * ny) 0) (V3 (s * nx) (s * ny) 0) = s * s).
  { unfold dot. cbn. replace (s * nx * (s * nx) + s * ny * (s * ny) + 0 * 0) with (s * s * (nx * nx + ny * ny)) by ring. rewrite Hn. ring. }
  rewrite D. split; [split; [reflexivity|nra]|]. rewrite sqrt_square by lra. meq; field; lra.
Qed.

Theorem rpy_opk_world : forall roll pitch yaw lat lon alt tw nx ny o p k v,
  north_is lat lon alt tw nx ny ->
  Rabs (vx (rpy_world roll pitch yaw nx ny (V3 0 0 1))) < 1 ->
  rpy_to_opk roll pitch yaw lat lon alt tw None = (o, p, k) ->
  mvec (opk_to_rotation o p k) v = rpy_world roll pitch yaw nx ny v.
Proof.
  intros roll pitch yaw lat lon alt tw nx ny o p k v Hn Hab H. destruct (north_is_frame _ _ _ _ _ _ Hn) as [Hh E].
  assert (W : forall u, mvec (mmul (mmul (nav_to_world lat lon alt tw) (rpy_to_rotation roll pitch yaw)) (mk 0 1 0  1 0 0  0 0 (-1))) u = rpy_world roll pitch yaw nx ny u).
  { intros u. rewrite !mvec_mmul, rpy_rotates, E. unfold rpy_world, from_ned. destruct u as [x y z].
    replace (mvec (mk 0 1 0 1 0 0 0 0 (-1)) (V3 x y z)) with (V3 y x (- z)) by (meq; ring).
    cbn [vx vy vz]. set (w := about_z _ _). destruct w as [a b c]. meq; ring. }
  rewrite <- W. f_equal. apply (rpy_opk_rotation roll pitch yaw lat lon alt tw None o p k Hh); [| |exact H].
  - split; meq; ring.
  - cbn zeta iota beta. rewrite <- W in Hab. set (m := mmul _ _) in *. clearbody m. destruct m as [[a b c] [d e f] [g h i]].
    revert Hab. unfold mvec, dot. cbn [vx vy vz row0]. intros Hab. match goal with |- Rabs ?x < 1 => match type of Hab with Rabs ?y < 1 => replace x with y by ring; exact Hab end end.
Qed.

Theorem rpy_opk_level : forall yaw lat lon alt tw, - PI <= yaw < PI -> north_is lat lon alt tw 0 1 ->
  rpy_to_opk 0 0 yaw lat lon alt tw None = (0, 0, - yaw).
Proof.
  intros yaw lat lon alt tw Hy (_ & s & Hs & E). apply rpy_level; [assumption|]. rewrite E. cbn. lra.
Qed.

(** The orientation of such a camera: it looks down, and its image top is at the heading. *)
Lemma level_looks_down : forall yaw, 
  rpy_world 0 0 yaw 0 1 (V3 0 0 (-1)) = V3 0 0 (-1) /\ rpy_world 0 0 yaw 0 1 (V3 0 1 0) = V3 (sin yaw) (cos yaw) 0.
Proof.
  intros yaw. unfold rpy_world, from_ned, about_x, about_y, about_z. cbn [vx vy vz]. rewrite sin_0, cos_0. split; apply vec_eq; ring.
Qed.

Lemma gimbal_lock_all : forall r o p k, rotation r -> vz (row0 r) = 1 -> rotation_to_opk r = (o, p, k) ->
  opk_to_rotation o p k = mk 0 0 1  0 1 0  (-1) 0 0.
Proof.
  intros r o p k Hr H1 H. rewrite (gimbal_lock r Hr H1) in H. injection H as <- <- <-.
  rewrite opk_entries, sin_0, cos_0, sin_PI2, cos_PI2. meq; ring.
Qed.

Theorem aa_preserves : forall r c p, rotation r -> Rabs (vx (row2 r)) < 1 ->
  frame_camera_coords (extrinsic_rotation (aa_to_opk r)) c p = mvec r (vsub p c).
Proof.
  intros r c p Hr Ha. set (t := vscale (-1) (mvec r c)).
  destruct (cv_ext_to_oty_ext t r None) as [xyz opk] eqn:E.
  pose proof (cv_ext_preserves t r None p xyz opk Hr Ha E) as H.
  assert (opk = aa_to_opk r) as -> by (apply (f_equal snd) in E; cbn in E; rewrite <- E; reflexivity).
  assert (xyz = c) as ->.
  { apply (f_equal fst) in E. cbn [fst cv_ext_to_oty_ext] in E. rewrite <- E. unfold t. destruct Hr as [Ho _].
    transitivity (mvec (mmul (mtr r) r) c).
    - destruct r as [[a b c1] [d e f] [g h i]], c. meq; ring.
    - rewrite Ho. destruct c. meq; ring. }
  rewrite H. unfold cv_camera_coords, t. destruct r as [[a b c1] [d e f] [g h i]], c, p. meq; ring.
Qed.
