From Coq Require Import List Reals ZArith Bool Lra Lia Psatz.
From Verif Require Import Py Flt Mat Rot_Model Rot_Proof Frame_Model Frame_Spec.
Import ListNotations.
Open Scope R_scope.

(** * Intrinsics *)
Lemma k_solve_apply : forall k xy, kfx k <> 0 -> kfy k <> 0 -> k_solve k (k_apply k xy) = xy.
Proof. intros k [x y] Hx Hy. unfold k_solve, k_apply. cbn. f_equal; field; assumption. Qed.
Lemma k_apply_solve : forall k ji, kfx k <> 0 -> kfy k <> 0 -> k_apply k (k_solve k ji) = ji.
Proof. intros k [x y] Hx Hy. unfold k_solve, k_apply. cbn. f_equal; field; assumption. Qed.

Theorem intrinsic_sensor : forall w h focal fx fy sw sh cx cy k,
  sw <> 0 -> sh <> 0 -> pair_of focal = Ok (fx, fy) ->
  get_intrinsic w h focal (Some [sw; sh]) cx cy = Ok k ->
  kfx k = fx / sw * IZR w /\ kfy k = fy / sh * IZR h /\
  kcx k = (IZR w - 1) / 2 + cx * IZR (Z.max w h) /\ kcy k = (IZR h - 1) / 2 + cy * IZR (Z.max w h).
Proof.
  intros w h focal fx fy sw sh cx cy k Hw Hh Hf H. unfold get_intrinsic in H. cbn in H. rewrite Hf in H. cbn in H.
  inversion H; subst; cbn. repeat split; field; auto.
Qed.

Theorem intrinsic_no_sensor : forall w h focal fx fy cx cy k,
  pair_of focal = Ok (fx, fy) -> get_intrinsic w h focal None cx cy = Ok k ->
  kfx k = fx * IZR w /\ kfy k = fy * IZR w /\
  kcx k = (IZR w - 1) / 2 + cx * IZR (Z.max w h) /\ kcy k = (IZR h - 1) / 2 + cy * IZR (Z.max w h).
Proof.
  intros w h focal fx fy cx cy k Hf H. unfold get_intrinsic in H. cbn in H. rewrite Hf in H. cbn in H.
  inversion H; subst; cbn. repeat split; ring.
Qed.

Theorem intrinsic_errors : forall w h focal sensor cx cy e, get_intrinsic w h focal sensor cx cy = Err e ->
  e = ValueError /\ ((length focal = 0 \/ 2 < length focal)%nat \/ exists s, sensor = Some s /\ length s <> 2%nat).
Proof.
  intros w h focal sensor cx cy e H. unfold get_intrinsic in H.
  destruct sensor as [[|s1 [|s2 [|s3 s]]]|]; cbn in H; try (inversion H; subst; split; [reflexivity|]; right; eexists; split; [reflexivity|cbn; lia]);
  (destruct focal as [|f1 [|f2 [|f3 f]]]; cbn in H; inversion H; subst; split; [reflexivity|left; cbn; lia|reflexivity|left; cbn; lia]).
Qed.

Theorem intrinsic_errors_iff : forall w h focal sensor cx cy, get_intrinsic w h focal sensor cx cy = Err ValueError <->
  ((length focal = 0 \/ 2 < length focal)%nat \/ exists s, sensor = Some s /\ length s <> 2%nat).
Proof.
  intros w h focal sensor cx cy. split; [intros H; apply (intrinsic_errors _ _ _ _ _ _ _ H)|].
  intros H. destruct (get_intrinsic w h focal sensor cx cy) as [k|e] eqn:E; [|apply intrinsic_errors in E; destruct E as [-> _]; reflexivity].
  exfalso. unfold get_intrinsic in E.
  destruct sensor as [[|s1 [|s2 [|s3 s]]]|]; cbn in E; try discriminate.
  all: destruct H as [H|(s' & H & L)]; [destruct focal as [|f1 [|f2 [|f3 f]]]; cbn in *; try discriminate; lia|].
  all: inversion H; subst; cbn in L; lia.
Qed.

(** Without distort, the camera is a pinhole. *)
Theorem undistorted_pinhole : forall l ku r t p,
  world_to_pixel (Frame l ku false r t) (Num (vx p), Num (vy p), Num (vz p)) =
  pinhole_pixel ku (mvec (mtr r) (vsub p t)).
Proof.
  intros l ku r t p. unfold world_to_pixel, pinhole_pixel. cbn [fr_R fr_T]. destruct p as [x y z]. cbn [vx vy vz].
  destruct (Req_EM_T _ _); reflexivity.
Qed.

(** A portrait image: the focal length is scaled by the width, not by the larger dimension. *)
Theorem intrinsic_portrait : forall w h f cx cy, (0 < w < h)%Z -> f <> 0 ->
  exists k, get_intrinsic w h [f] None cx cy = Ok k /\ kfx k <> f * IZR (Z.max w h) /\ kfy k <> f * IZR (Z.max w h).
Proof.
  intros w h f cx cy Hwh Hf. eexists. split; [reflexivity|]. cbn. rewrite Z.max_r by lia.
  assert (IZR w < IZR h) by (apply IZR_lt; lia). split; intros E; apply Rmult_eq_reg_l in E; try assumption; lra.
Qed.

(** * Projection *)
Lemma mvec_sub : forall a u v, mvec a (vsub u v) = vsub (mvec a u) (mvec a v).
Proof. intros [[] [] []] [] []. meq; ring. Qed.
Lemma mvec_scale : forall a s v, mvec a (vscale s v) = vscale s (mvec a v).
Proof. intros [[] [] []] s []. meq; ring. Qed.
Lemma vadd_sub : forall u v, vsub (vadd u v) v = u.
Proof. intros [] []. meq; ring. Qed.
Lemma vsub_add : forall u v, vadd (vsub u v) v = u.
Proof. intros [] []. meq; ring. Qed.

Lemma p2w_height : forall c ji z p, pixel_to_world_z c ji z = Some p -> vz p = z.
Proof.
  intros c ji z p. unfold pixel_to_world_z. destruct (Req_EM_T (vz (ray c ji)) 0) as [E|E]; [discriminate|].
  intros H. injection H as <-. cbn. field. assumption.
Qed.

Lemma p2w_camera_coords : forall c ji z p, rotation (fr_R c) -> pixel_to_world_z c ji z = Some p ->
  camera_coords c p = vscale ((z - vz (fr_T c)) / vz (ray c ji)) (V3 (fst (l_inv (active_lens c) ji)) (snd (l_inv (active_lens c) ji)) 1).
Proof.
  intros c ji z p Hr. unfold pixel_to_world_z. destruct (Req_EM_T (vz (ray c ji)) 0) as [E|E]; [discriminate|].
  intros H. injection H as <-. unfold camera_coords. rewrite vadd_sub, mvec_scale. f_equal.
  unfold ray. rewrite <- mvec_mmul. destruct Hr as [-> _]. apply mvec_I.
Qed.

Theorem pixel_round_trip : forall c ji z p, rotation (fr_R c) -> inverts_pixel (active_lens c) ji ->
  z <> vz (fr_T c) -> pixel_to_world_z c ji z = Some p ->
  world_to_pixel c (Num (vx p), Num (vy p), Num (vz p)) = num2 ji /\ vz p = z.
Proof.
  intros c ji z p Hr Hi Hz Hp. split; [|eapply p2w_height; eassumption].
  pose proof (p2w_camera_coords c ji z p Hr Hp) as Hc.
  assert (Hray : vz (ray c ji) <> 0). { unfold pixel_to_world_z in Hp. destruct (Req_EM_T (vz (ray c ji)) 0); [discriminate|assumption]. }
  unfold world_to_pixel. replace (V3 (vx p) (vy p) (vz p)) with p by (destruct p; reflexivity).
  unfold camera_coords in Hc. rewrite Hc. set (s := (z - vz (fr_T c)) / vz (ray c ji)).
  assert (Hs : s <> 0). { unfold s. intros E. apply Rmult_integral in E. destruct E as [E|E]; [lra|]. revert E. apply Rinv_neq_0_compat. assumption. }
  unfold vscale. cbn [vx vy vz]. destruct (Req_EM_T (s * 1) 0) as [E|E]; [exfalso; lra|].
  unfold inverts_pixel in Hi. rewrite <- Hi. f_equal.
  transitivity (fst (l_inv (active_lens c) ji), snd (l_inv (active_lens c) ji)); [f_equal; field; assumption|]. destruct (l_inv _ _); reflexivity.
Qed.

Theorem world_round_trip : forall c p, rotation (fr_R c) ->
  let v := camera_coords c p in
  vz v <> 0 -> vz p <> vz (fr_T c) -> inverts_point (active_lens c) (vx v / vz v, vy v / vz v) ->
  exists ji, world_to_pixel c (Num (vx p), Num (vy p), Num (vz p)) = num2 ji /\ pixel_to_world_z c ji (vz p) = Some p.
Proof.
  intros c p Hr v Hv Hz (ji & Hf & Hi). exists ji. split.
  - unfold world_to_pixel. replace (V3 (vx p) (vy p) (vz p)) with p by (destruct p; reflexivity).
    fold (camera_coords c p). fold v. destruct (Req_EM_T (vz v) 0); [contradiction|assumption].
  - assert (Hray : vscale (vz v) (ray c ji) = vsub p (fr_T c)).
    { unfold ray. rewrite Hi. cbn [fst snd]. rewrite <- mvec_scale.
      replace (vscale (vz v) (V3 (vx v / vz v) (vy v / vz v) 1)) with v.
      - unfold v, camera_coords. rewrite <- mvec_mmul. destruct (rotation_tr _ Hr) as [-> _]. apply mvec_I.
      - destruct v as [x y z]. unfold vscale. cbn in *. apply vec_eq; field; assumption. }
    unfold pixel_to_world_z. set (r := ray c ji) in *. clearbody r.
    assert (Hrz : vz v * vz r = vz p - vz (fr_T c)).
    { apply (f_equal vz) in Hray. cbn in Hray. exact Hray. }
    assert (Hr0 : vz r <> 0) by (intros E; rewrite E in Hrz; lra).
    destruct (Req_EM_T (vz r) 0) as [E|_]; [contradiction|]. f_equal.
    replace ((vz p - vz (fr_T c)) / vz r) with (vz v) by (rewrite <- Hrz; field; assumption).
    rewrite Hray. apply vsub_add.
Qed.

Lemma pinhole_inverts_pixel : forall k ji, kfx k <> 0 -> kfy k <> 0 -> inverts_pixel (pinhole k) ji.
Proof. intros k ji H1 H2. unfold inverts_pixel, pinhole. cbn. rewrite k_apply_solve by assumption. reflexivity. Qed.
Lemma pinhole_inverts_point : forall k xy, kfx k <> 0 -> kfy k <> 0 -> inverts_point (pinhole k) xy.
Proof. intros k xy H1 H2. exists (k_apply k xy). split; [reflexivity|]. cbn. apply k_solve_apply; assumption. Qed.

(** A point and its mirror image through the camera position have the same pixel. *)
Theorem behind_camera : forall c p, 
  let q := vsub (vscale 2 (fr_T c)) p in
  world_to_pixel c (Num (vx p), Num (vy p), Num (vz p)) = world_to_pixel c (Num (vx q), Num (vy q), Num (vz q)) /\
  vz (camera_coords c q) = - vz (camera_coords c p).
Proof.
  intros c p q. assert (E : camera_coords c q = vscale (-1) (camera_coords c p)).
  { unfold camera_coords. rewrite <- mvec_scale. f_equal. unfold q. destruct (fr_T c), p. meq; ring. }
  split; [|rewrite E; cbn; ring].
  unfold world_to_pixel. replace (V3 (vx p) (vy p) (vz p)) with p by (destruct p; reflexivity).
  replace (V3 (vx q) (vy q) (vz q)) with q by (destruct q; reflexivity).
  fold (camera_coords c p). fold (camera_coords c q). rewrite E. set (v := camera_coords c p). unfold vscale. cbn [vx vy vz].
  destruct (Req_EM_T (vz v) 0) as [Z|Z]; destruct (Req_EM_T (-1 * vz v) 0) as [Y|Y]; try reflexivity; try (exfalso; lra).
  f_equal. f_equal; field; lra.
Qed.

Lemma w2p_nan : forall c x y z, x = Nan \/ y = Nan \/ z = Nan -> world_to_pixel c (x, y, z) = (Nan, Nan).
Proof. intros c [|x] [|y] [|z] H; try reflexivity. destruct H as [H|[H|H]]; discriminate. Qed.

(** * Arrays *)
Definition pairs {P} (ji : list P) (zs : list fl) (n : nat) (q : list (P * fl)) : Prop :=
  length q = n /\ forall k d e, (k < n)%nat ->
    nth k q (d, e) = (nth (if Nat.eqb (length ji) 1 then 0 else k)%nat ji d, nth (if Nat.eqb (length zs) 1 then 0 else k)%nat zs e).

Lemma broadcast_ok : forall A B C (f : A -> B -> C) xs ys n,
  (length xs = n \/ length xs = 1)%nat -> (length ys = n \/ length ys = 1)%nat -> (length xs = n \/ length ys = n)%nat ->
  exists out, broadcast f xs ys = Ok out /\ length out = n /\
  forall k a b c, (k < n)%nat ->
    nth k out c = f (nth (if Nat.eqb (length xs) 1 then 0 else k)%nat xs a) (nth (if Nat.eqb (length ys) 1 then 0 else k)%nat ys b).
Proof.
  intros A B C f xs ys n Hx Hy Hn. destruct (Nat.eq_dec (length xs) 1) as [X1|X1].
  - destruct xs as [|x [|]]; cbn in X1; try discriminate. cbn [broadcast]. exists (map (f x) ys). split; [reflexivity|].
    assert (L : length ys = n). { destruct Hn as [Hn|Hn]; [|exact Hn]. cbn in Hn. subst n. lia. }
    rewrite map_length. split; [exact L|]. intros k a b c Hk. cbn [length Nat.eqb nth].
    rewrite (nth_indep _ c (f x b)) by (rewrite map_length; lia). rewrite map_nth.
    destruct (Nat.eqb (length ys) 1) eqn:E; [|reflexivity]. apply Nat.eqb_eq in E. replace k with 0%nat by lia. reflexivity.
  - assert (Lx : length xs = n) by lia. destruct (Nat.eq_dec (length ys) 1) as [Y1|Y1].
    + destruct ys as [|y [|]]; cbn in Y1; try discriminate.
      assert (E : broadcast f xs [y] = Ok (map (fun x => f x y) xs)) by (destruct xs as [|x1 [|x2 xs]]; cbn in X1; try reflexivity; lia).
      exists (map (fun x => f x y) xs). split; [exact E|]. rewrite map_length. split; [exact Lx|]. intros k a b c Hk.
      rewrite (proj2 (Nat.eqb_neq _ _) X1). cbn [length Nat.eqb nth].
      rewrite (nth_indep _ c (f a y)) by (rewrite map_length; lia). rewrite (map_nth (fun x => f x y)). reflexivity.
    + assert (Ly : length ys = n) by lia.
      assert (E : broadcast f xs ys = Ok (map (fun p => f (fst p) (snd p)) (combine xs ys))).
      { unfold broadcast. destruct xs as [|x1 [|x2 xs]]; cbn [length] in X1; try lia; destruct ys as [|y1 [|y2 ys]]; cbn [length] in Y1; try lia;
          cbn [length] in *; try lia; try reflexivity; rewrite (proj2 (Nat.eqb_eq _ _)) by lia; reflexivity. }
      eexists. split; [exact E|]. rewrite map_length, combine_length. split; [lia|]. intros k a b c Hk.
      rewrite (proj2 (Nat.eqb_neq _ _) X1), (proj2 (Nat.eqb_neq _ _) Y1).
      rewrite (nth_indep _ c (f (fst (a, b)) (snd (a, b)))) by (rewrite map_length, combine_length; lia).
      rewrite (map_nth (fun p => f (fst p) (snd p))), combine_nth by lia. reflexivity.
Qed.

Lemma validate_z_iff : forall z n, validate_z z n = true <-> compatible z n.
Proof.
  intros [z|zs|] n; cbn; [tauto| |split; [discriminate|contradiction]]. rewrite !orb_true_iff, !Nat.eqb_eq. tauto.
Qed.

Theorem frame_array : forall P W (p2w : P -> fl -> W) ji z,
  (validate_z z (length ji) = false -> frame_p2w_array p2w ji z = Err ValueError) /\
  (validate_z z (length ji) = true ->
   exists out, frame_p2w_array p2w ji z = Ok out /\ length out = out_len (length ji) (length (zlist z)) /\
   forall k p h w, (k < length out)%nat ->
     nth k out w = p2w (nth (if Nat.eqb (length ji) 1 then 0 else k)%nat ji p) (nth (if Nat.eqb (length (zlist z)) 1 then 0 else k)%nat (zlist z) h)).
Proof.
  intros P W p2w ji z. unfold frame_p2w_array. split; intros H; rewrite H; [reflexivity|]. cbn [negb].
  destruct z as [z|zs|]; [| |discriminate].
  - exists (map (fun p => p2w p z) ji). split; [reflexivity|]. cbn [zlist length]. rewrite map_length. unfold out_len.
    split; [destruct (Nat.eqb_spec (length ji) 1); lia|]. intros k p h w Hk. cbn [Nat.eqb nth].
    rewrite (nth_indep _ w (p2w p z)) by (rewrite map_length; lia). rewrite (map_nth (fun p => p2w p z)).
    destruct (Nat.eqb_spec (length ji) 1) as [E|E]; [|reflexivity]. replace k with 0%nat by lia. reflexivity.
  - cbn [zlist]. cbn in H. apply orb_true_iff in H. rewrite orb_true_iff in H. rewrite !Nat.eqb_eq in H.
    destruct (broadcast_ok P fl W p2w ji zs (out_len (length ji) (length zs))) as (out & E & L & N);
      try (unfold out_len; destruct (Nat.eqb_spec (length ji) 1); lia).
    exists out. split; [exact E|]. split; [exact L|]. intros k p h w Hk. rewrite L in Hk. apply N. exact Hk.
Qed.

Theorem rpc_array : forall P W (p2w : P -> fl -> W) isnan ji z,
  match z with ZVec zs => length zs <> 1%nat \/ length ji = 1%nat | _ => True end ->
  rpc_p2w_array p2w isnan ji z = frame_p2w_array p2w ji z.
Proof.
  intros P W p2w isnan ji z Hz. unfold rpc_p2w_array, frame_p2w_array. destruct (validate_z z (length ji)) eqn:V; [|reflexivity]. cbn [negb].
  assert (Same : forall n (xs : list P) (ys : list fl), length xs = n -> length ys = n ->
            exists m, broadcast (fun p z => negb (isnan p || fisnan z)) xs ys = Ok m /\ length m = n).
  { intros n xs ys Lx Ly. destruct (broadcast_ok _ _ _ (fun p z => negb (isnan p || fisnan z)) xs ys n) as (m & E & L & _); try lia. eauto. }
  assert (Rep : forall (p : P) zs, broadcast p2w (repeat p (length zs)) zs = broadcast p2w [p] zs).
  { intros p zs. change (broadcast p2w [p] zs) with (@Ok (list W) (map (p2w p) zs)).
    destruct (broadcast_ok _ _ _ p2w (repeat p (length zs)) zs (length zs)) as (o & E & L & N); try (rewrite repeat_length; lia); try lia.
    rewrite E. f_equal. apply nth_ext with (d := p2w p Nan) (d' := p2w p Nan); [rewrite map_length; exact L|].
    intros k Hk. rewrite L in Hk. rewrite (N k p Nan _ Hk), map_nth, repeat_length.
    destruct (Nat.eqb_spec (length zs) 1) as [E1|E1].
    - replace k with 0%nat by lia. destruct zs; [discriminate|]. reflexivity.
    - f_equal. clear - Hk. revert k Hk. induction (length zs) as [|n IH]; intros k Hk; [lia|]. cbn. destruct k; [reflexivity|]. apply IH. lia. }
  destruct z as [z|zs|]; cbn [bind]; [| |reflexivity].
  - destruct (Nat.eq_dec (length ji) 1) as [E1|E1].
    + destruct ji as [|p [|]]; cbn in E1; try discriminate. reflexivity.
    + assert (EJ : match ji with [p] => repeat p (length (repeat z (length ji))) | _ => ji end = ji) by (destruct ji as [|p [|q ji]]; cbn in E1; [reflexivity|lia|reflexivity]).
      rewrite EJ. destruct (Same (length ji) ji (repeat z (length ji)) eq_refl (repeat_length _ _)) as (m & -> & Lm). cbn [bind].
      rewrite repeat_length, Lm, Nat.eqb_refl. cbn [negb].
      destruct (broadcast_ok _ _ _ p2w ji (repeat z (length ji)) (length ji)) as (o & E & L & N); try (rewrite repeat_length; lia); try lia.
      rewrite E. f_equal. destruct ji as [|p0 ji0]; [destruct o; [reflexivity|discriminate]|]. set (ji := p0 :: ji0) in *.
      apply nth_ext with (d := p2w p0 z) (d' := p2w p0 z); [rewrite map_length; exact L|].
      intros k Hk. rewrite L in Hk. rewrite (N k p0 z _ Hk). rewrite (map_nth (fun p => p2w p z)). rewrite repeat_length.
      rewrite (proj2 (Nat.eqb_neq _ _) E1). f_equal. clear - Hk. revert k Hk. induction (length ji) as [|n IH]; intros k Hk; [lia|]. cbn. destruct k; [reflexivity|]. apply IH. lia.
  - cbn in V. apply orb_true_iff in V. rewrite orb_true_iff, !Nat.eqb_eq in V.
    destruct (Nat.eq_dec (length ji) 1) as [E1|E1].
    + destruct ji as [|p [|]]; cbn in E1; try discriminate.
      destruct (Same (length zs) (repeat p (length zs)) zs (repeat_length _ _) eq_refl) as (m & -> & Lm). cbn [bind].
      rewrite Lm, Nat.eqb_refl. cbn [negb]. apply Rep.
    + assert (EJ : match ji with [p] => repeat p (length zs) | _ => ji end = ji) by (destruct ji as [|p [|q ji]]; cbn in E1; [reflexivity|lia|reflexivity]).
      rewrite EJ. destruct (Same (length zs) ji zs) as (m & -> & Lm); try lia. cbn [bind]. rewrite Lm, Nat.eqb_refl. reflexivity.
Qed.

Theorem rpc_array_length1 : forall P W (p2w : P -> fl -> W) isnan ji z, length ji <> 1%nat ->
  validate_z (ZVec [z]) (length ji) = true /\ rpc_p2w_array p2w isnan ji (ZVec [z]) = Err IndexError.
Proof.
  intros P W p2w isnan ji z Hj. split; [reflexivity|]. unfold rpc_p2w_array. cbn [validate_z length Nat.eqb orb negb bind].
  assert (EJ : match ji with [p] => repeat p 1 | _ => ji end = ji) by (destruct ji as [|p [|q ji]]; cbn in Hj; [reflexivity|lia|reflexivity]).
  rewrite EJ. destruct (broadcast_ok _ _ _ (fun p z => negb (isnan p || fisnan z)) ji [z] (length ji)) as (m & -> & Lm & _); cbn; try lia.
  rewrite Lm. rewrite (proj2 (Nat.eqb_neq _ _) Hj). reflexivity.
Qed.

(** * Distortion *)
Theorem brown_is_opencv5 : forall k1 k2 p1 p2 k3 xy,
  brown_distort k1 k2 p1 p2 k3 xy = opencv_distort [k1; k2; p1; p2; k3] xy.
Proof. intros k1 k2 p1 p2 k3 [x y]. unfold brown_distort, opencv_distort, coeff. cbn [nth]. f_equal; field; nra. Qed.

Theorem brown_zero : forall k xy, brown_fwd k 0 0 0 0 0 xy = l_fwd (pinhole k) xy.
Proof. intros k [x y]. unfold brown_fwd, brown_distort, pinhole, num2, k_apply. cbn. f_equal; f_equal; ring. Qed.

Lemma coeff_firstn : forall n l i, all_zero (skipn n l) = true -> coeff (firstn n l) i = coeff l i.
Proof.
  intros n l i H. unfold coeff. rewrite <- (firstn_skipn n l) at 2. destruct (Nat.lt_ge_cases i (length (firstn n l))) as [L|L].
  - rewrite app_nth1 by assumption. reflexivity.
  - rewrite app_nth2 by assumption. rewrite nth_overflow by assumption. symmetry.
    assert (A : Forall (fun c => c = 0) (skipn n l)).
    { apply Forall_forall. intros c Hc. unfold all_zero in H. rewrite forallb_forall in H. specialize (H c Hc). destruct (Req_EM_T c 0); [assumption|discriminate]. }
    remember (i - length (firstn n l))%nat as m. clear - A. revert m. induction A as [|c l' Hc A IH]; intros [|m]; cbn; auto.
Qed.

Theorem truncate_same : forall lens l i, coeff (truncate_dist lens l) i = coeff l i.
Proof.
  induction lens as [|n lens IH]; intros l i; cbn [truncate_dist]; [reflexivity|].
  destruct (all_zero (skipn n l)) eqn:E; [apply coeff_firstn; assumption|apply IH].
Qed.

Lemma truncate_distort : forall lens l xy, opencv_distort (truncate_dist lens l) xy = opencv_distort l xy.
Proof. intros lens l [x y]. unfold opencv_distort. rewrite !truncate_same. reflexivity. Qed.

Theorem truncate_length : forall k1 k2 k3 p1 p2 k4 k5 k6 s1 s2 s3 s4 tx ty,
  In (length (opencv_dist_param k1 k2 k3 p1 p2 k4 k5 k6 s1 s2 s3 s4 tx ty)) [4; 5; 8; 12; 14]%nat.
Proof.
  intros. unfold opencv_dist_param. cbn [truncate_dist skipn]. 
  repeat (destruct (all_zero _); [cbn; tauto|]). cbn. tauto.
Qed.

Theorem fisheye_theta_is_poly : forall k1 k2 k3 k4 t, fisheye_theta k1 k2 k3 k4 t = fisheye_poly k1 k2 k3 k4 t.
Proof.
  intros. unfold fisheye_theta, fisheye_poly. destruct (Req_EM_T k3 k4) as [E|E]; [destruct (Req_EM_T k4 0) as [E2|E2]|]; subst; ring.
Qed.

Theorem fisheye_off_axis : forall k k1 k2 k3 k4 x y, x <> 0 \/ y <> 0 ->
  fisheye_fwd k k1 k2 k3 k4 (x, y) =
  let r := sqrt (x * x + y * y) in num2 (k_apply k (x / r * fisheye_poly k1 k2 k3 k4 (atan r), y / r * fisheye_poly k1 k2 k3 k4 (atan r))).
Proof.
  intros k k1 k2 k3 k4 x y H. unfold fisheye_fwd. assert (Hr : sqrt (x * x + y * y) <> 0).
  { pose proof (sqrt_pos2 x y H). pose proof (sqrt_lt_R0 _ H0). lra. }
  destruct (Req_EM_T (sqrt (x * x + y * y)) 0); [contradiction|]. cbn zeta. rewrite fisheye_theta_is_poly.
  f_equal. f_equal. f_equal; field; assumption.
Qed.

Theorem fisheye_axis_nan : forall k k1 k2 k3 k4, fisheye_fwd k k1 k2 k3 k4 (0, 0) = (Nan, Nan).
Proof.
  intros. unfold fisheye_fwd. replace (0 * 0 + 0 * 0) with 0 by ring. rewrite sqrt_0. destruct (Req_EM_T 0 0); [reflexivity|contradiction].
Qed.

(** The point under a fisheye camera, looking straight down, is lost. *)
Theorem fisheye_nadir_nan : forall k k1 k2 k3 k4 inv ku x y z h, h <> 0 ->
  let c := Frame (Lens (fisheye_fwd k k1 k2 k3 k4) inv) ku true (extrinsic_rotation (0, 0, 0)) (V3 x y (z + h)) in
  world_to_pixel c (Num x, Num y, Num z) = (Nan, Nan).
Proof.
  intros k k1 k2 k3 k4 inv ku x y z h Hh c. unfold world_to_pixel.
  assert (E : mvec (mtr (fr_R c)) (vsub (V3 x y z) (fr_T c)) = V3 0 0 h).
  { unfold c. cbn [fr_R fr_T]. unfold extrinsic_rotation. rewrite opk_entries, sin_0, cos_0. meq; ring. }
  rewrite E. cbn [vx vy vz]. destruct (Req_EM_T h 0); [contradiction|]. unfold c, active_lens. cbn [fr_distort fr_lens l_fwd].
  replace (0 / h) with 0 by (field; assumption). apply fisheye_axis_nan.
Qed.

(** * Horizon *)
Definition ray_z (r : mat) (k : intr) (ji : R * R) : R := vz (mvec r (V3 (fst (k_solve k ji)) (snd (k_solve k ji)) 1)).

Lemma ray_z_affine : forall r k, exists a b c, forall j i, ray_z r k (j, i) = a * j + b * i + c.
Proof.
  intros [r0 r1 [g h i0]] k. exists (g * / kfx k), (h * / kfy k), (i0 - g * kcx k * / kfx k - h * kcy k * / kfy k).
  intros j i. unfold ray_z, k_solve, mvec, dot. cbn. unfold Rdiv. ring.
Qed.

Lemma affine_rect_neg : forall a b c w h, 
  c < 0 -> a * w + c < 0 -> a * w + b * h + c < 0 -> b * h + c < 0 ->
  forall j i, 0 <= j <= w -> 0 <= i <= h -> a * j + b * i + c < 0.
Proof.
  intros a b c w h H1 H2 H3 H4 j i Hj Hi.
  assert (M : forall q x y, 0 <= x <= y -> q * x <= Rmax 0 (q * y)).
  { intros q x y Hx. destruct (Rle_dec 0 q) as [Q|Q].
    - apply Rle_trans with (q * y); [nra|apply Rmax_r].
    - apply Rle_trans with 0; [nra|apply Rmax_l]. }
  pose proof (M a j w Hj) as J. pose proof (M b i h Hi) as I.
  unfold Rmax in J, I. destruct (Rle_dec 0 (a * w)), (Rle_dec 0 (b * h)); lra.
Qed.

Theorem no_horizon : forall k ku d r t w h, let c := Frame (pinhole k) ku d r t in
  horizon_fov c w h = false ->
  forall ji, in_image w h ji -> ray_z r k ji < 0.
Proof.
  intros k ku d r t w h c H.
  assert (B : forall q, In q (boundary8 w h) -> ray_z r k q < 0).
  { intros q Hq. destruct (Rlt_dec (ray_z r k q) 0) as [L|L]; [assumption|]. exfalso.
    assert (T : horizon_fov c w h = true).
    { unfold horizon_fov. apply existsb_exists. exists q. split; [assumption|]. cbn zeta. unfold ray_z in L. cbn in L |- *. destruct (Rle_dec _ _) as [|N]; [reflexivity|]. exfalso. apply N. lra. }
    congruence. }
  destruct (ray_z_affine r k) as (a & b & cc & E).
  assert (B1 := B (0, 0) ltac:(cbn; tauto)). assert (B2 := B (IZR w - 1, 0) ltac:(cbn; tauto)).
  assert (B3 := B (IZR w - 1, IZR h - 1) ltac:(cbn; tauto)). assert (B4 := B (0, IZR h - 1) ltac:(cbn; tauto)).
  rewrite E in B1, B2, B3, B4. intros [j i] [Hj Hi]. rewrite E. cbn [fst snd] in Hj, Hi.
  apply affine_rect_neg with (w := IZR w - 1) (h := IZR h - 1); lra.
Qed.

(** So every image pixel has a world position in front of the camera, at every height below it. *)
Theorem no_horizon_finite : forall k ku d r t w h, rotation r -> ku = k ->
  let c := Frame (pinhole k) ku d r t in
  horizon_fov c w h = false ->
  forall ji z, in_image w h ji -> z < vz t ->
  exists p, pixel_to_world_z c ji z = Some p /\ vz p = z /\ 0 < vz (camera_coords c p).
Proof.
  intros k ku d r t w h Hr -> c H ji z Hji Hz. pose proof (no_horizon k k d r t w h H ji Hji) as Hneg.
  assert (Hray : vz (ray c ji) = ray_z r k ji). { unfold ray, active_lens, c. cbn. destruct d; reflexivity. }
  destruct (pixel_to_world_z c ji z) as [p|] eqn:E.
  - exists p. split; [reflexivity|]. split; [eapply p2w_height; eassumption|].
    rewrite (p2w_camera_coords c ji z p Hr E). unfold vscale. cbn [vz]. rewrite Rmult_1_r, Hray. unfold c. cbn [fr_T].
    replace ((z - vz t) / ray_z r k ji) with ((vz t - z) / - ray_z r k ji) by (field; lra).
    apply Rdiv_lt_0_compat; lra.
  - unfold pixel_to_world_z in E. rewrite Hray in E. destruct (Req_EM_T (ray_z r k ji) 0); [lra|discriminate].
Qed.

Theorem horizon_seen : forall c w h, horizon_fov c w h = true ->
  exists ji, In ji (boundary8 w h) /\
  let xy := l_inv (fr_lens c) ji in 0 <= vz (mvec (fr_R c) (V3 (fst xy) (snd xy) 1)).
Proof.
  intros c w h H. unfold horizon_fov in H. apply existsb_exists in H. destruct H as (ji & Hin & H). exists ji. split; [assumption|].
  cbn zeta in H |- *. destruct (Rle_dec _ _); [assumption|discriminate].
Qed.

Theorem opencv_params_same : forall k1 k2 k3 p1 p2 k4 k5 k6 s1 s2 s3 s4 tx ty,
  let d := opencv_dist_param k1 k2 k3 p1 p2 k4 k5 k6 s1 s2 s3 s4 tx ty in
  (forall n, coeff d n = coeff [k1; k2; p1; p2; k3; k4; k5; k6; s1; s2; s3; s4; tx; ty] n) /\
  (forall xy, opencv_distort d xy = opencv_distort [k1; k2; p1; p2; k3; k4; k5; k6; s1; s2; s3; s4] xy).
Proof.
  intros. split; [intros; apply truncate_same|]. intros xy. unfold d, opencv_dist_param. rewrite truncate_distort. destruct xy. reflexivity.
Qed.

Theorem frame_array_compatible : forall P W (p2w : P -> fl -> W) ji z,
  (~ compatible z (length ji) -> frame_p2w_array p2w ji z = Err ValueError) /\
  (compatible z (length ji) ->
   exists out, frame_p2w_array p2w ji z = Ok out /\ length out = out_len (length ji) (length (zlist z)) /\
   forall k p h w, (k < length out)%nat ->
     nth k out w = p2w (nth (if Nat.eqb (length ji) 1 then 0 else k)%nat ji p) (nth (if Nat.eqb (length (zlist z)) 1 then 0 else k)%nat (zlist z) h)).
Proof.
  intros P W p2w ji z. destruct (frame_array P W p2w ji z) as [A B]. split; intros H.
  - apply A. destruct (validate_z z (length ji)) eqn:E; [|reflexivity]. exfalso. apply H, validate_z_iff, E.
  - apply B, validate_z_iff, H.
Qed.

Theorem rpc_array_one_height : forall P W (p2w : P -> fl -> W) isnan ji z, length ji <> 1%nat ->
  compatible (ZVec [z]) (length ji) /\ rpc_p2w_array p2w isnan ji (ZVec [z]) = Err IndexError.
Proof. intros. split; [right; left; reflexivity|]. apply rpc_array_length1. assumption. Qed.
