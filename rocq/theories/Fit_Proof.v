(** Proofs about frame camera fitting. *)
From Coq Require Import String List Reals ZArith Bool Lra Lia.
From Verif Require Import Py Py_Proof Flt Mat Rot_Model Rot_Spec Rot_Proof Frame_Model Frame_Spec Rpc_Model Fit_Model Fit_Spec.
Import ListNotations.
Open Scope R_scope.

(** * Intrinsics *)

Lemma export_intrinsic t w h k d : (0 < w)%Z -> (0 < h)%Z -> ip_intrinsic (export_int t w h k d) = Ok k.
Proof.
  intros Hw Hh. unfold ip_intrinsic, export_int, get_intrinsic. cbn [ip_w ip_h ip_focal ip_sensor ip_cx ip_cy or0 bind pair_of fst snd].
  assert (W : IZR w <> 0) by (apply not_0_IZR; lia). assert (H : IZR h <> 0) by (apply not_0_IZR; lia).
  assert (M : IZR (Z.max w h) <> 0) by (apply not_0_IZR; lia).
  destruct k as [fx fy cx cy]. cbn [kfx kfy kcx kcy]. f_equal. f_equal; field; assumption.
Qed.

(** * Distortion *)

Lemma all_zero_repeat l : all_zero l = true -> l = repeat 0 (length l).
Proof.
  induction l as [|x l IH]; intros H; [reflexivity|]. cbn in *. destruct (Req_EM_T x 0) as [->|]; [|discriminate H].
  f_equal. now apply IH.
Qed.

Lemma truncate_cv cv : cv_contract cv -> forall ns l xy, cv (truncate_dist ns l) xy = cv l xy.
Proof.
  intros [_ Hz] ns. induction ns as [|n ns IH]; intros l xy; [reflexivity|]. cbn [truncate_dist].
  destruct (all_zero (skipn n l)) eqn:E; [|apply IH]. apply all_zero_repeat in E.
  rewrite <- (firstn_skipn n l) at 2. rewrite E. now rewrite Hz.
Qed.

Lemma brown_cv k1 k2 p1 p2 k3 xy : opencv_distort [k1; k2; p1; p2; k3] xy = brown_distort k1 k2 p1 p2 k3 xy.
Proof.
  destruct xy as [x y]. unfold opencv_distort, brown_distort, coeff. cbn [nth]. f_equal; field.
Qed.

Lemma zero_cv n xy : opencv_distort (repeat 0 n) xy = xy.
Proof.
  destruct xy as [x y]. unfold opencv_distort, coeff.
  assert (E : forall i m, nth i (repeat 0 m) 0 = 0).
  { intros i m. revert i. induction m as [|m IH]; intros [|i]; cbn; auto. }
  rewrite !E. f_equal; field.
Qed.

Lemma camera_fwd_dist cv (p : int_param) k : cv_contract cv -> ip_type p <> Fisheye -> ip_intrinsic p = Ok k ->
  exists f, camera_fwd cv p = Ok f /\
  forall xy, f xy = num2 (k_apply k (cv (match dist_param p with Some d => d | None => [] end) xy)).
Proof.
  intros Hc Ht Hk. unfold camera_fwd. rewrite Hk. cbn [bind]. eexists. split; [reflexivity|]. intros xy.
  unfold dist_param. destruct (ip_type p); [| | |contradiction]; cbn [dist_names map].
  - rewrite (proj1 Hc) by (cbn; lia). now rewrite (zero_cv 0).
  - rewrite (proj1 Hc) by (cbn; lia). rewrite brown_cv. reflexivity.
  - unfold opencv_dist_param. now rewrite truncate_cv.
Qed.

(** Coefficients read back from the exported parameters. *)
Lemma export_brown w h k k1 k2 p1 p2 k3 : dist_param (export_int Brown w h k [k1; k2; p1; p2; k3]) = Some [k1; k2; p1; p2; k3].
Proof. reflexivity. Qed.
Lemma export_opencv w h k d : length d = 14%nat -> dist_param (export_int OpenCV w h k d) = Some d.
Proof. intros H. do 14 (destruct d as [|? d]; [discriminate H|]). destruct d; [|discriminate H]. reflexivity. Qed.

Lemma export_camera cv t w h k d : cv_contract cv -> t <> Fisheye -> (0 < w)%Z -> (0 < h)%Z -> length d = calib_length t ->
  (t = Pinhole -> d = repeat 0 5) ->
  exists f, camera_fwd cv (export_int t w h k d) = Ok f /\ forall xy, f xy = num2 (k_apply k (cv d xy)).
Proof.
  intros Hc Ht Hw Hh Hl Hp.
  destruct (camera_fwd_dist cv (export_int t w h k d) k Hc Ht (export_intrinsic t w h k d Hw Hh)) as (f & E & H).
  exists f. split; [exact E|]. intros xy. rewrite H. do 2 f_equal. destruct t; [| | |contradiction].
  - rewrite (Hp eq_refl). cbn [dist_param export_int ip_type dist_names]. rewrite !(proj1 Hc) by (cbn; lia).
    now rewrite (zero_cv 5), (zero_cv 0).
  - cbn in Hl. do 5 (destruct d as [|? d]; [discriminate Hl|]). destruct d; [|discriminate Hl]. now rewrite export_brown.
  - now rewrite (export_opencv w h k d Hl).
Qed.

Lemma export_fisheye cv w h k k1 k2 k3 k4 : (0 < w)%Z -> (0 < h)%Z ->
  camera_fwd cv (export_int Fisheye w h k [k1; k2; k3; k4]) = Ok (fisheye_fwd k k1 k2 k3 k4).
Proof. intros Hw Hh. unfold camera_fwd. rewrite export_intrinsic by assumption. reflexivity. Qed.

(** * Poses *)

Lemma oriented_sees (fwd : R * R -> fl * fl) inv ku t r ref p : convertible r ->
  vz (cv_camera_coords r t (vsub p ref)) <> 0 ->
  world_to_pixel (oriented fwd inv ku (cv_ext_to_oty_ext t r (Some ref))) (Num (vx p), Num (vy p), Num (vz p)) =
  fwd (let v := cv_camera_coords r t (vsub p ref) in (vx v / vz v, vy v / vz v)).
Proof.
  intros [Hr Hg] Hz. destruct (cv_ext_to_oty_ext t r (Some ref)) as [xyz opk] eqn:E.
  pose proof (cv_ext_preserves t r (Some ref) p xyz opk Hr Hg E) as H. cbn beta iota in H.
  unfold world_to_pixel, oriented. cbn [fr_R fr_T fst snd active_lens fr_distort fr_lens l_fwd].
  unfold frame_camera_coords in H. destruct p as [px py pz]. cbn [vx vy vz] in *. rewrite H.
  destruct (Req_EM_T _ 0) as [Z|_]; [contradiction|]. reflexivity.
Qed.

Lemma concat_flat {A} (f : gcp -> A) (d : dict (list gcp)) : concat (map (fun kv => map f (snd kv)) d) = map f (all_gcps d).
Proof. unfold all_gcps. induction d as [|kv d IH]; [reflexivity|]. cbn. now rewrite IH, map_app. Qed.

Lemma add_up_sum l : add_up l = sum l.
Proof. induction l as [|x l IH]; [reflexivity|]. cbn. now rewrite IH. Qed.
Lemma average_mean l : average l = mean l.
Proof. unfold average, mean. now rewrite add_up_sum. Qed.
Lemma deviation_std l : deviation l = std l.
Proof.
  unfold deviation, std. rewrite !average_mean. do 2 f_equal. apply map_ext. intros x. rewrite average_mean. ring.
Qed.

Lemma gcps_to_cv_eq tform d : gcps_to_cv tform d =
  (map (fun kv => map g_ji (snd kv)) d,
   map (fun kv => map (fun g => vsub (gcp_world tform g) (centre tform d)) (snd kv)) d, centre tform d).
Proof.
  unfold gcps_to_cv.
  assert (E : vmean (concat (map (fun kv : string * list gcp => map (fun g => match tform with Some f => f (g_xyz g) | None => g_xyz g end) (snd kv)) d)) = centre tform d).
  { rewrite concat_flat. reflexivity. }
  rewrite E. f_equal. f_equal. rewrite map_map. apply map_ext. intros kv. now rewrite map_map.
Qed.

Lemma in_combine3 {A B C D} (f : A -> B) (g : A -> C) (h : A -> D) (l : list A) x :
  In x (combine (map f l) (combine (map g l) (map h l))) -> exists a, In a l /\ x = (f a, (g a, h a)).
Proof. induction l as [|a l IH]; cbn; [intros []|]. intros [<-|H]; [eauto|]. destruct (IH H) as (b & Hb & ->). eauto. Qed.

Lemma exterior_entry pnp p d tform exts name e : fit_frame_exterior pnp p d tform = Ok exts -> In (name, e) exts ->
  exists gcps k r t, In (name, gcps) d /\ ip_intrinsic p = Ok k /\
    pnp (map (fun g => vsub (gcp_world tform g) (centre tform d)) gcps) (map g_ji gcps) k (dist_param p) = (r, t) /\
    e = cv_ext_to_oty_ext t r (Some (centre tform d)).
Proof.
  unfold fit_frame_exterior. destruct (list_min _) as [m|]; cbn [bind]; [|discriminate].
  destruct (Nat.ltb m 3); [discriminate|]. destruct (ip_intrinsic p) as [k|] eqn:Hk; cbn [bind]; [|discriminate].
  rewrite gcps_to_cv_eq. intros H. injection H as <-. intros Hin. apply in_map_iff in Hin.
  destruct Hin as ([n [x j]] & E & Hin).
  apply (in_combine3 fst (fun kv => map (fun g => vsub (gcp_world tform g) (centre tform d)) (snd kv)) (fun kv => map g_ji (snd kv))) in Hin.
  destruct Hin as ([n' gcps] & Hin & Ex). cbn [fst snd] in Ex. injection Ex as -> -> ->.
  destruct (pnp _ _ _ _) as [r t] eqn:P. injection E as -> <-.
  exists gcps, k, r, t. repeat split; assumption.
Qed.

Lemma exterior_names pnp p d tform exts : fit_frame_exterior pnp p d tform = Ok exts -> map fst exts = map fst d.
Proof.
  unfold fit_frame_exterior. destruct (list_min _) as [m|]; cbn [bind]; [|discriminate].
  destruct (Nat.ltb m 3); [discriminate|]. destruct (ip_intrinsic p) as [k|] eqn:Hk; cbn [bind]; [|discriminate].
  rewrite gcps_to_cv_eq. intros H. injection H as <-. rewrite map_map.
  generalize (centre tform d). intros c. induction d as [|[n g] d IH]; [reflexivity|]. cbn [map combine fst snd].
  destruct (pnp _ _ _ _). cbn [fst]. f_equal. exact IH.
Qed.

Lemma exterior_sees cv pnp p d tform exts name e inv ku : cv_contract cv -> ip_type p <> Fisheye ->
  fit_frame_exterior pnp p d tform = Ok exts -> In (name, e) exts ->
  exists gcps k r t f, In (name, gcps) d /\ ip_intrinsic p = Ok k /\ camera_fwd cv p = Ok f /\
    pnp (map (fun g => vsub (gcp_world tform g) (centre tform d)) gcps) (map g_ji gcps) k (dist_param p) = (r, t) /\
    (convertible r -> forall q, vz (cv_camera_coords r t (vsub q (centre tform d))) <> 0 ->
       world_to_pixel (oriented f inv ku e) (Num (vx q), Num (vy q), Num (vz q)) =
       num2 (cv_project cv k (match dist_param p with Some c => c | None => [] end) r t (vsub q (centre tform d)))).
Proof.
  intros Hc Ht H Hin. destruct (exterior_entry _ _ _ _ _ _ _ H Hin) as (gcps & k & r & t & Hg & Hk & Hp & ->).
  destruct (camera_fwd_dist cv p k Hc Ht Hk) as (f & Hf & HF).
  exists gcps, k, r, t, f. repeat (split; [assumption|]). intros Hr q Hz.
  rewrite oriented_sees by assumption. rewrite HF. reflexivity.
Qed.

(** * Numbers of GCPs *)

Lemma fold_min l : forall x n, (n <= fold_left Nat.min l x)%nat <-> (n <= x)%nat /\ Forall (fun y => (n <= y)%nat) l.
Proof.
  induction l as [|y l IH]; intros x n; cbn.
  - split; [intros; split; [assumption|constructor]|tauto].
  - rewrite IH. rewrite Nat.min_glb_iff. split.
    + intros [[H1 H2] H3]. split; [assumption|]. now constructor.
    + intros [H1 H2]. inversion H2; subst. tauto.
Qed.

Lemma list_min_ge l n m : list_min l = Ok m -> ((n <= m)%nat <-> Forall (fun y => (n <= y)%nat) l).
Proof.
  destruct l as [|x l]; [discriminate|]. intros H. injection H as <-. rewrite fold_min. split.
  - intros [H1 H2]. now constructor.
  - intros H. inversion H; subst. tauto.
Qed.

Lemma exterior_counts pnp p d tform k : ip_intrinsic p = Ok k ->
  ((exists exts, fit_frame_exterior pnp p d tform = Ok exts) <-> d <> [] /\ Forall (fun kv => (3 <= length (snd kv))%nat) d) /\
  (forall e, fit_frame_exterior pnp p d tform = Err e -> e = ValueError).
Proof.
  intros Hk. unfold fit_frame_exterior. rewrite Hk. destruct d as [|[n g] d].
  - cbn. split; [split; [intros (? & H); discriminate H|intros [H _]; contradiction]|]. intros e H. injection H as <-. reflexivity.
  - destruct (list_min (map (fun kv => length (snd kv)) ((n, g) :: d))) as [m|] eqn:E; [|discriminate E]. cbn [bind].
    pose proof (list_min_ge _ 3 _ E) as HF. rewrite Forall_map in HF. rewrite gcps_to_cv_eq.
    destruct (Nat.ltb_spec m 3) as [L|L].
    + split.
      * split; [intros (? & H); discriminate H|]. intros [_ H]. apply HF in H. lia.
      * intros e H. injection H as <-. reflexivity.
    + split; [|discriminate]. split; [|intros; eauto]. intros _. split; [discriminate|]. now apply HF.
Qed.

Lemma req_gcps t : Nat.max 4 (half_up (1 + num_params t)) = min_total t.
Proof. destruct t; reflexivity. Qed.

Lemma list_sum_flat d : list_sum (map (fun kv : string * list gcp => length (snd kv)) d) = length (all_gcps d).
Proof. unfold all_gcps. induction d as [|kv d IH]; [reflexivity|]. cbn. rewrite app_length. now rewrite <- IH. Qed.

Lemma forallb_len {A} (rows : list (list A)) n : forallb (fun r => Nat.eqb (length r) n) rows = true <-> Forall (fun r => length r = n) rows.
Proof. rewrite forallb_forall, Forall_forall. split; intros H r Hr; specialize (H r Hr); now apply Nat.eqb_eq. Qed.

Lemma vstack_ok {A} (rows : list (list A)) : rows <> [] ->
  (vstack rows = Ok rows <-> exists n, Forall (fun r => length r = n) rows) /\
  (forall e, vstack rows = Err e -> e = ValueError) /\ (forall r, vstack rows = Ok r -> r = rows).
Proof.
  destruct rows as [|r rows]; [contradiction|]. intros _. unfold vstack.
  destruct (forallb _ (r :: rows)) eqn:E.
  - apply forallb_len in E. split; [split; [eauto|reflexivity]|]. split; [discriminate|]. intros ? H. now injection H.
  - split; [|split; [intros e H; now injection H|discriminate]]. split; [discriminate|]. intros [n H].
    assert (length r = n) by (inversion H; assumption). subst n. apply forallb_len in H. congruence.
Qed.

Lemma sum_sub c l : sum (map (fun x => x - c) l) = sum l - INR (length l) * c.
Proof. induction l as [|x l IH]; [cbn; ring|]. cbn [map length]. rewrite S_INR. unfold sum in *. cbn. rewrite IH. ring. Qed.

Lemma mean_sub c l : l <> [] -> mean (map (fun x => x - c) l) = mean l - c.
Proof.
  intros H. unfold mean. rewrite map_length, sum_sub. field. destruct l; [contradiction|]. apply not_0_INR. discriminate.
Qed.

Lemma std_sub c l : l <> [] -> std (map (fun x => x - c) l) = std l.
Proof. intros H. unfold std. rewrite mean_sub by assumption. rewrite map_map. do 2 f_equal. apply map_ext. intros x. ring. Qed.

Lemma concat_heights tform d : concat (map (map vz) (map (fun kv => map (fun g => vsub (gcp_world tform g) (centre tform d)) (snd kv)) d)) =
  map (fun x => x - vz (centre tform d)) (map (fun g => vz (gcp_world tform g)) (all_gcps d)).
Proof.
  rewrite !map_map. rewrite (map_ext _ (fun kv : string * list gcp => map (fun g => vz (gcp_world tform g) - vz (centre tform d)) (snd kv))).
  - apply concat_flat.
  - intros kv. now rewrite map_map.
Qed.

Lemma rows_lengths {A B} (f : list A -> list B) (g : gcp -> A) (d : dict (list gcp)) : (forall l, length (f l) = length l) ->
  (exists n, Forall (fun r => length r = n) (map f (map (fun kv => map g (snd kv)) d))) <-> (exists n, Forall (fun kv => length (snd kv) = n) d).
Proof.
  intros Hf. assert (E : forall n, Forall (fun r => length r = n) (map f (map (fun kv => map g (snd kv)) d)) <-> Forall (fun kv => length (snd kv) = n) d).
  { intros n. induction d as [|kv d IH]; [split; constructor|]. cbn [map]. rewrite !Forall_cons_iff, IH, Hf, map_length. reflexivity. }
  split; intros [n H]; exists n; now apply E.
Qed.

Lemma fit_checks_ok t tform d :
  (fit_checks t tform d = Ok tt <->
   d <> [] /\ Forall (fun kv => (4 <= length (snd kv))%nat) d /\ (min_total t <= length (all_gcps d))%nat /\
   (exists n, Forall (fun kv => length (snd kv) = n) d) /\
   deviation (map (fun g => vz (gcp_world tform g)) (all_gcps d)) <= / 100000) /\
  (forall e, fit_checks t tform d = Err e -> e = ValueError).
Proof.
  unfold fit_checks. destruct d as [|kv0 d0] eqn:Ed.
  { cbn. split; [split; [discriminate|tauto]|]. intros e H. now injection H. }
  rewrite <- Ed. assert (Hne : d <> []) by (rewrite Ed; discriminate). clear Ed kv0 d0.
  destruct (list_min (map (fun kv => length (snd kv)) d)) as [m|e'] eqn:E; [|destruct d; [contradiction|discriminate E]].
  cbn [bind]. pose proof (list_min_ge _ 4 _ E) as HF. rewrite Forall_map in HF. rewrite req_gcps, list_sum_flat.
  destruct (Nat.ltb_spec m 4) as [L|L].
  { split; [|intros e H; now injection H]. split; [discriminate|]. intros (_ & H & _). apply HF in H. lia. }
  apply HF in L. destruct (Nat.ltb_spec (length (all_gcps d)) (min_total t)) as [M|M].
  { split; [|intros e H; now injection H]. split; [discriminate|]. intros (_ & _ & H & _). lia. }
  rewrite gcps_to_cv_eq.
  set (rows := map (map vz) (map (fun kv => map (fun g => vsub (gcp_world tform g) (centre tform d)) (snd kv)) d)).
  assert (Hrows : (exists n, Forall (fun r => length r = n) rows) <-> (exists n, Forall (fun kv => length (snd kv) = n) d)).
  { apply (rows_lengths (map vz) (fun g => vsub (gcp_world tform g) (centre tform d))). intros; apply map_length. }
  assert (Rne : rows <> []) by (unfold rows; destruct d; [contradiction|discriminate]).
  destruct (vstack_ok rows Rne) as (V1 & V2 & V3).
  destruct (vstack rows) as [zs|e'] eqn:V; cbn [bind].
  2:{ pose proof (V2 e' eq_refl) as ->. split; [|intros e H; now injection H]. split; [discriminate|].
      intros (_ & _ & _ & H & _). apply Hrows, V1 in H. discriminate H. }
  pose proof (V3 zs eq_refl) as ->. pose proof (proj1 V1 eq_refl) as Hn. apply Hrows in Hn. clear V V1 V2 V3. unfold rows. clear Hrows Rne. clear rows.
  rewrite concat_heights. set (hs := map (fun g => vz (gcp_world tform g)) (all_gcps d)).
  assert (Hh : hs <> []).
  { unfold hs. destruct (all_gcps d); [|discriminate]. cbn in M. destruct t; cbn in M; lia. }
  rewrite mean_sub, std_sub, deviation_std by assumption.
  assert (Ec : vz (centre tform d) = mean hs). { unfold centre, hs. cbn [vz]. rewrite average_mean, map_map. reflexivity. }
  rewrite Ec. replace (mean hs - mean hs) with 0 by ring. unfold Rgtb.
  destruct (Rlt_dec (/ 100000) 0) as [C|_]; [exfalso; lra|]. cbn [orb].
  destruct (Rlt_dec (/ 100000) (std hs)) as [C|C].
  - split; [|intros e H; now injection H]. split; [discriminate|]. intros (_ & _ & _ & _ & H). lra.
  - split; [|discriminate]. split; [|reflexivity]. intros _. repeat (split; [assumption|]). lra.
Qed.

Lemma fit_frame_iff calib t w h d tform :
  ((exists r, fit_frame calib t w h d tform = Ok r) <-> fit_checks t tform d = Ok tt) /\
  (forall e, fit_frame calib t w h d tform = Err e -> e = ValueError).
Proof.
  unfold fit_frame. destruct (fit_checks t tform d) as [[]|e'] eqn:E; cbn [bind].
  - rewrite gcps_to_cv_eq. destruct (calib _ _ _ _ _) as [[k dist] poses]. split; [|discriminate]. split; [reflexivity|eauto].
  - split; [split; [intros (? & H); discriminate H|discriminate]|]. intros e H. injection H as <-.
    destruct (fit_checks_ok t tform d) as [_ H]. now apply H.
Qed.

(** * Findings *)

Definition pts (n : nat) : list gcp := repeat (Gcp (0, 0) (V3 0 0 0)) n.

Lemma unequal_refused : forall calib t w h, exists d,
  Forall (fun kv => (4 <= length (snd kv))%nat) d /\ (min_total t <= length (all_gcps d))%nat /\
  (forall g, In g (all_gcps d) -> vz (g_xyz g) = 0) /\
  fit_frame calib t w h d None = Err ValueError.
Proof.
  intros. exists [("a"%string, pts 20); ("b"%string, pts 21)]. split; [|split; [|split]].
  - repeat constructor; cbn; lia.
  - unfold all_gcps. cbn [flat_map snd]. rewrite !app_length. unfold pts. rewrite !repeat_length. destruct t; cbn; lia.
  - intros g Hg. unfold all_gcps, pts in Hg. cbn [flat_map snd] in Hg. rewrite !in_app_iff in Hg.
    destruct Hg as [Hg|[Hg|[]]]; apply repeat_spec in Hg; now subst.
  - destruct (fit_frame_iff calib t w h [("a"%string, pts 20); ("b"%string, pts 21)] None) as [H1 H2].
    destruct (fit_frame _ _ _ _ _ _) as [r|e]; [|now rewrite (H2 e eq_refl)]. exfalso.
    assert (C : fit_checks t None [("a"%string, pts 20); ("b"%string, pts 21)] = Ok tt) by (apply H1; eauto).
    apply fit_checks_ok in C. destruct C as (_ & _ & _ & [n Hn] & _). apply Forall_cons_iff in Hn. destruct Hn as [N1 Hn]. apply Forall_cons_iff in Hn. destruct Hn as [N2 _]. cbn in N1, N2. lia.
Qed.

(** Four GCPs in the plane z = x. *)
Definition slope : list gcp := [Gcp (0, 0) (V3 1 0 1); Gcp (0, 0) (V3 (-1) 0 (-1)); Gcp (0, 0) (V3 1 1 1); Gcp (0, 0) (V3 (-1) 1 (-1))].

Lemma slope_refused calib w h : (forall g, In g slope -> vz (g_xyz g) = vx (g_xyz g)) /\
  fit_frame calib Pinhole w h [("a"%string, slope)] None = Err ValueError.
Proof.
  split. { intros g Hg. cbn in Hg. destruct Hg as [<-|[<-|[<-|[<-|[]]]]]; reflexivity. }
  destruct (fit_frame_iff calib Pinhole w h [("a"%string, slope)] None) as [H1 H2].
  destruct (fit_frame _ _ _ _ _ _) as [r|e]; [|now rewrite (H2 e eq_refl)]. exfalso.
  assert (C : fit_checks Pinhole None [("a"%string, slope)] = Ok tt) by (apply H1; eauto).
  apply fit_checks_ok in C. destruct C as (_ & _ & _ & _ & D). unfold deviation, average in D. cbn in D.
  match type of D with sqrt ?x <= _ => replace x with 1 in D by field end. rewrite sqrt_1 in D. lra.
Qed.

(** A fisheye camera without distortion coefficients, and GCPs that a pinhole camera sees exactly. *)
Definition fish : int_param := IntParam Fisheye 1 1 [1] (Some [1; 1]) None None [].
Definition fish_gcps : list gcp :=
  [Gcp (2, 0) (V3 2 0 0); Gcp (-2, 0) (V3 (-2) 0 0); Gcp (0, 2) (V3 0 2 0); Gcp (0, -2) (V3 0 (-2) 0)].

Lemma fish_k : ip_intrinsic fish = Ok (Intr (1 * 1 / 1) (1 * 1 / 1) ((1 - 1) / 2 + 1 * 0) ((1 - 1) / 2 + 1 * 0)).
Proof. reflexivity. Qed.

Lemma mvec_I v : mvec mI v = v.
Proof. destruct v as [a b c]. unfold mvec, mI, mk, dot. cbn. f_equal; ring. Qed.

Lemma fisheye_wrong cv : cv_contract cv ->
  exists p d k r t exts f, ip_type p = Fisheye /\ ip_intrinsic p = Ok k /\ camera_fwd cv p = Ok f /\ convertible r /\
    (forall g, In g (all_gcps d) ->
       cv_project cv k (match dist_param p with Some c => c | None => [] end) r t (vsub (g_xyz g) (centre None d)) = g_ji g) /\
    fit_frame_exterior (fun _ _ _ _ => (r, t)) p d None = Ok exts /\
    exists name e g, In (name, e) exts /\ In g (all_gcps d) /\
      forall inv ku, world_to_pixel (oriented f inv ku e) (Num (vx (g_xyz g)), Num (vy (g_xyz g)), Num (vz (g_xyz g))) <> num2 (g_ji g).
Proof.
  intros [Hc _]. set (k := Intr (1 * 1 / 1) (1 * 1 / 1) ((1 - 1) / 2 + 1 * 0) ((1 - 1) / 2 + 1 * 0)).
  set (d := [("a"%string, fish_gcps)]).
  assert (C0 : centre None d = V3 0 0 0).
  { unfold centre, d, all_gcps, average. cbn. f_equal; field. }
  assert (Cc : forall v, cv_camera_coords mI (V3 0 0 1) (vsub v (V3 0 0 0)) = V3 (vx v) (vy v) (vz v + 1)).
  { intros [a b c]. unfold cv_camera_coords. rewrite mvec_I. unfold vadd, vsub. cbn. f_equal; ring. }
  assert (Hconv : convertible mI).
  { split; [|cbn; rewrite Rabs_R0; lra]. split; [unfold mI, mk, mmul, mtr, mvec, dot; cbn; f_equal; f_equal; ring|].
    unfold det, mI, mk, dot, cross. cbn. ring. }
  set (e := cv_ext_to_oty_ext (V3 0 0 1) mI (Some (centre None d))).
  exists fish, d, k, mI, (V3 0 0 1), [("a"%string, e)], (fisheye_fwd k 0 0 0 0).
  split; [reflexivity|]. split; [exact fish_k|]. split; [unfold camera_fwd; rewrite fish_k; reflexivity|].
  split; [exact Hconv|]. split; [|split; [unfold fit_frame_exterior; rewrite gcps_to_cv_eq; reflexivity|]].
  - intros g Hg. rewrite C0. unfold cv_project. rewrite Cc. cbn [dist_param fish ip_type dist_names map dget ip_dist or0].
    rewrite Hc by (cbn; lia). change [0; 0; 0; 0] with (repeat 0 4). rewrite zero_cv. unfold k_apply, k. cbn [fst snd kfx kfy kcx kcy vx vy vz].
    cbn in Hg. destruct Hg as [<-|[<-|[<-|[<-|[]]]]]; cbn [g_ji g_xyz vx vy vz]; f_equal; field.
  - exists "a"%string, e, (Gcp (2, 0) (V3 2 0 0)). split; [left; reflexivity|]. split; [left; reflexivity|].
    intros inv ku. unfold e.
    rewrite C0. set (q := V3 2 0 0). change (g_xyz (Gcp (2, 0) q)) with q.
    rewrite (oriented_sees _ inv ku (V3 0 0 1) mI (V3 0 0 0) q Hconv) by (rewrite Cc; unfold q; cbn; lra).
    rewrite Cc. unfold q. cbn [vx vy vz g_ji]. replace (0 + 1) with 1 by ring. replace (2 / 1) with 2 by field. replace (0 / 1) with 0 by field.
    unfold fisheye_fwd. replace (2 * 2 + 0 * 0) with (2 * 2) by ring. rewrite sqrt_square by lra.
    destruct (Req_EM_T 2 0) as [Z|_]; [lra|]. unfold fisheye_theta.
    destruct (Req_EM_T 0 0) as [_|Z]; [|contradiction].
    unfold num2, k_apply, k. cbn [fst snd kfx kfy kcx kcy]. intros H. injection H as H _.
    pose proof (atan_bound 2) as [_ B]. pose proof PI_4 as B4.
    match type of H with ?x = 2 => replace x with (atan 2) in H by field end. lra.
Qed.

(** The camera and poses that [fit_frame] returns project as OpenCV's do. *)
Lemma fit_frame_sees cv calib t w h d tform k dist poses ip exts inv ku : cv_contract cv -> t <> Fisheye -> (0 < w)%Z -> (0 < h)%Z ->
  calib t (map (fun kv => map (fun g => vsub (gcp_world tform g) (centre tform d)) (snd kv)) d) (map (fun kv => map g_ji (snd kv)) d) w h
    = (k, dist, poses) ->
  length dist = calib_length t -> (t = Pinhole -> dist = repeat 0 5) ->
  fit_frame calib t w h d tform = Ok (ip, exts) ->
  exists f, camera_fwd cv ip = Ok f /\
  forall name e, In (name, e) exts -> exists r tr, In (name, (r, tr)) (combine (map fst d) poses) /\
    (convertible r -> forall q, vz (cv_camera_coords r tr (vsub q (centre tform d))) <> 0 ->
       world_to_pixel (oriented f inv ku e) (Num (vx q), Num (vy q), Num (vz q)) =
       num2 (cv_project cv k dist r tr (vsub q (centre tform d)))).
Proof.
  intros Hc Ht Hw Hh Hcal Hl Hp H. unfold fit_frame in H. destruct (fit_checks t tform d); [|discriminate H]. cbn [bind] in H.
  rewrite gcps_to_cv_eq, Hcal in H. injection H as <- <-.
  destruct (export_camera cv t w h k dist Hc Ht Hw Hh Hl Hp) as (f & Hf & HF). exists f. split; [exact Hf|].
  intros name e Hin. apply in_map_iff in Hin. destruct Hin as ([n [r tr]] & E & Hin). cbn [fst snd] in E. injection E as -> <-.
  exists r, tr. split; [exact Hin|]. intros Hr q Hz. rewrite oriented_sees by assumption. now rewrite HF.
Qed.
