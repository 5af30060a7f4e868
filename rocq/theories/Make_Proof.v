(** Proofs about making cameras from keyword arguments. *)
From Coq Require Import String List Reals QArith Qreals ZArith Bool Lra Lia FunctionalExtensionality.
From Verif Require Import Py Py_Proof Flt Mat Rot_Model Remap_Model Frame_Model Frame_Spec Frame_Proof Undist_Model Rpc_Model Rpc_Spec Validate_Model Params_Model Cam_Model Cam_Spec Cam_Proof
  Rcam_Model Rcam_Spec Rcam_Proof Proj_Spec Proj_Proof Make_Model Make_Spec Undist_Spec Undist_Proof.
Import ListNotations.
Open Scope string_scope.
Open Scope list_scope.
Open Scope Z_scope.

Lemma real_num : forall v x, is_real v x -> py_num v = Ok x.
Proof. intros v x H. destruct H; reflexivity. Qed.

Lemma reals_mapM : forall vs l, Forall2 is_real vs l -> mapM py_num vs = Ok l.
Proof. intros vs l H. induction H as [|v x vs l Hv _ IH]; [reflexivity|]. cbn [mapM]. rewrite (real_num v x Hv), IH. reflexivity. Qed.

Lemma reals_seq : forall v l, is_reals v l -> seq_arg v = Ok l.
Proof. intros v l (vs & [-> | ->] & H); cbn [seq_arg]; apply reals_mapM, H. Qed.

Lemma arg_number : forall kw k def x, number_at kw k def x -> arg k kw def num_arg = Ok x.
Proof.
  intros kw k def x H. unfold number_at, arg in *. destruct (dget k kw) as [v|]; [|rewrite H; reflexivity].
  destruct H as (p & -> & H). cbn. apply real_num, H.
Qed.

Lemma opt_seq_some : forall v l, is_reals v l -> opt_seq v = Ok (Some l).
Proof.
  intros v l H. pose proof (reals_seq v l H) as E. destruct H as (vs & [-> | ->] & H); unfold opt_seq; rewrite E; reflexivity.
Qed.

Lemma arg_numbers : forall kw k l, numbers_at kw k l -> arg k kw None opt_seq = Ok l.
Proof.
  intros kw k l H. unfold numbers_at, arg in *. destruct (dget k kw) as [v|]; [|rewrite H; reflexivity].
  assert (D : (v = MV PNone /\ l = None) \/ exists l', l = Some l' /\ is_reals v l').
  { destruct v as [[]| |]; auto. }
  destruct D as [[-> ->]|(l' & -> & D)]; [reflexivity|apply opt_seq_some, D].
Qed.

Lemma focal_is : forall v fx fy,
  ((exists x, v = MV x /\ is_real x fx /\ fy = fx) \/ (is_reals v [fx] /\ fy = fx) \/ is_reals v [fx; fy]) ->
  exists focal, focal_arg v = Ok focal /\ ((focal = [fx] /\ fy = fx) \/ focal = [fx; fy]).
Proof.
  intros v fx fy [(x & -> & Hx & ->)|[[H ->]|H]].
  - exists [fx]. split; [|auto]. destruct Hx; reflexivity.
  - exists [fx]. split; [|auto]. pose proof (reals_seq v _ H) as E. destruct H as (vs & [-> | ->] & _); exact E.
  - exists [fx; fy]. split; [|auto]. pose proof (reals_seq v _ H) as E. destruct H as (vs & [-> | ->] & _); exact E.
Qed.

Lemma size_is : forall v w h, v = MTup [PInt w; PInt h] \/ v = MV (PList [PInt w; PInt h]) -> size_arg v = Ok [w; h].
Proof. intros v w h [-> | ->]; reflexivity. Qed.

(** Keywords *)
Lemma dget_in : forall {V} k (d : dict V) v, dget k d = Some v -> In k (map fst d).
Proof.
  intros V k d v. induction d as [|[n u] d IH]; [discriminate|]. cbn. destruct (String.eqb_spec k n) as [->|_]; auto.
Qed.

Lemma in_dget : forall {V} k (d : dict V), In k (map fst d) -> exists v, dget k d = Some v.
Proof.
  intros V k d. induction d as [|[n u] d IH]; [contradiction|]. cbn. destruct (String.eqb_spec k n) as [->|N]; [eauto|].
  intros [->|H]; [contradiction|auto].
Qed.

Lemma dget_rest : forall {V} k (d : dict V), k <> "cam_type" -> dget k (filter (fun kv => negb (String.eqb (fst kv) "cam_type")) d) = dget k d.
Proof.
  intros V k d N. induction d as [|[n u] d IH]; [reflexivity|]. cbn [filter fst]. destruct (String.eqb_spec n "cam_type") as [->|N']; cbn [negb].
  - cbn [dget]. destruct (String.eqb_spec k "cam_type"); [contradiction|exact IH].
  - cbn [dget]. destruct (String.eqb k n); [reflexivity|exact IH].
Qed.

Lemma rest_keys : forall {V} k (d : dict V), In k (map fst (filter (fun kv => negb (String.eqb (fst kv) "cam_type")) d)) <-> In k (map fst d) /\ k <> "cam_type".
Proof.
  intros V k d. rewrite !in_map_iff. split.
  - intros ([n u] & <- & H). apply filter_In in H. destruct H as [H E]. cbn in *. destruct (String.eqb_spec n "cam_type"); [discriminate|].
    split; [exists (n, u); auto|assumption].
  - intros [([n u] & <- & H) N]. exists (n, u). split; [reflexivity|]. apply filter_In. split; [assumption|]. cbn in *. destruct (String.eqb_spec n "cam_type"); [contradiction|reflexivity].
Qed.

Lemma one_of_iff : forall k l, one_of k l = true <-> In k l.
Proof. intros k l. unfold one_of. rewrite existsb_exists. split; [intros (x & H & E); apply String.eqb_eq in E; subst; auto|intros H; exists k; rewrite String.eqb_refl; auto]. Qed.

Lemma dmem_iff : forall {V} k (d : dict V), dmem k d = true <-> In k (map fst d).
Proof.
  intros V k d. unfold dmem. split.
  - destruct (dget k d) as [v|] eqn:E; [intros _; eapply dget_in, E|discriminate].
  - intros H. destruct (in_dget k d H) as [v ->]. reflexivity.
Qed.

Lemma bound : forall params required kw,
  (forall k, In k (map fst kw) -> In k params) -> (forall k, In k required -> In k (map fst kw)) -> bind_kwargs params required kw = Ok tt.
Proof.
  intros params required kw H1 H2. unfold bind_kwargs.
  replace (forallb (fun kv => one_of (fst kv) params) kw) with true; [replace (forallb (fun k => dmem k kw) required) with true; [reflexivity|]|]; symmetry; apply forallb_forall.
  - intros k Hk. apply dmem_iff, H2, Hk.
  - intros kv Hkv. apply one_of_iff, H1, in_map, Hkv.
Qed.

Lemma not_bound : forall params required kw,
  (exists k, In k (map fst kw) /\ ~ In k params) \/ (exists k, In k required /\ ~ In k (map fst kw)) -> bind_kwargs params required kw = Err TypeError.
Proof.
  intros params required kw H. unfold bind_kwargs.
  destruct (forallb (fun kv => one_of (fst kv) params) kw) eqn:E1; [|reflexivity]. cbn [negb].
  destruct (forallb (fun k => dmem k kw) required) eqn:E2; [|reflexivity]. exfalso. rewrite forallb_forall in E1, E2.
  destruct H as [(k & Hk & N)|(k & Hk & N)].
  - apply in_map_iff in Hk. destruct Hk as (kv & <- & Hk). apply N, one_of_iff, E1, Hk.
  - apply N, dmem_iff, E2, Hk.
Qed.

Lemma params_keyword : forall t k, t <> Crpc -> (In k (frame_params ++ coef_params t) <-> keyword t k /\ k <> "cam_type").
Proof.
  intros t k Ht. rewrite in_app_iff. unfold keyword, coefficient, frame_params, coef_params. cbn [In].
  destruct t; try contradiction; cbn [In]; split; intros H.
  all: first [ destruct H as [H N]; assert (N' : "cam_type" <> k) by congruence; tauto
             | split; [tauto|]; intros ->; repeat destruct H as [H|H]; try discriminate; try contradiction ].
Qed.

(** Camera types *)
Lemma type_is : forall v t, names_type v t -> camera_type v = Ok t.
Proof. intros v t [-> |(s & -> & ->)]; [reflexivity|]. destruct t; reflexivity. Qed.

Lemma type_not : forall v, (forall t, ~ names_type v t) -> camera_type v = Err ValueError.
Proof.
  intros v H. unfold camera_type. destruct v as [[]| |c]; try reflexivity; [|exfalso; apply (H c); left; reflexivity].
  destruct (cam_of s) as [t|] eqn:E; [|reflexivity]. exfalso. apply (H t). right. exists s. split; [reflexivity|].
  unfold cam_of in E.
  repeat match type of E with (if String.eqb s ?x then _ else _) = _ => destruct (String.eqb_spec s x) as [->|_]; [injection E as <-; reflexivity|] end.
  discriminate.
Qed.

Section Make.
Variable cv_surf : string -> arr fl -> fl * fl -> option fl.
Variable cast_nan : string -> fl.
Variable cv_image : string -> arr pix -> fl * fl -> option pix.
Variable convert : string -> string -> pix -> pix.
Notation do_call := (do_call cv_surf cast_nan cv_image convert).
Notation run_calls := (run_calls cv_surf cast_nan cv_image convert).
Variable cv_project cv_undistort fish_undistort : intr -> list R -> R * R -> R * R.
Notation opencv_lens := (opencv_lens cv_project cv_undistort).
Notation brown_lens := (brown_lens cv_undistort).
Notation fisheye_lens := (fisheye_lens fish_undistort).
Notation make_frame := (make_frame cv_project cv_undistort fish_undistort).

Hypothesis cv_projects : forall K d xy b, In (List.length d) [4; 5; 8; 12; 14]%nat -> opencv_distorts (cv_coefs d) xy b -> num2 (cv_project K d xy) = to_pixel K b.
Hypothesis cv_undistorts : forall K d d' p, In (List.length d) [4; 5; 8; 12; 14]%nat -> In (List.length d') [4; 5; 8; 12; 14]%nat ->
  (forall k, cv_coefs d k = cv_coefs d' k) -> cv_undistort K d p = cv_undistort K d' p.

(** The lens of a camera. *)
Definition lens_for (c : interior) (K : intr) : lens :=
  let k := in_coef c in
  match in_type c with
  | Copencv => opencv_lens (opencv_dist_param (k "k1") (k "k2") (k "k3") (k "p1") (k "p2") (k "k4") (k "k5") (k "k6") (k "s1") (k "s2") (k "s3") (k "s4") (k "tx") (k "ty")) K
  | Cbrown => brown_lens (k "k1") (k "k2") (k "p1") (k "p2") (k "k3") K
  | Cfisheye => fisheye_lens (k "k1") (k "k2") (k "k3") (k "k4") K
  | _ => pinhole K
  end.
Definition is_pin (c : interior) : bool := match in_type c with Cpinhole | Crpc => true | _ => false end.
Definition sensor_list (c : interior) : option (list R) := match in_sensor c with Some (sw, sh) => Some [sw; sh] | None => None end.

Lemma coefs_same : forall d n, coeff d n = nth n (d : list R) 0%R.
Proof. reflexivity. Qed.

Lemma named_ext : forall names d d', (forall n, coeff d n = coeff d' n) -> forall k, by_name names d k = by_name names d' k.
Proof.
  induction names as [|m names IH]; intros d d' H k; [destruct d, d'; reflexivity|].
  assert (Z : forall names l, (forall n, coeff l n = 0%R) -> by_name names l k = 0%R).
  { clear. induction names as [|m names IH]; intros l H; [destruct l; reflexivity|]. destruct l as [|x l]; [reflexivity|]. cbn [by_name].
    destruct (String.eqb m k); [exact (H 0%nat)|]. apply IH. intros n. exact (H (S n)). }
  destruct d as [|x d], d' as [|x' d'].
  - reflexivity.
  - symmetry. rewrite (Z (m :: names) (x' :: d')); [reflexivity|]. intros n. rewrite <- H. unfold coeff. destruct n; reflexivity.
  - rewrite (Z (m :: names) (x :: d)); [reflexivity|]. intros n. rewrite H. unfold coeff. destruct n; reflexivity.
  - cbn [by_name]. destruct (String.eqb m k); [exact (H 0%nat)|]. apply IH. intros n. exact (H (S n)).
Qed.

Lemma truncated_names : forall k1 k2 k3 p1 p2 k4 k5 k6 s1 s2 s3 s4 tx ty k,
  cv_coefs (opencv_dist_param k1 k2 k3 p1 p2 k4 k5 k6 s1 s2 s3 s4 tx ty) k = cv_coefs [k1; k2; p1; p2; k3; k4; k5; k6; s1; s2; s3; s4; tx; ty] k.
Proof. intros. apply named_ext. apply opencv_params_same. Qed.

Lemma brown_inverse : forall K k1 k2 p1 p2 k3,
  cv_undistort K (opencv_dist_param k1 k2 k3 p1 p2 0 0 0 0 0 0 0 0 0) = cv_undistort K [k1; k2; p1; p2; k3].
Proof.
  intros. apply functional_extensionality. intros p. apply cv_undistorts.
  - apply truncate_length.
  - cbn. tauto.
  - intros k. rewrite truncated_names. apply named_ext. intros n. do 5 (destruct n as [|n]; [reflexivity|]).
    unfold coeff. cbn [nth]. do 9 (destruct n as [|n]; [reflexivity|]). destruct n; reflexivity.
Qed.

Local Opaque undistort_intrinsic.

Lemma described : forall kw c p d a, describes kw c p d a ->
  exists focal, ((focal = [in_fx c] /\ in_fy c = in_fx c) \/ focal = [in_fx c; in_fy c]) /\
  make_frame (in_type c) (filter (fun kv => negb (String.eqb (fst kv) "cam_type")) kw) =
  frame_init (is_pin c) (lens_for c) [in_w c; in_h c] focal (sensor_list c) (in_cx c) (in_cy c) (fst p) (snd p) d a.
Proof.
  intros kw c p d a H. destruct (d_focal _ _ _ _ _ H) as (vf & Ef & Hf). destruct (focal_is _ _ _ Hf) as (focal & Af & F). exists focal. split; [exact F|].
  destruct (d_size _ _ _ _ _ H) as (vs & Es & Hs). pose proof (d_frame _ _ _ _ _ H) as Ht.
  set (kw' := filter _ kw). assert (G : forall k, k <> "cam_type" -> dget k kw' = dget k kw) by (intros k N; apply dget_rest, N).
  unfold make_frame, Make_Model.make_frame. rewrite bound.
  2:{ intros k Hk. apply rest_keys in Hk. destruct Hk as [Hk N]. apply params_keyword; [assumption|]. split; [apply (d_known _ _ _ _ _ H), Hk|assumption]. }
  2:{ intros k Hk. apply rest_keys. cbn in Hk. destruct Hk as [<-|[<-|[]]]; (split; [eapply dget_in; eassumption|discriminate]). }
  cbn [bind]. unfold arg at 1. rewrite (G "im_size"), Es by discriminate. rewrite (size_is _ _ _ Hs). cbn [bind].
  unfold arg at 1. rewrite (G "focal_len"), Ef by discriminate. rewrite Af. cbn [bind].
  assert (N : forall k def x, k <> "cam_type" -> number_at kw k def x -> arg k kw' def num_arg = Ok x).
  { intros k def x Nk Hk. apply arg_number. unfold number_at in *. rewrite G; assumption. }
  assert (NS : forall k l, k <> "cam_type" -> numbers_at kw k l -> arg k kw' None opt_seq = Ok l).
  { intros k l Nk Hk. apply arg_numbers. unfold numbers_at in *. rewrite G; assumption. }
  rewrite (NS "sensor_size" (sensor_list c)) by (try discriminate; apply (d_sensor _ _ _ _ _ H)). cbn [bind].
  rewrite (N "cx" 0%R (in_cx c)) by (try discriminate; apply (d_cx _ _ _ _ _ H)). cbn [bind].
  rewrite (N "cy" 0%R (in_cy c)) by (try discriminate; apply (d_cy _ _ _ _ _ H)). cbn [bind].
  rewrite (NS "xyz" (fst p)) by (try discriminate; apply (d_xyz _ _ _ _ _ H)). cbn [bind].
  rewrite (NS "opk" (snd p)) by (try discriminate; apply (d_opk _ _ _ _ _ H)). cbn [bind].
  rewrite (N "alpha" 1%R a) by (try discriminate; apply (d_alpha _ _ _ _ _ H)). cbn [bind].
  replace (match dget "distort" kw' with Some v => truthy v | None => true end) with d.
  2:{ rewrite G by discriminate. pose proof (d_distort _ _ _ _ _ H) as D. destruct (dget "distort" kw) as [v|]; [|assumption]. rewrite D. destruct d; reflexivity. }
  rewrite (mapM_total _ _ _ (in_coef c)).
  2:{ intros k Hk. apply N.
      - intros ->. destruct (in_type c); cbn in Hk; repeat destruct Hk as [Hk|Hk]; try discriminate; contradiction.
      - apply (d_coefs _ _ _ _ _ H). unfold coefficient. destruct (in_type c); cbn in Hk |- *; tauto. }
  cbn [bind]. unfold is_pin, lens_for. destruct (in_type c); cbn [coef_params map]; try contradiction.
  - reflexivity.
  - unfold frame_init. destruct (get_intrinsic (in_w c) (in_h c) focal (sensor_list c) (in_cx c) (in_cy c)) as [K|e]; [|reflexivity]. cbn [bind].
    destruct (get_extrinsic (fst p) (snd p)) as [e|e]; [|reflexivity]. cbn [bind]. unfold with_lens. cbn [fc_pinhole fc_w fc_h fc_st].
    unfold cam_init. cbn [l_inv Make_Model.opencv_lens Make_Model.brown_lens]. rewrite brown_inverse. unfold Make_Model.brown_lens. generalize undistort_intrinsic, brown_fwd. reflexivity.
  - generalize frame_init. unfold Make_Model.fisheye_lens. generalize fisheye_fwd. reflexivity.
  - generalize frame_init, opencv_dist_param. reflexivity.
Qed.

Lemma init_total : forall pin lens_of w h focal fx fy c (p : pose) d a, ((focal = [fx] /\ fy = fx) \/ focal = [fx; fy]) -> refused p = false ->
  exists cam, frame_init pin lens_of [w; h] focal (sensor_list c) (in_cx c) (in_cy c) (fst p) (snd p) d a = Ok cam.
Proof.
  intros pin lens_of w h focal fx fy c p d a F Rp. unfold frame_init, get_intrinsic, sensor_list.
  assert (P : exists f, pair_of focal = Ok f) by (destruct F as [[-> _]| ->]; eexists; reflexivity). destruct P as [[f1 f2] ->].
  assert (E : exists e, get_extrinsic (fst p) (snd p) = Ok e).
  { destruct (get_extrinsic (fst p) (snd p)) as [e|e] eqn:E; [eauto|]. exfalso. unfold get_extrinsic in E. destruct p as [[xyz|] [opk|]]; cbn [fst snd] in *; try discriminate.
    - unfold refused in Rp. apply negb_false_iff, andb_prop in Rp. destruct Rp as [L1 L2]. apply Nat.eqb_eq in L1, L2.
      destruct xyz as [|? [|? [|? [|? ?]]]]; try discriminate. destruct opk as [|? [|? [|? [|? ?]]]]; discriminate.
    - destruct xyz as [|? [|? [|? [|? ?]]]]; discriminate. }
  destruct E as [e ->]. destruct (in_sensor c) as [[sw sh]|]; cbn [bind]; eexists; reflexivity.
Qed.

Lemma lens_images : forall c K xy b, distorts c xy b -> (forall k, ~ coefficient (in_type c) k -> in_coef c k = 0%R) -> l_fwd (lens_for c K) xy = to_pixel K b.
Proof.
  intros c K [x y] b H Z. unfold distorts, lens_for in *. set (k := in_coef c) in *. destruct (in_type c) eqn:T.
  - subst b. reflexivity.
  - (* brown *)
    cbn [Make_Model.brown_lens l_fwd]. unfold brown_fwd, num2, k_apply, to_pixel. 
    assert (E : brown_distort (k "k1") (k "k2") (k "p1") (k "p2") (k "k3") (x, y) = b).
    { assert (Z' : forall n, ~ In n ["k1"; "k2"; "p1"; "p2"; "k3"] -> k n = 0%R) by (intros n N; apply Z, N).
      unfold opencv_distorts in H. rewrite (Z' "k4"), (Z' "k5"), (Z' "k6"), (Z' "s1"), (Z' "s2"), (Z' "s3"), (Z' "s4"), (Z' "tx"), (Z' "ty") in H by (cbn; intuition discriminate).
      destruct H as (_ & T1). unfold tilted in T1. rewrite cos_0, sin_0 in T1. cbn [fst snd] in T1. destruct T1 as (_ & B1 & B2). destruct b as [bx by']. cbn [fst snd] in *.
      unfold brown_distort. f_equal.
      - match type of B1 with (?s * bx = _)%R => transitivity (s * bx)%R; [rewrite B1|ring] end.
        replace (1 + 0 * (x ^ 2 + y ^ 2) + 0 * (x ^ 2 + y ^ 2) ^ 2 + 0 * (x ^ 2 + y ^ 2) ^ 3)%R with 1%R by ring. field.
      - match type of B2 with (?s * by' = _)%R => transitivity (s * by')%R; [rewrite B2|ring] end.
        replace (1 + 0 * (x ^ 2 + y ^ 2) + 0 * (x ^ 2 + y ^ 2) ^ 2 + 0 * (x ^ 2 + y ^ 2) ^ 3)%R with 1%R by ring. field. }
    rewrite E. reflexivity.
  - (* fisheye *)
    cbn [Make_Model.fisheye_lens l_fwd]. unfold fisheye_distorts in H. destruct H as (Nr & ->).
    assert (Nxy : x <> 0%R \/ y <> 0%R).
    { destruct (Req_dec x 0) as [->|]; [|auto]. destruct (Req_dec y 0) as [->|]; [|auto]. exfalso. apply Nr. replace (0 ^ 2 + 0 ^ 2)%R with 0%R by ring. apply sqrt_0. }
    rewrite (fisheye_off_axis _ _ _ _ _ _ _ Nxy). cbv zeta. replace (x * x + y * y)%R with (x ^ 2 + y ^ 2)%R by ring. unfold fisheye_poly, num2, k_apply, to_pixel. cbn [fst snd].
    f_equal; f_equal; f_equal; f_equal; field; exact Nr.
  - (* opencv *)
    cbn [Make_Model.opencv_lens l_fwd]. apply cv_projects; [apply truncate_length|].
    unfold opencv_distorts in *. rewrite !truncated_names. exact H.
  - contradiction.
Qed.

Lemma pixel_intr_of : forall c focal K, usable c -> ((focal = [in_fx c] /\ in_fy c = in_fx c) \/ focal = [in_fx c; in_fy c]) ->
  intrinsics (in_w c) (in_h c) focal (sensor_list c) (in_cx c) (in_cy c) K -> pixel_intr c K.
Proof.
  intros c focal K (_ & _ & _ & _ & Us) F (fx & fy & Hf & Hs & Cx & Cy). unfold pixel_intr.
  assert (E : fx = in_fx c /\ fy = in_fy c).
  { destruct F as [[-> ->]| ->]; destruct Hf as [Hf|[Hf ->]]; try discriminate; injection Hf; intros; subst; auto. }
  destruct E as [-> ->]. split; [|auto]. unfold sensor_list in Hs. destruct (in_sensor c) as [[sw sh]|]; [|exact Hs].
  destruct Hs as (sw' & sh' & Es & Kx & Ky). injection Es as <- <-. destruct (Us sw sh eq_refl) as [N1 N2]. auto.
Qed.

Lemma pixel_intr_unique : forall c K K', pixel_intr c K -> pixel_intr c K' -> K = K'.
Proof.
  intros c [a b x y] [a' b' x' y'] (H1 & H2 & H3) (H1' & H2' & H3'). cbn in *. destruct (in_sensor c) as [[sw sh]|]; destruct H1 as [-> ->], H1' as [-> ->]; congruence.
Qed.

Local Transparent undistort_intrinsic.
Lemma undistorted_is : forall f w h alpha, undistorted f w h alpha (undistort_intrinsic f w h alpha).
Proof.
  intros f w h alpha. unfold undistort_intrinsic. pose proof (inner_sides f w h) as I. pose proof (outer_bounds f w h) as B. destruct (get_rectangles f w h) as [i o]. cbn [fst snd] in *.
  exists i, o, (Intr ((IZR w - 1) / size_x i) ((IZR h - 1) / size_y i) (- ((IZR w - 1) / size_x i) * off_x i) (- ((IZR h - 1) / size_y i) * off_y i))%R,
    (Intr ((IZR w - 1) / size_x o) ((IZR h - 1) / size_y o) (- ((IZR w - 1) / size_x o) * off_x o) (- ((IZR h - 1) / size_y o) * off_y o))%R, (clip01 alpha).
  split; [exact I|]. split; [exact B|]. unfold fits, clip01, Rmin, Rmax. cbn [kfx kfy kcx kcy]. repeat split; try ring; repeat destruct (Rle_dec _ _); intros; lra.
Qed.

Local Opaque undistort_intrinsic.

Lemma lens_undone : forall c K, in_type c <> Crpc /\ (forall k, ~ coefficient (in_type c) k -> in_coef c k = 0%R) -> pixel_intr c K -> in_type c <> Cpinhole ->
  is_pin c = false /\ lens_inverse cv_undistort fish_undistort c (l_inv (lens_for c K)).
Proof.
  intros c K [Nr Z] HK Np. unfold is_pin, lens_inverse, lens_for. destruct (in_type c) eqn:T; try contradiction; (split; [reflexivity|]); exists K; (split; [exact HK|]).
  - exists (map (in_coef c) ["k1"; "k2"; "p1"; "p2"; "k3"]). split; [cbn; tauto|]. split; [|reflexivity].
    intros k. unfold cv_coefs. cbn [map by_name].
    repeat match goal with |- (if String.eqb ?n k then _ else _) = _ => destruct (String.eqb_spec n k) as [<-|?]; [try reflexivity; symmetry; apply Z; cbn; intuition discriminate|] end.
    symmetry. apply Z. cbn. tauto.
  - reflexivity.
  - eexists. split; [apply truncate_length|]. split; [|reflexivity].
    intros k. rewrite truncated_names. unfold cv_coefs. cbn [by_name].
    repeat match goal with |- (if String.eqb ?n k then _ else _) = _ => destruct (String.eqb_spec n k) as [<-|?]; [reflexivity|] end.
    symmetry. apply Z. cbn. tauto.
Qed.

Theorem made_images : forall kw c p d a, describes kw c p d a -> usable c -> refused p = false ->
  exists cam, make_frame (in_type c) (filter (fun kv => negb (String.eqb (fst kv) "cam_type")) kw) = Ok cam /\
  forall ks x y z o ph k, pose_after ks p = (Some [x; y; z], Some [o; ph; k]) ->
  let pixel X q := snd (do_call (run_calls cam ks) (WorldToPixel (one_point (num3 X)))) = Ok (VPixels [q]) in
  (forall X, beside (V3 x y z) o ph k X -> pixel X (Nan, Nan)) /\
  (distort_after ks d = true -> forall X q, images c (V3 x y z) o ph k X q -> pixel X q) /\
  (distort_after ks d = false -> exists K, (in_type c = Cpinhole -> pixel_intr c K) /\
     (in_type c <> Cpinhole -> exists f, lens_inverse cv_undistort fish_undistort c f /\ undistorted f (in_w c) (in_h c) (alpha_after ks a) K) /\
     forall X v, seen_at (V3 x y z) o ph k v X -> vz v <> 0%R -> pixel X (to_pixel K (vx v / vz v, vy v / vz v)%R)).
Proof.
  intros kw c p d a D U Rp. destruct (described kw c p d a D) as (focal & F & E). rewrite E.
  destruct (init_total (is_pin c) (lens_for c) (in_w c) (in_h c) focal (in_fx c) (in_fy c) c p d a F Rp) as (cam & Hc). exists cam. split; [exact Hc|].
  intros ks x y z o ph k Hp pixel.
  destruct (history cv_surf cast_nan cv_image convert _ _ _ _ _ _ _ p d a cam ks Hc) as (cam' & Hc' & Same). rewrite Hp in Hc'. cbn [fst snd] in Hc'.
  destruct (projects cv_surf cast_nan cv_image convert _ _ _ _ _ _ _ _ _ _ _ _ _ _ _ _ _ Hc') as (K & HK & A). apply (pixel_intr_of c focal K U F) in HK.
  unfold pixel. split; [|split].
  - intros X (v & Hv & Zv). rewrite Same. destruct (A X) as (v0 & q & _ & Uq & -> & B & _). rewrite (Uq v Hv) in Zv. rewrite (B Zv). reflexivity.
  - intros Hd X q (K' & v & b & HK' & Hv & Nv & Hb & ->). rewrite Same. destruct (A X) as (v0 & q & _ & Uq & -> & _ & B). rewrite (Uq v Hv) in *.
    destruct (B Nv) as [Q _]. rewrite (Q Hd), (lens_images c K _ b Hb (d_others _ _ _ _ _ D)), (pixel_intr_unique c K K' HK HK'). reflexivity.
  - assert (D' := conj (d_frame _ _ _ _ _ D) (d_others _ _ _ _ _ D)). intros Hd. exists (if is_pin c then K else undistort_intrinsic (l_inv (lens_for c K)) (in_w c) (in_h c) (alpha_after ks a)). split.
    + unfold is_pin. intros ->. exact HK.
    + split; [intros Np; destruct (lens_undone c K D' HK Np) as (Ep & Li); rewrite Ep; exists (l_inv (lens_for c K)); split; [exact Li|apply undistorted_is]|].
      intros X v Hv Nv. rewrite Same. destruct (A X) as (v0 & q & _ & Uq & -> & _ & B). rewrite (Uq v Hv) in *. destruct (B Nv) as (_ & Q1 & Q2).
      destruct (is_pin c); [rewrite (Q1 Hd eq_refl)|rewrite (Q2 Hd eq_refl)]; reflexivity.
Qed.

Lemma made_distort : forall kw c p d a cam, describes kw c p d a ->
  make_frame (in_type c) (filter (fun kv => negb (String.eqb (fst kv) "cam_type")) kw) = Ok cam -> s_distort (fc_st cam) = d /\ fc_w cam = in_w c /\ fc_h cam = in_h c.
Proof.
  intros kw c p d a cam D. destruct (described kw c p d a D) as (focal & F & ->). unfold frame_init.
  destruct (get_intrinsic _ _ _ _ _ _); [|discriminate]. cbn [bind]. destruct (get_extrinsic _ _); [|discriminate]. cbn [bind]. intros [= <-]. repeat split; reflexivity.
Qed.
End Make.

(** * [create_camera] *)
Section Create.
Variable cv_project cv_undistort fish_undistort : intr -> list R -> R * R -> R * R.
Variable C : Type.
Variable parse_crs : string -> res C.
Variable rpc_crs : C.
Variable O : Type.
Variable no_options : O.
Variable warp : C -> C -> list vec -> list vec.
Notation create_camera := (create_camera cv_project cv_undistort fish_undistort C parse_crs rpc_crs O no_options warp).
Notation rpc_init := (rpc_init C parse_crs rpc_crs O no_options warp).

Lemma create_frame : forall kw v t, dget "cam_type" kw = Some v -> names_type v t -> t <> Crpc ->
  create_camera kw None None =
  bind (make_frame cv_project cv_undistort fish_undistort t (filter (fun kv => negb (String.eqb (fst kv) "cam_type")) kw)) (fun c => Ok (MadeFrame c)).
Proof. intros kw v t E H N. unfold create_camera, Make_Model.create_camera. rewrite E, (type_is v t H). cbn [bind]. destruct t; try reflexivity. contradiction. Qed.

Theorem create_refused : forall kw crs o,
  (~ In "cam_type" (map fst kw) -> create_camera kw crs o = Err TypeError) /\
  (forall v, dget "cam_type" kw = Some v -> (forall t, ~ names_type v t) -> create_camera kw crs o = Err ValueError) /\
  (forall v t, dget "cam_type" kw = Some v -> names_type v t -> t <> Crpc ->
     (exists k, In k (map fst kw) /\ ~ keyword t k) \/ ~ In "im_size" (map fst kw) \/ ~ In "focal_len" (map fst kw) \/ crs <> None \/ o <> None ->
     create_camera kw crs o = Err TypeError) /\
  (forall v, dget "cam_type" kw = Some v -> names_type v Crpc ->
     (exists k, In k (map fst kw) /\ ~ In k ["cam_type"; "im_size"; "rpc"]) \/ ~ In "im_size" (map fst kw) \/ ~ In "rpc" (map fst kw) ->
     create_camera kw crs o = Err TypeError).
Proof.
  intros kw crs o. unfold create_camera, Make_Model.create_camera. split; [|split; [|split]].
  - intros N. destruct (dget "cam_type" kw) as [v|] eqn:E; [|reflexivity]. exfalso. apply N. eapply dget_in, E.
  - intros v E N. rewrite E, (type_not v N). reflexivity.
  - intros v t E H N B. rewrite E, (type_is v t H). cbn [bind].
    assert (G : match crs, o with
                | None, None => do c <- make_frame cv_project cv_undistort fish_undistort t (filter (fun kv => negb (String.eqb (fst kv) "cam_type")) kw); Ok (MadeFrame (C := C) (O := O) c)
                | _, _ => Err TypeError
                end = Err TypeError).
    { destruct crs; [reflexivity|]. destruct o; [reflexivity|]. unfold make_frame. rewrite not_bound; [reflexivity|].
      destruct B as [(k & Hk & Nk)|[B|[B|[B|B]]]]; try contradiction.
      - left. exists k. split.
        + apply rest_keys. split; [assumption|]. intros ->. apply Nk. unfold keyword. cbn. tauto.
        + intros K. apply params_keyword in K; [|assumption]. tauto.
      - right. exists "im_size". split; [cbn; tauto|]. intros K. apply rest_keys in K. tauto.
      - right. exists "focal_len". split; [cbn; tauto|]. intros K. apply rest_keys in K. tauto. }
    destruct t; try exact G. contradiction.
  - intros v E H B. rewrite E, (type_is v Crpc H). cbn [bind]. unfold make_rpc. rewrite not_bound; [reflexivity|].
    destruct B as [(k & Hk & Nk)|[B|B]].
    + left. exists k. split; [apply rest_keys; split; [assumption|intros ->; apply Nk; cbn; tauto]|]. cbn in *. tauto.
    + right. exists "im_size". split; [cbn; tauto|]. intros K. apply rest_keys in K. tauto.
    + right. exists "rpc". split; [cbn; tauto|]. intros K. apply rest_keys in K. tauto.
Qed.

(** RPC dictionaries. *)
Lemma kget_in : forall (items : list (pykey * pyval)) k v, NoDup (map fst items) -> In (KStr k, v) items -> kget (KStr k) items = Some v.
Proof.
  intros items k v. induction items as [|[n u] items IH]; [contradiction|]. cbn. intros ND [E|H].
  - injection E as -> ->. rewrite String.eqb_refl. reflexivity.
  - apply NoDup_cons_iff in ND. destruct ND as [Nn ND]. destruct n as [n|n]; [|apply IH; assumption].
    destruct (String.eqb_spec k n) as [->|N]; [exfalso; apply Nn; change (KStr n) with (fst (KStr n, v)); apply in_map, H|apply IH; assumption].
Qed.

Lemma kget_keys : forall (items : list (pykey * pyval)) k v, kget (KStr k) items = Some v -> In (KStr k, v) items.
Proof.
  intros items k v. induction items as [|[n u] items IH]; [discriminate|]. cbn. destruct n as [n|n]; [|intros H; right; apply IH, H].
  destruct (String.eqb_spec k n) as [->|N]; [intros E; injection E as ->; auto|intros H; right; apply IH, H].
Qed.

Definition conv_item (kv : pykey * pyval) : res (string * rval) :=
  match fst kv with KStr k => do v <- rpc_val (snd kv); Ok (k, v) | KInt _ => Err TypeError end.

Lemma conv_all : forall items, (forall k v, In (k, v) items -> exists s u, k = KStr s /\ rpc_val v = Ok u) ->
  exists d, mapM conv_item items = Ok d /\ map fst items = map (fun k => KStr k) (map fst d) /\
  forall s v u, kget (KStr s) items = Some v -> rpc_val v = Ok u -> dget s d = Some u.
Proof.
  induction items as [|[k v] items IH]; intros H; [exists []; repeat split; discriminate|].
  destruct (H k v) as (s & u & -> & E); [left; reflexivity|]. destruct IH as (d & Ed & Ek & Eg); [intros k' v' H'; apply H; right; exact H'|].
  exists ((s, u) :: d). split; [|split].
  - cbn [mapM]. rewrite Ed. unfold conv_item. cbn [fst snd]. rewrite E. reflexivity.
  - cbn. rewrite Ek. reflexivity.
  - intros s' v' u' Hk Hv. cbn in *. destruct (String.eqb s' s); [congruence|]. eapply Eg; eassumption.
Qed.

Lemma rpc_val_num : forall v x, is_real v x -> rpc_val v = Ok (RNum x).
Proof. intros v x H. destruct H; reflexivity. Qed.
Lemma rpc_val_nums : forall vs l, Forall2 is_real vs l -> rpc_val (PList vs) = Ok (RSeq l).
Proof. intros vs l H. cbn. rewrite (reals_mapM _ _ H). reflexivity. Qed.

Lemma items_rpc : forall items r, rpc_items items r -> exists d, rpc_dict (MV (PDict items)) = Ok d /\ means_rpc (RpcDict d) r.
Proof.
  intros items r (ND & Known & Errs & H). cbn [rpc_dict]. fold conv_item.
  repeat match type of H with _ /\ _ => let h := fresh "h" in destruct H as [h H] end. rename H into h13.
  assert (A : forall k v, In (k, v) items -> exists s u, k = KStr s /\ rpc_val v = Ok u).
  { intros k v Hkv. destruct (Known k) as (s & -> & Hs); [change k with (fst (k, v)); apply in_map, Hkv|]. exists s.
    pose proof (kget_in _ _ _ ND Hkv) as G. 
    assert (N : forall x, (exists v', kget (KStr s) items = Some v' /\ is_real v' x) -> exists u, KStr s = KStr s /\ rpc_val v = Ok u).
    { intros x (v' & G' & R'). assert (v' = v) by congruence. subst. eexists. split; [reflexivity|apply rpc_val_num, R']. }
    assert (NS : forall x, (exists vs, kget (KStr s) items = Some (PList vs) /\ Forall2 is_real vs x) -> exists u, KStr s = KStr s /\ rpc_val v = Ok u).
    { intros x (vs & G' & R'). assert (v = PList vs) by congruence. subst. eexists. split; [reflexivity|apply rpc_val_nums, R']. }
    repeat rewrite in_app_iff in Hs. destruct Hs as [Hs|[Hs|Hs]].
    - cbn in Hs. repeat (destruct Hs as [<-|Hs]; [eapply N; eassumption|]). contradiction.
    - cbn in Hs. repeat (destruct Hs as [<-|Hs]; [eapply NS; eassumption|]). contradiction.
    - destruct (Errs s v Hs G) as [->|(x & R')]; [eexists; split; reflexivity|eexists; split; [reflexivity|apply rpc_val_num, R']]. }
  destruct (conv_all items A) as (d & Ed & Ek & Eg). exists d. split; [exact Ed|].
  assert (N : forall k x, (exists v, kget (KStr k) items = Some v /\ is_real v x) -> dget k d = Some (RNum x)).
  { intros k x (v & G & R'). eapply Eg; [exact G|apply rpc_val_num, R']. }
  assert (NS : forall k x, (exists vs, kget (KStr k) items = Some (PList vs) /\ Forall2 is_real vs x) -> dget k d = Some (RSeq x)).
  { intros k x (v & G & R'). eapply Eg; [exact G|apply rpc_val_nums, R']. }
  cbn [means_rpc]. split; [split|].
  - intros k Hk. apply in_app_iff in Hk. destruct Hk as [Hk|Hk]; cbn in Hk.
    + repeat (destruct Hk as [<-|Hk]; [eapply dget_in, N; eassumption|]). contradiction.
    + repeat (destruct Hk as [<-|Hk]; [eapply dget_in, NS; eassumption|]). contradiction.
  - intros k Hk. destruct (Known (KStr k)) as (s & Es & Hs); [rewrite Ek; apply in_map, Hk|]. injection Es as ->. exact Hs.
  - unfold holds_rpc. cbv zeta. repeat split; (apply N; assumption) || (apply NS; assumption).
Qed.

Theorem create_rpc : forall kw w h r crs o, describes_rpc kw w h r ->
  exists d, means_rpc (RpcDict d) r /\
  create_camera kw crs o = bind (rpc_init w h (RpcDict d) o (match crs with Some c => c | None => CrsNone C end)) (fun c => Ok (MadeRpc c)).
Proof.
  intros kw w h r crs o (Known & (v & Ev & Hv) & (vs & Es & Hs) & items & Ei & Hi). destruct (items_rpc items r Hi) as (d & Ed & Hd). exists d. split; [exact Hd|].
  unfold create_camera, Make_Model.create_camera. rewrite Ev, (type_is v Crpc Hv). cbn [bind]. unfold make_rpc. rewrite bound.
  2:{ intros k Hk. apply rest_keys in Hk. destruct Hk as [Hk N]. specialize (Known k Hk). cbn in *. assert (N' : "cam_type" <> k) by congruence. tauto. }
  2:{ intros k Hk. apply rest_keys. cbn in Hk. destruct Hk as [<-|[<-|[]]]; (split; [eapply dget_in; eassumption|discriminate]). }
  cbn [bind]. unfold arg. rewrite !dget_rest by discriminate. rewrite Ei, Ed, Es, (size_is _ _ _ Hs). cbn [bind]. reflexivity.
Qed.

Theorem merged : forall a b,
  ((exists k, In k (map fst a) /\ In k (map fst b)) -> merge_kwargs a b = Err TypeError) /\
  ((forall k, In k (map fst a) -> ~ In k (map fst b)) -> exists kw, merge_kwargs a b = Ok kw /\
     (forall k, In k (map fst kw) <-> In k (map fst a) \/ In k (map fst b)) /\
     (forall k v, dget k kw = Some v <-> dget k a = Some v \/ dget k b = Some v)).
Proof.
  intros a b. unfold merge_kwargs. split.
  - intros (k & Ha & Hb). replace (existsb (fun kv => dmem (fst kv) a) b) with true; [reflexivity|]. symmetry. apply existsb_exists.
    apply in_map_iff in Hb. destruct Hb as (kv & <- & Hb). exists kv. split; [assumption|]. apply dmem_iff, Ha.
  - intros N. exists (a ++ b). split.
    { replace (existsb (fun kv => dmem (fst kv) a) b) with false; [reflexivity|]. symmetry. apply not_true_is_false. intros E. apply existsb_exists in E.
      destruct E as (kv & Hb & Ha). apply dmem_iff in Ha. apply (N _ Ha). apply in_map, Hb. }
    split; [intros k; rewrite map_app, in_app_iff; tauto|].
    assert (D : forall k, dget k (a ++ b) = match dget k a with Some v => Some v | None => dget k b end).
    { intros k. clear N. induction a as [|[n u] a IH]; [reflexivity|]. cbn. destruct (String.eqb k n); [reflexivity|exact IH]. }
    intros k v. rewrite D. destruct (dget k a) as [u|] eqn:E.
    + split; [auto|]. intros [H|H]; [exact H|]. exfalso. apply (N k); eapply dget_in; eassumption.
    + split; [auto|]. intros [H|H]; [discriminate|exact H].
Qed.
End Create.
