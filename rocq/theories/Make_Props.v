(** Property theorems: C95 cameras made from named parameters. *)
From Coq Require Import String List Reals QArith Qreals ZArith Lra Lia.
From Verif Require Import Py Flt Mat Rot_Spec Remap_Model Frame_Model Frame_Spec Rpc_Model Rpc_Spec Validate_Model Params_Model Cam_Model Cam_Spec Rcam_Model Rcam_Spec Rcam_Proof Proj_Spec
  Make_Model Make_Spec Make_Proof.
Import ListNotations.
Open Scope string_scope.
Open Scope list_scope.
Open Scope Z_scope.

Section Props.
Variable cv_surf : string -> arr fl -> fl * fl -> option fl.
Variable cast_nan : string -> fl.
Variable cv_image : string -> arr pix -> fl * fl -> option pix.
Variable convert : string -> string -> pix -> pix.
Notation do_call := (do_call cv_surf cast_nan cv_image convert).
Notation run_calls := (run_calls cv_surf cast_nan cv_image convert).
Variable cv_project cv_undistort fish_undistort : intr -> list R -> R * R -> R * R.
Variable C : Type.
Variable parse_crs : string -> res C.
Variable rpc_crs : C.
Variable O : Type.
Variable no_options : O.
Variable warp : C -> C -> list vec -> list vec.
Notation create_camera := (create_camera cv_project cv_undistort fish_undistort C parse_crs rpc_crs O no_options warp).

(** OpenCV: [projectPoints] applies its documented distortion model, and [undistortPoints] depends on the coefficients only, not on how
    many zeros are given. *)
Hypothesis cv_projects : forall K d xy b, In (List.length d) [4; 5; 8; 12; 14]%nat -> opencv_distorts (cv_coefs d) xy b -> num2 (cv_project K d xy) = to_pixel K b.
Hypothesis cv_undistorts : forall K d d' p, In (List.length d) [4; 5; 8; 12; 14]%nat -> In (List.length d') [4; 5; 8; 12; 14]%nat ->
  (forall k, cv_coefs d k = cv_coefs d' k) -> cv_undistort K d p = cv_undistort K d' p.

(** C95: a frame camera that is made from named parameters images each point by these parameters, after any history of calls on it: with the lens
    of its type, with its coefficients, and without distortion as a pinhole camera: for the pinhole type that with the given parameters, for others that of the
    last alpha. *)
Theorem C95_frame_camera : forall kw c p d a, describes kw c p d a -> usable c -> refused p = false ->
  exists cam, create_camera kw None None = Ok (MadeFrame cam) /\
  forall ks x y z o ph k, pose_after ks p = (Some [x; y; z], Some [o; ph; k]) ->
  let pixel X q := snd (do_call (run_calls cam ks) (WorldToPixel (one_point (num3 X)))) = Ok (VPixels [q]) in
  (forall X, beside (V3 x y z) o ph k X -> pixel X (Nan, Nan)) /\
  (distort_after ks d = true -> forall X q, images c (V3 x y z) o ph k X q -> pixel X q) /\
  (distort_after ks d = false -> exists K, (in_type c = Cpinhole -> pixel_intr c K) /\
     (in_type c <> Cpinhole -> exists f, lens_inverse cv_undistort fish_undistort c f /\ undistorted f (in_w c) (in_h c) (alpha_after ks a) K) /\
     forall X v, seen_at (V3 x y z) o ph k v X -> vz v <> 0%R -> pixel X (to_pixel K (vx v / vz v, vy v / vz v)%R)).
Proof.
  intros kw c p d a D U Rp. destruct (made_images cv_surf cast_nan cv_image convert cv_project cv_undistort fish_undistort cv_projects cv_undistorts kw c p d a D U Rp) as (cam & E & A).
  exists cam. split; [|exact A]. destruct (d_type _ _ _ _ _ D) as (v & Ev & Hv).
  rewrite (create_frame cv_project cv_undistort fish_undistort C parse_crs rpc_crs O no_options warp kw v (in_type c) Ev Hv (d_frame _ _ _ _ _ D)), E. reflexivity.
Qed.

(** C95: no camera is made without a type or with an unknown one, nor with names that the type does not have or without the ones it needs. *)
Theorem C95_refused : forall kw crs o,
  (~ In "cam_type" (map fst kw) -> create_camera kw crs o = Err TypeError) /\
  (forall v, dget "cam_type" kw = Some v -> (forall t, ~ names_type v t) -> create_camera kw crs o = Err ValueError) /\
  (forall v t, dget "cam_type" kw = Some v -> names_type v t -> t <> Crpc ->
     (exists k, In k (map fst kw) /\ ~ keyword t k) \/ ~ In "im_size" (map fst kw) \/ ~ In "focal_len" (map fst kw) \/ crs <> None \/ o <> None ->
     create_camera kw crs o = Err TypeError) /\
  (forall v, dget "cam_type" kw = Some v -> names_type v Crpc ->
     (exists k, In k (map fst kw) /\ ~ In k ["cam_type"; "im_size"; "rpc"]) \/ ~ In "im_size" (map fst kw) \/ ~ In "rpc" (map fst kw) ->
     create_camera kw crs o = Err TypeError).
Proof. exact (create_refused cv_project cv_undistort fish_undistort C parse_crs rpc_crs O no_options warp). Qed.

(** C95: parameters and extra options are joined; a name in both is a TypeError. *)
Theorem C95_joined : forall a b,
  ((exists k, In k (map fst a) /\ In k (map fst b)) -> merge_kwargs a b = Err TypeError) /\
  ((forall k, In k (map fst a) -> ~ In k (map fst b)) -> exists kw, merge_kwargs a b = Ok kw /\
     (forall k, In k (map fst kw) <-> In k (map fst a) \/ In k (map fst b)) /\
     (forall k v, dget k kw = Some v <-> dget k a = Some v \/ dget k b = Some v)).
Proof. exact (merged C parse_crs rpc_crs warp). Qed.

(** GDAL transforms points one by one. *)
Variable warp1 : C -> C -> vec -> vec.
Hypothesis warp_pointwise : forall a b l, warp a b l = map (warp1 a b) l.

(** C95: an RPC camera has the parameters of its dictionary, by name. *)
Theorem C95_rpc_camera : forall kw w h r o crs crs', describes_rpc kw w h r ->
  asks_crs parse_crs (match crs with Some c => c | None => CrsNone C end) crs' ->
  (forall c, crs' = Some c -> keeps_heights (warp1 rpc_crs c) r) ->
  exists c, create_camera kw crs o = Ok (MadeRpc c) /\ rc_w _ _ c = w /\ rc_h _ _ c = h /\ rc_rpc _ _ c = r /\
  rc_options _ _ c = match o with Some o => o | None => no_options end /\
  camera_crs C rpc_crs O c = match crs' with Some c => c | None => rpc_crs end.
Proof.
  intros kw w h r o crs crs' D A H. destruct (create_rpc cv_project cv_undistort fish_undistort C parse_crs rpc_crs O no_options warp kw w h r crs o D) as (d & M & E).
  destruct (init_ok C parse_crs rpc_crs O no_options warp warp1 warp_pointwise w h (RpcDict d) r o _ crs' M A H) as (c & Ec & Rest). exists c. split; [|exact Rest].
  rewrite E, Ec. reflexivity.
Qed.
End Props.

Print Assumptions C95_frame_camera.
Print Assumptions C95_refused.
Print Assumptions C95_joined.
Print Assumptions C95_rpc_camera.

(** * Cases *)

(** A function that is OpenCV's model, and one that takes no account of coefficients. *)
Definition demo_tilt (tx ty : R) (a : R * R) : R * R :=
  let u := (cos ty * fst a + sin ty * sin tx * snd a - sin ty * cos tx)%R in
  let v := (cos tx * snd a + sin tx)%R in
  let s := (sin ty * fst a - cos ty * sin tx * snd a + cos ty * cos tx)%R in
  ((cos ty * cos tx * u + sin ty * cos tx * s) / s, (cos ty * cos tx * v - sin tx * s) / s)%R.
Definition demo_project (K : intr) (d : list R) (xy : R * R) : R * R :=
  k_apply K (demo_tilt (cv_coefs d "tx") (cv_coefs d "ty") (opencv_distort (map (cv_coefs d) ["k1"; "k2"; "p1"; "p2"; "k3"; "k4"; "k5"; "k6"; "s1"; "s2"; "s3"; "s4"]) xy)).

Lemma demo_projects : forall K d xy b, opencv_distorts (cv_coefs d) xy b -> num2 (demo_project K d xy) = to_pixel K b.
Proof.
  intros K d [x y] [bx by'] H. unfold opencv_distorts in H. destruct H as (_ & Ns & B1 & B2). unfold demo_project, to_pixel, num2, k_apply, demo_tilt. cbn [fst snd] in *.
  unfold opencv_distort, coeff. cbn [map nth fst snd].
  match type of Ns with ?s <> _ => set (S := s) in * end.
  replace bx with (S * bx / S)%R by (field; exact Ns). replace by' with (S * by' / S)%R by (field; exact Ns). rewrite B1, B2. reflexivity.
Qed.

(** A Brown camera with an integer image size, a float focal length, one coefficient and no other. *)
Definition demo_kw : dict mval :=
  [("cam_type", MV (PStr "brown")); ("im_size", MTup [PInt 4; PInt 3]); ("focal_len", MV (PFloat (5 # 10)));
   ("sensor_size", MV (PList [PInt 2; PFloat (3 # 2)])); ("k1", MV (PFloat (1 # 2))); ("distort", MV (PBool true))].
Definition demo_interior : interior := Interior Cbrown 4 3 (Q2R (5 # 10)) (Q2R (5 # 10)) (Some (2, Q2R (3 # 2))%R) 0 0 (fun k => if String.eqb k "k1" then Q2R (1 # 2) else 0%R).

Lemma demo_described : describes demo_kw demo_interior (None, None) true 1.
Proof.
  split; cbn [demo_interior in_type in_w in_h in_fx in_fy in_sensor in_cx in_cy in_coef fst snd].
  - discriminate.
  - intros k Hk. cbn in Hk. unfold keyword, coefficient. cbn. tauto.
  - eexists. split; [reflexivity|]. right. exists "brown". auto.
  - eexists. split; [reflexivity|]. auto.
  - eexists. split; [reflexivity|]. left. eexists. split; [reflexivity|]. split; [constructor|reflexivity].
  - cbn. eexists. split; [reflexivity|]. eexists. split; [right; reflexivity|]. repeat constructor.
  - reflexivity.
  - reflexivity.
  - intros k Hk. cbn in Hk. repeat (destruct Hk as [<-|Hk]; [cbn; try reflexivity; try (eexists; split; [reflexivity|constructor])|]). contradiction.
  - intros k Hk. destruct (String.eqb_spec k "k1") as [->|_]; [exfalso; apply Hk; cbn; tauto|reflexivity].
  - reflexivity.
  - reflexivity.
  - reflexivity.
  - reflexivity.
Qed.

Lemma demo_usable : usable demo_interior.
Proof.
  unfold usable, demo_interior. cbn. unfold Q2R. cbn. repeat split; try lia; try lra.
  - injection H as <- <-. lra.
  - injection H as <- <-. lra.
Qed.

(** At (10, 20, 100), looking down, it images a point 50 below that is 50 to the right at the pixel 1 * (1 + 1 / 2) right of its centre. *)
Example C95_case : exists cam, create_camera demo_project (fun _ _ p => p) (fun _ _ p => p) unit (fun _ => Ok tt) tt unit tt (fun _ _ l => l) demo_kw None None = Ok (MadeFrame cam) /\
  exists j i, snd (do_call (fun _ _ _ => None) (fun _ => Nan) (fun _ _ _ => None) (fun _ _ v => v)
    (run_calls (fun _ _ _ => None) (fun _ => Nan) (fun _ _ _ => None) (fun _ _ v => v) cam [UpdateC (Some [10; 20; 100]%R) (Some [0; 0; 0]%R)])
    (WorldToPixel (one_point (num3 (V3 60 20 50))))) = Ok (VPixels [(Num j, Num i)]) /\ j = 3%R /\ i = 1%R.
Proof.
  destruct (C95_frame_camera (fun _ _ _ => None) (fun _ => Nan) (fun _ _ _ => None) (fun _ _ v => v) demo_project (fun _ _ p => p) (fun _ _ p => p) unit (fun _ => Ok tt) tt unit tt (fun _ _ l => l)
    (fun K d xy b _ => demo_projects K d xy b) (fun _ _ _ _ _ _ _ => eq_refl) _ _ _ _ _ demo_described demo_usable eq_refl) as (cam & E & A).
  exists cam. split; [exact E|]. destruct (A [UpdateC (Some [10; 20; 100]%R) (Some [0; 0; 0]%R)] _ _ _ _ _ _ eq_refl) as (_ & B & _).
  exists 3%R, 1%R. split; [|auto]. apply (B eq_refl).
  exists (Intr 1 1 (3 / 2) 1), (V3 50 0 50), (3 / 2, 0)%R. unfold pixel_intr, demo_interior. cbn [in_sensor in_w in_h in_fx in_fy in_cx in_cy kfx kfy kcx kcy].
  split; [unfold Q2R; cbn; repeat split; lra|]. split.
  { unfold seen_at, turned, about_x, about_y, about_z, vadd. cbn. rewrite cos_0, sin_0. f_equal; ring. }
  cbn [vx vy vz]. split; [lra|]. split.
  - unfold distorts, opencv_distorts. cbn. unfold tilted. cbn [fst snd]. rewrite cos_0, sin_0. unfold Q2R. cbn. repeat split; try lra; field.
  - unfold to_pixel. cbn. f_equal; f_equal; lra.
Qed.

(** RPC parameters by name, in an arbitrary order, integers and floats. *)
Definition demo_coeffs (i : nat) : list Z := map (fun n => if Nat.eqb n i then 1 else 0) (seq 0 20).
Definition demo_items : list (pykey * pyval) :=
  [(KStr "err_bias", PNone); (KStr "line_off", PInt 7); (KStr "samp_off", PInt 3); (KStr "lat_off", PFloat (-5 # 2)); (KStr "long_off", PInt 24); (KStr "height_off", PInt 100);
   (KStr "line_scale", PInt 10); (KStr "samp_scale", PInt 11); (KStr "lat_scale", PFloat (1 # 4)); (KStr "long_scale", PInt 2); (KStr "height_scale", PInt 500);
   (KStr "line_num_coeff", PList (map PInt (demo_coeffs 2))); (KStr "line_den_coeff", PList (map PInt (demo_coeffs 0)));
   (KStr "samp_num_coeff", PList (map PInt (demo_coeffs 1))); (KStr "samp_den_coeff", PList (map PInt (demo_coeffs 0)))].
Definition demo_rpc : rpc := Rpc 24 (Q2R (-5 # 2)) 100 2 (Q2R (1 # 4)) 500 3 7 11 10
  (map IZR (demo_coeffs 1)) (map IZR (demo_coeffs 0)) (map IZR (demo_coeffs 2)) (map IZR (demo_coeffs 0)).
Definition demo_rpc_kw : dict mval := [("cam_type", MCam Crpc); ("im_size", MTup [PInt 20; PInt 30]); ("rpc", MV (PDict demo_items))].

Example C95_rpc_case : describes_rpc demo_rpc_kw 20 30 demo_rpc /\ (forall f : vec -> vec, (forall v, f v = v) -> keeps_heights f demo_rpc).
Proof.
  split.
  - split; [intros k Hk; cbn in Hk |- *; tauto|]. split; [eexists; split; [reflexivity|left; reflexivity]|]. split; [eexists; split; [reflexivity|left; reflexivity]|].
    exists demo_items. split; [reflexivity|].
    assert (L : forall l, Forall2 is_real (map PInt l) (map IZR l)) by (induction l; cbn; constructor; [constructor|assumption]).
    unfold rpc_items. cbv zeta. split; [cbn; repeat constructor; cbn; intuition discriminate|].
    split; [intros k Hk; cbn in Hk; repeat (destruct Hk as [<-|Hk]; [eexists; split; [reflexivity|cbn; tauto]|]); contradiction|].
    split; [intros s v Hs E; cbn in Hs; repeat (destruct Hs as [<-|Hs]; [cbn in E; try discriminate; injection E as <-; auto|]); contradiction|].
    repeat split; try (eexists; split; [reflexivity|exact (real_int _) || exact (real_float _)]); eexists; (split; [reflexivity|apply L]).
  - intros f H h _. rewrite H. reflexivity.
Qed.
