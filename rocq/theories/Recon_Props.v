(** Property theorems: C106 OpenSfM reconstructions to pixels. *)
From Coq Require Import String List Reals QArith Qreals ZArith Lra Lia.
From Verif Require Import Py Flt Mat Remap_Model Frame_Model Validate_Model Params_Model Params_Spec Cam_Model Proj_Spec Make_Spec Make_Props Tags_Spec Exif_Model Csv_Model Factory_Model
  Scene_Spec Photo_Spec Recon_Model Recon_Spec Recon_Proof.
From Verif Require Factory_Spec Validate_Spec Photo_Proof.
Import ListNotations.
Open Scope string_scope.
Open Scope list_scope.

Section Props.
Variable cv_surf : string -> arr fl -> fl * fl -> option fl.
Variable cast_nan : string -> fl.
Variable cv_image : string -> arr pix -> fl * fl -> option pix.
Variable convert : string -> string -> pix -> pix.
Variable cv_project cv_undistort fish_undistort : intr -> list R -> R * R -> R * R.
Variable C : Type.
Variables is_projected is_geographic : C -> bool.
Variable epsg : Z -> C.
Variable transform : C -> C -> vec -> vec.
Variable rodrigues : vec -> mat.
Notation recon_factory := (recon_factory C is_projected is_geographic epsg transform rodrigues).
Notation recon_camera := (recon_camera cv_project cv_undistort fish_undistort).
Notation use obj call := (snd (do_call cv_surf cast_nan cv_image convert (recon_object cv_surf cast_nan cv_image convert obj) call)).

(** OpenCV, as for C96; and its [Rodrigues] is Rodrigues' formula. *)
Hypothesis cv_projects : forall K d xy b, In (List.length d) [4; 5; 8; 12; 14]%nat -> opencv_distorts (cv_coefs d) xy b -> num2 (cv_project K d xy) = to_pixel K b.
Hypothesis cv_undistorts : forall K d d' p, In (List.length d) [4; 5; 8; 12; 14]%nat -> In (List.length d') [4; 5; 8; 12; 14]%nat ->
  (forall k, cv_coefs d k = cv_coefs d' k) -> cv_undistort K d p = cv_undistort K d' p.
Hypothesis cv_rotates : forall r X, rotated r X (mvec (rodrigues r) X).

(** C106: a factory is made for the first reconstruction of a file, in the CRS that is given or the UTM CRS of its reference position; and for each of its images, whatever was
    asked before, the camera that is got images points by the translation and rotation of that image from the reference position, and the interior parameters of its camera:
    points beside it at NaN, and others through the distortion, or without it by the intrinsics of the undistorted image. *)
Theorem C106_pixels : forall first rest rc crs o l kwargs d, recon_in first rc -> Forall (fun v => exists rc', recon_in v rc') rest ->
  crs_given is_projected crs o -> is_geographic l = true -> options kwargs d ->
  exists fac world, recon_factory crs (ACrs l) (PList (first :: rest)) = Ok (fac, world) /\
  match o with Some c => world = c | None => exists code, utm_of (rc_lat rc) (rc_lon rc) code /\ world = epsg code end /\
  forall name s c history, rshot_of (rc_shots rc) name s -> rcamera_of (rc_cams rc) s c -> usable c -> not_locked (rs_r s) ->
  let st := frame_run (recon_camera kwargs) history fac in
  exists i obj, snd (frame_get (recon_camera kwargs) name st) = Ok i /\ nth_error (f_heap (fst (frame_get (recon_camera kwargs) name st))) i = Some obj /\
  let origin := transform l world (V3 (rc_lon rc) (rc_lat rc) (rc_alt rc)) in
  let pixel X q := use obj (WorldToPixel (one_point (num3 X))) = Ok (VPixels [q]) in
  (forall X v, osfm_seen origin (rs_t s) (rs_r s) X v -> vz v = 0%R -> pixel X (Nan, Nan)) /\
  (d = true -> forall X v K b, osfm_seen origin (rs_t s) (rs_r s) X v -> vz v <> 0%R -> pixel_intr c K -> distorts c (vx v / vz v, vy v / vz v)%R b -> pixel X (to_pixel K b)) /\
  (d = false -> exists K a, number_at kwargs "alpha" 1 a /\ (in_type c = Cpinhole -> pixel_intr c K) /\
     (in_type c <> Cpinhole -> exists f, lens_inverse cv_undistort fish_undistort c f /\ undistorted f (in_w c) (in_h c) a K) /\
     forall X v, osfm_seen origin (rs_t s) (rs_r s) X v -> vz v <> 0%R -> pixel X (to_pixel K (vx v / vz v, vy v / vz v)%R)).
Proof.
  intros first rest rc crs o l kwargs d. exact (recon_pixels cv_surf cast_nan cv_image convert cv_project cv_undistort fish_undistort cv_projects cv_undistorts C is_projected is_geographic epsg
    transform rodrigues first rest rc crs o l kwargs d cv_rotates).
Qed.

(** C106: for images that are not higher than wide, pixels are OpenSfM's. *)
Theorem C106_landscape : forall first rest rc crs o l kwargs fac world, recon_in first rc -> Forall (fun v => exists rc', recon_in v rc') rest ->
  crs_given is_projected crs o -> is_geographic l = true -> options kwargs true -> recon_factory crs (ACrs l) (PList (first :: rest)) = Ok (fac, world) ->
  forall name s c history, rshot_of (rc_shots rc) name s -> rcamera_of (rc_cams rc) s c -> usable c -> (in_h c <= in_w c)%Z -> not_locked (rs_r s) ->
  let st := frame_run (recon_camera kwargs) history fac in
  exists i obj, snd (frame_get (recon_camera kwargs) name st) = Ok i /\ nth_error (f_heap (fst (frame_get (recon_camera kwargs) name st))) i = Some obj /\
  forall X v K b, osfm_seen (transform l world (V3 (rc_lon rc) (rc_lat rc) (rc_alt rc))) (rs_t s) (rs_r s) X v -> vz v <> 0%R ->
  osfm_intr c K -> distorts c (vx v / vz v, vy v / vz v)%R b -> use obj (WorldToPixel (one_point (num3 X))) = Ok (VPixels [to_pixel K b]).
Proof.
  intros first rest rc crs o l kwargs fac world H Hr Hc Hl Ho Ef name s c history Hs Hcam U L Nl.
  destruct (C106_pixels first rest rc crs o l kwargs true H Hr Hc Hl Ho) as (fac' & world' & Ef' & _ & P). rewrite Ef in Ef'. injection Ef' as <- <-.
  destruct (P name s c history Hs Hcam U Nl) as (i & obj & G & Nt & _ & A & _). exists i, obj. split; [exact G|]. split; [exact Nt|]. intros X v K b Hv Nv HK Hb.
  exact (A eq_refl X v K b Hv Nv (landscape_intr c K (no_sensor _ _ _ _ H Hcam) L HK) Hb).
Qed.

(** C106: for images that are higher than wide they are not, except at the principal point. *)
Theorem C106_portrait_refuted : forall first rest rc crs o l kwargs fac world, recon_in first rc -> Forall (fun v => exists rc', recon_in v rc') rest ->
  crs_given is_projected crs o -> is_geographic l = true -> options kwargs true -> recon_factory crs (ACrs l) (PList (first :: rest)) = Ok (fac, world) ->
  forall name s c history, rshot_of (rc_shots rc) name s -> rcamera_of (rc_cams rc) s c -> usable c -> (in_w c < in_h c)%Z -> not_locked (rs_r s) ->
  let st := frame_run (recon_camera kwargs) history fac in
  exists i obj, snd (frame_get (recon_camera kwargs) name st) = Ok i /\ nth_error (f_heap (fst (frame_get (recon_camera kwargs) name st))) i = Some obj /\
  forall X v K b, osfm_seen (transform l world (V3 (rc_lon rc) (rc_lat rc) (rc_alt rc))) (rs_t s) (rs_r s) X v -> vz v <> 0%R ->
  osfm_intr c K -> distorts c (vx v / vz v, vy v / vz v)%R b -> b <> (0, 0)%R -> use obj (WorldToPixel (one_point (num3 X))) <> Ok (VPixels [to_pixel K b]).
Proof.
  intros first rest rc crs o l kwargs fac world H Hr Hc Hl Ho Ef name s c history Hs Hcam U L Nl.
  destruct (C106_pixels first rest rc crs o l kwargs true H Hr Hc Hl Ho) as (fac' & world' & Ef' & _ & P). rewrite Ef in Ef'. injection Ef' as <- <-.
  destruct (P name s c history Hs Hcam U Nl) as (i & obj & G & Nt & _ & A & _). exists i, obj. split; [exact G|]. split; [exact Nt|]. intros X v K b Hv Nv HK Hb Nb E.
  destruct (intr_of c) as (K' & HK'). rewrite (A eq_refl X v K' b Hv Nv HK' Hb) in E. apply (portrait_intr c K K' b (no_sensor _ _ _ _ H Hcam) U L HK HK' Nb). injection E as E1 E2.
  unfold to_pixel. rewrite E1, E2. reflexivity.
Qed.

(** C106: another CRS than a projected one, or a geographic CRS that is not one, is a CRS error whatever the file; a file that is not in the format is a parameter error;
    and with no geographic CRS at all there is no factory. *)
Theorem C106_errors : forall crs lla_crs doc,
  ((forall o, ~ crs_given is_projected crs o) \/ (forall o, ~ crs_given is_geographic lla_crs o) -> recon_factory crs lla_crs doc = Err CrsError) /\
  (forall o o', crs_given is_projected crs o -> crs_given is_geographic lla_crs o' -> ~ Validate_Spec.conforms osfm_schema doc -> recon_factory crs lla_crs doc = Err ParamError) /\
  (lla_crs = NoCrs -> forall r, recon_factory crs lla_crs doc <> Ok r).
Proof. exact (recon_errors C is_projected is_geographic epsg transform rodrigues). Qed.
End Props.

Print Assumptions C106_pixels.
Print Assumptions C106_landscape.
Print Assumptions C106_portrait_refuted.
Print Assumptions C106_errors.

(** * Case *)

(** Rodrigues' formula as a matrix. *)
Definition demo_rodrigues (r : vec) : mat :=
  let a := sqrt (dot r r) in
  if Req_EM_T a 0 then mI else
  let s := (sin a / a)%R in let k := ((1 - cos a) / (a * a))%R in
  let '(V3 x y z) := r in
  M3 (V3 (cos a + k * x * x) (k * x * y - s * z) (k * x * z + s * y))
     (V3 (k * y * x + s * z) (cos a + k * y * y) (k * y * z - s * x))
     (V3 (k * z * x - s * y) (k * z * y + s * x) (cos a + k * z * z)).

Lemma demo_rotates : forall r X, rotated r X (mvec (demo_rodrigues r) X).
Proof.
  intros [x y z] [X Y Z]. unfold rotated, demo_rodrigues. destruct (Req_EM_T _ 0) as [E|E].
  - split; [|contradiction]. intros _. unfold mvec, dot, mI, mk. cbn [vx vy vz row0 row1 row2]. f_equal; ring.
  - split; [contradiction|]. intros _. generalize (sin (sqrt (dot (V3 x y z) (V3 x y z))) / sqrt (dot (V3 x y z) (V3 x y z)))%R
      ((1 - cos (sqrt (dot (V3 x y z) (V3 x y z)))) / (sqrt (dot (V3 x y z) (V3 x y z)) * sqrt (dot (V3 x y z) (V3 x y z))))%R (cos (sqrt (dot (V3 x y z) (V3 x y z)))).
    intros s k c. unfold mvec, vadd, vscale, cross, dot. cbn [vx vy vz row0 row1 row2]. f_equal; ring.
Qed.

(** A file with one camera, and an image 20 m below the reference position, that looks up. *)
Definition recon_cam : list (pykey * pyval) :=
  [(KStr "projection_type", PStr "Brown"); (KStr "width", PInt 4); (KStr "height", PInt 2); (KStr "focal_x", PFloat 1); (KStr "focal_y", PInt 2); (KStr "c_x", PFloat 0); (KStr "k1", PInt 4)].
Definition recon_floats (a b c : Q) : pyval := PList [PFloat a; PFloat b; PFloat c].
Definition recon_doc : pyval := PDict
  [(KStr "cameras", PDict [(KStr "v2 dji", PDict recon_cam)]);
   (KStr "shots", PDict [(KStr "a.jpg", PDict [(KStr "rotation", recon_floats 0 0 0); (KStr "translation", recon_floats 0 0 20); (KStr "camera", PStr "v2 dji")]);
                         (KStr "b.jpg", PDict [(KStr "rotation", recon_floats 1 0 0); (KStr "translation", recon_floats 5 5 5); (KStr "camera", PStr "v2 dji")])]);
   (KStr "reference_lla", PDict [(KStr "latitude", PFloat (-33)); (KStr "longitude", PFloat 19); (KStr "altitude", PFloat 30)])].
Definition recon_interior : Make_Spec.interior := {| in_type := Cbrown; in_w := 4; in_h := 2; in_fx := Q2R 1; in_fy := 2; in_sensor := None; in_cx := Q2R 0; in_cy := 0; in_coef := fun k => if String.eqb k "k1" then 4%R else 0%R |}.
Definition recon_shot (n : string) (t r : Q * Q * Q) : rshot :=
  let '(a, b, c) := t in let '(x, y, z) := r in RShot n "dji" (V3 (Q2R a) (Q2R b) (Q2R c)) (V3 (Q2R x) (Q2R y) (Q2R z)).
Definition recon_demo : recon :=
  Recon [("dji", recon_interior)] [recon_shot "a.jpg" (0, 0, 20)%Q (0, 0, 0)%Q; recon_shot "b.jpg" (5, 5, 5)%Q (1, 0, 0)%Q] (Q2R (-33)) (Q2R 19) (Q2R 30).

Lemma recon_demo_in : recon_in recon_doc recon_demo.
Proof.
  split; [|split].
  - eexists. split; [eexists; split; reflexivity|]. split; [repeat constructor; intros []|]. repeat constructor. exists "v2 dji", recon_cam. split; [reflexivity|]. split; [left; reflexivity|].
    split; try reflexivity.
    + cbn. repeat constructor; cbn; intuition discriminate.
    + intros k v Hin. cbn in Hin. repeat (destruct Hin as [E|Hin]; [injection E as <- <-; eexists; split; [reflexivity|unfold optional_param; cbn; tauto]|]). destruct Hin.
    + exists "Brown", "brown". split; [reflexivity|]. split; [|constructor]. apply AC_upper; [cbn; lia|reflexivity|]. repeat (apply AC_same; [cbn; lia|]). constructor.
    + right. exists (PFloat 1), (PInt 2). cbn. repeat (split; [first [reflexivity|constructor]|]). apply (real_int 2).
    + split; reflexivity.
    + cbn. apply (real_float 0).
    + intros k Hk. cbn in Hk. repeat (destruct Hk as [<-|Hk]; [cbn; first [reflexivity|constructor]|]). destruct Hk.
    + intros k Hk. cbn. destruct (String.eqb k "k1") eqn:E; [|reflexivity]. apply String.eqb_eq in E. subst. exfalso. apply Hk. cbn. tauto.
  - eexists. split; [eexists; split; reflexivity|]. split; [cbn; repeat constructor; cbn; intuition discriminate|].
    repeat constructor; exists "v2 dji"; eexists; eexists; eexists; (split; [reflexivity|]); (split; [left; reflexivity|]); (split; [eexists; split; reflexivity|]); (split; [eexists; split; reflexivity|]);
      (split; [eexists; eexists; eexists; split; reflexivity|]); (split; [eexists; split; reflexivity|]); eexists; eexists; eexists; split; reflexivity.
  - eexists; eexists; eexists; eexists. split; [eexists; split; reflexivity|]. split; [eexists; split; reflexivity|]. split; [eexists; split; reflexivity|].
    split; [eexists; split; reflexivity|]. split; [eexists; split; reflexivity|]. split; [eexists; split; reflexivity|]. eexists; split; reflexivity.
Qed.

(** The camera of "a.jpg", asked for after "b.jpg" (which has the same camera), images a point 10 m east of the reference position at (5.5, 0.5), 20 m in front of it; and points are
    in UTM zone 34 south. *)
Example C106_case : exists fac i obj,
  let create := recon_camera demo_project (fun _ _ p => p) (fun _ _ p => p) [] in
  recon_factory Z (fun _ => true) (Z.eqb 4979) (fun code => code) (fun _ _ _ => V3 1000 2000 30) demo_rodrigues NoCrs (ACrs 4979%Z) (PList [recon_doc]) = Ok (fac, 32734%Z) /\
  let st := frame_run create ["b.jpg"] fac in
  snd (frame_get create "a.jpg" st) = Ok i /\ nth_error (f_heap (fst (frame_get create "a.jpg" st))) i = Some obj /\
  exists x y, snd (do_call (fun _ _ _ => None) (fun _ => Nan) (fun _ _ _ => None) (fun _ _ v => v)
    (recon_object (fun _ _ _ => None) (fun _ => Nan) (fun _ _ _ => None) (fun _ _ v => v) obj) (WorldToPixel (one_point (num3 (V3 1010 2000 30))))) = Ok (VPixels [(Num x, Num y)]) /\
  x = (11 / 2)%R /\ y = (1 / 2)%R.
Proof.
  destruct (C106_pixels (fun _ _ _ => None) (fun _ => Nan) (fun _ _ _ => None) (fun _ _ v => v) demo_project (fun _ _ p => p) (fun _ _ p => p) Z (fun _ => true) (Z.eqb 4979) (fun code => code)
    (fun _ _ _ => V3 1000 2000 30) demo_rodrigues (fun K d xy b _ => demo_projects K d xy b) (fun _ _ _ _ _ _ _ => eq_refl) demo_rotates
    recon_doc [] recon_demo NoCrs None 4979%Z [] true recon_demo_in (Forall_nil _) (or_introl (conj eq_refl eq_refl)) eq_refl no_options) as (fac & world & Ef & (code & U & Ew) & P).
  assert (Ec : world = 32734%Z).
  { rewrite Ew. apply (Photo_Proof.utm_unique _ _ _ _ U). exists 34%Z. split; [lia|]. split; [exists 0%Z; cbn; unfold Q2R; cbn; lra|]. split; [cbn; unfold Q2R; cbn; lra|reflexivity]. }
  rewrite Ec in Ef. clear Ec Ew. destruct (P "a.jpg" (recon_shot "a.jpg" (0, 0, 20)%Q (0, 0, 0)%Q) recon_interior ["b.jpg"]) as (i & obj & G & Nt & _ & A & _).
  - apply r_same_name; [left; reflexivity|reflexivity].
  - apply r_with_id; [discriminate|left; reflexivity].
  - unfold usable, recon_interior. cbn [in_w in_h in_fx in_fy in_sensor]. unfold Q2R. cbn [Qnum Qden]. repeat split; try lia; try discriminate; lra.
  - intros e (H & _). assert (Z0 : sqrt (dot (rs_r (recon_shot "a.jpg" (0, 0, 20)%Q (0, 0, 0)%Q)) (rs_r (recon_shot "a.jpg" (0, 0, 20)%Q (0, 0, 0)%Q))) = 0%R).
    { unfold dot. cbn. unfold Q2R. cbn. etransitivity; [|exact sqrt_0]. f_equal. lra. }
    rewrite (H Z0). cbn. rewrite Rabs_R0. lra.
  - exists fac, i, obj. split; [exact Ef|]. split; [exact G|]. split; [exact Nt|].
    exists (4 * 1 + 3 / 2)%R, (8 * 0 + 1 / 2)%R. split; [|split; lra].
    apply (A eq_refl (V3 1010 2000 30) (V3 10 0 20) (Intr 4 8 (3 / 2) (1 / 2)) (1, 0)%R).
    + exists (V3 10 0 0). split.
      * split.
        { intros _. unfold vsub. cbn. f_equal; lra. }
        { intros Na. exfalso. apply Na. unfold dot. cbn. unfold Q2R. cbn. etransitivity; [|exact sqrt_0]. f_equal. lra. }
      * unfold vadd. cbn. unfold Q2R. cbn. f_equal; lra.
    + cbn. lra.
    + unfold pixel_intr, recon_interior. cbn [in_sensor in_w in_h in_fx in_fy in_cx in_cy kfx kfy kcx kcy]. unfold Q2R. cbn. repeat split; lra.
    + unfold distorts, opencv_distorts. cbn. unfold tilted. cbn [fst snd]. rewrite cos_0, sin_0. repeat split; try lra; field.
Qed.
