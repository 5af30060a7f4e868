(** Proofs about camera calls. *)
From Coq Require Import String List Reals ZArith Bool Lia Lra.
From Verif Require Import Py Py_Proof Flt Mat Grid_Model Grid_Proof Remap_Model Remap_Proof Rot_Model Rot_Proof Frame_Model Frame_Spec Frame_Proof Undist_Model Undist_Proof Bound_Model Bound_Spec
  Bound_Proof Cam_Model Cam_Spec.
Import ListNotations.
Open Scope string_scope.
Open Scope list_scope.
Open Scope Z_scope.

(** * Histories *)
Section History.
Variable cv_surf : string -> arr fl -> fl * fl -> option fl.
Variable cast_nan : string -> fl.
Variable cv_image : string -> arr pix -> fl * fl -> option pix.
Variable convert : string -> string -> pix -> pix.
Notation do_call := (do_call cv_surf cast_nan cv_image convert).
Notation run_calls := (run_calls cv_surf cast_nan cv_image convert).

(** The state has the maps, intrinsics and settings of a new camera, apart from maps that are not made yet. *)
Definition like (c c1 : fcam) : Prop :=
  fc_pinhole c = fc_pinhole c1 /\ fc_lens c = fc_lens c1 /\ fc_w c = fc_w c1 /\ fc_h c = fc_h c1 /\
  s_alpha (fc_st c) = s_alpha (fc_st c1) /\ s_ku (fc_st c) = s_ku (fc_st c1) /\ s_distort (fc_st c) = s_distort (fc_st c1) /\
  s_ext (fc_st c) = s_ext (fc_st c1) /\ s_maps (fc_st c1) = None /\
  (s_maps (fc_st c) = None \/ (fc_pinhole c = false /\ s_maps (fc_st c) = Some (undistort_maps (fc_lens c) (s_ku (fc_st c))))).

Lemma read_like : forall c c1, like c c1 -> snd (read (fc_pinhole c) (fc_lens c) (fc_st c)) = snd (read (fc_pinhole c1) (fc_lens c1) (fc_st c1)).
Proof.
  intros c c1 (E1 & E2 & E3 & E4 & E5 & E6 & E7 & E8 & E9 & E10). unfold read. rewrite <- E1, <- E2, <- E6, <- E7, E9.
  destruct (s_distort (fc_st c)); [reflexivity|]. cbn [snd]. destruct E10 as [->|[-> ->]]; reflexivity.
Qed.

Lemma test_init_like : forall c c1, like c c1 -> test_init c = test_init c1.
Proof. intros c c1 (E1 & E2 & E3 & E4 & E5 & E6 & E7 & E8 & E9 & E10). unfold test_init. rewrite E2, E6, E7, E8. reflexivity. Qed.

Lemma call_like : forall c c1 k, like c c1 -> snd (do_call c k) = snd (do_call c1 k).
Proof.
  intros c c1 k L. pose proof (test_init_like c c1 L) as T. pose proof (read_like c c1 L) as Rd.
  pose proof L as (E1 & E2 & E3 & E4 & E5 & E6 & E7 & E8 & E9 & E10).
  destruct k; cbn [Cam_Model.do_call snd]; try reflexivity.
  - destruct (get_extrinsic xyz opk); reflexivity.
  - unfold world_to_pixel_call. rewrite T. reflexivity.
  - unfold pixel_to_world_call. rewrite T. reflexivity.
  - unfold pixel_boundary_call. rewrite E2, E3, E4, E6, E7. reflexivity.
  - unfold world_boundary_call. rewrite T, E3, E4. reflexivity.
  - unfold read_call. destruct (read_image convert im_file ix dtype) as [im|e]; [|reflexivity]. rewrite E7.
    destruct (s_distort (fc_st c1)); [reflexivity|].
    destruct (match nodata with Some v => Ok v | None => lookup (KDtype (nd_dtype im)) nodata_vals end) as [v|e]; [|reflexivity].
    destruct (validate_image im); [|reflexivity].
    destruct (read (fc_pinhole c) (fc_lens c) (fc_st c)) as [st maps]. destruct (read (fc_pinhole c1) (fc_lens c1) (fc_st c1)) as [st1 maps1].
    cbn [snd] in Rd. subst maps1. cbn [snd]. unfold undistort_im, map_array. cbn [fc_w fc_h]. rewrite E3, E4. reflexivity.
  - unfold remap_call. rewrite T, E1. reflexivity.
  - unfold pos. rewrite E8. reflexivity.
Qed.

Variable pin : bool.
Variable lens_of : intr -> lens.
Variable im_size : list Z.
Variable focal : list R.
Variable sensor : option (list R).
Variables cx cy : R.
Notation init p d a := (frame_init pin lens_of im_size focal sensor cx cy (fst p) (snd p) d a).

Lemma three : forall A (l : list A), List.length l = 3%nat -> exists x y z, l = [x; y; z].
Proof. intros A [|x [|y [|z [|u l]]]] H; try discriminate. eauto. Qed.

Lemma refused_spec : forall p : pose, refused p = true <-> get_extrinsic (fst p) (snd p) = Err ValueError.
Proof.
  intros [[xyz|] [opk|]]; cbn; try (split; discriminate).
  2: { destruct xyz as [|x [|y [|z [|u l]]]]; split; discriminate. }
  destruct xyz as [|x [|y [|z [|u l]]]]; destruct opk as [|o [|p [|k [|v m]]]]; cbn; split; intros; try reflexivity; try discriminate.
Qed.

Lemma extrinsic_ok : forall p : pose, refused p = false -> exists e, get_extrinsic (fst p) (snd p) = Ok e.
Proof.
  intros [[xyz|] [opk|]]; cbn; intros H; try (eexists; reflexivity).
  2: { exists None. destruct xyz as [|x [|y [|z [|u l]]]]; reflexivity. }
  apply negb_false_iff in H. apply andb_true_iff in H. destruct H as [H1 H2]. apply Nat.eqb_eq in H1, H2.
  destruct (three _ _ H1) as (x & y & z & ->). destruct (three _ _ H2) as (o & p & k & ->). eexists. reflexivity.
Qed.

Lemma init_parts : forall p d a c, init p d a = Ok c -> exists k w h rest ext, im_size = w :: h :: rest /\
  get_intrinsic w h focal sensor cx cy = Ok k /\ get_extrinsic (fst p) (snd p) = Ok ext /\
  c = FCam pin (lens_of k) w h (cam_init pin k (lens_of k) w h a d ext).
Proof.
  intros p d a c H. unfold frame_init in H. destruct im_size as [|w [|h rest]]; try discriminate.
  destruct (get_intrinsic w h focal sensor cx cy) as [k|] eqn:E1; [|discriminate]. cbn in H.
  destruct (get_extrinsic (fst p) (snd p)) as [ext|] eqn:E2; [|discriminate]. cbn in H. injection H as <-.
  exists k, w, h, rest, ext. auto.
Qed.

Lemma init_like : forall p d a c, init p d a = Ok c -> like c c.
Proof. intros p d a c H. destruct (init_parts _ _ _ _ H) as (k & w & h & rest & ext & _ & _ & _ & ->). repeat split; cbn; auto. Qed.

Local Opaque undistort_intrinsic undistort_maps.

(** One call keeps the state like that of a new camera with the new settings. *)
Lemma step_like : forall c p d a c1 k, init p d a = Ok c1 -> like c c1 ->
  exists c2, init (pose_after [k] p) (distort_after [k] d) (alpha_after [k] a) = Ok c2 /\ like (fst (do_call c k)) c2.
Proof.
  intros c p d a c1 k H L. pose proof L as (E1 & E2 & E3 & E4 & E5 & E6 & E7 & E8 & E9 & E10).
  destruct (init_parts _ _ _ _ H) as (K & w & h & rest & ext & Hs & Hk & He & Ec).
  destruct k; cbn [pose_after distort_after alpha_after fold_left Cam_Model.do_call fst].
  - (* alpha *)
    exists (FCam pin (lens_of K) w h (cam_init pin K (lens_of K) w h a0 d ext)). split; [unfold frame_init; rewrite Hs, Hk; cbn [bind]; rewrite He; reflexivity|].
    subst c1. cbn [fc_pinhole fc_lens fc_w fc_h fc_st s_alpha s_ku s_distort s_ext s_maps cam_init] in *.
    rewrite E1, E2 in E10. unfold like, set_alpha, set_state. rewrite E1, E2, E3, E4, E5. cbn [fc_pinhole fc_lens fc_w fc_h fc_st].
    destruct pin; cbn [negb andb].
    + cbn. repeat split; auto.
    + destruct (Req_EM_T a0 a) as [->|N]; cbn.
      * repeat split; auto.
      * repeat split; auto.
  - (* distort *)
    exists (FCam pin (lens_of K) w h (cam_init pin K (lens_of K) w h a b ext)). split; [unfold frame_init; rewrite Hs, Hk; cbn [bind]; rewrite He; reflexivity|].
    subst c1. cbn in *. unfold like, set_state, set_distort. cbn. repeat split; auto.
  - (* update *)
    destruct (refused (xyz, opk)) eqn:Rf.
    + pose proof (proj1 (refused_spec (xyz, opk)) Rf) as Ex. cbn [fst snd] in Ex. rewrite Ex. cbn [fst]. exists c1. auto.
    + destruct (extrinsic_ok (xyz, opk) Rf) as (e & Ex). cbn [fst snd] in Ex. rewrite Ex. cbn [fst snd].
      exists (FCam pin (lens_of K) w h (cam_init pin K (lens_of K) w h a d e)). split; [unfold frame_init; rewrite Hs, Hk; cbn [bind]; rewrite Ex; reflexivity|].
      subst c1. cbn in *. unfold like, set_state. cbn. repeat split; auto.
  - exists c1. auto.
  - exists c1. auto.
  - exists c1. auto.
  - exists c1. auto.
  - (* read *)
    exists c1. split; [exact H|]. unfold read_call. destruct (read_image convert im_file ix dtype) as [im|e]; [|exact L].
    destruct (s_distort (fc_st c)) eqn:Ed; [exact L|].
    destruct (match nodata with Some v => Ok v | None => lookup (KDtype (nd_dtype im)) nodata_vals end) as [v|e]; [|exact L].
    destruct (validate_image im); [|exact L]. unfold read. rewrite Ed. cbn [fst].
    unfold like. cbn [fc_pinhole fc_lens fc_w fc_h fc_st s_alpha s_ku s_distort s_ext s_maps]. repeat split; auto.
    destruct E10 as [E|[Ep E]]; rewrite E.
    + destruct (fc_pinhole c) eqn:Ep; [left; reflexivity|right; auto].
    + right. auto.
  - exists c1. auto.
  - exists c1. auto.
Qed.

Local Transparent undistort_intrinsic undistort_maps.

Lemma run_like : forall ks c p d a c1, init p d a = Ok c1 -> like c c1 ->
  exists c2, init (pose_after ks p) (distort_after ks d) (alpha_after ks a) = Ok c2 /\ like (run_calls c ks) c2.
Proof.
  induction ks as [|k ks IH]; intros c p d a c1 H L; [exists c1; auto|].
  destruct (step_like c p d a c1 k H L) as (c2 & H2 & L2). apply (IH _ _ _ _ _ H2 L2).
Qed.

Theorem history : forall p d a c ks, init p d a = Ok c ->
  exists c', init (pose_after ks p) (distort_after ks d) (alpha_after ks a) = Ok c' /\
  forall k, snd (do_call (run_calls c ks) k) = snd (do_call c' k).
Proof.
  intros p d a c ks H. destruct (run_like ks c p d a c H (init_like _ _ _ _ H)) as (c' & H' & L). exists c'. split; [exact H'|].
  intros k. apply call_like, L.
Qed.

Theorem position_after : forall p d a c ks, init p d a = Ok c -> pos (run_calls c ks) = position (pose_after ks p).
Proof.
  intros p d a c ks H. destruct (run_like ks c p d a c H (init_like _ _ _ _ H)) as (c' & H' & L).
  destruct L as (_ & _ & _ & _ & _ & _ & _ & E & _). unfold pos. rewrite E.
  destruct (init_parts _ _ _ _ H') as (k & w & h & rest & ext & _ & _ & He & ->). cbn [fc_st cam_init s_ext].
  destruct (pose_after ks p) as [[[|x [|y [|z [|u l]]]]|] [[|o [|q [|r [|v m]]]]|]]; cbn in He; try discriminate; injection He as <-; reflexivity.
Qed.

Theorem pose_irrelevant : forall p1 p2 d a c1 c2, init p1 d a = Ok c1 -> init p2 d a = Ok c2 ->
  (forall n, snd (do_call c1 (PixelBoundary n)) = snd (do_call c2 (PixelBoundary n))) /\
  (forall f ix t nodata i, snd (do_call c1 (ReadC f ix t nodata i)) = snd (do_call c2 (ReadC f ix t nodata i))).
Proof.
  intros p1 p2 d a c1 c2 H1 H2. destruct (init_parts _ _ _ _ H1) as (k & w & h & rest & e1 & Hs & Hk & _ & ->).
  destruct (init_parts _ _ _ _ H2) as (k' & w' & h' & rest' & e2 & Hs' & Hk' & _ & ->).
  rewrite Hs in Hs'. injection Hs' as <- <- <-. rewrite Hk in Hk'. injection Hk' as <-. split; intros; [reflexivity|].
  cbn [Cam_Model.do_call]. unfold read_call. destruct (read_image convert f ix t) as [im|e]; [|reflexivity]. cbn [fc_st cam_init s_distort].
  destruct d; [reflexivity|].
  destruct (match nodata with Some v => Ok v | None => lookup (KDtype (nd_dtype im)) nodata_vals end) as [v|e]; [|reflexivity].
  destruct (validate_image im); [|reflexivity]. reflexivity.
Qed.
End History.

(** * Exterior parameters *)
Lemma one_of_In : forall s l, one_of s l = true <-> In s l.
Proof.
  intros s l. unfold one_of. rewrite existsb_exists. split.
  - intros (x & Hx & E). apply String.eqb_eq in E. subst. exact Hx.
  - intros H. exists s. split; [exact H|apply String.eqb_refl].
Qed.

Lemma image_checked : forall A (im : nd A), (validate_image im = Ok tt /\ image_array im) \/ (validate_image im = Err ValueError /\ ~ image_array im).
Proof.
  intros A im. unfold validate_image, image_array, cv_dtype. destruct (one_of (nd_dtype im) valid_dtypes) eqn:E.
  - apply one_of_In in E. cbn [negb]. destruct (nd_shape im) as [|n [|h [|w [|u l]]]] eqn:S; try (right; split; [reflexivity|]; intros (_ & n' & h' & w' & S' & _); discriminate).
    unfold shrt_max. destruct (Z.ltb_spec 32767 h); cbn [orb]; [right; split; [reflexivity|]; intros (_ & n' & h' & w' & S' & B & C); injection S' as -> -> ->; lia|].
    destruct (Z.ltb_spec 32767 w); [right; split; [reflexivity|]; intros (_ & n' & h' & w' & S' & B & C); injection S' as -> -> ->; lia|].
    left. split; [reflexivity|]. split; [exact E|]. exists n, h, w. auto.
  - right. split; [reflexivity|]. intros (H & _). assert (one_of (nd_dtype im) valid_dtypes = true) by (apply one_of_In; exact H). congruence.
Qed.

Lemma world_checked : forall A (a : nd A), (validate_world_coords a = Ok tt /\ world_array a) \/ (validate_world_coords a = Err ValueError /\ ~ world_array a).
Proof.
  intros A a. unfold validate_world_coords, world_array.
  assert (D : forall P : Prop, nd_shape a <> [3; 0] \/ True) by auto. clear D.
  destruct (nd_shape a) as [|m [|n [|u l]]] eqn:S.
  1: right; split; [reflexivity|intros ((k & E) & _); discriminate].
  1: right; split; [destruct m as [|[[p|p|]|p|]|p]; reflexivity|intros ((k & E) & _); discriminate].
  2: right; split; [destruct m as [|[[p|p|]|p|]|p]; reflexivity|intros ((k & E) & _); discriminate].
  destruct (Z.eq_dec m 3) as [->|N].
  - destruct (String.eqb_spec (nd_dtype a) "float64") as [E|E]; [left|right]; (split; [reflexivity|]).
    + split; [exists n; reflexivity|exact E].
    + intros [_ E']. contradiction.
  - right. split; [|intros ((k & E) & _); injection E as -> ->; contradiction].
    destruct m as [|[[p|p|]|p|]|p]; try reflexivity. contradiction N. reflexivity.
Qed.

Lemma pixel_checked : forall A (a : nd A), (validate_pixel_coords a = Ok tt /\ pixel_array a) \/ (validate_pixel_coords a = Err ValueError /\ ~ pixel_array a).
Proof.
  intros A a. unfold validate_pixel_coords, pixel_array.
  destruct (nd_shape a) as [|m [|n [|u l]]] eqn:S.
  1: right; split; [reflexivity|intros (k & E); discriminate].
  1: right; split; [destruct m as [|[p|[p|p|]|]|p]; reflexivity|intros (k & E); discriminate].
  2: right; split; [destruct m as [|[p|[p|p|]|]|p]; reflexivity|intros (k & E); discriminate].
  destruct (Z.eq_dec m 2) as [->|N].
  - left. split; [reflexivity|]. exists n. reflexivity.
  - right. split; [|intros (k & E); injection E as -> ->; contradiction].
    destruct m as [|[p|[p|p|]|]|p]; try reflexivity. contradiction N. reflexivity.
Qed.

Lemma same_shape_iff : forall A B (x : nd A) (y : nd B), same_shape x y = true <-> nd_shape x = nd_shape y.
Proof. intros A B x y. unfold same_shape. destruct (list_eq_dec Z.eq_dec (nd_shape x) (nd_shape y)); split; congruence. Qed.

Lemma grids_checked : forall x y z : nd (arr fl),
  (negb (same_shape x y && same_shape y z && Nat.eqb (List.length (nd_shape x)) 2) = false /\
   negb (String.eqb (nd_dtype x) "float64" && String.eqb (nd_dtype y) "float64") = false /\
   negb (one_of (nd_dtype z) ["float16"; "float32"; "float64"; "longdouble"]) = false /\ String.eqb (nd_dtype z) "longdouble" = false) <-> grids x y z.
Proof.
  intros x y z. unfold grids. rewrite !negb_false_iff, !andb_true_iff, !same_shape_iff, Nat.eqb_eq, !String.eqb_eq, one_of_In. split.
  - intros (((E1 & E2) & E3) & (E4 & E5) & E6 & E7). split.
    + destruct (nd_shape x) as [|m [|n [|u l]]] eqn:S; try discriminate. exists m, n. rewrite <- E2, <- E1. auto.
    + split; [exact E4|]. split; [exact E5|]. cbn [In] in E6. destruct E6 as [E|[E|[E|[E|[]]]]]; rewrite <- E in *; cbn; auto. discriminate.
  - intros ((m & n & Sx & Sy & Sz) & E4 & E5 & E6). rewrite Sx, Sy, Sz. repeat split; auto; cbn [In] in *; destruct E6 as [E|[E|[E|[]]]]; rewrite <- E; auto.
Qed.

Section Use.
Variable cv_surf : string -> arr fl -> fl * fl -> option fl.
Variable cast_nan : string -> fl.
Variable cv_image : string -> arr pix -> fl * fl -> option pix.
Variable convert : string -> string -> pix -> pix.
Notation do_call := (do_call cv_surf cast_nan cv_image convert).
Notation run_calls := (run_calls cv_surf cast_nan cv_image convert).
Notation stands_for := (stands_for cv_surf).
Notation undistorted := (undistorted cv_image).
Notation is_source_map := (is_source_map cv_surf cast_nan cv_image convert).

Lemma uninit : forall c, pos c = None -> test_init c = Err CameraInitError.
Proof. intros c H. unfold pos, test_init in *. destruct (s_ext (fc_st c)); [discriminate|reflexivity]. Qed.

Lemma inited : forall c T, pos c = Some T -> exists f, test_init c = Ok f /\ fr_T f = T /\ fr_lens f = fc_lens c /\ fr_ku f = s_ku (fc_st c) /\ fr_distort f = s_distort (fc_st c).
Proof. intros c T H. unfold pos, test_init in *. destruct (s_ext (fc_st c)) as [[r t]|]; [|discriminate]. injection H as <-. eexists. repeat split. Qed.

Theorem uninitialised : forall c, pos c = None ->
  (forall xyz, snd (do_call c (WorldToPixel xyz)) = Err CameraInitError) /\
  (forall ji z, snd (do_call c (PixelToWorld ji z)) = Err CameraInitError) /\
  (forall z n t i clip, snd (do_call c (WorldBoundary z n t i clip)) = Err CameraInitError) /\
  (forall im x y z nodata i k, (forall v, snd (do_call c (Remap im x y z nodata i k)) <> Ok v) /\
     (image_array im -> grids x y z -> nodata <> None -> snd (do_call c (Remap im x y z nodata i k)) = Err CameraInitError)).
Proof.
  intros c H. apply uninit in H. cbn [Cam_Model.do_call snd]. unfold world_to_pixel_call, pixel_to_world_call, world_boundary_call. rewrite H.
  split; [reflexivity|]. split; [reflexivity|]. split; [reflexivity|]. intros. unfold remap_call. rewrite H. cbn [bind]. split.
  - intros v. destruct (validate_image im); [|discriminate]. cbn [bind]. destruct (negb _); [discriminate|]. destruct (negb _); [discriminate|]. destruct (negb _); [discriminate|].
    destruct (match nodata with Some v => Ok v | None => lookup (KDtype (nd_dtype im)) nodata_vals end); discriminate.
  - intros Hi Hg Hn. destruct (image_checked _ im) as [[-> _]|[_ N]]; [|contradiction]. apply grids_checked in Hg. destruct Hg as (-> & -> & -> & _).
    destruct nodata; [reflexivity|contradiction].
Qed.

Lemma mapM_err : forall A B (f : A -> res B) l e, mapM f l = Err e -> exists x, In x l /\ f x = Err e.
Proof.
  intros A B f l e. induction l as [|x l IH]; cbn; [discriminate|]. destruct (f x) as [y|e'] eqn:E; cbn.
  - destruct (mapM f l) eqn:M; cbn; [discriminate|]. intros H. injection H as ->. destruct (IH eq_refl) as (x' & Hx & Ex). exists x'. auto.
  - intros H. injection H as ->. exists x. auto.
Qed.

Lemma boundary_error : forall w h n e, pixel_boundary w h n = Err e -> e = ValueError.
Proof.
  intros w h n e H. unfold pixel_boundary, rect_boundary, linspace_open in H. destruct n as [[|p|p]|]; try discriminate;
  repeat (match type of H with context [if ?b then _ else _] => destruct b; cbn [bind] in H; try (injection H as <-; reflexivity) end); try discriminate.
Qed.

Lemma surf_error : forall p2w ji z d t i rng e, world_surf cv_surf cast_nan p2w ji z d t i rng = Err e -> e = ValueError \/ e = AttributeError \/ e = ExternalError.
Proof.
  intros p2w ji z d t i rng e H. unfold world_surf in H. destruct (negb _); [injection H as <-; auto|]. destruct (_ || _); [injection H as <-; auto|].
  destruct (Req_EM_T _ _); [injection H as <-; auto|]. apply mapM_err in H. destruct H as (p & _ & H). destruct (p2w p) as [ray|]; [|injection H as <-; auto].
  unfold surf_pixel in H. destruct (_ || _); [injection H as <-; auto|]. destruct i; [|injection H as <-; auto]. destruct (negb _); [injection H as <-; auto|discriminate].
Qed.

Theorem initialised : forall c T k, pos c = Some T -> (forall f ix t nodata i, k <> ReadC f ix t nodata i) -> snd (do_call c k) <> Err CameraInitError.
Proof.
  intros c T k H N. destruct (inited c T H) as (f & Hf & _). destruct k; cbn [Cam_Model.do_call snd]; try discriminate.
  - destruct (get_extrinsic xyz opk) eqn:E; cbn [snd]; [discriminate|]. intros H'. injection H' as ->.
    destruct xyz as [[|x [|y [|z [|u l]]]]|]; destruct opk as [[|o [|p [|q [|v m]]]]|]; discriminate.
  - unfold world_to_pixel_call. rewrite Hf. cbn [bind]. destruct (world_checked _ xyz) as [[-> _]|[-> _]]; discriminate.
  - unfold pixel_to_world_call. rewrite Hf. cbn [bind]. destruct (pixel_checked _ ji) as [[-> _]|[-> _]]; cbn [bind]; [|discriminate].
    destruct (frame_array_compatible _ _ (p2w_fl f) (nd_data ji) z) as [A B].
    destruct (frame_p2w_array (p2w_fl f) (nd_data ji) z) as [l|e] eqn:E; [discriminate|]. intros H'. cbn in H'. injection H' as ->.
    unfold frame_p2w_array in E. destruct (negb _); [discriminate|]. destruct z; try discriminate. unfold broadcast in E.
    destruct (nd_data ji) as [|p [|p' l]]; destruct zs as [|s [|s' l']]; try discriminate; match type of E with context [Nat.eqb ?a ?b] => destruct (Nat.eqb a b) end; discriminate.
  - unfold pixel_boundary_call, frame_pixel_boundary. destruct (pixel_boundary (fc_w c) (fc_h c) num_pts) as [|e] eqn:E; [discriminate|].
    apply boundary_error in E. subst e. discriminate.
  - unfold world_boundary_call, frame_world_boundary. rewrite Hf. cbn [bind]. destruct (horizon_fov _ _ _); [discriminate|].
    unfold frame_pixel_boundary. destruct (pixel_boundary (fc_w c) (fc_h c) num_pts) as [ji|e] eqn:E; [|apply boundary_error in E; subst e; discriminate].
    cbn [bind]. destruct z as [z|[|[|[|n]]] dtype z|]; try discriminate. destruct t as [t|]; [|discriminate]. unfold z_range. destruct (numbers_of z) as [|v l]; [discriminate|].
    cbn [bind]. destruct (Rlt_dec _ _); [discriminate|].
    destruct (world_surf _ _ _ _ _ _ _ _ _) as [pts|e] eqn:E2; [discriminate|]. apply surf_error in E2. destruct E2 as [->|[->| ->]]; discriminate.
  - exfalso. eapply N. reflexivity.
  - unfold remap_call. destruct (image_checked _ im) as [[-> _]|[-> _]]; [|discriminate]. cbn [bind].
    destruct (negb _); [discriminate|]. destruct (negb _); [discriminate|]. destruct (negb _); [discriminate|].
    destruct nodata as [v|]; [cbn [bind]|cbn; discriminate].
    rewrite Hf. cbn [bind]. destruct (String.eqb _ _); [discriminate|].
    assert (I : forall e, interp_get interp = Err e -> e = KeyError) by (intros e; unfold interp_get; destruct (one_of _ _); [discriminate|intros E; injection E as <-; reflexivity]).
    assert (G : forall e, frame_remap (world_to_pixel f) (fun b j i => cv_image interp b (Num j, Num i)) (RCfg (fr_distort f) (String.eqb interp "nearest") (fc_pinhole c)) (nd_data im) (nd_data x) (nd_data y)
      (nd_data z) v kernel_size = Err e -> e = ValueError).
    { intros e. unfold frame_remap, camera_remap. destruct (negb _); [cbn; intros E; injection E as <-; reflexivity|]. cbn [bind]. destruct (dilates _ _); discriminate. }
    destruct (match nd_data im with [] => Ok tt | b :: _ => _ end) as [u|e] eqn:E1.
    + cbn [bind]. destruct (if fr_distort f then Ok "" else interp_get interp) as [u'|e] eqn:E2.
      * cbn [bind]. destruct (frame_remap _ _ _ _ _ _ _ _ _) as [r|e] eqn:E3; [discriminate|]. rewrite (G e eq_refl). discriminate.
      * cbn [bind]. destruct (fr_distort f); [discriminate|]. rewrite (I e E2). discriminate.
    + cbn [bind]. destruct (nd_data im); [discriminate|]. destruct (interp_get interp) as [i|e'] eqn:E2; cbn [bind] in E1.
      * destruct (cv_sizes _ _ _ _); [discriminate|]. injection E1 as <-. discriminate.
      * injection E1 as ->. rewrite (I e eq_refl). discriminate.
Qed.

(** * Arguments *)
Theorem world_to_pixel_args : forall c T xyz, pos c = Some T ->
  (~ world_array xyz -> snd (do_call c (WorldToPixel xyz)) = Err ValueError) /\
  (world_array xyz -> exists l, snd (do_call c (WorldToPixel xyz)) = Ok (VPixels l) /\ List.length l = List.length (nd_data xyz) /\
     forall k p, nth_error (nd_data xyz) k = Some p ->
     exists q, nth_error l k = Some q /\ snd (do_call c (WorldToPixel (Nd "float64" [3; 1] [p]))) = Ok (VPixels [q])).
Proof.
  intros c T xyz H. destruct (inited c T H) as (f & Hf & _). cbn [Cam_Model.do_call snd]. unfold world_to_pixel_call. rewrite Hf. cbn [bind].
  destruct (world_checked _ xyz) as [[-> W]|[-> W]]; split; intros A; try contradiction; [|reflexivity].
  exists (map (world_to_pixel f) (nd_data xyz)). split; [reflexivity|]. split; [apply map_length|].
  intros k p Hk. exists (world_to_pixel f p). split; [rewrite nth_error_map, Hk; reflexivity|reflexivity].
Qed.

Theorem pixel_to_world_args : forall c T ji z, pos c = Some T ->
  let n := List.length (nd_data ji) in
  let m := List.length (zlist z) in
  (~ (pixel_array ji /\ compatible z n) -> snd (do_call c (PixelToWorld ji z)) = Err ValueError) /\
  (pixel_array ji -> compatible z n -> exists l, snd (do_call c (PixelToWorld ji z)) = Ok (VPoints l) /\ List.length l = out_len n m /\
     forall k p h, (k < List.length l)%nat ->
     nth_error (nd_data ji) (if Nat.eqb n 1 then 0 else k)%nat = Some p -> nth_error (zlist z) (if Nat.eqb m 1 then 0 else k)%nat = Some h ->
     exists q, nth_error l k = Some q /\ snd (do_call c (PixelToWorld (Nd (nd_dtype ji) [2; 1] [p]) (ZScalar h))) = Ok (VPoints [q])).
Proof.
  intros c T ji z H n m. destruct (inited c T H) as (f & Hf & _). cbn [Cam_Model.do_call snd]. unfold pixel_to_world_call. rewrite Hf. cbn [bind].
  destruct (frame_array_compatible _ _ (p2w_fl f) (nd_data ji) z) as [A B]. split.
  - intros N. destruct (pixel_checked _ ji) as [[-> P]|[-> P]]; cbn [bind]; [|reflexivity].
    assert (NC : ~ compatible z (List.length (nd_data ji))) by (intros C; apply N; auto). rewrite (A NC). reflexivity.
  - intros P C. destruct (pixel_checked _ ji) as [[-> _]|[_ P']]; [|contradiction]. cbn [bind]. destruct (B C) as (l & E & L & Hn). rewrite E. exists l.
    split; [reflexivity|]. split; [exact L|]. intros k p h Hk Hp Hh. exists (p2w_fl f p h).
    split; [|reflexivity]. specialize (Hn k p h None Hk).
    rewrite (nth_error_nth' l None Hk). fold n in Hn. fold m in Hn. rewrite Hn. rewrite (nth_error_nth _ _ _ Hp), (nth_error_nth _ _ _ Hh). reflexivity.
Qed.

Lemma cv_sizes_iff : forall h w m n, cv_sizes h w m n = true <-> usable_sizes h w m n.
Proof. intros h w m n. unfold cv_sizes, usable_sizes, cv_size, shrt_max. rewrite !andb_true_iff, !Z.ltb_lt. tauto. Qed.

Theorem remap_args : forall c T im x y z v i k, pos c = Some T -> grid_ok x -> grid_ok y -> grid_ok z ->
  (~ (image_array im /\ grids x y z) -> snd (do_call c (Remap im x y z (Some v) i k)) = Err ValueError) /\
  (image_array im -> grids x y z -> interp_name i ->
   forall h w, image_ok im h w -> nd_data im <> [] ->
   (~ usable_sizes h w (ah (nd_data x)) (aw (nd_data x)) -> snd (do_call c (Remap im x y z (Some v) i k)) = Err ExternalError) /\
   (usable_sizes h w (ah (nd_data x)) (aw (nd_data x)) ->
    exists bands mask, snd (do_call c (Remap im x y z (Some v) i k)) = Ok (VRemap (bands, mask)) /\
    List.length bands = List.length (nd_data im) /\ Forall (fun b => ah b = ah (nd_data x) /\ aw b = aw (nd_data x)) bands /\
    ah mask = ah (nd_data x) /\ aw mask = aw (nd_data x))).
Proof.
  intros c T im x y z v i k H Gx Gy Gz. destruct (inited c T H) as (f & Hf & _). cbn [Cam_Model.do_call snd]. unfold remap_call. rewrite Hf.
  cbn [bind]. split.
  - intros N. destruct (image_checked _ im) as [[-> I]|[-> I]]; cbn [bind]; [|reflexivity].
    assert (NG : ~ grids x y z) by (intros G; apply N; auto). rewrite <- grids_checked in NG.
    destruct (negb (same_shape x y && same_shape y z && Nat.eqb (List.length (nd_shape x)) 2)); [reflexivity|].
    destruct (negb (String.eqb (nd_dtype x) "float64" && String.eqb (nd_dtype y) "float64")); [reflexivity|].
    destruct (negb (one_of (nd_dtype z) ["float16"; "float32"; "float64"; "longdouble"])); [reflexivity|].
    destruct (String.eqb (nd_dtype z) "longdouble"); [reflexivity|]. exfalso. apply NG. auto.
  - intros I G Hn h w [Sh Fs] Ne. destruct (image_checked _ im) as [[-> _]|[_ I']]; [|contradiction]. cbn [bind].
    pose proof G as G'. apply grids_checked in G'. destruct G' as (-> & -> & -> & ->).
    assert (Hi : interp_get i = Ok i) by (unfold interp_get; replace (one_of i interps) with true; [reflexivity|symmetry; apply one_of_In, Hn]). rewrite Hi. cbn [bind].
    destruct (nd_data im) as [|b bs] eqn:D; [contradiction|]. inversion Fs as [|b' bs' [Eh Ew] _]; subst. 
    split.
    + intros NU. replace (cv_sizes (ah b) (aw b) (ah (nd_data x)) (aw (nd_data x))) with false; [reflexivity|].
      destruct (cv_sizes (ah b) (aw b) (ah (nd_data x)) (aw (nd_data x))) eqn:E; [|reflexivity]. apply cv_sizes_iff in E. contradiction.
    + intros U. apply cv_sizes_iff in U. rewrite U. cbn [bind].
      replace (bind (if fr_distort f then Ok "" else Ok i) (fun _ : string => frame_remap (world_to_pixel f) (fun b0 j i0 => cv_image i b0 (Num j, Num i0)) (RCfg (fr_distort f) (String.eqb i "nearest") (fc_pinhole c)) (b :: bs) (nd_data x) (nd_data y) (nd_data z) v k))
        with (frame_remap (world_to_pixel f) (fun b0 j i0 => cv_image i b0 (Num j, Num i0)) (RCfg (fr_distort f) (String.eqb i "nearest") (fc_pinhole c)) (b :: bs) (nd_data x) (nd_data y) (nd_data z) v k) by (destruct (fr_distort f); reflexivity).
      destruct G as ((m & n & Ex & Ey & Ez) & _). unfold grid_ok in Gx, Gy, Gz. rewrite Gx in Ex. rewrite Gy in Ey. rewrite Gz in Ez. injection Ex as Ex1 Ex2. injection Ey as Ey1 Ey2. injection Ez as Ez1 Ez2.
      unfold frame_remap, camera_remap. rewrite Ex1, Ex2, Ey1, Ey2, Ez1, Ez2, !Z.eqb_refl. cbn [andb negb bind].
      destruct (dilates _ _); eexists _, _; (split; [reflexivity|]; split; [rewrite ?map_length; cbn [List.length]; rewrite ?map_length; reflexivity|]; split; [|split; reflexivity]);
        apply Forall_forall; intros a Ha; repeat (apply in_map_iff in Ha; destruct Ha as (? & <- & Ha)); cbn [ah aw]; auto.
Qed.

Theorem im_size_unchecked : forall pin lens_of w h rest focal sensor cx cy xyz opk d a,
  frame_init pin lens_of (w :: h :: rest) focal sensor cx cy xyz opk d a = frame_init pin lens_of [w; h] focal sensor cx cy xyz opk d a.
Proof. reflexivity. Qed.

(** * World boundary *)
Lemma numbers_valued : forall z v, In v (numbers_of z) <-> valued z v.
Proof.
  intros z v. unfold numbers_of, valued. rewrite in_flat_map. split.
  - intros (r & Hr & H). apply in_flat_map in H. destruct H as (c & Hc & H). apply py_range_In in Hr, Hc; try lia.
    exists r, c. split; [lia|]. split; [lia|]. destruct (aget z r c); [destruct H|]. destruct H as [->|[]]. reflexivity.
  - intros (r & c & Hr & Hc & E). exists r. split; [apply py_range_In; [lia|]; split; [lia|]; exists r; lia|]. apply in_flat_map. exists c.
    split; [apply py_range_In; [lia|]; split; [lia|]; exists c; lia|]. rewrite E. left. reflexivity.
Qed.

Lemma range_spec : forall z, (z_range z = Err ValueError /\ forall v, ~ valued z v) \/
  exists low high, z_range z = Ok (low, high) /\ lowest z low /\ highest z high.
Proof.
  intros z. unfold z_range. destruct (numbers_of z) as [|v l] eqn:E.
  - left. split; [reflexivity|]. intros v H. apply numbers_valued in H. rewrite E in H. destruct H.
  - right. exists (rmin (v :: l)), (rmax (v :: l)). split; [reflexivity|]. unfold lowest, highest. rewrite <- !numbers_valued, E.
    split; (split; [apply rmin_in || apply rmax_in; discriminate|]); intros u Hu; apply numbers_valued in Hu; rewrite E in Hu; [apply rmin_le|apply rmax_ge]; exact Hu.
Qed.

Lemma lowest_unique : forall z a b, lowest z a -> lowest z b -> a = b.
Proof. intros z a b [A1 A2] [B1 B2]. specialize (A2 b B1). specialize (B2 a A1). lra. Qed.
Lemma highest_unique : forall z a b, highest z a -> highest z b -> a = b.
Proof. intros z a b [A1 A2] [B1 B2]. specialize (A2 b B1). specialize (B2 a A1). lra. Qed.

Lemma range_is : forall z low high, lowest z low -> highest z high -> z_range z = Ok (low, high).
Proof.
  intros z low high L H. destruct (range_spec z) as [[_ N]|(l & h & E & L' & H')]; [destruct L as [V _]; destruct (N _ V)|].
  rewrite E, (lowest_unique _ _ _ L L'), (highest_unique _ _ _ H H'). reflexivity.
Qed.

Lemma horizon_iff : forall f c r, fr_lens f = fc_lens c -> fr_R f = r -> horizon_fov f (fc_w c) (fc_h c) = true <-> sees_horizon c r.
Proof.
  intros f c r El Er. unfold horizon_fov, sees_horizon. rewrite existsb_exists, El, Er.
  assert (I : forall p, In p (boundary8 (fc_w c) (fc_h c)) <-> In p (corners (fc_w c) (fc_h c) ++ side_mids (fc_w c) (fc_h c))).
  { intros p. unfold boundary8, corners, side_mids. cbn [In app]. tauto. }
  split; intros (p & Hp & H); exists p; (split; [apply I, Hp|]); cbv zeta in *; destruct (Rle_dec _ _); try assumption; try discriminate; try reflexivity; contradiction.
Qed.

Lemma frame_ray_spec : forall c f p ray, test_init c = Ok f -> frame_ray f p = Some ray -> on_ray c p ray /\ straight ray.
Proof.
  intros c f p rr Hf H. unfold frame_ray in H. destruct (Req_EM_T _ _) as [|N]; [discriminate|]. match type of H with Some ?x = _ => assert (Hr : rr = x) by congruence end. subst rr. clear H. split.
  - intros h. unfold pixel_to_world_call. rewrite Hf. unfold validate_pixel_coords, frame_p2w_array. cbn [bind nd_shape nd_data List.length validate_z negb map p2w_fl].
    unfold pixel_to_world_z. destruct p as [j i]. cbn [fst snd]. destruct (Req_EM_T _ _); [contradiction|]. reflexivity.
  - exists (vx (fr_T f) - vz (fr_T f) / vz (ray f p) * vx (ray f p))%R, (vx (ray f p) / vz (ray f p))%R, (vy (fr_T f) - vz (fr_T f) / vz (ray f p) * vy (ray f p))%R, (vy (ray f p) / vz (ray f p))%R.
    intros z. unfold vadd, vscale. revert N. generalize (ray f p) (fr_T f). intros [rx ry rz] [tx ty tz]. cbn. intros N. f_equal; field; exact N.
Qed.

Lemma on_ray_frame : forall c f p rr, test_init c = Ok f -> on_ray c p rr -> exists r', frame_ray f p = Some r' /\ forall h, r' h = rr h.
Proof.
  intros c f p rr Hf H. unfold on_ray, pixel_to_world_call in H. rewrite Hf in H. unfold validate_pixel_coords, frame_p2w_array in H.
  cbn [bind nd_shape nd_data List.length validate_z negb map p2w_fl] in H. unfold pixel_to_world_z in H. unfold frame_ray. destruct p as [j i]. cbn [fst snd] in H.
  destruct (Req_EM_T _ _); [specialize (H 0%R); discriminate|]. eexists. split; [reflexivity|]. intros h. specialize (H h). injection H as H. exact H.
Qed.

Lemma boundary_same : forall c f n, fr_lens f = fc_lens c -> fr_ku f = s_ku (fc_st c) -> fr_distort f = s_distort (fc_st c) ->
  pixel_boundary_call c n = frame_pixel_boundary f (fc_w c) (fc_h c) n.
Proof. intros c f n E1 E2 E3. unfold pixel_boundary_call, frame_pixel_boundary, undistort_pixel. cbn [fr_distort fr_ku fr_lens]. rewrite E1, E2, E3. reflexivity. Qed.

Lemma inv_center_iff : forall t xy j i, aff_det t <> 0%R -> inv_center t xy = (j, i) <-> aff_apply t (j + / 2) (i + / 2) = xy.
Proof.
  intros t [x y] j i D. unfold inv_center, aff_apply. cbn [fst snd]. split; intros H; injection H as H1 H2.
  - assert (Hj : (j + / 2 = (te t * (x - tc t) - tb t * (y - tf t)) / aff_det t)%R) by lra. assert (Hi : (i + / 2 = (ta t * (y - tf t) - td t * (x - tc t)) / aff_det t)%R) by lra.
    rewrite Hj, Hi. unfold aff_det in *. f_equal; field; exact D.
  - subst x y. unfold aff_det in *. f_equal; field; exact D.
Qed.

Lemma under_iff : forall name dtype z t p, In dtype ["float32"; "float64"] -> aff_det t <> 0%R ->
  below (surf_at cv_surf cast_nan name dtype z t) p <-> under (cv_surf name z) t p.
Proof.
  intros name dtype z t p Hd D. unfold below, under, height_at, surf_at, surf_fill. replace (one_of dtype ["float32"; "float64"]) with true by (symmetry; apply one_of_In, Hd).
  destruct (inv_center t (vx p, vy p)) as [j i] eqn:E. split.
  - intros (s & Hs & L). destruct (cv_surf name z (Num j, Num i)) as [v|] eqn:C; [|discriminate]. subst v. exists s. split; [|exact L]. exists j, i. split; [apply inv_center_iff; assumption|exact C].
  - intros (h & (j' & i' & A & C) & L). apply inv_center_iff in A; [|exact D]. rewrite A in E. injection E as <- <-. exists h. rewrite C. auto.
Qed.

Lemma sample_between : forall top low n k, (low <= top)%R -> (k < n)%nat -> (low <= sample_height top low n k <= top)%R.
Proof.
  intros top low n k H Hk. unfold sample_height. destruct (Nat.eq_dec n 1) as [->|N]; [assert (k = 0)%nat by lia; subst; cbn; unfold Rdiv; rewrite !Rmult_0_l; lra|].
  assert (P : (0 < INR (n - 1))%R) by (apply lt_0_INR; lia). assert (Q : (0 <= INR k <= INR (n - 1))%R) by (split; [apply pos_INR|apply le_INR; lia]).
  assert (U : (0 <= INR k * (top - low) / INR (n - 1) <= top - low)%R).
  { split; [apply Rmult_le_pos; [apply Rmult_le_pos; lra|apply Rlt_le, Rinv_0_lt_compat, P]|]. apply (Rmult_le_reg_r (INR (n - 1))); [exact P|]. unfold Rdiv. rewrite Rmult_assoc, Rinv_l by lra. nra. }
  lra.
Qed.

Lemma straight_height : forall rr h, straight rr -> vz (rr h) = h.
Proof. intros rr h (ox & dx & oy & dy & E). rewrite E. reflexivity. Qed.

Definition top_of (clip : bool) (high : R) (T : vec) : R := if clip then Rmin high (vz T) else high.

Lemma surf_pixel_spec : forall rr z dtype t i low top q, straight rr -> (low <= top)%R -> aff_det t <> 0%R ->
  surf_pixel cv_surf cast_nan rr z dtype t (IEnum i) low top = Ok q ->
  (low <= vz q <= top)%R /\ q = rr (vz q) /\ stands_for i dtype z t low top rr q.
Proof.
  intros rr z dtype t i low top q S LT D H. unfold surf_pixel in H. destruct (Req_EM_T (ta t) 0) as [|Na]; [discriminate|]. destruct (Req_EM_T (te t) 0) as [|Ne]; [discriminate|].
  cbn [orb] in H. destruct (cv_sizes _ _ _ _) eqn:C; [|discriminate]. cbn [negb] in H. injection H as <-. apply cv_sizes_iff in C. unfold usable_sizes, cv_size in C.
  destruct (first_intersection rr (surf_at cv_surf cast_nan i dtype z t) t (ah z) (aw z) low top) as (k & Hk & E & Hf). cbv zeta in *.
  pose proof (sample_spacing rr t (ah z) (aw z) low top S Na Ne) as Sp. cbv zeta in Sp.
  set (m := Z.to_nat (ray_steps (rr top) (rr low) t (max_ray_steps (ah z) (aw z)))) in *.
  assert (M : Z.of_nat m = ray_steps (rr top) (rr low) t (max_ray_steps (ah z) (aw z))) by (unfold m; apply Z2Nat.id; lia). rewrite <- M in C. rewrite E.
  change (sample_z top low m) with (sample_height top low m) in *. split; [rewrite straight_height by exact S; apply sample_between; assumption|].
  split; [rewrite straight_height by exact S; reflexivity|]. exists m. split; [lia|]. split.
  - intros j Hj. apply Sp; [|exact Hj]. unfold max_ray_steps. lia.
  - intros Hd. exists k. split; [exact Hk|]. split; [reflexivity|].
    destruct Hf as [[B N]|[Ek N]]; [left|right].
    + split; [apply (under_iff i dtype); assumption|]. intros j Hj U. apply (N j Hj). apply under_iff; assumption.
    + split; [exact Ek|]. intros j Hj U. apply (N j Hj). apply under_iff; assumption.
Qed.

Lemma Forall2_lift : forall A B (P : A -> B -> Prop) (Q : A -> option B -> Prop) l xs, (forall a b, P a b -> Q a (Some b)) -> Forall2 P l xs -> Forall2 Q l (map Some xs).
Proof. intros A B P Q l xs H F. induction F; constructor; auto. Qed.

Theorem boundary_surface : forall c T dtype z n t i clip pts, pos c = Some T ->
  snd (do_call c (WorldBoundary (HArray 2 dtype z) n t (IEnum i) clip)) = Ok (VPoints pts) ->
  exists ji low high t', t = Some t' /\ snd (do_call c (PixelBoundary n)) = Ok (VBoundary ji) /\ lowest z low /\ highest z high /\ (low <= vz T)%R /\
  let top := if clip then Rmin high (vz T) else high in
  Forall2 (fun p o => exists rr q, o = Some q /\ on_ray c p rr /\ (low <= vz q <= top)%R /\ q = rr (vz q) /\ stands_for i dtype z t' low top rr q) ji pts.
Proof.
  intros c T dtype z n t i clip pts H E. destruct (inited c T H) as (f & Hf & ET & El & Ek & Ed). cbn [Cam_Model.do_call snd] in *.
  unfold world_boundary_call, frame_world_boundary in E. rewrite Hf in E. cbn [bind] in E. destruct (horizon_fov _ _ _); [discriminate|].
  rewrite <- (boundary_same c f n El Ek Ed) in E. destruct (pixel_boundary_call c n) as [ji|] eqn:Ej; [|discriminate]. cbn [bind] in E.
  destruct t as [t|]; [|discriminate]. destruct (range_spec z) as [[Er _]|(low & high & Er & L & Hh)]; rewrite Er in E; [discriminate|]. cbn [bind] in E.
  rewrite ET in E. destruct (Rlt_dec (vz T) low) as [|NL]; [discriminate|].
  set (top := if clip then Rmin high (vz T) else high) in *.
  destruct (world_surf _ _ _ _ _ _ _ _ _) as [xs|] eqn:W; [|discriminate]. cbn [bind rmap] in E. injection E as <-.
  exists ji, low, high, t. split; [reflexivity|]. split; [reflexivity|]. split; [exact L|]. split; [exact Hh|]. split; [lra|]. cbv zeta. fold top.
  assert (LT : (low <= top)%R). { unfold top. destruct L as [V _]. destruct Hh as [_ M]. specialize (M _ V). destruct clip; [apply Rmin_glb; lra|exact M]. }
  unfold world_surf in W. destruct (negb _); [discriminate|]. destruct (_ || _); [discriminate|]. destruct (Req_EM_T (aff_det t) 0) as [|D]; [discriminate|].
  apply mapM_Ok in W. cbn [fst snd] in W. revert W. apply Forall2_lift. intros p q Hp.
  destruct (frame_ray f p) as [rr|] eqn:Fr; [|discriminate]. destruct (frame_ray_spec c f p rr Hf Fr) as [O S].
  destruct (surf_pixel_spec rr z dtype t i low top q S LT D Hp) as (B & Q & St). exists rr, q. auto.
Qed.

(** An integer surface: where the first sample is outside it and NaN becomes a value that is not lower, the point is that sample. *)
Lemma first_sample : forall rr surf t zh zw low top, hits surf (rr top) = true -> pixel_to_world_surf rr surf t zh zw low top = rr top.
Proof.
  intros rr surf t zh zw low top H. unfold pixel_to_world_surf, ray_samples. pose proof (ray_steps_pos (rr top) (rr low) t (max_ray_steps zh zw)) as P.
  destruct (Z.to_nat (ray_steps (rr top) (rr low) t (max_ray_steps zh zw))) as [|[|m]] eqn:E; [unfold max_ray_steps in *; lia| |].
  - cbn. rewrite H. reflexivity.
  - unfold linspace. cbn [seq map find]. replace (top + INR 0 * ((low - top) / INR (Datatypes.S (Datatypes.S m) - 1)))%R with top by (cbn; ring). rewrite H. reflexivity.
Qed.

Theorem integer_outside : forall c T dtype z n t i clip pts v, pos c = Some T ->
  snd (do_call c (WorldBoundary (HArray 2 dtype z) n (Some t) (IEnum i) clip)) = Ok (VPoints pts) ->
  ~ In dtype ["float32"; "float64"] -> cast_nan dtype = Num v ->
  exists ji low high, snd (do_call c (PixelBoundary n)) = Ok (VBoundary ji) /\ lowest z low /\ highest z high /\
  let top := if clip then Rmin high (vz T) else high in
  Forall2 (fun p o => exists rr q, o = Some q /\ on_ray c p rr /\
    ((forall xy, cv_surf i z xy = None) -> (top <= v)%R -> q = rr top)) ji pts.
Proof.
  intros c T dtype z n t i clip pts v H E Nd Cv. destruct (inited c T H) as (f & Hf & ET & El & Ek & Ed). cbn [Cam_Model.do_call snd] in *.
  unfold world_boundary_call, frame_world_boundary in E. rewrite Hf in E. cbn [bind] in E. destruct (horizon_fov _ _ _); [discriminate|].
  rewrite <- (boundary_same c f n El Ek Ed) in E. destruct (pixel_boundary_call c n) as [ji|] eqn:Ej; [|discriminate]. cbn [bind] in E.
  destruct (range_spec z) as [[Er _]|(low & high & Er & L & Hh)]; rewrite Er in E; [discriminate|]. cbn [bind] in E.
  rewrite ET in E. destruct (Rlt_dec (vz T) low) as [|NL]; [discriminate|].
  set (top := if clip then Rmin high (vz T) else high) in *.
  destruct (world_surf _ _ _ _ _ _ _ _ _) as [xs|] eqn:W; [|discriminate]. cbn [bind rmap] in E. injection E as <-.
  exists ji, low, high. split; [reflexivity|]. split; [exact L|]. split; [exact Hh|]. cbv zeta. fold top.
  unfold world_surf in W. destruct (negb _); [discriminate|]. destruct (_ || _); [discriminate|]. destruct (Req_EM_T (aff_det t) 0) as [|D]; [discriminate|].
  apply mapM_Ok in W. cbn [fst snd] in W. revert W. apply Forall2_lift. intros p q Hp.
  destruct (frame_ray f p) as [rr|] eqn:Fr; [|discriminate]. destruct (frame_ray_spec c f p rr Hf Fr) as [O S].
  exists rr, q. split; [reflexivity|]. split; [exact O|]. intros Out Lv. unfold surf_pixel in Hp. destruct (_ || _); [discriminate|]. destruct (negb _); [discriminate|]. injection Hp as <-.
  apply first_sample. apply hits_iff. exists v. split; [|rewrite straight_height by exact S; exact Lv].
  unfold surf_at. destruct (inv_center _ _) as [j k]. rewrite Out. unfold surf_fill. replace (one_of dtype ["float32"; "float64"]) with false; [exact Cv|].
  destruct (one_of dtype ["float32"; "float64"]) eqn:O'; [|reflexivity]. apply one_of_In in O'. contradiction.
Qed.

Lemma surface_call : forall c r T dtype z n t ji low high i (clip : bool), surface_ok c r T dtype z n t ji low high ->
  let top := if clip then Rmin high (vz T) else high in
  exists f, test_init c = Ok f /\ snd (do_call c (WorldBoundary (HArray 2 dtype z) n (Some t) i clip)) =
  rmap VPoints (rmap (map Some) (mapM (fun p => match frame_ray f p with Some rr => surf_pixel cv_surf cast_nan rr z dtype t i low top | None => Err ValueError end) ji)).
Proof.
  intros c r T dtype z n t ji low high i clip (He & Nh & Ej & L & Hh & LT & Hd & Sh & Sw & Na & Ne & D) top.
  assert (Hf : test_init c = Ok (Frame (fc_lens c) (s_ku (fc_st c)) (s_distort (fc_st c)) r T)) by (unfold test_init; rewrite He; reflexivity).
  eexists. split; [exact Hf|]. set (f := Frame _ _ _ r T) in *. cbn [Cam_Model.do_call snd] in *. unfold world_boundary_call, frame_world_boundary. rewrite Hf. cbn [bind].
  assert (HF : horizon_fov f (fc_w c) (fc_h c) = false). { destruct (horizon_fov f (fc_w c) (fc_h c)) eqn:E; [|reflexivity]. apply (horizon_iff f c r eq_refl eq_refl) in E. contradiction. }
  rewrite HF. rewrite <- (boundary_same c f n eq_refl eq_refl eq_refl). destruct (pixel_boundary_call c n) as [ji'|]; [|discriminate]. cbn [rmap] in Ej. injection Ej as ->. cbn [bind].
  rewrite (range_is z low high L Hh). cbn [bind]. change (vz (fr_T f)) with (vz T). destruct (Rlt_dec (vz T) low); [lra|]. fold top. unfold world_surf.
  replace (one_of dtype valid_dtypes) with true by (symmetry; apply one_of_In; exact Hd). cbn [negb]. unfold cv_size in *. unfold shrt_max.
  destruct (Z.ltb_spec 32767 (ah z)); [lia|]. destruct (Z.ltb_spec 32767 (aw z)); [lia|]. cbn [orb]. destruct (Req_EM_T (aff_det t) 0); [contradiction|]. cbn [fst snd].
  destruct (mapM _ ji); reflexivity.
Qed.

Lemma steps_span : forall a b t m, 32767 <= m -> (ray_steps a b t m < 32767 <-> (span t a b <= 32765)%R).
Proof.
  intros a b t m Hm. unfold ray_steps, span. set (s := Rmax _ _). destruct (Rceil_bound s) as [B1 B2]. split; intros H.
  - assert (Rceil s <= 32765) by lia. apply IZR_le in H0. lra.
  - assert (IZR (Rceil s) < IZR 32766)%R by lra. apply lt_IZR in H0. lia.
Qed.

Lemma mapM_all_Ok : forall A B (f : A -> res B) l, (forall x, In x l -> exists y, f x = Ok y) -> exists ys, mapM f l = Ok ys.
Proof.
  intros A B f l. induction l as [|x l IH]; intros H; [eexists; reflexivity|]. cbn. destruct (H x (or_introl eq_refl)) as (y & ->). cbn.
  destruct IH as (ys & ->); [intros; apply H; right; assumption|]. eexists. reflexivity.
Qed.

Lemma mapM_one_Err : forall A B (f : A -> res B) e l, (forall x, In x l -> (exists y, f x = Ok y) \/ f x = Err e) -> (exists x, In x l /\ f x = Err e) -> mapM f l = Err e.
Proof.
  intros A B f e l. induction l as [|x l IH]; intros H (x0 & Hx & E); [destruct Hx|]. cbn. destruct (H x (or_introl eq_refl)) as [(y & Ey)|Ey]; rewrite Ey; [|reflexivity].
  cbn. rewrite IH; [reflexivity|intros; apply H; right; assumption|]. destruct Hx as [<-|Hx]; [congruence|]. exists x0. auto.
Qed.

Lemma surf_pixel_eval : forall c f p rr z dtype t i low top, test_init c = Ok f -> on_ray c p rr -> ta t <> 0%R -> te t <> 0%R -> cv_size (ah z) -> cv_size (aw z) ->
  exists r', frame_ray f p = Some r' /\
  ((span t (rr top) (rr low) <= 32765)%R -> exists q, surf_pixel cv_surf cast_nan r' z dtype t (IEnum i) low top = Ok q) /\
  (~ (span t (rr top) (rr low) <= 32765)%R -> surf_pixel cv_surf cast_nan r' z dtype t (IEnum i) low top = Err ExternalError) /\
  surf_pixel cv_surf cast_nan r' z dtype t (IStr i) low top = Err AttributeError.
Proof.
  intros c f p rr z dtype t i low top Hf O Na Ne Sh Sw. destruct (on_ray_frame c f p rr Hf O) as (r' & Er & Eq). exists r'. split; [exact Er|]. unfold surf_pixel.
  destruct (Req_EM_T (ta t) 0); [contradiction|]. destruct (Req_EM_T (te t) 0); [contradiction|]. cbn [orb]. rewrite !Eq.
  assert (Mx : 32767 <= max_ray_steps (ah z) (aw z)) by (unfold max_ray_steps; lia).
  pose proof (steps_span (rr top) (rr low) t _ Mx) as [S1 S2]. assert (P : 1 <= ray_steps (rr top) (rr low) t (max_ray_steps (ah z) (aw z))) by (apply ray_steps_pos; lia).
  split; [|split; [|reflexivity]].
  - intros Sp. replace (cv_sizes _ _ _ _) with true; [eexists; reflexivity|]. symmetry. apply cv_sizes_iff. unfold usable_sizes, cv_size in *. specialize (S2 Sp). lia.
  - intros Sp. destruct (cv_sizes _ _ _ _) eqn:C; [|reflexivity]. apply cv_sizes_iff in C. unfold usable_sizes, cv_size in C. exfalso. apply Sp, S1. lia.
Qed.

Theorem boundary_surface_ok : forall c r T dtype z n t ji low high i (clip : bool), surface_ok c r T dtype z n t ji low high ->
  let top := if clip then Rmin high (vz T) else high in
  (forall p, In p ji -> exists rr, on_ray c p rr) ->
  ((forall p rr, In p ji -> on_ray c p rr -> (span t (rr top) (rr low) <= 32765)%R) ->
   exists pts, snd (do_call c (WorldBoundary (HArray 2 dtype z) n (Some t) (IEnum i) clip)) = Ok (VPoints pts)) /\
  ((exists p rr, In p ji /\ on_ray c p rr /\ ~ (span t (rr top) (rr low) <= 32765)%R) ->
   snd (do_call c (WorldBoundary (HArray 2 dtype z) n (Some t) (IEnum i) clip)) = Err ExternalError) /\
  (ji <> [] -> snd (do_call c (WorldBoundary (HArray 2 dtype z) n (Some t) (IStr i) clip)) = Err AttributeError).
Proof.
  intros c r T dtype z n t ji low high i clip Hs top Hr. pose proof Hs as (He & Nh & Ej & L & Hh & LT & Hd & Sh & Sw & Na & Ne & D).
  split; [|split].
  - intros Hp. destruct (surface_call c r T dtype z n t ji low high (IEnum i) clip Hs) as (f & Hf & E). rewrite E. cbv zeta. fold top.
    destruct (mapM_all_Ok _ _ (fun p => match frame_ray f p with Some rr => surf_pixel cv_surf cast_nan rr z dtype t (IEnum i) low top | None => Err ValueError end) ji) as (ys & ->); [|eexists; reflexivity].
    intros p Ip. destruct (Hr p Ip) as (rr & O). destruct (surf_pixel_eval c f p rr z dtype t i low top Hf O Na Ne Sh Sw) as (r' & -> & A & _). apply A, Hp with (p := p); assumption.
  - intros (p & rr & Ip & O & Sp). destruct (surface_call c r T dtype z n t ji low high (IEnum i) clip Hs) as (f & Hf & E). rewrite E. cbv zeta. fold top.
    rewrite (mapM_one_Err _ _ (fun p => match frame_ray f p with Some rr => surf_pixel cv_surf cast_nan rr z dtype t (IEnum i) low top | None => Err ValueError end) ExternalError ji); [reflexivity| |].
    + intros p' Ip'. destruct (Hr p' Ip') as (rr' & O'). destruct (surf_pixel_eval c f p' rr' z dtype t i low top Hf O' Na Ne Sh Sw) as (r' & -> & A & B & _).
      destruct (Rle_dec (span t (rr' top) (rr' low)) 32765); [left; auto|right; auto].
    + exists p. split; [exact Ip|]. destruct (surf_pixel_eval c f p rr z dtype t i low top Hf O Na Ne Sh Sw) as (r' & -> & _ & B & _). auto.
  - intros Nn. destruct (surface_call c r T dtype z n t ji low high (IStr i) clip Hs) as (f & Hf & E). rewrite E. cbv zeta. fold top.
    rewrite (mapM_one_Err _ _ (fun p => match frame_ray f p with Some rr => surf_pixel cv_surf cast_nan rr z dtype t (IStr i) low top | None => Err ValueError end) AttributeError ji); [reflexivity| |].
    + intros p' Ip'. destruct (Hr p' Ip') as (rr' & O'). destruct (surf_pixel_eval c f p' rr' z dtype t i low top Hf O' Na Ne Sh Sw) as (r' & -> & _ & _ & B). auto.
    + destruct ji as [|p l]; [contradiction|]. exists p. split; [left; reflexivity|]. destruct (Hr p (or_introl eq_refl)) as (rr & O).
      destruct (surf_pixel_eval c f p rr z dtype t i low top Hf O Na Ne Sh Sw) as (r' & -> & _ & _ & B). auto.
Qed.

Theorem boundary_errors : forall c r T z n t i clip, s_ext (fc_st c) = Some (r, T) ->
  (sees_horizon c r -> snd (do_call c (WorldBoundary z n t i clip)) = Err OrthorityError) /\
  (forall ji, ~ sees_horizon c r -> snd (do_call c (PixelBoundary n)) = Ok (VBoundary ji) ->
   (z = HOther \/ (exists k dtype a, z = HArray k dtype a /\ (k <> 2%nat \/ t = None \/ (forall v, ~ valued a v) \/ (exists low, lowest a low /\ (vz T < low)%R))) ->
    snd (do_call c (WorldBoundary z n t i clip)) = Err ValueError) /\
   (forall h, z = HScalar h -> snd (do_call c (WorldBoundary z n t i clip)) =
      snd (do_call c (PixelToWorld (Nd "float64" [2; Z.of_nat (List.length ji)] (map num2 ji)) (ZScalar (Num (if clip then Rmin h (vz T) else h))))))).
Proof.
  intros c r T z n t i clip He.
  assert (Hf : test_init c = Ok (Frame (fc_lens c) (s_ku (fc_st c)) (s_distort (fc_st c)) r T)) by (unfold test_init; rewrite He; reflexivity).
  set (f := Frame _ _ _ r T) in *. cbn [Cam_Model.do_call snd] in *. unfold world_boundary_call, frame_world_boundary, pixel_to_world_call. rewrite Hf. cbn [bind]. split.
  - intros S. apply (horizon_iff f c r eq_refl eq_refl) in S. rewrite S. reflexivity.
  - intros ji Nh Ej. assert (HF : horizon_fov f (fc_w c) (fc_h c) = false). { destruct (horizon_fov f (fc_w c) (fc_h c)) eqn:E; [|reflexivity]. apply (horizon_iff f c r eq_refl eq_refl) in E. contradiction. }
    rewrite HF. rewrite <- (boundary_same c f n eq_refl eq_refl eq_refl). destruct (pixel_boundary_call c n) as [ji'|]; [|discriminate]. cbn [rmap] in Ej. injection Ej as ->. cbn [bind]. split.
    + intros [->|(k & dtype & a & -> & H)]; [reflexivity|]. destruct (Nat.eq_dec k 2) as [->|Nk]; [|destruct k as [|[|[|k]]]; try reflexivity; contradiction].
      destruct t as [t|]; [|reflexivity]. destruct H as [H|[H|H]]; [contradiction|discriminate|].
      destruct (range_spec a) as [[-> _]|(low & high & -> & L & Hh)]; [reflexivity|]. cbn [bind]. destruct H as [H|(low' & L' & LT)]; [destruct L as [V _]; destruct (H _ V)|].
      rewrite (lowest_unique _ _ _ L' L) in LT. change (vz (fr_T f)) with (vz T). destruct (Rlt_dec (vz T) low); [reflexivity|contradiction].
    + intros h ->. change (vz (fr_T f)) with (vz T). unfold validate_pixel_coords, frame_p2w_array. cbn [nd_shape nd_data bind validate_z negb rmap]. rewrite map_map. do 2 f_equal. apply map_ext. intros [j k]. reflexivity.
Qed.

(** * Reading *)
Lemma asked_band_list : forall ix n bs, asked ix n bs <-> band_list ix n = bs.
Proof.
  intros [|b|l] n bs; cbn [asked band_list].
  - assert (E : map Z.of_nat (seq 1 n) = map (fun k => Z.of_nat (S k)) (seq 0 n)) by (rewrite <- seq_shift, map_map; reflexivity). rewrite E. split; congruence.
  - split; congruence.
  - split; congruence.
Qed.

Lemma F2len : forall A B (P : A -> B -> Prop) l xs, Forall2 P l xs -> List.length l = List.length xs.
Proof. intros A B P l xs F. induction F; cbn; congruence. Qed.

Lemma read_image_spec : forall im_file ix dtype out, read_image convert im_file ix dtype = Ok out <->
  exists im d bs data, im_file = Ok im /\ read_dtype im dtype d /\ asked ix (List.length (if_bands im)) bs /\
  out = Nd d [Z.of_nat (List.length bs); if_h im; if_w im] data /\
  Forall2 (fun b a => exists bd px, 1 <= b /\ nth_error (if_bands im) (Z.to_nat (b - 1)) = Some (bd, px) /\ a = Arr (if_h im) (if_w im) (fun r c => convert bd d (px r c))) bs data.
Proof.
  intros im_file ix dtype out. unfold read_image. destruct im_file as [im|e]; cbn [bind]; [|split; [discriminate|intros (im & d & bs & data & E & _); discriminate]].
  assert (Dt : forall d, match dtype with Some s => if String.eqb s "" then match if_bands im with (d, _) :: _ => Ok d | [] => Err IndexError end else Ok s
                        | None => match if_bands im with (d, _) :: _ => Ok d | [] => Err IndexError end end = Ok d <-> read_dtype im dtype d).
  { intros d. unfold read_dtype. destruct dtype as [s|]; [destruct (String.eqb s "")|]; try (destruct (if_bands im) as [|[d' px] l]; cbn; split; congruence). all: split; congruence. }
  match goal with |- (do x <- ?m; _) = _ <-> _ => destruct m as [d|e] eqn:Ed end; cbn [bind].
  - assert (Rd : forall d', read_dtype im dtype d' <-> d = d') by (intros d'; specialize (Dt d'); try rewrite Ed in Dt; rewrite <- Dt; split; congruence).
    set (g := fun b => if b <? 1 then Err IndexError else match nth_error (if_bands im) (Z.to_nat (b - 1)) with Some (d0, px) => Ok (Arr (if_h im) (if_w im) (fun r c => convert d0 d (px r c))) | None => Err IndexError end).
    assert (G : forall b a, g b = Ok a <-> exists bd px, 1 <= b /\ nth_error (if_bands im) (Z.to_nat (b - 1)) = Some (bd, px) /\ a = Arr (if_h im) (if_w im) (fun r c => convert bd d (px r c))).
    { intros b a. unfold g. destruct (Z.ltb_spec b 1); [split; [discriminate|intros (bd & px & L & _); lia]|].
      destruct (nth_error (if_bands im) (Z.to_nat (b - 1))) as [[bd px]|]; split.
      - intros E. injection E as <-. exists bd, px. split; [lia|]. auto.
      - intros (bd' & px' & _ & E & ->). injection E as <- <-. reflexivity.
      - discriminate.
      - intros (bd' & px' & _ & E & _). discriminate. }
    assert (GF : forall bs data, mapM g bs = Ok data <-> Forall2 (fun b a => exists bd px, 1 <= b /\ nth_error (if_bands im) (Z.to_nat (b - 1)) = Some (bd, px) /\ a = Arr (if_h im) (if_w im) (fun r c => convert bd d (px r c))) bs data).
    { intros bs data. rewrite mapM_Ok. split; intros F; induction F; constructor; auto; apply G; assumption. }
    split.
    + intros E. destruct (mapM g (band_list ix (List.length (if_bands im)))) as [data|] eqn:M; [|discriminate]. cbn [bind] in E. injection E as <-.
      apply GF in M. exists im, d, (band_list ix (List.length (if_bands im))), data. split; [reflexivity|]. split; [apply Rd; reflexivity|]. split; [apply asked_band_list; reflexivity|].
      split; [|exact M]. rewrite (F2len _ _ _ _ _ M). reflexivity.
    + intros (im' & d' & bs & data & E & Hd & Hb & -> & F). injection E as <-. apply Rd in Hd. subst d'. apply asked_band_list in Hb. subst bs. apply GF in F. rewrite F. cbn [bind].
      apply GF in F. rewrite (F2len _ _ _ _ _ F). reflexivity.
  - split; [discriminate|]. intros (im' & d & bs & data & E & Hd & _). injection E as <-. apply Dt in Hd. congruence.
Qed.

Lemma Forall2_weaken : forall A B (P Q : A -> B -> Prop) l xs, (forall a b, P a b -> Q a b) -> Forall2 P l xs -> Forall2 Q l xs.
Proof. intros A B P Q l xs H F. induction F; constructor; auto. Qed.

Theorem read_distorted : forall c im_file ix dtype nodata i, s_distort (fc_st c) = true ->
  (forall v, snd (do_call c (ReadC im_file ix dtype nodata i)) = Ok v ->
   exists im d bs data, im_file = Ok im /\ read_dtype im dtype d /\ asked ix (List.length (if_bands im)) bs /\
   v = VImage (Nd d [Z.of_nat (List.length bs); if_h im; if_w im] data) /\ Forall2 (holds_band convert im d) bs data) /\
  (forall im d bs, im_file = Ok im -> read_dtype im dtype d -> asked ix (List.length (if_bands im)) bs ->
   Forall (fun b => 1 <= b <= Z.of_nat (List.length (if_bands im))) bs ->
   exists v, snd (do_call c (ReadC im_file ix dtype nodata i)) = Ok v) /\
  (forall im d bs, im_file = Ok im -> read_dtype im dtype d -> asked ix (List.length (if_bands im)) bs ->
   ~ Forall (fun b => 1 <= b <= Z.of_nat (List.length (if_bands im))) bs ->
   snd (do_call c (ReadC im_file ix dtype nodata i)) = Err IndexError).
Proof.
  intros c im_file ix dtype nodata i D. cbn [Cam_Model.do_call snd]. unfold read_call. rewrite D.
  assert (Ev : snd (let (c', r) := match read_image convert im_file ix dtype with Err e => (c, Err e) | Ok im => (c, Ok im) end in (c', rmap VImage r)) = rmap VImage (read_image convert im_file ix dtype))
    by (destruct (read_image convert im_file ix dtype); reflexivity). rewrite Ev. clear Ev.
  split; [|split].
  - intros v H. destruct (read_image convert im_file ix dtype) as [out|] eqn:E; [|discriminate]. injection H as <-. apply read_image_spec in E.
    destruct E as (im & d & bs & data & E1 & E2 & E3 & -> & F). exists im, d, bs, data. split; [exact E1|]. split; [exact E2|]. split; [exact E3|]. split; [reflexivity|].
    revert F. apply Forall2_weaken. intros b a (bd & px & B & N & ->). exists bd, px. cbn [ah aw aget]. auto.
  - intros im d bs E1 E2 E3 F.
    assert (X : exists data, Forall2 (fun b a => exists bd px, 1 <= b /\ nth_error (if_bands im) (Z.to_nat (b - 1)) = Some (bd, px) /\ a = Arr (if_h im) (if_w im) (fun r c => convert bd d (px r c))) bs data).
    { clear E3. induction F as [|b bs B F IH]; [exists []; constructor|]. destruct IH as (data & IH).
      destruct (nth_error (if_bands im) (Z.to_nat (b - 1))) as [[bd px]|] eqn:N; [|apply nth_error_None in N; lia].
      eexists. constructor; [|exact IH]. exists bd, px. split; [lia|]. split; [exact N|reflexivity]. }
    destruct X as (data & X). assert (E : read_image convert im_file ix dtype = Ok (Nd d [Z.of_nat (List.length bs); if_h im; if_w im] data)).
    { apply read_image_spec. exists im, d, bs, data. auto. }
    rewrite E. eexists. reflexivity.
  - intros im d bs E1 E2 E3 NF. destruct (read_image convert im_file ix dtype) as [out|e] eqn:E.
    + exfalso. apply NF. apply read_image_spec in E. destruct E as (im' & d' & bs' & data & E1' & _ & E3' & _ & F). rewrite E1 in E1'. injection E1' as <-.
      apply asked_band_list in E3, E3'. rewrite E3 in E3'. subst bs'. clear -F. induction F as [|b a bs data (bd & px & B & N & _) F IH]; constructor; [|exact IH].
      assert (L : (Z.to_nat (b - 1) < List.length (if_bands im))%nat) by (apply nth_error_Some; congruence). lia.
    + unfold read_image in E. subst im_file. cbn [bind] in E.
      match type of E with (do x <- ?m; _) = _ => assert (M : m = Ok d) end.
      { unfold read_dtype in E2. destruct dtype as [s|]; [destruct (String.eqb s "")|]; try (destruct (if_bands im) as [|[d' px] l]; cbn in E2; congruence). all: congruence. }
      rewrite M in E. cbn [bind] in E. match type of E with (do x <- ?m; _) = _ => destruct m as [data|e'] eqn:Md end; cbn [bind] in E; [discriminate|]. injection E as ->.
      apply mapM_err in Md. destruct Md as (b & _ & Eb). destruct (b <? 1); [injection Eb as <-; reflexivity|]. destruct (nth_error _ _) as [[bd px]|]; [discriminate|injection Eb as <-; reflexivity].
Qed.

Lemma read_distort_set : forall c im_file ix dtype nodata i, snd (do_call (fst (do_call c (SetDistortC true))) (ReadC im_file ix dtype nodata i)) = rmap VImage (read_image convert im_file ix dtype).
Proof. intros. cbn [Cam_Model.do_call fst snd]. unfold read_call. cbn [fc_st set_state set_distort s_distort]. destruct (read_image convert im_file ix dtype); reflexivity. Qed.

Section Read.
Variable pin : bool.
Variable lens_of : intr -> lens.
Variable im_size : list Z.
Variable focal : list R.
Variable sensor : option (list R).
Variables cx cy : R.
Notation init p d a := (frame_init pin lens_of im_size focal sensor cx cy (fst p) (snd p) d a).

Lemma read_new : forall p a c im_file ix dtype nodata i src, init p false a = Ok c -> read_image convert im_file ix dtype = Ok src -> image_array src ->
  (nodata = None -> snd (do_call c (ReadC im_file ix dtype nodata i)) = Err KeyError) /\
  forall v, nodata = Some v ->
  (pin = true -> snd (do_call c (ReadC im_file ix dtype nodata i)) = Ok (VImage src)) /\
  (pin = false -> snd (do_call c (ReadC im_file ix dtype nodata i)) = rmap VImage (undistort_im cv_image c (Some (undistort_maps (fc_lens c) (s_ku (fc_st c)))) src v i)).
Proof.
  intros p a c im_file ix dtype nodata i src H E I. destruct (init_parts _ _ _ _ _ _ _ _ _ _ _ H) as (k & w & h & rest & ext & _ & _ & _ & ->).
  cbn [Cam_Model.do_call]. unfold read_call. rewrite E. cbn [fc_st cam_init s_distort]. destruct (image_checked _ src) as [[V _]|[_ N]]; [|contradiction]. split.
  - intros ->. reflexivity.
  - intros v ->. rewrite V. unfold read. cbn [s_distort s_maps fc_pinhole fc_lens fc_st s_ku cam_init]. split; intros ->; unfold undistort_im; rewrite V; reflexivity.
Qed.

Lemma k_solve_apply : forall k p, kfx k <> 0%R -> kfy k <> 0%R -> k_solve k (k_apply k p) = p.
Proof. intros [fx fy px py] [x y] Hx Hy. unfold k_solve, k_apply. cbn in *. f_equal; field; assumption. Qed.

Lemma run_app : forall c ks k, run_calls c (ks ++ [k]) = fst (do_call (run_calls c ks) k).
Proof. intros. unfold Cam_Model.run_calls. rewrite fold_left_app. reflexivity. Qed.

Lemma run_app2 : forall c ks k k', run_calls c (ks ++ [k; k']) = fst (do_call (fst (do_call (run_calls c ks) k)) k').
Proof. intros. unfold Cam_Model.run_calls. rewrite fold_left_app. reflexivity. Qed.

Lemma source_map : forall c ks, let c' := run_calls c ks in kfx (s_ku (fc_st c')) <> 0%R -> kfy (s_ku (fc_st c')) <> 0%R ->
  is_source_map c ks (undistort_maps (fc_lens c') (s_ku (fc_st c'))).
Proof.
  intros c ks c' Hx Hy xyz opk pt j i Rf. rewrite !run_app2. fold c'. cbn [Cam_Model.do_call fst]. destruct (extrinsic_ok (Some xyz, Some opk) Rf) as (e & Ee). cbn [fst snd] in Ee. rewrite Ee.
  destruct e as [[r t]|]; [|destruct xyz as [|x [|y [|z [|u l]]]]; destruct opk as [|o [|q [|s [|w m]]]]; discriminate].
  unfold set_state, set_distort. cbn [fst snd]. unfold world_to_pixel_call, test_init. cbn [fc_st s_ext fc_lens s_ku s_distort set_state bind]. unfold validate_world_coords. cbn [nd_shape nd_dtype nd_data String.eqb Ascii.eqb bind Bool.eqb map rmap].
  unfold world_to_pixel. destruct pt as [[[|x] [|y]] [|z]]; try discriminate. cbn [fr_R fr_T active_lens fr_distort fr_lens fr_ku]. destruct (Req_EM_T _ _); [discriminate|].
  intros E. injection E as E1 E2. unfold pinhole in *. cbn [l_fwd num2 fst snd] in *. do 3 f_equal. unfold undistort_maps. subst j i.
  match goal with |- l_fwd _ ?a = l_fwd _ (k_solve _ ?b) => change b with (k_apply (s_ku (fc_st c')) a) end. rewrite k_solve_apply by assumption. reflexivity.
Qed.

Theorem read_undistorted : forall p d a c ks im_file ix dtype i v src, init p d a = Ok c -> distort_after ks d = false ->
  snd (do_call (run_calls c (ks ++ [SetDistortC true])) (ReadC im_file ix dtype None i)) = Ok (VImage src) -> cv_dtype (nd_dtype src) ->
  let w := fc_w c in let h := fc_h c in
  (image_array src -> snd (do_call (run_calls c ks) (ReadC im_file ix dtype None i)) = Err KeyError) /\
  (~ image_array src -> snd (do_call (run_calls c ks) (ReadC im_file ix dtype (Some v) i)) = Err ValueError) /\
  (pin = true -> image_array src -> snd (do_call (run_calls c ks) (ReadC im_file ix dtype (Some v) i)) = Ok (VImage src)) /\
  (pin = false -> interp_name i -> 0 < w < 32767 -> 0 < h < 32767 ->
   let ku := s_ku (fc_st (run_calls c ks)) in kfx ku <> 0%R -> kfy ku <> 0%R ->
   exists m, is_source_map c ks m /\
   forall n, nd_shape src = [n; h; w] ->
   exists out, snd (do_call (run_calls c ks) (ReadC im_file ix dtype (Some v) i)) = Ok (VImage out) /\ undistorted i v m src out) /\
  (pin = false -> interp_name i -> 0 < w < 32767 -> 0 < h < 32767 ->
   forall n h' w', nd_shape src = [n; h'; w'] -> h' < 32767 -> w' < 32767 -> (h', w') <> (h, w) ->
   exists out, snd (do_call (run_calls c ks) (ReadC im_file ix dtype (Some v) i)) = Ok (VImage out) /\ nd_shape out = nd_shape src /\
   Forall (fun b => ah b = h' /\ aw b = w' /\ forall r col, aget b r col = v) (nd_data out)).
Proof.
  intros p d a c ks im_file ix dtype i v src H Dd E Hd w h. rewrite run_app, read_distort_set in E.
  destruct (read_image convert im_file ix dtype) as [src'|] eqn:Er; [|discriminate]. injection E as ->.
  destruct (run_like cv_surf cast_nan cv_image convert pin lens_of im_size focal sensor cx cy ks c p d a c H (init_like _ _ _ _ _ _ _ _ _ _ _ H)) as (c' & H' & L).
  pose proof (fun k => call_like cv_surf cast_nan cv_image convert (run_calls c ks) c' k L) as CL. rewrite Dd in H'.
  assert (Sz : fc_w c' = w /\ fc_h c' = h).
  { destruct (init_parts _ _ _ _ _ _ _ _ _ _ _ H) as (k & w0 & h0 & rest & ext & S & _ & _ & ->). destruct (init_parts _ _ _ _ _ _ _ _ _ _ _ H') as (k' & w1 & h1 & rest' & ext' & S' & _ & _ & ->).
    rewrite S in S'. injection S' as -> -> _. auto. }
  destruct Sz as [Sw Sh]. pose proof L as (L1 & L2 & L3 & L4 & L5 & L6 & L7 & L8 & L9 & L10).
  assert (Bands : forall n h' w', nd_shape src = [n; h'; w'] -> Forall (fun b => ah b = h' /\ aw b = w') (nd_data src)).
  { intros n h' w' S. apply read_image_spec in Er. destruct Er as (im & dd & bs & data & _ & _ & _ & Es & F). subst src. cbn [nd_shape nd_data] in *. injection S as <- <- <-.
    clear -F. induction F as [|b x bs data (bd & px & _ & _ & ->) F IH]; constructor; [cbn; auto|exact IH]. }
  split; [|split; [|split; [|split]]].
  - intros I. rewrite CL. destruct (read_new _ _ _ im_file ix dtype None i src H' Er I) as [A _]. apply A. reflexivity.
  - intros I. rewrite CL. destruct (init_parts _ _ _ _ _ _ _ _ _ _ _ H') as (k & w0 & h0 & rest & ext & _ & _ & _ & ->).
    cbn [Cam_Model.do_call]. unfold read_call. rewrite Er. cbn [fc_st cam_init s_distort]. destruct (image_checked _ src) as [[_ V]|[V _]]; [contradiction|]. rewrite V. reflexivity.
  - intros P I. rewrite CL. destruct (read_new _ _ _ im_file ix dtype (Some v) i src H' Er I) as [_ A]. apply (A v eq_refl), P.
  - intros P Hn Bw Bh ku Kx Ky. exists (undistort_maps (fc_lens (run_calls c ks)) (s_ku (fc_st (run_calls c ks)))). split; [apply source_map; assumption|].
    intros n S. assert (I : image_array src) by (split; [exact Hd|]; exists n, h, w; split; [exact S|]; lia).
    rewrite CL. destruct (read_new _ _ _ im_file ix dtype (Some v) i src H' Er I) as [_ A]. rewrite (proj2 (A v eq_refl) P). rewrite L2, L6. unfold undistort_im.
    destruct (image_checked _ src) as [[V _]|[_ N]]; [|contradiction]. rewrite V. cbn [bind].
    assert (Hi : interp_get i = Ok i) by (unfold interp_get; replace (one_of i interps) with true; [reflexivity|symmetry; apply one_of_In, Hn]). rewrite Hi. cbn [bind].
    set (m := undistort_maps (fc_lens c') (s_ku (fc_st c'))).
    assert (X : exists data, mapM (fun b => cv_remap (cv_image i) b (map_array c' m) (Arr (ah b) (aw b) (fun _ _ => v))) (nd_data src) = Ok data /\
      Forall2 (fun b o => ah o = ah b /\ aw o = aw b /\ forall r col, aget o r col = match cv_image i b (m (IZR col, IZR r)) with Some x => x | None => v end) (nd_data src) data).
    { pose proof (Bands n h w S) as F. clear -F Sw Sh Bw Bh. induction F as [|b bs [Eh Ew] F IH]; [exists []; split; [reflexivity|constructor]|]. destruct IH as (data & M & F2). cbn [mapM].
      unfold cv_remap at 1. cbn [map_array ah aw]. rewrite Sw, Sh, Eh, Ew. replace (cv_sizes h w h w) with true by (symmetry; apply cv_sizes_iff; unfold usable_sizes, cv_size; lia).
      rewrite !Z.eqb_refl. cbn [negb andb bind]. rewrite M. cbn [bind]. eexists. split; [reflexivity|]. constructor; [|exact F2]. cbn [ah aw aget]. auto. }
    destruct X as (data & M & F2). rewrite M. cbn [bind rmap]. eexists. split; [reflexivity|]. split; [reflexivity|]. split; [reflexivity|]. exact F2.
  - intros P Hn Bw Bh n h' w' S Bh' Bw' Ne. assert (I : image_array src) by (split; [exact Hd|]; exists n, h', w'; split; [exact S|]; lia).
    rewrite CL. destruct (read_new _ _ _ im_file ix dtype (Some v) i src H' Er I) as [_ A]. rewrite (proj2 (A v eq_refl) P). unfold undistort_im.
    destruct (image_checked _ src) as [[V _]|[_ N]]; [|contradiction]. rewrite V. cbn [bind].
    assert (Hi : interp_get i = Ok i) by (unfold interp_get; replace (one_of i interps) with true; [reflexivity|symmetry; apply one_of_In, Hn]). rewrite Hi. cbn [bind].
    set (m := undistort_maps (fc_lens c') (s_ku (fc_st c'))).
    assert (X : exists data, mapM (fun b => cv_remap (cv_image i) b (map_array c' m) (Arr (ah b) (aw b) (fun _ _ => v))) (nd_data src) = Ok data /\
      Forall (fun b => ah b = h' /\ aw b = w' /\ forall r col, aget b r col = v) data).
    { pose proof (Bands n h' w' S) as F. clear -F Sw Sh Bw Bh Bw' Bh' Ne. induction F as [|b bs [Eh Ew] F IH]; [exists []; split; [reflexivity|constructor]|]. destruct IH as (data & M & F2). cbn [mapM].
      unfold cv_remap at 1. cbn [map_array ah aw]. rewrite Sw, Sh, Eh, Ew. replace (cv_sizes h' w' h w) with true by (symmetry; apply cv_sizes_iff; unfold usable_sizes, cv_size; lia). cbn [negb].
      replace ((h' =? h) && (w' =? w)) with false. 2:{ symmetry. apply andb_false_iff. destruct (Z.eqb_spec h' h); [right; apply Z.eqb_neq; congruence|left; reflexivity]. }
      cbn [bind]. rewrite M. cbn [bind]. eexists. split; [reflexivity|]. constructor; [|exact F2]. cbn [ah aw aget]. auto. }
    destruct X as (data & M & F2). rewrite M. cbn [bind rmap]. eexists. split; [reflexivity|]. split; [reflexivity|]. exact F2.
Qed.
End Read.
End Use.

(** * A case: a camera at the origin that looks down on a surface *)
Definition low_fcam : fcam := FCam true (pinhole (Intr 1 1 1 1)) 3 3 (Cam 1 (Intr 1 1 1 1) None true (Some (flip_yz, V3 0 0 0))).
Definition two_heights : arr fl := Arr 1 2 (fun _ c => if c =? 0 then Num (-430) else Num (-400)).

Lemma low_fcam_init : frame_init true pinhole [3; 3] [1%R] (Some [3%R; 3%R]) 0 0 (Some [0%R; 0%R; 0%R]) (Some [0%R; 0%R; 0%R]) true 1 = Ok low_fcam.
Proof.
  unfold frame_init. unfold get_intrinsic. cbn [bind pair_of fst snd get_extrinsic].
  assert (E : Intr (1 * IZR 3 / 3) (1 * IZR 3 / 3) ((IZR 3 - 1) / 2 + IZR (Z.max 3 3) * 0) ((IZR 3 - 1) / 2 + IZR (Z.max 3 3) * 0) = Intr 1 1 1 1).
  { f_equal; cbn; field. }
  rewrite E. assert (F : extrinsic_rotation (0%R, 0%R, 0%R) = flip_yz).
  { unfold extrinsic_rotation, opk_to_rotation. rewrite cos_0, sin_0. meq; ring. }
  rewrite F. reflexivity.
Qed.

Lemma low_fcam_ray : forall p, on_ray low_fcam p (fun z => V3 (- z * (fst p - 1)) (z * (snd p - 1)) z).
Proof.
  intros [j i]. assert (E : frame_ray low_cam (j, i) = Some (fun z => p2w_tot low_cam z (j, i))).
  { unfold frame_ray. destruct (Req_EM_T _ _) as [X|_]; [exfalso; revert X; unfold ray, low_cam, active_lens, flip_yz, mk, mvec, dot; cbn; lra|reflexivity]. }
  destruct (frame_ray_spec low_fcam low_cam (j, i) _ eq_refl E) as [O _]. intros h. rewrite O, low_p2w. reflexivity.
Qed.

Lemma low_no_horizon : ~ sees_horizon low_fcam flip_yz.
Proof. intros S. apply (horizon_iff low_cam low_fcam flip_yz eq_refl eq_refl) in S. change (fc_w low_fcam) with 3 in S. change (fc_h low_fcam) with 3 in S. rewrite low_horizon in S. discriminate. Qed.

Lemma two_heights_range : lowest two_heights (-430) /\ highest two_heights (-400).
Proof.
  assert (V : forall u, valued two_heights u -> u = (-430)%R \/ u = (-400)%R).
  { intros u (r & c & _ & _ & E). unfold two_heights in E. cbn [aget] in E. destruct (c =? 0); injection E as <-; auto. }
  assert (L : valued two_heights (-430)) by (exists 0, 0; cbn; repeat split; lia). assert (H : valued two_heights (-400)) by (exists 0, 1; cbn; repeat split; lia).
  split; (split; [assumption|]); intros u Hu; destruct (V u Hu) as [-> | ->]; lra.
Qed.

Lemma low_surface : forall dtype, cv_dtype dtype -> surface_ok low_fcam flip_yz (V3 0 0 0) dtype two_heights None low_dem (boundary8 3 3) (-430) (-400).
Proof.
  intros dtype Hd. destruct two_heights_range as [L H]. unfold surface_ok. split; [reflexivity|]. split; [exact low_no_horizon|]. split; [reflexivity|]. split; [exact L|]. split; [exact H|].
  split; [cbn; lra|]. split; [exact Hd|]. unfold cv_size, low_dem. cbn [ah aw two_heights ta te tb td]. repeat split; try lia; lra.
Qed.

Lemma low_span : forall p rr (clip : bool), In p (boundary8 3 3) -> on_ray low_fcam p rr ->
  let top := if clip then Rmin (-400) (vz (V3 0 0 0)) else (-400)%R in (span low_dem (rr top) (rr (-430)%R) <= 32765)%R.
Proof.
  intros p rr clip Hp O top. assert (T : top = (-400)%R) by (unfold top; destruct clip; cbn; [apply Rmin_left; lra|reflexivity]). rewrite T. clear top T.
  pose proof (low_fcam_ray p) as O'. assert (Q : forall h, rr h = V3 (- h * (fst p - 1)) (h * (snd p - 1)) h).
  { intros h. specialize (O h). specialize (O' h). cbv beta in O'. rewrite O in O'. congruence. }
  rewrite !Q. unfold span, low_dem. cbn [vx vy ta te]. apply Rmax_lub; apply Rabs_le; unfold boundary8 in Hp; cbn [In] in Hp;
    repeat (destruct Hp as [<-|Hp]; [cbn [fst snd]; lra|]); contradiction.
Qed.
