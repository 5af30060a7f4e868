(** Proofs of C91 and C92. *)
From Coq Require Import String List Reals ZArith Lra Lia Bool.
From Verif Require Import Py Py_Proof Flt Mat Rot_Model Rot_Spec Rot_Proof Remap_Model Remap_Spec Remap_Proof Frame_Model Frame_Spec Frame_Proof Undist_Model Cam_Model Cam_Spec Cam_Proof Proj_Spec.
Import ListNotations.
Open Scope string_scope.
Open Scope list_scope.
Open Scope Z_scope.

Lemma intrinsics_of : forall w h focal sensor cx cy K, get_intrinsic w h focal sensor cx cy = Ok K -> intrinsics w h focal sensor cx cy K.
Proof.
  intros w h focal sensor cx cy K H. unfold get_intrinsic in H.
  destruct sensor as [[|sw [|sh [|u s]]]|]; cbn [bind] in H; try discriminate; destruct focal as [|fx [|fy [|v f]]]; cbn [pair_of bind] in H; try discriminate;
    injection H as <-; [exists fx, fx|exists fx, fy|exists fx, fx|exists fx, fy]; cbn [kfx kfy kcx kcy fst snd];
    (split; [auto|]; split; [|split; ring]); [exists sw, sh|exists sw, sh|auto|auto]; (split; [reflexivity|]; split; intros; field; assumption).
Qed.

Lemma turned_is : forall o p k v, turned o p k v = mvec (extrinsic_rotation (o, p, k)) v.
Proof.
  intros o p k v. unfold turned, extrinsic_rotation. rewrite <- opk_rotates. destruct v as [a b c].
  unfold mmul, mvec, mtr, flip_yz, mk, dot. cbn. apply vec_eq; cbn; ring.
Qed.

Lemma extrinsic_is_rotation : forall e, rotation (extrinsic_rotation e).
Proof. intros [[o p] k]. unfold extrinsic_rotation. apply rotation_mul; [apply opk_rotation|apply flip_rotation]. Qed.

Lemma seen_iff : forall x y z o p k v P, seen_at (V3 x y z) o p k v P <-> v = mvec (mtr (extrinsic_rotation (o, p, k))) (vsub P (V3 x y z)).
Proof.
  intros x y z o p k v P. unfold seen_at. rewrite turned_is. pose proof (extrinsic_is_rotation (o, p, k)) as Hr. split.
  - intros ->. replace (vsub (vadd (V3 x y z) (mvec (extrinsic_rotation (o, p, k)) v)) (V3 x y z)) with (mvec (extrinsic_rotation (o, p, k)) v)
      by (destruct (mvec (extrinsic_rotation (o, p, k)) v); unfold vsub, vadd; cbn; apply vec_eq; cbn; ring).
    rewrite <- mvec_mmul. destruct Hr as [-> _]. symmetry. apply mvec_I.
  - intros ->. rewrite <- mvec_mmul. destruct (rotation_tr _ Hr) as [-> _]. rewrite mvec_I. destruct P. unfold vsub, vadd. cbn. apply vec_eq; cbn; ring.
Qed.

Section Projection.
Variable cv_surf : string -> arr fl -> fl * fl -> option fl.
Variable cast_nan : string -> fl.
Variable cv_image : string -> arr pix -> fl * fl -> option pix.
Variable convert : string -> string -> pix -> pix.
Notation do_call := (do_call cv_surf cast_nan cv_image convert).
Notation run_calls := (run_calls cv_surf cast_nan cv_image convert).

Definition undistorted_intr (pin : bool) (l : lens) (w h : Z) (a : R) (K : intr) : intr := if pin then K else undistort_intrinsic (l_inv l) w h a.

Lemma init_frame : forall pin lens_of w h focal sensor cx cy x y z o p k d a c,
  frame_init pin lens_of [w; h] focal sensor cx cy (Some [x; y; z]) (Some [o; p; k]) d a = Ok c ->
  exists K, intrinsics w h focal sensor cx cy K /\
  test_init c = Ok (Frame (lens_of K) (undistorted_intr pin (lens_of K) w h a K) d (extrinsic_rotation (o, p, k)) (V3 x y z)).
Proof.
  intros pin lens_of w h focal sensor cx cy x y z o p k d a c H. unfold frame_init in H.
  destruct (get_intrinsic w h focal sensor cx cy) as [K|] eqn:E; [|discriminate]. cbn in H. injection H as <-.
  exists K. split; [apply intrinsics_of, E|]. reflexivity.
Qed.

Theorem projects : forall pin lens_of w h focal sensor cx cy x y z o p k d a c,
  frame_init pin lens_of [w; h] focal sensor cx cy (Some [x; y; z]) (Some [o; p; k]) d a = Ok c ->
  exists K, intrinsics w h focal sensor cx cy K /\
  forall P, exists v q, seen_at (V3 x y z) o p k v P /\ (forall v', seen_at (V3 x y z) o p k v' P -> v' = v) /\
  snd (do_call c (WorldToPixel (one_point (num3 P)))) = Ok (VPixels [q]) /\
  (vz v = 0%R -> q = (Nan, Nan)) /\
  (vz v <> 0%R -> let xy := (vx v / vz v, vy v / vz v)%R in
   (d = true -> q = l_fwd (lens_of K) xy) /\
   (d = false -> pin = true -> q = to_pixel K xy) /\
   (d = false -> pin = false -> q = to_pixel (undistort_intrinsic (l_inv (lens_of K)) w h a) xy)).
Proof.
  intros pin lens_of w h focal sensor cx cy x y z o p k d a c H. destruct (init_frame _ _ _ _ _ _ _ _ _ _ _ _ _ _ _ _ _ H) as (K & HK & HT).
  exists K. split; [exact HK|]. intros P. set (v := mvec (mtr (extrinsic_rotation (o, p, k))) (vsub P (V3 x y z))). exists v.
  eexists. split; [apply seen_iff; reflexivity|]. split; [intros v' Hv'; apply seen_iff in Hv'; exact Hv'|]. split.
  { cbn [Cam_Model.do_call snd]. unfold world_to_pixel_call. rewrite HT. reflexivity. }
  unfold num3, world_to_pixel. cbn [fr_R fr_T fr_lens fr_ku fr_distort].
  replace (V3 (vx P) (vy P) (vz P)) with P by (destruct P; reflexivity). fold v. split.
  - intros E. destruct (Req_EM_T (vz v) 0); [reflexivity|contradiction].
  - intros N. cbv zeta. destruct (Req_EM_T (vz v) 0); [contradiction|]. unfold active_lens, undistorted_intr. cbn [fr_lens fr_ku fr_distort].
    split; [intros ->; reflexivity|]. split; [intros -> ->; reflexivity|intros -> ->; reflexivity].
Qed.

Theorem projects_nan : forall c T p, pos c = Some T -> (let '(x, y, z) := p in x = Nan \/ y = Nan \/ z = Nan) ->
  snd (do_call c (WorldToPixel (one_point p))) = Ok (VPixels [(Nan, Nan)]).
Proof.
  intros c T p H Hp. destruct (inited c T H) as (f & Hf & _). cbn [Cam_Model.do_call snd]. unfold world_to_pixel_call. rewrite Hf. cbn. 
  destruct p as [[x y] z]. destruct x as [|x], y as [|y], z as [|z]; try reflexivity. exfalso. destruct Hp as [E|[E|E]]; discriminate.
Qed.

Theorem back_projects : forall pin lens_of w h focal sensor cx cy x y z o p k d a c,
  frame_init pin lens_of [w; h] focal sensor cx cy (Some [x; y; z]) (Some [o; p; k]) d a = Ok c ->
  exists K, intrinsics w h focal sensor cx cy K /\
  forall j i height,
  let K' := if pin then K else undistort_intrinsic (l_inv (lens_of K)) w h a in
  let xy := if d then l_inv (lens_of K) (j, i) else ((j - kcx K') / kfx K', (i - kcy K') / kfy K')%R in
  let dir := turned o p k (V3 (fst xy) (snd xy) 1) in
  exists q, snd (do_call c (PixelToWorld (one_pixel (Num j, Num i)) (ZScalar (Num height)))) = Ok (VPoints [q]) /\
  (vz dir = 0%R -> q = None) /\
  (vz dir <> 0%R -> exists P s, q = Some P /\ P = vadd (V3 x y z) (vscale s dir) /\ vz P = height).
Proof.
  intros pin lens_of w h focal sensor cx cy x y z o p k d a c H. destruct (init_frame _ _ _ _ _ _ _ _ _ _ _ _ _ _ _ _ _ H) as (K & HK & HT).
  exists K. split; [exact HK|]. intros j i height K' xy dir.
  set (f := Frame (lens_of K) (undistorted_intr pin (lens_of K) w h a K) d (extrinsic_rotation (o, p, k)) (V3 x y z)) in *.
  assert (Hr : ray f (j, i) = dir).
  { unfold ray, dir. rewrite turned_is. unfold xy, K', active_lens, f, undistorted_intr. cbn [fr_lens fr_ku fr_distort fr_R]. destruct d, pin; reflexivity. }
  exists (pixel_to_world_z f (j, i) height). split.
  { cbn [Cam_Model.do_call snd]. unfold pixel_to_world_call. rewrite HT. reflexivity. }
  unfold pixel_to_world_z. rewrite Hr. cbn [f fr_T]. split; intros E; destruct (Req_EM_T (vz dir) 0); try contradiction; [reflexivity|].
  exists (vadd (vscale ((height - vz (V3 x y z)) / vz dir) dir) (V3 x y z)), ((height - vz (V3 x y z)) / vz dir)%R.
  split; [reflexivity|]. split; [unfold vadd, vscale; cbn; apply vec_eq; cbn; ring|]. cbn. field. exact E.
Qed.

(** * Remapping *)
Lemma interp_got : forall i, interp_name i -> interp_get i = Ok i.
Proof. intros i H. unfold interp_get. replace (one_of i interps) with true; [reflexivity|symmetry; apply one_of_In, H]. Qed.

Lemma remap_call_is : forall c f im x y z v i k h w, test_init c = Ok f -> image_array im -> grids x y z -> interp_name i -> image_ok im h w ->
  usable_sizes h w (ah (nd_data x)) (aw (nd_data x)) ->
  remap_call cv_image c im x y z (Some v) i k =
  frame_remap (world_to_pixel f) (fun b j i' => cv_image i b (Num j, Num i')) (RCfg (fr_distort f) (String.eqb i "nearest") (fc_pinhole c))
    (nd_data im) (nd_data x) (nd_data y) (nd_data z) v k.
Proof.
  intros c f im x y z v i k h w Hf I G Hn [Sh Fs] U. unfold remap_call. rewrite Hf.
  destruct (image_checked _ im) as [[-> _]|[_ I']]; [|contradiction]. cbn [bind].
  apply grids_checked in G. destruct G as (-> & -> & -> & ->). rewrite (interp_got i Hn). cbn [bind].
  assert (S1 : forall b, In b (nd_data im) -> cv_sizes (ah b) (aw b) (ah (nd_data x)) (aw (nd_data x)) = true).
  { intros b Hb. rewrite Forall_forall in Fs. destruct (Fs b Hb) as [-> ->]. apply cv_sizes_iff, U. }
  destruct (nd_data im) as [|b bs]; [|rewrite (S1 b (or_introl eq_refl))]; cbn [bind]; destruct (fr_distort f); reflexivity.
Qed.

Lemma forallb_values : forall A (P : A -> bool) l, forallb P l = true <-> forall a, In a l -> P a = true.
Proof. intros. apply forallb_forall. Qed.

Theorem remap_contents : forall pin lens_of im_size focal sensor cx cy (p : pose) d a c0 ks T im x y z v i k h w,
  frame_init pin lens_of im_size focal sensor cx cy (fst p) (snd p) d a = Ok c0 ->
  position (pose_after ks p) = Some T ->
  grid_ok x -> grid_ok y -> grid_ok z -> image_array im -> grids x y z -> interp_name i -> image_ok im h w ->
  usable_sizes h w (ah (nd_data x)) (aw (nd_data x)) ->
  let c := run_calls c0 ks in
  let val := value_at cv_surf cast_nan cv_image convert c (nd_data x) (nd_data y) (nd_data z) v i in
  let empty := empty cv_surf cast_nan cv_image convert c (nd_data x) (nd_data y) (nd_data z) v i (nd_data im) in
  let near := near_empty cv_surf cast_nan cv_image convert c (nd_data x) (nd_data y) (nd_data z) v i (nd_data im) k in
  let blurred := blurs pin (distort_after ks d) i v in
  exists bands mask, snd (do_call c (Remap im x y z (Some v) i k)) = Ok (VRemap (bands, mask)) /\
  Forall2 (fun b out => ah out = ah (nd_data x) /\ aw out = aw (nd_data x) /\ forall row col, 0 <= row < ah (nd_data x) -> 0 <= col < aw (nd_data x) ->
     (~ blurred \/ ~ near row col -> val b row col (aget out row col)) /\ (blurred -> near row col -> aget out row col = v)) (nd_data im) bands /\
  ah mask = ah (nd_data x) /\ aw mask = aw (nd_data x) /\
  forall row col, 0 <= row < ah (nd_data x) -> 0 <= col < aw (nd_data x) ->
    (blurred -> (aget mask row col = true <-> near row col)) /\ (~ blurred -> (aget mask row col = true <-> empty row col)).
Proof.
  intros pin lens_of im_size focal sensor cx cy p d a c0 ks T im x y z v i k h w Hi0 Hpos Gx Gy Gz I G Hn Iok U c val empty near blurred.
  assert (HP : pos c = Some T) by (unfold c; rewrite (position_after cv_surf cast_nan cv_image convert _ _ _ _ _ _ _ _ _ _ _ ks Hi0); exact Hpos).
  destruct (inited c T HP) as (f & Hf & _ & _ & _ & Hd).
  assert (Hset : fc_pinhole c = pin /\ s_distort (fc_st c) = distort_after ks d).
  { destruct (run_like cv_surf cast_nan cv_image convert pin lens_of im_size focal sensor cx cy ks c0 p d a c0 Hi0 (init_like pin lens_of im_size focal sensor cx cy _ _ _ _ Hi0)) as (c2 & H2 & L2).
    destruct L2 as (E1 & _ & _ & _ & _ & _ & E7 & _). fold c in E1, E7. rewrite E1, E7.
    destruct (init_parts pin lens_of im_size focal sensor cx cy _ _ _ _ H2) as (K & w2 & h2 & rest & ext & _ & _ & _ & ->). split; reflexivity. }
  destruct Hset as [Hpin Hdis].
  assert (W : forall q, snd (do_call c (WorldToPixel (one_point q))) = Ok (VPixels [world_to_pixel f q])).
  { intros q. cbn [Cam_Model.do_call snd]. unfold world_to_pixel_call. rewrite Hf. reflexivity. }
  cbn [Cam_Model.do_call snd]. rewrite (remap_call_is c f im x y z v i k h w Hf I G Hn Iok U).
  destruct G as ((m & n & Ex & Ey & Ez) & _). unfold grid_ok in Gx, Gy, Gz. rewrite Gx in Ex. rewrite Gy in Ey. rewrite Gz in Ez. injection Ex as Ex1 Ex2. injection Ey as Ey1 Ey2. injection Ez as Ez1 Ez2.
  set (samp := fun (b : arr pix) (j i' : R) => cv_image i b (Num j, Num i')).
  destruct (camera_remap_ok (world_to_pixel f) samp (nd_data im) (nd_data x) (nd_data y) (nd_data z) v ltac:(lia) ltac:(lia) ltac:(lia) ltac:(lia)) as (arrs & mask & E & Mh & Mw & F & M).
  assert (V : forall b row col u, val b row col u <-> u = remap_value (world_to_pixel f) samp v b (aget (nd_data x) row col, aget (nd_data y) row col, aget (nd_data z) row col)).
  { intros b row col u. unfold val, value_at, remap_value. rewrite W. destruct (world_to_pixel f (aget (nd_data x) row col, aget (nd_data y) row col, aget (nd_data z) row col)) as [j i'] eqn:Ew.
    assert (O : forall t, or_m1 t = Num (nan_to_m1 t)) by (intros [|t]; reflexivity). unfold samp. split.
    - intros (j' & i'' & Ej & Hm). injection Ej as <- <-. rewrite !O in Hm. destruct (cv_image i b (Num (nan_to_m1 j), Num (nan_to_m1 i'))); exact Hm.
    - intros ->. exists j, i'. split; [reflexivity|]. rewrite !O. destruct (cv_image i b (Num (nan_to_m1 j), Num (nan_to_m1 i'))); reflexivity. }
  assert (Em : forall row col, aget mask row col = true <-> empty row col).
  { intros row col. rewrite M, forallb_forall. unfold empty, Proj_Spec.empty. fold val. split.
    - intros Hall b Hb. exists (remap_value (world_to_pixel f) samp v b (aget (nd_data x) row col, aget (nd_data y) row col, aget (nd_data z) row col)).
      split; [apply V; reflexivity|]. apply nan_equals_spec. clear -F Hall Hb.
      induction F as [|b' o ims outs (_ & _ & Ho) F IH]; [destruct Hb|]. destruct Hb as [->|Hb]; [rewrite <- Ho; apply Hall; left; reflexivity|].
      apply IH; [|exact Hb]. intros t Ht. apply Hall. right. exact Ht.
    - intros Hall o Ho. clear -F Hall Ho V. induction F as [|b' o' ims outs (_ & _ & Hv) F IH]; [destruct Ho|]. destruct Ho as [->|Ho].
      + destruct (Hall b' (or_introl eq_refl)) as (u & Hu & Nu). apply V in Hu. subst u. rewrite Hv. apply nan_equals_spec. exact Nu.
      + apply IH; [|exact Ho]. intros t Ht. apply Hall. right. exact Ht. }
  set (cfg := RCfg (fr_distort f) (String.eqb i "nearest") (fc_pinhole c)).
  assert (B : dilation_applies cfg v <-> blurred).
  { unfold dilation_applies, blurred, blurs, cfg. cbn [distort nearest is_pinhole]. rewrite Hd, Hpin, Hdis, String.eqb_neq. tauto. }
  destruct k as [kw kh]. destruct (dilates cfg v) eqn:D.
  - apply dilates_spec in D. destruct (frame_remap_dilation (world_to_pixel f) samp cfg (nd_data im) (nd_data x) (nd_data y) (nd_data z) v kw kh arrs mask D E) as (arrs' & mask' & E' & M' & F').
    assert (S' : ah mask' = ah (nd_data x) /\ aw mask' = aw (nd_data x) /\ Forall (fun o => ah o = ah (nd_data x) /\ aw o = aw (nd_data x)) arrs').
    { unfold frame_remap in E'. rewrite E in E'. cbn [bind] in E'. apply dilates_spec in D. rewrite D in E'. injection E' as <- <-. cbn [ah aw]. split; [exact Mh|]. split; [exact Mw|].
      clear -F. induction F as [|b o ims outs (A1 & A2 & _) F IH]; cbn [map]; constructor; [cbn; auto|exact IH]. }
    destruct S' as (S1 & S2 & S3).
    assert (N : forall row col, aget mask' row col = true <-> near row col).
    { intros row col. rewrite M'. unfold near, near_empty. cbn [fst snd]. fold empty. split; intros (r' & c' & A1 & A2 & A3 & A4); exists r', c'; (split; [exact A1|]; split; [exact A2|]; split; [exact A3|]); apply Em; exact A4. }
    exists arrs', mask'. split; [fold cfg; fold samp; rewrite E'; reflexivity|]. split.
    { clearbody near val blurred. clear -F F' S3 N V B D. revert arrs' F' S3. induction F as [|b o ims outs (A1 & A2 & A3) F IH]; intros arrs' F' S3; inversion F' as [|o1 o' l1 l' Ho F'' Q1 Q2]; subst; [constructor|].
      inversion S3 as [|? ? [B1 B2] S3' ]; subst. constructor; [|apply IH; assumption]. split; [exact B1|]. split; [exact B2|]. intros row col _ _. rewrite Ho. destruct (aget mask' row col) eqn:Em'.
      - apply N in Em'. split; [|reflexivity]. intros [X|X]; exfalso; apply X; [apply B, D|exact Em'].
      - split; [intros _; apply V; apply A3|]. intros _ X. apply N in X. congruence. }
    split; [exact S1|]. split; [exact S2|]. intros row col _ _. split; [intros _; apply N|]. intros X. exfalso. apply X, B, D.
  - pose proof (proj1 (dilates_false cfg v) D) as D'. exists arrs, mask. split; [unfold frame_remap; fold samp; rewrite E; cbn [bind]; fold cfg; rewrite D; reflexivity|]. split.
    { clearbody near val blurred. clear -F V B D'. induction F as [|b o ims outs (A1 & A2 & A3) F IH]; constructor; [|exact IH]. split; [exact A1|]. split; [exact A2|]. intros row col _ _. split; [intros _; apply V, A3|]. intros X. exfalso. apply D', B, X. }
    split; [exact Mh|]. split; [exact Mw|]. intros row col _ _. split; [intros X; exfalso; apply D', B, X|]. intros _. apply Em.
Qed.

Theorem remap_default : forall c im x y z i k, image_array im -> grids x y z -> snd (do_call c (Remap im x y z None i k)) = Err KeyError.
Proof.
  intros c im x y z i k I G. cbn [Cam_Model.do_call snd]. unfold remap_call. destruct (image_checked _ im) as [[-> _]|[_ I']]; [|contradiction]. cbn [bind].
  apply grids_checked in G. destruct G as (-> & -> & -> & _). reflexivity.
Qed.
End Projection.
