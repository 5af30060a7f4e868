(** Proofs about pan-sharpening grids and validity. *)
From Coq Require Import List ZArith QArith Qabs Qminmax Qround Bool Lia Lqa.
From Verif Require Import Py Grid_Model Grid_Spec Grid_Proof Dem_Model Dem_Spec Dem_Proof Dtype_Model PanGrid_Model PanGrid_Spec.
Import ListNotations.
Open Scope Z_scope.

Lemma qwin_transform_same w t j i :
  (fst (qapply (qwin_transform w t) j i) == fst (qapply t (j + inject_Z (col_off w)) (i + inject_Z (row_off w))) /\
   snd (qapply (qwin_transform w t) j i) == snd (qapply t (j + inject_Z (col_off w)) (i + inject_Z (row_off w))))%Q.
Proof. unfold qwin_transform, qapply. cbn. split; ring. Qed.

Lemma Qdiv_bound a x : (0 < a)%Q -> (x / a * a == x)%Q.
Proof. intros H. field. lra. Qed.

(** The window of bounds, in world coordinates. *)
Lemma im_window_inside i b x y : north_up (im_t i) ->
  (inside (im_window i b) ((x - qc (im_t i)) / qa (im_t i)) ((y - qf (im_t i)) / qe (im_t i)) <-> in_bounds b x y).
Proof.
  intros (Hb & Hd & Ha & He). unfold inside, im_window, in_bounds. cbn.
  set (t := im_t i) in *. clearbody t.
  assert (Ea : forall u v, (u / qa t < v / qa t <-> u < v)%Q).
  { intros u v. split; intros H.
    - apply (Qmult_lt_r _ _ (qa t)) in H; [|assumption]. rewrite !Qdiv_bound in H by assumption. exact H.
    - apply (Qmult_lt_r _ _ (qa t)); [assumption|]. rewrite !Qdiv_bound by assumption. exact H. }
  assert (Ee : forall u v, (u / qe t < v / qe t <-> v < u)%Q).
  { assert (N : (0 < - qe t)%Q) by lra.
    assert (E : forall u, (u / qe t * - qe t == - u)%Q) by (intros; field; lra).
    intros u v. split; intros H.
    - apply (Qmult_lt_r _ _ (- qe t)) in H; [|assumption]. rewrite !E in H. lra.
    - apply (Qmult_lt_r _ _ (- qe t)); [assumption|]. rewrite !E. lra. }
  assert (E1 : ((q_left b - qc t) / qa t + (q_right b - q_left b) / qa t == (q_right b - qc t) / qa t)%Q) by (field; lra).
  assert (E2 : ((q_top b - qf t) / qe t + (q_bottom b - q_top b) / qe t == (q_bottom b - qf t) / qe t)%Q) by (field; lra).
  rewrite E1, E2, !Ea, !Ee. split; intros [[? ?] [? ?]]; repeat split; lra.
Qed.

Lemma own_window i : north_up (im_t i) -> let w := im_window i (im_bounds i) in
  (fcol_off w == 0 /\ frow_off w == 0 /\ fwidth w == inject_Z (im_w i) /\ fheight w == inject_Z (im_h i))%Q.
Proof. intros (_ & _ & Ha & He). cbn. repeat split; field; lra. Qed.

(** The intersection of a window with that of the image, expanded to whole pixels. *)
Lemma crop_ok i f g : north_up (im_t i) -> fwin_intersection f (im_window i (im_bounds i)) = Ok g ->
  let w := expand_window_to_grid g (0, 0) in
  0 <= col_off w /\ 0 <= row_off w /\ 0 < width w /\ 0 < height w /\ col_off w + width w <= im_w i /\ row_off w + height w <= im_h i /\
  (forall x y, inside f x y -> inside (im_window i (im_bounds i)) x y ->
     inject_Z (col_off w) <= x <= inject_Z (col_off w + width w) /\ inject_Z (row_off w) <= y <= inject_Z (row_off w + height w))%Q.
Proof.
  intros Hn E. destruct (own_window i Hn) as (O1 & O2 & O3 & O4). set (own := im_window i (im_bounds i)) in *.
  destruct (fwin_intersection_spec f own) as [HO _]. destruct (HO g E) as (Pw & Ph & Hi). cbn zeta.
  pose proof (expand_contains g 0 0) as (A & B & C & D). change (inject_Z 0) with 0%Q in A, B, C, D.
  assert (Hb : (0 <= fcol_off g)%Q /\ (0 <= frow_off g)%Q /\ (fcol_off g + fwidth g <= inject_Z (im_w i))%Q /\ (frow_off g + fheight g <= inject_Z (im_h i))%Q).
  { unfold fwin_intersection in E. destruct (_ && _); [|discriminate]. injection E as <-. cbn in *. clearbody own. repeat split; qcases; lra. }
  destruct Hb as (B1 & B2 & B3 & B4).
  assert (Hmin : win_incl (expand_window_to_grid g (0, 0)) (Win 0 0 (im_w i) (im_h i))).
  { apply expand_minimal. unfold contains_grown. cbn. change (inject_Z 0) with 0%Q. repeat split; lra. }
  set (w := expand_window_to_grid g (0, 0)) in *. clearbody w. destruct Hmin as (M1 & M2 & M3 & M4). cbn in M1, M2, M3, M4.
  assert (Hpw : 0 < width w). { assert (inject_Z (col_off w) < inject_Z (col_off w + width w))%Q by lra. rewrite <- Zlt_Qlt in *. lia. }
  assert (Hph : 0 < height w). { assert (inject_Z (row_off w) < inject_Z (row_off w + height w))%Q by lra. rewrite <- Zlt_Qlt in *. lia. }
  do 6 (split; [lia|]). intros x y H1 H2. destruct (proj2 (Hi x y) (conj H1 H2)) as [? ?]. repeat split; lra.
Qed.

Lemma georef_iff i : not_georef i = false <-> georeferenced i.
Proof.
  unfold not_georef, georeferenced. destruct (im_crs i) as [c|].
  - split; [intros _; left; discriminate|reflexivity].
  - unfold is_identity. split.
    + intros H. right. intros (A & B & C & D & E & F).
      apply Qeq_bool_iff in A, B, C, D, E, F. rewrite A, B, C, D, E, F in H. discriminate H.
    + intros [H|H]; [now destruct H|]. apply Bool.not_true_is_false. intros X.
      repeat (apply andb_prop in X; destruct X as [X ?]). apply H.
      repeat match goal with K : Qeq_bool _ _ = true |- _ => apply Qeq_bool_iff in K end. tauto.
Qed.
Lemma not_georef_iff i : not_georef i = true <-> ~ georeferenced i.
Proof. rewrite <- georef_iff. destruct (not_georef i); split; congruence. Qed.

Lemma georef_cases tb pan ms : not_georef pan = false -> not_georef ms = false -> forall ps mss pw mw,
  shared_windows tb pan ms = Ok (ps, mss, pw, mw) ->
  ps = im_t pan /\ mss = im_t ms /\ exists mb pb f g, tb (im_crs ms) (im_crs pan) (im_bounds ms) = Ok mb /\
  tb (im_crs pan) (im_crs ms) (im_bounds pan) = Ok pb /\
  fwin_intersection (im_window pan mb) (im_window pan (im_bounds pan)) = Ok f /\ pw = expand_window_to_grid f (0, 0) /\
  fwin_intersection (im_window ms pb) (im_window ms (im_bounds ms)) = Ok g /\ mw = expand_window_to_grid g (0, 0).
Proof.
  intros H1 H2 ps mss pw mw H. unfold shared_windows in H. rewrite H1, H2 in H.
  destruct (tb (im_crs ms) (im_crs pan) (im_bounds ms)) as [mb|] eqn:E1; [|discriminate H]. cbn [bind] in H.
  destruct (fwin_intersection (im_window pan mb) _) as [f|] eqn:E2; [|discriminate H].
  destruct (tb (im_crs pan) (im_crs ms) (im_bounds pan)) as [pb|] eqn:E3; [|discriminate H]. cbn [bind] in H.
  destruct (fwin_intersection (im_window ms pb) _) as [g|] eqn:E4; [|discriminate H]. cbn [bind] in H. injection H as <- <- <- <-.
  split; [reflexivity|]. split; [reflexivity|]. exists mb, pb, f, g. repeat split; assumption.
Qed.

Lemma profiles_inv tb pan ms p : get_vrt_profiles tb pan ms = Ok p ->
  exists ps mss pw mw, shared_windows tb pan ms = Ok (ps, mss, pw, mw) /\
  (Qabs (qa ps) <= Qabs (qa mss) /\ Qabs (qe ps) <= Qabs (qe mss))%Q /\
  p = Profiles (Profile (im_crs pan) ps (qwin_transform pw ps) (width pw) (height pw))
               (Profile (im_crs pan) mss (qwin_transform pw ps) (width pw) (height pw))
               (Profile (im_crs ms) mss (qwin_transform mw mss) (width mw) (height mw))
               (Profile (im_crs ms) ps (qwin_transform mw mss) (width mw) (height mw)).
Proof.
  unfold get_vrt_profiles. destruct (shared_windows tb pan ms) as [[[[ps mss] pw] mw]|]; [|discriminate]. cbn [bind].
  destruct (negb _ || negb _) eqn:E; [discriminate|]. intros H. injection H as <-. exists ps, mss, pw, mw. split; [reflexivity|].
  apply orb_false_iff in E. rewrite !negb_false_iff, !Qle_bool_iff in E. split; [exact E|reflexivity].
Qed.

(** Point [x] of a window in pixels is the point of the grid from the window's start. *)
Lemma window_point i w x y : north_up (im_t i) ->
  (inject_Z (col_off w) <= (x - qc (im_t i)) / qa (im_t i) <= inject_Z (col_off w + width w))%Q ->
  (inject_Z (row_off w) <= (y - qf (im_t i)) / qe (im_t i) <= inject_Z (row_off w + height w))%Q ->
  on_grid (qwin_transform w (im_t i)) (width w) (height w) x y.
Proof.
  intros (Hb & Hd & Ha & He) Hx Hy. set (t := im_t i) in *. clearbody t.
  exists ((x - qc t) / qa t - inject_Z (col_off w))%Q, ((y - qf t) / qe t - inject_Z (row_off w))%Q.
  rewrite !inject_Z_plus in *. split; [split; lra|]. split; [split; lra|].
  destruct (qwin_transform_same w t ((x - qc t) / qa t - inject_Z (col_off w)) ((y - qf t) / qe t - inject_Z (row_off w))) as [E1 E2].
  rewrite E1, E2. unfold qapply. cbn [fst snd]. rewrite Hb, Hd. split; field; lra.
Qed.

Lemma in_own_window i x y : north_up (im_t i) -> in_bounds (im_bounds i) x y ->
  inside (im_window i (im_bounds i)) ((x - qc (im_t i)) / qa (im_t i)) ((y - qf (im_t i)) / qe (im_t i)).
Proof. intros Hn H. now apply im_window_inside. Qed.

Lemma within_bounds i x y : north_up (im_t i) -> within_grid (im_t i) (im_w i) (im_h i) x y -> in_bounds (im_bounds i) x y.
Proof.
  intros (Hb & Hd & Ha & He) (u & v & Hu & Hv & Ex & Ey). unfold qapply in Ex, Ey. cbn [fst snd] in Ex, Ey. unfold in_bounds, im_bounds. cbn.
  set (t := im_t i) in *. clearbody t. rewrite <- Ex, <- Ey, Hb, Hd.
  assert (P1 : (0 < qa t * u)%Q). { setoid_replace 0%Q with (qa t * 0)%Q by ring. now apply Qmult_lt_l. }
  assert (P2 : (qa t * u < qa t * inject_Z (im_w i))%Q) by now apply Qmult_lt_l.
  assert (P3 : (0 < - qe t * v)%Q). { setoid_replace 0%Q with (- qe t * 0)%Q by ring. apply Qmult_lt_l; [lra|]. apply Hv. }
  assert (P4 : (- qe t * v < - qe t * inject_Z (im_h i))%Q) by (apply Qmult_lt_l; [lra|]; apply Hv).
  repeat split; lra.
Qed.

Theorem grids_ok tb pan ms p same_place :
  not_georef pan = false -> not_georef ms = false -> north_up (im_t pan) -> north_up (im_t ms) ->
  encloses tb (im_crs ms) (im_crs pan) same_place -> encloses tb (im_crs pan) (im_crs ms) (fun a b => same_place b a) ->
  get_vrt_profiles tb pan ms = Ok p ->
  let pp := pan_to_pan p in let mm := ms_to_ms p in
  part_of (v_transform pp) (v_width pp) (v_height pp) (im_t pan) (im_w pan) (im_h pan) /\
  part_of (v_transform mm) (v_width mm) (v_height mm) (im_t ms) (im_w ms) (im_h ms) /\
  forall x y u v, same_place (u, v) (x, y) ->
    within_grid (im_t pan) (im_w pan) (im_h pan) x y -> within_grid (im_t ms) (im_w ms) (im_h ms) u v ->
    on_grid (v_transform pp) (v_width pp) (v_height pp) x y /\ on_grid (v_transform mm) (v_width mm) (v_height mm) u v.
Proof.
  intros G1 G2 N1 N2 C1 C2 H. destruct (profiles_inv _ _ _ _ H) as (ps & mss & pw & mw & E & _ & ->). cbn [pan_to_pan ms_to_ms v_transform v_width v_height].
  destruct (georef_cases tb pan ms G1 G2 _ _ _ _ E) as (-> & -> & mb & pb & f & g & E1 & E2 & E3 & -> & E4 & ->).
  pose proof (crop_ok pan _ f N1 E3) as P. pose proof (crop_ok ms _ g N2 E4) as M. cbn zeta in P, M.
  set (pw := expand_window_to_grid f (0, 0)) in *. set (mw := expand_window_to_grid g (0, 0)) in *. clearbody pw mw.
  destruct P as (P1 & P2 & P3 & P4 & P5 & P6 & P7). destruct M as (M1 & M2 & M3 & M4 & M5 & M6 & M7).
  split; [|split].
  - exists (col_off pw), (row_off pw). do 6 (split; [assumption|]). intros; apply qwin_transform_same.
  - exists (col_off mw), (row_off mw). do 6 (split; [assumption|]). intros; apply qwin_transform_same.
  - intros x y u v HS HP HM. apply within_bounds in HP; [|assumption]. apply within_bounds in HM; [|assumption].
    pose proof (C1 _ _ _ _ _ _ E1 HS HM) as HM'. pose proof (C2 _ _ _ _ _ _ E2 HS HP) as HP'.
    split.
    + destruct (P7 ((x - qc (im_t pan)) / qa (im_t pan)) ((y - qf (im_t pan)) / qe (im_t pan)))%Q as [A B].
      * now apply im_window_inside.
      * now apply im_window_inside.
      * now apply window_point.
    + destruct (M7 ((u - qc (im_t ms)) / qa (im_t ms)) ((v - qf (im_t ms)) / qe (im_t ms)))%Q as [A B].
      * now apply im_window_inside.
      * now apply im_window_inside.
      * now apply window_point.
Qed.

Theorem pairs_share tb pan ms p : get_vrt_profiles tb pan ms = Ok p ->
  let pp := pan_to_pan p in let mp := ms_to_pan p in let mm := ms_to_ms p in let pm := pan_to_ms p in
  (v_crs pp = v_crs mp /\ v_transform pp = v_transform mp /\ v_width pp = v_width mp /\ v_height pp = v_height mp) /\
  (v_crs mm = v_crs pm /\ v_transform mm = v_transform pm /\ v_width mm = v_width pm /\ v_height mm = v_height pm) /\
  v_src_transform pp = v_src_transform pm /\ v_src_transform mm = v_src_transform mp /\
  (not_georef pan = false -> v_src_transform pp = im_t pan) /\ (not_georef ms = false -> v_src_transform mm = im_t ms) /\
  (Qabs (qa (v_src_transform pp)) <= Qabs (qa (v_src_transform mm)))%Q /\ (Qabs (qe (v_src_transform pp)) <= Qabs (qe (v_src_transform mm)))%Q.
Proof.
  intros H. destruct (profiles_inv _ _ _ _ H) as (ps & mss & pw & mw & E & [R1 R2] & ->). cbn zeta. cbn.
  repeat (split; [solve [auto]|]). split; [|split; [|auto]].
  - intros G. unfold shared_windows in E. rewrite G in E. destruct (not_georef ms); [now injection E as <- _ _ _|].
    destruct (tb _ _ _); [|discriminate E]. cbn [bind] in E. destruct (fwin_intersection _ _); [|discriminate E].
    destruct (tb _ _ _); [|discriminate E]. cbn [bind] in E. destruct (fwin_intersection _ _); [|discriminate E]. now injection E as <- _ _ _.
  - intros G. unfold shared_windows in E. rewrite G in E. destruct (not_georef pan); [now injection E as _ <- _ _|].
    destruct (tb _ _ _); [|discriminate E]. cbn [bind] in E. destruct (fwin_intersection _ _); [|discriminate E].
    destruct (tb _ _ _); [|discriminate E]. cbn [bind] in E. destruct (fwin_intersection _ _); [|discriminate E]. now injection E as _ <- _ _.
Qed.

Lemma inject_neq0 z : 0 < z -> ~ (inject_Z z == 0)%Q.
Proof. intros H C. change 0%Q with (inject_Z 0) in C. rewrite inject_Z_injective in C. lia. Qed.

Lemma full_part i t : sized i -> part_of (qwin_transform (Win 0 0 (im_w i) (im_h i)) t) (im_w i) (im_h i) t (im_w i) (im_h i).
Proof. intros [H1 H2]. exists 0, 0. do 6 (split; [lia|]). intros; apply (qwin_transform_same (Win 0 0 (im_w i) (im_h i))). Qed.

Theorem ms_not_georef tb pan ms p : not_georef ms = true -> sized pan -> sized ms -> get_vrt_profiles tb pan ms = Ok p ->
  v_src_transform (pan_to_pan p) = im_t pan /\
  (forall x y : Q, let m := qapply (v_src_transform (ms_to_ms p)) (x * inject_Z (im_w ms)) (y * inject_Z (im_h ms)) in
     let q := qapply (im_t pan) (x * inject_Z (im_w pan)) (y * inject_Z (im_h pan)) in fst m == fst q /\ snd m == snd q)%Q /\
  v_width (pan_to_pan p) = im_w pan /\ v_height (pan_to_pan p) = im_h pan /\ v_width (ms_to_ms p) = im_w ms /\ v_height (ms_to_ms p) = im_h ms /\
  v_crs (pan_to_pan p) = im_crs pan.
Proof.
  intros G [Hp1 Hp2] [Hm1 Hm2] H. destruct (profiles_inv _ _ _ _ H) as (ps & mss & pw & mw & E & _ & ->).
  unfold shared_windows in E. rewrite G in E. injection E as <- <- <- <-. cbn. split; [reflexivity|]. split.
  - intros x y. pose proof (inject_neq0 _ Hm1). pose proof (inject_neq0 _ Hm2). split; field; auto.
  - repeat split.
Qed.

Theorem pan_not_georef tb pan ms p : not_georef ms = false -> not_georef pan = true -> sized pan -> sized ms -> get_vrt_profiles tb pan ms = Ok p ->
  v_src_transform (ms_to_ms p) = im_t ms /\
  (forall x y : Q, let q := qapply (v_src_transform (pan_to_pan p)) (x * inject_Z (im_w pan)) (y * inject_Z (im_h pan)) in
     let m := qapply (im_t ms) (x * inject_Z (im_w ms)) (y * inject_Z (im_h ms)) in fst q == fst m /\ snd q == snd m)%Q /\
  v_width (pan_to_pan p) = im_w pan /\ v_height (pan_to_pan p) = im_h pan /\ v_width (ms_to_ms p) = im_w ms /\ v_height (ms_to_ms p) = im_h ms /\
  fst (fst (fst (out_grid p))) = None.
Proof.
  intros G1 G2 [Hp1 Hp2] [Hm1 Hm2] H. destruct (profiles_inv _ _ _ _ H) as (ps & mss & pw & mw & E & _ & ->).
  unfold shared_windows in E. rewrite G1, G2 in E. injection E as <- <- <- <-. cbn. split; [reflexivity|]. split.
  - intros x y. pose proof (inject_neq0 _ Hp1). pose proof (inject_neq0 _ Hp2). split; field; auto.
  - repeat (split; [reflexivity|]). unfold not_georef in G2. now destruct (im_crs pan).
Qed.

(** Errors, in one CRS. *)
Definition same_crs : option Z -> option Z -> qbounds -> res qbounds := fun _ _ b => Ok b.

Lemma bounds_within i x y : north_up (im_t i) -> in_bounds (im_bounds i) x y -> within_grid (im_t i) (im_w i) (im_h i) x y.
Proof.
  intros Hn H. destruct (own_window i Hn) as (O1 & O2 & O3 & O4). pose proof (in_own_window i x y Hn H) as [A B].
  set (own := im_window i (im_bounds i)) in *. clearbody own. destruct Hn as (Hb & Hd & Ha & He). set (t := im_t i) in *. clearbody t.
  exists ((x - qc t) / qa t)%Q, ((y - qf t) / qe t)%Q. split; [split; lra|]. split; [split; lra|]. unfold qapply. cbn. rewrite Hb, Hd. split; field; lra.
Qed.

Theorem errors_same_crs pan ms : not_georef pan = false -> not_georef ms = false -> north_up (im_t pan) -> north_up (im_t ms) ->
  ((exists e, get_vrt_profiles same_crs pan ms = Err e) <->
   get_vrt_profiles same_crs pan ms = Err OrthorityError) /\
  (get_vrt_profiles same_crs pan ms = Err OrthorityError <->
   (~ exists x y, within_grid (im_t pan) (im_w pan) (im_h pan) x y /\ within_grid (im_t ms) (im_w ms) (im_h ms) x y) \/
   (qa (im_t ms) < qa (im_t pan) \/ qe (im_t pan) < qe (im_t ms))%Q).
Proof.
  intros G1 G2 N1 N2.
  assert (K : forall i b, north_up (im_t i) -> (exists e, fwin_intersection (im_window i b) (im_window i (im_bounds i)) = Err e) <->
              ~ exists x y, in_bounds b x y /\ in_bounds (im_bounds i) x y).
  { intros i b Hn. destruct (fwin_intersection_spec (im_window i b) (im_window i (im_bounds i))) as [HO HE]. split.
    - intros [e E]. destruct (HE e E) as [_ Hno]. intros (x & y & A & B). apply Hno.
      exists ((x - qc (im_t i)) / qa (im_t i))%Q, ((y - qf (im_t i)) / qe (im_t i))%Q. split; now apply im_window_inside.
    - intros Hno. destruct (fwin_intersection _ _) as [g|e] eqn:E; [|eauto]. exfalso. apply Hno.
      destruct (HO g eq_refl) as (Pw & Ph & Hi). pose proof (inside_mid g Pw Ph) as HM. apply Hi in HM.
      set (u := (fcol_off g + fwidth g * (1 # 2))%Q) in *. set (v := (frow_off g + fheight g * (1 # 2))%Q) in *.
      destruct Hn as (Hb & Hd & Ha & He). 
      assert (Q1 : ((qa (im_t i) * u + qc (im_t i) - qc (im_t i)) / qa (im_t i) == u)%Q) by (field; lra).
      assert (Q2 : ((qe (im_t i) * v + qf (im_t i) - qf (im_t i)) / qe (im_t i) == v)%Q) by (field; lra).
      exists (qa (im_t i) * u + qc (im_t i))%Q, (qe (im_t i) * v + qf (im_t i))%Q.
      destruct HM as [HM1 HM2]. split; apply (im_window_inside i); try (now repeat split); unfold inside in *; rewrite Q1, Q2; assumption. }
  assert (B : (exists x y, in_bounds (im_bounds ms) x y /\ in_bounds (im_bounds pan) x y) <->
              exists x y, within_grid (im_t pan) (im_w pan) (im_h pan) x y /\ within_grid (im_t ms) (im_w ms) (im_h ms) x y).
  { split; intros (x & y & A & C); exists x, y.
    - split; now apply bounds_within.
    - split; now apply within_bounds. }
  unfold get_vrt_profiles, shared_windows. rewrite G1, G2. unfold same_crs at 1 3 5. cbn [bind].
  pose proof (K pan (im_bounds ms) N1) as K1. pose proof (K ms (im_bounds pan) N2) as K2.
  destruct (fwin_intersection (im_window pan (im_bounds ms)) (im_window pan (im_bounds pan))) as [f|e1].
  2:{ cbn [bind]. assert (NO : ~ exists x y, in_bounds (im_bounds ms) x y /\ in_bounds (im_bounds pan) x y) by (apply K1; eauto).
      rewrite B in NO. split; [split; [reflexivity|eauto]|]. split; [auto|reflexivity]. }
  unfold same_crs. cbn [bind].
  assert (YES : exists x y, in_bounds (im_bounds ms) x y /\ in_bounds (im_bounds pan) x y).
  { destruct (fwin_intersection_spec (im_window pan (im_bounds ms)) (im_window pan (im_bounds pan))) as [HO HE].
    destruct (fwin_intersection (im_window ms (im_bounds pan)) (im_window ms (im_bounds ms))) as [g|e2] eqn:E2.
    - destruct (fwin_intersection_spec (im_window ms (im_bounds pan)) (im_window ms (im_bounds ms))) as [HO2 _].
      destruct (HO2 g E2) as (Pw & Ph & Hi). pose proof (inside_mid g Pw Ph) as HM. apply Hi in HM.
      set (u := (fcol_off g + fwidth g * (1 # 2))%Q) in *. set (v := (frow_off g + fheight g * (1 # 2))%Q) in *.
      destruct N2 as (Hb & Hd & Ha & He).
      assert (Q1 : ((qa (im_t ms) * u + qc (im_t ms) - qc (im_t ms)) / qa (im_t ms) == u)%Q) by (field; lra).
      assert (Q2 : ((qe (im_t ms) * v + qf (im_t ms) - qf (im_t ms)) / qe (im_t ms) == v)%Q) by (field; lra).
      exists (qa (im_t ms) * u + qc (im_t ms))%Q, (qe (im_t ms) * v + qf (im_t ms))%Q.
      destruct HM as [HM1 HM2]. split; apply (im_window_inside ms); try (now repeat split); unfold inside in *; rewrite Q1, Q2; assumption.
    - exfalso. assert (NO : ~ exists x y, in_bounds (im_bounds pan) x y /\ in_bounds (im_bounds ms) x y) by (apply K2; eauto).
      assert (C : exists e : exn, Ok f = Err e). { apply K1. intros (x & y & X1 & X2). apply NO. exists x, y. auto. }
      destruct C as [e C]. discriminate C. }
  destruct (fwin_intersection (im_window ms (im_bounds pan)) (im_window ms (im_bounds ms))) as [g|e2].
  2:{ exfalso. assert (NO : ~ exists x y, in_bounds (im_bounds pan) x y /\ in_bounds (im_bounds ms) x y) by (apply K2; eauto).
      apply NO. destruct YES as (x & y & X1 & X2). exists x, y. auto. }
  cbn [bind]. rewrite B in YES.
  assert (RS : negb (Qle_bool (Qabs (qa (im_t pan))) (Qabs (qa (im_t ms)))) || negb (Qle_bool (Qabs (qe (im_t pan))) (Qabs (qe (im_t ms)))) = true <->
               (qa (im_t ms) < qa (im_t pan) \/ qe (im_t pan) < qe (im_t ms))%Q).
  { destruct N1 as (_ & _ & A1 & D1), N2 as (_ & _ & A2 & D2).
    rewrite orb_true_iff, !negb_true_iff, !Qle_bool_false.
    assert (X1 : (Qabs (qa (im_t pan)) == qa (im_t pan))%Q) by (apply Qabs_pos; lra).
    assert (X2 : (Qabs (qa (im_t ms)) == qa (im_t ms))%Q) by (apply Qabs_pos; lra).
    assert (X3 : (Qabs (qe (im_t pan)) == - qe (im_t pan))%Q) by (apply Qabs_neg; lra).
    assert (X4 : (Qabs (qe (im_t ms)) == - qe (im_t ms))%Q) by (apply Qabs_neg; lra).
    split; intros [H|H]; [left|right|left|right]; lra. }
  destruct (_ || _).
  - split; [split; [reflexivity|eauto]|]. split; [intros _; right; now apply RS|reflexivity].
  - split; [split; [intros [e C]; discriminate C|eauto]|]. split; [discriminate|]. intros [H|H]; [contradiction|]. apply RS in H. discriminate H.
Qed.

(** * Validity *)

Lemma all_values_some l m : all_values l = Some m <-> l = map Some m.
Proof.
  revert m. induction l as [|[x|] l IH]; intros m; cbn.
  - split; [intros E; now injection E as <-|]. destruct m; [reflexivity|discriminate].
  - split.
    + destruct (all_values l) as [ys|]; [|discriminate]. cbn. intros E. injection E as <-. cbn. f_equal. now apply IH.
    + destruct m as [|y m]; [discriminate|]. cbn. intros E. injection E as <- E. apply IH in E. now rewrite E.
  - split; [discriminate|]. destruct m; discriminate.
Qed.

Lemma all_values_none l : all_values l = None <-> In None l.
Proof.
  induction l as [|[x|] l IH]; cbn; [split; [discriminate|intros []]| |].
  - destruct (all_values l) as [ys|]; cbn; split; try discriminate.
    + intros [C|C]; [discriminate C|]. apply IH in C. discriminate C.
    + intros _. right. now apply IH.
    + reflexivity.
  - split; [auto|reflexivity].
Qed.

Theorem tile_valid sharpen dt nodata pan ms out mask : process_tile_pixel sharpen dt nodata pan ms = (out, mask) ->
  (mask = true <-> pan <> None /\ ~ In None ms) /\
  (mask = true -> exists p m, pan = Some p /\ ms = map Some m /\ out = map (fun x => Some (convert_elem F64 dt x)) (sharpen p m)) /\
  (mask = false -> out = map (fun _ => nodata_or_0 nodata) ms).
Proof.
  unfold process_tile_pixel. intros H.
  destruct pan as [p|].
  - destruct (all_values ms) as [m|] eqn:E.
    + injection H as <- <-. apply all_values_some in E. subst ms. split; [|split; [|discriminate]].
      * split; [|reflexivity]. intros _. split; [discriminate|]. intros C. apply in_map_iff in C. destruct C as (? & C & _). discriminate C.
      * intros _. exists p, m. auto.
    + injection H as <- <-. apply all_values_none in E. split; [|split; [discriminate|reflexivity]]. split; [discriminate|]. intros [_ C]. contradiction.
  - injection H as <- <-. split; [|split; [discriminate|reflexivity]]. split; [discriminate|]. intros [C _]. contradiction.
Qed.

Theorem reads_mask sharpen dt nodata pan ms : reads_valid true nodata (process_tile_pixel sharpen dt nodata pan ms) = true <-> pan <> None /\ ~ In None ms.
Proof.
  destruct (process_tile_pixel sharpen dt nodata pan ms) as [out mask] eqn:E. destruct (tile_valid _ _ _ _ _ _ _ E) as [H _]. exact H.
Qed.

Lemma nodata_reads dt : output_type dt -> value_is_nodata (dtype_nodata dt) (nodata_or_0 (dtype_nodata dt)) = true.
Proof. destruct dt; cbn; intros H; try reflexivity; contradiction. Qed.

Theorem reads_nodata sharpen dt pan ms : output_type dt ->
  (reads_valid false (dtype_nodata dt) (process_tile_pixel sharpen dt (dtype_nodata dt) pan ms) = true <->
   exists p m x, pan = Some p /\ ms = map Some m /\ In x (sharpen p m) /\
     (dt = F32 \/ dt = F64 \/ exists n, dtype_nodata dt = Some (Some n) /\ ~ (convert_elem F64 dt x == n)%Q)).
Proof.
  intros HT. unfold reads_valid. destruct (process_tile_pixel sharpen dt (dtype_nodata dt) pan ms) as [out mask] eqn:E.
  destruct (tile_valid _ _ _ _ _ _ _ E) as (_ & H1 & H2). cbn [fst]. rewrite existsb_exists. destruct mask.
  - destruct (H1 eq_refl) as (p & m & -> & -> & ->). split.
    + intros (v & Hv & HN). apply in_map_iff in Hv. destruct Hv as (x & <- & Hx). exists p, m, x. do 3 (split; [auto|]).
      apply negb_true_iff in HN. destruct dt; auto; cbn [dtype_nodata value_is_nodata] in HN; try (exfalso; apply HT; reflexivity);
        right; right; eexists; (split; [reflexivity|]); intros C; symmetry in C; apply Qeq_bool_iff in C; congruence.
    + intros (p' & m' & x & Ep & Em & Hx & HC). injection Ep as <-. 
      assert (m' = m). { apply all_values_some in Em. rewrite (proj2 (all_values_some (map Some m) m) eq_refl) in Em. now injection Em. }
      subst m'. exists (Some (convert_elem F64 dt x)). split; [now apply (in_map (fun x => Some (convert_elem F64 dt x)))|].
      apply negb_true_iff. destruct HC as [->|[->|(n & En & Hn)]]; [reflexivity|reflexivity|]. rewrite En. cbn.
      destruct (Qeq_bool n (convert_elem F64 dt x)) eqn:Q; [|reflexivity]. apply Qeq_bool_iff in Q. exfalso. apply Hn. now symmetry.
  - rewrite H2 by reflexivity. split.
    + intros (v & Hv & HN). apply in_map_iff in Hv. destruct Hv as (? & <- & _). rewrite nodata_reads in HN by assumption. discriminate HN.
    + intros (p & m & x & -> & -> & _). unfold process_tile_pixel in E. rewrite (proj2 (all_values_some (map Some m) m) eq_refl) in E. discriminate E.
Qed.

(** The whole pixel window is tight: every pixel of it has a point of the window expanded. *)
Lemma expand_tight g : let w := expand_window_to_grid g (0, 0) in
  (fcol_off g < inject_Z (col_off w + 1) /\ inject_Z (col_off w + width w - 1) < fcol_off g + fwidth g /\
   frow_off g < inject_Z (row_off w + 1) /\ inject_Z (row_off w + height w - 1) < frow_off g + fheight g)%Q.
Proof.
  cbn. change (inject_Z 0) with 0%Q.
  assert (A : forall x d, (x < inject_Z (Qfloor (x - 0) + 1) /\ inject_Z (Qfloor (x - 0) + Qceiling (d + 0 + (x - 0 - inject_Z (Qfloor (x - 0)))) - 1) < x + d)%Q).
  { intros x d. pose proof (Qlt_floor (x - 0)) as F. pose proof (Qceiling_lt (d + 0 + (x - 0 - inject_Z (Qfloor (x - 0))))) as C.
    set (fl := Qfloor (x - 0)) in *. set (ce := Qceiling _) in *. clearbody fl ce.
    unfold Z.sub in *. rewrite !inject_Z_plus in *. change (inject_Z (-1)) with (- (1))%Q in *. change (inject_Z (- 1)) with (- (1))%Q in *. change (inject_Z 1) with 1%Q in *. split; lra. }
  destruct (A (fcol_off g) (fwidth g)) as [A1 A2]. destruct (A (frow_off g) (fheight g)) as [A3 A4]. auto.
Qed.

Lemma between a b lo hi : (lo < hi -> a < b -> lo < b -> a < hi -> exists u, a <= u <= b /\ lo < u < hi)%Q.
Proof.
  intros H1 H2 H3 H4. destruct (Qlt_le_dec lo a) as [L|L]; destruct (Qlt_le_dec b hi) as [M|M].
  - exists ((a + b) / 2)%Q. assert (E : ((a + b) / 2 == a * (1#2) + b * (1#2))%Q) by field. rewrite E. split; split; lra.
  - exists ((a + hi) / 2)%Q. assert (E : ((a + hi) / 2 == a * (1#2) + hi * (1#2))%Q) by field. rewrite E. split; split; lra.
  - exists ((lo + b) / 2)%Q. assert (E : ((lo + b) / 2 == lo * (1#2) + b * (1#2))%Q) by field. rewrite E. split; split; lra.
  - exists ((lo + hi) / 2)%Q. assert (E : ((lo + hi) / 2 == lo * (1#2) + hi * (1#2))%Q) by field. rewrite E. split; split; lra.
Qed.

Lemma crop_tight i f g : fwin_intersection f (im_window i (im_bounds i)) = Ok g -> forall r c,
  in_win (expand_window_to_grid g (0, 0)) r c ->
  exists x y, (inject_Z c <= x <= inject_Z (c + 1) /\ inject_Z r <= y <= inject_Z (r + 1))%Q /\ inside f x y /\ inside (im_window i (im_bounds i)) x y.
Proof.
  intros E r c H. destruct (fwin_intersection_spec f (im_window i (im_bounds i))) as [HO _]. destruct (HO g E) as (Pw & Ph & Hi).
  destruct (expand_tight g) as (A1 & A2 & A3 & A4). set (w := expand_window_to_grid g (0, 0)) in *. clearbody w. destruct H as [Hr Hc].
  assert (C1 : (inject_Z (col_off w + 1) <= inject_Z (c + 1))%Q) by (rewrite <- Zle_Qle; lia).
  assert (C2 : (inject_Z c <= inject_Z (col_off w + width w - 1))%Q) by (rewrite <- Zle_Qle; lia).
  assert (C3 : (inject_Z (row_off w + 1) <= inject_Z (r + 1))%Q) by (rewrite <- Zle_Qle; lia).
  assert (C4 : (inject_Z r <= inject_Z (row_off w + height w - 1))%Q) by (rewrite <- Zle_Qle; lia).
  destruct (between (inject_Z c) (inject_Z (c + 1)) (fcol_off g) (fcol_off g + fwidth g)) as (x & Hx & Hx'); [lra|rewrite <- Zlt_Qlt; lia|lra|lra|].
  destruct (between (inject_Z r) (inject_Z (r + 1)) (frow_off g) (frow_off g + fheight g)) as (y & Hy & Hy'); [lra|rewrite <- Zlt_Qlt; lia|lra|lra|].
  exists x, y. split; [auto|]. apply Hi. split; assumption.
Qed.

Lemma tight_grid i b g : north_up (im_t i) -> fwin_intersection (im_window i b) (im_window i (im_bounds i)) = Ok g -> forall r c,
  0 <= c < width (expand_window_to_grid g (0, 0)) -> 0 <= r < height (expand_window_to_grid g (0, 0)) ->
  exists j k x y, (inject_Z c <= j <= inject_Z (c + 1) /\ inject_Z r <= k <= inject_Z (r + 1) /\
    fst (qapply (qwin_transform (expand_window_to_grid g (0, 0)%Z) (im_t i)) j k) == x /\
    snd (qapply (qwin_transform (expand_window_to_grid g (0, 0)%Z) (im_t i)) j k) == y)%Q /\ in_bounds b x y /\ in_bounds (im_bounds i) x y.
Proof.
  intros Hn E r c Hc Hr. set (w := expand_window_to_grid g (0, 0)) in *.
  destruct (crop_tight i _ g E (row_off w + r) (col_off w + c)) as (x & y & [Hx Hy] & I1 & I2); [fold w; unfold in_win; lia|]. clearbody w.
  assert (Hn' := Hn). destruct Hn as (Hb & Hd & Ha & He).
  exists (x - inject_Z (col_off w))%Q, (y - inject_Z (row_off w))%Q, (qa (im_t i) * x + qc (im_t i))%Q, (qe (im_t i) * y + qf (im_t i))%Q.
  assert (Q1 : ((qa (im_t i) * x + qc (im_t i) - qc (im_t i)) / qa (im_t i) == x)%Q) by (field; lra).
  assert (Q2 : ((qe (im_t i) * y + qf (im_t i) - qf (im_t i)) / qe (im_t i) == y)%Q) by (field; lra).
  split.
  - rewrite !inject_Z_plus in *. change (inject_Z 1) with 1%Q in *.
    split; [split; lra|]. split; [split; lra|].
    destruct (qwin_transform_same w (im_t i) (x - inject_Z (col_off w)) (y - inject_Z (row_off w))) as [E1 E2]. rewrite E1, E2.
    unfold qapply. cbn [fst snd]. rewrite Hb, Hd. split; ring.
  - split; apply (im_window_inside i); try assumption; unfold inside in *; rewrite Q1, Q2; assumption.
Qed.

Lemma in_bounds_ext b x y x' y' : (x == x' -> y == y' -> in_bounds b x y -> in_bounds b x' y')%Q.
Proof. intros H1 H2 [[? ?] [? ?]]. unfold in_bounds. repeat split; lra. Qed.

Theorem grids_tight pan ms p : not_georef pan = false -> not_georef ms = false -> north_up (im_t pan) -> north_up (im_t ms) ->
  get_vrt_profiles same_crs pan ms = Ok p -> forall v, v = pan_to_pan p \/ v = ms_to_ms p -> forall r c, 0 <= c < v_width v -> 0 <= r < v_height v ->
  exists j k x y, (inject_Z c <= j <= inject_Z (c + 1) /\ inject_Z r <= k <= inject_Z (r + 1) /\
    fst (qapply (v_transform v) j k) == x /\ snd (qapply (v_transform v) j k) == y)%Q /\
    within_grid (im_t pan) (im_w pan) (im_h pan) x y /\ within_grid (im_t ms) (im_w ms) (im_h ms) x y.
Proof.
  intros G1 G2 N1 N2 H v Hv r c Hc Hr. destruct (profiles_inv _ _ _ _ H) as (ps & mss & pw & mw & E & _ & ->). cbn [pan_to_pan ms_to_ms] in Hv.
  destruct (georef_cases same_crs pan ms G1 G2 _ _ _ _ E) as (-> & -> & mb & pb & f & g & E1 & E2 & E3 & -> & E4 & ->).
  injection E1 as <-. injection E2 as <-.
  destruct Hv as [->| ->]; cbn [v_width v_height v_transform] in *.
  - destruct (tight_grid pan _ f N1 E3 r c Hc Hr) as (j & k & x & y & A & B & C). exists j, k, x, y. split; [exact A|]. split; now apply bounds_within.
  - destruct (tight_grid ms _ g N2 E4 r c Hc Hr) as (j & k & x & y & A & B & C). exists j, k, x, y. split; [exact A|]. split; now apply bounds_within.
Qed.

(** Degrees are 100 km. *)
Definition flat_earth (c1 c2 : option Z) (b : qbounds) : res qbounds :=
  let by_ k := Ok (QBounds (q_left b * k) (q_bottom b * k) (q_right b * k) (q_top b * k))%Q in
  match c1, c2 with
  | Some 4326, Some 32735 => by_ (inject_Z 100000)
  | Some 32735, Some 4326 => by_ (1 # 100000)
  | Some a, Some b => if Z.eqb a b then by_ 1%Q else Err CrsError
  | _, _ => Err CrsError
  end.
Definition utm_pan : image := Image (Some 32735) (QAff (1#2) 0 0 0 (-1#2) 0) 100 100.
Definition wgs_ms : image := Image (Some 4326) (QAff (2#100000) 0 0 0 (-2#100000) 0) 25 25.

Lemma units_case : get_vrt_profiles flat_earth utm_pan wgs_ms = Err OrthorityError /\
  exists b, flat_earth (Some 4326) (Some 32735) (im_bounds wgs_ms) = Ok b /\
  (q_left b == q_left (im_bounds utm_pan) /\ q_bottom b == q_bottom (im_bounds utm_pan) /\
   q_right b == q_right (im_bounds utm_pan) /\ q_top b == q_top (im_bounds utm_pan))%Q /\ im_w wgs_ms < im_w utm_pan /\ im_h wgs_ms < im_h utm_pan.
Proof. split; [reflexivity|]. eexists. split; [reflexivity|]. repeat split. Qed.

Lemma dark_pixel : exists sharpen pan ms, pan <> None /\ ~ In None ms /\
  reads_valid false (dtype_nodata U8) (process_tile_pixel sharpen U8 (dtype_nodata U8) pan ms) = false.
Proof.
  exists (fun p m => map (fun x => x - p)%Q m), (Some 5%Q), [Some 3%Q; Some (26#5)]. split; [discriminate|]. split; [|reflexivity].
  intros [C|[C|[]]]; discriminate C.
Qed.
