(** Proofs about orthorectification with camera objects. *)
From Coq Require Import List String ZArith Reals Bool Lia Lra Permutation Sorted.
From Verif Require Import Py Flt Mat Grid_Model Grid_Spec Profile_Model Profile_Spec Remap_Model Remap_Spec Dem_Model Dem_Spec Dem_Proof Frame_Model Undist_Model Bound_Model
  Rpc_Model Cam_Model Rcam_Model Make_Model Ortho_Model Ortho_Spec Ortho_Proof Whole_Model Whole_Spec.
From Verif Require Bound_Proof Remap_Proof Grid_Proof Undist_Proof.
Import ListNotations.
Open Scope string_scope.
Open Scope list_scope.
Open Scope Z_scope.
Local Arguments String.eqb : simpl never.

Lemma interp_str_name : forall s i, interp_name s i -> interp_str i = s.
Proof. intros s i []; reflexivity. Qed.

Section Whole.
Variable cv_surf : string -> arr fl -> fl * fl -> option fl.
Variable cast_nan : string -> fl.
Variable cv_image : string -> arr pix -> fl * fl -> option pix.
Variable convert : string -> string -> pix -> pix.
Variable C : Type.
Variable crs_eqb : C -> C -> bool.
Variable from_string : string -> res C.
Variable rpc_crs : C.
Variable O : Type.
Variable warp : C -> C -> list vec -> list vec.
Variable rpc_xy : rpc -> O -> list ((R * R) * R) -> list (R * R).
Variable transform_bounds : C -> C -> bounds -> bounds.
Variable bounds_in : Z * Z -> affine -> C -> C -> R * R * R * R.
Variable reproject : interp -> C -> C -> R * R -> arr fl -> affine -> arr fl * affine.
Variable to_pixels : affine -> list (R * R) -> list (Z * Z).
Variable fill_poly : Z * Z -> list (Z * Z) -> arr bool.

Hypothesis crs_same : forall a b, crs_eqb a b = true <-> a = b.
Hypothesis cv_border : forall i b j k, (j <= -1 \/ k <= -1 \/ IZR (aw b) <= j \/ IZR (ah b) <= k)%R -> cv_image i b (Num j, Num k) = None.

Notation view_of := (view_of cv_surf cast_nan cv_image convert C rpc_crs O warp rpc_xy).
Notation init_dem := (init_dem C crs_eqb rpc_crs warp transform_bounds).
Notation gsd := (gsd C warp).
Notation new_ortho := (new_ortho cv_surf cast_nan cv_image convert C crs_eqb from_string rpc_crs O warp rpc_xy transform_bounds).
Notation process_with := (process_with cv_surf cast_nan cv_image convert C crs_eqb rpc_crs O warp rpc_xy bounds_in reproject to_pixels fill_poly).

Lemma border : forall i, transparent_border (sample cv_image i).
Proof. intros i im j k H. apply cv_border. exact H. Qed.

(** * The DEM *)

Lemma win_ok : forall H W t b w, win_of_bounds H W t b = Ok w ->
  0 <= row_off w /\ 0 <= col_off w /\ 0 < height w /\ 0 < width w /\ row_off w + height w <= H /\ col_off w + width w <= W /\
  (north_up t -> forall r c, in_im H W r c -> touches_box b t r c -> in_win w r c).
Proof.
  intros H W t b w. unfold win_of_bounds.
  set (c0 := Rmax 0 ((b_left b - tc t) / ta t)). set (c1 := Rmin (IZR W) ((b_right b - tc t) / ta t)).
  set (r0 := Rmax 0 ((b_top b - tf t) / te t)). set (r1 := Rmin (IZR H) ((b_bottom b - tf t) / te t)).
  destruct (Rlt_dec c0 c1) as [Lc|]; [|discriminate]. destruct (Rlt_dec r0 r1) as [Lr|]; [|discriminate]. cbn [andb]. intros [= <-]. cbn [row_off col_off height width].
  assert (Pc : (0 <= c0)%R) by apply Rmax_l. assert (Pr : (0 <= r0)%R) by apply Rmax_l.
  assert (Qc : (c1 <= IZR W)%R) by apply Rmin_l. assert (Qr : (r1 <= IZR H)%R) by apply Rmin_l.
  pose proof (Bound_Proof.Rfloor_bound c0) as Fc. pose proof (Bound_Proof.Rfloor_bound r0) as Fr. pose proof (Remap_Proof.Rceil_bound c1) as Gc. pose proof (Remap_Proof.Rceil_bound r1) as Gr.
  assert (Zle : forall u v : Z, (IZR u < IZR v + 1)%R -> u <= v). { intros u v L. assert (u < v + 1) by (apply lt_IZR; rewrite plus_IZR; lra). lia. }
  assert (A1 : 0 <= Rfloor r0) by (apply Zle; lra). assert (A2 : 0 <= Rfloor c0) by (apply Zle; lra).
  assert (A3 : Rfloor r0 < Rceil r1) by (apply lt_IZR; lra). assert (A4 : Rfloor c0 < Rceil c1) by (apply lt_IZR; lra).
  assert (A5 : Rceil r1 <= H) by (apply Zle; lra). assert (A6 : Rceil c1 <= W) by (apply Zle; lra).
  repeat (split; [lia|]).
  intros ((Ta & Te) & Tb & Td) r c (Hr & Hc) (u & v & Hu & Hv & X & Y). unfold aff_apply in X, Y. cbn [fst snd] in X, Y. rewrite Tb in X. rewrite Td in Y.
  unfold in_win. cbn [row_off col_off height width].
  assert (Dv : forall n d : R, (d <> 0)%R -> (n / d * d = n)%R) by (intros; field; assumption).
  assert (B1 : (c0 < IZR c + 1)%R).
  { unfold c0. apply Rmax_lub_lt; [assert (0 <= IZR c)%R by (apply IZR_le; lia); lra|]. apply (Rmult_lt_reg_r (ta t)); [lra|]. rewrite Dv by lra. nra. }
  assert (B2 : (IZR c < c1)%R).
  { unfold c1. apply Rmin_glb_lt; [apply IZR_lt; lia|]. apply (Rmult_lt_reg_r (ta t)); [lra|]. rewrite Dv by lra. nra. }
  assert (B3 : (r0 < IZR r + 1)%R).
  { unfold r0. apply Rmax_lub_lt; [assert (0 <= IZR r)%R by (apply IZR_le; lia); lra|]. apply (Rmult_lt_reg_r (- te t)); [lra|]. rewrite <- Ropp_mult_distr_r, Dv by lra. nra. }
  assert (B4 : (IZR r < r1)%R).
  { unfold r1. apply Rmin_glb_lt; [apply IZR_lt; lia|]. apply (Rmult_lt_reg_r (- te t)); [lra|]. rewrite <- Ropp_mult_distr_r with (r1 := (_ / _)%R), Dv by lra. nra. }
  assert (Rfloor c0 <= c) by (apply Zle; lra). assert (Rfloor r0 <= r) by (apply Zle; lra).
  assert (c < Rceil c1) by (apply lt_IZR; lra). assert (r < Rceil r1) by (apply lt_IZR; lra). lia.
Qed.

Lemma all_some_is : forall A (l : list (option A)) r, all_some l = Some r -> l = map Some r.
Proof.
  induction l as [|[x|] l IH]; cbn; intros r E; try discriminate; [injection E as <-; reflexivity|].
  destruct (all_some l) as [m|]; [|discriminate]. injection E as <-. cbn. rewrite (IH m eq_refl). reflexivity.
Qed.

Lemma map_some_app : forall A (x y : list (option A)) r, x ++ y = map Some r -> exists r1 r2, x = map Some r1 /\ y = map Some r2 /\ r = r1 ++ r2.
Proof. intros A x y r E. symmetry in E. apply map_eq_app in E. destruct E as (r1 & r2 & E1 & E2 & E3). exists r1, r2. auto. Qed.

Lemma box_is : forall l b, is_box l b -> b = bounds_of l.
Proof.
  intros l [x0 y0 x1 y1] (I & (p & Hp & Ep) & (q & Hq & Eq) & (r & Hr & Er) & (s & Hs & Es)). cbn [b_left b_right b_bottom b_top] in *. unfold bounds_of.
  assert (M : forall f m, (exists p, In p l /\ f p = m) -> (forall p, In p l -> (m <= f p)%R) -> rmin (map f l) = m).
  { intros f m (u & Hu & Eu) A. apply Bound_Proof.rmin_eq; [rewrite <- Eu; apply in_map, Hu|]. intros x Hx. apply in_map_iff in Hx. destruct Hx as (w & <- & Hw). apply A, Hw. }
  assert (N : forall f m, (exists p, In p l /\ f p = m) -> (forall p, In p l -> (f p <= m)%R) -> rmax (map f l) = m).
  { intros f m (u & Hu & Eu) A. apply Bound_Proof.rmax_eq; [rewrite <- Eu; apply in_map, Hu|]. intros x Hx. apply in_map_iff in Hx. destruct Hx as (w & <- & Hw). apply A, Hw. }
  rewrite (M vx x0), (M vy y0), (N vx x1), (N vy y1); try reflexivity; eauto; intros w Hw; apply I in Hw; lra.
Qed.

Lemma box_ok : forall l, l <> [] -> is_box l (bounds_of l).
Proof.
  intros l N. assert (M : forall f : vec -> R, map f l <> []) by (intros f; destruct l; [contradiction|discriminate]).
  assert (I : forall (f : vec -> R) m, In m (map f l) -> exists p, In p l /\ f p = m) by (intros f m H; apply in_map_iff in H; destruct H as (p & E & H); eauto).
  split; [|cbn [bounds_of b_left b_right b_bottom b_top]; repeat split; apply I; (apply Undist_Proof.rmin_in || apply Undist_Proof.rmax_in); apply M].
  intros p Hp. cbn [bounds_of b_left b_right b_bottom b_top]. pose proof (in_map vx l p Hp) as Hx. pose proof (in_map vy l p Hp) as Hy.
  split; split; (apply Undist_Proof.rmin_le || apply Undist_Proof.rmax_ge); assumption.
Qed.

Lemma cells_in : forall a r c z, In (r, c, z) (cells a) <-> in_im (ah a) (aw a) r c /\ aget a r c = Num z.
Proof.
  intros a r c z. unfold cells, in_im. rewrite in_flat_map. split.
  - intros (r' & Hr & H). apply in_flat_map in H. destruct H as (c' & Hc & H). apply rows_In in Hr, Hc. destruct (aget a r' c') as [|v] eqn:E; [contradiction|].
    destruct H as [H|[]]. injection H as <- <- <-. auto.
  - intros ((Hr & Hc) & E). exists r. split; [apply rows_In, Hr|]. apply in_flat_map. exists c. split; [apply rows_In, Hc|]. rewrite E. left. reflexivity.
Qed.

Lemma best_is : forall better : R -> R -> bool, (forall x y z, better x y = false -> better y z = false -> better x z = false) -> (forall x y, better x y = true -> better y x = false) ->
  forall l x, arg_best better l = Some x -> In x l /\ forall y, In y l -> better (snd y) (snd x) = false.
Proof.
  intros better T A. assert (Ir : forall x, better x x = false) by (intros x; destruct (better x x) eqn:E; [exact (eq_trans (eq_sym E) (A _ _ E))|reflexivity]).
  unfold arg_best. set (f := fun _ _ => _).
  assert (G : forall l b x, fold_left f l (Some b) = Some x -> (x = b \/ In x l) /\ better (snd b) (snd x) = false /\ forall y, In y l -> better (snd y) (snd x) = false).
  { induction l as [|y l IH]; cbn [fold_left]; intros b x E.
    - injection E as <-. split; [left; reflexivity|]. split; [apply Ir|intros y []].
    - unfold f in E at 2. destruct (better (snd y) (snd b)) eqn:Eb; destruct (IH _ _ E) as (I1 & I2 & I3).
      + split; [destruct I1 as [->|I1]; [right; left; reflexivity|right; right; exact I1]|]. split; [apply (T _ (snd y)); [apply A, Eb|exact I2]|].
        intros y' [<-|Hy]; [exact I2|apply I3, Hy].
      + split; [destruct I1 as [->|I1]; [left; reflexivity|right; right; exact I1]|]. split; [exact I2|].
        intros y' [<-|Hy]; [apply (T _ (snd b)); assumption|apply I3, Hy]. }
  intros [|y l] x E; [discriminate|]. cbn [fold_left] in E. change (fold_left f l (Some y) = Some x) in E. destruct (G _ _ _ E) as (I1 & I2 & I3).
  split; [destruct I1 as [->|I1]; [left; reflexivity|right; exact I1]|]. intros y' [<-|Hy]; [exact I2|apply I3, Hy].
Qed.

Lemma Rltb_false : forall x y, Rltb x y = false <-> (y <= x)%R.
Proof. intros x y. unfold Rltb. destruct (Rlt_dec x y); split; intros; try discriminate; try lra; auto. Qed.

Lemma Rltb_true : forall x y, Rltb x y = true <-> (x < y)%R.
Proof. intros x y. unfold Rltb. destruct (Rlt_dec x y); split; intros; try discriminate; try lra; auto. Qed.

Lemma argmin_is : forall a r c z, argmin a = Some (r, c, z) -> low_cell a r c z.
Proof.
  intros a r c z E. apply best_is in E.
  - destruct E as (I & L). apply cells_in in I. destruct I as (I & E). split; [exact I|]. split; [exact E|].
    intros r' c' z' H1 H2. apply Rltb_false. apply (L (r', c', z')). apply cells_in. auto.
  - intros x y u. rewrite !Rltb_false. lra.
  - intros x y. rewrite Rltb_true, Rltb_false. lra.
Qed.

Lemma argmax_is : forall a r c z, argmax a = Some (r, c, z) -> high_cell a r c z.
Proof.
  intros a r c z E. apply (best_is (fun x y => Rltb y x)) in E.
  - destruct E as (I & L). apply cells_in in I. destruct I as (I & E). split; [exact I|]. split; [exact E|].
    intros r' c' z' H1 H2. apply Rltb_false. apply (L (r', c', z')). apply cells_in. auto.
  - intros x y u. rewrite !Rltb_false. lra.
  - intros x y. rewrite Rltb_true, Rltb_false. lra.
Qed.

(** The window for two heights. *)
Lemma win_at_ok : forall v crs dem H W z1 z2 w, win_at_zs C crs_eqb transform_bounds v crs dem H W [z1; z2] = Ok w ->
  exists l1 l2, v_boundary v (HScalar z1) None None (IEnum "cubic") = Ok (map Some l1) /\ v_boundary v (HScalar z2) None None (IEnum "cubic") = Ok (map Some l2) /\
  exists b, in_dem C transform_bounds crs dem (bounds_of (l1 ++ l2)) b /\ win_of_bounds H W (df_t C dem) b = Ok w.
Proof.
  intros v crs dem H W z1 z2 w. unfold win_at_zs. cbn [mapM].
  destruct (v_boundary v (HScalar z1) None None (IEnum "cubic")) as [b1|]; [|discriminate]. cbn [bind].
  destruct (v_boundary v (HScalar z2) None None (IEnum "cubic")) as [b2|]; [|discriminate]. cbn [bind List.concat]. rewrite app_nil_r.
  destruct (all_some (b1 ++ b2)) as [pts|] eqn:E; [|discriminate]. apply all_some_is, map_some_app in E. destruct E as (l1 & l2 & -> & -> & ->).
  intros E. exists l1, l2. split; [reflexivity|]. split; [reflexivity|]. eexists. split; [|exact E].
  split; intros Hc; [rewrite (proj2 (crs_same _ _) Hc); reflexivity|].
  destruct (crs_eqb crs (df_crs C dem)) eqn:Ee; [apply crs_same in Ee; contradiction|reflexivity].
Qed.

(** What the view says of the centre and the outline. *)
Definition v_centre (v : view) (p : vec) : Prop := v_position v (IZR (v_w v) / 2, IZR (v_h v) / 2)%R 0 = Some p.
Definition v_outline (v : view) (z : R) (l : list vec) : Prop := v_boundary v (HScalar z) None None (IEnum "cubic") = Ok (map Some l).

Lemma in_dem_fun : forall crs dem b b1 b2, in_dem C transform_bounds crs dem b b1 -> in_dem C transform_bounds crs dem b b2 -> b1 = b2.
Proof.
  intros crs dem b b1 b2 (A1 & A2) (B1 & B2). destruct (crs_eqb crs (df_crs C dem)) eqn:E; [apply crs_same in E; rewrite A1, B1 by exact E; reflexivity|].
  assert (N : crs <> df_crs C dem) by (intros X; apply crs_same in X; congruence). rewrite A2, B2 by exact N. reflexivity.
Qed.

Theorem init_dem_part : forall v crs dem band a t c, init_dem v crs dem band = Ok (a, t, c) ->
  c = df_crs C dem /\ (exists r0 c0, sub_array a (df_band C dem band) r0 c0 /\ same_position t (df_t C dem) r0 c0) /\
  (north_up (df_t C dem) -> dem_part C (height_in C warp) transform_bounds rpc_crs (v_centre v) (v_outline v) crs dem band a t).
Proof.
  intros v crs dem band a t c. unfold Whole_Model.init_dem. set (d := df_band C dem band).
  unfold z_scale. destruct (v_position v _ 0) as [p|] eqn:Ep; [|discriminate]. cbv zeta.
  destruct (Req_EM_T _ 0) as [|Nz]; [discriminate|]. cbn [bind]. set (sc := (1 / _)%R). unfold init_zs.
  destruct (win_at_zs C crs_eqb transform_bounds v crs dem (ah d) (aw d) _) as [w1|] eqn:E1; [|discriminate]. cbn [bind].
  set (a1 := aslice d _ _ _ _). destruct (argmin a1) as [[[rl cl] zl]|] eqn:El; [|discriminate]. destruct (argmax a1) as [[[rh ch] zh]|] eqn:Eh; [|discriminate].
  destruct (win_at_zs C crs_eqb transform_bounds v crs dem (ah d) (aw d) [cell_height _ _ _ _ _ (rl, cl, zl); _]) as [w2|] eqn:E2; [|discriminate]. cbn [bind].
  destruct (win_intersection w2 w1) as [w3|] eqn:E3; [|discriminate]. cbn [bind]. intros [= <- <- <-]. split; [reflexivity|].
  apply win_at_ok in E1, E2. destruct E1 as (l1 & l2 & L1 & L2 & b1 & B1 & W1). destruct E2 as (q1 & q2 & Q1 & Q2 & b2 & B2 & W2).
  destruct (win_ok _ _ _ _ _ W1) as (X1 & X2 & X3 & X4 & X5 & X6 & X7). destruct (win_ok _ _ _ _ _ W2) as (Y1 & Y2 & Y3 & Y4 & Y5 & Y6 & Y7).
  destruct (proj1 (win_intersection_spec w2 w1) w3 E3) as (Z1 & Z2 & Z3).
  assert (HC : row_off w1 <= row_off w3 /\ row_off w3 + height w3 <= row_off w1 + height w1 /\ col_off w1 <= col_off w3 /\ col_off w3 + width w3 <= col_off w1 + width w1).
  { destruct (proj1 (Z3 (row_off w3) (col_off w3))) as [_ X]; [unfold in_win; lia|].
    destruct (proj1 (Z3 (row_off w3 + height w3 - 1) (col_off w3 + width w3 - 1))) as [_ Y]; [unfold in_win; lia|]. unfold in_win in *. lia. }
  assert (S3 : forall a', a' = aslice a1 (row_off w3 - row_off w1) (row_off w3 - row_off w1 + height w3) (col_off w3 - col_off w1) (col_off w3 - col_off w1 + width w3) ->
    sub_array a' d (row_off w3) (col_off w3) /\ ah a' = height w3 /\ aw a' = width w3).
  { intros a' ->. unfold sub_array, a1. cbn. split; [|lia]. repeat (split; [lia|]). intros r c Hr Hc. f_equal; lia. }
  specialize (S3 _ eq_refl). destruct S3 as (S3 & S4 & S5).
  split; [exists (row_off w3), (col_off w3); split; [exact S3|apply win_transform_same]|]. intros Nu.
  assert (S1 : ah a1 = height w1) by (unfold a1; cbn; lia). assert (S2 : aw a1 = width w1) by (unfold a1; cbn; lia).
  exists p, sc, a1, (row_off w1), (col_off w1), l1, l2, rl, cl, zl, rh, ch, zh, q1, q2, (row_off w3), (col_off w3).
  split; [exact Ep|]. split; [unfold sc; field; exact Nz|]. split; [exact L1|].
  split; [unfold v_outline; replace (8932.28 * sc)%R with ((8850 + 82.28) * sc)%R by (f_equal; lra); exact L2|].
  split. { unfold sub_array. rewrite S1, S2. fold d. repeat (split; [lia|]). intros r c Hr Hc. unfold a1. cbn. f_equal; lia. }
  split. { intros b b' r c Hb Hi Ha Ht. apply box_is in Hb. subst b. pose proof (in_dem_fun _ _ _ _ _ Hi B1) as ->. specialize (X7 Nu r c Ha Ht). unfold in_win in X7. unfold has_part. rewrite S1, S2. lia. }
  split; [apply argmin_is, El|]. split; [apply argmax_is, Eh|].
  assert (Wh : forall r c z, world_height C (height_in C warp) crs dem (row_off w1 + r) (col_off w1 + c) z = cell_height C warp crs dem w1 (r, c, z)).
  { intros r c z. unfold world_height, cell_height. rewrite (win_transform_same w1 (df_t C dem)). rewrite !plus_IZR, (Rplus_comm (IZR (col_off w1))), (Rplus_comm (IZR (row_off w1))). reflexivity. }
  rewrite !Wh. split; [exact Q1|]. split; [exact Q2|]. split; [exact S3|]. split; [apply win_transform_same|].
  intros b b' r c Hb Hi (Ha1 & Ha2) Ht. apply box_is in Hb. subst b. pose proof (in_dem_fun _ _ _ _ _ Hi B2) as ->. rewrite S1 in Ha1. rewrite S2 in Ha2.
  assert (Hin : in_im (ah d) (aw d) r c) by (unfold in_im; lia). specialize (Y7 Nu r c Hin Ht).
  assert (X : in_win w3 r c) by (apply Z3; split; [exact Y7|unfold in_win; lia]). unfold in_win in X. unfold has_part. rewrite S4, S5. lia.
Qed.

(** * Construction *)
Lemma new_ortho_inv : forall m src dem crs band o, new_ortho m src dem crs band = Ok o ->
  exists demf v, world_crs from_string crs (do s <- src; Ok (sf_crs C s)) (or_crs o) /\ dem = Ok demf /\ 1 <= band <= df_count C demf /\ view_of m = Ok v /\
  init_dem v (or_crs o) demf band = Ok (or_dem o, or_dem_t o, or_dem_crs o) /\ gsd v (or_crs o) (or_dem o) (or_dem_t o) (or_dem_crs o) = Ok (or_gsd o).
Proof.
  intros m src dem crs band o. unfold Whole_Model.new_ortho.
  destruct (parse_crs C from_string crs _) as [w|] eqn:E1; [|discriminate]. cbn [bind]. apply parse_crs_ok in E1.
  destruct dem as [demf|]; [|discriminate]. cbn [bind].
  destruct ((band <=? 0) || (df_count C demf <? band)) eqn:E2; [discriminate|]. apply orb_false_iff in E2. destruct E2 as (E2 & E3). apply Z.leb_gt in E2. apply Z.ltb_ge in E3.
  destruct (view_of m) as [v|] eqn:E4; [|discriminate]. cbn [bind]. destruct (init_dem v w demf band) as [[[a t] dc]|] eqn:E5; [|discriminate]. cbn [bind].
  destruct (gsd v w a t dc) as [g|] eqn:E6; [|discriminate]. cbn [bind]. intros [= <-]. exists demf, v. cbn [or_crs or_dem or_dem_t or_dem_crs or_gsd]. repeat split; auto; lia.
Qed.

(** * The ortho *)
Lemma xy_flat : forall l : list vec, flat_map (fun p => match p with Some p => [(vx p, vy p)] | None => [] end) (map Some l) = map xy_of l.
Proof. induction l as [|p l IH]; [reflexivity|]. cbn [map flat_map app]. rewrite IH. reflexivity. Qed.

Lemma nodata_dtype : forall dt nd, nodata_of dt nd -> dt <> "".
Proof. intros dt nd []; discriminate. Qed.

(** What a camera does that keeps distortion, or has none. *)
Definition plain (v : view) : Prop :=
  v_distort v = true /\ (forall x y, v_pixel v (x, y, Nan) = (Nan, Nan)) /\
  (forall im l dt nd i, v_read v (Ok im) (Bands l) dt nd i = read_image convert (Ok im) (Bands l) (Some dt)) /\
  (forall z n t i l, v_boundary v (HArray 2 "float32" z) n (Some t) i = Ok l -> exists pts, l = map Some pts) /\
  v_pixels v = Ok (boundary8 (v_w v) (v_h v)).

Theorem process_view : forall m v o src a u d warn, view_of m = Ok v -> plain v ->
  process_with m o src a u = Ok (d, Ok tt, warn) -> runs u d ->
  exists s, src = Ok s /\
  rectified cv_image convert C reproject to_pixels fill_poly
    (fun hs t i poly => v_boundary v (HArray 2 "float32" hs) (Some 400) (Some t) (IEnum i) = Ok (map Some poly))
    (fun X q => v_pixel v (Num (vx X), Num (vy X), Num (vz X)) = q) o s a d.
Proof.
  intros m v o src a u d warn Ev (Hd & Hnan & Hread & Hsome & _).
  unfold Whole_Model.process_with. rewrite Ev. cbn [bind]. destruct src as [s|]; [|discriminate]. cbn [bind] in *.
  destruct (source_of C s) as [srcs|] eqn:Es; [|discriminate]. cbn [bind].
  destruct (interp_of (a_dem_interp a)) as [di|] eqn:Ei; [|discriminate]. cbn [bind]. apply interp_of_iff in Ei.
  destruct (reproject_dem C crs_eqb bounds_in reproject o di (resolution_of C o a)) as [[hs t]|] eqn:Er; [|discriminate]. cbn [bind].
  apply (reproject_dem_surface C crs_eqb bounds_in reproject crs_same _ _ _ _ _ Ei) in Er.
  destruct (boundary_on v hs t di) as [l|] eqn:El; [|discriminate]. cbn [bind]. intros E (U1 & U2 & U3).
  assert (Hcount : s_count srcs = Z.of_nat (List.length (if_bands (sf_im C s))) /\ 1 <= s_count srcs /\ s_colorinterp srcs = sf_colors C s /\ exists px l, if_bands (sf_im C s) = (s_dtype srcs, px) :: l).
  { unfold source_of in Es. destruct (if_bands (sf_im C s)) as [|[dt px] bs]; [discriminate|]. injection Es as <-. cbn [s_count s_colorinterp s_dtype List.length]. repeat split; try lia. eauto. }
  destruct Hcount as (N1 & N2 & N3 & px0 & bs0 & N4).
  pose proof (process_inv C crs_eqb bounds_in reproject (sample cv_image) to_pixels fill_poly crs_same _ _ _ _ _ _ _ E) as (_ & _ & _ & _ & _ & _ & _ & _ & _ & _ & G1 & _ & _ & _ & G2 & G3 & _ & G4 & _).
  pose proof (process_end_to_end C crs_eqb bounds_in reproject (sample cv_image) to_pixels fill_poly crs_same border o (view_camera v (sf_im C s)) a
    (world_of C v s srcs a u) d warn) as P. cbn [w_source w_block w_order world_of] in *.
  specialize (P (fun x y => Hnan x y) E N2 U1 U2 U3 (or_introl Hd)). destruct P as (di' & hs' & t' & r0 & c0 & i & nd & P1 & P2 & P3 & P4 & P5 & P6 & P7 & P8).
  destruct (surface_unique C bounds_in reproject (sample cv_image) to_pixels fill_poly _ _ _ _ _ _ _ _ Er P1) as (<- & -> & ->).
  unfold boundary_on in El. destruct (Hsome _ _ _ _ _ El) as (poly & ->).
  assert (Eb : image_polygon to_pixels fill_poly (view_camera v (sf_im C s)) hs t di = fill_poly (ah hs, aw hs) (to_pixels t (map xy_of poly))).
  { unfold image_polygon, view_camera. cbn [k_boundary]. unfold boundary_on. rewrite El, xy_flat. reflexivity. }
  rewrite Eb in P7, P8. exists s. split; [reflexivity|].
  exists di, hs, t, poly, r0, c0, (dtype_of a srcs), nd. split; [exact Ei|]. split; [exact Er|].
  split; [rewrite (interp_str_name _ _ Ei) in El; exact El|]. cbv zeta.
  split; [exact G1|]. split; [rewrite G2; exact N1|]. split; [rewrite G4; exact N3|].
  split; [unfold type_for, dtype_of; destruct (a_dtype a); [reflexivity|eauto]|].
  split; [exact G3|]. split; [exact P3|]. split; [exact P4|]. split; [exact P5|]. split; [exact P6|]. split; [exact P7|].
  intros b r c Hb Hin. specialize (P8 b r c Hb Hin). destruct (pixel_centre (d_transform d) r c) as [x y]. destruct P8 as (P8 & P9).
  split; [exact P9|]. intros Wd. pose proof Wd as (_ & _ & Nz). destruct (aget hs (r0 + r) (c0 + c)) as [|z] eqn:Ez; [contradiction|].
  assert (Eband : exists band, band_as convert (sf_im C s) (dtype_of a srcs) b band /\ k_read (view_camera v (sf_im C s)) i (dtype_of a srcs) nd b = band).
  { rewrite G2, N1 in Hb. destruct (nth_error (if_bands (sf_im C s)) (Z.to_nat (b - 1))) as [[dd px]|] eqn:En; [|apply nth_error_None in En; lia].
    eexists. split; [exists dd, px; split; [exact En|reflexivity]|]. unfold view_camera. cbn [k_read]. rewrite Hread. unfold read_image. cbn [bind].
    destruct (String.eqb_spec (dtype_of a srcs) "") as [X|_]; [destruct (nodata_dtype _ _ P3 X)|]. cbn [bind band_list mapM].
    destruct (Z.ltb_spec b 1); [lia|]. rewrite En. reflexivity. }
  destruct Eband as (bd & Hbd & Ebd). exists bd, z. split; [exact Hbd|]. split; [reflexivity|].
  intros q Hq. rewrite (P8 Wd). unfold seen. rewrite Ebd. unfold view_camera. cbn [k_w2p]. cbn [vx vy vz] in Hq. rewrite Hq.
  unfold shown, sample. rewrite (interp_str_name _ _ P2). destruct q as [[|j] [|k]]; reflexivity.
Qed.

(** Calls that have a result. *)
Lemma index_bands : forall n pb g b, In g (index_list n pb) -> In b g -> 1 <= b <= n.
Proof.
  intros n pb g b Hg Hb. unfold index_list in Hg. destruct pb.
  - apply in_map_iff in Hg. destruct Hg as (x & <- & Hx). destruct Hb as [<-|[]]. apply Grid_Proof.py_range_In in Hx; lia.
  - destruct Hg as [<-|[]]. apply Grid_Proof.py_range_In in Hb; lia.
Qed.

Lemma read_bands : forall im l dt, dt <> "" -> (forall b, In b l -> 1 <= b <= Z.of_nat (List.length (if_bands im))) ->
  exists data, read_image convert (Ok im) (Bands l) (Some dt) = Ok (Nd dt [Z.of_nat (List.length data); if_h im; if_w im] data) /\ Forall (fun a => ah a = if_h im /\ aw a = if_w im) data.
Proof.
  intros im l dt Hdt Hl. unfold read_image. cbn [bind]. destruct (String.eqb_spec dt "") as [|_]; [contradiction|]. cbn [bind band_list].
  match goal with |- context [mapM ?f l] => assert (M : exists data, mapM f l = Ok data /\ Forall (fun a => ah a = if_h im /\ aw a = if_w im) data) end.
  { induction l as [|b l IH]; [exists []; split; [reflexivity|constructor]|]. destruct IH as (data & E & F); [intros b' Hb'; apply Hl; right; exact Hb'|].
    specialize (Hl b (or_introl eq_refl)). cbn [mapM]. destruct (Z.ltb_spec b 1); [lia|].
    destruct (nth_error (if_bands im) (Z.to_nat (b - 1))) as [[d px]|] eqn:En; [|apply nth_error_None in En; lia]. cbn [bind]. rewrite E. cbn [bind].
    eexists. split; [reflexivity|]. constructor; [split; reflexivity|exact F]. }
  destruct M as (data & -> & F). cbn [bind]. exists data. auto.
Qed.

(** The bands of an image can be read, and remapped. *)
Definition readable (v : view) (im : imfile) : Prop := forall g dt nm i, supported_dtype dt -> interp_name nm i -> (forall b, In b g -> 1 <= b <= Z.of_nat (List.length (if_bands im))) ->
  forall nodata, exists a, v_read v (Ok im) (Bands g) dt nodata nm = Ok a /\ validate_image a = Ok tt /\ Forall (fun b => ah b < 32767 /\ aw b < 32767) (nd_data a).

Theorem process_runs_gen : forall m v o s a u, view_of m = Ok v -> readable v (sf_im C s) ->
  processes C reproject to_pixels fill_poly bounds_in (fun hs t i poly => v_boundary v (HArray 2 "float32" hs) (Some 400) (Some t) (IEnum i) = Ok (map Some poly)) o s a ->
  exists d r warn, process_with m o (Ok s) a u = Ok (d, r, warn) /\ (runs u d -> small_tiles C u d -> r = Ok tt).
Proof.
  intros m v o s a u Ev Hread (Hfit & (di & hs & t & poly & r0 & c0 & Hs & Hp & Hw) & (dt & Hty & Hdt & Hco) & Hb & Hh & Hwd & Hdr & (i & Hi)).
  unfold Whole_Model.process_with. rewrite Ev. cbn [bind].
  assert (Es : exists srcs, source_of C s = Ok srcs /\ s_count srcs = Z.of_nat (List.length (if_bands (sf_im C s))) /\ 1 <= s_count srcs /\ dtype_of a srcs = dt).
  { unfold source_of, type_for, dtype_of in *. destruct (if_bands (sf_im C s)) as [|[dt0 px] bs] eqn:Eb; [contradiction|]. eexists. split; [reflexivity|]. cbn [s_count s_dtype List.length]. split; [reflexivity|]. split; [lia|].
    destruct (a_dtype a); [symmetry; exact Hty|]. destruct Hty as (px' & l' & Hty). congruence. }
  destruct Es as (srcs & -> & N1 & N2 & N3). cbn [bind].
  assert (Hdi : interp_name (a_dem_interp a) di) by (inversion Hs; assumption). rewrite (proj2 (interp_of_iff _ _) Hdi). cbn [bind].
  assert (Eb : image_polygon to_pixels fill_poly (view_camera v (sf_im C s)) hs t di = fill_poly (ah hs, aw hs) (to_pixels t (map xy_of poly))).
  { unfold image_polygon, view_camera. cbn [k_boundary]. unfold boundary_on. rewrite (interp_str_name _ _ Hdi), Hp, xy_flat. reflexivity. }
  pose proof (proj2 (process_creates C crs_eqb bounds_in reproject (sample cv_image) to_pixels fill_poly crs_same o (view_camera v (sf_im C s)) a (world_of C v s srcs a u))) as P.
  cbn [w_source world_of] in P. rewrite N3 in P.
  destruct P as (((d & r) & warn) & E).
  { split; [exact Hfit|]. split; [exists di, hs, t; split; [exact Hs|]; exists r0, c0; rewrite Eb; exact Hw|]. auto. }
  exists d, r, warn. split.
  - pose proof E as E'. unfold process in E'. rewrite (proj2 (interp_of_iff _ _) Hdi) in E'. cbn [bind] in E'.
    destruct (reproject_dem C crs_eqb bounds_in reproject o di (resolution_of C o a)) as [[hs' t']|] eqn:Er; [|discriminate]. cbn [bind] in E' |- *.
    apply (reproject_dem_surface C crs_eqb bounds_in reproject crs_same _ _ _ _ _ Hdi) in Er.
    destruct (surface_unique C bounds_in reproject (sample cv_image) to_pixels fill_poly _ _ _ _ _ _ _ _ Hs Er) as (_ & -> & ->).
    unfold boundary_on. rewrite (interp_str_name _ _ Hdi), Hp. cbn [bind]. exact E.
  - intros (U1 & U2 & U3) (T1 & T2 & T3). apply (process_result_on C crs_eqb bounds_in reproject (sample cv_image) to_pixels fill_poly crs_same _ _ _ _ _ _ _ E); cbn [w_source w_block w_order w_fail world_of]; auto; [|exists i; exact Hi].
    intros g win Hg Hwin. rewrite T3. cbn [orb].
    destruct (u_block u (d_profile d)) as [bh bw] eqn:Eu. cbn [fst snd] in *. pose proof (Grid_Proof.block_windows_bounds _ _ _ _ U1 U2 _ Hwin) as (B1 & B2 & _).
    rewrite (proj2 (interp_of_iff _ _) Hi). fold (dtype_of a srcs). rewrite N3. destruct (lookup (KStr dt) Remap_Model.nodata_vals) as [nd|]; [|reflexivity].
    unfold tile_fails. rewrite (interp_str_name _ _ Hi).
    destruct (Hread g dt (a_interp a) i Hdt Hi) with (nodata := nd) as (data & -> & V & F). { intros b Hbg. rewrite <- N1. exact (index_bands _ _ _ _ Hg Hbg). }
    rewrite V. apply not_true_iff_false. intros X. apply existsb_exists in X. destruct X as (b & Hbd & X). rewrite Forall_forall in F. destruct (F _ Hbd) as (F1 & F2).
    apply negb_true_iff in X. unfold cv_sizes in X.
    rewrite !(proj2 (Z.ltb_lt _ _)) in X; [discriminate X|..]; unfold shrt_max; lia.
Qed.

Lemma plain_readable : forall v im, plain v -> if_h im < 32767 -> if_w im < 32767 -> readable v im.
Proof.
  intros v im (_ & _ & Hread & _) Hh Hwd g dt nm i Hdt _ Hg nodata. rewrite Hread. assert (Hne : dt <> "") by (intros ->; repeat destruct Hdt as [Hdt|Hdt]; discriminate).
  destruct (read_bands im g dt Hne Hg) as (data & -> & F). eexists. split; [reflexivity|]. split.
  - unfold validate_image. cbn [nd_dtype nd_shape]. replace (one_of dt valid_dtypes) with true by (destruct Hdt as [->|[->|[->|[->| ->]]]]; reflexivity). cbn [negb].
    replace (shrt_max <? if_h im) with false by (symmetry; apply Z.ltb_ge; unfold shrt_max; lia). replace (shrt_max <? if_w im) with false by (symmetry; apply Z.ltb_ge; unfold shrt_max; lia). reflexivity.
  - cbn [nd_data]. eapply Forall_impl; [|exact F]. cbn. intros b (-> & ->). lia.
Qed.

Theorem process_runs : forall m v o s a u, view_of m = Ok v -> plain v ->
  processes C reproject to_pixels fill_poly bounds_in (fun hs t i poly => v_boundary v (HArray 2 "float32" hs) (Some 400) (Some t) (IEnum i) = Ok (map Some poly)) o s a ->
  exists d r warn, process_with m o (Ok s) a u = Ok (d, r, warn) /\ (runs u d -> small_tiles C u d -> r = Ok tt).
Proof. intros m v o s a u Ev Pv P. apply (process_runs_gen m v o s a u Ev); [|exact P]. destruct P as (_ & _ & _ & _ & Hh & Hwd & _). apply plain_readable; assumption. Qed.

(** The size and profile of a dataset do not depend on how tiles run. *)
Lemma process_same : forall m o src a u u' d d' r r' warn warn', process_with m o src a u = Ok (d, r, warn) -> process_with m o src a u' = Ok (d', r', warn') ->
  d_height d = d_height d' /\ d_width d = d_width d' /\ d_profile d = d_profile d'.
Proof.
  intros m o src a u u' d d' r r' warn warn'. unfold Whole_Model.process_with. destruct (view_of m) as [v|]; [|discriminate]. cbn [bind]. destruct src as [s|]; [|discriminate]. cbn [bind].
  destruct (source_of C s) as [srcs|]; [|discriminate]. cbn [bind]. destruct (interp_of (a_dem_interp a)) as [di|] eqn:Ei; [|discriminate]. cbn [bind].
  destruct (reproject_dem C crs_eqb bounds_in reproject o di (resolution_of C o a)) as [[hs t]|] eqn:Er; [|discriminate]. cbn [bind].
  destruct (boundary_on v hs t di); [|discriminate]. cbn [bind]. unfold process. rewrite Ei. cbn [bind]. rewrite Er. cbn [bind].
  destruct (crop_to_image _ _ _ _ _ _) as [[[dem t'] wn]|]; [|discriminate]. cbn [bind]. unfold write_ortho. cbn [w_source world_of].
  destruct (create_profile _ _ _ _ _ _) as [[p wm]|]; [|discriminate]. cbn [bind].
  assert (G : forall x d0 r0 w0, match interp_of (a_interp a) with
      | Ok i => match lookup (KStr match a_dtype a with Some d1 => d1 | None => s_dtype srcs end) Remap_Model.nodata_vals with
                | Ok nodata => let (ras, rr) := ortho_remap (make_job C (sample cv_image) o (view_camera v (sf_im C s)) srcs match a_dtype a with Some d1 => d1 | None => s_dtype srcs end nodata i dem t' wm
                      (w_block (world_of C v s srcs a x) p) (w_fail (world_of C v s srcs a x))) (a_per_band a) (w_order (world_of C v s srcs a x)) (w_empty (world_of C v s srcs a x)) in
                    Ok (Data (or_crs o) t' (ah dem) (aw dem) (s_count srcs) match a_dtype a with Some d1 => d1 | None => s_dtype srcs end p (s_colorinterp srcs) ras, rr, wn)
                | Err e => Ok (Data (or_crs o) t' (ah dem) (aw dem) (s_count srcs) match a_dtype a with Some d1 => d1 | None => s_dtype srcs end p (s_colorinterp srcs) (w_empty (world_of C v s srcs a x)), Err e, wn)
                end
      | Err e => Ok (Data (or_crs o) t' (ah dem) (aw dem) (s_count srcs) match a_dtype a with Some d1 => d1 | None => s_dtype srcs end p (s_colorinterp srcs) (w_empty (world_of C v s srcs a x)), Err e, wn)
      end = Ok (d0, r0, w0) -> d_height d0 = ah dem /\ d_width d0 = aw dem /\ d_profile d0 = p).
  { intros x d0 r0 w0. destruct (interp_of (a_interp a)); [destruct (lookup _ _); [destruct (ortho_remap _ _ _ _)|]|]; intros [= <- _ _]; repeat split; reflexivity. }
  intros E E'. apply G in E, E'. destruct E as (-> & -> & ->). destruct E' as (-> & -> & ->). auto.
Qed.

Theorem process_succeeds_gen : forall m v o s a, view_of m = Ok v -> readable v (sf_im C s) ->
  processes C reproject to_pixels fill_poly bounds_in (fun hs t i poly => v_boundary v (HArray 2 "float32" hs) (Some 400) (Some t) (IEnum i) = Ok (map Some poly)) o s a ->
  exists h w p, 0 < h /\ 0 < w /\
  forall u, exists d r warn, process_with m o (Ok s) a u = Ok (d, r, warn) /\ d_height d = h /\ d_width d = w /\ d_profile d = p /\ (runs u d -> small_tiles C u d -> r = Ok tt).
Proof.
  intros m v o s a Ev Pv Hp.
  set (u0 := Run (fun _ => (1, 1)) (fun _ _ => false) (fun _ => []) (Ras (fun _ _ _ => PNan) (fun _ _ => false))).
  destruct (process_runs_gen m v o s a u0 Ev Pv Hp) as (d0 & r0 & warn0 & E0 & _).
  exists (d_height d0), (d_width d0), (d_profile d0).
  assert (P0 : 0 < d_height d0 /\ 0 < d_width d0).
  { pose proof E0 as E. unfold Whole_Model.process_with in E. rewrite Ev in E. cbn [bind] in E. destruct (source_of C s) as [srcs|]; [|discriminate]. cbn [bind] in E.
    destruct (interp_of (a_dem_interp a)) as [di|]; [|discriminate]. cbn [bind] in E. destruct (reproject_dem _ _ _ _ _ _ _) as [[hs t]|]; [|discriminate]. cbn [bind] in E.
    destruct (boundary_on v hs t di); [|discriminate]. cbn [bind] in E. apply process_positive in E; [exact E|exact crs_same]. }
  split; [apply P0|]. split; [apply P0|]. intros u. destruct (process_runs_gen m v o s a u Ev Pv Hp) as (d & r & warn & E & H). exists d, r, warn.
  split; [exact E|]. destruct (process_same _ _ _ _ _ _ _ _ _ _ _ _ E0 E) as (-> & -> & ->). auto.
Qed.

Theorem process_succeeds : forall m v o s a, view_of m = Ok v -> plain v ->
  processes C reproject to_pixels fill_poly bounds_in (fun hs t i poly => v_boundary v (HArray 2 "float32" hs) (Some 400) (Some t) (IEnum i) = Ok (map Some poly)) o s a ->
  exists h w p, 0 < h /\ 0 < w /\
  forall u, exists d r warn, process_with m o (Ok s) a u = Ok (d, r, warn) /\ d_height d = h /\ d_width d = w /\ d_profile d = p /\ (runs u d -> small_tiles C u d -> r = Ok tt).
Proof. intros m v o s a Ev Pv P. apply (process_succeeds_gen m v o s a Ev); [|exact P]. destruct P as (_ & _ & _ & _ & Hh & Hwd & _). apply plain_readable; assumption. Qed.

(** * Resolution *)
Lemma insert_perm : forall x l, Permutation (x :: l) (insert x l).
Proof. induction l as [|y l IH]; cbn; [constructor; constructor|]. destruct (Rle_dec x y); [apply Permutation_refl|]. etransitivity; [apply perm_swap|]. constructor. exact IH. Qed.

Lemma insert_sorted : forall x l, StronglySorted Rle l -> StronglySorted Rle (insert x l).
Proof.
  induction 1 as [|y l S IH F]; cbn; [repeat constructor|]. destruct (Rle_dec x y) as [L|L].
  - constructor; [constructor; assumption|]. constructor; [exact L|]. eapply Forall_impl; [|exact F]. cbn. intros. lra.
  - constructor; [exact IH|]. apply (Permutation_Forall (insert_perm x l)). constructor; [lra|exact F].
Qed.

Lemma sorted_is : forall l, Permutation l (sorted l) /\ StronglySorted Rle (sorted l).
Proof.
  induction l as [|x l [P S]]; [split; constructor|]. cbn. split; [|apply insert_sorted, S].
  etransitivity; [apply perm_skip, P|apply insert_perm].
Qed.

Lemma cells_numbers : forall a, numbers_of a = map snd (cells a).
Proof.
  intros a. unfold numbers_of, cells. induction (py_range 0 (ah a) 1) as [|r l IH]; [reflexivity|]. cbn [flat_map]. rewrite map_app, IH. f_equal.
  clear. induction (py_range 0 (aw a) 1) as [|c l IH]; [reflexivity|]. cbn [flat_map]. rewrite map_app, IH. f_equal. destruct (aget a r c); reflexivity.
Qed.

Lemma flat_nodup : forall A B (f : A -> list B) (g : B -> A) l, NoDup l -> (forall x, NoDup (f x)) -> (forall x y, In y (f x) -> g y = x) -> NoDup (flat_map f l).
Proof.
  intros A B f g l N F G. induction N as [|x l Nx N IH]; [constructor|]. cbn [flat_map]. specialize (F x). pose proof (G x) as Gx.
  induction (f x) as [|y ys IHy]; [exact IH|]. inversion F as [|? ? F1 F2]; subst. cbn. constructor.
  - intros H. apply in_app_or in H. destruct H as [H|H]; [contradiction|]. apply in_flat_map in H. destruct H as (x' & Hx' & H). apply Nx. rewrite <- (Gx y (or_introl eq_refl)), (G x' y H). exact Hx'.
  - apply IHy; [exact F2|]. intros y' H. apply Gx. right. exact H.
Qed.

Lemma map_flat : forall A B C0 (g : B -> C0) (f : A -> list B) l, map g (flat_map f l) = flat_map (fun x => map g (f x)) l.
Proof. intros A B C0 g f l. induction l as [|x l IH]; [reflexivity|]. cbn. rewrite map_app, IH. reflexivity. Qed.

Lemma median_is : forall a, numbers_of a <> [] -> median_of a (median (numbers_of a)).
Proof.
  intros a Ne. destruct (sorted_is (numbers_of a)) as (P & S). rewrite cells_numbers in P at 1.
  destruct (Permutation_map_inv snd _ (Permutation_sym P)) as (cs & E & Pc).
  exists (map fst cs), (sorted (numbers_of a)).
  assert (I : forall x, In x cs <-> In x (cells a)). { intros x. split; apply Permutation_in; [|apply Permutation_sym]; apply Permutation_sym; exact Pc. }
  split.
  { apply (Permutation_NoDup (Permutation_map fst Pc)). clear.
    assert (N : forall n, NoDup (py_range 0 n 1)) by (intros n; apply Grid_Proof.py_range_NoDup; lia).
    unfold cells. rewrite map_flat. apply (flat_nodup _ _ _ fst _ (N _)).
    - intros r. rewrite map_flat. apply (flat_nodup _ _ _ snd _ (N _)).
      + intros c. destruct (aget a r c); repeat constructor. intros [].
      + intros c y Hy. destruct (aget a r c); [destruct Hy|destruct Hy as [<-|[]]; reflexivity].
    - intros r y Hy. apply in_map_iff in Hy. destruct Hy as (x & <- & Hx). apply in_flat_map in Hx. destruct Hx as (c & _ & Hx). destruct (aget a r c); [destruct Hx|destruct Hx as [<-|[]]; reflexivity]. }
  split.
  { intros r c. split.
    - intros H. apply in_map_iff in H. destruct H as ([[r' c'] z] & X & H). cbn in X. injection X as -> ->. apply I, cells_in in H. destruct H as (H1 & H2). split; [exact H1|]. rewrite H2. discriminate.
    - intros (H1 & H2). destruct (aget a r c) as [|z] eqn:Ez; [contradiction|]. apply in_map_iff. exists (r, c, z). split; [reflexivity|]. apply I, cells_in. auto. }
  split.
  { rewrite E, !map_map. apply map_ext_in. intros [[r c] z] H. apply I, cells_in in H. cbn. apply H. }
  split; [exact S|]. split; [intros X; rewrite X in P; apply Permutation_sym, Permutation_nil in P; rewrite <- cells_numbers in P; contradiction|].
  unfold median. rewrite <- !(Permutation_length P), <- cells_numbers. reflexivity.
Qed.

Theorem gsd_size : forall v crs dem a t g, plain v -> 1 < v_w v -> 1 < v_h v -> gsd v crs a t (df_crs C dem) = Ok g ->
  default_size C (height_in C warp) (v_outline v) crs dem a t (v_w v) (v_h v) g.
Proof.
  intros v crs dem a t g (_ & _ & _ & _ & Hp) Hw Hh. unfold Whole_Model.gsd. rewrite Hp. cbn [bind].
  destruct (numbers_of a) as [|z0 zs] eqn:En; [discriminate|]. rewrite <- En. destruct (aff_apply t _ _) as [x y] eqn:Ea.
  destruct (v_boundary v _ None None (IEnum "cubic")) as [xyz|] eqn:Eb; [|discriminate]. cbn [bind].
  destruct (all_some xyz) as [pts|] eqn:Es; [|discriminate]. intros [= <-]. apply all_some_is in Es. subst xyz.
  exists (median (numbers_of a)), pts. split; [apply median_is; rewrite En; discriminate|]. rewrite Ea. split; [exact Eb|].
  assert (Ar : (0 < area_poly (boundary8 (v_w v) (v_h v)))%R). { rewrite Bound_Proof.area_boundary8 by lia. apply IZR_lt in Hw, Hh. nra. }
  pose proof (Bound_Proof.gsd_area (boundary8 (v_w v) (v_h v)) (map (fun p => (vx p, vy p)) pts) Ar) as (G1 & G2 & _). split; [exact G2|]. intros q.
  rewrite Bound_Proof.area_boundary8 in G1 by lia. rewrite <- Bound_Proof.area_poly_signed. exact G1.
Qed.

Theorem new_ortho_view : forall m v src dem crs band o, view_of m = Ok v -> plain v -> new_ortho m src dem crs band = Ok o ->
  exists demf w, dem = Ok demf /\ 1 <= band <= df_count C demf /\ world_crs from_string crs (do s <- src; Ok (sf_crs C s)) w /\
  built C (height_in C warp) transform_bounds rpc_crs (v_centre v) (v_outline v) w demf band (v_w v) (v_h v) o.
Proof.
  intros m v src dem crs band o Ev Pv E. apply new_ortho_inv in E. destruct E as (demf & v' & Ew & -> & Hb & Ev' & Ed & Eg). rewrite Ev in Ev'. injection Ev' as <-.
  exists demf, (or_crs o). split; [reflexivity|]. split; [exact Hb|]. split; [exact Ew|]. destruct (init_dem_part _ _ _ _ _ _ _ Ed) as (D1 & D2 & D3).
  split; [reflexivity|]. split; [exact D1|]. split; [exact D2|]. split; [exact D3|]. intros Hw Hh. apply gsd_size; auto. rewrite <- D1. exact Eg.
Qed.

(** * DEMs inside of the image *)
Lemma box_full : forall dem band l, north_up (df_t C dem) -> 0 < ah (df_band C dem band) -> 0 < aw (df_band C dem band) -> surrounds C dem band l ->
  win_of_bounds (ah (df_band C dem band)) (aw (df_band C dem band)) (df_t C dem) (bounds_of l) = Ok (Win 0 0 (aw (df_band C dem band)) (ah (df_band C dem band))).
Proof.
  intros dem band l ((Ta & Te) & _ & _) Hh Hw. set (h := ah _) in *. set (w := aw _) in *. unfold surrounds. fold h w. cbv zeta. set (t := df_t C dem) in *.
  intros ((p1 & I1 & L1) & (p2 & I2 & L2) & (p3 & I3 & L3) & (p4 & I4 & L4)). unfold win_of_bounds, bounds_of. cbn [b_left b_right b_top b_bottom].
  assert (M1 : (rmin (map vx l) <= tc t)%R) by (eapply Rle_trans; [apply Undist_Proof.rmin_le, in_map, I1|exact L1]).
  assert (M2 : (tc t + ta t * IZR w <= rmax (map vx l))%R) by (eapply Rle_trans; [exact L2|apply Undist_Proof.rmax_ge, in_map, I2]).
  assert (M3 : (tf t <= rmax (map vy l))%R) by (eapply Rle_trans; [exact L3|apply Undist_Proof.rmax_ge, in_map, I3]).
  assert (M4 : (rmin (map vy l) <= tf t + te t * IZR h)%R) by (eapply Rle_trans; [apply Undist_Proof.rmin_le, in_map, I4|exact L4]).
  assert (Dv : forall n d : R, (d <> 0)%R -> (n / d * d = n)%R) by (intros; field; assumption).
  assert (Ph : (0 < IZR h)%R) by (apply IZR_lt; exact Hh). assert (Pw : (0 < IZR w)%R) by (apply IZR_lt; exact Hw).
  rewrite (Rmax_left 0 ((rmin (map vx l) - tc t) / ta t)).
  2:{ apply (Rmult_le_reg_r (ta t)); [lra|]. rewrite Dv by lra. lra. }
  rewrite (Rmin_left (IZR w)).
  2:{ apply (Rmult_le_reg_r (ta t)); [lra|]. rewrite Dv by lra. lra. }
  rewrite (Rmax_left 0 ((rmax (map vy l) - tf t) / te t)).
  2:{ apply (Rmult_le_reg_r (- te t)); [lra|]. rewrite <- Ropp_mult_distr_r, Dv by lra. lra. }
  rewrite (Rmin_left (IZR h)).
  2:{ apply (Rmult_le_reg_r (- te t)); [lra|]. rewrite <- !Ropp_mult_distr_r, Dv by lra. lra. }
  destruct (Rlt_dec 0 (IZR w)); [|contradiction]. destruct (Rlt_dec 0 (IZR h)); [|contradiction]. cbn [andb].
  rewrite (Bound_Proof.Rfloor_eq 0 0) by lra. rewrite (Bound_Proof.Rceil_eq (IZR w) w) by lra. rewrite (Bound_Proof.Rceil_eq (IZR h) h) by lra. rewrite !Z.sub_0_r. reflexivity.
Qed.

Lemma surrounds_app : forall dem band l m, surrounds C dem band l \/ surrounds C dem band m -> surrounds C dem band (l ++ m).
Proof.
  intros dem band l m H. unfold surrounds in *. cbv zeta in *.
  destruct H as [((p1 & I1 & L1) & (p2 & I2 & L2) & (p3 & I3 & L3) & (p4 & I4 & L4))|((p1 & I1 & L1) & (p2 & I2 & L2) & (p3 & I3 & L3) & (p4 & I4 & L4))];
  (split; [exists p1|split; [exists p2|split; [exists p3|exists p4]]]; (split; [apply in_or_app; auto|assumption])).
Qed.

Lemma all_some_map : forall A (l : list A), all_some (map Some l) = Some l.
Proof. intros A l. induction l as [|x l IH]; [reflexivity|]. cbn. rewrite IH. reflexivity. Qed.

Lemma win_at_full : forall v dem band z1 z2 l1 l2, north_up (df_t C dem) -> 0 < ah (df_band C dem band) -> 0 < aw (df_band C dem band) ->
  v_outline v z1 l1 -> v_outline v z2 l2 -> surrounds C dem band l1 \/ surrounds C dem band l2 ->
  win_at_zs C crs_eqb transform_bounds v (df_crs C dem) dem (ah (df_band C dem band)) (aw (df_band C dem band)) [z1; z2] = Ok (Win 0 0 (aw (df_band C dem band)) (ah (df_band C dem band))).
Proof.
  intros v dem band z1 z2 l1 l2 N Hh Hw O1 O2 S. unfold win_at_zs. cbn [mapM]. unfold v_outline in O1, O2. rewrite O1. cbn [bind]. rewrite O2. cbn [bind List.concat].
  rewrite app_nil_r, <- map_app, all_some_map. rewrite (proj2 (crs_same _ _) eq_refl). apply box_full; auto. apply surrounds_app, S.
Qed.

Lemma best_some : forall better l x, In x l -> exists y, arg_best better l = Some y.
Proof.
  intros better l x H. unfold arg_best. set (f := fun _ _ => _).
  assert (G : forall l b, exists y, fold_left f l (Some b) = Some y).
  { clear. induction l as [|y l IH]; intros b; [eexists; reflexivity|]. cbn [fold_left]. unfold f at 2. destruct (better _ _); apply IH. }
  destruct l as [|y l]; [contradiction|]. cbn [fold_left]. apply (G l y).
Qed.

Theorem inside_ortho_gen : forall m v src dem crs w band, view_of m = Ok v -> (exists ji, v_pixels v = Ok ji) -> world_crs from_string crs (do s <- src; Ok (sf_crs C s)) w ->
  inside C (height_in C warp) rpc_crs (v_centre v) (v_outline v) w dem band ->
  exists o, new_ortho m src (Ok dem) crs band = Ok o /\ has_all C dem band o.
Proof.
  intros m v src dem crs w band Ev Pv Hw (-> & Hb & Nu & (r0 & c0 & z0 & Hin & Hz) & (p & l & sc & Hp & Hsc & Ho & Hs) & Hc & Hall).
  unfold Whole_Model.new_ortho. apply parse_crs_ok in Hw. rewrite Hw. cbn [bind].
  replace ((band <=? 0) || (df_count C dem <? band)) with false by (symmetry; apply orb_false_iff; split; [apply Z.leb_gt|apply Z.ltb_ge]; lia).
  rewrite Ev. cbn [bind]. set (d := df_band C dem band) in *. assert (Ph : 0 < ah d) by (destruct Hin; lia). assert (Pw : 0 < aw d) by (destruct Hin; lia).
  assert (E : exists a, init_dem v (df_crs C dem) dem band = Ok (a, win_transform (Win 0 0 (aw d) (ah d)) (df_t C dem), df_crs C dem) /\
    ah a = ah d /\ aw a = aw d /\ (forall r c, in_im (ah d) (aw d) r c -> aget a r c = aget d r c)).
  { unfold Whole_Model.init_dem, z_scale. unfold v_centre in Hp. rewrite Hp. cbv zeta. destruct (Req_EM_T _ 0) as [X|Nz]; [rewrite X in Hsc; lra|]. cbn [bind].
    set (s := (1 / _)%R). assert (Es : s = sc). { unfold s. apply (Rmult_eq_reg_l (height_in C warp (df_crs C dem) rpc_crs (V3 (vx p) (vy p) 1) - height_in C warp (df_crs C dem) rpc_crs (V3 (vx p) (vy p) 0))); [|exact Nz]. rewrite Hsc. field. exact Nz. }
    rewrite Es. unfold init_zs. destruct (Hall ((8850 + 82.28) * sc)%R) as (l2 & O2). fold d. unfold d. rewrite (win_at_full v dem band _ _ l l2) by auto. fold d. cbn [bind row_off col_off height width].
    rewrite !Z.add_0_l. set (a1 := aslice d 0 (ah d) 0 (aw d)).
    assert (A1 : ah a1 = ah d) by (unfold a1; cbn; lia). assert (A2 : aw a1 = aw d) by (unfold a1; cbn; lia). assert (A3 : forall r c, aget a1 r c = aget d r c) by (intros; unfold a1; cbn; f_equal; lia).
    assert (Ci : In (r0, c0, z0) (cells a1)) by (apply cells_in; rewrite A1, A2, A3; auto).
    destruct (best_some (fun x y => Rltb x y) _ _ Ci) as ([[rl cl] zl] & El). destruct (best_some (fun x y => Rltb y x) _ _ Ci) as ([[rh ch] zh] & Eh).
    unfold argmin, argmax. rewrite El, Eh. pose proof (argmin_is a1 _ _ _ El) as (L1 & L2 & _). pose proof (argmax_is a1 _ _ _ Eh) as (H1 & H2 & _). rewrite A1, A2 in L1, H1. rewrite A3 in L2, H2.
    assert (Wh : forall r c z, cell_height C warp (df_crs C dem) dem (Win 0 0 (aw d) (ah d)) (r, c, z) = world_height C (height_in C warp) (df_crs C dem) dem r c z).
    { intros r c z. unfold world_height, cell_height. rewrite (win_transform_same (Win 0 0 (aw d) (ah d)) (df_t C dem)). cbn [row_off col_off]. rewrite !Rplus_0_r. reflexivity. }
    rewrite !Wh. destruct (Hc _ _ _ L1 L2) as (q1 & Q1 & S1). destruct (Hc _ _ _ H1 H2) as (q2 & Q2 & _). unfold d. rewrite (win_at_full v dem band _ _ q1 q2) by auto. fold d. cbn [bind].
    unfold win_intersection. cbn [row_off col_off height width]. rewrite !Z.max_id, !Z.min_id, !Z.add_0_l, !Z.sub_0_r.
    replace ((0 <? aw d) && (0 <? ah d)) with true by (symmetry; apply andb_true_iff; split; apply Z.ltb_lt; lia). cbn [bind row_off col_off height width]. rewrite Z.sub_diag.
    eexists. split; [reflexivity|]. clearbody a1. cbn [aslice ah aw aget]. rewrite A1, A2. split; [lia|]. split; [lia|]. intros r c _. rewrite A3. f_equal; lia. }
  destruct E as (a & -> & E1 & E2 & E3). cbn [bind].
  assert (G : exists g, gsd v (df_crs C dem) a (win_transform (Win 0 0 (aw d) (ah d)) (df_t C dem)) (df_crs C dem) = Ok g).
  { unfold Whole_Model.gsd. destruct Pv as (ji & ->). cbn [bind].
    destruct (numbers_of a) as [|z1 zs] eqn:En.
    - exfalso. rewrite cells_numbers in En. apply map_eq_nil in En. assert (Ci : In (r0, c0, z0) (cells a)) by (apply cells_in; rewrite E1, E2, E3; auto). rewrite En in Ci. exact Ci.
    - destruct (aff_apply _ _ _). match goal with |- context [HScalar ?z] => destruct (Hall z) as (q & Q) end. unfold v_outline in Q. rewrite Q. cbn [bind]. rewrite all_some_map. eexists. reflexivity. }
  destruct G as (g & ->). cbn [bind]. eexists. split; [reflexivity|]. unfold has_all. fold d. cbn [or_dem or_dem_t]. split; [exact E1|]. split; [exact E2|]. split; [exact E3|].
  exact (win_transform_same (Win 0 0 (aw d) (ah d)) (df_t C dem)).
Qed.

Theorem inside_ortho : forall m v src dem crs w band, view_of m = Ok v -> plain v -> world_crs from_string crs (do s <- src; Ok (sf_crs C s)) w ->
  inside C (height_in C warp) rpc_crs (v_centre v) (v_outline v) w dem band ->
  exists o, new_ortho m src (Ok dem) crs band = Ok o /\ has_all C dem band o.
Proof. intros m v src dem crs w band Ev (_ & _ & _ & _ & P). apply inside_ortho_gen; [exact Ev|]. rewrite P. eauto. Qed.

(** * Refused *)

Lemma no_crs_refused : forall m src dem crs band, (crs = PNone \/ crs = PText "") -> (do s <- src; Ok (sf_crs C s)) = Ok None -> new_ortho m src dem crs band = Err CrsMissingError.
Proof. intros m src dem crs band [->| ->] E; unfold Whole_Model.new_ortho, parse_crs; cbn [String.eqb]; rewrite E; reflexivity. Qed.

Lemma band_refused : forall m src dem crs w band, world_crs from_string crs (do s <- src; Ok (sf_crs C s)) w -> ~ 1 <= band <= df_count C dem -> new_ortho m src (Ok dem) crs band = Err OrthorityError.
Proof.
  intros m src dem crs w band Hw Hb. unfold Whole_Model.new_ortho. apply parse_crs_ok in Hw. rewrite Hw. cbn [bind].
  replace ((band <=? 0) || (df_count C dem <? band)) with true; [reflexivity|]. symmetry. apply orb_true_iff. destruct (Z_le_gt_dec band 0); [left; apply Z.leb_le; lia|right; apply Z.ltb_lt; lia].
Qed.

Lemma init_refused : forall c src dem crs w band, s_ext (fc_st c) = None -> world_crs from_string crs (do s <- src; Ok (sf_crs C s)) w -> 1 <= band <= df_count C dem ->
  new_ortho (MadeFrame c) src (Ok dem) crs band = Err CameraInitError.
Proof.
  intros c src dem crs w band He Hw Hb. unfold Whole_Model.new_ortho. apply parse_crs_ok in Hw. rewrite Hw. cbn [bind].
  replace ((band <=? 0) || (df_count C dem <? band)) with false by (symmetry; apply orb_false_iff; split; [apply Z.leb_gt|apply Z.ltb_ge]; lia).
  cbn [Whole_Model.view_of]. unfold frame_view, test_init. rewrite He. reflexivity.
Qed.

Lemma init_process_refused : forall c o src a u, s_ext (fc_st c) = None -> process_with (MadeFrame c) o src a u = Err CameraInitError.
Proof. intros c o src a u He. unfold Whole_Model.process_with. cbn [Whole_Model.view_of]. unfold frame_view, test_init. rewrite He. reflexivity. Qed.

Lemma misses_refused : forall m v src dem crs w band, view_of m = Ok v -> world_crs from_string crs (do s <- src; Ok (sf_crs C s)) w ->
  misses C (height_in C warp) rpc_crs (v_centre v) (v_outline v) w dem band -> new_ortho m src (Ok dem) crs band = Err OrthorityError.
Proof.
  intros m v src dem crs w band Ev Hw (-> & Hb & ((Ha & He) & _) & (p & sc & l1 & l2 & Hp & Hsc & O1 & O2 & Hn & Hout)).
  unfold Whole_Model.new_ortho. apply parse_crs_ok in Hw. rewrite Hw. cbn [bind].
  replace ((band <=? 0) || (df_count C dem <? band)) with false by (symmetry; apply orb_false_iff; split; [apply Z.leb_gt|apply Z.ltb_ge]; lia).
  rewrite Ev. cbn [bind]. unfold init_dem, z_scale. unfold v_centre in Hp. rewrite Hp.
  set (dz := (height_in C warp (df_crs C dem) rpc_crs (V3 (vx p) (vy p) 1) - height_in C warp (df_crs C dem) rpc_crs (V3 (vx p) (vy p) 0))%R) in *.
  cbv zeta. destruct (Req_EM_T _ 0) as [E0|N0]; [exfalso; fold dz in E0; rewrite E0, Rmult_0_l in Hsc; lra|]. fold dz in N0 |- *. cbn [bind].
  assert (Es : (1 / dz)%R = sc) by (unfold Rdiv; rewrite <- Hsc; field; exact N0). rewrite Es.
  unfold win_at_zs, init_zs. cbn [mapM]. unfold v_outline in O1, O2. rewrite O1. cbn [bind]. replace ((8850 + 82.28) * sc)%R with (8932.28 * sc)%R by lra. rewrite O2.
  cbn [bind List.concat]. rewrite app_nil_r, <- map_app, all_some_map. rewrite (proj2 (crs_same _ _) eq_refl). unfold win_of_bounds.
  assert (Nl : l1 ++ l2 <> []) by (destruct l1; [contradiction|discriminate]).
  destruct (box_ok (l1 ++ l2) Nl) as (B1 & (pl & Hpl & El) & (pr & Hpr & Er) & (pb & Hpb & Eb) & (pt & Hpt & Et)).
  set (b := bounds_of (l1 ++ l2)) in *. clearbody b. set (t := df_t C dem) in *.
  assert (G : forall x y : R, (0 < y -> x <= 0 -> x / y <= 0)%R) by (intros x y Hy Hx; apply (Rmult_le_reg_r y); [exact Hy|]; unfold Rdiv; rewrite Rmult_assoc, Rinv_l by lra; lra).
  assert (G2 : forall x y k : R, (0 < y -> y * k <= x -> k <= x / y)%R) by (intros x y k Hy Hx; apply (Rmult_le_reg_r y); [exact Hy|]; unfold Rdiv; rewrite Rmult_assoc, Rinv_l by lra; lra).
  assert (Gn : forall x y : R, (x / y = (- x) / (- y))%R) by (intros x y; unfold Rdiv; rewrite Rinv_opp; ring).
  destruct Hout as [H|[H|[H|H]]]; fold t in H.
  - assert (Rmin (IZR (aw (df_band C dem band))) ((b_right b - tc t) / ta t) <= 0)%R by (eapply Rle_trans; [apply Rmin_r|]; apply G; [exact Ha|rewrite <- Er; specialize (H _ Hpr); lra]).
    pose proof (Rmax_l 0 ((b_left b - tc t) / ta t)). destruct (Rlt_dec (Rmax 0 ((b_left b - tc t) / ta t)) _); [lra|]. reflexivity.
  - pose proof (Rmin_l (IZR (aw (df_band C dem band))) ((b_right b - tc t) / ta t)). pose proof (Rmax_r 0 ((b_left b - tc t) / ta t)).
    assert (IZR (aw (df_band C dem band)) <= (b_left b - tc t) / ta t)%R by (apply G2; [exact Ha|rewrite <- El; specialize (H _ Hpl); lra]).
    destruct (Rlt_dec (Rmax 0 ((b_left b - tc t) / ta t)) _); [lra|]. reflexivity.
  - assert (Rmin (IZR (ah (df_band C dem band))) ((b_bottom b - tf t) / te t) <= 0)%R by (eapply Rle_trans; [apply Rmin_r|]; rewrite Gn; apply G; [lra|rewrite <- Eb; specialize (H _ Hpb); lra]).
    pose proof (Rmax_l 0 ((b_top b - tf t) / te t)). destruct (Rlt_dec (Rmax 0 ((b_top b - tf t) / te t)) _); [lra|]. rewrite andb_false_r. reflexivity.
  - pose proof (Rmin_l (IZR (ah (df_band C dem band))) ((b_bottom b - tf t) / te t)). pose proof (Rmax_r 0 ((b_top b - tf t) / te t)).
    assert (IZR (ah (df_band C dem band)) <= (b_top b - tf t) / te t)%R by (rewrite Gn; apply G2; [lra|rewrite <- Et; specialize (H _ Hpt); lra]).
    destruct (Rlt_dec (Rmax 0 ((b_top b - tf t) / te t)) _); [lra|]. rewrite andb_false_r. reflexivity.
Qed.

End Whole.
