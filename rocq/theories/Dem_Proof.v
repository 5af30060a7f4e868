From Coq Require Import List ZArith QArith Qround Qminmax Reals Bool Lia Lra Lqa.
From Verif Require Import Py Py_Proof Flt Grid_Model Grid_Spec Grid_Proof Remap_Model Dem_Model Dem_Spec.
Import ListNotations.
Open Scope Z_scope.

Lemma Qle_bool_false : forall a b, Qle_bool a b = false <-> (b < a)%Q.
Proof.
  intros a b. split; intros H.
  - apply Qnot_le_lt. intros C. apply Qle_bool_iff in C. congruence.
  - destruct (Qle_bool a b) eqn:E; [|reflexivity]. apply Qle_bool_iff in E. exfalso. apply (Qle_not_lt _ _ E H).
Qed.

Lemma Qmax_cases : forall a b, (a <= b /\ Qmax a b == b)%Q \/ (b <= a /\ Qmax a b == a)%Q.
Proof. intros a b. destruct (Q.max_spec a b) as [[H E]|[H E]]; [left|right]; split; try assumption; lra. Qed.

Lemma Qmin_cases : forall a b, (a <= b /\ Qmin a b == a)%Q \/ (b <= a /\ Qmin a b == b)%Q.
Proof. intros a b. destruct (Q.min_spec a b) as [[H E]|[H E]]; [left|right]; split; try assumption; lra. Qed.

Ltac qcases :=
  repeat match goal with
  | |- context [Qmax ?a ?b] => destruct (Qmax_cases a b) as [[? ?]|[? ?]]; let m := fresh "m" in set (m := Qmax a b) in *
  | H : context [Qmax ?a ?b] |- _ => destruct (Qmax_cases a b) as [[? ?]|[? ?]]; let m := fresh "m" in set (m := Qmax a b) in *
  | |- context [Qmin ?a ?b] => destruct (Qmin_cases a b) as [[? ?]|[? ?]]; let m := fresh "m" in set (m := Qmin a b) in *
  | H : context [Qmin ?a ?b] |- _ => destruct (Qmin_cases a b) as [[? ?]|[? ?]]; let m := fresh "m" in set (m := Qmin a b) in *
  end.

Lemma fwin_intersection_spec : forall a b,
  (forall w, fwin_intersection a b = Ok w -> (0 < fwidth w)%Q /\ (0 < fheight w)%Q /\
     forall x y, inside w x y <-> inside a x y /\ inside b x y) /\
  (forall e, fwin_intersection a b = Err e -> e = WindowError /\ ~ exists x y, inside a x y /\ inside b x y).
Proof.
  intros a b. unfold fwin_intersection, inside.
  destruct a as [ac ar aw' ah'], b as [bc br bw bh]. cbn.
  destruct (Qle_bool _ 0) eqn:E1; [|destruct (Qle_bool (Qmin (ar + _) _ - _) 0) eqn:E2]; cbn [negb andb].
  - split; [discriminate|]. intros e H. inversion H; subst. split; [reflexivity|]. intros (x & y & H1 & H2).
    apply Qle_bool_iff in E1. qcases; lra.
  - split; [discriminate|]. intros e H. inversion H; subst. split; [reflexivity|]. intros (x & y & H1 & H2).
    apply Qle_bool_iff in E2. qcases; lra.
  - split; [|discriminate]. intros w H. inversion H; subst; clear H. cbn. apply Qle_bool_false in E1, E2.
    split; [assumption|]. split; [assumption|]. intros x y.
    destruct (Qmax_cases ac bc) as [[? ?]|[? ?]]; destruct (Qmax_cases ar br) as [[? ?]|[? ?]];
    destruct (Qmin_cases (ac + aw') (bc + bw)) as [[? ?]|[? ?]]; destruct (Qmin_cases (ar + ah') (br + bh)) as [[? ?]|[? ?]];
    split; intros; repeat split; lra.
Qed.

(** The midpoint of a window of positive size. *)
Lemma inside_mid : forall w, (0 < fwidth w)%Q -> (0 < fheight w)%Q ->
  inside w (fcol_off w + fwidth w * (1#2)) (frow_off w + fheight w * (1#2)).
Proof. intros w H1 H2. unfold inside. split; lra. Qed.

Lemma get_win_spec : forall dem_h dem_w req,
  (forall w, get_win dem_h dem_w req = Ok w ->
     0 <= col_off w /\ 0 <= row_off w /\ 0 < width w /\ 0 < height w /\
     col_off w + width w <= dem_w /\ row_off w + height w <= dem_h /\
     (forall r c, in_im dem_h dem_w r c -> touches req r c -> in_win w r c) /\ overlaps dem_h dem_w req) /\
  (forall e, get_win dem_h dem_w req = Err e -> e = OrthorityError /\ ~ overlaps dem_h dem_w req).
Proof.
  intros dem_h dem_w req. unfold get_win.
  destruct (fwin_intersection_spec (FWin 0 0 (inject_Z dem_w) (inject_Z dem_h)) req) as [HO HE].
  destruct (fwin_intersection _ _) as [f|e] eqn:E.
  - split; [|discriminate]. intros w H. inversion H; subst; clear H. destruct (HO f eq_refl) as (Pw & Ph & Hi).
    pose proof (expand_contains f 0 0) as (A & B & C & D).
    set (w := expand_window_to_grid f (0, 0)) in *.
    assert (Hb : (0 <= fcol_off f)%Q /\ (0 <= frow_off f)%Q /\ (fcol_off f + fwidth f <= inject_Z dem_w)%Q /\
                 (frow_off f + fheight f <= inject_Z dem_h)%Q).
    { unfold fwin_intersection in E. cbn in E. destruct (_ && _); [|discriminate]. inversion E; subst; cbn in *.
      repeat split; qcases; lra. }
    destruct Hb as (B1 & B2 & B3 & B4).
    assert (Hmin : win_incl w (Win 0 0 dem_w dem_h)).
    { unfold w. apply expand_minimal. unfold contains_grown. cbn. change (inject_Z 0) with 0%Q. repeat split; lra. }
    clearbody w. destruct Hmin as (M1 & M2 & M3 & M4). cbn in M1, M2, M3, M4.
    change (inject_Z 0) with 0%Q in A, B, C, D.
    assert (Hpw : 0 < width w).
    { assert (inject_Z (col_off w) < inject_Z (col_off w + width w))%Q by lra. rewrite <- Zlt_Qlt in *. lia. }
    assert (Hph : 0 < height w).
    { assert (inject_Z (row_off w) < inject_Z (row_off w + height w))%Q by lra. rewrite <- Zlt_Qlt in *. lia. }
    do 6 (split; [lia|]). split.
    + intros r c [Hr Hc] (x & y & [Hx Hy] & Tx & Ty).
      assert (Hc0 : (0 <= inject_Z c)%Q /\ (inject_Z (c + 1) <= inject_Z dem_w)%Q).
      { change 0%Q with (inject_Z 0). rewrite <- !Zle_Qle. lia. }
      assert (Hr0 : (0 <= inject_Z r)%Q /\ (inject_Z (r + 1) <= inject_Z dem_h)%Q).
      { change 0%Q with (inject_Z 0). rewrite <- !Zle_Qle. lia. }
      (* the part of [req] under the pixel and inside the DEM *)
      assert (Ec : (fcol_off f <= x <= fcol_off f + fwidth f)%Q /\ (frow_off f <= y <= frow_off f + fheight f)%Q).
      { unfold fwin_intersection in E. cbn in E. destruct (_ && _); [|discriminate]. inversion E; subst; cbn in *.
        repeat split; qcases; lra. }
      assert (Fc : (fcol_off f < inject_Z (c + 1))%Q /\ (inject_Z c < fcol_off f + fwidth f)%Q /\
                   (frow_off f < inject_Z (r + 1))%Q /\ (inject_Z r < frow_off f + fheight f)%Q).
      { rewrite !inject_Z_plus in *. change (inject_Z 1) with 1%Q in *.
        unfold fwin_intersection in E. cbn in E. destruct (_ && _); [|discriminate]. inversion E; subst; cbn in *.
        repeat split; qcases; lra. }
      unfold in_win.
      assert (inject_Z (col_off w) < inject_Z (c + 1))%Q by lra.
      assert (inject_Z c < inject_Z (col_off w + width w))%Q by lra.
      assert (inject_Z (row_off w) < inject_Z (r + 1))%Q by lra.
      assert (inject_Z r < inject_Z (row_off w + height w))%Q by lra.
      rewrite <- Zlt_Qlt in *. lia.
    + exists (fcol_off f + fwidth f * (1#2))%Q, (frow_off f + fheight f * (1#2))%Q.
      destruct (proj1 (Hi _ _) (inside_mid f Pw Ph)). split; assumption.
  - split; [discriminate|]. intros e' H. inversion H; subst. split; [reflexivity|].
    destruct (HE e eq_refl) as [_ Hn]. intros (x & y & H1 & H2). apply Hn. exists x, y. split; assumption.
Qed.

Lemma win_intersection_spec : forall a b,
  (forall w, win_intersection a b = Ok w -> 0 < width w /\ 0 < height w /\
     forall r c, in_win w r c <-> in_win a r c /\ in_win b r c) /\
  (forall e, win_intersection a b = Err e -> e = WindowError /\ ~ exists r c, in_win a r c /\ in_win b r c).
Proof.
  intros a b. unfold win_intersection, in_win. destruct (0 <? _) eqn:E1; [destruct (0 <? Z.min (row_off a + _) _ - _) eqn:E2|];
    cbn [andb].
  - split; [|discriminate]. intros w H. inversion H; subst; clear H. cbn. apply Z.ltb_lt in E1, E2.
    split; [lia|]. split; [lia|]. intros; lia.
  - split; [discriminate|]. intros e H. inversion H; subst. split; [reflexivity|]. apply Z.ltb_ge in E2.
    intros (r & c & P1 & P2). lia.
  - split; [discriminate|]. intros e H. inversion H; subst. split; [reflexivity|]. apply Z.ltb_ge in E1.
    intros (r & c & P1 & P2). lia.
Qed.

Lemma win_transform_same : forall w t, same_position (win_transform w t) t (row_off w) (col_off w).
Proof.
  intros w t x y. unfold win_transform, aff_apply. cbn. f_equal; ring.
Qed.

Theorem init_dem_ok : forall dem_band count dem t req1 req2 a t',
  get_init_dem dem_band count dem t req1 req2 = Ok (a, t') ->
  exists r0 c0, sub_array a dem r0 c0 /\ same_position t' t r0 c0 /\
  exists a1 r1 c1, sub_array a1 dem r1 c1 /\
    (forall r c, in_im (ah dem) (aw dem) r c -> touches req1 r c -> r1 <= r < r1 + ah a1 /\ c1 <= c < c1 + aw a1) /\
    (forall r c, r1 <= r < r1 + ah a1 -> c1 <= c < c1 + aw a1 -> touches (req2 a1) r c ->
       r0 <= r < r0 + ah a /\ c0 <= c < c0 + aw a).
Proof.
  intros dem_band count dem t req1 req2 a t' H. unfold get_init_dem in H.
  destruct (_ || _); [discriminate|].
  destruct (get_win_spec (ah dem) (aw dem) req1) as [G1 _].
  destruct (get_win (ah dem) (aw dem) req1) as [w1|e]; [|discriminate]. specialize (G1 w1 eq_refl). cbn [bind] in H.
  set (a1 := aslice dem _ _ _ _) in *.
  destruct (get_win_spec (ah dem) (aw dem) (req2 a1)) as [G2 _].
  destruct (get_win (ah dem) (aw dem) (req2 a1)) as [w2|e]; [|discriminate]. specialize (G2 w2 eq_refl). cbn [bind] in H.
  destruct (win_intersection_spec w2 w1) as [G3 _].
  destruct (win_intersection w2 w1) as [w3|e]; [|discriminate]. specialize (G3 w3 eq_refl). cbn [bind] in H.
  inversion H; subst; clear H.
  destruct G1 as (A1 & A2 & A3 & A4 & A5 & A6 & A7 & _). destruct G2 as (B1 & B2 & B3 & B4 & B5 & B6 & B7 & _).
  destruct G3 as (C3 & C4 & C5).
  assert (HC : row_off w1 <= row_off w3 /\ row_off w3 + height w3 <= row_off w1 + height w1 /\
               col_off w1 <= col_off w3 /\ col_off w3 + width w3 <= col_off w1 + width w1).
  { destruct (proj1 (C5 (row_off w3) (col_off w3))) as [_ X]; [unfold in_win; lia|].
    destruct (proj1 (C5 (row_off w3 + height w3 - 1) (col_off w3 + width w3 - 1))) as [_ Y]; [unfold in_win; lia|].
    unfold in_win in *. lia. }
  exists (row_off w3), (col_off w3). split; [|split].
  - unfold sub_array. cbn. repeat (split; [lia|]). intros r c Hr Hc. f_equal; lia.
  - apply win_transform_same.
  - exists a1, (row_off w1), (col_off w1).
    assert (S1 : ah a1 = height w1) by (unfold a1; cbn; lia). assert (S2 : aw a1 = width w1) by (unfold a1; cbn; lia).
    split; [|split].
    + unfold sub_array. rewrite S1, S2. repeat (split; [lia|]). intros r c Hr Hc. unfold a1. cbn. f_equal; lia.
    + intros r c Hin Ht. specialize (A7 r c Hin Ht). unfold in_win in A7. rewrite S1, S2. lia.
    + intros r c Hr Hc Ht. rewrite S1 in Hr. rewrite S2 in Hc.
      assert (Hin : in_im (ah dem) (aw dem) r c) by (unfold in_im; lia).
      specialize (B7 r c Hin Ht).
      assert (X : in_win w3 r c) by (apply C5; split; [assumption|unfold in_win; lia]).
      unfold in_win in X. cbn. lia.
Qed.

Theorem init_dem_outside : forall dem_band count dem t req1 req2,
  ~ overlaps (ah dem) (aw dem) req1 \/ dem_band < 1 \/ count < dem_band ->
  get_init_dem dem_band count dem t req1 req2 = Err OrthorityError.
Proof.
  intros dem_band count dem t req1 req2 H. unfold get_init_dem.
  destruct ((dem_band <=? 0) || (count <? dem_band)) eqn:E; [reflexivity|].
  apply orb_false_iff in E. destruct E as [E1 E2]. apply Z.leb_gt in E1. apply Z.ltb_ge in E2.
  destruct H as [H|H]; [|lia].
  destruct (get_win_spec (ah dem) (aw dem) req1) as [G1 G2].
  destruct (get_win (ah dem) (aw dem) req1) as [w|e].
  - exfalso. apply H. apply (G1 w eq_refl).
  - destruct (G2 e eq_refl) as [-> _]. reflexivity.
Qed.

(** Errors other than OrthorityError: only WindowError, when the second window misses the first. *)
Theorem init_dem_errors : forall dem_band count dem t req1 req2 e,
  get_init_dem dem_band count dem t req1 req2 = Err e ->
  e = OrthorityError \/ (e = WindowError /\ overlaps (ah dem) (aw dem) req1 /\
    exists a1 r1 c1, sub_array a1 dem r1 c1 /\ overlaps (ah dem) (aw dem) (req2 a1) /\
      forall r c, r1 <= r < r1 + ah a1 -> c1 <= c < c1 + aw a1 -> ~ touches (req2 a1) r c).
Proof.
  intros dem_band count dem t req1 req2 e H. unfold get_init_dem in H.
  destruct (_ || _); [inversion H; left; reflexivity|].
  destruct (get_win_spec (ah dem) (aw dem) req1) as [G1 G1'].
  destruct (get_win (ah dem) (aw dem) req1) as [w1|e1]; [|left; inversion H; subst; apply (G1' e eq_refl)].
  specialize (G1 w1 eq_refl). cbn [bind] in H. set (a1 := aslice dem _ _ _ _) in *.
  destruct (get_win_spec (ah dem) (aw dem) (req2 a1)) as [G2 G2'].
  destruct (get_win (ah dem) (aw dem) (req2 a1)) as [w2|e2]; [|left; inversion H; subst; apply (G2' e eq_refl)].
  specialize (G2 w2 eq_refl). cbn [bind] in H.
  destruct (win_intersection_spec w2 w1) as [_ G3].
  destruct (win_intersection w2 w1) as [w3|e3]; [discriminate|]. cbn [bind] in H. inversion H; subst.
  destruct (G3 e eq_refl) as [-> Hn]. right.
  destruct G1 as (A1 & A2 & A3 & A4 & A5 & A6 & A7 & A8). destruct G2 as (B1 & B2 & B3 & B4 & B5 & B6 & B7 & B8).
  split; [reflexivity|]. split; [assumption|].
  exists a1, (row_off w1), (col_off w1).
  assert (S1 : ah a1 = height w1) by (unfold a1; cbn; lia). assert (S2 : aw a1 = width w1) by (unfold a1; cbn; lia).
  split; [|split].
  - unfold sub_array. rewrite S1, S2. repeat (split; [lia|]). intros r c Hr Hc. unfold a1. cbn. f_equal; lia.
  - assumption.
  - intros r c Hr Hc Ht. apply Hn. exists r, c. rewrite S1 in Hr. rewrite S2 in Hc. split; [|unfold in_win; lia].
    apply B7; [unfold in_im; lia|assumption].
Qed.

(** * C07 *)

Lemma rows_In : forall h r, In r (rows h) <-> 0 <= r < h.
Proof.
  intros h r. unfold rows. rewrite py_range_In by lia. split; [lia|]. intros H. split; [lia|]. exists r. lia.
Qed.

Lemma indices_In : forall A (a : arr A) r c, In (r, c) (indices a) <-> in_im (ah a) (aw a) r c.
Proof. intros. unfold indices. rewrite product_In. cbn. rewrite !rows_In. reflexivity. Qed.

Lemma filter_length_zero : forall A (f : A -> bool) l, List.length (filter f l) = 0%nat <-> forall x, In x l -> f x = false.
Proof.
  intros A f l. induction l as [|a l IH]; cbn; [split; [intros _ x []|reflexivity]|].
  destruct (f a) eqn:E.
  - split; [discriminate|]. intros H. rewrite (H a (or_introl eq_refl)) in E. discriminate.
  - rewrite IH. split.
    + intros H x [<-|Hx]; [assumption|apply H; assumption].
    + intros H x Hx. apply H. right; assumption.
Qed.

Lemma filter_length_le : forall A (f g : A -> bool) l, (forall x, In x l -> f x = true -> g x = true) ->
  (List.length (filter f l) <= List.length (filter g l))%nat /\
  ((List.length (filter f l) < List.length (filter g l))%nat <-> exists x, In x l /\ g x = true /\ f x = false).
Proof.
  intros A f g l. induction l as [|a l IH]; intros H; cbn.
  - split; [lia|]. split; [lia|]. intros (x & [] & _).
  - destruct IH as [L1 L2]; [intros; apply H; [right|]; assumption|].
    destruct (f a) eqn:Ef.
    + rewrite (H a (or_introl eq_refl) Ef). cbn. split; [lia|]. rewrite <- Nat.succ_lt_mono, L2. split.
      * intros (x & Hx & E). exists x. split; [right|]; assumption.
      * intros (x & [<-|Hx] & E); [destruct E; congruence|]. exists x. split; assumption.
    + destruct (g a) eqn:Eg; cbn.
      * split; [lia|]. split; [|lia]. intros _. exists a. auto.
      * split; [assumption|]. rewrite L2. split.
        -- intros (x & Hx & E). exists x. split; [right|]; assumption.
        -- intros (x & [<-|Hx] & E); [destruct E; congruence|]. exists x. split; assumption.
Qed.

Lemma asum_zero : forall m, asum m = 0 <-> forall r c, in_im (ah m) (aw m) r c -> aget m r c = false.
Proof.
  intros m. unfold asum.
  assert (E : Z.of_nat (List.length (filter (fun rc => aget m (fst rc) (snd rc)) (indices m))) = 0 <->
              List.length (filter (fun rc => aget m (fst rc) (snd rc)) (indices m)) = 0%nat) by lia.
  rewrite E, filter_length_zero. split.
  - intros H r c Hin. apply (H (r, c)). apply indices_In. assumption.
  - intros H [r c] Hin. apply indices_In in Hin. apply H. assumption.
Qed.

Lemma fold_min_spec : forall l a, fold_left Z.min l a <= a /\ (forall x, In x l -> fold_left Z.min l a <= x) /\
  (fold_left Z.min l a = a \/ In (fold_left Z.min l a) l).
Proof.
  induction l as [|b l IH]; intros a; cbn; [split; [lia|]; split; [tauto|]; left; reflexivity|].
  destruct (IH (Z.min a b)) as (H1 & H2 & H3). split; [lia|]. split.
  - intros x [->|Hx]; [lia|auto].
  - destruct H3 as [H3|H3]; [|right; right; assumption].
    destruct (Z.min_spec a b) as [[? E]|[? E]]; rewrite E in *; [left; assumption|right; left; symmetry; assumption].
Qed.

Lemma fold_max_spec : forall l a, a <= fold_left Z.max l a /\ (forall x, In x l -> x <= fold_left Z.max l a) /\
  (fold_left Z.max l a = a \/ In (fold_left Z.max l a) l).
Proof.
  induction l as [|b l IH]; intros a; cbn; [split; [lia|]; split; [tauto|]; left; reflexivity|].
  destruct (IH (Z.max a b)) as (H1 & H2 & H3). split; [lia|]. split.
  - intros x [->|Hx]; [lia|auto].
  - destruct H3 as [H3|H3]; [|right; right; assumption].
    destruct (Z.max_spec a b) as [[? E]|[? E]]; rewrite E in *; [right; left; symmetry; assumption|left; assumption].
Qed.

Lemma lmin_spec : forall l, l <> [] -> In (lmin l) l /\ forall x, In x l -> lmin l <= x.
Proof.
  intros [|a l] H; [contradiction|]. unfold lmin. cbn [hd]. destruct (fold_min_spec (a :: l) a) as (H1 & H2 & H3).
  split; [|assumption]. destruct H3 as [->|H3]; [left; reflexivity|assumption].
Qed.

Lemma lmax_spec : forall l, l <> [] -> In (lmax l) l /\ forall x, In x l -> x <= lmax l.
Proof.
  intros [|a l] H; [contradiction|]. unfold lmax. cbn [hd]. destruct (fold_max_spec (a :: l) a) as (H1 & H2 & H3).
  split; [|assumption]. destruct H3 as [->|H3]; [left; reflexivity|assumption].
Qed.

Lemma any_rows_In : forall m r, In r (any_rows m) <-> exists c, in_im (ah m) (aw m) r c /\ aget m r c = true.
Proof.
  intros m r. unfold any_rows. rewrite filter_In, rows_In, existsb_exists. split.
  - intros (Hr & c & Hc & E). apply rows_In in Hc. exists c. split; [split; assumption|assumption].
  - intros (c & [Hr Hc] & E). split; [assumption|]. exists c. split; [apply rows_In; assumption|assumption].
Qed.

Lemma any_cols_In : forall m c, In c (any_cols m) <-> exists r, in_im (ah m) (aw m) r c /\ aget m r c = true.
Proof.
  intros m c. unfold any_cols. rewrite filter_In, rows_In, existsb_exists. split.
  - intros (Hr & r & Hc & E). apply rows_In in Hc. exists r. split; [split; assumption|assumption].
  - intros (r & [Hr Hc] & E). split; [assumption|]. exists r. split; [apply rows_In; assumption|assumption].
Qed.

Lemma fisnan_spec : forall v, fisnan v = true <-> v = Nan.
Proof. intros [|r]; cbn; split; congruence. Qed.

Lemma wanted_mask : forall dem poly r c,
  wanted dem poly r c <-> in_im (ah dem) (aw dem) r c /\ aget poly r c && negb (fisnan (aget dem r c)) = true.
Proof.
  intros. unfold wanted. rewrite andb_true_iff, negb_true_iff, <- not_true_iff_false, fisnan_spec. tauto.
Qed.

Theorem mask_dem_error : forall dem t poly_ji poly crop mask,
  (~ exists r c, wanted dem poly r c) <-> mask_dem dem t poly_ji poly crop mask = Err OrthorityError.
Proof.
  intros dem t pj poly crop mask. unfold mask_dem.
  set (m := Arr (ah dem) (aw dem) _). 
  destruct (Z.eqb_spec (asum m) 0) as [E|E].
  - split; [reflexivity|]. intros _ (r & c & Hw). apply wanted_mask in Hw. destruct Hw as [Hi Hm].
    apply (proj1 (asum_zero m)) with (r := r) (c := c) in E; [|assumption]. unfold m in E. cbn in E. congruence.
  - split.
    + intros Hn. exfalso. apply E. apply asum_zero. intros r c Hi. unfold m. cbn.
      destruct (_ && _) eqn:EM; [|reflexivity]. exfalso. apply Hn. exists r, c. apply wanted_mask. split; assumption.
    + intros H. exfalso. destruct crop; discriminate.
Qed.

(** [r0 c0] is where the result starts in [dem]. *)
Theorem mask_dem_ok : forall dem t poly_ji poly mask a t' warn,
  mask_dem dem t poly_ji poly true mask = Ok (a, t', warn) ->
  exists r0 c0, same_position t' t r0 c0 /\
  0 <= r0 /\ 0 <= c0 /\ r0 + ah a <= ah dem /\ c0 + aw a <= aw dem /\
  (* nothing wanted is lost *)
  (forall r c, wanted dem poly r c ->
     r0 <= r < r0 + ah a /\ c0 <= c < c0 + aw a /\ aget a (r - r0) (c - c0) = aget dem r c) /\
  (* the rest is nodata, or untouched when not masking *)
  (forall r c, 0 <= r < ah a -> 0 <= c < aw a -> ~ wanted dem poly (r0 + r) (c0 + c) ->
     aget a r c = if mask then Nan else aget dem (r0 + r) (c0 + c)) /\
  (* no smaller crop would do *)
  (exists c, wanted dem poly r0 c) /\ (exists c, wanted dem poly (r0 + ah a - 1) c) /\
  (exists r, wanted dem poly r c0) /\ (exists r, wanted dem poly r (c0 + aw a - 1)).
Proof.
  intros dem t pj poly mask a t' warn H. unfold mask_dem in H. set (m := Arr (ah dem) (aw dem) _) in *.
  destruct (Z.eqb_spec (asum m) 0) as [E|E]; [discriminate|].
  assert (W : forall r c, wanted dem poly r c <-> in_im (ah m) (aw m) r c /\ aget m r c = true).
  { intros. apply wanted_mask. }
  assert (Hex : exists r c, wanted dem poly r c).
  { destruct (mask_dem_error dem t pj poly true mask) as [HE _].
    destruct (existsb (fun rc => aget m (fst rc) (snd rc)) (indices m)) eqn:EX.
    - apply existsb_exists in EX. destruct EX as ([r c] & Hin & Hm). exists r, c. apply W. split; [apply indices_In|]; assumption.
    - exfalso. apply E. apply asum_zero. intros r c Hi. destruct (aget m r c) eqn:EM; [|reflexivity]. exfalso.
      enough (existsb (fun rc => aget m (fst rc) (snd rc)) (indices m) = true) by congruence.
      apply existsb_exists. exists (r, c). split; [apply indices_In; assumption|exact EM]. }
  destruct Hex as (rw & cw & Hw).
  assert (Nr : any_rows m <> []).
  { intros C. assert (In rw (any_rows m)) by (apply any_rows_In; exists cw; apply W; assumption). rewrite C in *. contradiction. }
  assert (Nc : any_cols m <> []).
  { intros C. assert (In cw (any_cols m)) by (apply any_cols_In; exists rw; apply W; assumption). rewrite C in *. contradiction. }
  destruct (lmin_spec _ Nr) as [R0 R0']. destruct (lmax_spec _ Nr) as [R1 R1'].
  destruct (lmin_spec _ Nc) as [C0 C0']. destruct (lmax_spec _ Nc) as [C1 C1'].
  set (r0 := lmin (any_rows m)) in *. set (r1 := lmax (any_rows m)) in *.
  set (c0 := lmin (any_cols m)) in *. set (c1 := lmax (any_cols m)) in *.
  pose proof (R0' r1 R1) as Hr01. pose proof (C0' c1 C1) as Hc01.
  apply any_rows_In in R0, R1. apply any_cols_In in C0, C1.
  destruct R0 as (cr0 & Ir0 & Mr0), R1 as (cr1 & Ir1 & Mr1), C0 as (rc0 & Ic0 & Mc0), C1 as (rc1 & Ic1 & Mc1).
  unfold in_im in Ir0, Ir1, Ic0, Ic1. change (ah m) with (ah dem) in *. change (aw m) with (aw dem) in *.
  set (a' := aslice dem r0 (r1 + 1) c0 (c1 + 1)) in *.
  assert (SA : ah a' = r1 + 1 - r0 /\ aw a' = c1 + 1 - c0) by (unfold a'; cbn; lia).
  assert (EA : ah a = ah a' /\ aw a = aw a' /\ t' = aff_pretranslate t (IZR c0) (IZR r0) /\
     forall r c, aget a r c = if mask then (if aget m (r + r0) (c + c0) then aget dem (r + r0) (c + c0) else Nan)
                              else aget dem (r + r0) (c + c0)).
  { destruct mask; inversion H; subst; cbn; auto. }
  destruct EA as (EA1 & EA2 & EA3 & EA4). destruct SA as [SA1 SA2].
  exists r0, c0. rewrite EA1, EA2, SA1, SA2. split.
  { intros x y. rewrite EA3. unfold aff_pretranslate, aff_apply. cbn. f_equal; ring. }
  split; [lia|]. split; [lia|]. split; [lia|]. split; [lia|]. split.
  { intros r c Hrc. pose proof Hrc as Hrc'. apply W in Hrc. destruct Hrc as [Hi Hm].
    assert (In r (any_rows m)) as Hr by (apply any_rows_In; exists c; split; assumption).
    assert (In c (any_cols m)) as Hc by (apply any_cols_In; exists r; split; assumption).
    pose proof (R0' r Hr). pose proof (R1' r Hr). pose proof (C0' c Hc). pose proof (C1' c Hc).
    split; [lia|]. split; [lia|]. rewrite EA4. replace (r - r0 + r0) with r by lia. replace (c - c0 + c0) with c by lia.
    rewrite Hm. destruct mask; reflexivity. }
  split.
  { intros r c Hr Hc Hn. rewrite EA4, (Z.add_comm r), (Z.add_comm c). destruct mask; [|reflexivity].
    destruct (aget m (r0 + r) (c0 + c)) eqn:EM; [|reflexivity]. exfalso. apply Hn. apply W. split; [|assumption].
    unfold in_im. cbn. lia. }
  split; [exists cr0; apply W; split; [unfold in_im; cbn; lia|assumption]|].
  split; [exists cr1; apply W; replace (r0 + (r1 + 1 - r0) - 1) with r1 by lia; split; [unfold in_im; cbn; lia|assumption]|].
  split; [exists rc0; apply W; split; [unfold in_im; cbn; lia|assumption]|].
  exists rc1; apply W; replace (c0 + (c1 + 1 - c0) - 1) with c1 by lia; split; [unfold in_im; cbn; lia|assumption].
Qed.

Theorem mask_dem_warning : forall dem t poly_ji poly crop mask a t' warn,
  ah poly = ah dem -> aw poly = aw dem ->
  mask_dem dem t poly_ji poly crop mask = Ok (a, t', warn) ->
  (warn = false <->
   (forall r c, in_im (ah dem) (aw dem) r c -> aget poly r c = true -> aget dem r c <> Nan) /\
   (forall j i, In (j, i) poly_ji -> in_im (ah dem) (aw dem) i j)).
Proof.
  intros dem t pj poly crop mask a t' warn Hh Hw H. unfold mask_dem in H. set (m := Arr (ah dem) (aw dem) _) in *.
  destruct (asum m =? 0); [discriminate|].
  assert (EW : warn = (asum m <? asum poly) || existsb (fun p => (fst p <? 0) || (snd p <? 0) || (aw dem <? fst p + 1) || (ah dem <? snd p + 1)) pj).
  { destruct crop; inversion H; reflexivity. }
  rewrite EW, orb_false_iff. clear H EW.
  assert (HA : (asum m <? asum poly) = false <->
     forall r c, in_im (ah dem) (aw dem) r c -> aget poly r c = true -> aget dem r c <> Nan).
  { unfold asum. assert (EI : indices poly = indices m) by (unfold indices; cbn; rewrite Hh, Hw; reflexivity). rewrite EI.
    destruct (filter_length_le _ (fun rc => aget m (fst rc) (snd rc)) (fun rc => aget poly (fst rc) (snd rc)) (indices m)) as [L1 L2].
    { intros [r c] _. cbn. intros E. apply andb_true_iff in E. tauto. }
    rewrite Z.ltb_ge. split.
    - intros HL r c Hi Hp Hn. apply (Nat.lt_irrefl (List.length (filter (fun rc => aget m (fst rc) (snd rc)) (indices m)))).
      apply Nat.lt_le_trans with (List.length (filter (fun rc => aget poly (fst rc) (snd rc)) (indices m))); [|lia].
      apply L2. exists (r, c). split; [apply indices_In; exact Hi|]. cbn. rewrite Hp, Hn. split; reflexivity.
    - intros HA. apply Nat2Z.inj_le. apply Nat.nlt_ge. intros HL. apply L2 in HL. destruct HL as ([r c] & Hi & Hp & Hm).
      apply indices_In in Hi. cbn in *. rewrite Hp in Hm. cbn in Hm. apply negb_false_iff in Hm. apply fisnan_spec in Hm.
      apply (HA r c); assumption. }
  rewrite HA. apply and_iff_compat_l. split.
  - intros HE j i Hin. rewrite <- not_true_iff_false, existsb_exists in HE. unfold in_im.
    destruct ((j <? 0) || (i <? 0) || (aw dem <? j + 1) || (ah dem <? i + 1)) eqn:EX.
    + exfalso. apply HE. exists (j, i). split; [assumption|exact EX].
    + rewrite !orb_false_iff, !Z.ltb_ge in EX. lia.
  - intros HE. apply not_true_iff_false. rewrite existsb_exists. intros ([j i] & Hin & EX). specialize (HE j i Hin).
    unfold in_im in HE. cbn in EX. rewrite !orb_true_iff, !Z.ltb_lt in EX. lia.
Qed.
