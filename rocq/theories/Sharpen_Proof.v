(** Proofs about pan-sharpening end to end. *)
From Coq Require Import String List ZArith QArith Qabs Qround Qreals Reals Bool Lia Lra Sorted Permutation FunctionalExtensionality.
From Verif Require Import Py Flt Grid_Model Grid_Spec Grid_Proof Dtype_Model Profile_Model Profile_Spec Pan_Model Pan_Spec Pan_Proof
  PanGrid_Model PanGrid_Spec PanGrid_Proof Ortho_Model Ortho_Spec Sharpen_Model Sharpen_Spec.
From Verif Require Dtype_Spec Dtype_Proof Bound_Model Bound_Proof Remap_Model Remap_Proof Profile_Proof Ortho_Proof.
Import ListNotations.
Open Scope string_scope.
Open Scope list_scope.
Open Scope Z_scope.

(** * Pixels of tiles *)

Lemma range1_In a b x : In x (py_range a b 1) <-> a <= x < b.
Proof. rewrite py_range_In by lia. split; [tauto|]. intros H. split; [exact H|]. exists (x - a). lia. Qed.

Lemma win_pixels_In w r c : In (r, c) (win_pixels w) <-> in_win w r c.
Proof. unfold win_pixels. rewrite product_In. cbn [fst snd]. rewrite !range1_In. unfold in_win. tauto. Qed.

Lemma win_pixels_NoDup w : NoDup (win_pixels w).
Proof. apply product_NoDup; apply py_range_NoDup; lia. Qed.

Lemma NoDup_concat_map {A B} (f : A -> list B) l : NoDup l -> (forall x, In x l -> NoDup (f x)) ->
  (forall x y z, In x l -> In y l -> In z (f x) -> In z (f y) -> x = y) -> NoDup (concat (map f l)).
Proof.
  induction l as [|a l IH]; intros N F D; [constructor|]. inversion N; subst. cbn. apply NoDup_app_intro.
  - apply F. now left.
  - apply IH; [assumption|intros; apply F; now right|]. intros x y z Hx Hy. apply D; now right.
  - intros z Hz Hz'. apply in_concat in Hz'. destruct Hz' as (m & Hm & Hz'). apply in_map_iff in Hm. destruct Hm as (y & <- & Hy).
    assert (a = y) by (apply (D a y z); [now left|now right|assumption|assumption]). subst. contradiction.
Qed.

Lemma tiles_cover h w bh bw : 0 < bh -> 0 < bw -> all_pixels h w (concat (map win_pixels (block_windows h w (bh, bw)))).
Proof.
  intros Hh Hw. split.
  - apply NoDup_concat_map.
    + now apply block_windows_NoDup.
    + intros; apply win_pixels_NoDup.
    + intros x y [r c] Hx Hy H1 H2. apply win_pixels_In in H1, H2.
      destruct (block_windows_bounds h w bh bw Hh Hw x Hx) as (A & B & C & D & E & F).
      assert (I : in_im h w r c) by (unfold in_im, in_win in *; lia).
      destruct (block_windows_cover h w bh bw Hh Hw r c I) as (z & _ & _ & U). rewrite (U x Hx H1). symmetry. now apply U.
  - intros r c. rewrite in_concat. split.
    + intros (m & Hm & H). apply in_map_iff in Hm. destruct Hm as (x & <- & Hx). apply win_pixels_In in H.
      destruct (block_windows_bounds h w bh bw Hh Hw x Hx) as (A & B & C & D & E & F). unfold in_im, in_win in *; lia.
    + intros I. destruct (block_windows_cover h w bh bw Hh Hw r c I) as (z & Hz & Hi & _). exists (win_pixels z).
      split; [now apply in_map|]. now apply win_pixels_In.
Qed.

Lemma all_pixels_perm h w l l' : all_pixels h w l -> all_pixels h w l' -> Permutation l l'.
Proof. intros [N1 H1] [N2 H2]. apply NoDup_Permutation; [assumption|assumption|]. intros [r c]. now rewrite H1, H2. Qed.

(** * Conversion *)

Lemma Rfloor_spec x : (IZR (Bound_Model.Rfloor x) <= x < IZR (Bound_Model.Rfloor x) + 1)%R.
Proof. unfold Bound_Model.Rfloor. destruct (archimed x) as [A B]. rewrite minus_IZR. lra. Qed.

Lemma round_r_nearest x : nearest_even_r x (round_r x).
Proof.
  unfold round_r, nearest_even_r. pose proof (Rfloor_spec x) as [A B]. set (f := Bound_Model.Rfloor x) in *. clearbody f.
  destruct (Rlt_dec (x - IZR f) (/ 2)) as [L|L].
  - rewrite Rabs_pos_eq by lra. split; lra.
  - destruct (Rlt_dec (/ 2) (x - IZR f)) as [G|G].
    + rewrite plus_IZR, Rabs_left1 by lra. split; lra.
    + assert (E : (x - IZR f = / 2)%R) by lra. destruct (Z.even f) eqn:EV.
      * rewrite Rabs_pos_eq by lra. split; [lra|auto].
      * rewrite plus_IZR, Rabs_left1 by lra. split; [lra|]. intros _. rewrite Z.even_add, EV. reflexivity.
Qed.

Lemma convert_stored dt x : supported_dtype dt -> stored dt x (convert_r (dtype_named dt) x).
Proof.
  intros [->|[->|[->|[->| ->]]]]; unfold stored, convert_r; cbn [dtype_named String.eqb Ascii.eqb Bool.eqb is_floating].
  - right. exists 0, 255, (round_r x). split; [constructor|]. split; [apply round_r_nearest|reflexivity].
  - right. exists 0, 65535, (round_r x). split; [constructor|]. split; [apply round_r_nearest|reflexivity].
  - right. exists (-32768), 32767, (round_r x). split; [constructor|]. split; [apply round_r_nearest|reflexivity].
  - left. auto.
  - left. auto.
Qed.

Lemma nearest_even_r_unique x n m : nearest_even_r x n -> nearest_even_r x m -> n = m.
Proof.
  intros [A1 A2] [B1 B2]. destruct (Z.eq_dec n m) as [|D]; [assumption|exfalso].
  assert (L : (1 <= Rabs (IZR n - IZR m))%R).
  { rewrite <- minus_IZR, <- abs_IZR. apply IZR_le. lia. }
  assert (T : (Rabs (IZR n - IZR m) <= Rabs (x - IZR n) + Rabs (x - IZR m))%R).
  { replace (IZR n - IZR m)%R with ((x - IZR m) + - (x - IZR n))%R by ring. eapply Rle_trans; [apply Rabs_triang|]. rewrite Rabs_Ropp. lra. }
  assert (E1 : Rabs (x - IZR n) = (/ 2)%R) by lra. assert (E2 : Rabs (x - IZR m) = (/ 2)%R) by lra.
  specialize (A2 E1). specialize (B2 E2).
  assert (E3 : Rabs (IZR n - IZR m) = 1%R) by lra. rewrite <- minus_IZR, <- abs_IZR in E3. apply eq_IZR in E3.
  assert (O : n = m + 1 \/ m = n + 1) by lia. destruct O as [-> | ->]; rewrite Z.even_add in *; [rewrite B2 in A2|rewrite A2 in B2]; discriminate.
Qed.

(** * Writing of tiles *)

Section Raster.
Variables (warp_pan warp_ms : vrt_profile -> interp -> Z -> Z -> Z -> fl) (odd : R -> list R -> list fl) (nan_int : dtype -> fl).
Variables (ps : vrt_profiles) (pi : Z) (i : interp) (idx : list Z) (p : option params) (dt : dtype) (fill : fl) (wm : bool) (fail : window -> bool).

Definition tstep (ras : sraster) (win : window) : sraster :=
  if fail win then ras else write_tile warp_pan warp_ms odd nan_int ps pi i idx p dt fill wm ras win.
Definition tpx (r c : Z) : list fl * bool :=
  out_pixel odd nan_int p dt fill (pan_at warp_pan ps pi r c) (ms_at warp_ms ps i idx r c).

Lemma tstep_out ras w r c : ~ in_win w r c ->
  (forall b, sr_bands (tstep ras w) b r c = sr_bands ras b r c) /\ sr_mask (tstep ras w) r c = sr_mask ras r c.
Proof.
  intros H. unfold tstep. destruct (fail w); [auto|]. unfold write_tile. cbn [sr_bands sr_mask].
  assert (E : Remap_Model.in_winb w r c = false). { apply Bool.not_true_is_false. rewrite Remap_Proof.in_winb_spec. exact H. }
  rewrite E. split; [intros b; now rewrite andb_false_r|]. destruct wm; [|reflexivity]. now rewrite E.
Qed.

Lemma tstep_in ras w r c : in_win w r c -> fail w = false ->
  (forall b, 1 <= b <= Z.of_nat (List.length idx) -> sr_bands (tstep ras w) b r c = nth (Z.to_nat (b - 1)) (fst (tpx r c)) Nan) /\
  (wm = true -> sr_mask (tstep ras w) r c = snd (tpx r c)) /\ (wm = false -> sr_mask (tstep ras w) r c = sr_mask ras r c).
Proof.
  intros H F. unfold tstep. rewrite F. unfold write_tile. cbn [sr_bands sr_mask].
  assert (E : Remap_Model.in_winb w r c = true) by now apply Remap_Proof.in_winb_spec.
  split; [|split].
  - intros b Hb. rewrite E. assert (Eb : (1 <=? b) && (b <=? Z.of_nat (List.length idx)) = true) by (apply andb_true_intro; split; lia).
    rewrite Eb. reflexivity.
  - intros ->. now rewrite E.
  - now intros ->.
Qed.

Lemma tfold_out es : forall ras r c, (forall w, In w es -> ~ in_win w r c) ->
  (forall b, sr_bands (fold_left tstep es ras) b r c = sr_bands ras b r c) /\ sr_mask (fold_left tstep es ras) r c = sr_mask ras r c.
Proof.
  induction es as [|e es IH]; intros ras r c H; [auto|]. cbn [fold_left].
  destruct (IH (tstep ras e) r c) as [A B]; [intros; apply H; now right|]. destruct (tstep_out ras e r c) as [C D]; [apply H; now left|].
  split; [intros b; now rewrite A, C|now rewrite B, D].
Qed.

Lemma tfold_in es e0 r c : NoDup es -> In e0 es -> in_win e0 r c -> (forall e, In e es -> in_win e r c -> e = e0) -> forall ras,
  (fail e0 = false ->
   (forall b, 1 <= b <= Z.of_nat (List.length idx) -> sr_bands (fold_left tstep es ras) b r c = nth (Z.to_nat (b - 1)) (fst (tpx r c)) Nan) /\
   (wm = true -> sr_mask (fold_left tstep es ras) r c = snd (tpx r c))) /\
  (fail e0 = true -> (forall b, sr_bands (fold_left tstep es ras) b r c = sr_bands ras b r c) /\ sr_mask (fold_left tstep es ras) r c = sr_mask ras r c) /\
  (wm = false -> sr_mask (fold_left tstep es ras) r c = sr_mask ras r c) /\
  (forall b, ~ 1 <= b <= Z.of_nat (List.length idx) -> sr_bands (fold_left tstep es ras) b r c = sr_bands ras b r c).
Proof.
  intros N I W U. induction es as [|e es IH]; intros ras; [destruct I|]. inversion N as [|x l N1 N2]; subst. cbn [fold_left].
  destruct I as [->|I].
  - destruct (tfold_out es (tstep ras e0) r c) as [A B].
    { intros w Hw Hi. rewrite (U w (or_intror Hw) Hi) in Hw. contradiction. }
    split; [|split; [|split]].
    + intros F. destruct (tstep_in ras e0 r c W F) as (C & D & _). split; [intros b Hb; rewrite A; now apply C|intros Hm; rewrite B; now apply D].
    + intros F. assert (X : tstep ras e0 = ras) by (unfold tstep; now rewrite F). rewrite X in *. auto.
    + intros Hm. rewrite B. unfold tstep. destruct (fail e0) eqn:F; [reflexivity|]. unfold write_tile. cbn. now rewrite Hm.
    + intros b Hb. rewrite A. unfold tstep. destruct (fail e0); [reflexivity|]. unfold write_tile. cbn [sr_bands].
      assert (Eb : (1 <=? b) && (b <=? Z.of_nat (List.length idx)) = false) by (apply andb_false_iff; lia). now rewrite Eb.
  - assert (He : ~ in_win e r c). { intros Hi. rewrite (U e (or_introl eq_refl) Hi) in N1. contradiction. }
    destruct (tstep_out ras e r c He) as [A B].
    destruct (IH N2 I (fun e' He' => U e' (or_intror He')) (tstep ras e)) as (C & D & E & F).
    split; [exact C|]. split; [|split].
    + intros G. destruct (D G) as [D1 D2]. split; [intros b; now rewrite D1, A|now rewrite D2, B].
    + intros G. now rewrite (E G), B.
    + intros b Hb. rewrite (F b Hb). apply A.
Qed.

(** The output does not depend on the order of the tiles. *)
Lemma tfold_order h w bs es es' ras : 0 < fst bs -> 0 < snd bs -> Permutation es (block_windows h w bs) -> Permutation es' (block_windows h w bs) ->
  forall r c, (forall b, sr_bands (fold_left tstep es ras) b r c = sr_bands (fold_left tstep es' ras) b r c) /\
  sr_mask (fold_left tstep es ras) r c = sr_mask (fold_left tstep es' ras) r c.
Proof.
  intros Hh Hw P P' r c. destruct bs as [bh bw]. cbn [fst snd] in Hh, Hw.
  assert (ND := block_windows_NoDup h w bh bw Hh Hw).
  assert (In_es : forall es, Permutation es (block_windows h w (bh, bw)) -> forall e, In e es <-> In e (block_windows h w (bh, bw))).
  { intros l Hl e. split; apply Permutation_in; [assumption|now apply Permutation_sym]. }
  destruct (Z_lt_dec r 0) as [Or|Or]; [|destruct (Z_le_dec h r) as [Or'|Or']; [|destruct (Z_lt_dec c 0) as [Oc|Oc]; [|destruct (Z_le_dec w c) as [Oc'|Oc']]]].
  5: { assert (I : in_im h w r c) by (unfold in_im; lia). destruct (block_windows_cover h w bh bw Hh Hw r c I) as (e0 & I0 & W0 & U0).
       assert (T : forall l, Permutation l (block_windows h w (bh, bw)) -> NoDup l /\ In e0 l /\ forall e, In e l -> in_win e r c -> e = e0).
       { intros l Hl. split; [now apply (Permutation_NoDup (Permutation_sym Hl))|]. split; [now apply In_es|]. intros e He. apply U0. now apply (In_es l Hl). }
       destruct (T es P) as (N1 & I1 & U1). destruct (T es' P') as (N2 & I2 & U2).
       destruct (tfold_in es e0 r c N1 I1 W0 U1 ras) as (A1 & B1 & C1 & D1). destruct (tfold_in es' e0 r c N2 I2 W0 U2 ras) as (A2 & B2 & C2 & D2).
       destruct (fail e0) eqn:F.
       - destruct (B1 eq_refl) as [E1 F1]. destruct (B2 eq_refl) as [E2 F2]. split; [intros b; now rewrite E1, E2|now rewrite F1, F2].
       - destruct (A1 eq_refl) as [E1 F1]. destruct (A2 eq_refl) as [E2 F2]. split.
         + intros b. destruct (Z_le_dec 1 b) as [L1|L1]; [destruct (Z_le_dec b (Z.of_nat (List.length idx))) as [L2|L2]|];
             [rewrite E1, E2 by lia; reflexivity|rewrite D1, D2 by lia; reflexivity|rewrite D1, D2 by lia; reflexivity].
         + destruct wm; [now rewrite F1, F2|now rewrite C1, C2]. }
  all: assert (O : forall l, Permutation l (block_windows h w (bh, bw)) -> forall e, In e l -> ~ in_win e r c) by
    (intros l Hl e He Hi; apply (In_es l Hl) in He; destruct (block_windows_bounds h w bh bw Hh Hw e He) as (? & ? & ? & ? & ? & ?); unfold in_win in Hi; lia);
    destruct (tfold_out es ras r c (O es P)) as [A B]; destruct (tfold_out es' ras r c (O es' P')) as [A' B'];
    split; [intros b; now rewrite A, A'|now rewrite B, B'].
Qed.

End Raster.

(** * Statistics *)

Lemma rep_unique s s' vs vs' : rep s vs -> rep s' vs' -> Permutation vs vs' -> s = s'.
Proof.
  intros (N & M & E & P) (N' & M' & E' & P') H. assert (L := Permutation_length H).
  assert (EM : s_mean s = s_mean s').
  { extensionality k. destruct vs as [|v vs].
    - apply Permutation_nil in H. subst. now rewrite E, E'.
    - specialize (M k). specialize (M' k). rewrite (suml_perm _ _ _ H), <- L in *. rewrite <- M in M'.
      apply Rmult_eq_reg_l in M'; [congruence|]. apply not_0_INR. discriminate. }
  destruct s as [n mn pr], s' as [n' mn' pr']. cbn in *. subst mn'. f_equal; [congruence|].
  extensionality k. extensionality l. rewrite P, P', L. f_equal. now apply suml_perm.
Qed.

Lemma get_stats_order tiles order : Permutation order tiles -> get_stats order = get_stats tiles.
Proof.
  intros H. destruct (Forall_Exists_dec (fun t : Py.res (list pixel) => is_ok t = true) (fun t => bool_dec (is_ok t) true) tiles) as [A|A].
  - assert (X : forall l : list (Py.res (list pixel)), Forall (fun t => is_ok t = true) l -> exists l', l = map Ok l').
    { induction 1 as [|[t|e] l Ht _ [l' ->]]; [exists []; reflexivity|exists (t :: l'); reflexivity|discriminate Ht]. }
    destruct (X _ A) as (tl & ->). destruct (Permutation_map_inv Ok tl H) as (ol & -> & HP).
    destruct (gather_rep tl no_stats [] empty_rep) as (s & E & Hs). destruct (gather_rep ol no_stats [] empty_rep) as (s' & E' & Hs').
    unfold get_stats. rewrite E, E'. cbn [bind app] in *. assert (s' = s); [|now subst].
    apply (rep_unique _ _ _ _ Hs' Hs). rewrite !vals_of_concat. apply valid_perm, concat_perm. now apply Permutation_sym.
  - assert (F : forall l : list (Py.res (list pixel)), Exists (fun t => is_ok t <> true) l -> get_stats l = Err RuntimeError).
    { intros l Hl. apply stats_fail. apply Exists_exists in Hl. destruct Hl as ([t|e] & Hi & Hn); [now destruct Hn|]. eauto. }
    rewrite (F _ A), F; [reflexivity|]. apply Exists_exists in A. destruct A as (t & Hi & Hn). apply Exists_exists. exists t.
    split; [|exact Hn]. now apply (Permutation_in t (Permutation_sym H)).
Qed.

Lemma selects_lengths nb l vs : (forall p, In p l -> List.length (snd p) = nb) -> selects l vs -> forall v, In v vs -> List.length v = S nb.
Proof.
  intros H S. induction S as [|x xs l vs S IH|p l vs Hn S IH]; intros v Hv; [destruct Hv| |].
  - destruct Hv as [<-|Hv]; [|apply IH; [intros; apply H; now right|assumption]].
    specialize (H _ (or_introl eq_refl)). cbn in *. rewrite map_length in H. now rewrite H.
  - apply IH; [intros; apply H; now right|assumption].
Qed.

(** * Parameters *)

Lemma all_pairs_true n p : (forall k l, p k l = true) -> all_pairs n p = true.
Proof. intros H. unfold all_pairs. apply forallb_forall. intros k _. apply forallb_forall. auto. Qed.

Lemma sim_var nb w vs : List.length w = nb -> (forall v, In v vs -> List.length v = S nb) -> (2 <= List.length vs)%nat ->
  covar (sim_pan w) (sim_pan w) vs = bil nb (fun i j => band_cov vs (S i) (S j)) (fun m => nth m w 0%R) (fun m => nth m w 0%R).
Proof.
  intros Hw Hv H2. destruct (len2 vs H2) as [Hne Hn].
  transitivity (covar (fun p => dotn nb (fun m => nth m w 0%R) (fun m => band (S m) p) + 0)%R (fun p => dotn nb (fun m => nth m w 0%R) (fun m => band (S m) p) + 0)%R vs);
    [|exact (covar_dot nb (fun m => nth m w 0%R) (fun m => nth m w 0%R) (fun m v => band (S m) v) 0 0 vs Hne Hn)].
  apply covar_ext; intros v Hi; apply sim_pan_dot; auto.
Qed.

Lemma sim_avg nb w vs : List.length w = nb -> (forall v, In v vs -> List.length v = S nb) -> (2 <= List.length vs)%nat ->
  avg (sim_pan w) vs = dotn nb (fun m => nth m w 0%R) (fun m => band_mean vs (S m)).
Proof.
  intros Hw Hv H2. destruct (len2 vs H2) as [Hne Hn].
  rewrite (avg_ext _ (fun v => dotn nb (fun m => nth m w 0%R) (fun m => band (S m) v) + 0)%R) by (intros v Hi; apply sim_pan_dot; auto).
  rewrite (avg_dot nb (fun m => nth m w 0%R) (fun m v => band (S m) v) 0 vs Hne). rewrite Rplus_0_r. reflexivity.
Qed.

Lemma finite_ok lstsq nb vs ws w : pos_def nb (fun k l => band_cov vs (S k) (S l)) -> band_cov vs 0%nat 0%nat <> 0%R ->
  get_weights lstsq nb (band_cov vs) ws = map Num w ->
  finite_params lstsq nb (band_mean vs) (fun k l => Num (band_cov vs k l)) ws = Some (get_params nb (band_mean vs) (band_cov vs) w).
Proof.
  intros [_ PD] P0 E. unfold finite_params. rewrite all_pairs_true by reflexivity. cbn [negb fval].
  change (fun k l => band_cov vs k l) with (band_cov vs). rewrite E, nums_map.
  unfold nonzero at 1. destruct (Req_EM_T _ 0) as [C|_]; [contradiction|]. cbn [andb].
  match goal with |- context[forallb ?f ?l] => assert (EF : forallb f l = true) end.
  { apply forallb_forall. intros v _. destruct (any_nonzero nb v) eqn:EA; [|reflexivity]. cbn [negb orb].
    apply any_nonzero_true in EA. specialize (PD v EA). unfold nonzero, bil. destruct (Req_EM_T _ 0) as [C|_]; [lra|reflexivity]. }
  now rewrite EF.
Qed.

Lemma sharp_value nb vs w b pan ms l : List.length w = nb -> selects l vs -> (forall v, In v vs -> List.length v = S nb) ->
  (2 <= List.length vs)%nat -> pos_def nb (fun k l => band_cov vs (S k) (S l)) -> (exists x, In x w /\ x <> 0%R) ->
  List.length ms = nb -> (b < nb)%nat ->
  nth b (process_pixel (get_params nb (band_mean vs) (band_cov vs) w) pan ms) 0%R = sharp w vs b pan ms.
Proof.
  intros Hw HS Hv H2 PD Hx Hm Hb.
  assert (E : estimate nb (map Ok [l]) w = Ok (get_params nb (band_mean vs) (band_cov vs) w)).
  { apply (estimate_ok nb [l]); [apply Permutation_refl| |assumption]. cbn. now rewrite app_nil_r. }
  rewrite (sharpen_gain nb [l] [l] vs w _ b pan ms (Permutation_refl _)) by (try assumption; cbn; now rewrite app_nil_r).
  unfold sharp. f_equal. f_equal. f_equal. unfold get_params, pan_norm. cbn [p_gain p_bias].
  rewrite (sim_var nb), (sim_avg nb) by assumption. change (covar (band 0) (band 0) vs) with (band_cov vs 0%nat 0%nat).
  change (avg (band 0) vs) with (band_mean vs 0%nat). ring.
Qed.

Lemma weights_used_get lstsq vs nb user ws w : weights_used lstsq vs nb user w ->
  ((user = None \/ user = Some []) /\ ws = None \/ exists w0, user = Some w0 /\ w0 <> [] /\ ws = Some w0 /\ List.length w0 = nb /\ Forall (fun x => 0 <= x)%R w0) ->
  (forall a b, List.length (lstsq a b) = List.length b) ->
  get_weights lstsq nb (band_cov vs) ws = map Num w /\ List.length w = nb.
Proof.
  intros U C HL. destruct U as [w0 Hne Hs|user w Hu E].
  - destruct C as [[[H|H] _]|(w1 & H & _ & -> & L & P)]; [discriminate H|injection H as ->; contradiction|]. injection H as <-.
    rewrite map_length. split; [|exact L]. unfold get_weights, raw_weights. apply anyb_neg_false in P. rewrite P.
    rewrite map_map. apply map_ext. intros x. unfold fdiv. destruct (Req_EM_T _ 0) as [Z|_]; [contradiction|reflexivity].
  - destruct C as [[_ ->]|(w1 & H & Hne & _)].
    + split; [exact E|]. apply (f_equal (@List.length _)) in E. rewrite (map_length Num) in E. rewrite <- E. unfold get_weights. rewrite map_length.
      apply raw_length; [assumption|discriminate].
    + destruct Hu as [->| ->]; [discriminate H|injection H as <-; contradiction].
Qed.

Lemma weights_nonzero lstsq nb cov ws w : get_weights lstsq nb cov ws = map Num w -> List.length w = nb -> (0 < nb)%nat ->
  exists x, In x w /\ x <> 0%R.
Proof.
  intros E L H. unfold get_weights in E. set (r := raw_weights lstsq nb cov ws) in *. clearbody r. remember (suml (fun y => y) r) as s eqn:Es.
  assert (S : s <> 0%R).
  { intros Z. destruct r as [|x r]; [apply (f_equal (@List.length _)) in E; rewrite !map_length in E; cbn in E; lia|].
    destruct w as [|y w]; [discriminate E|]. cbn in E. injection E as E _. destruct (Req_EM_T s 0); [discriminate E|contradiction]. }
  assert (EX : exists x, In x r /\ x <> 0%R).
  { destruct (Exists_dec (fun x => x <> 0%R) r) as [X|X].
    - intros x. destruct (Req_EM_T x 0) as [->|N]; [right; auto|now left].
    - apply Exists_exists in X. exact X.
    - exfalso. apply S. rewrite Es. clear - X. induction r as [|x r IH]; [reflexivity|]. cbn. rewrite IH by (intros C; apply X; now right).
      destruct (Req_EM_T x 0) as [->|N]; [ring|]. exfalso. apply X. now left. }
  destruct EX as (x & Hx & N). exists (x / s)%R. split.
  - apply (in_map (fun x => fdiv (Num x) (Num s))) in Hx. rewrite E in Hx. cbn in Hx. destruct (Req_EM_T s 0); [contradiction|].
    apply in_map_iff in Hx. destruct Hx as (y & Ey & Hy). injection Ey as <-. exact Hy.
  - intros C. apply N. apply (Rmult_eq_reg_r (/ s)); [|now apply Rinv_neq_0_compat]. unfold Rdiv in C. rewrite C. ring.
Qed.

(** * A call *)

Lemma iterM_fail (f : window -> bool) l : iterM (fun x => if f x then Err RuntimeError else Ok tt) l =
  if existsb f l then Err RuntimeError else Ok tt.
Proof. induction l as [|x l IH]; [reflexivity|]. cbn. destruct (f x); [reflexivity|]. exact IH. Qed.

Lemma existsb_none {A} (f : A -> bool) l : existsb f l = false -> forall x, In x l -> f x = false.
Proof. intros H x Hx. apply Bool.not_true_is_false. intros C. rewrite <- Bool.not_true_iff_false in H. apply H. apply existsb_exists. eauto. Qed.

Lemma gather_err ts : forall s e, gather (map tile_result ts) s = Err e -> e = RuntimeError.
Proof. induction ts as [|[t|e0] ts IH]; intros s e H; cbn in H; [discriminate H|eapply IH; eassumption|now injection H as <-]. Qed.
Lemma stats_err ts e : get_stats ts = Err e -> e = RuntimeError.
Proof. unfold get_stats. destruct (gather _ _) eqn:E; [discriminate|]. intros H. injection H as <-. eapply gather_err; eassumption. Qed.

Lemma sraster_ext x y : (forall r c, (forall b, sr_bands x b r c = sr_bands y b r c) /\ sr_mask x r c = sr_mask y r c) -> x = y.
Proof.
  intros T. destruct x as [b1 m1], y as [b2 m2]. cbn in T. f_equal.
  - extensionality b. extensionality r. extensionality c. apply T.
  - extensionality r. extensionality c. apply T.
Qed.

Section Main.
Variable tb : option Z -> option Z -> qbounds -> Py.res qbounds.
Variables (warp_pan warp_ms : vrt_profile -> interp -> Z -> Z -> Z -> fl) (lstsq : list (list R) -> list R -> list R).
Variables (odd : R -> list R -> list fl) (nan_int : dtype -> fl).

Definition run := pan_sharpen tb warp_pan warp_ms lstsq odd nan_int.

Lemma dt_cases a ms : out_dtype a ms (match sa_dtype a with Some d => if String.eqb d "" then so_dtype ms else d | None => so_dtype ms end).
Proof.
  unfold out_dtype. destruct (sa_dtype a) as [d|]; [|right; auto]. destruct (String.eqb d "") eqn:E.
  - apply String.eqb_eq in E. subst. right. auto.
  - apply String.eqb_neq in E. left. auto.
Qed.

Lemma out_dtype_unique a ms d1 d2 : out_dtype a ms d1 -> out_dtype a ms d2 -> d1 = d2.
Proof.
  intros [[A B]|[[A|A] B]] [[A' B']|[[A'|A'] B']]; try congruence; rewrite A in A'; try discriminate; injection A' as ->; contradiction.
Qed.

(** The parts of a call that leaves a file. *)
Record parts (ps : vrt_profiles) (pan ms : source) (a : sargs) (w : sworld) (d : sdata) (r : Py.res unit) : Type := Parts {
  pt_i : interp; pt_idx : list Z; pt_ws : option (list R); pt_dt : string;
  pt_vrt : get_vrt_profiles tb (so_image pan) (so_image ms) = Ok ps;
  pt_interp : interp_of (sa_interp a) = Ok pt_i;
  pt_valid : validate_params (so_count pan) (alpha_bands ms) (sa_pan_index a) (sa_ms_indexes a) (sa_weights a) = Ok (pt_idx, pt_ws);
  pt_out : out_dtype a ms pt_dt;
  pt_profile : create_profile (sa_driver a) (Z.of_nat (List.length pt_idx), v_height (pan_to_pan ps), v_width (pan_to_pan ps)) pt_dt (sa_compress a) (sa_write_mask a) (sa_options a)
               = Ok (sd_profile d, sd_write_mask d);
  pt_grid : sd_crs d = v_crs (pan_to_pan ps) /\ sd_transform d = v_transform (pan_to_pan ps) /\ sd_width d = v_width (pan_to_pan ps) /\ sd_height d = v_height (pan_to_pan ps);
  pt_bands : sd_count d = Z.of_nat (List.length pt_idx) /\ sd_dtype d = pt_dt /\ sd_colors d = map (fun mi => nth (Z.to_nat (mi - 1)) (so_colors ms) "") pt_idx;
  pt_tiles :
    match get_stats (map (stat_tile warp_pan warp_ms ps (sa_pan_index a) pt_idx w) (sw_stat_order w)) with
    | Err e => r = Err e /\ sd_raster d = sw_empty w
    | Ok (means, cov) =>
      sd_raster d = fold_left (tstep warp_pan warp_ms odd nan_int ps (sa_pan_index a) pt_i pt_idx
                                 (finite_params lstsq (List.length pt_idx) means cov pt_ws) (dtype_named pt_dt) (fill_value (sd_profile d)) (sd_write_mask d) (sw_fail w))
                              (sw_order w) (sw_empty w) /\
      r = if existsb (sw_fail w) (block_windows (sd_height d) (sd_width d) (sw_block w (sd_profile d))) then Err RuntimeError else Ok tt
    end
}.

Lemma call_parts pan ms a w d r : run pan ms a w = Ok (d, r) -> {ps & parts ps pan ms a w d r}.
Proof.
  unfold run, pan_sharpen. destruct (get_vrt_profiles tb _ _) as [ps|] eqn:EV; [|discriminate]. cbn [bind]. intros H. exists ps. revert H.
  unfold sprocess. destruct (interp_of (sa_interp a)) as [i|] eqn:EI; [|discriminate]. cbn [bind].
  destruct (validate_params _ _ _ _ _) as [[idx ws]|] eqn:EP; [|discriminate]. cbn [bind].
  pose proof (dt_cases a ms) as ED. set (dt := match sa_dtype a with Some d => if String.eqb d "" then so_dtype ms else d | None => so_dtype ms end) in *.
  clearbody dt. unfold out_grid.
  destruct (create_profile _ _ _ _ _ _) as [[profile wm]|] eqn:EC; [|discriminate]. cbn [bind].
  destruct (get_stats _) as [[means cov]|e] eqn:ES.
  - intros H. injection H as <- <-.
    apply (Parts ps pan ms a w _ _ i idx ws dt EV EI EP ED); cbn [sd_profile sd_write_mask sd_crs sd_transform sd_width sd_height sd_count sd_dtype sd_colors sd_raster];
      [exact EC|auto|auto|]. rewrite ES. split; [reflexivity|]. apply iterM_fail.
  - intros H. injection H as <- <-.
    apply (Parts ps pan ms a w _ _ i idx ws dt EV EI EP ED); cbn [sd_profile sd_write_mask sd_crs sd_transform sd_width sd_height sd_count sd_dtype sd_colors sd_raster];
      [exact EC|auto|auto|]. rewrite ES. auto.
Qed.

(** The grid and the bands. *)
Lemma call_grid pan ms a w d r : run pan ms a w = Ok (d, r) ->
  sd_crs d = im_crs (so_image pan) /\
  (exists dt, out_dtype a ms dt /\ sd_dtype d = dt) /\
  (exists idx, bands_used a ms idx /\ Forall (fun i => 1 <= i <= Z.of_nat (List.length (so_colors ms))) idx /\
     sd_count d = Z.of_nat (List.length idx) /\ Forall2 (fun i color => nth_error (so_colors ms) (Z.to_nat (i - 1)) = Some color) idx (sd_colors d)) /\
  (georeferenced (so_image pan) -> georeferenced (so_image ms) -> north_up (im_t (so_image pan)) -> north_up (im_t (so_image ms)) ->
   part_of (sd_transform d) (sd_width d) (sd_height d) (im_t (so_image pan)) (im_w (so_image pan)) (im_h (so_image pan))) /\
  (~ georeferenced (so_image pan) \/ ~ georeferenced (so_image ms) -> sd_width d = im_w (so_image pan) /\ sd_height d = im_h (so_image pan)).
Proof.
  intros H. destruct (call_parts _ _ _ _ _ _ H) as [ps P]. destruct P as [i idx ws dt EV EI EP ED EC (G1 & G2 & G3 & G4) (B1 & B2 & B3) T].
  rewrite G1, G2, G3, G4, B1, B2, B3. apply validate_ok in EP. destruct EP as (V1 & V2 & V3 & V4).
  split; [|split; [|split; [|split]]].
  - unfold get_vrt_profiles in EV. destruct (shared_windows tb _ _) as [[[[a1 a2] a3] a4]|]; [|discriminate EV]. cbn [bind] in EV.
    destruct (_ || _); [discriminate EV|]. injection EV as <-. reflexivity.
  - exists dt. auto.
  - exists idx. unfold alpha_bands in V3. rewrite map_length in V3. split; [exact V2|]. split; [exact V3|]. split; [reflexivity|].
    clear - V3. induction V3 as [|x l Hx _ IH]; [constructor|]. cbn [map]. constructor; [|exact IH]. apply nth_error_nth'. lia.
  - intros R1 R2 N1 N2. rewrite <- georef_iff in R1, R2.
    destruct (grids_ok tb (so_image pan) (so_image ms) ps (fun _ _ => False) R1 R2 N1 N2) as (A & _); [intros ? ? ? ? ? ? ? []|intros ? ? ? ? ? ? ? []|exact EV|exact A].
  - intros R. unfold get_vrt_profiles in EV. destruct (shared_windows tb _ _) as [[[[a1 a2] a3] a4]|] eqn:ES; [|discriminate EV]. cbn [bind] in EV.
    destruct (_ || _); [discriminate EV|]. injection EV as <-. cbn. unfold shared_windows in ES.
    rewrite <- !not_georef_iff in R. destruct (not_georef (so_image ms)); [injection ES as _ _ <- _; auto|].
    destruct (not_georef (so_image pan)); [injection ES as _ _ <- _; auto|]. destruct R; discriminate.
Qed.

Lemma fill_ok dt profile wm driver shape compress wmo opts : create_profile driver shape dt compress wmo opts = Ok (profile, wm) ->
  supported_dtype dt /\ fill_of dt wm (fill_value profile).
Proof.
  intros H. split.
  - destruct (proj1 (Profile_Proof.accepts driver shape dt compress wmo opts)) as (A & _); [eauto|exact A].
  - destruct (Profile_Proof.mask_nodata _ _ _ _ _ _ _ _ H) as (M1 & M2 & _). unfold fill_value. destruct wm.
    + rewrite (M1 eq_refl). constructor.
    + destruct (M2 eq_refl) as (v & Hv & ->). destruct Hv as [[D ->]|[[D ->]|[D ->]]]; [now apply F_unsigned|now apply F_signed|now apply F_float].
Qed.

Lemma stats_no_fail ps pi idx w : (exists x, get_stats (map (stat_tile warp_pan warp_ms ps pi idx w) (sw_stat_order w)) = Ok x) ->
  map (stat_tile warp_pan warp_ms ps pi idx w) (sw_stat_order w) = map Ok (map (stat_pixels warp_pan warp_ms ps pi idx) (sw_stat_order w)).
Proof.
  intros [x E]. rewrite map_map. apply map_ext_in. intros win Hw. unfold stat_tile. destruct (sw_stat_fail w win) eqn:F; [|reflexivity].
  assert (C : get_stats (map (stat_tile warp_pan warp_ms ps pi idx w) (sw_stat_order w)) = Err RuntimeError).
  { apply stats_fail. exists ExternalError. apply in_map_iff. exists win. split; [|assumption]. unfold stat_tile. now rewrite F. }
  congruence.
Qed.

Lemma stat_pixels_pair ps pi idx win :
  stat_pixels warp_pan warp_ms ps pi idx win = map (pair_at (warp_pan (pan_to_ms ps) Average) (warp_ms (ms_to_ms ps) Nearest) pi idx) (win_pixels win).
Proof. unfold stat_pixels. apply map_ext. intros [r c]. reflexivity. Qed.

(** The statistics are those of all pixels. *)
Lemma stats_all ps pi idx w means cov l vs :
  get_stats (map (stat_tile warp_pan warp_ms ps pi idx w) (sw_stat_order w)) = Ok (means, cov) ->
  Permutation (sw_stat_order w) (block_windows (v_height (ms_to_ms ps)) (v_width (ms_to_ms ps)) (1024, 1024)) ->
  all_pixels (v_height (ms_to_ms ps)) (v_width (ms_to_ms ps)) l ->
  selects (map (pair_at (warp_pan (pan_to_ms ps) Average) (warp_ms (ms_to_ms ps) Nearest) pi idx) l) vs -> (2 <= List.length vs)%nat ->
  means = band_mean vs /\ cov = fun k l => Num (band_cov vs k l).
Proof.
  intros E HP HA HS H2. rewrite stats_no_fail in E by eauto.
  set (f := pair_at (warp_pan (pan_to_ms ps) Average) (warp_ms (ms_to_ms ps) Nearest) pi idx) in *.
  set (wins := block_windows _ _ _) in *.
  assert (EQ : map (stat_pixels warp_pan warp_ms ps pi idx) (sw_stat_order w) = map (map f) (map win_pixels (sw_stat_order w))).
  { rewrite map_map. apply map_ext. intros. apply stat_pixels_pair. }
  rewrite EQ in E.
  assert (PM : Permutation (map f l) (concat (map (map f) (map win_pixels wins)))).
  { rewrite <- concat_map. apply Permutation_map. apply (all_pixels_perm _ _ _ _ HA). apply tiles_cover; lia. }
  apply selects_iff in HS. pose proof (valid_perm _ _ PM) as PV. rewrite HS in PV.
  destruct (stats_ok (map (map f) (map win_pixels wins)) (map (map f) (map win_pixels (sw_stat_order w)))
              (valid_values (concat (map (map f) (map win_pixels wins))))) as (means' & cov' & E' & HM & HC).
  - now do 2 apply Permutation_map.
  - now apply selects_iff.
  - rewrite <- (Permutation_length PV). exact H2.
  - rewrite E in E'. injection E' as <- <-. split.
    + extensionality k. rewrite HM. unfold band_mean. symmetry. now apply avg_perm.
    + extensionality k. extensionality k'. rewrite HC. unfold band_cov. f_equal. symmetry. now apply covar_perm.
Qed.

(** The tile of a pixel of the output. *)
Lemma tile_of ps pi i idx p dt fill wm fail h w bs es ras r c : 0 < fst bs -> 0 < snd bs -> Permutation es (block_windows h w bs) ->
  (forall win, In win (block_windows h w bs) -> fail win = false) -> in_im h w r c ->
  let ras' := fold_left (tstep warp_pan warp_ms odd nan_int ps pi i idx p dt fill wm fail) es ras in
  let px := out_pixel odd nan_int p dt fill (pan_at warp_pan ps pi r c) (ms_at warp_ms ps i idx r c) in
  (forall b, 1 <= b <= Z.of_nat (List.length idx) -> sr_bands ras' b r c = nth (Z.to_nat (b - 1)) (fst px) Nan) /\
  (wm = true -> sr_mask ras' r c = snd px).
Proof.
  intros Hh Hw P F I. destruct bs as [bh bw]. cbn [fst snd] in Hh, Hw. cbv zeta.
  destruct (block_windows_cover h w bh bw Hh Hw r c I) as (e0 & I0 & W0 & U0).
  apply (tfold_in warp_pan warp_ms odd nan_int ps pi i idx p dt fill wm fail es e0 r c).
  - apply (Permutation_NoDup (Permutation_sym P)). now apply block_windows_NoDup.
  - apply (Permutation_in _ (Permutation_sym P)). exact I0.
  - exact W0.
  - intros e He. apply U0. now apply (Permutation_in _ P).
  - now apply F.
Qed.

(** The pixels of a call that succeeds. *)
Lemma call_pixels pan ms a w d : (forall x y, List.length (lstsq x y) = List.length y) -> run pan ms a w = Ok (d, Ok tt) ->
  0 < fst (sw_block w (sd_profile d)) -> 0 < snd (sw_block w (sd_profile d)) ->
  Permutation (sw_order w) (block_windows (sd_height d) (sd_width d) (sw_block w (sd_profile d))) ->
  exists ps i idx fill,
    get_vrt_profiles tb (so_image pan) (so_image ms) = Ok ps /\ interp_name (sa_interp a) i /\ bands_used a ms idx /\
    fill_of (sd_dtype d) (sd_write_mask d) fill /\
    let target := pair_at (warp_pan (pan_to_pan ps) Nearest) (warp_ms (ms_to_pan ps) i) (sa_pan_index a) idx in
    let source := pair_at (warp_pan (pan_to_ms ps) Average) (warp_ms (ms_to_ms ps) Nearest) (sa_pan_index a) idx in
    let sh := v_height (ms_to_ms ps) in let sw := v_width (ms_to_ms ps) in
    forall r c, in_im (sd_height d) (sd_width d) r c ->
      (fst (target (r, c)) = Nan \/ In Nan (snd (target (r, c))) ->
       (forall b, (b < List.length idx)%nat -> sr_bands (sd_raster d) (Z.of_nat b + 1) r c = fill) /\
       (sd_write_mask d = true -> sr_mask (sd_raster d) r c = false)) /\
      (forall x xs, target (r, c) = (Num x, map Num xs) ->
       (sd_write_mask d = true -> sr_mask (sd_raster d) r c = true) /\
       forall l vs wts, Permutation (sw_stat_order w) (block_windows sh sw (1024, 1024)) -> all_pixels sh sw l -> selects (map source l) vs ->
         (2 <= List.length vs)%nat -> pos_def (List.length idx) (fun k m => covar (band (S k)) (band (S m)) vs) -> covar (band 0) (band 0) vs <> 0%R ->
         weights_used lstsq vs (List.length idx) (sa_weights a) wts ->
         forall b, (b < List.length idx)%nat ->
           exists y, sr_bands (sd_raster d) (Z.of_nat b + 1) r c = Num y /\ stored (sd_dtype d) (sharp wts vs b x xs) y).
Proof.
  intros HL H Hh Hw PW. destruct (call_parts _ _ _ _ _ _ H) as [ps P]. destruct P as [i idx ws dt EV EI EP ED EC (G1 & G2 & G3 & G4) (B1 & B2 & B3) T].
  destruct (fill_ok _ _ _ _ _ _ _ _ EC) as [SD FO]. apply Ortho_Proof.interp_of_iff in EI. apply validate_ok in EP. destruct EP as (V1 & V2 & V3 & V4).
  destruct (get_stats _) as [[means cov]|e] eqn:ES; [|destruct T as [T _]; discriminate T]. destruct T as [ER EF].
  assert (NF : forall win, In win (block_windows (sd_height d) (sd_width d) (sw_block w (sd_profile d))) -> sw_fail w win = false).
  { apply existsb_none. destruct (existsb _ _); [discriminate EF|reflexivity]. }
  exists ps, i, idx, (fill_value (sd_profile d)). split; [exact EV|]. split; [exact EI|]. split; [exact V2|].
  rewrite B2. split; [exact FO|]. cbv zeta. intros r c IM.
  destruct (tile_of ps (sa_pan_index a) i idx (finite_params lstsq (List.length idx) means cov ws) (dtype_named dt) (fill_value (sd_profile d)) (sd_write_mask d)
              (sw_fail w) _ _ _ (sw_order w) (sw_empty w) r c Hh Hw PW NF IM) as [TB TM].
  rewrite <- ER in TB, TM.
  change (ms_at warp_ms ps i idx r c) with (snd (pair_at (warp_pan (pan_to_pan ps) Nearest) (warp_ms (ms_to_pan ps) i) (sa_pan_index a) idx (r, c))) in TB, TM.
  change (pan_at warp_pan ps (sa_pan_index a) r c) with (fst (pair_at (warp_pan (pan_to_pan ps) Nearest) (warp_ms (ms_to_pan ps) i) (sa_pan_index a) idx (r, c))) in TB, TM.
  assert (L : List.length (snd (pair_at (warp_pan (pan_to_pan ps) Nearest) (warp_ms (ms_to_pan ps) i) (sa_pan_index a) idx (r, c))) = List.length idx)
    by (unfold pair_at; cbn [snd]; apply map_length).
  set (px := pair_at (warp_pan (pan_to_pan ps) Nearest) (warp_ms (ms_to_pan ps) i) (sa_pan_index a) idx (r, c)) in *. clearbody px. destruct px as [x0 xs0]. cbn [fst snd] in *.
  split.
  - intros HN. assert (EN : pixel_values (x0, xs0) = None). { unfold pixel_values. cbn [fst snd]. apply nums_nan. destruct HN as [->|HN]; [now left|now right]. }
    unfold out_pixel in TB, TM. rewrite EN in TB, TM. cbn [fst snd] in TB, TM. split; [|exact TM]. intros b Hb. rewrite TB by lia.
    rewrite (nth_indep _ _ (fill_value (sd_profile d))) by (rewrite map_length; lia).
    replace (Z.to_nat (Z.of_nat b + 1 - 1)) with b by lia. clear. revert b. induction xs0 as [|x l IH]; intros [|b]; cbn; auto.
  - intros x xs E. injection E as -> ->. rewrite map_length in L.
    assert (EN : pixel_values (Num x, map Num xs) = Some (x :: xs)). { unfold pixel_values. cbn [fst snd nums]. now rewrite nums_map. }
    unfold out_pixel in TB, TM. rewrite EN in TB, TM. cbn [fst snd] in TB, TM. split; [exact TM|].
    intros l vs wts PS HA HS H2 PD P0 HW b Hb.
    destruct (stats_all ps _ idx w means cov l vs ES PS HA HS H2) as [-> ->].
    destruct (weights_used_get lstsq vs _ _ ws wts HW V4 HL) as [EW LW].
    rewrite (finite_ok lstsq (List.length idx) vs ws wts PD P0 EW) in TB. cbn [sharpen] in TB.
    assert (LV : forall v, In v vs -> List.length v = S (List.length idx)).
    { apply (selects_lengths (List.length idx) _ _) with (2 := HS). intros q Hq. apply in_map_iff in Hq. destruct Hq as (rc & <- & _). unfold pair_at. cbn [snd]. apply map_length. }
    exists (convert_r (dtype_named dt) (sharp wts vs b x xs)). split; [|now apply convert_stored].
    rewrite TB by lia. replace (Z.to_nat (Z.of_nat b + 1 - 1)) with b by lia. rewrite map_map.
    rewrite (nth_indep _ _ (convert_fl nan_int (dtype_named dt) (Num 0))).
    + rewrite (map_nth (fun z => convert_fl nan_int (dtype_named dt) (Num z))). cbn [convert_fl]. f_equal. f_equal.
      apply (sharp_value (List.length idx) vs wts b x xs _ LW HS LV H2 PD); [|exact L|exact Hb].
      apply (weights_nonzero lstsq (List.length idx) (band_cov vs) ws); [exact EW|exact LW|lia].
    + rewrite map_length, process_length; [now rewrite L| |].
      * unfold get_params. destruct (pan_norm _ _ _ _). cbn [p_means]. rewrite map_length, seq_length. now rewrite L.
      * unfold get_params. destruct (pan_norm _ _ _ _). cbn [p_coeffs]. rewrite gs_coeffs_length. now rewrite L.
Qed.

(** When a call leaves a file, and what it raises. *)
Lemma call_creates pan ms a w :
  ((exists d r, run pan ms a w = Ok (d, r)) <->
   (exists ps, get_vrt_profiles tb (so_image pan) (so_image ms) = Ok ps) /\ (exists i, interp_name (sa_interp a) i) /\ good_bands pan ms a /\
   (exists dt, out_dtype a ms dt /\ supported_dtype dt /\ (~ no_options (sa_options a) \/ compress_ok dt (sa_compress a))) /\
   (sa_driver a = "gtiff" \/ sa_driver a = "cog")) /\
  (forall d r, run pan ms a w = Ok (d, r) ->
   ((r = Ok tt <-> (forall win, In win (sw_stat_order w) -> sw_stat_fail w win = false) /\
                   (forall win, In win (block_windows (sd_height d) (sd_width d) (sw_block w (sd_profile d))) -> sw_fail w win = false)) /\
    (r = Ok tt \/ r = Err RuntimeError))).
Proof.
  split; [split|].
  - intros (d & r & H). destruct (call_parts _ _ _ _ _ _ H) as [ps P]. destruct P as [i idx ws dt EV EI EP ED EC _ _ _].
    apply Ortho_Proof.interp_of_iff in EI. apply validate_ok in EP. destruct EP as (V1 & V2 & V3 & V4).
    destruct (proj1 (Profile_Proof.accepts (sa_driver a) (Z.of_nat (List.length idx), v_height (pan_to_pan ps), v_width (pan_to_pan ps)) dt (sa_compress a) (sa_write_mask a) (sa_options a)))
      as (A1 & A2 & A3); [eauto|].
    split; [eauto|]. split; [eauto|]. split; [|split; [eauto|exact A2]].
    split; [exact V1|]. exists idx. split; [exact V2|]. unfold alpha_bands in V3. rewrite map_length in V3. split; [exact V3|].
    intros w0 E0 N0. destruct V4 as [[[C|C] _]|(w1 & C & _ & _ & L1 & P1)]; [congruence|congruence|]. rewrite E0 in C. injection C as <-. auto.
  - intros ((ps & EV) & (i & EI) & (V1 & idx & V2 & V3 & V4) & (dt & ED & A1 & A3) & A2).
    unfold run, pan_sharpen. rewrite EV. cbn [bind]. unfold sprocess. apply Ortho_Proof.interp_of_iff in EI. rewrite EI. cbn [bind].
    assert (EP : exists ws, validate_params (so_count pan) (map (String.eqb "alpha") (so_colors ms)) (sa_pan_index a) (sa_ms_indexes a) (sa_weights a) = Ok (idx, ws)).
    { destruct (sa_weights a) as [[|w0 l]|] eqn:EW.
      - exists None. apply validate_ok. rewrite map_length. split; [exact V1|]. split; [exact V2|]. split; [exact V3|]. auto.
      - exists (Some (w0 :: l)). apply validate_ok. rewrite map_length. split; [exact V1|]. split; [exact V2|]. split; [exact V3|].
        right. exists (w0 :: l). destruct (V4 _ eq_refl ltac:(discriminate)). repeat split; try assumption. discriminate.
      - exists None. apply validate_ok. rewrite map_length. split; [exact V1|]. split; [exact V2|]. split; [exact V3|]. auto. }
    destruct EP as [ws EP]. rewrite EP. cbn [bind]. rewrite (out_dtype_unique _ _ _ _ (dt_cases a ms) ED). unfold out_grid.
    destruct (proj2 (Profile_Proof.accepts (sa_driver a) (Z.of_nat (List.length idx), v_height (pan_to_pan ps), v_width (pan_to_pan ps)) dt (sa_compress a) (sa_write_mask a) (sa_options a)))
      as [[profile wm] EC]; [auto|]. rewrite EC. cbn [bind]. destruct (get_stats _) as [[means cov]|e]; eauto.
  - intros d r H. destruct (call_parts _ _ _ _ _ _ H) as [ps P]. destruct P as [i idx ws dt _ _ _ _ _ _ _ T].
    destruct (get_stats _) as [[means cov]|e] eqn:ES.
    + destruct T as [_ ->]. split; [|destruct (existsb _ _); auto]. destruct (existsb _ _) eqn:EE.
      * split; [discriminate|]. intros [_ F]. apply existsb_exists in EE. destruct EE as (x & Hx & E). rewrite (F x Hx) in E. discriminate E.
      * split; [|reflexivity]. intros _. split; [|exact (existsb_none _ _ EE)].
        intros win Hw. assert (E := stats_no_fail ps (sa_pan_index a) idx w (ex_intro _ _ ES)). rewrite map_map in E.
        assert (X := ext_in_map E win Hw). unfold stat_tile in X. destruct (sw_stat_fail w win); [discriminate X|reflexivity].
    + destruct T as [-> _]. assert (C := stats_err _ _ ES). subst e. split; [|auto]. split; [discriminate|]. intros [F _]. exfalso.
      apply stats_fail in ES. destruct ES as [e' FS].
      apply in_map_iff in FS. destruct FS as (win & E & Hwin). unfold stat_tile in E. rewrite (F win Hwin) in E. discriminate E.
Qed.

(** The order that tasks complete in makes no difference. *)
Lemma call_order pan ms a w w' :
  Permutation (sw_stat_order w) (sw_stat_order w') -> sw_stat_fail w = sw_stat_fail w' -> sw_block w = sw_block w' -> sw_fail w = sw_fail w' -> sw_empty w = sw_empty w' ->
  (forall e, run pan ms a w = Err e -> run pan ms a w' = Err e) /\
  (forall d r, run pan ms a w = Ok (d, r) -> 0 < fst (sw_block w (sd_profile d)) -> 0 < snd (sw_block w (sd_profile d)) ->
     let tiles := block_windows (sd_height d) (sd_width d) (sw_block w (sd_profile d)) in
     Permutation (sw_order w) tiles -> Permutation (sw_order w') tiles -> run pan ms a w' = Ok (d, r)).
Proof.
  intros P E1 E2 E3 E4. destruct w as [so sf sb o f em], w' as [so' sf' sb' o' f' em']. cbn in P, E1, E2, E3, E4. subst sf' sb' f' em'.
  unfold run, pan_sharpen. destruct (get_vrt_profiles tb _ _) as [ps|]; cbn [bind]; [|split; [auto|discriminate]].
  unfold sprocess. destruct (interp_of _) as [i|]; cbn [bind]; [|split; [auto|discriminate]].
  destruct (validate_params _ _ _ _ _) as [[idx ws]|]; cbn [bind]; [|split; [auto|discriminate]].
  unfold out_grid. destruct (create_profile _ _ _ _ _ _) as [[profile wm]|]; cbn [bind]; [|split; [auto|discriminate]].
  set (dt := match sa_dtype a with Some d => if String.eqb d "" then so_dtype ms else d | None => so_dtype ms end). clearbody dt.
  cbn [sw_stat_order sw_block sw_order sw_fail sw_empty].
  change (stat_tile warp_pan warp_ms ps (sa_pan_index a) idx (SWorld so' sf sb o' f em)) with (stat_tile warp_pan warp_ms ps (sa_pan_index a) idx (SWorld so sf sb o f em)).
  rewrite <- (get_stats_order _ _ (Permutation_map (stat_tile warp_pan warp_ms ps (sa_pan_index a) idx (SWorld so sf sb o f em)) P)).
  destruct (get_stats _) as [[means cov]|e]; (split; [discriminate|]); intros d r H; injection H as <- <-; cbn [sd_profile sd_height sd_width]; cbv zeta; intros Hh Hw P1 P2.
  - f_equal. f_equal. f_equal. apply sraster_ext.
    exact (tfold_order warp_pan warp_ms odd nan_int ps (sa_pan_index a) i idx (finite_params lstsq (List.length idx) means cov ws) (dtype_named dt) (fill_value profile) wm f
             _ _ _ o' o em Hh Hw P2 P1).
  - reflexivity.
Qed.
End Main.


(** The conversion over reals restricted to rationals is the conversion of arrays (C08). *)
Lemma convert_r_Q dst x : Dtype_Spec.holds F64 x -> convert_r dst (Q2R x) = Q2R (convert_elem F64 dst x).
Proof.
  intros H. unfold convert_r. destruct (is_floating dst) eqn:F.
  - now rewrite Dtype_Proof.convert_float.
  - apply Dtype_Proof.holds_iff in H. destruct (Dtype_Proof.convert_int F64 dst x H F) as (n & [N1 N2] & E). apply Qeq_eqR in E. rewrite E.
    assert (IQ : forall z, Q2R (inject_Z z) = IZR z) by (intros z; unfold Q2R; cbn; field).
    rewrite IQ. f_equal. f_equal. f_equal. apply (nearest_even_r_unique (Q2R x)); [apply round_r_nearest|].
    assert (HQ : Q2R (1 # 2) = (/ 2)%R) by (unfold Q2R; cbn; lra). split.
    + apply Dtype_Proof.Qabs_le_iff in N1. destruct N1 as [A B]. apply Qle_Rle in A, B. rewrite Q2R_opp, Q2R_minus, IQ, HQ in A. rewrite Q2R_minus, IQ, HQ in B.
      apply Rabs_le. lra.
    + intros EA. apply N2. apply eqR_Qeq. rewrite HQ, <- EA. destruct (Qlt_le_dec (x - inject_Z n) 0) as [L|L].
      * rewrite (Qeq_eqR _ _ (Qabs_neg _ (Qlt_le_weak _ _ L))). apply Qlt_Rlt in L. rewrite Q2R_opp, Q2R_minus, IQ in *. rewrite RMicromega.Q2R_0 in L. rewrite Rabs_left; lra.
      * rewrite (Qeq_eqR _ _ (Qabs_pos _ L)). apply Qle_Rle in L. rewrite Q2R_minus, IQ in *. rewrite RMicromega.Q2R_0 in L. rewrite Rabs_pos_eq; lra.
Qed.

(** * A concrete call: a pan image of 4 x 4 pixels of 1 unit and a multispectral image of 2 x 2 pixels of 2 units with one band; the pan is
    10 except at row 0, column 0 where it has no value. *)
Definition demo_pan : source := Source (Image (Some 1) (QAff 1 0 100 0 (-1) 200) 4 4) 1 "uint16" ["gray"].
Definition demo_ms : source := Source (Image (Some 1) (QAff 2 0 100 0 (-2) 200) 2 2) 2 "uint8" ["gray"; "alpha"].
Definition demo_warp_pan (v : vrt_profile) (i : interp) (b r c : Z) : fl :=
  match i with Average => Num (IZR (2 * (r + 2 * c))) | _ => if (r =? 0) && (c =? 0) then Nan else Num 10 end.
Definition demo_warp_ms (v : vrt_profile) (i : interp) (b r c : Z) : fl :=
  match i with Nearest => Num (IZR (r + 2 * c)) | _ => Num 7 end.
Definition demo_sargs : sargs := SArgs 1 None (Some [3%R]) "cubic" None None None None "gtiff".
Definition demo_sworld : sworld :=
  SWorld [Win 0 0 2 2] (fun _ => false) (fun _ => (3, 4)) [Win 0 3 4 1; Win 0 0 4 3] (fun _ => false) (SRas (fun _ _ _ => Nan) (fun _ _ => false)).
Definition demo_run := run same_crs demo_warp_pan demo_warp_ms (fun _ y => y) (fun _ _ => []) (fun _ => Nan).

Lemma demo_result : exists d, demo_run demo_pan demo_ms demo_sargs demo_sworld = Ok (d, Ok tt) /\
  sd_count d = 1 /\ sd_dtype d = "uint8" /\ sd_width d = 4 /\ sd_height d = 4 /\ sr_bands (sd_raster d) 1 0 0 = Num 0 /\ sr_bands (sd_raster d) 1 2 3 = Num 5.
Proof.
  unfold demo_run.
  assert (G : good_bands demo_pan demo_ms demo_sargs).
  { split; [cbn; lia|]. exists [1]. split; [|split].
    - split; [repeat constructor|]. cbn. intros z. split.
      + intros [<-|[]]. split; [lia|reflexivity].
      + intros [H1 H2]. destruct (Z.eq_dec z 1) as [->|D]; [now left|]. assert (z = 2) by lia. subst. discriminate H2.
    - repeat constructor; cbn; lia.
    - cbn. intros w E _. injection E as <-. split; [reflexivity|]. repeat constructor. lra. }
  destruct (call_creates same_crs demo_warp_pan demo_warp_ms (fun _ y => y) (fun _ _ => []) (fun _ => Nan) demo_pan demo_ms demo_sargs demo_sworld) as [[_ C1] C2].
  destruct C1 as (d & r & E).
  { split; [eexists; reflexivity|]. split; [exists Cubic; constructor|]. split; [exact G|]. split; [|left; reflexivity].
    exists "uint8". split; [right; cbn; auto|]. split; [now left|]. right. exact I. }
  destruct (C2 d r E) as [C3 _]. assert (ER : r = Ok tt) by (apply C3; split; reflexivity). subst r.
  destruct (call_parts _ _ _ _ _ _ _ _ _ _ _ _ E) as [ps P]. destruct P as [i idx ws dt EV EI EP ED EC (G1 & G2 & G3 & G4) (B1 & B2 & B3) _].
  assert (EPS := EV). vm_compute in EPS. injection EPS as EPS.
  assert (W : sd_width d = 4) by (rewrite G3, <- EPS; reflexivity). assert (Hh : sd_height d = 4) by (rewrite G4, <- EPS; reflexivity).
  assert (EI' : idx = [1]). { apply validate_ok in EP. destruct EP as (_ & U & _). destruct G as (_ & idx' & U' & _). clear - U. destruct U as [S1 U]. cbn in U.
    assert (H1 : In 1 idx) by (apply U; split; [lia|reflexivity]). assert (A : forall z, In z idx -> z = 1).
    { intros z Hz. apply U in Hz. destruct Hz as [Hz1 Hz2]. destruct (Z.eq_dec z 1); [assumption|]. assert (z = 2) by lia. subst. discriminate Hz2. }
    inversion S1 as [|x l S2 F EQ]; subst; [destruct H1|]. assert (x = 1) by (apply A; now left). subst x. destruct l as [|y l]; [reflexivity|].
    inversion F; subst. assert (y = 1) by (apply A; right; now left). lia. }
  assert (EDT : dt = "uint8"). { apply (out_dtype_unique demo_sargs demo_ms); [exact ED|]. right. cbn. auto. }
  exists d. split; [exact E|]. rewrite B1, B2, EI', EDT. split; [reflexivity|]. split; [reflexivity|]. split; [exact W|]. split; [exact Hh|].
  destruct (call_pixels same_crs demo_warp_pan demo_warp_ms (fun _ y => y) (fun _ _ => []) (fun _ => Nan) demo_pan demo_ms demo_sargs demo_sworld d (fun _ _ => eq_refl) E)
    as (ps' & i' & idx' & fill & EV' & IN & U' & FO & PX); [cbn; lia|cbn; lia| |].
  { rewrite W, Hh. cbn. apply perm_swap. }
  rewrite EV in EV'. injection EV' as <-. inversion IN. subst i'.
  assert (EI2 : idx' = idx). { apply validate_ok in EP. destruct EP as (_ & U & _). destruct U as [S1 U1], U' as [S2 U2]. cbn in U1, U2.
    clear - S1 S2 U1 U2 EI'. subst idx. assert (H1 : In 1 idx') by (apply U2; split; [lia|reflexivity]). assert (A : forall z, In z idx' -> z = 1).
    { intros z Hz. apply U2 in Hz. apply U1 in Hz. destruct Hz as [<-|[]]. reflexivity. }
    inversion S2 as [|x l S3 F EQ]; subst; [destruct H1|]. assert (x = 1) by (apply A; now left). subst x. destruct l as [|y l]; [reflexivity|].
    inversion F; subst. assert (y = 1) by (apply A; right; now left). lia. }
  subst idx' idx. cbv zeta in PX. rewrite B2, EDT in *. split.
  - destruct (PX 0 0) as [PX1 _]; [unfold in_im; lia|]. destruct PX1 as [PX1 _]; [left; reflexivity|]. specialize (PX1 0%nat ltac:(cbn; lia)). cbn in PX1. rewrite PX1.
    destruct FO as [| HF|HF|[HF|HF]]; try reflexivity; discriminate HF.
  - destruct (PX 2 3) as [_ PX2]; [unfold in_im; lia|]. destruct (PX2 10%R [7%R] eq_refl) as [_ PX3].
    set (vs := [[0; 0]; [4; 2]; [2; 1]; [6; 3]]%R).
    assert (CV : covar (band 1) (band 1) vs = (5 / 3)%R) by (unfold covar, avg, suml, band, vs; cbn; field).
    assert (CP : covar (band 0) (band 0) vs = (20 / 3)%R) by (unfold covar, avg, suml, band, vs; cbn; field).
    assert (AP : avg (band 0) vs = 3%R) by (unfold avg, suml, band, vs; cbn; field).
    assert (SM : forall v, sim_pan [3 / (3 + 0)]%R v = band 1 v) by (intros v; unfold sim_pan, band; destruct v as [|x [|y v]]; cbn; field).
    destruct (PX3 [(0, 0); (0, 1); (1, 0); (1, 1)] vs [3 / (3 + 0)]%R) with (b := 0%nat) as (y & EY & SY).
    + rewrite <- EPS. cbn. apply Permutation_refl.
    + rewrite <- EPS. cbn. split.
      * repeat constructor; cbn; intros X; repeat match type of X with _ \/ _ => destruct X as [X|X]; [discriminate X|] end; destruct X.
      * intros r c. unfold in_im. split.
        -- cbn. intros X. repeat match type of X with _ \/ _ => destruct X as [X|X]; [injection X as <- <-; lia|] end. destruct X.
        -- intros X. assert (HR : r = 0 \/ r = 1) by lia. assert (HC : c = 0 \/ c = 1) by lia. destruct HR as [->| ->], HC as [->| ->]; cbn; auto 6.
    + unfold vs, pair_at, demo_warp_pan, demo_warp_ms. cbn. repeat (apply (sel_valid _ [_])). constructor.
    + cbn. lia.
    + split; [intros k m Hk Hm; cbn in Hk, Hm; assert (k = 0%nat) by lia; assert (m = 0%nat) by lia; subst; reflexivity|]. intros u (k & Hk & Hu). assert (k = 0%nat) by (cbn in Hk; lia). subst k. cbn. rewrite CV.
      assert (0 < u 0%nat * u 0%nat)%R by (destruct (Rtotal_order (u 0%nat) 0) as [|[|]]; [nra|contradiction|nra]). nra.
    + rewrite CP. lra.
    + apply (WU_user (fun _ y => y) vs 1 [3%R]); [discriminate|cbn; lra].
    + cbn. lia.
    + cbn in EY. rewrite EY. f_equal.
      assert (SV : sharp [3 / (3 + 0)]%R vs 0 10 [7%R] = 5%R).
      { unfold sharp. assert (EXT : sim_pan [3 / (3 + 0)]%R = band 1) by (extensionality v; apply SM). rewrite EXT, CV, CP, AP.
        assert (AS : avg (band 1) vs = (3 / 2)%R) by (unfold avg, suml, band, vs; cbn; field). rewrite AS.
        assert (SQ : (sqrt (5 / 3) / sqrt (20 / 3) = / 2)%R).
        { replace (20 / 3)%R with (2 * 2 * (5 / 3))%R by field. rewrite sqrt_mult, sqrt_square by lra. field. apply Rgt_not_eq. apply sqrt_lt_R0. lra. }
        rewrite SQ. cbn. field. }
      rewrite SV in SY. destruct SY as [[[X|X] _]|(lo & hi & n & L & N & ->)]; [discriminate X|discriminate X|].
      assert (n = 5) by (apply (nearest_even_r_unique 5); [exact N|]; split; rewrite Rminus_diag_eq, Rabs_R0 by reflexivity; lra).
      subst n. inversion L; subst. reflexivity.
Qed.
