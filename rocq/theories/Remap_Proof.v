From Coq Require Import List ZArith QArith Reals Bool Permutation Lia Lra.
From Verif Require Import Py Py_Proof Flt Grid_Model Grid_Spec Grid_Proof Remap_Model Remap_Spec.
Import ListNotations.
Open Scope Z_scope.

Lemma nan_equals_spec : forall v nodata, nan_equals v nodata = true <-> is_nodata nodata v.
Proof.
  intros [|x] [|y]; cbn; try (split; [discriminate|tauto]); [tauto|]. apply Qeq_bool_iff.
Qed.

Lemma dilates_spec : forall cfg nodata, dilates cfg nodata = true <-> dilation_applies cfg nodata.
Proof.
  intros [d n p] nd. unfold dilates, dilation_applies. cbn. rewrite !andb_true_iff, !negb_true_iff.
  destruct nd; cbn; intuition congruence.
Qed.

Lemma dilates_false : forall cfg nodata, dilates cfg nodata = false <-> ~ dilation_applies cfg nodata.
Proof. intros. rewrite <- dilates_spec. destruct (dilates cfg nodata); intuition congruence. Qed.

Lemma in_winb_spec : forall w r c, in_winb w r c = true <-> in_win w r c.
Proof.
  intros. unfold in_winb, in_win. rewrite !andb_true_iff, !Z.leb_le, !Z.ltb_lt. tauto.
Qed.

(** * Grid arithmetic (C04) *)

Lemma tile_grid_at : forall job bw w,
  0 <= height w <= height bw -> 0 <= width w <= width bw ->
  forall (sel : R * R -> R) (toff : affine -> R),
  (sel = fst /\ toff = tc) \/ (sel = snd /\ toff = tf) ->
  let g := amap (fadd (Num (toff (win_transform w (o_transform job)) - toff (o_transform job))%R))
                (aslice (init_grid job bw sel) 0 (height w) 0 (width w)) in
  ah g = height w /\ aw g = width w /\
  forall r c, aget g r c = Num (sel (pixel_centre (o_transform job) (r + row_off w) (c + col_off w))).
Proof.
  intros job bw w Hh Hw sel toff Hs g. subst g. cbn.
  split; [lia|]. split; [lia|]. intros r c.
  unfold fadd, flift2. f_equal.
  destruct Hs as [[-> ->]|[-> ->]]; cbn; rewrite !Z.add_0_r, !plus_IZR; field.
Qed.

(** * Camera.remap without dilation *)

Definition remap_value (w2p : fl * fl * fl -> fl * fl) (sample : arr pix -> R -> R -> option pix)
    (nodata : pix) (im : arr pix) (p : fl * fl * fl) : pix :=
  let (j, i) := w2p p in
  match sample im (nan_to_m1 j) (nan_to_m1 i) with Some v => v | None => nodata end.

Lemma camera_remap_ok : forall w2p sample ims x y z nodata,
  ah x = ah y -> ah y = ah z -> aw x = aw y -> aw y = aw z ->
  exists arrs mask, camera_remap w2p sample ims x y z nodata = Ok (arrs, mask) /\
    ah mask = ah x /\ aw mask = aw x /\
    Forall2 (fun im a => ah a = ah x /\ aw a = aw x /\
       forall r c, aget a r c = remap_value w2p sample nodata im (aget x r c, aget y r c, aget z r c)) ims arrs /\
    (forall r c, aget mask r c = forallb (fun b => nan_equals (aget b r c) nodata) arrs).
Proof.
  intros w2p sample ims x y z nodata H1 H2 H3 H4. unfold camera_remap.
  rewrite H1, H2, H3, H4, !Z.eqb_refl. cbn [andb negb].
  eexists. eexists. split; [reflexivity|]. cbn.
  split; [reflexivity|]. split; [reflexivity|]. split.
  - induction ims as [|im ims IH]; cbn; constructor.
    + cbn. split; [reflexivity|]. split; [reflexivity|]. intros r c. unfold remap_value.
      destruct (w2p _) as [j i]. reflexivity.
    + apply IH.
  - reflexivity.
Qed.

(** * Writing tiles *)

Lemma write_bands_outside : forall tile idx w b bi r c,
  (~ In bi idx \/ in_winb w r c = false) -> write_bands tile idx w b bi r c = b bi r c.
Proof.
  induction tile as [|t tile IH]; intros idx w b bi r c H; [reflexivity|].
  destruct idx as [|i idx]; [reflexivity|]. cbn. rewrite IH.
  - destruct H as [H|H].
    + destruct (Z.eqb_spec bi i); [subst; exfalso; apply H; left; reflexivity|reflexivity].
    + rewrite H, andb_false_r. reflexivity.
  - destruct H as [H|H]; [left; intros ?; apply H; right; assumption|right; assumption].
Qed.

Lemma in_win_dec : forall w r c, in_win w r c \/ ~ in_win w r c.
Proof.
  intros. destruct (in_winb w r c) eqn:E.
  - left. apply in_winb_spec. assumption.
  - right. rewrite <- in_winb_spec. congruence.
Qed.

(** Folding updates that touch one observation only when [P] holds, over a list with exactly one such
    element: the observation is that element's. *)
Section FoldOne.
  Context {St E A : Type} (step : St -> E -> St) (get : St -> A) (P : E -> Prop) (val : E -> A -> A).
  Variable all : list E.
  Hypothesis Pdec : forall e, P e \/ ~ P e.
  Hypothesis Hin : forall s e, In e all -> P e -> get (step s e) = val e (get s).
  Hypothesis Hout : forall s e, In e all -> ~ P e -> get (step s e) = get s.

  Lemma fold_none : forall es s, incl es all -> (forall e, In e es -> ~ P e) ->
    get (fold_left step es s) = get s.
  Proof.
    induction es as [|e es IH]; intros s Ha H; cbn; [reflexivity|].
    rewrite IH; [|intros e' He'; apply Ha; right; assumption|intros e' He'; apply H; right; assumption].
    apply Hout; [apply Ha|apply H]; left; reflexivity.
  Qed.

  Lemma fold_unique : forall es s e0, NoDup es -> incl es all -> In e0 es -> P e0 ->
    (forall e, In e es -> P e -> e = e0) -> get (fold_left step es s) = val e0 (get s).
  Proof.
    induction es as [|e es IH]; intros s e0 Hn Ha Hi Hw Hu; [destruct Hi|]. inversion Hn; subst. cbn.
    assert (Hwa : In e all) by (apply Ha; left; reflexivity).
    assert (Ha' : incl es all) by (intros e' He'; apply Ha; right; assumption).
    destruct (Pdec e) as [Hc|Hc].
    - assert (e = e0) as -> by (apply Hu; [left; reflexivity|assumption]).
      rewrite fold_none; [apply Hin; assumption|assumption|].
      intros e' He' Hp. assert (e' = e0) as -> by (apply Hu; [right; assumption|assumption]). contradiction.
    - rewrite <- (Hout s e) by assumption. apply IH; try assumption.
      + destruct Hi as [->|Hi]; [contradiction|assumption].
      + intros e' He' Hp. apply Hu; [right; assumption|assumption].
  Qed.
End FoldOne.

(** The array of band [b] in a group. *)
Fixpoint band_of (b : Z) (idx : list Z) (arrs : list (arr pix)) : option (arr pix) :=
  match idx, arrs with
  | i :: idx', a :: arrs' => if b =? i then Some a else band_of b idx' arrs'
  | _, _ => None
  end.

Lemma write_bands_at : forall arrs idx w b bi r c,
  NoDup idx -> List.length arrs = List.length idx -> In bi idx -> in_winb w r c = true ->
  exists a, band_of bi idx arrs = Some a /\
    write_bands arrs idx w b bi r c = aget a (r - row_off w) (c - col_off w).
Proof.
  induction arrs as [|t arrs IH]; intros idx w b bi r c Hn Hl Hin Hw.
  - destruct idx; [destruct Hin|discriminate].
  - destruct idx as [|i idx]; [discriminate|]. inversion Hn; subst. cbn [write_bands band_of].
    destruct (Z.eqb_spec bi i) as [->|Hne].
    + exists t. split; [reflexivity|].
      rewrite write_bands_outside by (left; assumption). rewrite Z.eqb_refl, Hw. reflexivity.
    + destruct Hin as [->|Hin]; [contradiction|].
      apply IH; try assumption. cbn in Hl. lia.
Qed.

Lemma band_of_Forall2 : forall (Q : Z -> arr pix -> Prop) idx arrs b a,
  Forall2 Q idx arrs -> band_of b idx arrs = Some a -> Q b a.
Proof.
  intros Q idx arrs b a H. induction H as [|i x idx arrs Hq H IH]; cbn; [discriminate|].
  destruct (Z.eqb_spec b i) as [->|]; [intros E; inversion E; subst; assumption|assumption].
Qed.

(** * One tile task *)

(** Blurred, for the kernel of the program. *)
Definition blurred_k (job : ortho_job) : window -> (Z -> Prop) -> Z -> Z -> Prop :=
  blurred job (fst (kernel_size (o_gsd job) (o_transform job))) (snd (kernel_size (o_gsd job) (o_transform job))).

Section Job.
Variable job : ortho_job.
Hypothesis Hwf : well_formed job.

Let wins := block_windows (o_height job) (o_width job) (o_block job).

Lemma wins_pair : wins = block_windows (o_height job) (o_width job) (fst (o_block job), snd (o_block job)).
Proof. unfold wins. destruct (o_block job). reflexivity. Qed.

Lemma first_block : exists bw rest, wins = bw :: rest /\
  forall w, In w wins -> width w <= width bw /\ height w <= height bw.
Proof.
  destruct Hwf as (H1 & H2 & H3 & H4 & H5 & _). rewrite wins_pair.
  destruct (block_windows_first _ _ _ _ H4 H5 H1 H2) as (w & ws & E & _ & _ & Hl).
  exists w, ws. split; assumption.
Qed.

Variable bw : window.
Hypothesis Hbw : forall w, In w wins -> width w <= width bw /\ height w <= height bw.

Let ix := init_grid job bw fst.
Let iy := init_grid job bw snd.

(** The arrays and mask a successful tile task computes. *)
Definition tile_arrays (idx : list Z) (w : window) : res (list (arr pix) * arr bool) :=
  let t := o_transform job in
  let tt' := win_transform w t in
  frame_remap (o_w2p job) (o_sample job) (o_cfg job) (map (o_src job) idx)
    (amap (fadd (Num (tc tt' - tc t)%R)) (aslice ix 0 (height w) 0 (width w)))
    (amap (fadd (Num (tf tt' - tf t)%R)) (aslice iy 0 (height w) 0 (width w)))
    (aslice (o_dem job) (row_off w) (row_off w + height w) (col_off w) (col_off w + width w))
    (o_nodata job) (kernel_size (o_gsd job) tt').

Lemma tile_undilated : forall idx w, In w wins ->
  exists arrs mask,
    camera_remap (o_w2p job) (o_sample job) (map (o_src job) idx)
      (amap (fadd (Num (tc (win_transform w (o_transform job)) - tc (o_transform job))%R)) (aslice ix 0 (height w) 0 (width w)))
      (amap (fadd (Num (tf (win_transform w (o_transform job)) - tf (o_transform job))%R)) (aslice iy 0 (height w) 0 (width w)))
      (aslice (o_dem job) (row_off w) (row_off w + height w) (col_off w) (col_off w + width w))
      (o_nodata job) = Ok (arrs, mask) /\
    ah mask = height w /\ aw mask = width w /\
    Forall2 (fun b a => ah a = height w /\ aw a = width w /\
               forall r c, aget a r c = ortho_value job b (r + row_off w) (c + col_off w)) idx arrs /\
    (forall r c, aget mask r c =
       forallb (fun b => nan_equals (ortho_value job b (r + row_off w) (c + col_off w)) (o_nodata job)) idx).
Proof.
  intros idx w Hw.
  destruct Hwf as (H1 & H2 & H3 & H4 & H5 & H6 & H7).
  assert (Hb : 0 < width w <= snd (o_block job) /\ 0 < height w <= fst (o_block job) /\ 0 <= col_off w /\
               col_off w + width w <= o_width job /\ 0 <= row_off w /\ row_off w + height w <= o_height job).
  { rewrite wins_pair in Hw. exact (block_windows_bounds _ _ _ _ H4 H5 w Hw). }
  destruct Hb as (B1 & B2 & B3 & B4 & B5 & B6). destruct (Hbw w Hw) as [L1 L2].
  destruct (tile_grid_at job bw w ltac:(lia) ltac:(lia) fst tc (or_introl (conj eq_refl eq_refl))) as (X1 & X2 & X3).
  destruct (tile_grid_at job bw w ltac:(lia) ltac:(lia) snd tf (or_intror (conj eq_refl eq_refl))) as (Y1 & Y2 & Y3).
  fold ix in X1, X2, X3. fold iy in Y1, Y2, Y3.
  set (x := amap (fadd (Num (tc _ - _)%R)) _) in *. set (y := amap (fadd (Num (tf _ - _)%R)) _) in *.
  set (z := aslice (o_dem job) _ _ _ _) in *.
  assert (Z1 : ah z = height w) by (subst z; cbn; lia).
  assert (Z2 : aw z = width w) by (subst z; cbn; lia).
  assert (Z3 : forall r c, aget z r c = aget (o_dem job) (r + row_off w) (c + col_off w)) by reflexivity.
  destruct (camera_remap_ok (o_w2p job) (o_sample job) (map (o_src job) idx) x y z (o_nodata job)
              ltac:(congruence) ltac:(congruence) ltac:(congruence) ltac:(congruence))
    as (arrs & mask & E & M1 & M2 & F & MM).
  exists arrs, mask. split; [exact E|]. split; [congruence|]. split; [congruence|].
  assert (F' : Forall2 (fun b a => ah a = height w /\ aw a = width w /\
               forall r c, aget a r c = ortho_value job b (r + row_off w) (c + col_off w)) idx arrs).
  { clear E M1 M2 MM mask. revert arrs F. induction idx as [|b idx IH]; intros arrs F; inversion F; subst; constructor.
    - match goal with H : _ /\ _ /\ (forall r c, _) |- _ => destruct H as (P1 & P2 & P3) end. split; [congruence|]. split; [congruence|]. intros r c.
      rewrite P3, X3, Y3, Z3. unfold ortho_value, remap_value, source_value.
      destruct (pixel_centre (o_transform job) (r + row_off w) (c + col_off w)) as [px py]. cbn [fst snd]. reflexivity.
    - apply IH. assumption. }
  split; [exact F'|]. intros r c. rewrite MM. clear - F'. induction F' as [|b a idx arrs (_ & _ & P) F IH]; [reflexivity|].
  cbn. rewrite P, IH. reflexivity.
Qed.

Lemma tile_ok : forall idx w, In w wins ->
  exists arrs mask, tile_arrays idx w = Ok (arrs, mask) /\ List.length arrs = List.length idx /\
    (dilates (o_cfg job) (o_nodata job) = false ->
     Forall2 (fun b a => forall r c, aget a r c = ortho_value job b (r + row_off w) (c + col_off w)) idx arrs /\
     (forall r c, aget mask r c =
        forallb (fun b => nan_equals (ortho_value job b (r + row_off w) (c + col_off w)) (o_nodata job)) idx)).
Proof.
  intros idx w Hw. destruct (tile_undilated idx w Hw) as (arrs & mask & E & M1 & M2 & F & MM).
  unfold tile_arrays. unfold frame_remap. rewrite E. cbn [bind].
  pose proof (Forall2_length _ _ _ _ _ F) as HL.
  destruct (dilates (o_cfg job) (o_nodata job)) eqn:D.
  - eexists. eexists. split; [reflexivity|]. split; [rewrite map_length; congruence|]. discriminate.
  - exists arrs, mask. split; [reflexivity|]. split; [congruence|]. intros _. split; [|assumption].
    clear - F. induction F as [|b a idx arrs (_ & _ & P) F IH]; constructor; assumption.
Qed.

Lemma remap_tile_ok : forall idx w, In w wins -> o_fail job idx w = false ->
  exists upd, remap_tile job ix iy idx w = Ok upd.
Proof.
  intros idx w Hw Hf. destruct (tile_ok idx w Hw) as (arrs & mask & E & _).
  unfold remap_tile. rewrite Hf. unfold tile_arrays in E. cbn zeta in E.
  match goal with |- exists u, bind ?m _ = _ => change m with (tile_arrays idx w) end.
  unfold tile_arrays. rewrite E. cbn [bind]. eexists. reflexivity.
Qed.

Definition writes_mask (idx : list Z) : bool :=
  o_write_mask job && ((match idx with [i] => i =? 1 | _ => false end)
                       || (Z.of_nat (List.length idx) =? o_count job)).

(** Value given to band [b] at (r, c) by tile [w] of group [idx]. *)
Definition tile_value (idx : list Z) (w : window) (b r c : Z) : pix :=
  match tile_arrays idx w with
  | Ok (arrs, _) => match band_of b idx arrs with
                    | Some a => aget a (r - row_off w) (c - col_off w)
                    | None => o_nodata job end
  | Err _ => o_nodata job
  end.

Definition tile_valid (idx : list Z) (w : window) (r c : Z) : bool :=
  match tile_arrays idx w with
  | Ok (_, mask) => negb (aget mask (r - row_off w) (c - col_off w))
  | Err _ => false
  end.

Definition step (idx : list Z) (ras : raster) (w : window) : raster :=
  run_task ras (remap_tile job ix iy idx w).

Lemma remap_tile_form : forall idx w, In w wins ->
  exists arrs mask, tile_arrays idx w = Ok (arrs, mask) /\ List.length arrs = List.length idx /\
  remap_tile job ix iy idx w =
    if o_fail job idx w then Err ExternalError else
    Ok (fun ras => let ras := Ras (write_bands arrs idx w (bands ras)) (dmask ras) in
          if writes_mask idx then Ras (bands ras) (write_dmask (amap negb mask) w (dmask ras)) else ras).
Proof.
  intros idx w Hw. destruct (tile_ok idx w Hw) as (arrs & mask & E & HL & _).
  exists arrs, mask. split; [exact E|]. split; [exact HL|].
  unfold remap_tile. destruct (o_fail job idx w); [reflexivity|].
  match goal with |- bind ?m _ = _ => change m with (tile_arrays idx w) end. rewrite E. reflexivity.
Qed.

Lemma step_bands : forall idx b r c, NoDup idx -> In b idx -> forall s w, In w wins -> in_win w r c ->
  bands (step idx s w) b r c = if o_fail job idx w then bands s b r c else tile_value idx w b r c.
Proof.
  intros idx b r c Hn Hb s w Hw Hin. destruct (remap_tile_form idx w Hw) as (arrs & mask & E & HL & ER).
  unfold step, tile_value. rewrite ER, E. destruct (o_fail job idx w); [reflexivity|]. cbn [run_task].
  apply in_winb_spec in Hin.
  destruct (write_bands_at arrs idx w (bands s) b r c Hn HL Hb Hin) as (a & A & B). rewrite A, <- B.
  destruct (writes_mask idx); reflexivity.
Qed.

Lemma step_bands_out : forall idx b r c s w, In w wins -> (~ In b idx \/ ~ in_win w r c) ->
  bands (step idx s w) b r c = bands s b r c.
Proof.
  intros idx b r c s w Hw Ho. destruct (remap_tile_form idx w Hw) as (arrs & mask & E & HL & ER).
  unfold step. rewrite ER. destruct (o_fail job idx w); [reflexivity|]. cbn [run_task].
  assert (Ho' : ~ In b idx \/ in_winb w r c = false).
  { destruct Ho as [Ho|Ho]; [left; assumption|right]. rewrite <- in_winb_spec in Ho. destruct (in_winb w r c); congruence. }
  rewrite <- (write_bands_outside arrs idx w (bands s) b r c Ho'). destruct (writes_mask idx); reflexivity.
Qed.

Lemma step_dmask : forall idx r c, writes_mask idx = true -> forall s w, In w wins -> in_win w r c ->
  dmask (step idx s w) r c = if o_fail job idx w then dmask s r c else tile_valid idx w r c.
Proof.
  intros idx r c Hm s w Hw Hin. destruct (remap_tile_form idx w Hw) as (arrs & mask & E & HL & ER).
  unfold step, tile_valid. rewrite ER, E. destruct (o_fail job idx w); [reflexivity|]. cbn [run_task].
  rewrite Hm. cbn. unfold write_dmask. apply in_winb_spec in Hin. rewrite Hin. reflexivity.
Qed.

Lemma step_dmask_out : forall idx r c s w, In w wins -> (writes_mask idx = false \/ ~ in_win w r c) ->
  dmask (step idx s w) r c = dmask s r c.
Proof.
  intros idx r c s w Hw Ho. destruct (remap_tile_form idx w Hw) as (arrs & mask & E & HL & ER).
  unfold step. rewrite ER. destruct (o_fail job idx w); [reflexivity|]. cbn [run_task].
  destruct (writes_mask idx) eqn:EM; [|reflexivity]. cbn. unfold write_dmask.
  destruct Ho as [Ho|Ho]; [discriminate|]. rewrite <- in_winb_spec in Ho. destruct (in_winb w r c); congruence.
Qed.

(** * One band group under any schedule *)

Lemma wins_cover : forall r c, in_im (o_height job) (o_width job) r c ->
  exists w, In w wins /\ in_win w r c /\ forall w', In w' wins -> in_win w' r c -> w' = w.
Proof.
  destruct Hwf as (H1 & H2 & H3 & H4 & H5 & _). rewrite wins_pair. apply block_windows_cover; assumption.
Qed.

Lemma wins_NoDup : NoDup wins.
Proof. destruct Hwf as (H1 & H2 & H3 & H4 & H5 & _). rewrite wins_pair. apply block_windows_NoDup; assumption. Qed.

Lemma group_bands : forall idx ws s r c w0, NoDup idx -> Permutation ws wins ->
  In w0 wins -> in_win w0 r c -> (forall w', In w' wins -> in_win w' r c -> w' = w0) ->
  forall b,
  bands (fold_left (step idx) ws s) b r c =
    (if in_dec Z.eq_dec b idx
     then if o_fail job idx w0 then bands s b r c else tile_value idx w0 b r c
     else bands s b r c) /\
  dmask (fold_left (step idx) ws s) r c =
    (if writes_mask idx
     then if o_fail job idx w0 then dmask s r c else tile_valid idx w0 r c
     else dmask s r c).
Proof.
  intros idx ws s r c w0 Hn Hp Hi Hw Hu b.
  assert (Hws : NoDup ws) by (eapply Permutation_NoDup; [apply Permutation_sym; exact Hp|apply wins_NoDup]).
  assert (Hinc : incl ws wins) by (intros w Hw'; eapply Permutation_in; eassumption).
  assert (Hi' : In w0 ws) by (eapply Permutation_in; [apply Permutation_sym; exact Hp|exact Hi]).
  split.
  - destruct (in_dec Z.eq_dec b idx) as [Hb|Hb].
    + apply (fold_unique (step idx) (fun s => bands s b r c) (fun w => in_win w r c)
               (fun w v => if o_fail job idx w then v else tile_value idx w b r c) wins); try assumption.
      * intros w. apply in_win_dec.
      * intros. apply step_bands; assumption.
      * intros. apply step_bands_out; [assumption|right; assumption].
      * intros w Hw' Hc. apply Hu; [apply Hinc|]; assumption.
    + apply (fold_none (step idx) (fun s => bands s b r c) (fun w => False) wins); try assumption; [|tauto].
      intros. apply step_bands_out; [assumption|left; assumption].
  - destruct (writes_mask idx) eqn:EM.
    + apply (fold_unique (step idx) (fun s => dmask s r c) (fun w => in_win w r c)
               (fun w v => if o_fail job idx w then v else tile_valid idx w r c) wins); try assumption.
      * intros w. apply in_win_dec.
      * intros. apply step_dmask; assumption.
      * intros. apply step_dmask_out; [assumption|right; assumption].
      * intros w Hw' Hc. apply Hu; [apply Hinc|]; assumption.
    + apply (fold_none (step idx) (fun s => dmask s r c) (fun w => False) wins); try assumption; [|tauto].
      intros. apply step_dmask_out; [assumption|left; assumption].
Qed.

Definition agree (a b : raster) : Prop :=
  forall r c, in_im (o_height job) (o_width job) r c ->
    (forall i, bands a i r c = bands b i r c) /\ dmask a r c = dmask b r c.

Lemma group_agree : forall idx ws ws' s s', NoDup idx -> Permutation ws wins -> Permutation ws' wins ->
  agree s s' -> agree (fold_left (step idx) ws s) (fold_left (step idx) ws' s').
Proof.
  intros idx ws ws' s s' Hn Hp Hp' Ha r c Hin. destruct (wins_cover r c Hin) as (w0 & Hi & Hw & Hu).
  destruct (Ha r c Hin) as [A B].
  split; [intros i|].
  - destruct (group_bands idx ws s r c w0 Hn Hp Hi Hw Hu i) as [-> _].
    destruct (group_bands idx ws' s' r c w0 Hn Hp' Hi Hw Hu i) as [-> _]. rewrite A. reflexivity.
  - destruct (group_bands idx ws s r c w0 Hn Hp Hi Hw Hu 0) as [_ ->].
    destruct (group_bands idx ws' s' r c w0 Hn Hp' Hi Hw Hu 0) as [_ ->]. rewrite B. reflexivity.
Qed.

Lemma undilated_tile : dilates (o_cfg job) (o_nodata job) = false ->
  forall idx w b r c, In w wins -> NoDup idx ->
  (In b idx -> tile_value idx w b r c = ortho_value job b r c) /\
  tile_valid idx w r c = negb (forallb (fun b => nan_equals (ortho_value job b r c) (o_nodata job)) idx).
Proof.
  intros D idx w b r c Hw Hn. destruct (tile_ok idx w Hw) as (arrs & mask & E & HL & F).
  destruct (F D) as [F1 F2]. unfold tile_value, tile_valid. rewrite E. split.
  - intros Hb. destruct (band_of b idx arrs) as [a|] eqn:EB.
    + rewrite (band_of_Forall2 _ idx arrs b a F1 EB). f_equal; lia.
    + exfalso. clear - EB HL Hb. revert arrs HL EB. induction idx as [|i idx IH]; intros arrs HL EB; [destruct Hb|].
      destruct arrs as [|a arrs]; [discriminate|]. cbn in EB. destruct (Z.eqb_spec b i) as [->|Hne]; [discriminate|].
      destruct Hb as [->|Hb]; [contradiction|]. eapply IH; [assumption| |exact EB]. cbn in HL; lia.
  - rewrite F2. replace (r - row_off w + row_off w) with r by lia. replace (c - col_off w + col_off w) with c by lia.
    reflexivity.
Qed.

(** * All groups *)

Definition gstep (order : list Z -> list window) (st : raster * res unit) (idx : list Z) : raster * res unit :=
  match snd st with
  | Err _ => st
  | Ok _ => (fold_left (step idx) (order idx) (fst st), await_tiles (map (remap_tile job ix iy idx) wins))
  end.

Lemma await_ok : forall idx ws, incl ws wins ->
  await_tiles (map (remap_tile job ix iy idx) ws) =
    if forallb (fun w => negb (o_fail job idx w)) ws then Ok tt else Err RuntimeError.
Proof.
  intros idx ws. induction ws as [|w ws IH]; intros Hi; [reflexivity|].
  destruct (remap_tile_form idx w (Hi w (or_introl eq_refl))) as (arrs & mask & _ & _ & ER).
  cbn. rewrite ER. destruct (o_fail job idx w); [reflexivity|]. cbn.
  apply IH. intros x Hx. apply Hi. right; assumption.
Qed.

Definition group_ok (idx : list Z) : bool := forallb (fun w => negb (o_fail job idx w)) wins.

Lemma gstep_result : forall order gs s,
  snd (fold_left (gstep order) gs (s, Ok tt)) = if forallb group_ok gs then Ok tt else Err RuntimeError.
Proof.
  intros order gs. induction gs as [|g gs IH]; intros s; [reflexivity|]. cbn [fold_left].
  unfold gstep at 2. cbn [fst snd forallb]. rewrite await_ok by (intros x Hx; exact Hx).
  change (forallb (fun w : window => negb (o_fail job g w)) wins) with (group_ok g).
  destruct (group_ok g); [apply IH|]. cbn [andb].
  clear IH. generalize (fold_left (step g) (order g) s). induction gs as [|g' gs IH]; intros s'; [reflexivity|].
  cbn. apply IH.
Qed.

Lemma gstep_agree : forall order order', (forall g, Permutation (order g) wins) -> (forall g, Permutation (order' g) wins) ->
  forall gs st st', Forall (@NoDup Z) gs -> snd st = snd st' -> agree (fst st) (fst st') ->
  agree (fst (fold_left (gstep order) gs st)) (fst (fold_left (gstep order') gs st')).
Proof.
  intros order order' Ho Ho' gs. induction gs as [|g gs IH]; intros st st' Hn E Ha; [exact Ha|].
  inversion Hn; subst. cbn [fold_left]. apply IH; [assumption| |].
  - unfold gstep. rewrite <- E. destruct (snd st) eqn:Es; [reflexivity|]. rewrite <- E. exact Es.
  - unfold gstep. rewrite <- E. destruct (snd st); [|assumption]. cbn [fst]. apply group_agree; auto.
Qed.

(** When nothing fails all groups run. *)
Lemma gstep_all : forall order gs s, forallb group_ok gs = true ->
  fold_left (gstep order) gs (s, Ok tt) =
  (fold_left (fun s g => fold_left (step g) (order g) s) gs s, Ok tt).
Proof.
  intros order gs. induction gs as [|g gs IH]; intros s H; [reflexivity|]. cbn in H. apply andb_true_iff in H.
  destruct H as [Hg Hgs]. cbn [fold_left]. rewrite <- IH by assumption. f_equal.
  unfold gstep. cbn [fst snd]. rewrite await_ok by (intros x Hx; exact Hx).
  change (forallb (fun w : window => negb (o_fail job g w)) wins) with (group_ok g). rewrite Hg. reflexivity.
Qed.


(** * Dilation *)

Lemma existsb_range : forall n f, existsb f (py_range 0 n 1) = true <-> exists k, 0 <= k < n /\ f k = true.
Proof.
  intros n f. rewrite existsb_exists. split.
  - intros (k & Hk & Hf). apply py_range_In in Hk; [|lia]. exists k. split; [lia|assumption].
  - intros (k & Hk & Hf). exists k. split; [|assumption]. apply py_range_In; [lia|]. split; [lia|]. exists k. lia.
Qed.

Lemma dilate_spec : forall kw kh m r c, aget (dilate kw kh m) r c = true <->
  exists r' c', 0 <= r' < ah m /\ 0 <= c' < aw m /\ under_kernel kw kh r c r' c' /\ aget m r' c' = true.
Proof.
  intros kw kh m r c. cbn. rewrite existsb_range. unfold under_kernel. split.
  - intros (dy & Hy & E). apply existsb_range in E. destruct E as (dx & Hx & E).
    rewrite !andb_true_iff, !Z.leb_le, !Z.ltb_lt in E.
    exists (r + dy - kh / 2), (c + dx - kw / 2). repeat split; try lia. tauto.
  - intros (r' & c' & Hr & Hc & Hk & E). exists (r' - r + kh / 2). split; [lia|].
    apply existsb_range. exists (c' - c + kw / 2). split; [lia|].
    replace (r + (r' - r + kh / 2) - kh / 2) with r' by lia.
    replace (c + (c' - c + kw / 2) - kw / 2) with c' by lia.
    rewrite !andb_true_iff, !Z.leb_le, !Z.ltb_lt. repeat split; try lia; assumption.
Qed.

Lemma kernel_ge3 : forall gsd t, 3 <= fst (kernel_size gsd t) /\ 3 <= snd (kernel_size gsd t).
Proof. intros. unfold kernel_size. cbn. lia. Qed.

Lemma under_kernel_refl : forall kw kh r c, 1 <= kw -> 1 <= kh -> under_kernel kw kh r c r c.
Proof.
  intros. unfold under_kernel. pose proof (Z.div_lt kw 2). pose proof (Z.div_lt kh 2).
  pose proof (Z.div_pos kw 2). pose proof (Z.div_pos kh 2). lia.
Qed.

Lemma win_kernel : forall w, kernel_size (o_gsd job) (win_transform w (o_transform job))
                            = kernel_size (o_gsd job) (o_transform job).
Proof. intros w. unfold win_transform. destruct (aff_apply _ _ _). reflexivity. Qed.

Lemma dilated_tile : dilates (o_cfg job) (o_nodata job) = true ->
  forall idx w b r c, In w wins -> in_win w r c -> NoDup idx -> In b idx ->
  (blurred_k job w (fun b => In b idx) r c -> tile_value idx w b r c = o_nodata job /\ tile_valid idx w r c = false) /\
  (~ blurred_k job w (fun b => In b idx) r c ->
     tile_value idx w b r c = ortho_value job b r c /\ tile_valid idx w r c = true).
Proof.
  intros D idx w b r c Hw Hin Hn Hb.
  destruct (tile_undilated idx w Hw) as (arrs & mask & E & M1 & M2 & F & MM).
  unfold tile_value, tile_valid, tile_arrays, frame_remap. cbn zeta. rewrite E. cbn [bind]. rewrite D, win_kernel.
  set (k := kernel_size _ _). set (m' := dilate _ _ _).
  assert (HB : aget m' (r - row_off w) (c - col_off w) = true <-> blurred_k job w (fun b => In b idx) r c).
  { unfold m'. rewrite dilate_spec. unfold blurred_k, blurred. fold k. rewrite M1, M2. unfold in_win. split.
    - intros (r' & c' & Hr & Hc & Hk & Hm). exists (r' + row_off w), (c' + col_off w).
      split; [lia|]. split; [unfold under_kernel in *; lia|]. rewrite MM, forallb_forall in Hm.
      intros b' Hb'. apply nan_equals_spec. apply Hm. assumption.
    - intros (r' & c' & Hi & Hk & Hm). exists (r' - row_off w), (c' - col_off w).
      split; [lia|]. split; [lia|]. split; [unfold under_kernel in *; lia|]. rewrite MM, forallb_forall.
      intros b' Hb'. apply nan_equals_spec. replace (r' - row_off w + row_off w) with r' by lia.
      replace (c' - col_off w + col_off w) with c' by lia. apply Hm. assumption. }
  assert (HV : match band_of b idx (map (fun b0 : arr pix => Arr (ah b0) (aw b0)
              (fun r0 c0 => if aget m' r0 c0 then o_nodata job else aget b0 r0 c0)) arrs) with
            | Some a => aget a (r - row_off w) (c - col_off w) | None => o_nodata job end
          = if aget m' (r - row_off w) (c - col_off w) then o_nodata job else ortho_value job b r c).
  { clear - F Hb. induction F as [|i a idx arrs (_ & _ & P) F IH]; [destruct Hb|]. cbn.
    destruct (Z.eqb_spec b i) as [->|Hne].
    - cbn. rewrite P. replace (r - row_off w + row_off w) with r by lia.
      replace (c - col_off w + col_off w) with c by lia. reflexivity.
    - destruct Hb as [->|Hb]; [contradiction|]. apply IH. assumption. }
  rewrite HV. split; intros H.
  - apply HB in H. rewrite H. split; reflexivity.
  - destruct (aget m' (r - row_off w) (c - col_off w)); [exfalso; apply H; apply HB; reflexivity|]. split; reflexivity.
Qed.

(** In every tile, whatever the camera, the mask is exactly the pixels where all bands of the group are nodata. *)
Lemma tile_mask_agrees : forall idx w r c, In w wins -> in_win w r c -> NoDup idx -> idx <> [] ->
  (tile_valid idx w r c = false <-> forall b, In b idx -> is_nodata (o_nodata job) (tile_value idx w b r c)).
Proof.
  intros idx w r c Hw Hin Hn Hne. destruct (dilates (o_cfg job) (o_nodata job)) eqn:D.
  - assert (HX : blurred_k job w (fun b => In b idx) r c \/ ~ blurred_k job w (fun b => In b idx) r c).
    { destruct idx as [|b0 idx0]; [contradiction|]. 
      destruct (tile_undilated (b0 :: idx0) w Hw) as (arrs & mask & E & M1 & M2 & F & MM).
      set (k := kernel_size (o_gsd job) (o_transform job)).
      destruct (aget (dilate (fst k) (snd k) mask) (r - row_off w) (c - col_off w)) eqn:ED.
      - left. apply dilate_spec in ED. destruct ED as (r' & c' & Hr & Hc & Hk & Hm).
        exists (r' + row_off w), (c' + col_off w). unfold in_win.
        split; [lia|]. split; [unfold under_kernel in *; fold k; lia|]. rewrite MM, forallb_forall in Hm.
        intros b' Hb'. apply nan_equals_spec. apply Hm. assumption.
      - right. intros (r' & c' & Hi & Hk & Hm). unfold in_win in Hi. fold k in Hk.
        enough (aget (dilate (fst k) (snd k) mask) (r - row_off w) (c - col_off w) = true) by congruence.
        apply dilate_spec. exists (r' - row_off w), (c' - col_off w).
        split; [lia|]. split; [lia|]. split; [unfold under_kernel in *; lia|]. rewrite MM, forallb_forall.
        intros b' Hb'. apply nan_equals_spec. replace (r' - row_off w + row_off w) with r' by lia.
        replace (c' - col_off w + col_off w) with c' by lia. apply Hm. assumption. }
    destruct HX as [HX|HX].
    + split.
      * intros _ b Hb. destruct (dilated_tile D idx w b r c Hw Hin Hn Hb) as [A _]. destruct (A HX) as [-> _].
        apply nan_equals_spec. destruct (o_nodata job); [reflexivity|]. cbn. apply Qeq_bool_refl.
      * intros _. destruct idx as [|b0 idx0]; [contradiction|].
        destruct (dilated_tile D (b0 :: idx0) w b0 r c Hw Hin Hn (or_introl eq_refl)) as [A _]. apply (A HX).
    + destruct idx as [|b0 idx0]; [contradiction|]. split.
      * intros Hf. destruct (dilated_tile D (b0 :: idx0) w b0 r c Hw Hin Hn (or_introl eq_refl)) as [_ A].
        destruct (A HX) as [_ A']. congruence.
      * intros Hall. exfalso. apply HX. exists r, c. split; [assumption|]. split.
        { destruct (kernel_ge3 (o_gsd job) (o_transform job)). apply under_kernel_refl; lia. }
        intros b Hb. destruct (dilated_tile D (b0 :: idx0) w b r c Hw Hin Hn Hb) as [_ A]. destruct (A HX) as [A' _].
        rewrite <- A'. apply Hall. assumption.
  - destruct (undilated_tile D idx w 0 r c Hw Hn) as [_ ->]. rewrite negb_false_iff, forallb_forall.
    split; intros H b Hb.
    + destruct (undilated_tile D idx w b r c Hw Hn) as [-> _]; [|assumption]. apply nan_equals_spec. apply H. assumption.
    + apply nan_equals_spec. destruct (undilated_tile D idx w b r c Hw Hn) as [A _]. rewrite <- A by assumption.
      apply H. assumption.
Qed.

End Job.

(** * The whole run *)

Lemma ortho_remap_unfold : forall job per_band order ras, well_formed job -> exists bw,
  (forall w, In w (block_windows (o_height job) (o_width job) (o_block job)) ->
     width w <= width bw /\ height w <= height bw) /\
  ortho_remap job per_band order ras = fold_left (gstep job bw order) (index_list (o_count job) per_band) (ras, Ok tt).
Proof.
  intros job per_band order ras Hwf. destruct (first_block job Hwf) as (bw & rest & E & Hb).
  exists bw. split; [exact Hb|]. unfold ortho_remap. rewrite E. unfold gstep. rewrite E. reflexivity.
Qed.

Lemma index_list_NoDup : forall count pb, Forall (@NoDup Z) (index_list count pb).
Proof.
  intros count [|]; cbn.
  - apply Forall_map. apply Forall_forall. intros x _. constructor; [intros []|constructor].
  - constructor; [apply py_range_NoDup; lia|constructor].
Qed.

Lemma index_list_group : forall count pb b, in_range count b ->
  exists g, In g (index_list count pb) /\ In b g /\ forall g', In g' (index_list count pb) -> In b g' -> g' = g.
Proof.
  intros count pb b Hb. unfold in_range in Hb.
  assert (Hr : In b (py_range 1 (count + 1) 1)) by (apply py_range_In; [lia|]; split; [lia|]; exists (b - 1); lia).
  destruct pb; cbn.
  - exists [b]. split; [apply (in_map (fun i => [i])); assumption|]. split; [left; reflexivity|].
    intros g' Hg Hbg. apply in_map_iff in Hg. destruct Hg as (x & <- & _). destruct Hbg as [->|[]]. reflexivity.
  - exists (py_range 1 (count + 1) 1). split; [left; reflexivity|]. split; [assumption|]. intros g' [<-|[]] _. reflexivity.
Qed.

Lemma index_list_nodup_groups : forall count pb, NoDup (index_list count pb).
Proof.
  intros count [|]; cbn.
  - apply FinFun.Injective_map_NoDup; [|apply py_range_NoDup; lia]. intros x y E; inversion E; reflexivity.
  - constructor; [intros []|constructor].
Qed.

(** The bands that decide the written dataset mask. *)
Definition mask_group (count : Z) (pb : bool) : list Z := if pb then [1] else py_range 1 (count + 1) 1.

Lemma mask_group_in : forall count pb, 1 <= count -> In (mask_group count pb) (index_list count pb).
Proof.
  intros count [|] H; cbn; [|left; reflexivity].
  apply in_map_iff. exists 1. split; [reflexivity|]. apply py_range_In; [lia|]. split; [lia|]. exists 0. lia.
Qed.

Lemma py_range_length : forall a b, a <= b -> List.length (py_range a b 1) = Z.to_nat (b - a).
Proof.
  intros a b H. unfold py_range. rewrite map_length, seq_length. f_equal. rewrite Z.div_1_r. lia.
Qed.

Lemma writes_mask_iff : forall job pb g, well_formed job -> o_write_mask job = true ->
  In g (index_list (o_count job) pb) -> (writes_mask job g = true <-> g = mask_group (o_count job) pb).
Proof.
  intros job pb g (_ & _ & Hc & _) Hm Hg. unfold writes_mask. rewrite Hm. cbn [andb]. rewrite orb_true_iff, Z.eqb_eq.
  destruct pb; cbn in *.
  - apply in_map_iff in Hg. destruct Hg as (i & <- & Hi). apply py_range_In in Hi; [|lia]. rewrite Z.eqb_eq. cbn. split.
    + intros [->|H]; [reflexivity|]. f_equal. lia.
    + intros E; inversion E. left; reflexivity.
  - destruct Hg as [<-|[]]. split; [reflexivity|]. intros _. right. rewrite py_range_length by lia. lia.
Qed.

Theorem remap_schedule_independent : forall job per_band order order' ras, well_formed job ->
  schedule job order -> schedule job order' ->
  snd (ortho_remap job per_band order ras) = snd (ortho_remap job per_band order' ras) /\
  forall r c, in_im (o_height job) (o_width job) r c ->
    (forall b, bands (fst (ortho_remap job per_band order ras)) b r c = bands (fst (ortho_remap job per_band order' ras)) b r c) /\
    dmask (fst (ortho_remap job per_band order ras)) r c = dmask (fst (ortho_remap job per_band order' ras)) r c.
Proof.
  intros job pb order order' ras Hwf Ho Ho'.
  destruct (first_block job Hwf) as (bw & rest & E & Hb).
  assert (U : forall o, ortho_remap job pb o ras = fold_left (gstep job bw o) (index_list (o_count job) pb) (ras, Ok tt)).
  { intros o. unfold ortho_remap. rewrite E. unfold gstep. rewrite E. reflexivity. }
  rewrite !U. split.
  - rewrite !(gstep_result job Hwf bw Hb). reflexivity.
  - apply (gstep_agree job Hwf bw Hb order order' Ho Ho'); [apply index_list_NoDup|reflexivity|].
    intros r c _. split; [intros; reflexivity|reflexivity].
Qed.

Theorem remap_result : forall job per_band order ras, well_formed job -> schedule job order ->
  (no_task_fails job per_band -> snd (ortho_remap job per_band order ras) = Ok tt) /\
  (~ no_task_fails job per_band -> snd (ortho_remap job per_band order ras) = Err RuntimeError).
Proof.
  intros job pb order ras Hwf Ho. destruct (ortho_remap_unfold job pb order ras Hwf) as (bw & Hb & ->).
  rewrite (gstep_result job Hwf bw Hb). split; intros H.
  - destruct (forallb _ _) eqn:E; [reflexivity|]. exfalso.
    enough (forallb (group_ok job) (index_list (o_count job) pb) = true) by congruence.
    apply forallb_forall. intros g Hg. apply forallb_forall. intros w Hw. rewrite H by assumption. reflexivity.
  - destruct (forallb _ _) eqn:E; [|reflexivity]. exfalso. apply H. intros g w Hg Hw.
    rewrite forallb_forall in E. specialize (E g Hg). unfold group_ok in E. rewrite forallb_forall in E.
    specialize (E w Hw). destruct (o_fail job g w); [discriminate|reflexivity].
Qed.

(** After a run without failures every pixel comes from its own tile and group. *)
Lemma remap_pixels : forall job per_band order ras ras', well_formed job -> schedule job order ->
  ortho_remap job per_band order ras = (ras', Ok tt) -> exists bw,
  (forall w, In w (block_windows (o_height job) (o_width job) (o_block job)) ->
     width w <= width bw /\ height w <= height bw) /\
  forall r c w, in_im (o_height job) (o_width job) r c -> tile_of job r c w ->
  (forall g b, In g (index_list (o_count job) per_band) -> In b g ->
     bands ras' b r c = tile_value job bw g w b r c) /\
  dmask ras' r c = if o_write_mask job then tile_valid job bw (mask_group (o_count job) per_band) w r c else dmask ras r c.
Proof.
  intros job pb order ras ras' Hwf Ho HR. destruct (ortho_remap_unfold job pb order ras Hwf) as (bw & Hb & U).
  exists bw. split; [exact Hb|]. rewrite U in HR. clear U.
  assert (Hok : forallb (group_ok job) (index_list (o_count job) pb) = true).
  { pose proof (gstep_result job Hwf bw Hb order (index_list (o_count job) pb) ras) as HS. rewrite HR in HS. cbn in HS.
    destruct (forallb _ _); [reflexivity|discriminate]. }
  rewrite (gstep_all job Hwf bw Hb) in HR by exact Hok. inversion HR as [HR']. clear HR HR'.
  intros r c w Hin [Hw Hwin]. 
  destruct (wins_cover job Hwf r c Hin) as (w0 & Hi0 & Hw0 & Hu0). assert (w = w0) as -> by (apply Hu0; assumption).
  set (gl := index_list (o_count job) pb) in *.
  assert (Hfail : forall g, In g gl -> o_fail job g w0 = false).
  { intros g Hg. rewrite forallb_forall in Hok. specialize (Hok g Hg). unfold group_ok in Hok.
    rewrite forallb_forall in Hok. specialize (Hok w0 Hi0). destruct (o_fail job g w0); [discriminate|reflexivity]. }
  pose proof (index_list_NoDup (o_count job) pb) as HND. rewrite Forall_forall in HND. fold gl in HND.
  assert (GB : forall s g b, In g gl ->
     bands (fold_left (step job bw g) (order g) s) b r c =
       (if in_dec Z.eq_dec b g then tile_value job bw g w0 b r c else bands s b r c) /\
     dmask (fold_left (step job bw g) (order g) s) r c =
       (if writes_mask job g then tile_valid job bw g w0 r c else dmask s r c)).
  { intros s g b Hg. pose proof (group_bands job Hwf bw Hb g (order g) s r c w0 (HND g Hg) (Ho g) Hi0 Hw0 Hu0 b) as G.
    rewrite (Hfail g Hg) in G. exact G. }
  split.
  - intros g b Hg Hbg.
    assert (Hbr : in_range (o_count job) b).
    { unfold gl, index_list in Hg. destruct pb.
      - apply in_map_iff in Hg. destruct Hg as (i & <- & Hi). apply py_range_In in Hi; [|lia]. destruct Hbg as [->|[]].
        unfold in_range; lia.
      - destruct Hg as [<-|[]]. apply py_range_In in Hbg; [|lia]. unfold in_range; lia. }
    destruct (index_list_group (o_count job) pb b Hbr) as (g0 & Hg0 & Hb0 & Hu).
    assert (g = g0) as -> by (apply Hu; assumption).
    apply (fold_unique (fun s g => fold_left (step job bw g) (order g) s) (fun s => bands s b r c)
             (fun g => In b g) (fun g _ => tile_value job bw g w0 b r c) gl).
    + intros g'. destruct (in_dec Z.eq_dec b g'); tauto.
    + intros s g' Hg' Hb'. destruct (GB s g' b Hg') as [-> _]. destruct (in_dec Z.eq_dec b g'); [reflexivity|contradiction].
    + intros s g' Hg' Hb'. destruct (GB s g' b Hg') as [-> _]. destruct (in_dec Z.eq_dec b g'); [contradiction|reflexivity].
    + apply index_list_nodup_groups.
    + apply incl_refl.
    + exact Hg0.
    + exact Hb0.
    + intros g' Hg' Hb'. apply Hu; assumption.
  - destruct (o_write_mask job) eqn:EM.
    + assert (Hcnt : 1 <= o_count job) by (destruct Hwf as (_ & _ & ? & _); assumption).
      apply (fold_unique (fun s g => fold_left (step job bw g) (order g) s) (fun s => dmask s r c)
             (fun g => writes_mask job g = true) (fun g _ => tile_valid job bw g w0 r c) gl).
      * intros g'. destruct (writes_mask job g'); [left; reflexivity|right; discriminate].
      * intros s g' Hg' Hb'. destruct (GB s g' 0 Hg') as [_ ->]. rewrite Hb'. reflexivity.
      * intros s g' Hg' Hb'. destruct (GB s g' 0 Hg') as [_ ->]. destruct (writes_mask job g'); [contradiction|reflexivity].
      * apply index_list_nodup_groups.
      * apply incl_refl.
      * apply mask_group_in. assumption.
      * apply (writes_mask_iff job pb); [assumption|assumption|apply mask_group_in; assumption|reflexivity].
      * intros g' Hg' Hb'. apply (writes_mask_iff job pb); assumption.
    + apply (fold_none (fun s g => fold_left (step job bw g) (order g) s) (fun s => dmask s r c) (fun g => False) gl).
      * intros s g' Hg' _. destruct (GB s g' 0 Hg') as [_ ->]. unfold writes_mask. rewrite EM. reflexivity.
      * apply incl_refl.
      * tauto.
Qed.

Theorem remap_value_pixelwise : forall job per_band order ras ras', well_formed job -> schedule job order ->
  ~ dilation_applies (o_cfg job) (o_nodata job) ->
  ortho_remap job per_band order ras = (ras', Ok tt) ->
  forall b r c, in_range (o_count job) b -> in_im (o_height job) (o_width job) r c ->
  bands ras' b r c = ortho_value job b r c.
Proof.
  intros job pb order ras ras' Hwf Ho HD HR b r c Hb Hin. apply dilates_false in HD.
  destruct (remap_pixels job pb order ras ras' Hwf Ho HR) as (bw & Hbw & HP).
  destruct (wins_cover job Hwf r c Hin) as (w0 & Hi0 & Hw0 & _).
  destruct (index_list_group (o_count job) pb b Hb) as (g & Hg & Hbg & _).
  pose proof (index_list_NoDup (o_count job) pb) as HND. rewrite Forall_forall in HND.
  destruct (HP r c w0 Hin (conj Hi0 Hw0)) as [HV _]. rewrite (HV g b Hg Hbg).
  destruct (undilated_tile job Hwf bw Hbw HD g w0 b r c Hi0 (HND g Hg)) as [A _]. apply A. assumption.
Qed.

Theorem remap_value_dilated : forall job per_band order ras ras', well_formed job -> schedule job order ->
  dilation_applies (o_cfg job) (o_nodata job) ->
  ortho_remap job per_band order ras = (ras', Ok tt) ->
  forall b r c w, in_range (o_count job) b -> in_im (o_height job) (o_width job) r c -> tile_of job r c w ->
  (blurred_k job w (group_bands_of job per_band b) r c -> bands ras' b r c = o_nodata job) /\
  (~ blurred_k job w (group_bands_of job per_band b) r c -> bands ras' b r c = ortho_value job b r c).
Proof.
  intros job pb order ras ras' Hwf Ho HD HR b r c w Hb Hin Ht. apply dilates_spec in HD.
  destruct (remap_pixels job pb order ras ras' Hwf Ho HR) as (bw & Hbw & HP).
  destruct (index_list_group (o_count job) pb b Hb) as (g & Hg & Hbg & _).
  pose proof (index_list_NoDup (o_count job) pb) as HND. rewrite Forall_forall in HND.
  destruct (HP r c w Hin Ht) as [HV _]. rewrite (HV g b Hg Hbg). destruct Ht as [Hi Hw].
  destruct (dilated_tile job Hwf bw Hbw HD g w b r c Hi Hw (HND g Hg) Hbg) as [A B].
  assert (HE : blurred_k job w (fun b => In b g) r c <-> blurred_k job w (group_bands_of job pb b) r c).
  { assert (HG : forall b', In b' g <-> group_bands_of job pb b b').
    { intros b'. unfold group_bands_of, index_list in *. destruct pb.
      - apply in_map_iff in Hg. destruct Hg as (i & <- & Hi'). destruct Hbg as [->|[]]. cbn. split; [intros [->|[]]; reflexivity|auto].
      - destruct Hg as [<-|[]]. rewrite py_range_In by lia. unfold in_range. split; [lia|]. intros H. split; [lia|].
        exists (b' - 1). lia. }
    unfold blurred_k, blurred. split; intros (r' & c' & X & Y & Z0); exists r', c'; (split; [assumption|]); (split; [assumption|]);
      intros b' Hb'; apply Z0; apply HG; assumption. }
  rewrite <- HE. split; intros H; [apply A|apply B]; assumption.
Qed.

Theorem remap_mask : forall job per_band order ras ras', well_formed job -> schedule job order ->
  o_write_mask job = true ->
  ortho_remap job per_band order ras = (ras', Ok tt) ->
  forall r c, in_im (o_height job) (o_width job) r c ->
  (dmask ras' r c = false <->
   forall b, (if per_band then b = 1 else in_range (o_count job) b) -> is_nodata (o_nodata job) (bands ras' b r c)).
Proof.
  intros job pb order ras ras' Hwf Ho HM HR r c Hin.
  destruct (remap_pixels job pb order ras ras' Hwf Ho HR) as (bw & Hbw & HP).
  destruct (wins_cover job Hwf r c Hin) as (w0 & Hi0 & Hw0 & _).
  destruct (HP r c w0 Hin (conj Hi0 Hw0)) as [HV HMk]. rewrite HM in HMk.
  assert (Hcnt : 1 <= o_count job) by (destruct Hwf as (_ & _ & ? & _); assumption).
  pose proof (mask_group_in (o_count job) pb Hcnt) as Hg.
  pose proof (index_list_NoDup (o_count job) pb) as HND. rewrite Forall_forall in HND.
  assert (HG : forall b, (if pb then b = 1 else in_range (o_count job) b) <-> In b (mask_group (o_count job) pb)).
  { intros b. unfold mask_group. destruct pb.
    - cbn. split; [auto|]. intros [->|[]]; reflexivity.
    - rewrite py_range_In by lia. unfold in_range. split; [|lia]. intros H. split; [lia|]. exists (b - 1). lia. }
  assert (Hne : mask_group (o_count job) pb <> []).
  { intros E. assert (In 1 (mask_group (o_count job) pb)); [|rewrite E in *; contradiction].
    apply HG. destruct pb; [reflexivity|unfold in_range; lia]. }
  rewrite HMk, (tile_mask_agrees job Hwf bw Hbw _ w0 r c Hi0 Hw0 (HND _ Hg) Hne). split; intros H b Hb.
  - rewrite (HV (mask_group (o_count job) pb) b Hg); [|apply HG; assumption]. apply H. apply HG. assumption.
  - rewrite <- (HV (mask_group (o_count job) pb) b Hg Hb). apply H. apply HG. assumption.
Qed.

(** * C04 *)
Theorem tile_grids_centres : forall job w ws, well_formed job ->
  block_windows (o_height job) (o_width job) (o_block job) = w :: ws ->
  forall v, In v (w :: ws) ->
  let xg := tile_xgrid (o_transform job) (init_grid job w fst) v in
  let yg := tile_ygrid (o_transform job) (init_grid job w snd) v in
  ah xg = height v /\ aw xg = width v /\ ah yg = height v /\ aw yg = width v /\
  forall r c, 0 <= r < height v -> 0 <= c < width v ->
    aget xg r c = Num (fst (pixel_centre (o_transform job) (row_off v + r) (col_off v + c))) /\
    aget yg r c = Num (snd (pixel_centre (o_transform job) (row_off v + r) (col_off v + c))).
Proof.
  intros job w ws Hwf E v Hv xg yg.
  destruct (first_block job Hwf) as (bw & rest & E' & Hb). rewrite E in E', Hb. inversion E'; subst bw rest.
  destruct (Hb v Hv) as [L1 L2].
  assert (B : 0 < width v /\ 0 < height v).
  { destruct Hwf as (H1 & H2 & H3 & H4 & H5 & _). rewrite <- E in Hv. destruct (o_block job) as [bh bw'].
    pose proof (block_windows_bounds _ _ _ _ H4 H5 v Hv). cbn in *. lia. }
  destruct (tile_grid_at job w v ltac:(lia) ltac:(lia) fst tc (or_introl (conj eq_refl eq_refl))) as (X1 & X2 & X3).
  destruct (tile_grid_at job w v ltac:(lia) ltac:(lia) snd tf (or_intror (conj eq_refl eq_refl))) as (Y1 & Y2 & Y3).
  split; [exact X1|]. split; [exact X2|]. split; [exact Y1|]. split; [exact Y2|]. intros r c _ _.
  split; [unfold xg, tile_xgrid; rewrite X3|unfold yg, tile_ygrid; rewrite Y3];
    rewrite (Z.add_comm r), (Z.add_comm c); reflexivity.
Qed.

(** * C02 *)
Theorem remap_block_independent : forall job block per_band per_band' order order' ras ras1 ras2,
  well_formed job -> well_formed (with_block job block) ->
  schedule job order -> schedule (with_block job block) order' ->
  ~ dilation_applies (o_cfg job) (o_nodata job) ->
  ortho_remap job per_band order ras = (ras1, Ok tt) ->
  ortho_remap (with_block job block) per_band' order' ras = (ras2, Ok tt) ->
  forall b r c, in_range (o_count job) b -> in_im (o_height job) (o_width job) r c ->
  bands ras1 b r c = bands ras2 b r c.
Proof.
  intros job block pb pb' o o' ras ras1 ras2 W W' S S' D R1 R2 b r c Hb Hin.
  rewrite (remap_value_pixelwise job pb o ras ras1 W S D R1 b r c Hb Hin).
  rewrite (remap_value_pixelwise (with_block job block) pb' o' ras ras2 W' S' D R2 b r c Hb Hin). reflexivity.
Qed.

(** * C26 *)
Lemma is_nodata_refl : forall v, is_nodata v v.
Proof. intros [|q]; cbn; [exact I|reflexivity]. Qed.

Theorem remap_off_image : forall w2p sample, transparent_border sample ->
  forall ims x y z nodata arrs mask,
  camera_remap w2p sample ims x y z nodata = Ok (arrs, mask) ->
  forall r c, off_image ims (w2p (aget x r c, aget y r c, aget z r c)) ->
  (forall a, In a arrs -> aget a r c = nodata) /\ aget mask r c = true.
Proof.
  intros w2p sample Ht ims x y z nodata arrs mask E r c Ho.
  unfold camera_remap in E. destruct (negb _); [discriminate|]. inversion E; subst; clear E. cbn.
  assert (HA : forall im, In im ims ->
    (let (j, i) := let (j, i) := w2p (aget x r c, aget y r c, aget z r c) in (nan_to_m1 j, nan_to_m1 i) in
     match sample im j i with Some v => v | None => nodata end) = nodata).
  { intros im Him. destruct (w2p _) as [j i]. rewrite Ht; [reflexivity|].
    destruct j as [|j], i as [|i]; cbn in *; try lra. apply Ho. assumption. }
  split.
  - intros a Ha. apply in_map_iff in Ha. destruct Ha as (im & <- & Him). cbn. apply HA. assumption.
  - apply forallb_forall. intros a Ha. apply in_map_iff in Ha. destruct Ha as (im & <- & Him). cbn.
    rewrite HA by assumption. apply nan_equals_spec. apply is_nodata_refl.
Qed.

(** The final ortho: pixels that see nothing are nodata in all bands, dilated or not. *)
Theorem ortho_off_image : forall job per_band order ras ras', well_formed job -> schedule job order ->
  transparent_border (o_sample job) ->
  ortho_remap job per_band order ras = (ras', Ok tt) ->
  forall b r c, in_range (o_count job) b -> in_im (o_height job) (o_width job) r c ->
  (let (x, y) := pixel_centre (o_transform job) r c in
   off_image (map (o_src job) (py_range 1 (o_count job + 1) 1)) (o_w2p job (Num x, Num y, aget (o_dem job) r c))) ->
  bands ras' b r c = o_nodata job.
Proof.
  intros job pb order ras ras' Hwf Ho Ht HR b r c Hb Hin Hoff.
  assert (HV : forall b, in_range (o_count job) b -> ortho_value job b r c = o_nodata job).
  { intros b' Hb'. unfold ortho_value, source_value. destruct (pixel_centre _ r c) as [x y].
    destruct (o_w2p job _) as [j i]. rewrite Ht; [reflexivity|].
    destruct j as [|j], i as [|i]; cbn in *; try lra. apply Hoff.
    apply in_map. apply py_range_In; [lia|]. unfold in_range in Hb'. split; [lia|]. exists (b' - 1). lia. }
  destruct (dilates (o_cfg job) (o_nodata job)) eqn:D; [apply dilates_spec in D|apply dilates_false in D].
  - destruct (wins_cover job Hwf r c Hin) as (w0 & Hi0 & Hw0 & _).
    destruct (remap_value_dilated job pb order ras ras' Hwf Ho D HR b r c w0 Hb Hin (conj Hi0 Hw0)) as [A _].
    apply A. exists r, c. split; [assumption|]. split.
    { destruct (kernel_ge3 (o_gsd job) (o_transform job)). apply under_kernel_refl; lia. }
    intros b' Hb'. rewrite HV; [apply is_nodata_refl|]. unfold group_bands_of in Hb'. destruct pb; [subst; assumption|assumption].
  - rewrite (remap_value_pixelwise job pb order ras ras' Hwf Ho D HR b r c Hb Hin). apply HV. assumption.
Qed.

(** * C27 *)
Theorem frame_remap_mask : forall w2p sample cfg ims x y z nodata kw kh arrs mask, ims <> [] -> 1 <= kw -> 1 <= kh ->
  frame_remap w2p sample cfg ims x y z nodata (kw, kh) = Ok (arrs, mask) ->
  forall r c, 0 <= r < ah x -> 0 <= c < aw x ->
  (aget mask r c = true <-> forall a, In a arrs -> is_nodata nodata (aget a r c)).
Proof.
  intros w2p sample cfg ims x y z nodata kw kh arrs mask Hne Hkw Hkh E r c Hr Hc. unfold frame_remap in E.
  destruct (camera_remap w2p sample ims x y z nodata) as [[arrs0 mask0]|e] eqn:EC; [|discriminate]. cbn [bind] in E.
  unfold camera_remap in EC. destruct (negb _); [discriminate|]. inversion EC as [[EA EM]]; clear EC. subst mask0.
  assert (Hn0 : arrs0 <> []) by (subst; destruct ims; [contradiction|discriminate]). rewrite EA in E.
  destruct (dilates cfg nodata).
  - cbn [fst snd] in E. match type of E with context [dilate kw kh ?m] =>
      remember (dilate kw kh m) as d eqn:Ed; pose proof (dilate_spec kw kh m) as HD end.
    rewrite <- Ed in HD. clear Ed. cbn [ah aw aget] in HD.
    inversion E; subst arrs mask; clear E. split.
    + intros Hd a Ha. apply in_map_iff in Ha. destruct Ha as (a0 & <- & Ha0). cbn [aget].
      rewrite Hd. apply is_nodata_refl.
    + intros Hall. destruct (aget d r c) eqn:ED; [reflexivity|]. rewrite <- ED. apply HD.
      exists r, c. split; [lia|]. split; [lia|]. split; [apply under_kernel_refl; assumption|].
      apply forallb_forall. intros a Ha. apply nan_equals_spec. 
      specialize (Hall _ (in_map _ _ _ Ha)). cbn [aget] in Hall. rewrite ED in Hall. exact Hall.
  - inversion E; subst arrs mask; clear E. cbn [aget]. rewrite forallb_forall. split; intros H a Ha.
    + apply nan_equals_spec. apply H. assumption.
    + apply nan_equals_spec. apply H. assumption.
Qed.

Theorem frame_remap_dilation : forall w2p sample cfg ims x y z nodata kw kh arrs0 mask0,
  dilation_applies cfg nodata ->
  camera_remap w2p sample ims x y z nodata = Ok (arrs0, mask0) ->
  exists arrs mask, frame_remap w2p sample cfg ims x y z nodata (kw, kh) = Ok (arrs, mask) /\
  (forall r c, aget mask r c = true <->
     exists r' c', 0 <= r' < ah x /\ 0 <= c' < aw x /\ under_kernel kw kh r c r' c' /\ aget mask0 r' c' = true) /\
  Forall2 (fun a0 a => forall r c, aget a r c = if aget mask r c then nodata else aget a0 r c) arrs0 arrs.
Proof.
  intros w2p sample cfg ims x y z nodata kw kh arrs0 mask0 D E. apply dilates_spec in D. unfold frame_remap. rewrite E. cbn [bind]. rewrite D.
  eexists. eexists. split; [reflexivity|]. split.
  - intros r c. cbn [fst snd]. rewrite dilate_spec.
    unfold camera_remap in E. destruct (negb _); [discriminate|]. inversion E; subst. cbn [ah aw aget]. reflexivity.
  - clear E. induction arrs0 as [|a arrs0 IH]; cbn; constructor; [|exact IH]. intros r c. reflexivity.
Qed.

Lemma Rceil_bound : forall x, (x <= IZR (Rceil x) < x + 1)%R.
Proof. intros x. unfold Rceil. destruct (archimed (- x)). rewrite minus_IZR. lra. Qed.

Theorem kernel_covers : forall gsd t, ta t <> 0%R -> te t <> 0%R ->
  (5 * gsd <= IZR (fst (kernel_size gsd t)) * Rabs (ta t))%R /\
  (5 * gsd <= IZR (snd (kernel_size gsd t)) * Rabs (te t))%R.
Proof.
  assert (H : forall gsd a, a <> 0%R -> (5 * gsd <= IZR (Z.max (Rceil (5 * gsd / Rabs a)) 3) * Rabs a)%R).
  { intros gsd a Ha. pose proof (Rabs_pos_lt a Ha) as Hp.
    destruct (Rceil_bound (5 * gsd / Rabs a)) as [B _].
    assert (IZR (Rceil (5 * gsd / Rabs a)) <= IZR (Z.max (Rceil (5 * gsd / Rabs a)) 3))%R by (apply IZR_le; lia).
    replace (5 * gsd)%R with (5 * gsd / Rabs a * Rabs a)%R at 1 by (field; lra).
    apply Rmult_le_compat_r; lra. }
  intros gsd t Ha He. split; apply H; assumption.
Qed.

Theorem kernel_spans : forall gsd t, ta t <> 0%R -> te t <> 0%R ->
  spans gsd (Rabs (ta t)) (fst (kernel_size gsd t)) /\ spans gsd (Rabs (te t)) (snd (kernel_size gsd t)).
Proof.
  intros gsd t Ha He. destruct (kernel_covers gsd t Ha He) as (A & B). destruct (kernel_ge3 gsd t) as (A3 & B3).
  assert (L : forall a k', a <> 0%R -> 3 <= k' -> (5 * gsd <= IZR k' * Rabs a)%R -> Z.max (Rceil (5 * gsd / Rabs a)) 3 <= k').
  { intros a k' Hn H3 Hk. pose proof (Rabs_pos_lt a Hn) as Hp. apply Z.max_lub; [|exact H3]. destruct (Rceil_bound (5 * gsd / Rabs a)) as [_ U].
    assert (X : (5 * gsd / Rabs a <= IZR k')%R) by (apply Rmult_le_reg_r with (Rabs a); [exact Hp|]; replace (5 * gsd / Rabs a * Rabs a)%R with (5 * gsd)%R by (field; lra); exact Hk).
    assert (Y : (IZR (Rceil (5 * gsd / Rabs a)) < IZR (k' + 1))%R) by (rewrite plus_IZR; lra). apply lt_IZR in Y. lia. }
  split; (split; [apply Rabs_pos_lt; assumption|]); (split; [assumption|]); (split; [assumption|]); intros k' H3 Hk; apply L; assumption.
Qed.

Lemma spans_unique : forall gsd res k k', spans gsd res k -> spans gsd res k' -> k = k'.
Proof. intros gsd res k k' (_ & A & B & C) (_ & A' & B' & C'). pose proof (C _ A' B'). pose proof (C' _ A B). lia. Qed.

Lemma kernel_unique : forall gsd t kw kh, spans gsd (Rabs (ta t)) kw -> spans gsd (Rabs (te t)) kh -> kernel_size gsd t = (kw, kh).
Proof.
  intros gsd t kw kh Hw Hh.
  assert (Ha : ta t <> 0%R) by (intros E; destruct Hw as (P & _); rewrite E, Rabs_R0 in P; lra). assert (He : te t <> 0%R) by (intros E; destruct Hh as (P & _); rewrite E, Rabs_R0 in P; lra).
  destruct (kernel_spans gsd t Ha He) as (A & B). rewrite (spans_unique _ _ _ _ Hw A), (spans_unique _ _ _ _ Hh B). destruct (kernel_size gsd t). reflexivity.
Qed.

Theorem remap_value_spans : forall job per_band order ras ras', well_formed job -> schedule job order ->
  dilation_applies (o_cfg job) (o_nodata job) ->
  ortho_remap job per_band order ras = (ras', Ok tt) ->
  forall kw kh b r c w, spans (o_gsd job) (Rabs (ta (o_transform job))) kw -> spans (o_gsd job) (Rabs (te (o_transform job))) kh ->
  in_range (o_count job) b -> in_im (o_height job) (o_width job) r c -> tile_of job r c w ->
  (blurred job kw kh w (group_bands_of job per_band b) r c -> bands ras' b r c = o_nodata job) /\
  (~ blurred job kw kh w (group_bands_of job per_band b) r c -> bands ras' b r c = ortho_value job b r c).
Proof.
  intros job pb order ras ras' Hwf Hs HD E kw kh b r c w Hkw Hkh Hb Hin Ht. pose proof (remap_value_dilated job pb order ras ras' Hwf Hs HD E b r c w Hb Hin Ht) as X.
  unfold blurred_k in X. rewrite (kernel_unique _ _ _ _ Hkw Hkh) in X. exact X.
Qed.

(** Witness: a 1 x 2 ortho whose left pixel sees nothing. *)
Definition tiling_job : ortho_job :=
  Job (fun p => (snd p, snd p))
      (fun im j i => if Rle_dec 0 j then Some (PVal 7) else None)
      (RCfg false false false) 1 2 1 (1, 2) (Aff 1 0 0 0 (-1) 0) (PVal 0)
      (fun _ => Arr 1 1 (fun _ _ => PVal 7))
      (Arr 1 2 (fun r c => if c =? 0 then Nan else Num 0))
      1 true (fun _ _ => false).

Definition empty_ras : raster := Ras (fun _ _ _ => PVal 0) (fun _ _ => false).

Lemma order_id : forall job, schedule job (fun _ => block_windows (o_height job) (o_width job) (o_block job)).
Proof. intros job g. apply Permutation_refl. Qed.

Lemma run_ok : forall job pb, well_formed job -> no_task_fails job pb ->
  exists ras', ortho_remap job pb (fun _ => block_windows (o_height job) (o_width job) (o_block job)) empty_ras = (ras', Ok tt).
Proof.
  intros job pb Hwf Hn. destruct (remap_result job pb _ empty_ras Hwf (order_id job)) as [A _]. specialize (A Hn).
  destruct (ortho_remap _ _ _ _) as [s e]. cbn in A. subst. eexists. reflexivity.
Qed.

Lemma tiling_wf : well_formed tiling_job /\ well_formed (with_block tiling_job (1, 1)).
Proof. unfold well_formed. cbn. lia. Qed.

Lemma tiling_values : ortho_value tiling_job 1 0 0 = PVal 0 /\ ortho_value tiling_job 1 0 1 = PVal 7.
Proof.
  unfold ortho_value, source_value. cbn. split.
  - destruct (Rle_dec 0 (-1)); [lra|reflexivity].
  - destruct (Rle_dec 0 0); [reflexivity|lra].
Qed.

Theorem dilation_depends_on_tiling :
  exists job block order order' ras ras1 ras2,
  well_formed job /\ well_formed (with_block job block) /\
  schedule job order /\ schedule (with_block job block) order' /\
  ortho_remap job false order ras = (ras1, Ok tt) /\
  ortho_remap (with_block job block) false order' ras = (ras2, Ok tt) /\
  exists b r c, in_range (o_count job) b /\ in_im (o_height job) (o_width job) r c /\
    bands ras1 b r c <> bands ras2 b r c.
Proof.
  destruct tiling_wf as [W1 W2].
  destruct (run_ok tiling_job false W1) as [ras1 R1]; [intros g w _ _; reflexivity|].
  destruct (run_ok (with_block tiling_job (1, 1)) false W2) as [ras2 R2]; [intros g w _ _; reflexivity|].
  exists tiling_job, (1, 1). eexists. eexists. exists empty_ras, ras1, ras2.
  split; [exact W1|]. split; [exact W2|]. split; [apply order_id|]. split; [apply order_id|].
  split; [exact R1|]. split; [exact R2|].
  assert (Hb : in_range 1 1) by (unfold in_range; lia).
  assert (Hin : in_im 1 2 0 1) by (unfold in_im; lia).
  exists 1, 0, 1. split; [exact Hb|]. split; [exact Hin|].
  destruct tiling_values as [V0 V1].
  assert (T1 : tile_of tiling_job 0 1 (Win 0 0 2 1)) by (split; [left; reflexivity|unfold in_win; cbn; lia]).
  assert (T2 : tile_of (with_block tiling_job (1, 1)) 0 1 (Win 1 0 1 1)) by (split; [right; left; reflexivity|unfold in_win; cbn; lia]).
  destruct (remap_value_dilated tiling_job false _ _ ras1 W1 (order_id _) (proj1 (dilates_spec (o_cfg tiling_job) (o_nodata tiling_job)) eq_refl) R1 1 0 1 _ Hb Hin T1) as [A _].
  destruct (remap_value_dilated (with_block tiling_job (1, 1)) false _ _ ras2 W2 (order_id _) (proj1 (dilates_spec (o_cfg tiling_job) (o_nodata tiling_job)) eq_refl) R2 1 0 1 _ Hb Hin T2) as [_ B].
  rewrite A, B.
  - change (ortho_value (with_block tiling_job (1, 1)) 1 0 1) with (ortho_value tiling_job 1 0 1). rewrite V1. discriminate.
  - intros (r' & c' & Hi & _ & Hnd). unfold in_win in Hi. cbn in Hi. assert (r' = 0) as -> by lia. assert (c' = 1) as -> by lia.
    specialize (Hnd 1 Hb). change (ortho_value (with_block tiling_job (1, 1)) 1 0 1) with (ortho_value tiling_job 1 0 1) in Hnd.
    rewrite V1 in Hnd. cbn in Hnd. discriminate.
  - exists 0, 0. split; [unfold in_win; cbn; lia|]. split.
    + destruct (kernel_ge3 (o_gsd tiling_job) (o_transform tiling_job)) as [K1 K2].
      set (k := kernel_size _ _) in *. clearbody k. unfold under_kernel.
      assert (1 <= fst k / 2) by (apply Z.div_le_lower_bound; lia).
      pose proof (Z.div_lt (fst k) 2). pose proof (Z.div_lt (snd k) 2). pose proof (Z.div_pos (snd k) 2). lia.
    + intros b Hb'. unfold group_bands_of, in_range in Hb'. cbn in Hb'. assert (b = 1) as -> by lia. rewrite V0. cbn. reflexivity.
Qed.

(** * C28 *)
Theorem per_band_mask_agrees : forall job order order' ras ras1 ras2, well_formed job -> o_write_mask job = true ->
  schedule job order -> schedule job order' ->
  ~ dilation_applies (o_cfg job) (o_nodata job) ->
  ortho_remap job false order ras = (ras1, Ok tt) ->
  ortho_remap job true order' ras = (ras2, Ok tt) ->
  forall r c, in_im (o_height job) (o_width job) r c ->
  (dmask ras1 r c = dmask ras2 r c <->
   (is_nodata (o_nodata job) (bands ras1 1 r c) ->
    forall b, in_range (o_count job) b -> is_nodata (o_nodata job) (bands ras1 b r c))).
Proof.
  intros job o o' ras ras1 ras2 W M S S' D R1 R2 r c Hin.
  pose proof (remap_mask job false o ras ras1 W S M R1 r c Hin) as M1.
  pose proof (remap_mask job true o' ras ras2 W S' M R2 r c Hin) as M2. cbn in M1, M2.
  assert (H1 : in_range (o_count job) 1) by (destruct W as (_ & _ & ? & _); unfold in_range; lia).
  assert (E1 : bands ras2 1 r c = bands ras1 1 r c).
  { rewrite (remap_value_pixelwise job true o' ras ras2 W S' D R2 1 r c H1 Hin).
    rewrite (remap_value_pixelwise job false o ras ras1 W S D R1 1 r c H1 Hin). reflexivity. }
  split.
  - intros E Hn b Hb. apply M1; [|assumption]. rewrite E. apply M2. intros b' ->. rewrite E1. assumption.
  - intros Himp. destruct (dmask ras2 r c) eqn:E2.
    + destruct (dmask ras1 r c) eqn:E3; [reflexivity|]. exfalso.
      assert (true = false); [|discriminate]. apply M2. intros b ->. rewrite E1. apply M1; auto.
    + apply M1. apply Himp. rewrite <- E1. apply M2; reflexivity.
Qed.

(** Witness: two bands, band 1 zero (= nodata) and band 2 valid. *)
Definition mask_job : ortho_job :=
  Job (fun p => (snd p, snd p))
      (fun im j i => Some (aget im 0 0))
      (RCfg true false false) 1 1 2 (1, 1) (Aff 1 0 0 0 (-1) 0) (PVal 0)
      (fun b => Arr 1 1 (fun _ _ => PVal (if b =? 1 then 0 else 9)))
      (Arr 1 1 (fun r c => Num 0))
      1 true (fun _ _ => false).

Theorem per_band_mask_differs :
  exists job order ras ras1 ras2, well_formed job /\ schedule job order /\
  ortho_remap job false order ras = (ras1, Ok tt) /\ ortho_remap job true order ras = (ras2, Ok tt) /\
  exists r c, in_im (o_height job) (o_width job) r c /\ dmask ras1 r c <> dmask ras2 r c.
Proof.
  assert (W : well_formed mask_job) by (unfold well_formed; cbn; lia).
  destruct (run_ok mask_job false W) as [ras1 R1]; [intros g w _ _; reflexivity|].
  destruct (run_ok mask_job true W) as [ras2 R2]; [intros g w _ _; reflexivity|].
  exists mask_job. eexists. exists empty_ras, ras1, ras2.
  split; [exact W|]. split; [apply order_id|]. split; [exact R1|]. split; [exact R2|].
  assert (Hin : in_im 1 1 0 0) by (unfold in_im; lia).
  exists 0, 0. split; [exact Hin|]. intros E.
  destruct (per_band_mask_agrees mask_job _ _ _ ras1 ras2 W eq_refl (order_id _) (order_id _) (proj1 (dilates_false (o_cfg mask_job) (o_nodata mask_job)) eq_refl) R1 R2 0 0 Hin) as [X _].
  specialize (X E).
  assert (H1 : in_range (o_count mask_job) 1) by (unfold in_range; cbn; lia).
  assert (H2 : in_range (o_count mask_job) 2) by (unfold in_range; cbn; lia).
  rewrite (remap_value_pixelwise mask_job false _ _ ras1 W (order_id _) (proj1 (dilates_false (o_cfg mask_job) (o_nodata mask_job)) eq_refl) R1 1 0 0 H1 Hin) in X.
  specialize (X ltac:(unfold ortho_value, source_value; cbn; reflexivity) 2 H2).
  rewrite (remap_value_pixelwise mask_job false _ _ ras1 W (order_id _) (proj1 (dilates_false (o_cfg mask_job) (o_nodata mask_job)) eq_refl) R1 2 0 0 H2 Hin) in X.
  unfold ortho_value, source_value in X. cbn in X. discriminate.
Qed.

(** * C60 *)
Theorem default_nodata_raises : forall w2p sample dtype ims x y z,
  ~ exists r, camera_remap_opt w2p sample dtype ims x y z None = Ok r.
Proof.
  intros w2p sample dtype ims x y z [r E]. unfold camera_remap_opt in E. destruct (negb _); [discriminate|].
  cbn in E. discriminate.
Qed.

Theorem default_nodata_keyerror : forall w2p sample dtype ims x y z,
  ah x = ah y -> ah y = ah z -> aw x = aw y -> aw y = aw z ->
  camera_remap_opt w2p sample dtype ims x y z None = Err KeyError.
Proof.
  intros w2p sample dtype ims x y z H1 H2 H3 H4. unfold camera_remap_opt. rewrite H1, H2, H3, H4, !Z.eqb_refl. reflexivity.
Qed.

Lemma Forall2_nth : forall A B (R : A -> B -> Prop) l m k a b,
  Forall2 R l m -> nth_error l k = Some a -> nth_error m k = Some b -> R a b.
Proof.
  intros A B R l m k a b H. revert k. induction H as [|x y l m Hxy H IH]; intros [|k] Ha Hb; cbn in *; try discriminate.
  - inversion Ha; inversion Hb; subst. assumption.
  - eapply IH; eassumption.
Qed.

Theorem explicit_nodata_used : forall w2p sample dtype ims x y z nodata,
  ah x = ah y -> ah y = ah z -> aw x = aw y -> aw y = aw z ->
  exists arrs mask, camera_remap_opt w2p sample dtype ims x y z (Some nodata) = Ok (arrs, mask) /\
  List.length arrs = List.length ims /\
  forall k im a r c, nth_error ims k = Some im -> nth_error arrs k = Some a ->
  forall j i, w2p (aget x r c, aget y r c, aget z r c) = (Num j, Num i) ->
  aget a r c = match sample im j i with Some v => v | None => nodata end.
Proof.
  intros w2p sample dtype ims x y z nodata H1 H2 H3 H4.
  destruct (camera_remap_ok w2p sample ims x y z nodata H1 H2 H3 H4) as (arrs & mask & E & _ & _ & F & _).
  exists arrs, mask. split; [exact E|]. split; [symmetry; eapply Forall2_length; exact F|].
  intros k im a r c Hk Ha j i Ew. destruct (Forall2_nth _ _ _ _ _ _ _ _ F Hk Ha) as (_ & _ & P).
  rewrite P. unfold remap_value. rewrite Ew. reflexivity.
Qed.

Definition demo_job (cfg : remap_cfg) : ortho_job :=
  Job (fun p => match p with (x, y, Nan) => (Nan, Nan) | (x, y, Num _) => (x, y) end)
      (fun im j i => if Rle_dec j (-1) then None else if Rle_dec (IZR (aw im)) j then None else
                     if Rle_dec i (-1) then None else if Rle_dec (IZR (ah im)) i then None else
                     Some (aget im 0 0))
      cfg 3 5 2 (2, 2) (Aff 2 0 10 0 (-2) 20) (PVal 0)
      (fun b => Arr 30 30 (fun _ _ => PVal (inject_Z b)))
      (Arr 3 5 (fun r c => if (r =? 1) && (c =? 1) then Nan else Num 100))
      1 true (fun _ _ => false).


Lemma demo_job_ok : forall cfg per_band,
  let job := demo_job cfg in
  well_formed job /\ transparent_border (o_sample job) /\ no_task_fails job per_band /\
  schedule job (fun _ => rev (block_windows 3 5 (2, 2))) /\
  (exists w, tile_of job 0 1 w) /\
  (distort cfg = true -> ~ dilation_applies cfg (o_nodata job)) /\
  ortho_value job 1 1 1 = PVal 0 /\ ortho_value job 2 0 0 = PVal 2 /\
  exists ras', ortho_remap job per_band (fun _ => rev (block_windows 3 5 (2, 2))) empty_ras = (ras', Ok tt).
Proof.
  intros cfg pb job.
  assert (W : well_formed job) by (unfold well_formed; cbn; lia).
  assert (Hn : no_task_fails job pb) by (intros g w _ _; reflexivity).
  assert (S : schedule job (fun _ => rev (block_windows 3 5 (2, 2)))).
  { intros g. apply Permutation_sym. apply Permutation_rev. }
  split; [exact W|]. split.
  { intros im j i H. cbn. repeat match goal with |- context [Rle_dec ?a ?b] => destruct (Rle_dec a b) end; try reflexivity.
    exfalso. tauto. }
  split; [exact Hn|]. split; [exact S|]. split.
  { exists (Win 0 0 2 2). split; [left; reflexivity|unfold in_win; cbn; lia]. }
  split. { intros Hd (Hx & _). congruence. }
  split. { unfold ortho_value, source_value. cbn.
    repeat match goal with |- context [Rle_dec ?a ?b] => destruct (Rle_dec a b); try lra end; reflexivity. }
  split. { unfold ortho_value, source_value. cbn.
    repeat match goal with |- context [Rle_dec ?a ?b] => destruct (Rle_dec a b); try lra end; reflexivity. }
  destruct (remap_result job pb _ empty_ras W S) as [A _]. specialize (A Hn).
  destruct (ortho_remap _ _ _ _) as [s e]. cbn in A. subst. eexists. reflexivity.
Qed.

(** The grids must have the same shape; the results have it. *)
Lemma camera_remap_shapes : forall w2p sample ims x y z nodata,
  (ah x = ah y /\ ah y = ah z /\ aw x = aw y /\ aw y = aw z ->
   exists arrs mask, camera_remap w2p sample ims x y z nodata = Ok (arrs, mask) /\
     List.length arrs = List.length ims /\ (forall a, In a arrs -> ah a = ah x /\ aw a = aw x) /\
     ah mask = ah x /\ aw mask = aw x) /\
  (~ (ah x = ah y /\ ah y = ah z /\ aw x = aw y /\ aw y = aw z) ->
   camera_remap w2p sample ims x y z nodata = Err ValueError).
Proof.
  intros w2p sample ims x y z nodata. unfold camera_remap. split.
  - intros (H1 & H2 & H3 & H4). rewrite (proj2 (Z.eqb_eq _ _) H1), (proj2 (Z.eqb_eq _ _) H2), (proj2 (Z.eqb_eq _ _) H3), (proj2 (Z.eqb_eq _ _) H4).
    cbn [andb negb]. do 2 eexists. split; [reflexivity|]. split; [apply map_length|]. split; [|split; reflexivity].
    intros a Ha. apply in_map_iff in Ha. destruct Ha as (im & <- & _). split; reflexivity.
  - intros H. destruct (Z.eqb_spec (ah x) (ah y)), (Z.eqb_spec (ah y) (ah z)), (Z.eqb_spec (aw x) (aw y)), (Z.eqb_spec (aw y) (aw z));
      cbn [andb negb]; try reflexivity. exfalso. auto.
Qed.
