(** Property theorems: C104 RPC image files and GCPs to refined pixels. *)
From Coq Require Import String List Reals ZArith Bool Lra Lia.
From Verif Require Import Py Flt Mat Rpc_Model Rpc_Spec Rpc_Proof Factory_Model Factory_Spec Read_Model Read_Spec Frame_Model Cam_Model Cam_Spec Rcam_Model Rcam_Spec Rcam_Proof Rcam_Props
  Adjust_Model Adjust_Spec Adjust_Proof.
Import ListNotations.
Open Scope string_scope.
Open Scope list_scope.
Open Scope R_scope.

Section Props.
Variable C : Type.
Variable parse_crs : string -> res C.
Variable rpc_crs : C.
Variable O : Type.
Variable no_options : O.
Variable warp : C -> C -> list vec -> list vec.
Variable lstsq : list R -> list R -> R * R.
Variable crs : crs_arg C.
Variable options : option O.
Variable F : Type.
Variable filename : F -> string.
Notation get := (rpc_get (create C parse_crs rpc_crs O no_options warp crs options)).
Notation calls := (calls C parse_crs rpc_crs O no_options warp lstsq crs options).
Notation from_images := (from_images C O F filename).
Notation filenames := (filenames C O).
Notation world_to_pixel := (rpc_w2p_call C rpc_crs O warp).
Notation world_crs := (world_crs rpc_crs).

(** GDAL transforms points one by one, and not at all between equal CRSs. *)
Variable warp1 : C -> C -> vec -> vec.
Hypothesis warp_pointwise : forall a b l, warp a b l = map (warp1 a b) l.
Hypothesis warp_same : forall a v, warp1 a a v = v.

(** C104: with shifts only, after any history of calls the camera of an image sees each point where its tags' RPC model sees it, moved by the mean
    offset of the GCPs of the image's last refinement from where its tags' RPC model sees them; and not moved, when the image was never refined. *)
Theorem C104_shift : forall open_im files evs st0 cs st name f w h r e asked,
  from_images open_im files evs = Some (Ok st0) -> (forall f, In f files -> last_part (filename f) (filename f)) ->
  last_file filename files name f -> open_im f = Ok (w, h, Some (r, e)) -> valid_rpc r ->
  asks_crs parse_crs crs asked -> (forall c, asked = Some c -> keeps_heights (warp1 rpc_crs c) r) ->
  all_seen name r cs -> all_shifts name cs -> calls cs st0 = Ok st ->
  exists cam dj di, snd (get name st) = Ok cam /\ rc_w _ _ cam = w /\ rc_h _ _ cam = h /\ camera_crs C rpc_crs O cam = world_crs asked /\ offset_after r name cs dj di /\
  forall xyz, world_array xyz -> exists out, world_to_pixel cam xyz = Ok out /\
    Forall2 (fun p q => exists q0, pixel_of (warp1 (world_crs asked) rpc_crs) r p q0 /\ moved dj di q0 q) (nd_data xyz) out.
Proof. exact (shift_pixels C parse_crs rpc_crs O no_options warp lstsq crs options F filename warp1 warp_pointwise warp_same). Qed.

(** C104: with any methods, a point is seen where one affine function per axis takes the pixel of the tags' RPC model, and the GCPs of the last
    refinement then have residuals that sum to zero. *)
Theorem C104_refined : solves_normal_equations lstsq -> forall open_im files evs st0 cs st name f w h r e asked,
  from_images open_im files evs = Some (Ok st0) -> (forall f, In f files -> last_part (filename f) (filename f)) ->
  last_file filename files name f -> open_im f = Ok (w, h, Some (r, e)) -> valid_rpc r ->
  asks_crs parse_crs crs asked -> (forall c, asked = Some c -> keeps_heights (warp1 rpc_crs c) r) ->
  all_seen name r cs -> calls cs st0 = Ok st ->
  exists cam a b c d, snd (get name st) = Ok cam /\ rc_w _ _ cam = w /\ rc_h _ _ cam = h /\ camera_crs C rpc_crs O cam = world_crs asked /\
  (forall xyz, world_array xyz -> exists out, world_to_pixel cam xyz = Ok out /\
     Forall2 (fun p q => exists q0, pixel_of (warp1 (world_crs asked) rpc_crs) r p q0 /\ stretched a b c d q0 q) (nd_data xyz) out) /\
  (forall m g, last_refined name cs m g -> exists jis, seen_gcps r g jis /\
     let refined := map (fun ji => (a * fst ji + b, c * snd ji + d)) jis in sum_over columns g refined = 0 /\ sum_over rows g refined = 0).
Proof. exact (refined_pixels C parse_crs rpc_crs O no_options warp lstsq crs options F filename warp1 warp_pointwise warp_same). Qed.

(** C104: when the last refinement is a shift and drift, after shifts at most, that function is the best for its GCPs: no other has a smaller sum of
    squared residuals on either axis. *)
Theorem C104_drift : solves_normal_equations lstsq -> forall open_im files evs st0 before gcps after st name f w h r e asked g,
  from_images open_im files evs = Some (Ok st0) -> (forall f, In f files -> last_part (filename f) (filename f)) ->
  last_file filename files name f -> open_im f = Ok (w, h, Some (r, e)) -> valid_rpc r ->
  asks_crs parse_crs crs asked -> (forall c, asked = Some c -> keeps_heights (warp1 rpc_crs c) r) ->
  all_seen name r (before ++ Refine ShiftDrift gcps :: after) -> all_shifts name before -> gcps_for gcps name g -> never_refined name after ->
  calls (before ++ Refine ShiftDrift gcps :: after) st0 = Ok st ->
  exists cam a b c d jis, snd (get name st) = Ok cam /\ seen_gcps r g jis /\ best_fit columns fst a b g jis /\ best_fit rows snd c d g jis /\
  (forall xyz, world_array xyz -> exists out, world_to_pixel cam xyz = Ok out /\
     Forall2 (fun p q => exists q0, pixel_of (warp1 (world_crs asked) rpc_crs) r p q0 /\ stretched a b c d q0 q) (nd_data xyz) out).
Proof. exact (drift_pixels C parse_crs rpc_crs O no_options warp lstsq crs options F filename warp1 warp_pointwise warp_same). Qed.

(** C104: files that all open and have valid RPC tags give a factory with their names, under every schedule; and calls on it do not fail when the
    images' GCPs are seen by their tags' models and are enough for the method. *)
Theorem C104_loads : forall open_im files evs, Read_Spec.complete files evs -> (forall f, In f files -> last_part (filename f) (filename f)) ->
  (forall f, In f files -> exists w h r e, open_im f = Ok (w, h, Some (r, e)) /\ valid_rpc r) ->
  exists st0, from_images open_im files evs = Some (Ok st0) /\ filenames st0 = first_names (map filename files) /\
  forall cs, (forall name f w h r e, last_file filename files name f -> open_im f = Ok (w, h, Some (r, e)) -> all_seen name r cs) ->
    (forall m gcps name g, In (Refine m gcps) cs -> In name (map filename files) -> gcps_for gcps name g -> enough m g) ->
    exists st, calls cs st0 = Ok st /\ filenames st = first_names (map filename files).
Proof. exact (images_load C parse_crs rpc_crs O no_options warp lstsq crs options F filename). Qed.

(** C104: the first file that has no RPC tags or does not open is the error. *)
Theorem C104_refused : forall open_im before f after evs, Read_Spec.complete (before ++ f :: after) evs ->
  (forall g, In g before -> exists w h t, open_im g = Ok (w, h, Some t)) ->
  (forall size, open_im f = Ok (size, None) -> from_images open_im (before ++ f :: after) evs = Some (Err ParamError)) /\
  (open_im f = Err FileNotFoundError -> from_images open_im (before ++ f :: after) evs = Some (Err FileNotFoundError)) /\
  (forall e, open_im f = Err e -> e <> FileNotFoundError -> e <> ParamError -> from_images open_im (before ++ f :: after) evs = Some (Err RuntimeError)).
Proof. exact (images_refused C O F filename). Qed.

(** C104: GCPs read from image tags move an image by the mean offset of its own GCPs. *)
Theorem C104_tags : forall D (open_gcps : F -> res (list (rio_gcp R) * D)) is_lla to_lla open_im files evs gfiles gevs gcps st0 st name f f' w h r e asked,
  (forall c l l', to_lla c l = Ok l' -> List.length l' = List.length l) ->
  from_images open_im files evs = Some (Ok st0) -> (forall f, In f files -> last_part (filename f) (filename f)) ->
  last_file filename files name f -> open_im f = Ok (w, h, Some (r, e)) -> valid_rpc r ->
  asks_crs parse_crs crs asked -> (forall c, asked = Some c -> keeps_heights (warp1 rpc_crs c) r) ->
  read_im_gcps filename open_gcps is_lla to_lla gfiles gevs = Some (Ok gcps) -> last_file filename gfiles name f' ->
  (forall g, tag_gcps open_gcps is_lla to_lla f' g -> exists jis, seen_gcps r g jis) ->
  calls [Refine Shift gcps] st0 = Ok st ->
  exists cam g dj di, snd (get name st) = Ok cam /\ tag_gcps open_gcps is_lla to_lla f' g /\ mean_offset r g dj di /\
  forall xyz, world_array xyz -> exists out, world_to_pixel cam xyz = Ok out /\
    Forall2 (fun p q => exists q0, pixel_of (warp1 (world_crs asked) rpc_crs) r p q0 /\ moved dj di q0 q) (nd_data xyz) out.
Proof. exact (tags_pixels C parse_crs rpc_crs O no_options warp lstsq crs options F filename warp1 warp_pointwise warp_same). Qed.
End Props.
Print Assumptions C104_shift.
Print Assumptions C104_refined.
Print Assumptions C104_drift.
Print Assumptions C104_loads.
Print Assumptions C104_refused.
Print Assumptions C104_tags.

(** Two images with the model that sees longitude and latitude as column and row, of which one is refined twice, with a world CRS that is shifted by 100. *)
Definition demo_open (f : nat) : res (Z * Z * option rpc_tags) := Ok (4, 3, Some (demo, (RNone, RNone)))%Z.
Definition demo_name (f : nat) : string := match f with O => "a.tif" | _ => "b.tif" end.
Definition demo_gcps : list (oty_gcp R) := [OtyGcp (3, 4) (1, 1, 0) "1" ""; OtyGcp (5, 6) (2, 2, 9) "2" ""].
Definition demo_calls : list call := [Get "a.tif"; Refine Shift [("a.tif", [OtyGcp (7, 7) (0, 0, 0) "" ""])]; Get "a.tif"; Refine Shift [("a", demo_gcps)]; Refine ShiftDrift [("c.tif", demo_gcps)]].
Definition demo_evs : list event := [Finish 1; Collect; Finish 0; Collect; Collect; Collect].
Notation demo_create := (create bool (fun _ => Ok false) true unit tt shift_many (CrsStr bool "EPSG:3857") None).
Notation demo_run := (calls bool (fun _ => Ok false) true unit tt shift_many lstsq_closed (CrsStr bool "EPSG:3857") None demo_calls).

Lemma demo_pixel : forall x y z, rpc_pixel demo (V3 x y z) (Num x, Num y).
Proof. intros x y z. apply (sees_pixel demo (V3 x y z) (x, y) demo_valid). apply demo_sees. Qed.
Lemma demo_seen : forall name cs, all_seen name demo cs.
Proof.
  intros name cs m gcps g _ _. exists (map (fun x => (vx (position x), vy (position x))) g). induction g as [|a g IH]; [constructor|]. cbn [map]. constructor; [|exact IH].
  destruct a as [ji [[x y] z] i j]. apply demo_pixel.
Qed.
Lemma a_file : last_file demo_name [0; 1]%nat "a.tif" 0%nat.
Proof. exists [], [1%nat]. split; [reflexivity|]. split; [reflexivity|]. intros g [<-|[]]. discriminate. Qed.
Lemma b_file : last_file demo_name [0; 1]%nat "b.tif" 1%nat.
Proof. exists [0%nat], []. split; [reflexivity|]. split; [reflexivity|]. intros g []. Qed.
Lemma demo_parts : forall f, last_part (demo_name f) (demo_name f).
Proof. intros [|f]; constructor; intros H; vm_compute in H; intuition discriminate. Qed.

Example C104_case : exists st0 st a b, from_images bool unit nat demo_name demo_open [0; 1]%nat demo_evs = Some (Ok st0) /\ demo_run st0 = Ok st /\
  snd (rpc_get demo_create "a.tif" st) = Ok a /\ snd (rpc_get demo_create "b.tif" st) = Ok b /\
  rpc_w2p_call bool true unit shift_many a (Nd "float64" [3; 1]%Z [(Num 110, Num 20, Num 0)]) = Ok [(Num (10 + 5 / 2), Num (20 + 7 / 2))] /\
  rpc_w2p_call bool true unit shift_many b (Nd "float64" [3; 1]%Z [(Num 110, Num 20, Num 0)]) = Ok [(Num 10, Num 20)].
Proof.
  set (W := fun a v => ltac:(unfold shift1; rewrite eqb_reflx; reflexivity) : shift1 a a v = v).
  destruct (C104_loads bool (fun _ => Ok false) true unit tt shift_many lstsq_closed (CrsStr bool "EPSG:3857") None nat demo_name demo_open [0; 1]%nat demo_evs) as (st0 & E0 & _ & Run).
  { exists [Finish 1; Collect; Finish 0]. split; [reflexivity|]. intros [|[|i]] Hi; cbn in *; [tauto|tauto|lia]. }
  { intros f _. apply demo_parts. }
  { intros f _. exists 4%Z, 3%Z, demo, (RNone, RNone). split; [reflexivity|exact demo_valid]. }
  destruct (Run demo_calls) as (st & Ec & _).
  { intros name f w h r e _ Eo. injection Eo as <- <- <- <-. apply demo_seen. }
  { intros m gcps name g Hin Hn Hg. assert (X : In m [Shift; ShiftDrift]) by (destruct m; cbn; tauto). destruct m; cbn.
    - destruct Hg as [_ Ng]. destruct g; [contradiction|cbn; lia].
    - cbn in Hin. destruct Hin as [Q|[Q|[Q|[Q|[Q|[]]]]]]; try discriminate Q. injection Q as <-. destruct Hg as [Hg _]. apply Factory_Proof.get_by_name_iff in Hg.
      cbn in Hn. destruct Hn as [<-|[<-|[]]]; vm_compute in Hg; discriminate. }
  assert (Ask : asks_crs (fun _ : string => Ok false) (CrsStr bool "EPSG:3857") (Some false)) by (right; split; [discriminate|exists false; auto]).
  assert (Kh : forall c, Some false = Some c -> keeps_heights (shift1 true c) demo) by (intros c Q; injection Q as <-; intros k _; reflexivity).
  assert (Sh : forall name, (name = "a.tif" \/ name = "b.tif") -> all_shifts name demo_calls).
  { intros name Hn m gcps g Hin Hg. cbn in Hin. destruct Hin as [Q|[Q|[Q|[Q|[Q|[]]]]]]; try discriminate Q; injection Q as <- <-; try reflexivity.
    destruct Hg as [Hg _]. apply Factory_Proof.get_by_name_iff in Hg. destruct Hn as [->| ->]; vm_compute in Hg; discriminate. }
  assert (Px : forall name f, last_file demo_name [0; 1]%nat name f -> (name = "a.tif" \/ name = "b.tif") -> exists cam dj di, snd (rpc_get demo_create name st) = Ok cam /\ offset_after demo name demo_calls dj di /\
    rpc_w2p_call bool true unit shift_many cam (Nd "float64" [3; 1]%Z [(Num 110, Num 20, Num 0)]) = Ok [(Num (10 + dj), Num (20 + di))]).
  { intros name f L Hn. destruct (C104_shift bool (fun _ => Ok false) true unit tt shift_many lstsq_closed (CrsStr bool "EPSG:3857") None nat demo_name shift1 (fun _ _ _ => eq_refl) W
      demo_open [0; 1]%nat demo_evs st0 demo_calls st name f 4%Z 3%Z demo (RNone, RNone) (Some false)) as (cam & dj & di & A1 & _ & _ & _ & A5 & A6);
      [exact E0|intros g _; apply demo_parts|exact L|reflexivity|exact demo_valid|exact Ask|exact Kh|apply demo_seen|apply Sh, Hn|exact Ec|].
    exists cam, dj, di. split; [exact A1|]. split; [exact A5|]. destruct (A6 (Nd "float64" [3; 1]%Z [(Num 110, Num 20, Num 0)])) as (out & Eo & Fo); [split; [exists 1%Z; reflexivity|reflexivity]|].
    rewrite Eo. f_equal. inversion Fo as [|? [x y] ? ? (q0 & Q1 & Q2) F1]; subst. inversion F1; subst. cbn in Q1. pose proof (rpc_pixel_fun _ _ _ _ Q1 (demo_pixel (110 - 100) 20 0)) as ->.
    destruct Q2 as [Qx Qy]. cbn in Qx, Qy. subst. repeat f_equal; lra. }
  destruct (Px "a.tif" 0%nat a_file (or_introl eq_refl)) as (a & dj & di & A1 & A2 & A3). destruct (Px "b.tif" 1%nat b_file (or_intror eq_refl)) as (b & dj' & di' & B1 & B2 & B3).
  exists st0, st, a, b. repeat (split; [assumption|]).
  assert (Ga : gcps_for [("a", demo_gcps)] "a.tif" demo_gcps) by (split; [apply Factory_Proof.get_by_name_iff; reflexivity|discriminate]).
  split.
  - rewrite A3. destruct A2 as [(N & _)|(m & g & (bf & gc & af & Q & Hg & Na) & jis & Hs & Hj & Hi)].
    { exfalso. refine (N Shift [("a", demo_gcps)] demo_gcps _ Ga). cbn. tauto. }
    assert (Eg : g = demo_gcps).
    { destruct bf as [|b0 [|b1 [|b2 [|b3 [|b4 bf]]]]]; cbn in Q; try discriminate Q; injection Q; intros; subst.
      - exfalso. refine (Na Shift [("a", demo_gcps)] demo_gcps _ Ga). cbn. tauto.
      - destruct Hg as [Hg _]. apply Factory_Proof.get_by_name_iff in Hg. cbn in Hg. congruence.
      - destruct Hg as [Hg _]. apply Factory_Proof.get_by_name_iff in Hg. vm_compute in Hg. discriminate.
      - destruct bf; discriminate. }
    subst g. pose proof (proj1 (seen_sees demo demo_gcps jis demo_valid) Hs) as Hss.
    assert (Ej : jis = [(1, 1); (2, 2)]). { refine (sees_gcps_fun demo (map fit_gcp demo_gcps) _ _ Hss _). constructor; [apply demo_sees|]. constructor; [apply demo_sees|constructor]. }
    subst jis. unfold columns, rows in Hj, Hi. cbn in Hj, Hi. repeat f_equal; lra.
  - rewrite B3. destruct B2 as [(_ & -> & ->)|(m & g & (bf & gc & af & Q & Hg & _) & _)]; [repeat f_equal; lra|]. exfalso.
    assert (In (Refine m gc) demo_calls) as Hin by (rewrite Q; apply in_or_app; right; left; reflexivity). destruct Hg as [Hg _]. apply Factory_Proof.get_by_name_iff in Hg.
    cbn in Hin. destruct Hin as [X|[X|[X|[X|[X|[]]]]]]; try discriminate X; injection X as <- <-; vm_compute in Hg; discriminate.
Qed.

(** The hypotheses of the other theorems: a solver, GCPs for shift and drift of the image, and GCPs of tags. *)
Example C104_other_cases : solves_normal_equations lstsq_closed /\ gcps_for [("a.tif", demo_gcps)] "a.tif" demo_gcps /\ enough ShiftDrift demo_gcps /\
  best_fit columns fst 2 1 demo_gcps [(1, 1); (2, 2)] /\
  tag_gcps (fun _ : nat => Ok ([RioGcp 3 4 (1, 1, 0) "1" ""; RioGcp 5 6 (2, 2, 9) "2" ""], true)) (fun b => b) (fun _ l => Ok l) 0%nat demo_gcps.
Proof.
  split; [exact lstsq_closed_solves|]. split; [split; [apply Factory_Proof.get_by_name_iff; reflexivity|discriminate]|]. split; [cbn; lia|]. split.
  - intros a b. unfold columns. cbn. assert (H : forall x, 0 <= x * (x * 1)) by (intros x; rewrite Rmult_1_r; apply Rle_0_sqr).
    pose proof (H (3 - (a * 1 + b))). pose proof (H (5 - (a * 2 + b))). lra.
  - do 3 eexists. split; [reflexivity|]. split; [discriminate|]. cbn. repeat split.
Qed.
