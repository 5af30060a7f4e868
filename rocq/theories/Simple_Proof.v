(** Proofs for Simple_Props (C97, C98). *)
From Coq Require Import String List Reals QArith Qreals ZArith Bool Lra Lia.
From Verif Require Import Py Py_Proof Flt Mat Remap_Model Frame_Model Frame_Spec Undist_Model Undist_Spec Validate_Model Params_Model Params_Spec Params_Proof
  Factory_Model Read_Spec Csv_Model Csv_Proof Cli_Model Cli_Spec Cam_Model Cam_Spec Cam_Proof Rpc_Model Rcam_Model Proj_Spec Make_Model Make_Spec Make_Proof Scene_Spec SceneDoc_Proof Simple_Model Simple_Spec.
From Verif Require Read_Proof.
Import ListNotations.
Open Scope string_scope.
Open Scope list_scope.

(** * Configuration *)

Lemma kget_kput : forall d k j v, kget (KStr k) (kput j v d) = if String.eqb k j then option_map (fun _ => v) (kget (KStr k) d) else kget (KStr k) d.
Proof.
  intros d k j v. induction d as [|[k' w] d IH]; [cbn; destruct (String.eqb k j); reflexivity|]. cbn [kput map fst]. fold (kput j v d).
  destruct (key_eqb k' (KStr j)) eqn:E; cbn [kget]; rewrite IH.
  - apply key_eqb_eq in E. subst. rewrite key_eqb_KStr. destruct (String.eqb k j); reflexivity.
  - destruct (key_eqb (KStr k) k') eqn:E2; [|reflexivity]. apply key_eqb_eq in E2. subst. rewrite key_eqb_KStr in E. rewrite E. reflexivity.
Qed.

Lemma kput_keys : forall d j v, map fst (kput j v d) = map fst d.
Proof. intros d j v. unfold kput. rewrite map_map. apply map_ext. intros [k w]. cbn. destruct (key_eqb k (KStr j)); reflexivity. Qed.

Lemma kdel_keys : forall (d : list (pykey * pyval)) j k, In k (map fst (kdel j d)) -> In k (map fst d).
Proof. intros d j k H. apply in_map_iff in H. destruct H as ([k' v] & <- & H). apply filter_In in H. apply (in_map fst _ _ (proj1 H)). Qed.

Lemma spline_keys : forall d k x, In x (map fst (no_spline d k)) -> In x (map fst d).
Proof. intros d k x. unfold no_spline. destruct (get_or k d PNone); auto. destruct (String.eqb s "cubic_spline"); auto. rewrite kput_keys. auto. Qed.

Lemma kget_spline : forall d j k, kget (KStr k) (no_spline d j) =
  match kget (KStr k) d with Some (PStr s) => if String.eqb k j && String.eqb s "cubic_spline" then Some (PStr "cubic") else Some (PStr s) | r => r end.
Proof.
  intros d j k. unfold no_spline, get_or. destruct (String.eqb_spec k j) as [->|N]; cbn [andb].
  - destruct (kget (KStr j) d) as [[]|] eqn:E; try exact E. destruct (String.eqb s "cubic_spline"); [|exact E]. rewrite kget_kput, String.eqb_refl, E. reflexivity.
  - assert (X : kget (KStr k) (match (match kget (KStr j) d with Some v => v | None => PNone end) with PStr s => if String.eqb s "cubic_spline" then kput j (PStr "cubic") d else d | _ => d end) = kget (KStr k) d).
    { destruct (match kget (KStr j) d with Some v => v | None => PNone end); try reflexivity. destruct (String.eqb s "cubic_spline"); [|reflexivity]. rewrite kget_kput, (eqb_ne k j N). reflexivity. }
    rewrite X. destruct (kget (KStr k) d) as [[]|]; reflexivity.
Qed.

Lemma keywords_of : forall d, (forall k, In k (map fst d) -> exists s, k = KStr s) ->
  exists e, keywords d = Ok e /\ (forall k, dget k e = option_map MV (kget (KStr k) d)) /\ (forall k, In k (map fst e) <-> In (KStr k) (map fst d)).
Proof.
  induction d as [|[k v] d IH]; intros H; [exists []; repeat split; try reflexivity; intros []|].
  destruct (H k (or_introl eq_refl)) as (s & ->). destruct IH as (e & E & G & K); [intros k Hk; apply H; right; exact Hk|].
  exists ((s, MV v) :: e). cbn [keywords]. rewrite E. split; [reflexivity|]. split.
  - intros k. cbn [dget kget]. rewrite key_eqb_KStr. destruct (String.eqb k s); [reflexivity|apply G].
  - intros k. cbn. rewrite K. split; intros [X|X]; auto; left; congruence.
Qed.

Lemma kget_filtered : forall (y : list (pykey * pyval)) k,
  kget (KStr k) (filter (fun kv => negb (key_eqb (fst kv) (KStr "name") || key_eqb (fst kv) (KStr "type"))) y) =
  if one_of k ["name"; "type"] then None else kget (KStr k) y.
Proof.
  intros y k. unfold one_of. cbn [existsb]. rewrite orb_false_r. induction y as [|[k' v] y IH]; cbn [filter kget]; [destruct (_ || _); reflexivity|]. cbn [fst].
  destruct (key_eqb k' (KStr "name") || key_eqb k' (KStr "type")) eqn:E; cbn [negb].
  - rewrite IH. destruct (key_eqb (KStr k) k') eqn:E2; [|reflexivity]. apply key_eqb_eq in E2. subst. rewrite !key_eqb_KStr in E. rewrite E. reflexivity.
  - cbn [kget]. rewrite IH. destruct (key_eqb (KStr k) k') eqn:E2; [|reflexivity]. apply key_eqb_eq in E2. subst. rewrite !key_eqb_KStr in E. rewrite E. reflexivity.
Qed.

(** What the plan of a configuration has. *)
Record planned (p : plan) (c : interior) (a : R) (d : bool) (o : list (pykey * pyval)) : Prop := {
  p_type : pl_type p = in_type c;
  p_crs : setting o "crs" PNone (pl_crs p);
  p_band : setting o "dem_band" (PInt 1) (pl_dem_band p);
  p_distort : pl_distort p = PBool d;
  p_options : exists opts, keywords (pl_options p) = Ok opts /\ forall k v, dget k opts = Some v <-> exists w, v = MV w /\ passed o k w;
  p_camera : exists cam, keywords (pl_camera p) = Ok cam /\ existsb (fun kv => one_of (fst kv) ["cam_type"; "xyz"; "opk"; "distort"]) cam = false /\
    describes (("cam_type", MCam (pl_type p)) :: cam ++ [("distort", MV (pl_distort p))]) c (None, None) d a
}.

Lemma setting_get : forall o k def, setting o k def (get_or k o def).
Proof. intros o k def. unfold setting, get_or. destruct (kget (KStr k) o); reflexivity. Qed.

Lemma described_section : forall y c a d, legacy_camera y c a ->
  exists cam, keywords (filter (fun kv => negb (key_eqb (fst kv) (KStr "name") || key_eqb (fst kv) (KStr "type"))) y) = Ok cam /\
  existsb (fun kv => one_of (fst kv) ["cam_type"; "xyz"; "opk"; "distort"]) cam = false /\
  describes (("cam_type", MCam (in_type c)) :: cam ++ [("distort", MV (PBool d))]) c (None, None) d a.
Proof.
  intros y c a d H. destruct (keywords_of (filter (fun kv => negb (key_eqb (fst kv) (KStr "name") || key_eqb (fst kv) (KStr "type"))) y)) as (cam & E & G & K).
  { intros k Hk. apply in_map_iff in Hk. destruct Hk as (kv & <- & Hk). apply filter_In in Hk. destruct (l_known _ _ _ H (fst kv) (in_map fst _ _ (proj1 Hk))) as (s & Es & _). eauto. }
  assert (Ks : forall k, In k (map fst cam) -> In k ["im_size"; "focal_len"; "alpha"] \/ optional_param (in_type c) k).
  { intros k Hk. apply K in Hk. apply in_map_iff in Hk. destruct Hk as (kv & Ek & Hk). apply filter_In in Hk. destruct Hk as (Hin & Hn). rewrite Ek, !key_eqb_KStr in Hn.
    apply (in_map fst) in Hin. rewrite Ek in Hin. destruct (l_known _ _ _ H _ Hin) as (s & Es & Hs). injection Es as <-.
    destruct Hs as [Hs|Hs]; [|auto]. left. destruct Hs as [<-|[<-|Hs]]; [discriminate Hn|discriminate Hn|exact Hs]. }
  assert (Nb : forall k, In k ["cam_type"; "xyz"; "opk"; "distort"] -> ~ In k (map fst cam)).
  { intros k Hk Hin. apply Ks in Hin. destruct Hin as [X|X]; [|apply optional_is in X; destruct X as [X|X]].
    - cbn in Hk, X. repeat (destruct Hk as [<-|Hk]; [intuition discriminate|]). exact Hk.
    - cbn in Hk, X. repeat (destruct Hk as [<-|Hk]; [intuition discriminate|]). exact Hk.
    - cbn in Hk. repeat (destruct Hk as [<-|Hk]; [destruct (in_type c); cbn in X; intuition discriminate|]). exact Hk. }
  exists cam. split; [exact E|]. split.
  { apply Bool.not_true_is_false. intros X. apply existsb_exists in X. destruct X as ([k v] & Hin & Hk). apply one_of_iff in Hk. cbn [fst] in Hk. exact (Nb k Hk (in_map fst _ _ Hin)). }
  set (kw := ("cam_type", MCam (in_type c)) :: cam ++ [("distort", MV (PBool d))]).
  assert (Gk : forall k, ~ In k ["cam_type"; "distort"; "name"; "type"] -> dget k kw = option_map MV (kget (KStr k) y)).
  { intros k Nk. unfold kw. cbn [dget]. rewrite (eqb_ne k "cam_type") by (cbn in Nk; intuition congruence). rewrite dget_app, G, kget_filtered.
    assert (one_of k ["name"; "type"] = false) as -> by (apply Bool.not_true_is_false; intros X; apply one_of_iff in X; cbn in *; tauto).
    destruct (option_map MV (kget (KStr k) y)) eqn:Eo; [reflexivity|]. cbn [dget]. rewrite (eqb_ne k "distort") by (cbn in Nk; intuition congruence). reflexivity. }
  assert (No : forall k, In k ["xyz"; "opk"; "distort"] -> dget k cam = None).
  { intros k Hk. destruct (dget k cam) as [v|] eqn:Ek; [|reflexivity]. apply dget_in in Ek. exfalso. apply (Nb k); [cbn in *; tauto|exact Ek]. }
  assert (Num : forall k x, ~ In k ["cam_type"; "distort"; "name"; "type"] -> real_at y k x -> number_at kw k 0 x).
  { intros k x Nk Hx. unfold number_at, real_at in *. rewrite Gk by exact Nk. destruct (kget (KStr k) y) as [v|]; cbn; [exists v; auto|exact Hx]. }
  destruct (l_type _ _ _ H) as (_ & Nr). split.
  - exact Nr.
  - intros k Hk. unfold kw in Hk. cbn [map fst] in Hk. rewrite map_app in Hk. destruct Hk as [<-|Hk]; [left; cbn; tauto|]. apply in_app_or in Hk. destruct Hk as [Hk|[<-|[]]]; [|left; cbn; tauto].
    apply Ks in Hk. destruct Hk as [Hk|Hk]; [left; cbn in *; tauto|]. apply optional_is in Hk. destruct Hk as [Hk|Hk]; [left; cbn in *; tauto|right; exact Hk].
  - eexists. split; [reflexivity|]. left. reflexivity.
  - eexists. split; [rewrite Gk by (cbn; intuition discriminate); rewrite (l_size _ _ _ H); reflexivity|]. right. reflexivity.
  - destruct (l_focal _ _ _ H) as (v & Ev & Hv). exists (MV v). split; [rewrite Gk by (cbn; intuition discriminate); rewrite Ev; reflexivity|].
    destruct Hv as [[Hv Eq]|(fx & fy & -> & H1 & H2)]; [left; eauto|]. right. right. exists [fx; fy]. split; [right; reflexivity|]. repeat constructor; assumption.
  - unfold numbers_at. rewrite Gk by (cbn; intuition discriminate). pose proof (l_sensor _ _ _ H) as X. destruct (kget (KStr "sensor_size") y) as [v|], (in_sensor c) as [[sw sh]|]; try contradiction; [|reflexivity].
    destruct X as (a1 & b & -> & H1 & H2). cbn. exists [sw; sh]. split; [reflexivity|]. exists [a1; b]. split; [right; reflexivity|]. repeat constructor; assumption.
  - apply Num; [cbn; intuition discriminate|apply (l_cx _ _ _ H)].
  - apply Num; [cbn; intuition discriminate|apply (l_cy _ _ _ H)].
  - intros k Hk. apply Num; [|apply (l_coefs _ _ _ H), Hk]. pose proof (coefficient_other _ _ Hk) as N. cbn in *. tauto.
  - apply (l_others _ _ _ H).
  - unfold numbers_at, kw. cbn [dget String.eqb Ascii.eqb Bool.eqb]. rewrite dget_app, No by (cbn; tauto). reflexivity.
  - unfold numbers_at, kw. cbn [dget String.eqb Ascii.eqb Bool.eqb]. rewrite dget_app, No by (cbn; tauto). reflexivity.
  - unfold kw. cbn [dget String.eqb Ascii.eqb Bool.eqb]. rewrite dget_app, No by (cbn; tauto). reflexivity.
  - unfold number_at. rewrite Gk by (cbn; intuition discriminate). pose proof (l_alpha _ _ _ H) as X. destruct (kget (KStr "alpha") y) as [v|]; cbn; [exists v; auto|exact X].
Qed.

Lemma plan_of : forall doc c a d o, configures doc c a d o -> exists p, read_plan doc = Ok p /\ planned p c a d o.
Proof.
  intros doc c a d o (cfg & y & -> & Ey & Hy & Eo & Ks & Sd).
  assert (O : as_dict (get_or "ortho" cfg (PDict [])) = Ok o) by (unfold get_or; destruct Eo as [->|[-> ->]]; reflexivity).
  unfold read_plan. cbn [as_dict bind]. rewrite O. cbn [bind]. rewrite Ey. cbn [bind as_dict].
  destruct (l_type _ _ _ Hy) as (St & Nr). assert (T : camera_type (MV (get_or "type" y (PStr "pinhole"))) = Ok (in_type c)).
  { unfold setting, get_or in *. destruct (kget (KStr "type") y) as [v|]; subst; cbn; [rewrite cam_of_value; reflexivity|]. injection St as St. destruct (in_type c); try discriminate St; reflexivity. }
  rewrite T. cbn [bind]. eexists. split; [reflexivity|].
  set (o' := fold_left no_spline ["interp"; "dem_interp"] (fold_left (fun d0 k => kdel k d0) ["driver"; "tile_size"; "nodata"; "interleave"; "photometric"] (kdel "dem_band" (kdel "crs" o)))).
  assert (G : forall k, kget (KStr k) o' = if one_of k ["crs"; "dem_band"; "driver"; "tile_size"; "nodata"; "interleave"; "photometric"] then None else
    match kget (KStr k) o with Some (PStr s) => if one_of k ["interp"; "dem_interp"] && String.eqb s "cubic_spline" then Some (PStr "cubic") else Some (PStr s) | r => r end).
  { intros k. unfold o'. cbn [fold_left]. rewrite !kget_spline, !kget_kdel. unfold one_of. cbn [existsb]. rewrite !orb_false_r.
    destruct (String.eqb k "photometric"), (String.eqb k "interleave"), (String.eqb k "nodata"), (String.eqb k "tile_size"), (String.eqb k "driver"), (String.eqb k "dem_band"), (String.eqb k "crs"); cbn [orb]; try reflexivity.
    destruct (kget (KStr k) o) as [[]|]; try reflexivity. destruct (String.eqb_spec k "interp") as [->|]; cbn [andb orb]; [|destruct (String.eqb_spec k "dem_interp"); reflexivity].
    destruct (String.eqb s "cubic_spline") eqn:E; cbn [andb]; [reflexivity|]. reflexivity. }
  assert (Ko : forall k, In k (map fst (kdel "full_remap" o')) -> exists s, k = KStr s).
  { intros k Hk. apply kdel_keys in Hk. unfold o' in Hk. cbn [fold_left] in Hk. do 2 apply spline_keys in Hk. do 7 apply kdel_keys in Hk. apply Ks, Hk. }
  split; cbn [pl_type pl_crs pl_dem_band pl_distort pl_options pl_camera].
  - reflexivity.
  - apply setting_get.
  - unfold setting, get_or. rewrite kget_kdel. cbn. destruct (kget (KStr "dem_band") o); reflexivity.
  - unfold get_or. rewrite (G "full_remap"). cbn. unfold setting in Sd. destruct (kget (KStr "full_remap") o) as [v|]; [subst v; reflexivity|symmetry; exact Sd].
  - destruct (keywords_of _ Ko) as (opts & E & Gk & _). exists opts. split; [exact E|]. intros k v. rewrite Gk, kget_kdel.
    destruct (String.eqb_spec k "full_remap") as [->|Nf].
    { split; [discriminate|]. intros (w & -> & [_ X _|X _ _]); [exfalso; apply X; cbn; tauto|cbn in X; intuition discriminate]. }
    rewrite G. destruct (one_of k ["crs"; "dem_band"; "driver"; "tile_size"; "nodata"; "interleave"; "photometric"]) eqn:E1.
    { apply one_of_iff in E1. split; [discriminate|]. intros (w & -> & [_ X _|X _ _]); [exfalso; apply X; cbn in *; tauto|]. cbn in X, E1. exfalso. destruct X as [<-|[<-|[]]]; intuition discriminate. }
    assert (N : ~ In k ["crs"; "dem_band"; "full_remap"; "driver"; "tile_size"; "nodata"; "interleave"; "photometric"]).
    { intros X. assert (Y : one_of k ["crs"; "dem_band"; "driver"; "tile_size"; "nodata"; "interleave"; "photometric"] = true) by (apply one_of_iff; cbn in *; intuition congruence). congruence. }
    set (rhs := exists w, v = MV w /\ passed o k w).
    assert (Plain : forall w, kget (KStr k) o = Some w -> ~ (In k ["interp"; "dem_interp"] /\ w = PStr "cubic_spline") -> (Some (MV w) = Some v <-> rhs)).
    { intros w Ew Hw. unfold rhs. split; [intros X; injection X as <-; exists w; split; [reflexivity|]; left; assumption|].
      intros (w' & -> & [X _ _|X1 X2 _]); [congruence|]. exfalso. apply Hw. split; [exact X1|congruence]. }
    destruct (kget (KStr k) o) as [w|] eqn:Ew.
    + destruct w; try (apply Plain; [reflexivity|intros [_ X]; discriminate X]).
      destruct (one_of k ["interp"; "dem_interp"]) eqn:E2; cbn [andb].
      * destruct (String.eqb_spec s "cubic_spline") as [->|Ns]; [|apply Plain; [reflexivity|intros [_ X]; congruence]].
        apply one_of_iff in E2. unfold rhs. split; [intros X; injection X as <-; exists (PStr "cubic"); split; [reflexivity|]; right; auto|].
        intros (w & -> & [X _ Y|_ _ ->]); [|reflexivity]. exfalso. apply Y. split; [exact E2|congruence].
      * apply Plain; [reflexivity|]. intros [X _]. apply one_of_iff in X. congruence.
    + unfold rhs. split; [discriminate|]. intros (w & -> & [X _ _|_ X _]); congruence.
  - unfold get_or. rewrite (G "full_remap"). cbn. assert (Ed : match kget (KStr "full_remap") o with Some (PStr s) => Some (PStr s) | r => r end = kget (KStr "full_remap") o) by (destruct (kget (KStr "full_remap") o) as [[]|]; reflexivity).
    rewrite Ed. assert (Ed' : match kget (KStr "full_remap") o with Some v => v | None => PBool true end = PBool d) by (unfold setting in Sd; destruct (kget (KStr "full_remap") o); congruence).
    rewrite Ed'. apply described_section, Hy.
Qed.

(** * Poses *)

Section Poses.
Variable pyfloat : string -> res Q.
Notation pose_row := (pose_row pyfloat).

Lemma row_dict : forall row k, dget k (dict_row pose_fields row) =
  if String.eqb k "file" then Some (nth_error row 0) else if String.eqb k "x" then Some (nth_error row 1) else if String.eqb k "y" then Some (nth_error row 2) else
  if String.eqb k "z" then Some (nth_error row 3) else if String.eqb k "omega" then Some (nth_error row 4) else if String.eqb k "phi" then Some (nth_error row 5) else
  if String.eqb k "kappa" then Some (nth_error row 6) else None.
Proof. reflexivity. Qed.

Lemma pose_row_is : forall row name l, pose_row row = Ok (name, l) <-> hd_error row = Some name /\ row_values pyfloat row l.
Proof.
  intros row name l. unfold row_values. split.
  - destruct row as [|f row]; [discriminate|]. cbn [Simple_Model.pose_row hd_error]. intros H.
    destruct (mapM _ _) as [v|] eqn:E; [|discriminate]. cbn [bind] in H. injection H as -> ->. split; [reflexivity|].
    cbn [mapM] in E. rewrite !row_dict in E. cbn [String.eqb Ascii.eqb Bool.eqb nth_error] in E.
    do 6 (destruct row as [|? row]; [repeat (cbn [nth_error] in E; try (destruct (pyfloat _); cbn [bind] in E; [|discriminate])); discriminate|]). cbn [nth_error] in E.
    repeat match type of E with context [pyfloat ?s] => let F := fresh in destruct (pyfloat s) eqn:F; cbn [bind] in E; [|discriminate] end. injection E as <-.
    split; [reflexivity|]. exists name, [s; s0; s1; s2; s3; s4], row. split; [reflexivity|]. repeat constructor; assumption.
  - intros (Hn & Hl & f & texts & extra & -> & F). injection Hn as ->. cbn [Simple_Model.pose_row].
    destruct l as [|q1 [|q2 [|q3 [|q4 [|q5 [|q6 [|? ?]]]]]]]; try discriminate Hl.
    repeat match goal with H : Forall2 _ ?t _ |- _ => inversion H; clear H; subst end.
    cbn [mapM]. rewrite !row_dict. cbn [String.eqb Ascii.eqb Bool.eqb nth_error app].
    repeat match goal with H : pyfloat ?s = Ok _ |- _ => rewrite H; clear H; cbn [bind] end. reflexivity.
Qed.

Lemma last_row : forall rows items name l, Forall2 (fun r i => pose_row r = Ok i) (filter (fun r : list string => match r with [] => false | _ => true end) rows) items ->
  last_named name items = Some l -> exists row, row_for rows name row /\ row_values pyfloat row l.
Proof.
  induction rows as [|r rows IH]; intros items name l F H; cbn [filter] in F; [inversion F; subst; discriminate|]. destruct r as [|f r].
  - destruct (IH items name l F H) as (row & (b & a & -> & X) & Y). exists row. split; [|exact Y]. exists ([] :: b), a. split; [reflexivity|exact X].
  - inversion F as [|? [n v] ? items' Hr F']; subst. cbn [last_named] in H. destruct (last_named name items') as [w|] eqn:E.
    + injection H as ->. destruct (IH items' name l F' E) as (row & (b & a & -> & X) & Y). exists row. split; [|exact Y]. exists ((f :: r) :: b), a. split; [reflexivity|exact X].
    + apply pose_row_is in Hr. destruct Hr as [Hn Hv]. injection Hn as <-. destruct (String.eqb_spec name f) as [->|N]; [|discriminate]. injection H as ->.
      exists (f :: r). split; [|exact Hv]. exists [], rows. split; [reflexivity|]. split; [reflexivity|].
      clear IH F Hv. revert items' F' E. induction rows as [|r' rows IH]; intros items' F' E x []; subst.
      * cbn [filter] in F'. destruct x as [|f' x]; [discriminate|]. inversion F' as [|? [n w] ? items'' Hr F'']; subst. apply pose_row_is in Hr. destruct Hr as [Hn _]. injection Hn as <-.
        cbn [last_named] in E. destruct (last_named f items''); [discriminate|]. destruct (String.eqb_spec f f'); [discriminate|]. cbn. congruence.
      * cbn [filter] in F'. destruct r' as [|f' r']; [exact (IH _ F' E x H)|]. inversion F' as [|? [n w] ? items'' Hr F'']; subst. cbn [last_named] in E. destruct (last_named f items'') eqn:E'; [discriminate|]. exact (IH _ F'' E' x H).
Qed.

Lemma poses_row : forall rows poses name l, read_poses pyfloat rows = Ok poses -> dget name poses = Some l -> exists row, row_for rows name row /\ row_values pyfloat row l.
Proof.
  intros rows poses name l H G. unfold read_poses in H. destruct (mapM _ _) as [items|] eqn:E; [|discriminate]. cbn [bind] in H. injection H as <-. rewrite Read_Proof.dict_of_last in G.
  apply (last_row rows items); [apply mapM_Ok, E|exact G].
Qed.

Lemma poses_of : forall rows, rows_ok pyfloat rows -> exists poses, read_poses pyfloat rows = Ok poses /\ forall name, (exists row, In row rows /\ hd_error row = Some name) -> exists l, dget name poses = Some l.
Proof.
  intros rows H. unfold read_poses. assert (E : exists items, mapM pose_row (filter (fun r : list string => match r with [] => false | _ => true end) rows) = Ok items /\
    forall name, (exists row, In row rows /\ hd_error row = Some name) -> exists l, last_named name items = Some l).
  { induction rows as [|r rows IH]; [exists []; split; [reflexivity|]; intros n (row & [] & _)|]. destruct IH as (items & E & G); [intros row Hr; apply H; right; exact Hr|]. cbn [filter]. destruct r as [|f r].
    - exists items. split; [exact E|]. intros n (row & [<-|Hin] & Hh); [discriminate|eauto].
    - destruct (H (f :: r) (or_introl eq_refl)) as (l & Hl); [discriminate|]. assert (P : pose_row (f :: r) = Ok (f, l)) by (apply pose_row_is; split; [reflexivity|exact Hl]).
      exists ((f, l) :: items). split; [cbn [mapM]; rewrite P, E; reflexivity|]. intros n Hn. cbn [last_named]. destruct (last_named n items) eqn:E2; [eauto|].
      destruct Hn as (row & [<-|Hin] & Hh); [injection Hh as ->; rewrite String.eqb_refl; eauto|]. destruct (G n (ex_intro _ row (conj Hin Hh))) as (l' & X). congruence. }
  destruct E as (items & E & G). rewrite E. cbn [bind]. exists (dict_of items). split; [reflexivity|]. intros n Hn. rewrite Read_Proof.dict_of_last. auto.
Qed.

Lemma poses_bad : forall rows row, In row rows -> row <> [] -> (forall l, ~ row_values pyfloat row l) -> exists e, read_poses pyfloat rows = Err e.
Proof.
  intros rows row Hin N H. unfold read_poses. destruct (mapM _ _) as [items|e] eqn:E; [|cbn; eauto]. exfalso. apply mapM_Ok in E.
  assert (In row (filter (fun r : list string => match r with [] => false | _ => true end) rows)) by (apply filter_In; split; [exact Hin|destruct row; [contradiction|reflexivity]]).
  clear N Hin. induction E as [|r i rs items Hr E IH]; [contradiction|]. destruct H0 as [->|X]; [|exact (IH X)]. destruct i as [n l]. apply pose_row_is in Hr. exact (H l (proj2 Hr)).
Qed.
End Poses.

(** * The command *)

Section Simple.
Variable cv_surf : string -> arr fl -> fl * fl -> option fl.
Variable cast_nan : string -> fl.
Variable cv_image : string -> arr pix -> fl * fl -> option pix.
Variable convert : string -> string -> pix -> pix.
Notation do_call := (do_call cv_surf cast_nan cv_image convert).
Notation run_calls := (run_calls cv_surf cast_nan cv_image convert).
Variable cv_project cv_undistort fish_undistort : intr -> list R -> R * R -> R * R.
Variable C : Type.
Variable parse_crs : string -> res C.
Variable rpc_crs : C.
Variable O : Type.
Variable no_options : O.
Variable warp : C -> C -> list vec -> list vec.
Notation first_camera := (first_camera cv_project cv_undistort fish_undistort C parse_crs rpc_crs O no_options warp).
Variable pyfloat : string -> res Q.
Variable default_conf : string.
Variable exists_path : string -> bool.
Variable load_yaml : string -> res pyval.
Variable dump_yaml : string -> pyval -> res unit.
Variable load_rows : string -> res (list (list string)).
Variable glob : list string -> string -> list string.
Variable mkdir : string -> res unit.
Variable image_size : string -> res (Z * Z).
Variable ortho : job -> res unit.
Variable used : job -> list call.
Notation job_of := (job_of cv_surf cast_nan cv_image convert cv_project cv_undistort fish_undistort C parse_crs rpc_crs O no_options warp image_size).
Notation one_image := (one_image cv_surf cast_nan cv_image convert cv_project cv_undistort fish_undistort C parse_crs rpc_crs O no_options warp image_size ortho used).
Notation all_images := (all_images cv_surf cast_nan cv_image convert cv_project cv_undistort fish_undistort C parse_crs rpc_crs O no_options warp glob image_size ortho used).
Notation simple_ortho := (simple_ortho cv_surf cast_nan cv_image convert cv_project cv_undistort fish_undistort C parse_crs rpc_crs O no_options warp pyfloat
  default_conf exists_path load_yaml dump_yaml load_rows glob mkdir image_size ortho used).
Notation check_args := (check_args exists_path glob mkdir).

(** A call that may change the pose, but no setting. *)
Definition mild (k : call) : Prop := match k with SetAlphaC _ | SetDistortC _ => False | _ => True end.

Lemma mild_of : forall k, leaves_camera k -> mild k.
Proof. intros []; cbn; auto. Qed.

Lemma mild_settings : forall ks, Forall mild ks -> (forall d, distort_after ks d = d) /\ (forall a, alpha_after ks a = a).
Proof.
  intros ks H. induction H as [|k ks Hk _ [I J]]; [split; reflexivity|]. split; intros x.
  - change (distort_after (k :: ks) x) with (distort_after ks (match k with SetDistortC d' => d' | _ => x end)). rewrite I. destruct k; try reflexivity. contradiction.
  - change (alpha_after (k :: ks) x) with (alpha_after ks (match k with SetAlphaC d' => d' | _ => x end)). rewrite J. destruct k; try reflexivity. contradiction.
Qed.

Lemma leaves_pose : forall ks p, Forall leaves_camera ks -> pose_after ks p = p.
Proof.
  intros ks p H. induction H as [|k ks Hk _ I]; [reflexivity|].
  change (pose_after (k :: ks) p) with (pose_after ks (match k with UpdateC xyz opk => if refused (xyz, opk) then p else (xyz, opk) | _ => p end)). destruct k; try exact I. contradiction.
Qed.

Lemma call_size : forall c k, fc_w (fst (do_call c k)) = fc_w c /\ fc_h (fst (do_call c k)) = fc_h c.
Proof.
  intros c k. destruct k; cbn [Cam_Model.do_call]; try (split; reflexivity).
  - destruct (get_extrinsic xyz opk); split; reflexivity.
  - unfold read_call. destruct (read_image convert im_file ix dtype) as [im|e]; [|split; reflexivity]. destruct (s_distort (fc_st c)); [split; reflexivity|].
    destruct (match nodata with Some v => Ok v | None => lookup (KDtype (nd_dtype im)) nodata_vals end) as [v|e]; [|split; reflexivity].
    destruct (validate_image im); [|split; reflexivity]. destruct (read (fc_pinhole c) (fc_lens c) (fc_st c)) as [st maps]. split; reflexivity.
Qed.

Lemma run_size : forall ks c, fc_w (run_calls c ks) = fc_w c /\ fc_h (run_calls c ks) = fc_h c.
Proof.
  induction ks as [|k ks IH]; intros c; [split; reflexivity|]. change (run_calls c (k :: ks)) with (run_calls (fst (do_call c k)) ks). destruct (IH (fst (do_call c k))) as [-> ->]. apply call_size.
Qed.

Lemma run_app : forall c ks ks', run_calls c (ks ++ ks') = run_calls (run_calls c ks) ks'.
Proof. intros. unfold Cam_Model.run_calls. apply fold_left_app. Qed.

(** What the call for an image is, whatever was done before. *)
Record right (p : plan) (poses : dict (list Q)) (j : job) : Prop := {
  r_pose : exists x y z om ph ka ks c, dget (stem (path_name (j_src j))) poses = Some [x; y; z; om; ph; ka] /\ first_camera p = Ok c /\ Forall mild ks /\
    j_camera j = run_calls c (ks ++ [UpdateC (Some [Q2R x; Q2R y; Q2R z]) (Some [radians om; radians ph; radians ka])]);
  r_crs : j_crs j = pl_crs p;
  r_band : j_dem_band j = pl_dem_band p;
  r_options : keywords (pl_options p) = Ok (j_options j);
  r_size : exists size, image_size (j_src j) = Ok size /\ j_warned j = negb ((fst size =? fc_w (j_camera j))%Z && (snd size =? fc_h (j_camera j))%Z)
}.

Record inv (p : plan) (poses : dict (list Q)) (dir : option string) (st : state) : Prop := {
  i_jobs : Forall (right p poses) (st_jobs st);
  i_camera : match st_camera st with None => True | Some c => exists c0 ks, first_camera p = Ok c0 /\ Forall mild ks /\ c = run_calls c0 ks end;
  i_dir : st_dir st = match st_jobs st with [] => dir | f :: _ => Some (folder_of dir (j_src f)) end;
  i_out : forall f, hd_error (st_jobs st) = Some f -> Forall (fun j => j_out j = ortho_name (folder_of dir (j_src f)) (j_src j)) (st_jobs st)
}.

Hypothesis quiet : forall j, Forall leaves_camera (used j).

Lemma job_right : forall p poses dir st src j, inv p poses dir st -> job_of p poses st src = Ok j ->
  right p poses j /\ j_src j = src /\ j_out j = ortho_name (folder_of (st_dir st) src) src /\ exists c0 ks, first_camera p = Ok c0 /\ Forall mild ks /\ j_camera j = run_calls c0 ks.
Proof.
  intros p poses dir st src j I H. unfold Simple_Model.job_of in H.
  destruct (dget (stem (path_name src)) poses) as [[|x [|y [|z [|om [|ph [|ka [|? ?]]]]]]]|] eqn:Ep; try discriminate.
  destruct (image_size src) as [size|] eqn:Es; [|discriminate]. cbn [bind] in H.
  set (cam := match st_camera st with Some c => Ok c | None => first_camera p end) in H.
  assert (Hc : forall c, cam = Ok c -> exists c0 ks, first_camera p = Ok c0 /\ Forall mild ks /\ c = run_calls c0 ks).
  { intros c E. unfold cam in E. pose proof (i_camera _ _ _ _ I) as X. destruct (st_camera st) as [c'|]; [injection E as <-; exact X|]. exists c, []. split; [exact E|]. split; [constructor|reflexivity]. }
  destruct cam as [c|]; [|discriminate]. cbn [bind] in H. destruct (Hc c eq_refl) as (c0 & ks & E0 & Fk & ->). clear Hc.
  destruct (keywords (pl_options p)) as [options|] eqn:Eo; [|discriminate]. cbn [bind] in H.
  assert (Er : fst (do_call (run_calls c0 ks) (UpdateC (Some [Q2R x; Q2R y; Q2R z]) (Some [radians om; radians ph; radians ka]))) =
    run_calls c0 (ks ++ [UpdateC (Some [Q2R x; Q2R y; Q2R z]) (Some [radians om; radians ph; radians ka])])) by (rewrite run_app; reflexivity).
  rewrite Er in H. clear Er. cbv zeta in H. injection H as <-. cbn [j_src j_out j_camera]. split; [|split; [reflexivity|split; [reflexivity|]]].
  - split; cbn [j_src j_camera j_crs j_dem_band j_options j_warned]; try reflexivity; [|exact Eo|exists size; split; [exact Es|reflexivity]].
    exists x, y, z, om, ph, ka, ks, c0. auto.
  - exists c0, (ks ++ [UpdateC (Some [Q2R x; Q2R y; Q2R z]) (Some [radians om; radians ph; radians ka])]). split; [exact E0|]. split; [|reflexivity]. apply Forall_app. split; [exact Fk|repeat constructor].
Qed.

Lemma one_inv : forall p poses dir st src, inv p poses dir st -> inv p poses dir (fst (one_image p poses st src)).
Proof.
  intros p poses dir st src I. unfold Simple_Model.one_image. destruct (job_of p poses st src) as [j|e] eqn:E; [|exact I]. cbn [fst].
  destruct (job_right _ _ _ _ _ _ I E) as (Rj & Sj & Oj & c0 & ks & E0 & Fk & Ec).
  assert (D : folder_of (st_dir st) src = folder_of dir (match st_jobs st with [] => src | f :: _ => j_src f end)).
  { rewrite (i_dir _ _ _ _ I). destruct (st_jobs st); reflexivity. }
  split; cbn [st_jobs st_camera st_dir].
  - apply Forall_app. split; [apply (i_jobs _ _ _ _ I)|]. constructor; [exact Rj|constructor].
  - exists c0, (ks ++ used j). split; [exact E0|]. split; [|rewrite run_app, Ec; reflexivity]. apply Forall_app. split; [exact Fk|].
    eapply Forall_impl; [|apply quiet]. exact mild_of.
  - rewrite D. destruct (st_jobs st); cbn; [rewrite Sj|]; reflexivity.
  - intros f Hf. pose proof (i_out _ _ _ _ I) as Io. apply Forall_app. rewrite D in Oj. destruct (st_jobs st) as [|f' l]; cbn in Hf; injection Hf as <-.
    + split; [constructor|]. constructor; [rewrite Sj; exact Oj|constructor].
    + split; [apply Io; reflexivity|]. constructor; [rewrite Sj; exact Oj|constructor].
Qed.

Lemma each_inv : forall A (P : state -> Prop) (f : state -> A -> state * res unit) l st, (forall st x, P st -> P (fst (f st x))) -> P st -> P (fst (each f st l)).
Proof.
  intros A P f l. induction l as [|x l IH]; intros st H Hs; [exact Hs|]. cbn [each]. pose proof (H st x Hs) as X. destruct (f st x) as [st' [[]|e]]; cbn [fst] in *; [apply IH; assumption|exact X].
Qed.

Lemma all_inv : forall p poses dir specs st, inv p poses dir st -> inv p poses dir (fst (all_images p poses st specs)).
Proof.
  intros p poses dir specs st I. unfold Simple_Model.all_images. apply each_inv; [|exact I]. intros st' spec I'. apply each_inv; [|exact I']. intros st'' src I''. apply one_inv, I''.
Qed.

(** ** Sources *)

Lemma one_ok : forall p poses st src st', one_image p poses st src = (st', Ok tt) -> exists j, st_jobs st' = st_jobs st ++ [j] /\ j_src j = src.
Proof.
  intros p poses st src st' H. unfold Simple_Model.one_image in H. destruct (job_of p poses st src) as [j|e] eqn:E; [|discriminate]. injection H as <- _. exists j. split; [reflexivity|].
  unfold Simple_Model.job_of in E. destruct (dget _ poses) as [[|x [|y [|z [|om [|ph [|ka [|? ?]]]]]]]|]; try discriminate.
  destruct (image_size src); [|discriminate]. cbn [bind] in E. destruct (match st_camera st with Some c => Ok c | None => first_camera p end); [|discriminate]. cbn [bind] in E. cbv zeta in E.
  destruct (keywords (pl_options p)); [|discriminate]. cbn [bind] in E. injection E as <-. reflexivity.
Qed.

Lemma each_sources : forall p poses l st st', each (one_image p poses) st l = (st', Ok tt) -> exists js, st_jobs st' = st_jobs st ++ js /\ map j_src js = l.
Proof.
  intros p poses l. induction l as [|x l IH]; intros st st' H; cbn [each] in H.
  - injection H as <-. exists []. rewrite app_nil_r. auto.
  - destruct (one_image p poses st x) as [st1 [[]|e]] eqn:E; [|discriminate]. apply one_ok in E. destruct E as (j & E1 & E2). destruct (IH _ _ H) as (js & E3 & E4).
    exists (j :: js). rewrite E3, E1, <- app_assoc. split; [reflexivity|]. cbn. congruence.
Qed.

Lemma all_sources : forall p poses specs st st', all_images p poses st specs = (st', Ok tt) -> exists js, st_jobs st' = st_jobs st ++ js /\ groups glob (st_jobs st) specs js.
Proof.
  intros p poses specs. unfold Simple_Model.all_images. induction specs as [|x l IH]; intros st st' H; cbn [each] in H.
  - injection H as <-. exists []. rewrite app_nil_r. split; [reflexivity|constructor].
  - destruct (each (one_image p poses) st (glob (map j_out (st_jobs st)) x)) as [st1 [[]|e]] eqn:E; [|discriminate]. apply each_sources in E. destruct E as (js & E1 & E2).
    destruct (IH _ _ H) as (rest & E3 & E4). exists (js ++ rest). rewrite E3, E1, <- app_assoc. split; [reflexivity|]. constructor; [exact E2|]. rewrite <- E1. exact E4.
Qed.


(** ** The camera *)

Hypothesis cv_projects : forall K d xy b, In (List.length d) [4; 5; 8; 12; 14]%nat -> opencv_distorts (cv_coefs d) xy b -> num2 (cv_project K d xy) = to_pixel K b.
Hypothesis cv_undistorts : forall K d d' p, In (List.length d) [4; 5; 8; 12; 14]%nat -> In (List.length d') [4; 5; 8; 12; 14]%nat ->
  (forall k, cv_coefs d k = cv_coefs d' k) -> cv_undistort K d p = cv_undistort K d' p.

Lemma radians_is : forall q, in_radians q (radians q).
Proof. intros q. unfold in_radians, radians. field. Qed.

(** The first camera, and where it images points later. *)
Lemma camera_images : forall p c a d o, planned p c a d o -> usable c -> exists cam, first_camera p = Ok cam /\ fc_w cam = in_w c /\ fc_h cam = in_h c /\
  forall ks x y z om ph ka, Forall mild ks -> pose_after ks (None, None) = (Some [x; y; z], Some [om; ph; ka]) ->
  let pixel X q := snd (do_call (run_calls cam ks) (WorldToPixel (one_point (num3 X)))) = Ok (VPixels [q]) in
  (forall X, beside (V3 x y z) om ph ka X -> pixel X (Nan, Nan)) /\
  (d = true -> forall X q, images c (V3 x y z) om ph ka X q -> pixel X q) /\
  (d = false -> exists K, (in_type c = Cpinhole -> pixel_intr c K) /\
     (in_type c <> Cpinhole -> exists f, lens_inverse cv_undistort fish_undistort c f /\ undistorted f (in_w c) (in_h c) a K) /\
     forall X v, seen_at (V3 x y z) om ph ka v X -> vz v <> 0%R -> pixel X (to_pixel K (vx v / vz v, vy v / vz v)%R)).
Proof.
  intros p c a d o Hp U. destruct (p_camera _ _ _ _ _ Hp) as (cam & Ek & Ef & D).
  destruct (made_images cv_surf cast_nan cv_image convert cv_project cv_undistort fish_undistort cv_projects cv_undistorts _ c (None, None) d a D U eq_refl) as (fc & Em & Im).
  exists fc. split; [|split; [|split]].
  - unfold Simple_Model.first_camera. rewrite Ek. cbn [bind]. rewrite Ef. cbn [bind].
    rewrite (create_frame cv_project cv_undistort fish_undistort C parse_crs rpc_crs O no_options warp _ (MCam (pl_type p)) (in_type c)); [|reflexivity|rewrite (p_type _ _ _ _ _ Hp); left; reflexivity|apply (d_frame _ _ _ _ _ D)].
    rewrite Em. reflexivity.
  - destruct (described cv_surf cast_nan cv_image convert cv_project cv_undistort fish_undistort cv_undistorts _ c (None, None) d a D) as (focal & _ & E). rewrite Em in E. unfold frame_init in E.
    destruct (get_intrinsic _ _ _ _ _ _); [|discriminate]. cbn [bind fst snd get_extrinsic] in E. injection E as ->. reflexivity.
  - destruct (described cv_surf cast_nan cv_image convert cv_project cv_undistort fish_undistort cv_undistorts _ c (None, None) d a D) as (focal & _ & E). rewrite Em in E. unfold frame_init in E.
    destruct (get_intrinsic _ _ _ _ _ _); [|discriminate]. cbn [bind fst snd get_extrinsic] in E. injection E as ->. reflexivity.
  - intros ks x y z om ph ka Fk Ep. destruct (mild_settings ks Fk) as [Ed Ea]. specialize (Im ks x y z om ph ka Ep). rewrite Ed, Ea in Im. exact Im.
Qed.

Lemma pose_end : forall ks x y z om ph ka, pose_after (ks ++ [UpdateC (Some [x; y; z]) (Some [om; ph; ka])]) (None, None) = (Some [x; y; z], Some [om; ph; ka]).
Proof. intros. unfold pose_after. rewrite fold_left_app. reflexivity. Qed.

Theorem jobs_right : forall a doc c alpha d o rows,
  load_yaml (conf_of default_conf a) = Ok doc -> configures doc c alpha d o -> usable c -> load_rows (a_pos a) = Ok rows ->
  forall j, In j (o_jobs (simple_ortho a)) ->
  (exists row x y z om ph ka om' ph' ka', row_for rows (src_stem (j_src j)) row /\ row_values pyfloat row [x; y; z; om; ph; ka] /\
    in_radians om om' /\ in_radians ph ph' /\ in_radians ka ka' /\
    forall ks, Forall leaves_camera ks ->
    let t := V3 (Q2R x) (Q2R y) (Q2R z) in
    let pixel X q := snd (do_call (run_calls (j_camera j) ks) (WorldToPixel (one_point (num3 X)))) = Ok (VPixels [q]) in
    (forall X, beside t om' ph' ka' X -> pixel X (Nan, Nan)) /\
    (d = true -> forall X q, images c t om' ph' ka' X q -> pixel X q) /\
    (d = false -> exists K, (in_type c = Cpinhole -> pixel_intr c K) /\
       (in_type c <> Cpinhole -> exists f, lens_inverse cv_undistort fish_undistort c f /\ undistorted f (in_w c) (in_h c) alpha K) /\
       forall X v, seen_at t om' ph' ka' v X -> vz v <> 0%R -> pixel X (to_pixel K (vx v / vz v, vy v / vz v)%R))) /\
  setting o "crs" PNone (j_crs j) /\ setting o "dem_band" (PInt 1) (j_dem_band j) /\
  (forall k v, dget k (j_options j) = Some v <-> exists w, v = MV w /\ passed o k w) /\
  (exists size, image_size (j_src j) = Ok size /\ (j_warned j = true <-> size <> (in_w c, in_h c))) /\
  exists first, hd_error (o_jobs (simple_ortho a)) = Some first /\
    j_out j = ortho_name (match a_dir a with None | Some "" => path_parent (j_src first) | Some dir => dir end) (j_src j).
Proof.
  intros a doc c alpha d o rows Ey Hc U Er j. unfold conf_of in Ey. destruct (plan_of _ _ _ _ _ Hc) as (p & Ep & Hp). destruct (camera_images p c alpha d o Hp U) as (cam & Ec & Ew & Eh & Im).
  unfold Simple_Model.simple_ortho. rewrite Ey, Er. destruct (negb (exists_path _)); [intros []|]. destruct (a_write a) as [f|]; [destruct (dump_yaml f doc); intros []|].
  rewrite Ep. cbn [bind]. destruct (check_args a) as [folder|e]; [|intros []]. cbn [bind]. destruct (read_poses pyfloat rows) as [poses|e] eqn:Eps; [|intros []].
  pose proof (all_inv p poses (given (a_dir a)) (a_src a) (State None (given (a_dir a)) [])) as I.
  destruct (all_images p poses (State None (given (a_dir a)) []) (a_src a)) as [st r]. cbn [fst o_jobs] in *. intros Hj.
  destruct I as [Ij _ _ Io].
  { split; cbn; try constructor; try discriminate. }
  pose proof (proj1 (Forall_forall _ _) Ij j Hj) as [(x & y & z & om & ph & ka & ks & c' & E1 & E2 & Fk & E3) Rc Rb Ro (size & Es & Eq)].
  assert (c' = cam) by congruence. subst c'. split; [|split; [|split; [|split; [|split]]]].
  - destruct (poses_row pyfloat rows poses _ _ Eps E1) as (row & H1 & H2). exists row, x, y, z, om, ph, ka, (radians om), (radians ph), (radians ka). split; [exact H1|]. split; [exact H2|].
    do 3 (split; [apply radians_is|]). intros ks' Fk'. cbv zeta. rewrite E3, <- run_app.
    apply Im; [|unfold pose_after; rewrite fold_left_app; fold (pose_after (ks ++ [UpdateC (Some [Q2R x; Q2R y; Q2R z]) (Some [radians om; radians ph; radians ka])]) (None, None)); rewrite pose_end; apply (leaves_pose ks' _ Fk')].
    apply Forall_app. split; [apply Forall_app; split; [exact Fk|repeat constructor]|]. eapply Forall_impl; [|exact Fk']. exact mild_of.
  - rewrite Rc. apply (p_crs _ _ _ _ _ Hp).
  - rewrite Rb. apply (p_band _ _ _ _ _ Hp).
  - destruct (p_options _ _ _ _ _ Hp) as (opts & Eo & G). assert (opts = j_options j) by congruence. subst opts. exact G.
  - exists size. split; [exact Es|]. rewrite Eq, E3. destruct (run_size (ks ++ [UpdateC (Some [Q2R x; Q2R y; Q2R z]) (Some [radians om; radians ph; radians ka])]) cam) as [-> ->]. rewrite Ew, Eh.
    rewrite negb_true_iff, andb_false_iff, !Z.eqb_neq. destruct size as [w h]. cbn [fst snd]. split; [intros [N|N] X; congruence|].
    intros N. destruct (Z.eq_dec w (in_w c)) as [->|]; [right; congruence|left; assumption].
  - destruct (st_jobs st) as [|f l]; [contradiction|]. exists f. split; [reflexivity|]. pose proof (proj1 (Forall_forall _ _) (Io f eq_refl) j Hj) as ->. unfold given. destruct (a_dir a) as [[|]|]; reflexivity.
Qed.

(** ** Complete runs *)

Theorem run_sources : forall a, o_end (simple_ortho a) = Ok tt -> a_write a = None -> groups glob [] (a_src a) (o_jobs (simple_ortho a)).
Proof.
  intros a. unfold Simple_Model.simple_ortho. destruct (negb (exists_path _)); [discriminate|]. destruct (load_yaml _) as [doc|]; [|discriminate]. intros H E. rewrite E in *.
  destruct (do p <- read_plan doc; do folder <- check_args a; Ok (p, folder)) as [[p folder]|]; [|discriminate].
  destruct (do rows <- load_rows (a_pos a); read_poses pyfloat rows) as [poses|]; [|discriminate].
  destruct (all_images p poses (State None (given (a_dir a)) []) (a_src a)) as [st r] eqn:Ea. cbn [o_end o_jobs] in *. subst r. apply all_sources in Ea. destruct Ea as (js & -> & G). exact G.
Qed.

Theorem run_images : forall a, o_end (simple_ortho a) = Ok tt -> a_write a = None -> (forall outs spec, In spec (a_src a) -> glob outs spec = glob [] spec) ->
  map j_src (o_jobs (simple_ortho a)) = flat_map (glob []) (a_src a).
Proof.
  intros a H Hw Hg. pose proof (run_sources a H Hw) as G. clear H Hw. revert G Hg. generalize (@nil job) at 1. generalize (a_src a) (o_jobs (simple_ortho a)).
  intros specs jobs done G. induction G as [|done spec specs js rest E G IH]; intros Hg; [reflexivity|]. rewrite map_app, E. cbn [flat_map]. rewrite Hg by (left; reflexivity). f_equal. apply IH.
  intros outs s Hs. apply Hg. right. exact Hs.
Qed.

Lemma each_ok : forall A (P : state -> Prop) (f : state -> A -> state * res unit) l st, (forall st x, P st -> In x l -> P (fst (f st x)) /\ snd (f st x) = Ok tt) -> P st -> snd (each f st l) = Ok tt /\ P (fst (each f st l)).
Proof.
  intros A P f l. induction l as [|x l IH]; intros st H Hs; [auto|]. cbn [each]. destruct (H st x Hs (or_introl eq_refl)) as [X Y]. destruct (f st x) as [st' r]; cbn [fst snd] in *. subst r.
  apply IH; [|exact X]. intros st1 y H1 Hy. apply H; [exact H1|right; exact Hy].
Qed.

Theorem run_complete : forall a doc c alpha d o rows,
  a_write a = None -> exists_path (conf_of default_conf a) = true ->
  load_yaml (conf_of default_conf a) = Ok doc -> configures doc c alpha d o -> usable c ->
  exists_path (a_dem a) = true -> exists_path (a_pos a) = true -> load_rows (a_pos a) = Ok rows -> rows_ok pyfloat rows ->
  (forall dir, a_dir a = Some dir -> exists_path dir = true \/ mkdir dir = Ok tt) ->
  (forall spec, In spec (a_src a) -> glob [] spec <> []) ->
  (forall spec outs src, In spec (a_src a) -> In src (glob outs spec) -> (exists row, In row rows /\ hd_error row = Some (src_stem src)) /\ exists size, image_size src = Ok size) ->
  (forall j, ortho j = Ok tt) ->
  o_end (simple_ortho a) = Ok tt.
Proof.
  intros a doc c alpha d o rows Hw He Ey Hc U Hd Hp Er Hr Hm Hg Hs Ho. unfold conf_of in He, Ey. destruct (plan_of _ _ _ _ _ Hc) as (p & Ep & Pl). destruct (camera_images p c alpha d o Pl U) as (cam & Ec & _).
  destruct (poses_of pyfloat rows Hr) as (poses & Eps & G). unfold Simple_Model.simple_ortho. rewrite He, Ey, Hw, Er, Ep. cbn [negb bind]. rewrite Eps.
  assert (Ca : exists folder, check_args a = Ok folder).
  { unfold Simple_Model.check_args. assert (iterM (fun s => match glob [] s with [] => Err RuntimeError | _ => Ok tt end) (a_src a) = Ok tt) as -> by (apply iterM_Ok; intros x Hx; specialize (Hg x Hx); destruct (glob [] x); congruence).
    cbn [bind]. rewrite Hd, Hp. cbn [bind]. destruct (a_dir a) as [dir|]; [|eauto]. destruct (Hm dir eq_refl) as [->| ->]; [eauto|]. destruct (exists_path dir); cbn; eauto. }
  destruct Ca as (folder & ->). cbn [bind].
  assert (X : snd (all_images p poses (State None (given (a_dir a)) []) (a_src a)) = Ok tt).
  { unfold Simple_Model.all_images. apply (each_ok _ (fun _ => True)); [|exact I]. intros st spec _ Hspec. split; [exact I|]. apply (each_ok _ (fun _ => True)); [|exact I]. intros st1 src _ Hsrc. split; [exact I|].
    destruct (Hs spec _ src Hspec Hsrc) as (Hrow & size & Esz). destruct (G _ Hrow) as (l & El). destruct (poses_row pyfloat rows poses _ _ Eps El) as (row & _ & (Len & _)).
    unfold Simple_Model.one_image, Simple_Model.job_of. fold (src_stem src). rewrite El. destruct l as [|x [|y [|z [|om [|ph [|ka [|? ?]]]]]]]; try discriminate Len.
    rewrite Esz. cbn [bind]. assert (E : exists c1, match st_camera st1 with Some c => Ok c | None => first_camera p end = Ok c1) by (destruct (st_camera st1); eauto). destruct E as (c1 & ->). cbn [bind].
    destruct (p_options _ _ _ _ _ Pl) as (opts & -> & _). cbn [bind]. apply Ho. }
  destruct (all_images p poses (State None (given (a_dir a)) []) (a_src a)) as [st r]. cbn [snd o_end] in *. exact X.
Qed.

(** The order of the calls, however the run ended. *)
Lemma one_any : forall p poses st src st' r, one_image p poses st src = (st', r) ->
  (st_jobs st' = st_jobs st /\ exists e, r = Err e) \/ exists j, st_jobs st' = st_jobs st ++ [j] /\ j_src j = src /\ ortho j = r.
Proof.
  intros p poses st src st' r H. destruct r as [[]|e].
  - right. destruct (one_ok _ _ _ _ _ H) as (j & E1 & E2). exists j. split; [exact E1|]. split; [exact E2|]. unfold Simple_Model.one_image in H. destruct (job_of p poses st src) as [j'|e]; [|discriminate].
    assert (st_jobs st ++ [j] = st_jobs st ++ [j']) by (injection H as <- _; symmetry; exact E1). apply app_inj_tail in H0. destruct H0 as [_ ->]. injection H as _ X. exact X.
  - unfold Simple_Model.one_image in H. destruct (job_of p poses st src) as [j|e'] eqn:E; [|injection H as <- <-; left; eauto]. right. exists j.
    assert (Hs : j_src j = src).
    { unfold Simple_Model.job_of in E. destruct (dget _ poses) as [[|x [|y [|z [|om [|ph [|ka [|? ?]]]]]]]|]; try discriminate.
      destruct (image_size src); [|discriminate]. cbn [bind] in E. destruct (match st_camera st with Some c => Ok c | None => first_camera p end); [|discriminate]. cbn [bind] in E. cbv zeta in E.
      destruct (keywords (pl_options p)); [|discriminate]. cbn [bind] in E. injection E as <-. reflexivity. }
    injection H as <- X. auto.
Qed.

Lemma each_any : forall p poses l st st' r, each (one_image p poses) st l = (st', r) -> exists js left, st_jobs st' = st_jobs st ++ js /\ map j_src js ++ left = l /\ (r = Ok tt -> left = []).
Proof.
  intros p poses l. induction l as [|x l IH]; intros st st' r H; cbn [each] in H.
  - injection H as <- <-. exists [], []. rewrite app_nil_r. auto.
  - destruct (one_image p poses st x) as [st1 [[]|e]] eqn:E; apply one_any in E.
    + destruct E as [[_ [e E]]|(j & E1 & E2 & _)]; [discriminate|]. destruct (IH _ _ _ H) as (js & left & E3 & E4 & E5).
      exists (j :: js), left. rewrite E3, E1, <- app_assoc. split; [reflexivity|]. split; [cbn; congruence|exact E5].
    + injection H as <- <-. destruct E as [[E _]|(j & E1 & E2 & _)].
      * exists [], (x :: l). rewrite app_nil_r. split; [exact E|]. split; [reflexivity|discriminate].
      * exists [j], l. split; [exact E1|]. split; [cbn; congruence|discriminate].
Qed.

Lemma all_any : forall p poses specs st st' r, all_images p poses st specs = (st', r) -> exists js, st_jobs st' = st_jobs st ++ js /\ started glob (st_jobs st) specs js.
Proof.
  intros p poses specs. unfold Simple_Model.all_images. induction specs as [|x l IH]; intros st st' r H; cbn [each] in H.
  - injection H as <- _. exists []. rewrite app_nil_r. split; [reflexivity|constructor].
  - destruct (each (one_image p poses) st (glob (map j_out (st_jobs st)) x)) as [st1 [[]|e]] eqn:E; apply each_any in E; destruct E as (js & left & E1 & E2 & E3).
    + rewrite (E3 eq_refl), app_nil_r in E2. destruct (IH _ _ _ H) as (rest & E4 & E5). exists (js ++ rest). rewrite E4, E1, <- app_assoc. split; [reflexivity|]. apply started_cons; [exact E2|]. rewrite <- E1. exact E5.
    + injection H as <- _. exists js. split; [exact E1|]. apply (started_within _ _ _ _ _ left), E2.
Qed.

Lemma started_nothing : forall specs, started glob [] specs [].
Proof. intros [|spec specs]; [constructor|]. apply (started_within _ _ _ _ _ (glob [] spec)). reflexivity. Qed.

Theorem run_order : forall a, started glob [] (a_src a) (o_jobs (simple_ortho a)).
Proof.
  intros a. unfold Simple_Model.simple_ortho. destruct (negb (exists_path _)); [apply started_nothing|]. destruct (load_yaml _) as [doc|]; [|apply started_nothing]. destruct (a_write a) as [f|]; [destruct (dump_yaml f doc); apply started_nothing|].
  destruct (do p <- read_plan doc; do folder <- check_args a; Ok (p, folder)) as [[p folder]|]; [|apply started_nothing].
  destruct (do rows <- load_rows (a_pos a); read_poses pyfloat rows) as [poses|]; [|apply started_nothing].
  destruct (all_images p poses (State None (given (a_dir a)) []) (a_src a)) as [st r] eqn:E. cbn [o_jobs]. apply all_any in E. destruct E as (js & -> & G). exact G.
Qed.

(** None but the last call failed. *)
Definition fine (l : list job) (r : res unit) : Prop := forall before j after, l = before ++ j :: after -> ortho j = Ok tt \/ (after = [] /\ ortho j = r).

Lemma fine_more : forall l j, fine l (Ok tt) -> fine (l ++ [j]) (ortho j).
Proof.
  intros l j H before k after E. destruct after as [|x after _] using rev_ind.
  - apply app_inj_tail in E. destruct E as [_ ->]. auto.
  - left. rewrite app_comm_cons, app_assoc in E. apply app_inj_tail in E. destruct E as [E _]. destruct (H _ _ _ E) as [X|[_ X]]; exact X.
Qed.

Lemma each_fine : forall A (f : state -> A -> state * res unit), (forall st x st' r, fine (st_jobs st) (Ok tt) -> f st x = (st', r) -> fine (st_jobs st') r) ->
  forall l st st' r, fine (st_jobs st) (Ok tt) -> each f st l = (st', r) -> fine (st_jobs st') r.
Proof.
  intros A f H l. induction l as [|x l IH]; intros st st' r Hs E; cbn [each] in E; [injection E as <- <-; exact Hs|].
  destruct (f st x) as [st1 [[]|e]] eqn:F; [exact (IH _ _ _ (H _ _ _ _ Hs F) E)|]. injection E as <- <-. exact (H _ _ _ _ Hs F).
Qed.

Theorem run_checked : forall a before j after, o_jobs (simple_ortho a) = before ++ j :: after ->
  ortho j = Ok tt \/ (after = [] /\ exists e, ortho j = Err e /\ o_end (simple_ortho a) = Err e).
Proof.
  assert (N : forall before (j : job) after, [] = before ++ j :: after -> False) by (intros [|? ?] ? ? X; discriminate X).
  intros a before j after. unfold Simple_Model.simple_ortho. destruct (negb (exists_path _)); [intros X; destruct (N _ _ _ X)|]. destruct (load_yaml _) as [doc|]; [|intros X; destruct (N _ _ _ X)].
  destruct (a_write a) as [f|]; [destruct (dump_yaml f doc); intros X; destruct (N _ _ _ X)|].
  destruct (do p <- read_plan doc; do folder <- check_args a; Ok (p, folder)) as [[p folder]|]; [|intros X; destruct (N _ _ _ X)].
  destruct (do rows <- load_rows (a_pos a); read_poses pyfloat rows) as [poses|]; [|intros X; destruct (N _ _ _ X)].
  destruct (all_images p poses (State None (given (a_dir a)) []) (a_src a)) as [st r] eqn:E. cbn [o_jobs o_end]. intros Hj.
  assert (F : fine (st_jobs st) r).
  { unfold Simple_Model.all_images in E. apply each_fine in E; [exact E| |intros b k l X; destruct (N _ _ _ X)]. clear. intros st spec st' r Hs E. apply each_fine in E; [exact E| |exact Hs].
    clear. intros st src st' r Hs E. apply one_any in E. destruct E as [[E (e & ->)]|(j & E1 & _ & <-)].
    - rewrite E. intros b k l X. destruct (Hs _ _ _ X) as [Y|[_ Y]]; auto.
    - rewrite E1. apply fine_more, Hs. }
  destruct (F _ _ _ Hj) as [X|[-> X]]; [auto|]. rewrite X. destruct r as [[]|e]; eauto.
Qed.

(** ** Refused *)

Notation conf_of := (conf_of default_conf).

Theorem empty_section : forall a camera rest, exists_path (conf_of a) = true -> a_write a = None ->
  load_yaml (conf_of a) = Ok (PDict ((KStr "ortho", PNone) :: (KStr "camera", camera) :: rest)) -> simple_ortho a = Outcome None None [] (Err AttributeError).
Proof. intros a camera rest E W L. unfold Simple_Model.simple_ortho. change (match a_read a with Some f => f | None => default_conf end) with (conf_of a). rewrite E, L, W. reflexivity. Qed.

Theorem no_config : forall a, exists_path (conf_of a) = false -> simple_ortho a = Outcome None None [] (Err RuntimeError).
Proof. intros a H. unfold Simple_Model.simple_ortho. change (match a_read a with Some f => f | None => default_conf end) with (conf_of a). rewrite H. reflexivity. Qed.

Theorem bad_inputs : forall a, a_write a = None ->
  exists_path (a_dem a) = false \/ exists_path (a_pos a) = false \/ (exists spec, In spec (a_src a) /\ glob [] spec = []) ->
  exists e, simple_ortho a = Outcome None None [] (Err e).
Proof.
  intros a Hw H. unfold Simple_Model.simple_ortho. destruct (negb (exists_path _)); [eauto|]. destruct (load_yaml _) as [doc|]; [|eauto]. rewrite Hw. destruct (read_plan doc) as [p|]; [|cbn; eauto]. cbn [bind].
  assert (E : exists e, check_args a = Err e); [|destruct E as (e & ->); cbn; eauto]. unfold Simple_Model.check_args. destruct (iterM _ (a_src a)) as [[]|e] eqn:E; [|cbn; eauto]. cbn [bind].
  destruct H as [->|[->|(spec & Hin & Hg)]].
  - cbn. eauto.
  - destruct (exists_path (a_dem a)); cbn; eauto.
  - rewrite iterM_Ok in E. specialize (E spec Hin). rewrite Hg in E. discriminate.
Qed.

Theorem bad_rows : forall a, a_write a = None ->
  (exists e, load_rows (a_pos a) = Err e) \/ (exists rows row, load_rows (a_pos a) = Ok rows /\ In row rows /\ row <> [] /\ forall l, ~ row_values pyfloat row l) ->
  o_jobs (simple_ortho a) = [] /\ exists e, o_end (simple_ortho a) = Err e.
Proof.
  intros a Hw H. unfold Simple_Model.simple_ortho. destruct (negb (exists_path _)); [cbn; eauto|]. destruct (load_yaml _) as [doc|]; [|cbn; eauto]. rewrite Hw.
  destruct (do p <- read_plan doc; do folder <- check_args a; Ok (p, folder)) as [[p folder]|]; [|cbn; eauto].
  assert (E : exists e, (do rows <- load_rows (a_pos a); read_poses pyfloat rows) = Err e).
  { destruct H as [(e & ->)|(rows & row & -> & Hin & N & Hv)]; [cbn; eauto|]. cbn [bind]. apply (poses_bad pyfloat rows row Hin N Hv). }
  destruct E as (e & ->). cbn. eauto.
Qed.

Theorem writes_config : forall a f, a_write a = Some f -> exists_path (conf_of a) = true ->
  simple_ortho a = match load_yaml (conf_of a) with
                   | Err e => Outcome None None [] (Err e)
                   | Ok doc => match dump_yaml f doc with Ok _ => Outcome (Some (f, doc)) None [] (Ok tt) | Err e => Outcome None None [] (Err e) end
                   end.
Proof. intros a f H E. unfold Simple_Model.simple_ortho. change (match a_read a with Some f => f | None => default_conf end) with (conf_of a). rewrite E, H. reflexivity. Qed.

Theorem makes_folder : forall a dir j, a_dir a = Some dir -> exists_path dir = false -> In j (o_jobs (simple_ortho a)) -> o_folder (simple_ortho a) = Some dir /\ mkdir dir = Ok tt.
Proof.
  intros a dir j Hd He. unfold Simple_Model.simple_ortho. destruct (negb (exists_path _)); [intros []|]. destruct (load_yaml _) as [doc|]; [|intros []]. destruct (a_write a) as [f|]; [destruct (dump_yaml f doc); intros []|].
  destruct (read_plan doc) as [p|]; [|intros []]. cbn [bind]. destruct (check_args a) as [folder|] eqn:Ec; [|intros []]. cbn [bind].
  assert (E : folder = Some dir /\ mkdir dir = Ok tt).
  { unfold Simple_Model.check_args in Ec. destruct (iterM _ (a_src a)) as [[]|]; [|discriminate]. cbn [bind] in Ec. destruct (exists_path (a_dem a)); [|discriminate]. cbn [bind] in Ec. destruct (exists_path (a_pos a)); [|discriminate]. cbn [bind] in Ec.
    rewrite Hd, He in Ec. destruct (mkdir dir) as [[]|]; [|discriminate]. cbn in Ec. injection Ec as <-. auto. }
  destruct E as [-> E]. destruct (do rows <- load_rows (a_pos a); read_poses pyfloat rows); [|intros []]. destruct (all_images _ _ _ _). auto.
Qed.

Theorem writes_only : forall a, (forall f doc, o_conf (simple_ortho a) = Some (f, doc) -> a_write a = Some f) /\
  (forall dir, o_folder (simple_ortho a) = Some dir -> a_dir a = Some dir /\ exists_path dir = false /\ mkdir dir = Ok tt /\
    exists_path (a_dem a) = true /\ exists_path (a_pos a) = true /\ forall spec, In spec (a_src a) -> glob [] spec <> []).
Proof.
  intros a. unfold Simple_Model.simple_ortho. destruct (negb (exists_path _)); [split; discriminate|]. destruct (load_yaml _) as [doc|]; [|split; discriminate]. destruct (a_write a) as [f|].
  { destruct (dump_yaml f doc); cbn; split; try discriminate. intros f0 d X. congruence. }
  destruct (read_plan doc) as [p|]; [|split; discriminate]. cbn [bind]. destruct (check_args a) as [folder|] eqn:Ec; [|split; discriminate]. cbn [bind].
  assert (E : o_conf (match (do rows <- load_rows (a_pos a); read_poses pyfloat rows) with Err e => Outcome None folder [] (Err e) | Ok poses => let (st, r) := all_images p poses (State None (given (a_dir a)) []) (a_src a) in Outcome None folder (st_jobs st) r end) = None /\
    o_folder (match (do rows <- load_rows (a_pos a); read_poses pyfloat rows) with Err e => Outcome None folder [] (Err e) | Ok poses => let (st, r) := all_images p poses (State None (given (a_dir a)) []) (a_src a) in Outcome None folder (st_jobs st) r end) = folder).
  { destruct (do rows <- load_rows (a_pos a); read_poses pyfloat rows); [|auto]. destruct (all_images _ _ _ _). auto. }
  destruct E as [-> ->]. split; [discriminate|]. intros dir ->. unfold Simple_Model.check_args in Ec. destruct (iterM _ (a_src a)) as [[]|] eqn:Ei; [|discriminate]. cbn [bind] in Ec.
  destruct (exists_path (a_dem a)); [|discriminate]. destruct (exists_path (a_pos a)); [|discriminate]. cbn [bind] in Ec. destruct (a_dir a) as [d|]; [|discriminate]. destruct (exists_path d) eqn:Ee; [discriminate|].
  destruct (mkdir d) as [[]|] eqn:Em; [|discriminate]. cbn [bind] in Ec. injection Ec as ->. split; [reflexivity|]. split; [exact Ee|]. split; [exact Em|]. split; [reflexivity|]. split; [reflexivity|].
  rewrite iterM_Ok in Ei. intros spec Hs. specialize (Ei spec Hs). destruct (glob [] spec); congruence.
Qed.
End Simple.
