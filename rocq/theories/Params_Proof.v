From Coq Require Import List String Ascii ZArith QArith Bool Arith Lia.
From Verif Require Import Py Py_Proof Validate_Model Validate_Spec Validate_Proof Files_Model Files_Proof Params_Model Params_Spec.
Import ListNotations.
Open Scope string_scope.

(** * Key / value lists *)
Lemma key_eqb_eq : forall a b, key_eqb a b = true <-> a = b.
Proof.
  intros [s|z] [t|y]; cbn; split; intros H; try discriminate.
  - apply String.eqb_eq in H. congruence.
  - inversion H. apply String.eqb_refl.
  - apply Z.eqb_eq in H. congruence.
  - inversion H. apply Z.eqb_refl.
Qed.

Lemma key_eqb_neq : forall a b, key_eqb a b = false <-> a <> b.
Proof.
  intros a b. destruct (key_eqb a b) eqn:E.
  - apply key_eqb_eq in E. split; [discriminate|contradiction].
  - split; [|reflexivity]. intros _ H. apply key_eqb_eq in H. congruence.
Qed.

Lemma key_eqb_KStr : forall a b, key_eqb (KStr a) (KStr b) = String.eqb a b.
Proof. reflexivity. Qed.

Lemma kget_kdel : forall V (d : list (pykey * V)) k j,
  kget (KStr k) (kdel j d) = if String.eqb k j then None else kget (KStr k) d.
Proof.
  intros V d k j. unfold kdel. induction d as [|[k' v] d IH]; cbn [kget filter]; [destruct (String.eqb k j); reflexivity|].
  cbn [fst]. destruct (key_eqb k' (KStr j)) eqn:E; cbn [negb kget].
  - apply key_eqb_eq in E. subst. rewrite IH. rewrite key_eqb_KStr. destruct (String.eqb k j); reflexivity.
  - rewrite IH. destruct (key_eqb (KStr k) k') eqn:E2; [|reflexivity]. apply key_eqb_eq in E2. subst.
    rewrite key_eqb_KStr in E. rewrite E. reflexivity.
Qed.

Lemma kget_In : forall V (d : list (pykey * V)) k v, kget k d = Some v -> In (k, v) d.
Proof.
  intros V d k v. induction d as [|[k' v'] d IH]; cbn; [discriminate|]. destruct (key_eqb k k') eqn:E.
  - apply key_eqb_eq in E. intros H. inversion H; subst. left; reflexivity.
  - intros H. right. auto.
Qed.

Lemma In_kget : forall V (d : list (pykey * V)) k v, In (k, v) d -> exists v', kget k d = Some v'.
Proof.
  intros V d k v. induction d as [|[k' v'] d IH]; [intros []|]. cbn. intros [H|H].
  - inversion H; subst. rewrite (proj2 (key_eqb_eq k k) eq_refl). eexists; reflexivity.
  - destruct (key_eqb k k'); [eexists; reflexivity|auto].
Qed.

Lemma In_kdel : forall V (d : list (pykey * V)) k v j, In (k, v) (kdel j d) <-> In (k, v) d /\ k <> KStr j.
Proof.
  intros. unfold kdel. rewrite filter_In. cbn. rewrite negb_true_iff, key_eqb_neq. reflexivity.
Qed.

Lemma NoDup_kdel : forall V (d : list (pykey * V)) j, NoDup (map fst d) -> NoDup (map fst (kdel j d)).
Proof.
  intros V d j H. unfold kdel. induction d as [|[k v] d IH]; cbn; [constructor|]. inversion H; subst.
  destruct (negb (key_eqb k (KStr j))); cbn; [|auto]. constructor; [|auto]. intros C. apply in_map_iff in C.
  destruct C as [[k2 v2] [C1 C2]]. apply filter_In in C2. cbn in C1. subst. apply H2.
  destruct C2 as [C2 _]. apply (in_map fst) in C2. exact C2.
Qed.

Lemma dget_str_items : forall y k, dget k (str_items y) = option_map MV (kget (KStr k) y).
Proof.
  intros y k. induction y as [|[[s|z] v] y IH]; cbn [str_items flat_map fst snd app kget dget]; [reflexivity| |].
  - rewrite key_eqb_KStr. destruct (String.eqb k s); [reflexivity|exact IH].
  - cbn. exact IH.
Qed.

Lemma In_str_items : forall y k v, In (k, v) (str_items y) -> exists x, v = MV x /\ In (KStr k, x) y.
Proof.
  intros y k v. induction y as [|[[s|z] w] y IH]; cbn; [intros []| |].
  - intros [H|H]; [inversion H; subst; eexists; split; [reflexivity|left; reflexivity]|].
    destruct (IH H) as (x & -> & Hx). exists x. split; [reflexivity|right; assumption].
  - intros H. destruct (IH H) as (x & -> & Hx). exists x. split; [reflexivity|right; assumption].
Qed.

Lemma NoDup_str_items : forall y, NoDup (map fst y) -> NoDup (dkeys (str_items y)).
Proof.
  intros y. induction y as [|[[s|z] v] y IH]; intros H; cbn; [constructor| |]; inversion H; subst; [|auto].
  constructor; [|auto]. intros C. apply in_map_iff in C. destruct C as [[k2 v2] [C1 C2]]. cbn in C1. subst.
  apply In_str_items in C2. destruct C2 as (x & _ & C2). apply (in_map fst) in C2. contradiction.
Qed.

(** * Dumping a parameter dictionary *)
Lemma dumped_items_spec : forall p, (forall k v, In (k, v) p -> exists x, dumped v = Ok x) ->
  exists y, dumped_items p = Ok y /\ map fst y = map (fun kv => KStr (fst kv)) p /\
  forall k, kget (KStr k) y = match dget k p with
                              | Some v => match dumped v with Ok x => Some x | Err _ => None end
                              | None => None
                              end.
Proof.
  unfold dumped_items. induction p as [|[k v] p IH]; intros H.
  - exists []. repeat split.
  - destruct (H k v (or_introl eq_refl)) as [x Hx]. destruct IH as (y & Ey & Ky & Gy); [intros; eapply H; right; eassumption|].
    exists ((KStr k, x) :: y). split; [|split].
    + cbn [mapM fst snd]. rewrite Hx. cbn [bind]. rewrite Ey. reflexivity.
    + cbn [map fst]. rewrite Ky. reflexivity.
    + intros k'. cbn [kget dget]. rewrite key_eqb_KStr. destruct (String.eqb k' k); [rewrite Hx; reflexivity|apply Gy].
Qed.

Lemma NoDup_KStr : forall V (p : dict V), NoDup (dkeys p) -> NoDup (map (fun kv => KStr (fst kv)) p).
Proof.
  intros V p. induction p as [|[k v] p IH]; cbn; intros H; [constructor|]. inversion H; subst. constructor; [|auto].
  intros C. apply in_map_iff in C. destruct C as [[k2 v2] [C1 C2]]. cbn in C1. inversion C1; subst.
  apply (in_map fst) in C2. contradiction.
Qed.

Lemma dget_filter_ne : forall V (p : dict V) k j,
  dget k (filter (fun kv => negb (String.eqb (fst kv) j)) p) = if String.eqb k j then None else dget k p.
Proof.
  intros V p k j. induction p as [|[k' v] p IH]; cbn [dget filter]; [destruct (String.eqb k j); reflexivity|].
  cbn [fst]. destruct (String.eqb k' j) eqn:E; cbn [negb dget].
  - apply String.eqb_eq in E. subst. rewrite IH. destruct (String.eqb k j); reflexivity.
  - rewrite IH. destruct (String.eqb k k') eqn:E2; [|reflexivity]. apply String.eqb_eq in E2. subst. rewrite E. reflexivity.
Qed.

Lemma NoDup_filter_keys : forall V (f : string * V -> bool) (p : dict V), NoDup (dkeys p) -> NoDup (dkeys (filter f p)).
Proof.
  intros V f p H. induction p as [|[k v] p IH]; cbn; [constructor|]. inversion H; subst. destruct (f (k, v)); [|auto].
  cbn. constructor; [|auto]. intros C. apply in_map_iff in C. destruct C as [[k2 v2] [C1 C2]]. apply filter_In in C2.
  cbn in C1. subst. destruct C2 as [C2 _]. apply (in_map fst) in C2. contradiction.
Qed.

Lemma kmem_get : forall V k (d : list (pykey * V)) v, kget (KStr k) d = Some v -> kmem k d = true.
Proof. intros V k d v H. unfold kmem. rewrite H. reflexivity. Qed.

Lemma lower_cam : forall c, lower (cam_value c) = cam_value c.
Proof. intros []; reflexivity. Qed.

Lemma cam_of_value : forall c, cam_of (cam_value c) = Some c.
Proof. intros []; reflexivity. Qed.

Lemma optional_in : forall c k, c <> Crpc -> (In k (opt_frame_schema c) <-> optional_param c k).
Proof. intros c k Hc. unfold optional_param. destruct c; cbn; try contradiction; tauto. Qed.

Lemma same_dicts_keys : forall a b, same_dicts a b -> dkeys a = dkeys b.
Proof.
  intros a b H. induction H as [|x y l l' [Hxy _] H IH]; [reflexivity|]. cbn [map]. rewrite Hxy, IH. reflexivity.
Qed.

(** * C16: one camera *)
Lemma int_param_dumps : forall p, valid_int_param p ->
  exists y c, int_yaml_param p = Ok y /\ dget "cam_type" p = Some (MCam c) /\ NoDup (map fst y) /\
  (forall k v, In (k, v) y -> exists s, k = KStr s) /\
  forall k, kget (KStr k) y =
    if String.eqb k "type" then Some (PStr (cam_value c))
    else if String.eqb k "cam_type" then None
    else match dget k p with Some v => match dumped v with Ok x => Some x | Err _ => None end | None => None end.
Proof.
  intros p (HN & c & Hc & Hcam & (imsz & Him) & (f & Hf & Hft) & Hopt).
  set (q := filter (fun kv => negb (String.eqb (fst kv) "cam_type")) p).
  assert (HNq : NoDup (dkeys q)) by (apply NoDup_filter_keys; assumption).
  assert (Hqt : ~ In "type" (dkeys q)).
  { rewrite <- dget_None. unfold q. rewrite dget_filter_ne. cbn [String.eqb]. simpl String.eqb. cbn iota.
    destruct (dget "type" p) eqn:E; [|reflexivity]. apply Hopt in E; [|cbn; intuition discriminate].
    destruct E as [E _]. apply (optional_in c _ Hc) in E. destruct c; cbn in E; intuition discriminate. }
  assert (Hupd : dupdate [("type", MV (PStr (cam_value c)))] q = ("type", MV (PStr (cam_value c))) :: q).
  { rewrite dupdate_app_new; [reflexivity|assumption|]. intros k Hk [<-|[]]. contradiction. }
  destruct (dumped_items_spec (("type", MV (PStr (cam_value c))) :: q)) as (y & Ey & Ky & Gy).
  { intros k v [H|H]; [inversion H; subst; eexists; reflexivity|]. unfold q in H. apply filter_In in H. destruct H as [H Hk].
    cbn in Hk. apply negb_true_iff, String.eqb_neq in Hk. apply (In_dget p k v HN) in H.
    destruct (string_dec k "im_size") as [->|N1]; [rewrite Him in H; inversion H; subst; eexists; reflexivity|].
    destruct (string_dec k "focal_len") as [->|N2].
    { rewrite Hf in H; inversion H; subst. destruct Hft as [(x & -> & _)|(l & ->)]; eexists; reflexivity. }
    apply Hopt in H; [|cbn; intuition congruence]. destruct H as [_ H]. destruct (String.eqb k "sensor_size").
    - destruct H as [l ->]. eexists; reflexivity.
    - destruct H as [x ->]. eexists; reflexivity. }
  exists y, c. split; [|split; [assumption|split; [|split]]].
  - unfold int_yaml_param. rewrite Hcam. cbn [bind]. fold q. rewrite Hupd. exact Ey.
  - rewrite Ky. apply NoDup_KStr. cbn. constructor; assumption.
  - intros k v H. apply (in_map fst) in H. rewrite Ky in H. cbn [fst] in H. apply in_map_iff in H. destruct H as ([k' v'] & <- & _).
    eexists; reflexivity.
  - intros k. rewrite Gy. cbn [dget]. destruct (String.eqb k "type"); [reflexivity|]. unfold q. rewrite dget_filter_ne.
    destruct (String.eqb k "cam_type"); reflexivity.
Qed.

Lemma key_cases : forall k : string,
  {k = "cam_type"} + {k = "im_size"} + {k = "focal_len"} + {k = "sensor_size"} + {k = "type"} +
  {~ In k ["cam_type"; "im_size"; "focal_len"; "sensor_size"; "type"]}.
Proof.
  intros k. destruct (string_dec k "cam_type"); [tauto|]. destruct (string_dec k "im_size"); [tauto|].
  destruct (string_dec k "focal_len"); [tauto|]. destruct (string_dec k "sensor_size"); [tauto|].
  destruct (string_dec k "type"); [tauto|]. right. cbn. intuition congruence.
Qed.

Lemma eqb_ne : forall a b, a <> b -> String.eqb a b = false.
Proof. intros. apply String.eqb_neq. assumption. Qed.

Lemma int_param_parses : forall p y, valid_int_param p -> int_yaml_param p = Ok y ->
  exists p', parse_yaml_param y = Ok p' /\ same_dict p' p.
Proof.
  intros p y Hv Hy. destruct (int_param_dumps p Hv) as (y' & c & Ey & Hcam' & HNy & HKy & Gy).
  rewrite Ey in Hy. inversion Hy; subst y'. clear Hy.
  destruct Hv as (HN & c' & Hc & Hcam & (imsz & Him) & (f & Hf & Hft) & Hopt).
  rewrite Hcam in Hcam'. inversion Hcam'; subst c'. clear Hcam'.
  assert (Gt : kget (KStr "type") y = Some (PStr (cam_value c))) by (rewrite Gy; reflexivity).
  assert (Gi : kget (KStr "im_size") y = Some (PList imsz)) by (rewrite Gy; cbn; rewrite Him; reflexivity).
  assert (Gf : kget (KStr "focal_len") y = match dumped f with Ok x => Some x | Err _ => None end).
  { rewrite Gy. change (dget "focal_len" p) with (dget "focal_len" p). cbn. rewrite Hf. reflexivity. }
  assert (Gf' : exists x, dumped f = Ok x /\ kget (KStr "focal_len") y = Some x /\
      match x with PList l => MTup l | v => MV v end = f).
  { rewrite Gf. destruct Hft as [(x & -> & Hx)|(l & ->)]; cbn; eexists; (split; [reflexivity|split; [reflexivity|]]).
    - destruct x; try reflexivity. destruct Hx.
    - reflexivity. }
  destruct Gf' as (fx & Df & Gfx & Ff).
  assert (Gs : exists s, match kget (KStr "sensor_size") y with
               | Some v => do t <- to_tuple v; Ok [("sensor_size", MTup t)] | None => Ok [] end = Ok s /\
               (dget "sensor_size" p = None /\ s = [] \/ exists l, dget "sensor_size" p = Some (MTup l) /\ s = [("sensor_size", MTup l)])).
  { rewrite Gy. cbn. destruct (dget "sensor_size" p) as [v|] eqn:E.
    - destruct (Hopt _ _ E) as [_ Hs]; [cbn; intuition discriminate|]. cbn in Hs. destruct Hs as [l ->]. cbn.
      eexists; split; [reflexivity|]. right. exists l. auto.
    - eexists; split; [reflexivity|]. left. auto. }
  destruct Gs as (s & Es & Hs).
  unfold parse_yaml_param. cbn [iterM].
  rewrite (kmem_get _ _ _ _ Gt), (kmem_get _ _ _ _ Gi), (kmem_get _ _ _ _ Gfx). cbn [bind]. rewrite Gt. cbn [bind].
  rewrite lower_cam, cam_of_value.
  replace (match Some c with Some Crpc | None => Err ParamError | Some c0 => Ok c0 end) with (@Ok camtype c)
    by (destruct c; try reflexivity; contradiction). cbn [bind].
  rewrite kget_kdel. simpl String.eqb. cbn iota. rewrite Gi. cbn [to_tuple bind].
  rewrite !kget_kdel. simpl String.eqb. cbn iota. rewrite Gfx.
  replace (match fx with PList l => Ok (MTup l) | v => Ok (MV v) end) with (@Ok mval f)
    by (rewrite <- Ff; destruct fx; reflexivity). cbn [bind].
  rewrite ?kget_kdel. simpl String.eqb. cbn iota.
  rewrite Es. cbn [bind].
  set (y5 := kdel "sensor_size" _).
  assert (HNy5 : NoDup (map fst y5)) by (unfold y5; repeat apply NoDup_kdel; assumption).
  assert (Hin5 : forall k v, In (KStr k, v) y5 -> exists x, dget k p = Some x /\ ~ In k ["cam_type"; "im_size"; "focal_len"; "sensor_size"; "type"]).
  { intros k v H. unfold y5 in H. rewrite !In_kdel in H. destruct H as (((((H & N1) & N2) & N3) & N4) & N5).
    apply In_kget in H. destruct H as [v' H]. rewrite Gy in H.
    rewrite (eqb_ne k "type") in H by congruence. destruct (String.eqb k "cam_type") eqn:EC; [discriminate|].
    apply String.eqb_neq in EC. destruct (dget k p) as [x|]; [|discriminate]. exists x. split; [reflexivity|].
    cbn. intuition congruence. }
  assert (HB : bad_keys y5 (opt_frame_schema c) = false).
  { unfold bad_keys. apply Bool.not_true_is_false. intros C. apply existsb_exists in C. destruct C as ([k v] & Hin & Hk).
    assert (exists ks, k = KStr ks).
    { unfold y5 in Hin. rewrite !In_kdel in Hin. apply (HKy k v). tauto. }
    destruct H as [ks ->]. cbn in Hk. apply negb_true_iff in Hk. apply Hin5 in Hin. destruct Hin as (x & Hx & Hnk).
    destruct (Hopt _ _ Hx) as [Ho _]; [cbn in *; tauto|]. apply (optional_in c ks Hc) in Ho.
    rewrite (proj2 (existsb_exists (String.eqb ks) (opt_frame_schema c))) in Hk; [discriminate|].
    exists ks. split; [assumption|apply String.eqb_refl]. }
  rewrite HB. eexists; split; [reflexivity|].
  intros k.
  assert (G5 : dget k (str_items y5) =
     if in_dec string_dec k ["cam_type"; "im_size"; "focal_len"; "sensor_size"; "type"; "name"] then None
     else dget k p).
  { rewrite dget_str_items. unfold y5. rewrite !kget_kdel.
    destruct (in_dec string_dec k _) as [Hi|Hi].
    - destruct Hi as [<-|[<-|[<-|[<-|[<-|[<-|[]]]]]]]; try reflexivity.
      simpl String.eqb. cbn iota. rewrite Gy. reflexivity.
    - rewrite (eqb_ne k "sensor_size"), (eqb_ne k "focal_len"), (eqb_ne k "name"), (eqb_ne k "im_size"), (eqb_ne k "type")
        by (cbn in Hi; intuition congruence).
      rewrite Gy. rewrite (eqb_ne k "type"), (eqb_ne k "cam_type") by (cbn in Hi; intuition congruence).
      destruct (dget k p) as [v|] eqn:E; [|reflexivity].
      destruct (Hopt _ _ E) as [_ Hx]; [cbn in *; intuition congruence|].
      rewrite (eqb_ne k "sensor_size") in Hx by (cbn in Hi; intuition congruence). destruct Hx as [x ->]. reflexivity. }
  assert (Hname : dget "name" p = None).
  { destruct (dget "name" p) eqn:E; [|reflexivity]. destruct (Hopt _ _ E) as [Ho _]; [cbn; intuition discriminate|].
    apply (optional_in c _ Hc) in Ho. destruct c; cbn in Ho; intuition discriminate. }
  assert (Htype : dget "type" p = None).
  { destruct (dget "type" p) eqn:E; [|reflexivity]. destruct (Hopt _ _ E) as [Ho _]; [cbn; intuition discriminate|].
    apply (optional_in c _ Hc) in Ho. destruct c; cbn in Ho; intuition discriminate. }
  destruct (dget k (str_items y5)) as [v|] eqn:E5.
  - rewrite (dget_dupdate_in (str_items y5) _ k v); [|apply NoDup_str_items; assumption|assumption].
    destruct (in_dec string_dec k _); [discriminate|]. congruence.
  - rewrite dget_dupdate_notin by (apply dget_None; assumption).
    destruct (in_dec string_dec k ["cam_type"; "im_size"; "focal_len"; "sensor_size"; "type"; "name"]) as [Hi|Hi].
    + destruct Hi as [<-|[<-|[<-|[<-|[<-|[<-|[]]]]]]]; destruct Hs as [[Hs ->]|(l & Hs & ->)]; cbn; congruence.
    + rewrite <- G5. cbn [app dget].
      rewrite (eqb_ne k "cam_type"), (eqb_ne k "im_size"), (eqb_ne k "focal_len") by (cbn in Hi; intuition congruence).
      destruct Hs as [[Hs ->]|(l & Hs & ->)]; cbn; [reflexivity|].
      rewrite (eqb_ne k "sensor_size") by (cbn in Hi; intuition congruence). reflexivity.
Qed.

(** The whole document. *)
Lemma int_doc_ok : forall d, Forall (fun kv => valid_int_param (snd kv)) d ->
  exists items, int_doc d = Ok (PDict items) /\
  Forall2 (fun kv it => exists y, int_yaml_param (snd kv) = Ok y /\ it = (KStr (fst kv), PDict y)) d items.
Proof.
  intros d. unfold int_doc. induction d as [|[id p] d IH]; intros H.
  - exists []. split; [reflexivity|constructor].
  - inversion H as [|? ? Hp Hd]; subst. destruct (IH Hd) as (items & E & F). cbn in Hp.
    destruct (int_param_dumps p Hp) as (y & c & Ey & _). exists ((KStr id, PDict y) :: items). split.
    + cbn [mapM fst snd]. rewrite Ey. cbn [bind]. destruct (mapM _ d); [|discriminate]. cbn [bind] in *. inversion E; subst. reflexivity.
    + constructor; [|assumption]. exists y. auto.
Qed.

Lemma read_int_doc_nested : forall d items,
  NoDup (dkeys d) -> d <> [] -> ~ In "camera" (dkeys d) ->
  Forall (fun kv => valid_int_param (snd kv)) d ->
  Forall2 (fun kv it => exists y, int_yaml_param (snd kv) = Ok y /\ it = (KStr (fst kv), PDict y)) d items ->
  exists d', read_int_doc (PDict items) = Ok d' /\ same_dicts d' d.
Proof.
  intros d items HN Hne Hcam Hv HF.
  assert (HK : forall k, kget (KStr k) items = None <-> ~ In k (dkeys d)).
  { intros k. clear -HF. induction HF as [|[id p] it d items (y & Ey & ->) HF IH]; cbn; [tauto|].
    destruct (String.eqb k id) eqn:E.
    - apply String.eqb_eq in E. subst. split; [discriminate|]. intros H. exfalso. apply H. left; reflexivity.
    - apply String.eqb_neq in E. rewrite IH. intuition congruence. }
  unfold read_int_doc, has_camera, kmem. rewrite (proj2 (HK "camera") Hcam). cbn [bind].
  destruct HF as [|[id0 p0] it0 d items (y0 & Ey0 & ->) HF]; [contradiction|]. cbn [is_dict bind fst].
  assert (HC : validate_collection (SMap Tstr (SType Tdict)) (PDict ((KStr id0, PDict y0) :: items)) = Ok tt).
  { apply validate_iff. constructor. intros k v [H|H].
    - inversion H; subst. split; [reflexivity|constructor; constructor].
    - clear -HF H. induction HF as [|[id p] it d items (y & Ey & ->) HF IH]; [destruct H|]. destruct H as [H|H]; [|auto].
      inversion H; subst. split; [reflexivity|constructor; constructor]. }
  rewrite HC. cbn [is_ok bind].
  assert (HM : exists ps, mapM (fun kv => match kv with
                              | (KStr id, PDict y) => do p <- parse_yaml_param y; Ok (id, p)
                              | _ => Err ParamError
                              end) ((KStr id0, PDict y0) :: items) = Ok ps /\ same_dicts ps ((id0, p0) :: d)).
  { assert (HFF : Forall2 (fun kv it => exists y, int_yaml_param (snd kv) = Ok y /\ it = (KStr (fst kv), PDict y))
                    ((id0, p0) :: d) ((KStr id0, PDict y0) :: items)) by (constructor; [exists y0; auto|assumption]).
    revert Hv HFF. generalize ((id0, p0) :: d) ((KStr id0, PDict y0) :: items). clear. intros d items Hv HF.
    induction HF as [|[id p] it d items (y & Ey & ->) HF IH]; [exists []; split; [reflexivity|constructor]|].
    inversion Hv as [|? ? Hp Hd]; subst. destruct (IH Hd) as (ps & Eps & S). cbn in Hp, Ey.
    destruct (int_param_parses p y Hp Ey) as (p' & Ep & Sp). exists ((id, p') :: ps). split.
    - cbn [mapM fst]. rewrite Ep. cbn [bind]. rewrite Eps. reflexivity.
    - constructor; [cbn; auto|assumption]. }
  destruct HM as (ps & -> & S). cbn [bind]. exists ps. split; [|assumption].
  rewrite dict_of_id; [reflexivity|].
  assert (EK : dkeys ps = dkeys ((id0, p0) :: d)).
  { clear -S. induction S as [|x y l l' [Hxy _] S IH]; [reflexivity|]. cbn. rewrite Hxy, IH. reflexivity. }
  rewrite EK. assumption.
Qed.

Theorem int_doc_round_trip : forall d,
  NoDup (dkeys d) -> d <> [] -> ~ In "camera" (dkeys d) ->
  Forall (fun kv => valid_int_param (snd kv)) d ->
  exists doc d', int_doc d = Ok doc /\ read_int_doc doc = Ok d' /\ same_dicts d' d.
Proof.
  intros d HN Hne Hc Hv. destruct (int_doc_ok d Hv) as (items & E & F).
  destruct (read_int_doc_nested d items HN Hne Hc Hv F) as (d' & E' & S). eauto.
Qed.

(** * Through files *)
Lemma file_round_trip : forall A enc dec fs path ow doc (parse : pyval -> res A),
  writable fs path ow -> text_faithful enc dec doc ->
  exists fs', write_doc enc path (Ok doc) ow fs = (fs', Ok tt) /\ read_doc dec path parse fs' = (fs', parse doc).
Proof.
  intros A enc dec fs path ow doc parse Hw Ht. unfold write_doc. cbn [bind].
  destruct (write_succeeds fs path (enc doc) ow Hw (TPath path) (or_introl eq_refl)) as (W1 & W2 & _). cbn zeta in *.
  destruct (write_param_file (TPath path) (Ok (enc doc, None)) ow fs) as [fs' r]. cbn [fst snd] in *. subst r.
  exists fs'. split; [reflexivity|]. unfold read_doc, abind. cbn [open_file]. cbn [negb andb].
  unfold dmem. rewrite W2. cbn. rewrite W2. unfold text_faithful in Ht. rewrite Ht. reflexivity.
Qed.

Theorem int_round_trip : forall enc dec fs path ow d,
  NoDup (dkeys d) -> d <> [] -> ~ In "camera" (dkeys d) ->
  Forall (fun kv => valid_int_param (snd kv)) d ->
  writable fs path ow -> (forall doc, int_doc d = Ok doc -> text_faithful enc dec doc) ->
  exists fs' d', write_int_param enc path d ow fs = (fs', Ok tt) /\
                 read_oty_int_param dec path fs' = (fs', Ok d') /\ same_dicts d' d.
Proof.
  intros enc dec fs path ow d HN Hne Hc Hv Hw Ht.
  destruct (int_doc_round_trip d HN Hne Hc Hv) as (doc & d' & E & E' & S).
  unfold write_int_param, read_oty_int_param. rewrite E.
  destruct (file_round_trip _ enc dec fs path ow doc read_int_doc Hw (Ht doc E)) as (fs' & W & Rd).
  exists fs', d'. rewrite Rd, E'. auto.
Qed.

(** A camera called "camera" comes back as "unknown", and any other camera is dropped. *)
Theorem int_camera_id_lost : forall d p doc,
  NoDup (dkeys d) -> Forall (fun kv => valid_int_param (snd kv)) d -> dget "camera" d = Some p -> int_doc d = Ok doc ->
  exists p', read_int_doc doc = Ok [("unknown", p')] /\ same_dict p' p.
Proof.
  intros d p doc HN Hv Hg Hd. destruct (int_doc_ok d Hv) as (items & E & HF). rewrite Hd in E. inversion E; subst doc. clear E Hd.
  assert (Hp : valid_int_param p).
  { apply dget_In in Hg. rewrite Forall_forall in Hv. apply (Hv _ Hg). }
  assert (HK : exists y, kget (KStr "camera") items = Some (PDict y) /\ int_yaml_param p = Ok y).
  { clear -HF Hg. induction HF as [|[id q] it d items (y & Ey & ->) HF IH]; [discriminate|]. cbn [dget fst snd kget] in *.
    rewrite key_eqb_KStr. destruct (String.eqb "camera" id); [|auto]. inversion Hg; subst. eauto. }
  destruct HK as (y & Gk & Ey). destruct (int_param_parses p y Hp Ey) as (p' & Ep & Sp). exists p'. split; [|assumption].
  destruct (int_param_dumps p Hp) as (y' & c & Ey' & Hcam & _ & HKy & Gy). rewrite Ey in Ey'. inversion Ey'; subst y'. clear Ey'.
  unfold read_int_doc, has_camera, kmem. rewrite Gk. cbn [bind].
  assert (Hfirst : exists rest, y = (KStr "type", PStr (cam_value c)) :: rest).
  { unfold int_yaml_param in Ey. rewrite Hcam in Ey. cbn [bind] in Ey.
    destruct Hp as (HNp & c' & Hc & Hcam' & _ & _ & Hopt).
    rewrite dupdate_app_new in Ey.
    - cbn [app] in Ey. unfold dumped_items in Ey. cbn [mapM dumped snd fst bind] in Ey.
      match type of Ey with (bind ?m _ = _) => destruct m; [|discriminate] end. inversion Ey. eauto.
    - apply NoDup_filter_keys. assumption.
    - intros k Hk [<-|[]]. apply in_map_iff in Hk. destruct Hk as ([k2 v2] & Hk & Hin). cbn in Hk. subst k2.
      apply filter_In in Hin. destruct Hin as [Hin _]. apply (In_dget p _ _ HNp) in Hin.
      apply Hopt in Hin; [|cbn; intuition discriminate]. destruct Hin as [Ho _].
      apply (optional_in c' _ Hc) in Ho. destruct c'; cbn in Ho; intuition discriminate. }
  destruct Hfirst as (rest & ->). cbn [is_dict].
  assert (Gn : kget (KStr "name") ((KStr "type", PStr (cam_value c)) :: rest) = None).
  { rewrite Gy. cbn. destruct Hp as (HNp & c' & Hc & Hcam' & _ & _ & Hopt).
    destruct (dget "name" p) eqn:En; [|reflexivity]. apply Hopt in En; [|cbn; intuition discriminate]. destruct En as [Ho _].
    apply (optional_in c' _ Hc) in Ho. destruct c'; cbn in Ho; intuition discriminate. }
  rewrite Gn. cbn [bind is_ok]. cbn [validate_collection iterM fst snd key_val isinstance negb bind is_ok mapM].
  rewrite Ep. reflexivity.
Qed.

Theorem int_empty_fails : int_doc [] = Ok (PDict []) /\ read_int_doc (PDict []) = Err StopIteration.
Proof. split; reflexivity. Qed.

(** * C17 *)
Lemma same_dict_get : forall V (a b : dict V) k, same_dict a b -> dget k a = dget k b.
Proof. intros V a b k H. apply H. Qed.

Lemma number_conforms : forall v, number v -> conforms num_schema v.
Proof.
  intros v H. destruct v; try destruct H; unfold num_schema.
  - apply CF_types with Tint; [cbn; tauto|constructor].
  - apply CF_types with Tint; [cbn; tauto|constructor].
  - apply CF_types with Tfloat; [cbn; tauto|constructor].
  - apply CF_types with Tfloat; [cbn; tauto|constructor].
Qed.

Lemma list_conforms : forall (P : pyval -> Prop) s n l, (2 <= n)%nat -> (forall v, P v -> conforms s v) ->
  List.length l = n -> Forall P l -> conforms (SList (repeat s n)) (PList l).
Proof.
  intros P s n l Hn Hs Hl HF. apply CF_list_each; [rewrite repeat_length; assumption|]. subst n. clear Hn.
  induction HF as [|v l Hv HF IH]; cbn; constructor; auto.
Qed.

Lemma dict_conforms : forall items d, items <> [] ->
  Forall (fun ks => exists v, kget (fst ks) d = Some v /\ conforms (snd ks) v) items -> conforms (SDict items) (PDict d).
Proof.
  intros items d Hne HF. constructor; [assumption|]. intros k s Hin. rewrite Forall_forall in HF. destruct (HF (k, s) Hin) as (v & Hv & Hc). exists v. split; [apply kget_iff|]; assumption.
Qed.

Ltac dict_conf := apply dict_conforms; [discriminate|repeat (apply Forall_cons || apply Forall_nil); cbn [fst snd]; eexists; (split; [reflexivity|])].

Section Ext.
Variable crs_t : Type.
Variable crs_str : crs_t -> string.
Variable crs_parse : string -> option crs_t.
Variable is_projected : crs_t -> bool.
Variable to_lla : crs_t -> pyval -> pyval -> pyval -> res (Q * Q * Q).

Lemma ext_feature_round : forall crs f p, valid_ext_param p ->
  (forall x y z, exists q, to_lla crs x y z = Ok q) ->
  exists feat p', ext_feature crs_t to_lla crs f p = Ok feat /\ ext_of_feature feat = Ok (f, p') /\ same_dict p' p /\
  conforms (SDict [(KStr "type", SStr "Feature");
           (KStr "properties", SDict [(KStr "filename", SType Tstr); (KStr "camera", SNone);
                                      (KStr "xyz", SList (repeat num_schema 3));
                                      (KStr "opk", SList (repeat num_schema 3))]);
           (KStr "geometry", SDict [(KStr "type", SStr "Point"); (KStr "coordinates", SList [num_schema])])]) feat.
Proof.
  intros crs f p (xyz & opk & cam & (lx & -> & Lx & Fx) & (lo & -> & Lo & Fo) & Hp) Hlla.
  destruct lx as [|x [|y [|z [|? ?]]]]; try discriminate Lx. destruct lo as [|o [|ph [|ka [|? ?]]]]; try discriminate Lo.
  unfold ext_feature, dreq. rewrite (Hp "xyz"), (Hp "camera"), (Hp "opk"). cbn [dget String.eqb Ascii.eqb Bool.eqb bind mitem nth_error].
  destruct (Hlla x y z) as [[[lon lat] h] E]. rewrite E. cbn [bind dumped].
  eexists. eexists. split; [reflexivity|]. split; [reflexivity|]. split.
  - intros k. rewrite (Hp k). reflexivity.
  - unfold feature. dict_conf.
    + constructor.
    + dict_conf.
      * (constructor; constructor).
      * constructor.
      * apply (list_conforms number); auto using number_conforms.
      * apply (list_conforms number); auto using number_conforms.
    + dict_conf.
      * constructor.
      * apply CF_list_all; [discriminate|]. intros v Hv. apply number_conforms. cbn in Hv.
        destruct Hv as [<-|[<-|[<-|[]]]]; exact I.
Qed.

Theorem ext_doc_round_trip : forall crs d,
  is_projected crs = true -> crs_parse (crs_str crs) = Some crs -> (forall x y z, exists q, to_lla crs x y z = Ok q) ->
  NoDup (dkeys d) -> d <> [] -> Forall (fun kv => valid_ext_param (snd kv)) d ->
  exists doc d', ext_doc crs_t crs_str is_projected to_lla crs d = Ok doc /\
                 read_ext_doc crs_t crs_parse doc = Ok (crs, d') /\ same_dicts d' d.
Proof.
  intros crs d Hproj Hcrs Hlla HN Hne Hv. unfold ext_doc. rewrite Hproj. cbn [negb].
  assert (H : exists feats d', mapM (fun kv => ext_feature crs_t to_lla crs (fst kv) (snd kv)) d = Ok feats /\
     mapM ext_of_feature feats = Ok d' /\ same_dicts d' d /\ (d <> [] -> feats <> []) /\
     Forall (conforms (SDict [(KStr "type", SStr "Feature");
           (KStr "properties", SDict [(KStr "filename", SType Tstr); (KStr "camera", SNone);
                                      (KStr "xyz", SList (repeat num_schema 3));
                                      (KStr "opk", SList (repeat num_schema 3))]);
           (KStr "geometry", SDict [(KStr "type", SStr "Point"); (KStr "coordinates", SList [num_schema])])])) feats).
  { clear HN Hne. induction d as [|[f p] d IH]; [exists [], []; repeat split; auto; constructor|].
    inversion Hv as [|? ? Hp Hd]; subst. destruct (IH Hd) as (feats & d' & E1 & E2 & S & _ & C).
    destruct (ext_feature_round crs f p Hp Hlla) as (feat & p' & F1 & F2 & F3 & F4).
    exists (feat :: feats), ((f, p') :: d'). cbn [mapM fst snd]. rewrite F1. cbn [bind]. rewrite E1. cbn [bind].
    rewrite F2. cbn [bind]. rewrite E2. cbn [bind]. repeat split; [constructor; cbn; auto|discriminate|constructor; assumption]. }
  destruct H as (feats & d' & E1 & E2 & S & Hnf & C). rewrite E1. cbn [bind].
  eexists. exists d'. split; [reflexivity|]. split; [|assumption].
  unfold read_ext_doc.
  match goal with |- context [validate_collection ?s ?v] => assert (HC : validate_collection s v = Ok tt) end.
  { apply validate_iff. unfold ext_schema. dict_conf.
    - constructor.
    - (constructor; constructor).
    - apply CF_list_all; [auto|]. intros v Hin. rewrite Forall_forall in C. auto. }
  rewrite HC. cbn [is_ok bind kreq kget]. rewrite !key_eqb_KStr. simpl String.eqb. cbn iota. cbn [bind as_str].
  rewrite Hcrs. cbn [bind as_list]. rewrite E2. cbn [bind].
  rewrite dict_of_id; [reflexivity|].
  rewrite (same_dicts_keys d' d S). assumption.
Qed.

Theorem ext_round_trip : forall enc dec fs path ow crs d,
  is_projected crs = true -> crs_parse (crs_str crs) = Some crs -> (forall x y z, exists q, to_lla crs x y z = Ok q) ->
  NoDup (dkeys d) -> d <> [] -> Forall (fun kv => valid_ext_param (snd kv)) d ->
  writable fs path ow ->
  (forall doc, ext_doc crs_t crs_str is_projected to_lla crs d = Ok doc -> text_faithful enc dec doc) ->
  exists fs' d', write_ext_param enc crs_str is_projected to_lla path crs d ow fs = (fs', Ok tt) /\
                 oty_reader dec crs_parse path fs' = (fs', Ok (crs, d')) /\ same_dicts d' d.
Proof.
  intros enc dec fs path ow crs d Hproj Hcrs Hlla HN Hne Hv Hw Ht.
  destruct (ext_doc_round_trip crs d Hproj Hcrs Hlla HN Hne Hv) as (doc & d' & E & E' & S).
  unfold write_ext_param, oty_reader. rewrite E.
  destruct (file_round_trip _ enc dec fs path ow doc (read_ext_doc crs_t crs_parse) Hw (Ht doc E)) as (fs' & W & Rd).
  exists fs', d'. rewrite Rd, E'. auto.
Qed.

Theorem ext_empty_rejected : forall crs doc,
  is_projected crs = true -> ext_doc crs_t crs_str is_projected to_lla crs [] = Ok doc ->
  read_ext_doc crs_t crs_parse doc = Err ParamError.
Proof. intros crs doc Hp H. unfold ext_doc in H. rewrite Hp in H. cbn in H. inversion H; subst. reflexivity. Qed.
End Ext.

(** * C18 *)
Lemma gcp_feature_round : forall f g, valid_gcp g ->
  exists feat g', gcp_feature f g = Ok feat /\ gcp_of_feature feat = Ok (f, g') /\ same_dict g' g /\
  conforms (SDict [
           (KStr "type", SStr "Feature");
           (KStr "properties", SDict [(KStr "ji", SList (repeat num_schema 2)); (KStr "filename", SType Tstr);
                                      (KStr "id", SNone); (KStr "info", SNone)]);
           (KStr "geometry", SDict [(KStr "type", SStr "Point"); (KStr "coordinates", SList (repeat num_schema 3))])]) feat.
Proof.
  intros f g (ji & xyz & id & info & (lj & -> & Lj & Fj) & (lx & -> & Lx & Fx) & Hg).
  unfold gcp_feature, dreq. rewrite (Hg "ji"), (Hg "id"), (Hg "info"), (Hg "xyz").
  cbn [dget String.eqb Ascii.eqb Bool.eqb bind mlist dumped].
  eexists. eexists. split; [reflexivity|]. split; [reflexivity|]. split.
  - intros k. rewrite (Hg k). reflexivity.
  - unfold feature. dict_conf.
    + constructor.
    + dict_conf.
      * apply (list_conforms number); auto using number_conforms.
      * (constructor; constructor).
      * constructor.
      * constructor.
    + dict_conf.
      * constructor.
      * apply (list_conforms number); auto using number_conforms.
Qed.

Lemma add_gcps_new : forall G (f : string) (gs : list G) acc, ~ In f (dkeys acc) -> forall pre,
  fold_left add_gcp (map (pair f) gs) (acc ++ [(f, pre)])%list = (acc ++ [(f, pre ++ gs)])%list.
Proof.
  intros G f gs acc Hf. induction gs as [|g gs IH]; intros pre; cbn; [rewrite app_nil_r; reflexivity|].
  assert (HA : add_gcp (acc ++ [(f, pre)])%list (f, g) = (acc ++ [(f, pre ++ [g])])%list).
  { unfold add_gcp. cbn [fst snd].
    assert (HG : dget f (acc ++ [(f, pre)])%list = Some pre).
    { clear IH. induction acc as [|[k v] acc IH]; cbn; [rewrite String.eqb_refl; reflexivity|].
      cbn in Hf. rewrite (eqb_ne f k) by (intros ->; tauto). apply IH. tauto. }
    rewrite HG. clear IH HG. induction acc as [|[k v] acc IH]; cbn; [rewrite String.eqb_refl; reflexivity|].
    cbn in Hf. rewrite (eqb_ne f k) by (intros ->; tauto). rewrite IH by tauto. reflexivity. }
  rewrite HA, IH, <- app_assoc. reflexivity.
Qed.

Lemma group_gcps : forall G (d : dict (list G)) acc,
  NoDup (dkeys acc ++ dkeys d) -> Forall (fun kv => snd kv <> []) d ->
  fold_left add_gcp (List.concat (map (fun kv => map (pair (fst kv)) (snd kv)) d)) acc = (acc ++ d)%list.
Proof.
  intros G d. induction d as [|[f gs] d IH]; intros acc HN HF; cbn; [rewrite app_nil_r; reflexivity|].
  inversion HF as [|? ? Hg Hd]; subst. cbn in Hg. rewrite fold_left_app.
  assert (Hf : ~ In f (dkeys acc)).
  { intros C. cbn in HN. apply NoDup_remove_2 in HN. apply HN. apply in_or_app. left. assumption. }
  destruct gs as [|g gs]; [contradiction|]. cbn [map fold_left].
  assert (HA : add_gcp acc (f, g) = (acc ++ [(f, [g])])%list).
  { unfold add_gcp. cbn [fst snd]. rewrite (proj2 (dget_None acc f) Hf). apply dset_new. assumption. }
  rewrite HA, add_gcps_new by assumption. cbn [app]. rewrite IH; [rewrite <- app_assoc; reflexivity| |assumption].
  rewrite map_app. cbn. rewrite <- app_assoc. exact HN.
Qed.

Theorem gcp_doc_round_trip : forall d,
  NoDup (dkeys d) -> d <> [] -> Forall (fun kv => snd kv <> [] /\ Forall valid_gcp (snd kv)) d ->
  exists doc d', gcp_doc d = Ok doc /\ read_gcp_doc doc = Ok d' /\ same_gcps d' d.
Proof.
  intros d HN Hne Hv. unfold gcp_doc.
  assert (HL : forall f gs, Forall valid_gcp gs -> exists feats gs', mapM (gcp_feature f) gs = Ok feats /\
     mapM gcp_of_feature feats = Ok (map (pair f) gs') /\ Forall2 same_dict gs' gs /\ (gs <> [] -> feats <> []) /\
     Forall (conforms (SDict [
           (KStr "type", SStr "Feature");
           (KStr "properties", SDict [(KStr "ji", SList (repeat num_schema 2)); (KStr "filename", SType Tstr);
                                      (KStr "id", SNone); (KStr "info", SNone)]);
           (KStr "geometry", SDict [(KStr "type", SStr "Point"); (KStr "coordinates", SList (repeat num_schema 3))])])) feats).
  { intros f gs Hg. induction Hg as [|g gs Hg Hgs IH]; [exists [], []; repeat split; auto; constructor|].
    destruct IH as (feats & gs' & E1 & E2 & S & _ & C). destruct (gcp_feature_round f g Hg) as (feat & g' & F1 & F2 & F3 & F4).
    exists (feat :: feats), (g' :: gs'). cbn [mapM map]. rewrite F1. cbn [bind]. rewrite E1. cbn [bind]. rewrite F2. cbn [bind].
    rewrite E2. cbn [bind]. repeat split; [constructor; auto|discriminate|constructor; assumption]. }
  assert (MA : forall A B (f : A -> res B) l1 l2 r1 r2, mapM f l1 = Ok r1 -> mapM f l2 = Ok r2 -> mapM f (l1 ++ l2)%list = Ok (r1 ++ r2)%list).
  { intros A B f l1. induction l1 as [|x l1 IH]; intros l2 r1 r2 H1 H2; cbn in *; [inversion H1; subst; exact H2|].
    destruct (f x); [|discriminate]. cbn [bind] in *. destruct (mapM f l1); [|discriminate]. cbn [bind] in *.
    inversion H1; subst. rewrite (IH l2 _ _ eq_refl H2). reflexivity. }
  assert (H : exists feats d', mapM (fun kv => mapM (gcp_feature (fst kv)) (snd kv)) d = Ok feats /\
     mapM gcp_of_feature (List.concat feats) = Ok (List.concat (map (fun kv => map (pair (fst kv)) (snd kv)) d')) /\
     same_gcps d' d /\ (d <> [] -> List.concat feats <> []) /\
     Forall (conforms (SDict [
           (KStr "type", SStr "Feature");
           (KStr "properties", SDict [(KStr "ji", SList (repeat num_schema 2)); (KStr "filename", SType Tstr);
                                      (KStr "id", SNone); (KStr "info", SNone)]);
           (KStr "geometry", SDict [(KStr "type", SStr "Point"); (KStr "coordinates", SList (repeat num_schema 3))])])) (List.concat feats)).
  { clear HN Hne. induction d as [|[f gs] d IH]; [exists [], []; repeat split; auto; constructor|].
    inversion Hv as [|? ? [Hg1 Hg2] Hd]; subst. destruct (IH Hd) as (feats & d' & E1 & E2 & S & _ & C). cbn in Hg1, Hg2.
    destruct (HL f gs Hg2) as (fs & gs' & F1 & F2 & F3 & F4 & F5).
    exists (fs :: feats), ((f, gs') :: d'). cbn [mapM fst snd]. rewrite F1. cbn [bind]. rewrite E1. cbn [bind List.concat map fst snd].
    split; [reflexivity|]. split; [apply MA; assumption|]. split; [constructor; cbn; auto|]. split.
    - intros _ Ca. apply app_eq_nil in Ca. destruct Ca as [Ca _]. exact (F4 Hg1 Ca).
    - apply Forall_app. split; assumption. }
  destruct H as (feats & d' & E1 & E2 & S & Hnf & C). rewrite E1. cbn [bind].
  eexists. exists d'. split; [reflexivity|]. split; [|assumption]. unfold read_gcp_doc.
  match goal with |- context [validate_collection ?s ?v] => assert (HC : validate_collection s v = Ok tt) end.
  { apply validate_iff. unfold gcp_schema. dict_conf.
    - constructor.
    - apply CF_list_all; [auto|]. intros v Hin. rewrite Forall_forall in C. auto. }
  rewrite HC. cbn [is_ok bind kreq kget]. rewrite !key_eqb_KStr. simpl String.eqb. cbn iota. cbn [bind as_list].
  rewrite E2. cbn [bind]. rewrite group_gcps; [reflexivity| |].
  - cbn [app map]. assert (EK : dkeys d' = dkeys d).
    { clear -S. induction S as [|x y l l' [Hxy _] S IH]; [reflexivity|]. cbn. rewrite Hxy, IH. reflexivity. }
    rewrite EK. assumption.
  - clear -S Hv. induction S as [|x y l l' [Hxy Hs] S IH]; [constructor|]. inversion Hv as [|? ? [Hn _] Hd]; subst.
    constructor; [|auto]. intros C. rewrite C in Hs. inversion Hs. congruence.
Qed.

Theorem gcp_round_trip : forall enc dec fs path ow d,
  NoDup (dkeys d) -> d <> [] -> Forall (fun kv => snd kv <> [] /\ Forall valid_gcp (snd kv)) d ->
  writable fs path ow -> (forall doc, gcp_doc d = Ok doc -> text_faithful enc dec doc) ->
  exists fs' d', write_gcps enc path d ow fs = (fs', Ok tt) /\
                 read_oty_gcps dec path fs' = (fs', Ok d') /\ same_gcps d' d.
Proof.
  intros enc dec fs path ow d HN Hne Hv Hw Ht.
  destruct (gcp_doc_round_trip d HN Hne Hv) as (doc & d' & E & E' & S).
  unfold write_gcps, read_oty_gcps. rewrite E.
  destruct (file_round_trip _ enc dec fs path ow doc read_gcp_doc Hw (Ht doc E)) as (fs' & W & Rd).
  exists fs', d'. rewrite Rd, E'. auto.
Qed.

(** * C19 *)
Lemma float_conforms : forall v, float v -> conforms (SType Tfloat) v.
Proof. intros v H. constructor. destruct v; try destruct H; constructor. Qed.

Lemma rpc_param_round : forall p, valid_rpc_param p ->
  exists y s r, dumped_items (filter (fun kv => negb (String.eqb (fst kv) "cam_type")) p) = Ok y /\
  kget (KStr "im_size") y = Some (PList s) /\ kget (KStr "rpc") y = Some (PDict r) /\
  same_dict [("cam_type", MCam Crpc); ("im_size", MTup s); ("rpc", MV (PDict r))] p /\
  Forall number s /\ List.length s = 2%nat /\ valid_rpc r.
Proof.
  intros p (im & r & (s & -> & Ls & Fs) & Hr & HN & Hp).
  destruct (dumped_items_spec (filter (fun kv => negb (String.eqb (fst kv) "cam_type")) p)) as (y & Ey & _ & Gy).
  { intros k v H. apply filter_In in H. destruct H as [H Hk]. cbn in Hk. apply negb_true_iff, String.eqb_neq in Hk.
    apply (In_dget p k v HN) in H. rewrite (Hp k) in H. cbn [dget] in H. rewrite (eqb_ne k "cam_type") in H by assumption.
    destruct (String.eqb k "im_size"); [inversion H; subst; eexists; reflexivity|].
    destruct (String.eqb k "rpc"); [inversion H; subst; eexists; reflexivity|discriminate]. }
  exists y, s, r. split; [assumption|]. rewrite !Gy, !dget_filter_ne. simpl String.eqb. cbn iota. rewrite (Hp "im_size"), (Hp "rpc").
  cbn. repeat split; auto; try (intros k; rewrite (Hp k); reflexivity); try apply Hr.
Qed.

Lemma rpc_conforms : forall r s, Forall number s -> List.length s = 2%nat -> valid_rpc r -> forall y,
  kget (KStr "im_size") y = Some (PList s) -> kget (KStr "rpc") y = Some (PDict r) ->
  match rpc_schema with SMap _ sch => conforms sch (PDict y) | _ => False end.
Proof.
  intros r s Fs Ls (H1 & H2 & H3) y Gi Gr. unfold rpc_schema. apply dict_conforms; [discriminate|].
  constructor; [|constructor; [|constructor]]; cbn [fst snd].
  - exists (PList s). split; [assumption|]. apply (list_conforms number); auto. intros v Hv.
    destruct v; try destruct Hv; [apply CF_types with Tint|apply CF_types with Tint|apply CF_types with Tfloat|apply CF_types with Tfloat]; try constructor; cbn; tauto.
  - exists (PDict r). split; [assumption|]. apply dict_conforms; [discriminate|].
    assert (A1 : forall k, In k ["height_off"; "height_scale"; "lat_off"; "lat_scale"; "long_off"; "long_scale"] ->
      exists v, kget (KStr k) r = Some v /\ conforms (SType Tfloat) v).
    { intros k Hk. destruct (H1 k Hk) as (v & G & F). exists v. auto using float_conforms. }
    assert (A2 : forall k, In k ["line_off"; "line_scale"; "samp_off"; "samp_scale"] ->
      exists v, kget (KStr k) r = Some v /\ conforms num_schema v).
    { intros k Hk. destruct (H2 k Hk) as (v & G & F). exists v. auto using number_conforms. }
    assert (A3 : forall k, In k ["line_den_coeff"; "line_num_coeff"; "samp_den_coeff"; "samp_num_coeff"] ->
      exists v, kget (KStr k) r = Some v /\ conforms (SList (repeat (SType Tfloat) 20)) v).
    { intros k Hk. destruct (H3 k Hk) as (v & G & (l & -> & Ll & Fl)). exists (PList l). split; [assumption|].
      apply (list_conforms float); [lia|apply float_conforms|assumption|assumption]. }
    repeat (apply Forall_cons || apply Forall_nil); cbn [fst snd];
      first [apply A1; cbn; tauto|apply A2; cbn; tauto|apply A3; cbn; tauto].
Qed.

Theorem rpc_doc_round_trip : forall d,
  NoDup (dkeys d) -> Forall (fun kv => valid_rpc_param (snd kv)) d ->
  exists doc d', rpc_doc d = Ok doc /\ read_rpc_doc doc = Ok d' /\ same_dicts d' d.
Proof.
  intros d HN Hv. unfold rpc_doc.
  assert (H : exists items d', mapM (fun kv =>
      do y <- dumped_items (filter (fun kv => negb (String.eqb (fst kv) "cam_type")) (snd kv));
      Ok (KStr (fst kv), PDict y)) d = Ok items /\
     mapM (fun kv =>
      match fst kv with
      | KStr f => do s <- kreq "im_size" (snd kv); do s <- to_tuple s; do r <- kreq "rpc" (snd kv);
                  Ok (f, [("cam_type", MCam Crpc); ("im_size", MTup s); ("rpc", MV r)])
      | KInt _ => Err TypeError
      end) items = Ok d' /\ same_dicts d' d /\
      (forall k v, In (k, v) items -> key_has_type k Tstr /\ match rpc_schema with SMap _ sch => conforms sch v | _ => False end)).
  { clear HN. induction d as [|[f p] d IH]; [exists [], []; repeat split; try constructor; destruct H|].
    inversion Hv as [|? ? Hp Hd]; subst. destruct (IH Hd) as (items & d' & E1 & E2 & S & C). cbn in Hp.
    destruct (rpc_param_round p Hp) as (y & s & r & Ey & Gi & Gr & Sp & Fs & Ls & Hr).
    exists ((KStr f, PDict y) :: items), ((f, [("cam_type", MCam Crpc); ("im_size", MTup s); ("rpc", MV (PDict r))]) :: d').
    cbn [mapM fst snd]. rewrite Ey. cbn [bind]. rewrite E1. cbn [bind kreq]. rewrite Gi, Gr. cbn [bind to_tuple]. rewrite E2. cbn [bind].
    split; [reflexivity|]. split; [reflexivity|]. split; [constructor; cbn; auto|].
    intros k v [Hin|Hin]; [|apply C; assumption]. inversion Hin; subst. split; [reflexivity|].
    apply (rpc_conforms r s Fs Ls Hr y Gi Gr). }
  destruct H as (items & d' & E1 & E2 & S & C). rewrite E1. cbn [bind]. eexists. exists d'. split; [reflexivity|]. split; [|assumption].
  unfold read_rpc_doc.
  assert (HC : validate_collection rpc_schema (PDict items) = Ok tt).
  { apply validate_iff. unfold rpc_schema at 1. constructor. intros k v Hin. exact (C k v Hin). }
  rewrite HC. cbn [is_ok bind]. rewrite E2. cbn [bind]. rewrite dict_of_id; [reflexivity|].
  exact (eq_ind_r (fun l => NoDup l) HN (same_dicts_keys d' d S)).
Qed.

Theorem rpc_round_trip : forall enc dec fs path ow d,
  NoDup (dkeys d) -> Forall (fun kv => valid_rpc_param (snd kv)) d ->
  writable fs path ow -> (forall doc, rpc_doc d = Ok doc -> text_faithful enc dec doc) ->
  exists fs' d', write_rpc_param enc path d ow fs = (fs', Ok tt) /\
                 read_oty_rpc_param dec path fs' = (fs', Ok d') /\ same_dicts d' d.
Proof.
  intros enc dec fs path ow d HN Hv Hw Ht.
  destruct (rpc_doc_round_trip d HN Hv) as (doc & d' & E & E' & S).
  unfold write_rpc_param, read_oty_rpc_param. rewrite E.
  destruct (file_round_trip _ enc dec fs path ow doc read_rpc_doc Hw (Ht doc E)) as (fs' & W & Rd).
  exists fs', d'. rewrite Rd, E'. auto.
Qed.

Lemma rpc_schema_key : forall k v, conforms rpc_schema (PDict [(KStr "x", v)]) ->
  In k ["height_off"; "height_scale"; "lat_off"; "lat_scale"; "long_off"; "long_scale"] ->
  exists y r x, v = PDict y /\ kget (KStr "rpc") y = Some (PDict r) /\ kget (KStr k) r = Some x /\ float x.
Proof.
  intros k v H Hk. inversion H as [t s d Hd| | | | | | | | |]; subst. destruct (Hd (KStr "x") v (or_introl eq_refl)) as [_ Hc].
  inversion Hc as [|items y Hne Hi| | | | | | | |]; subst. destruct (Hi (KStr "rpc") _ (or_intror (or_introl eq_refl))) as (r' & Gr & Cr).
  inversion Cr as [|items' r Hne' Hi'| | | | | | | |]; subst. exists y, r.
  assert (HIn : In (KStr k, SType Tfloat) [
      (KStr "height_off", SType Tfloat); (KStr "height_scale", SType Tfloat);
      (KStr "lat_off", SType Tfloat); (KStr "lat_scale", SType Tfloat);
      (KStr "line_den_coeff", SList (repeat (SType Tfloat) 20));
      (KStr "line_num_coeff", SList (repeat (SType Tfloat) 20));
      (KStr "line_off", num_schema); (KStr "line_scale", num_schema);
      (KStr "long_off", SType Tfloat); (KStr "long_scale", SType Tfloat);
      (KStr "samp_den_coeff", SList (repeat (SType Tfloat) 20));
      (KStr "samp_num_coeff", SList (repeat (SType Tfloat) 20));
      (KStr "samp_off", num_schema); (KStr "samp_scale", num_schema)]).
  { cbn in Hk. destruct Hk as [<-|[<-|[<-|[<-|[<-|[<-|[]]]]]]]; cbn [In]; tauto. }
  destruct (Hi' _ _ HIn) as (x & Gx & Cx). exists x. apply kget_iff in Gr. apply kget_iff in Gx. repeat split; auto. inversion Cx as [| | | |t' x' Hx| | | | |]; subst.
  inversion Hx; subst; exact I.
Qed.

(** An integer where the reader wants a float makes the written file unreadable. *)
Theorem rpc_integer_rejected : forall d doc f p r k z,
  rpc_doc d = Ok doc -> In (f, p) d -> dget "rpc" p = Some (MV (PDict r)) ->
  In k ["height_off"; "height_scale"; "lat_off"; "lat_scale"; "long_off"; "long_scale"] ->
  kget (KStr k) r = Some (PInt z) ->
  read_rpc_doc doc = Err ParamError.
Proof.
  intros d doc f p r k z Hdoc Hin Hr Hk Hz. unfold rpc_doc in Hdoc.
  match type of Hdoc with bind ?m _ = _ => destruct m as [items|] eqn:EM; [|discriminate] end. cbn [bind] in Hdoc. inversion Hdoc; subst doc. clear Hdoc.
  apply mapM_Ok in EM. unfold read_rpc_doc.
  assert (HN : validate_collection rpc_schema (PDict items) <> Ok tt).
  { intros C. apply validate_iff in C.
    assert (HX : exists y, In (KStr f, PDict y) items /\ kget (KStr "rpc") y = Some (PDict r)).
    { clear -EM Hin Hr. induction EM as [|[f' p'] it d items Hit EM IH]; [destruct Hin|]. destruct Hin as [Hin|Hin].
      - inversion Hin; subst. cbn [fst snd] in Hit. destruct (dumped_items _) as [y|] eqn:EY; [|discriminate]. cbn [bind] in Hit.
        inversion Hit; subst. exists y. split; [left; reflexivity|]. clear -EY Hr.
        revert y EY. induction p as [|[k v] p IH]; [discriminate|]. intros y EY. cbn [dget] in Hr. cbn [filter fst] in EY.
        destruct (String.eqb "rpc" k) eqn:E.
        + apply String.eqb_eq in E. subst k. inversion Hr; subst v. cbn [String.eqb Ascii.eqb Bool.eqb negb] in EY.
          unfold dumped_items in EY. cbn [mapM fst snd dumped bind] in EY.
          match type of EY with bind ?m _ = _ => destruct m; [|discriminate] end. inversion EY; subst. reflexivity.
        + destruct (negb (String.eqb k "cam_type")); [|apply IH; assumption].
          unfold dumped_items in EY. cbn [mapM fst snd] in EY. destruct (dumped v); [|discriminate]. cbn [bind] in EY.
          match type of EY with bind ?m _ = _ => destruct m eqn:EM; [|discriminate] end. cbn [bind] in EY. inversion EY; subst.
          cbn [kget]. rewrite key_eqb_KStr, E. apply IH; assumption.
      - destruct (IH Hin) as (y & Hy & G). exists y. split; [right; assumption|assumption]. }
    destruct HX as (y & Hy & Gy).
    assert (C1 : conforms rpc_schema (PDict [(KStr "x", PDict y)])).
    { inversion C as [t s d' Hd| | | | | | | | |]; subst. constructor. intros k' v' [E|[]]. inversion E; subst.
      split; [reflexivity|]. apply (Hd (KStr f) (PDict y) Hy). }
    destruct (rpc_schema_key k _ C1 Hk) as (y' & r' & x & E & G & Gx & Fx). inversion E; subst y'.
    rewrite Gy in G. inversion G; subst r'. rewrite Hz in Gx. inversion Gx; subst x. destruct Fx. }
  destruct (validate_collection rpc_schema (PDict items)) as [[]|e]; [contradiction HN; reflexivity|]. reflexivity.
Qed.

(** Images without GCPs are not in the file. *)
Lemma gcp_doc_drops_empty : forall d, gcp_doc d = gcp_doc (filter (fun kv => match snd kv with [] => false | _ => true end) d).
Proof.
  intros d. unfold gcp_doc.
  assert (H : match mapM (fun kv => mapM (gcp_feature (fst kv)) (snd kv)) d,
                mapM (fun kv => mapM (gcp_feature (fst kv)) (snd kv)) (filter (fun kv => match snd kv with [] => false | _ => true end) d) with
          | Ok a, Ok b => List.concat a = List.concat b | Err a, Err b => a = b | _, _ => False end).
  { induction d as [|[f gs] d IH]; [reflexivity|]. cbn [mapM filter fst snd]. destruct gs as [|g gs].
    - cbn [mapM bind]. destruct (mapM _ d); cbn [bind]; exact IH.
    - cbn [mapM fst snd]. destruct (do y <- gcp_feature f g; do ys <- mapM (gcp_feature f) gs; Ok (y :: ys)); cbn [bind]; [|reflexivity].
      destruct (mapM _ d); cbn [bind]; destruct (mapM _ (filter _ d)); cbn [bind]; try contradiction; [|assumption].
      cbn. rewrite IH. reflexivity. }
  destruct (mapM _ d); destruct (mapM _ (filter _ d)); cbn [bind]; try contradiction; congruence.
Qed.

Theorem gcp_empty_lists_lost : forall d,
  NoDup (dkeys d) -> Forall (fun kv => Forall valid_gcp (snd kv)) d ->
  (exists f gs, In (f, gs) d /\ gs <> []) ->
  exists doc d', gcp_doc d = Ok doc /\ read_gcp_doc doc = Ok d' /\
    same_gcps d' (filter (fun kv => match snd kv with [] => false | _ => true end) d).
Proof.
  intros d HN Hv (f & gs & Hin & Hne). rewrite gcp_doc_drops_empty. apply gcp_doc_round_trip.
  - apply NoDup_filter_keys. assumption.
  - intros C. assert (In (f, gs) []); [|contradiction]. rewrite <- C. apply filter_In. split; [assumption|]. cbn.
    destruct gs; [contradiction|reflexivity].
  - rewrite Forall_forall in *. intros [f' gs'] H. apply filter_In in H. destruct H as [H1 H2]. cbn in *. split.
    + destruct gs'; [discriminate|discriminate].
    + apply (Hv _ H1).
Qed.

Theorem gcp_all_empty_rejected : forall d, Forall (fun kv => snd kv = []) d ->
  exists doc, gcp_doc d = Ok doc /\ read_gcp_doc doc = Err ParamError.
Proof.
  intros d H. rewrite gcp_doc_drops_empty.
  assert (E : filter (fun kv : string * list (dict mval) => match snd kv with [] => false | _ => true end) d = []).
  { induction H as [|[f gs] d Hg H IH]; [reflexivity|]. cbn in *. subst. exact IH. }
  rewrite E. eexists. split; reflexivity.
Qed.

(** * C63 *)
Lemma parse_yaml_sound_type : forall y p, parse_yaml_param y = Ok p ->
  exists c, (exists s, kget (KStr "type") y = Some (PStr s) /\ cam_of (lower s) = Some c) /\ c <> Crpc /\ dget "cam_type" p = Some (MCam c) /\ (exists l, dget "im_size" p = Some (MTup l)) /\
  (exists f, dget "focal_len" p = Some f) /\
  forall k v, dget k p = Some v -> In k ["cam_type"; "im_size"; "focal_len"] \/ optional_param c k.
Proof.
  intros y p H. unfold parse_yaml_param in H.
  destruct (iterM _ _); [|discriminate]. cbn [bind] in H.
  destruct (match kget (KStr "type") y with Some (PStr s) => Ok (lower s) | _ => Err AttributeError end) as [ty|] eqn:ET; [|discriminate].
  cbn [bind] in H.
  destruct (match cam_of ty with Some Crpc | None => Err ParamError | Some c => Ok c end) as [c|] eqn:EC; [|discriminate]. cbn [bind] in H.
  assert (Hc : c <> Crpc). { destruct (cam_of ty) as [[]|]; inversion EC; discriminate. }
  assert (HT : exists s, kget (KStr "type") y = Some (PStr s) /\ cam_of (lower s) = Some c).
  { destruct (kget (KStr "type") y) as [[]|]; try discriminate. inversion ET; subst. eexists. split; [reflexivity|].
    destruct (cam_of (lower _)) as [[]|]; inversion EC; reflexivity. }
  match type of H with bind ?m _ = _ => destruct m as [im|]; [|discriminate] end. cbn [bind] in H.
  match type of H with bind ?m _ = _ => destruct m as [fo|]; [|discriminate] end. cbn [bind] in H.
  match type of H with bind ?m _ = _ => destruct m as [se|] eqn:ES; [|discriminate] end. cbn [bind] in H.
  match type of H with (if bad_keys ?y5 _ then _ else _) = _ => set (z := y5) in * end.
  destruct (bad_keys z (opt_frame_schema c)) eqn:EB; [discriminate|]. inversion H; subst p. clear H.
  assert (Hz : forall k, In k (dkeys (str_items z)) -> optional_param c k /\ ~ In k ["cam_type"; "im_size"; "focal_len"]).
  { intros k Hk. apply in_map_iff in Hk. destruct Hk as ([k' v] & Ek & Hin). cbn in Ek. subst k'.
    apply In_str_items in Hin. destruct Hin as (x & _ & Hin).
    assert (Ho : In k (opt_frame_schema c)).
    { unfold bad_keys in EB. destruct (in_dec string_dec k (opt_frame_schema c)) as [|Hn]; [assumption|].
      exfalso. rewrite (proj2 (existsb_exists _ z)) in EB; [discriminate|]. exists (KStr k, x). split; [assumption|]. cbn.
      apply negb_true_iff. apply Bool.not_true_is_false. intros C. apply existsb_exists in C. destruct C as (k2 & C1 & C2).
      apply String.eqb_eq in C2. subst. contradiction. }
    split; [apply optional_in; assumption|]. intros C. cbn in C.
    destruct C as [<-|[<-|[<-|[]]]]; destruct c; cbn in Ho; intuition discriminate. }
  assert (HB : forall k, In k ["cam_type"; "im_size"; "focal_len"] ->
     dget k (dupdate ([("cam_type", MCam c); ("im_size", MTup im); ("focal_len", fo)] ++ se) (str_items z))%list =
     dget k ([("cam_type", MCam c); ("im_size", MTup im); ("focal_len", fo)] ++ se)%list).
  { intros k Hk. apply dget_dupdate_notin. intros C. apply Hz in C. tauto. }
  exists c. split; [assumption|]. split; [assumption|]. split; [rewrite HB by (cbn; tauto); reflexivity|].
  split; [exists im; rewrite HB by (cbn; tauto); reflexivity|].
  split; [exists fo; rewrite HB by (cbn; tauto); reflexivity|].
  intros k v Hk. apply dget_Some_key in Hk. apply In_dkeys_dupdate in Hk. destruct Hk as [Hk|Hk]; [|right; apply Hz; assumption].
  cbn [map app fst In] in Hk. destruct Hk as [<-|[<-|[<-|Hk]]]; try (left; cbn; tauto). right. left.
  destruct (kget (KStr "sensor_size") _) in ES.
  - destruct (to_tuple p); [|discriminate]. cbn in ES. inversion ES; subst. cbn in Hk. destruct Hk as [<-|[]]. cbn. tauto.
  - inversion ES; subst. destruct Hk.
Qed.

Lemma parse_yaml_sound : forall y p, parse_yaml_param y = Ok p ->
  exists c, c <> Crpc /\ dget "cam_type" p = Some (MCam c) /\ (exists l, dget "im_size" p = Some (MTup l)) /\
  (exists f, dget "focal_len" p = Some f) /\
  forall k v, dget k p = Some v -> In k ["cam_type"; "im_size"; "focal_len"] \/ optional_param c k.
Proof. intros y p H. destruct (parse_yaml_sound_type y p H) as (c & _ & R). exists c. exact R. Qed.

Theorem read_int_sound : forall doc d, read_int_doc doc = Ok d ->
  Forall (fun kv => exists c, c <> Crpc /\ dget "cam_type" (snd kv) = Some (MCam c) /\
    (exists l, dget "im_size" (snd kv) = Some (MTup l)) /\ (exists f, dget "focal_len" (snd kv) = Some f) /\
    forall k v, dget k (snd kv) = Some v -> In k ["cam_type"; "im_size"; "focal_len"] \/ optional_param c k) d.
Proof.
  intros doc d H. unfold read_int_doc in H.
  repeat match type of H with bind ?m _ = _ => destruct m eqn:?; [|discriminate]; cbn [bind] in H end.
  inversion H; subst d. clear H.
  match goal with E : mapM _ ?l = Ok ?its |- _ => apply mapM_Ok in E; rename its into items; rename E into EM end.
  assert (HI : Forall (fun kv => exists y, parse_yaml_param y = Ok (snd kv)) items).
  { clear -EM. induction EM as [|x y l l' Hxy EM IH]; constructor; [|assumption]. destruct x as [[s|z] [| | | | | | |dd]]; try discriminate.
    destruct (parse_yaml_param dd) eqn:E; [|discriminate]. cbn in Hxy. inversion Hxy; subst. exists dd. exact E. }
  assert (HD : forall (l acc : dict (dict mval)), Forall (fun kv => exists y, parse_yaml_param y = Ok (snd kv)) acc ->
     Forall (fun kv => exists y, parse_yaml_param y = Ok (snd kv)) l -> Forall (fun kv => exists y, parse_yaml_param y = Ok (snd kv)) (dupdate acc l)).
  { assert (HS : forall (acc : dict (dict mval)) k v, Forall (fun kv => exists y, parse_yaml_param y = Ok (snd kv)) acc ->
       (exists y, parse_yaml_param y = Ok v) -> Forall (fun kv => exists y, parse_yaml_param y = Ok (snd kv)) (dset k v acc)).
    { intros acc k v Ha Hv. induction Ha as [|[k' v'] acc Hk Ha IH]; cbn; [constructor; [exact Hv|constructor]|].
      destruct (String.eqb k k'); constructor; auto. }
    intros l. unfold dupdate. induction l as [|[k v] l IH]; intros acc Ha Hl; cbn; [assumption|]. inversion Hl; subst. apply IH; auto. }
  eapply Forall_impl; [|apply (HD items []); [constructor|exact HI]].
  intros [k p] (y & Hy). cbn [snd] in *. eapply parse_yaml_sound. exact Hy.
Qed.

(** * GeoJSON, syntax, types *)
Theorem ext_geojson :
  forall crs_t (crs_str : crs_t -> string) is_projected to_lla crs d doc,
  ext_doc crs_t crs_str is_projected to_lla crs d = Ok doc ->
  exists feats, doc = PDict [(KStr "type", PStr "FeatureCollection"); (KStr "world_crs", PStr (crs_str crs)); (KStr "features", PList feats)] /\
  Forall2 (fun kv f => forall x y z, dget "xyz" (snd kv) = Some (MTup [x; y; z]) ->
             exists lon lat h, to_lla crs x y z = Ok (lon, lat, h) /\ geojson_point f lon lat h) d feats.
Proof.
  intros T cs ip lla crs d doc H. unfold ext_doc in H. destruct (negb _); [discriminate|].
  destruct (mapM _ d) as [feats|] eqn:E; [|discriminate]. cbn [bind] in H. inversion H; subst; clear H.
  exists feats. split; [reflexivity|]. revert feats E. induction d as [|[f p] d IH]; intros feats E.
  - cbn in E. inversion E. constructor.
  - cbn [mapM fst snd] in E. destruct (ext_feature T lla crs f p) as [ft|] eqn:EF; [|discriminate]. cbn [bind] in E.
    destruct (mapM _ d) as [fs|]; [|discriminate]. cbn [bind] in E. inversion E; subst; clear E. constructor; [|apply IH; reflexivity].
    cbn [snd]. intros x y z Hx. unfold ext_feature, dreq in EF. rewrite Hx in EF. cbn [bind mitem nth_error] in EF.
    destruct (lla crs x y z) as [[[lon lat] h]|]; [|discriminate]. cbn [bind] in EF.
    destruct (dget "camera" p); [|discriminate]. cbn [bind] in EF. destruct (dget "opk" p); [|discriminate]. cbn [bind] in EF.
    destruct (dumped m) as [v1|]; [|discriminate]. cbn [bind] in EF. cbn [dumped bind] in EF.
    destruct (dumped m0) as [v2|]; [|discriminate]. cbn [bind] in EF.
    inversion EF; subst. exists lon, lat, h. split; [reflexivity|]. eexists. reflexivity.
Qed.

Theorem ext_not_projected : forall crs_t (crs_str : crs_t -> string) is_projected to_lla enc path crs d ow fs, is_projected crs = false ->
  write_ext_param enc crs_str is_projected to_lla path crs d ow fs = (fs, Err CrsError).
Proof.
  intros T cs ip lla enc path crs d ow fs H. unfold write_ext_param, write_doc, ext_doc. rewrite H. reflexivity.
Qed.

Theorem read_syntax : forall crs_t (crs_parse : string -> option crs_t) dec path fs,
  let result {A} (e : exn) (r : fsys * res A) := r = (fs, Err e) in
  let all e := result e (read_oty_int_param dec path fs) /\ result e (read_oty_rpc_param dec path fs) /\
               result e (read_oty_gcps dec path fs) /\ result e (oty_reader dec crs_parse path fs) in
  (dget path fs = None -> all FileNotFoundError) /\
  (forall text, dget path fs = Some text -> dec text = None -> all ParamError).
Proof.
  intros T cp dec path fs result all.
  assert (R1 : forall A (f : pyval -> res A), dget path fs = None -> read_doc dec path f fs = (fs, Err FileNotFoundError)).
  { intros A f H. unfold read_doc, abind. cbn [open_file]. rewrite andb_false_r. cbn. unfold dmem. rewrite H. reflexivity. }
  assert (R2 : forall A (f : pyval -> res A) text, dget path fs = Some text -> dec text = None -> read_doc dec path f fs = (fs, Err ParamError)).
  { intros A f text H Hd. unfold read_doc, abind. cbn [open_file]. rewrite andb_false_r. cbn. unfold dmem. rewrite H. rewrite H, Hd. reflexivity. }
  split.
  - intros H. repeat split; apply R1; assumption.
  - intros text H Hd. repeat split; eapply R2; eassumption.
Qed.

Lemma lower_any_case : forall s t, lower s = t <-> any_case s t.
Proof.
  assert (E : forall c, ((65 <=? nat_of_ascii c) && (nat_of_ascii c <=? 90))%nat = true <-> (65 <= nat_of_ascii c <= 90)%nat).
  { intros c. rewrite andb_true_iff, !Nat.leb_le. reflexivity. }
  induction s as [|c s IH]; intros t; cbn [lower]; split.
  - intros <-. constructor.
  - intros H. inversion H. reflexivity.
  - intros <-. unfold lower_ascii. destruct (_ && _)%nat eqn:EC.
    + apply E in EC. apply AC_upper; [exact EC|apply nat_ascii_embedding; lia|apply IH; reflexivity].
    + apply AC_same; [rewrite <- E; congruence|apply IH; reflexivity].
  - intros H. inversion H; subst.
    + unfold lower_ascii. destruct (_ && _)%nat eqn:EC; [apply E in EC; contradiction|]. f_equal. apply IH. assumption.
    + unfold lower_ascii. rewrite (proj2 (E c)) by assumption. f_equal; [|apply IH; assumption].
      rewrite <- (ascii_nat_embedding c'). f_equal. symmetry. assumption.
Qed.

Lemma cam_of_name : forall s c, c <> Crpc -> cam_of s = Some c <-> frame_type_name c s.
Proof.
  intros s c Hc. unfold cam_of. split.
  - repeat match goal with |- context[String.eqb s ?x] =>
      let H := fresh in destruct (String.eqb s x) eqn:H; [apply String.eqb_eq in H; subst; intros [= <-]; try congruence; reflexivity|] end.
    discriminate.
  - destruct c; cbn; intros H; try contradiction; subst; reflexivity.
Qed.

Theorem type_sound : forall y s p, kget (KStr "type") y = Some (PStr s) -> parse_yaml_param y = Ok p ->
  exists c t, frame_type_name c t /\ any_case s t /\ dget "cam_type" p = Some (MCam c).
Proof.
  intros y s p Hy H.
  assert (HC : exists c, c <> Crpc /\ cam_of (lower s) = Some c /\ dget "cam_type" p = Some (MCam c)).
  { destruct (parse_yaml_sound_type y p H) as (c & (s' & E1 & E2) & Hc & E3 & _). exists c. split; [assumption|].
    assert (s' = s) by congruence. subst. auto. }
  destruct HC as (c & Hc & H1 & H2). exists c, (lower s). split; [apply cam_of_name; assumption|]. split; [apply lower_any_case; reflexivity|assumption].
Qed.

Theorem type_any_case : forall c s t l f, frame_type_name c t -> any_case s t -> number f ->
  parse_yaml_param [(KStr "type", PStr s); (KStr "im_size", PList l); (KStr "focal_len", f)] =
  Ok [("cam_type", MCam c); ("im_size", MTup l); ("focal_len", MV f)].
Proof.
  intros c s t l f Hc Hs Hf. apply lower_any_case in Hs. subst t.
  assert (c <> Crpc) by (intros ->; exact Hc). apply cam_of_name in Hc; [|assumption].
  unfold parse_yaml_param. cbn -[cam_of lower]. rewrite Hc. destruct c; try congruence; destruct f; cbn in Hf; try contradiction; reflexivity.
Qed.
