(** Proofs for Scene_Props (C96): from documents to dictionaries. *)
From Coq Require Import Ascii String List Reals QArith Qreals ZArith Bool Lia.
From Verif Require Import Py Py_Proof Flt Mat Remap_Model Frame_Model Frame_Spec Undist_Model Undist_Spec Validate_Model Validate_Spec Validate_Proof Params_Model Params_Spec Params_Proof
  Factory_Model Cam_Model Cam_Spec Cam_Proof Rpc_Model Rcam_Model Proj_Spec Make_Model Make_Spec Make_Proof Scene_Model Scene_Spec Scene_Proof.
From Verif Require Factory_Spec Factory_Proof.
Import ListNotations.
Open Scope string_scope.
Open Scope list_scope.

(** * Interior parameters *)

Definition deleted (k : string) : bool := one_of k ["type"; "im_size"; "name"; "focal_len"; "sensor_size"].

Lemma camera_keys : forall y c k, camera_in y c -> In k (map fst y) -> exists s, k = KStr s /\ (In s ["name"; "type"; "im_size"; "focal_len"] \/ optional_param (in_type c) s).
Proof. intros y c k H. apply (y_known _ _ H). Qed.

Lemma frame_of : forall c t, frame_type_name c t -> c <> Crpc.
Proof. intros c t H ->. exact H. Qed.

Lemma real_not_list : forall v x, is_real v x -> (forall l, v <> PList l) /\ is_dict v = false.
Proof. intros v x H. destruct H; split; try reflexivity; intros l; discriminate. Qed.

Lemma parsed : forall y c, camera_in y c -> exists p, parse_yaml_param y = Ok p /\
  dget "cam_type" p = Some (MCam (in_type c)) /\ dget "im_size" p = Some (MTup [PInt (in_w c); PInt (in_h c)]) /\
  (exists v, dget "focal_len" p = Some v /\ ((exists x, v = MV x /\ is_real x (in_fx c) /\ in_fy c = in_fx c) \/ is_reals v [in_fx c; in_fy c])) /\
  match in_sensor c with Some (sw, sh) => exists v, dget "sensor_size" p = Some v /\ is_reals v [sw; sh] | None => dget "sensor_size" p = None end /\
  (forall k, ~ In k ["cam_type"; "type"; "name"; "im_size"; "focal_len"; "sensor_size"] -> dget k p = option_map MV (kget (KStr k) y)) /\
  (forall k, In k (map fst p) -> In k ["cam_type"; "im_size"; "focal_len"] \/ optional_param (in_type c) k).
Proof.
  intros y c H. destruct (y_type _ _ H) as (s & t & Et & At & Ft). pose proof (frame_of _ _ Ft) as Nr. apply lower_any_case in At. apply (cam_of_name t (in_type c) Nr) in Ft.
  destruct (y_focal _ _ H) as (vf & Ef & Hf). pose proof (y_size _ _ H) as Es.
  set (focal := match vf with PList l => MTup l | v => MV v end).
  assert (F : (exists x, focal = MV x /\ is_real x (in_fx c) /\ in_fy c = in_fx c) \/ is_reals focal [in_fx c; in_fy c]).
  { unfold focal. destruct Hf as [[Hf E]|(fx & fy & -> & H1 & H2)].
    - left. exists vf. destruct Hf; repeat (split; [reflexivity || constructor|]); exact E.
    - right. exists [fx; fy]. split; [left; reflexivity|]. repeat constructor; assumption. }
  assert (S : exists sens, match kget (KStr "sensor_size") y with Some v => do t <- to_tuple v; Ok [("sensor_size", MTup t)] | None => Ok [] end = Ok sens /\
    match in_sensor c with Some (sw, sh) => exists v, sens = [("sensor_size", v)] /\ is_reals v [sw; sh] | None => sens = [] end).
  { pose proof (y_sensor _ _ H) as Hs. destruct (kget (KStr "sensor_size") y) as [v|], (in_sensor c) as [[sw sh]|]; try contradiction.
    - destruct Hs as (a & b & -> & H1 & H2). exists [("sensor_size", MTup [a; b])]. split; [reflexivity|]. exists (MTup [a; b]). split; [reflexivity|]. exists [a; b]. split; [left; reflexivity|]. repeat constructor; assumption.
    - exists []. auto. }
  destruct S as (sens & ES & HS).
  unfold parse_yaml_param. cbn [iterM]. rewrite (kmem_get _ _ _ _ Et), (kmem_get _ _ _ _ Es), (kmem_get _ _ _ _ Ef). cbn [bind]. rewrite Et. cbn [bind]. rewrite At, Ft.
  replace (match Some (in_type c) with Some Crpc | None => Err ParamError | Some c0 => Ok c0 end) with (@Ok camtype (in_type c)) by (destruct (in_type c); try reflexivity; contradiction). cbn [bind].
  rewrite kget_kdel. simpl String.eqb. cbn iota. rewrite Es. cbn [to_tuple bind]. rewrite !kget_kdel. simpl String.eqb. cbn iota. rewrite Ef.
  replace (match vf with PList l => Ok (MTup l) | v => Ok (MV v) end) with (@Ok mval focal) by (unfold focal; destruct vf; reflexivity). cbn [bind].
  rewrite ?kget_kdel. simpl String.eqb. cbn iota. rewrite ES. cbn [bind]. set (y5 := kdel "sensor_size" _).
  assert (N5 : NoDup (map fst y5)) by (unfold y5; repeat apply NoDup_kdel; apply (y_keys _ _ H)).
  assert (In5 : forall k v, In (k, v) y5 -> exists s, k = KStr s /\ optional_param (in_type c) s /\ ~ In s ["type"; "name"; "im_size"; "focal_len"; "sensor_size"]).
  { intros k v Hin. unfold y5 in Hin. rewrite !In_kdel in Hin. destruct Hin as (((((Hin & N1) & N2) & N3) & N4) & N6). apply (in_map fst) in Hin.
    destruct (y_known _ _ H _ Hin) as (s' & Ek & Hs'). cbn in Ek. subst k. exists s'. split; [reflexivity|]. assert (~ In s' ["type"; "name"; "im_size"; "focal_len"; "sensor_size"]) by (cbn; intuition congruence).
    split; [|assumption]. cbn in *. destruct Hs'; [intuition congruence|assumption]. }
  assert (B : bad_keys y5 (opt_frame_schema (in_type c)) = false).
  { unfold bad_keys. apply Bool.not_true_is_false. intros X. apply existsb_exists in X. destruct X as ([k v] & Hin & Hk). destruct (In5 _ _ Hin) as (s' & -> & Ho & _). cbn in Hk.
    apply (optional_in _ _ Nr) in Ho. apply negb_true_iff in Hk. rewrite (proj2 (existsb_exists (String.eqb s') _)) in Hk; [discriminate|]. exists s'. split; [assumption|apply String.eqb_refl]. }
  rewrite B. set (base := _ ++ sens). eexists. split; [reflexivity|].
  assert (Nb : forall k, dget k (str_items y5) = if one_of k ["type"; "name"; "im_size"; "focal_len"; "sensor_size"] then None else option_map MV (kget (KStr k) y)).
  { intros k. rewrite dget_str_items. unfold y5. rewrite !kget_kdel. unfold one_of. cbn [existsb].
    destruct (String.eqb k "sensor_size"), (String.eqb k "focal_len"), (String.eqb k "name"), (String.eqb k "im_size"), (String.eqb k "type"); reflexivity. }
  assert (Ct : kget (KStr "cam_type") y = None).
  { destruct (kget (KStr "cam_type") y) as [v|] eqn:E; [|reflexivity]. apply kget_In, (in_map fst) in E. destruct (y_known _ _ H _ E) as (s' & Ek & Hs'). cbn in Ek. injection Ek as <-.
    destruct Hs' as [Hs'|[Hs'|Hs']]; [cbn in Hs'; intuition discriminate|cbn in Hs'; intuition discriminate|]. destruct (in_type c); cbn in Hs'; intuition discriminate. }
  assert (G : forall k, dget k (str_items y5) = None -> dget k (dupdate base (str_items y5)) = dget k base) by (intros k E; apply dget_dupdate_notin, dget_None, E).
  split; [rewrite G by (rewrite Nb; cbn; rewrite Ct; reflexivity); reflexivity|]. split; [rewrite G by (rewrite Nb; reflexivity); reflexivity|].
  split; [rewrite G by (rewrite Nb; reflexivity); exists focal; split; [reflexivity|exact F]|]. split.
  { destruct (in_sensor c) as [[sw sh]|]; rewrite G by (rewrite Nb; reflexivity).
    - destruct HS as (v & -> & Hv). exists v. split; [reflexivity|exact Hv].
    - unfold base; rewrite HS; reflexivity. }
  split.
  - intros k Nk. assert (One : one_of k ["type"; "name"; "im_size"; "focal_len"; "sensor_size"] = false).
    { apply Bool.not_true_is_false. intros X. apply one_of_iff in X. cbn in *. tauto. }
    specialize (Nb k). rewrite One in Nb. destruct (option_map MV (kget (KStr k) y)) as [v|] eqn:E.
    + apply dget_dupdate_in; [apply NoDup_str_items, N5|exact Nb].
    + rewrite G by exact Nb. unfold base. destruct (in_sensor c) as [[sw sh]|]; [destruct HS as (v & -> & _)|rewrite HS]; cbn [app dget];
        rewrite ?(eqb_ne k "cam_type"), ?(eqb_ne k "im_size"), ?(eqb_ne k "focal_len"), ?(eqb_ne k "sensor_size") by (cbn in Nk; intuition congruence); reflexivity.
  - intros k Hk. apply (In_dkeys_dupdate (str_items y5) base k) in Hk. destruct Hk as [Hk|Hk].
    + unfold base in Hk. destruct (in_sensor c) as [[sw sh]|]; [destruct HS as (v & -> & _)|rewrite HS in Hk]; cbn in Hk; [|left; cbn; tauto].
      destruct Hk as [<-|[<-|[<-|[<-|[]]]]]; [left; cbn; tauto|left; cbn; tauto|left; cbn; tauto|right; left; cbn; tauto].
    + unfold dkeys in Hk. apply in_map_iff in Hk. destruct Hk as ([k' v] & <- & Hin). apply In_str_items in Hin. destruct Hin as (x & _ & Hin). destruct (In5 _ _ Hin) as (s' & Ek & Ho & _). injection Ek as <-. right. exact Ho.
Qed.

Lemma optional_is : forall t k, optional_param t k <-> In k ["sensor_size"; "cx"; "cy"] \/ coefficient t k.
Proof. intros [] k; unfold optional_param, coefficient; tauto. Qed.

Lemma option_not_param : forall t k, In k ["distort"; "alpha"; "xyz"; "opk"] -> ~ (In k ["cam_type"; "im_size"; "focal_len"] \/ optional_param t k).
Proof.
  intros t k Hk [X|X]; [|apply optional_is in X; destruct X as [X|X]].
  - cbn in Hk, X. repeat (destruct Hk as [<-|Hk]; [intuition discriminate|]). exact Hk.
  - cbn in Hk, X. repeat (destruct Hk as [<-|Hk]; [intuition discriminate|]). exact Hk.
  - cbn in Hk. repeat (destruct Hk as [<-|Hk]; [destruct t; cbn in X; intuition discriminate|]). exact Hk.
Qed.

Lemma coefficient_other : forall t k, coefficient t k -> ~ In k ["cam_type"; "type"; "name"; "im_size"; "focal_len"; "sensor_size"; "distort"; "alpha"].
Proof. intros t k X Hk. cbn in Hk. repeat (destruct Hk as [<-|Hk]; [destruct t; cbn in X; intuition discriminate|]). exact Hk. Qed.

Lemma dget_app : forall V (a b : dict V) k, dget k (a ++ b) = match dget k a with Some v => Some v | None => dget k b end.
Proof. induction a as [|[k' v] a IH]; intros b k; cbn; [reflexivity|]. destruct (String.eqb k k'); [reflexivity|apply IH]. Qed.

(** A parsed camera with options describes the camera. *)
Theorem camera_described : forall y c kwargs d, camera_in y c -> options kwargs d ->
  exists p kw a, parse_yaml_param y = Ok p /\ merge_kwargs p kwargs = Ok kw /\ describes kw c (None, None) d a.
Proof.
  intros y c kwargs d H (Ok1 & Od & a & Oa). destruct (parsed y c H) as (p & E & Pt & Ps & Pf & Pe & Po & Pk). destruct (y_type _ _ H) as (s & t & _ & _ & Ft). pose proof (frame_of _ _ Ft) as Nr.
  assert (Nd : forall k, In k ["distort"; "alpha"; "xyz"; "opk"] -> ~ In k (map fst p)).
  { intros k Hk Hin. exact (option_not_param _ _ Hk (Pk k Hin)). }
  assert (Ap : forall k, In k (map fst kwargs) -> ~ In k (map fst p)) by (intros k Hk; apply Nd; apply Ok1 in Hk; cbn in *; tauto).
  exists p, (p ++ kwargs), a. split; [exact E|]. split.
  { unfold merge_kwargs. destruct (existsb _ kwargs) eqn:X; [|reflexivity]. apply existsb_exists in X. destruct X as ([k v] & Hin & Hk). cbn in Hk. apply dmem_iff in Hk. exfalso. apply (Ap k); [apply (in_map fst) in Hin; exact Hin|exact Hk]. }
  assert (Gk : forall k, ~ In k ["distort"; "alpha"] -> dget k (p ++ kwargs) = dget k p).
  { intros k Nk. rewrite dget_app. destruct (dget k p); [reflexivity|]. destruct (dget k kwargs) as [v|] eqn:Ek; [|reflexivity]. exfalso. apply Nk, Ok1. eapply dget_in, Ek. }
  assert (Go : forall k, In k ["distort"; "alpha"; "xyz"; "opk"] -> dget k (p ++ kwargs) = dget k kwargs).
  { intros k Hk. rewrite dget_app. destruct (dget k p) as [v|] eqn:Ek; [|reflexivity]. exfalso. apply (Nd k Hk). eapply dget_in, Ek. }
  assert (Gx : forall k, In k ["xyz"; "opk"] -> dget k kwargs = None).
  { intros k Hk. destruct (dget k kwargs) as [v|] eqn:Ek; [|reflexivity]. apply dget_in, Ok1 in Ek. cbn in *. intuition subst; discriminate. }
  assert (Num : forall k x, ~ In k ["cam_type"; "type"; "name"; "im_size"; "focal_len"; "sensor_size"; "distort"; "alpha"] -> real_at y k x -> number_at (p ++ kwargs) k 0 x).
  { intros k x Nk Hx. unfold number_at, real_at in *. rewrite Gk, Po by (cbn in *; tauto). destruct (kget (KStr k) y) as [v|]; cbn; [exists v; auto|exact Hx]. }
  split.
  - exact Nr.
  - intros k Hk. rewrite map_app in Hk. apply in_app_or in Hk. unfold keyword. destruct Hk as [Hk|Hk].
    + destruct (Pk k Hk) as [X|X]; [left; cbn in *; tauto|]. apply optional_is in X. destruct X as [X|X]; [left; cbn in *; tauto|auto].
    + apply Ok1 in Hk. left. cbn in *. tauto.
  - exists (MCam (in_type c)). split; [rewrite Gk by (cbn; intuition discriminate); exact Pt|left; reflexivity].
  - eexists. split; [rewrite Gk by (cbn; intuition discriminate); exact Ps|left; reflexivity].
  - destruct Pf as (v & Ev & Hv). exists v. split; [rewrite Gk by (cbn; intuition discriminate); exact Ev|]. tauto.
  - unfold numbers_at. rewrite Gk by (cbn; intuition discriminate). destruct (in_sensor c) as [[sw sh]|].
    + destruct Pe as (v & -> & Hv). destruct Hv as (vs & Ev & F). destruct Ev as [-> | ->]; eexists; (split; [reflexivity|]); exists vs; auto.
    + rewrite Pe. reflexivity.
  - apply Num; [cbn; intuition discriminate|apply (y_cx _ _ H)].
  - apply Num; [cbn; intuition discriminate|apply (y_cy _ _ H)].
  - intros k Hk. apply Num; [apply (coefficient_other _ _ Hk)|apply (y_coefs _ _ H), Hk].
  - apply (y_others _ _ H).
  - unfold numbers_at. rewrite Go, Gx by (cbn; tauto). reflexivity.
  - unfold numbers_at. rewrite Go, Gx by (cbn; tauto). reflexivity.
  - rewrite Go by (cbn; tauto). exact Od.
  - unfold number_at in *. rewrite Go by (cbn; tauto). exact Oa.
Qed.

Definition camera_entry (ip : string * dict mval) (sc : string * Make_Spec.interior) : Prop :=
  fst ip = fst sc /\ exists y, camera_in y (snd sc) /\ parse_yaml_param y = Ok (snd ip).

Lemma entries_parsed : forall d cams,
  Forall2 (fun kv sc => exists y, kv = (KStr (fst sc), PDict y) /\ camera_in y (snd sc)) d cams ->
  exists ints, mapM (fun kv => match kv with
                              | (KStr id, PDict y) => do p <- parse_yaml_param y; Ok (id, p)
                              | _ => Err ParamError
                              end) d = Ok ints /\ Forall2 camera_entry ints cams /\ map fst d = map (fun ip => KStr (fst ip)) ints.
Proof.
  intros d cams F. induction F as [|kv [id c] d cams (y & -> & Hc) F IH]; [exists []; repeat split; constructor|].
  destruct IH as (ints & E & Fi & Ek). cbn [fst snd] in *. destruct (parsed y c Hc) as (p & Ep & _).
  exists ((id, p) :: ints). split; [cbn [mapM]; rewrite Ep; cbn [bind]; rewrite E; reflexivity|]. split; [|cbn; rewrite Ek; reflexivity].
  constructor; [|exact Fi]. split; [reflexivity|]. exists y. auto.
Qed.

Lemma NoDup_names : forall (ints : dict (dict mval)), NoDup (map (fun ip => KStr (fst ip)) ints) -> NoDup (dkeys ints).
Proof.
  induction ints as [|[id p] ints IH]; cbn; intros H; [constructor|]. inversion H; subst. constructor; [|apply IH; assumption].
  intros X. apply H2. unfold dkeys in X. apply in_map_iff in X. destruct X as (x & <- & Hx). apply in_map_iff. exists x. auto.
Qed.

(** From the section on, param_io.py:262-283. *)
Definition rest_of_int (doc : pyval) : res (dict (dict mval)) :=
  do d <- match doc with PDict d => Ok d | _ => Err AttributeError end;
  do d <- match d with
          | [] => Err StopIteration
          | (_, first) :: _ =>
            if is_dict first then Ok d
            else match kget (KStr "name") d with
                 | None => Ok [(KStr "unknown", PDict d)]
                 | Some (PStr s) => Ok [(KStr s, PDict d)]
                 | Some (PInt z) => Ok [(KInt z, PDict d)]
                 | Some (PList _) | Some (PDict _) => Err TypeError
                 | Some _ => Err ParamError
                 end
          end;
  do _ <- (if is_ok (validate_collection (SMap Tstr (SType Tdict)) (PDict d)) then Ok tt else Err ParamError);
  do items <- mapM (fun kv => match kv with
                              | (KStr id, PDict y) => do p <- parse_yaml_param y; Ok (id, p)
                              | _ => Err ParamError
                              end) d;
  Ok (dict_of items).

Lemma read_camera_section : forall d v, kget (KStr "camera") d = Some v -> read_int_doc (PDict d) = rest_of_int v.
Proof. intros d v H. unfold read_int_doc, rest_of_int. cbn [has_camera bind]. unfold kmem. rewrite H. reflexivity. Qed.
Lemma read_plain : forall d, kget (KStr "camera") d = None -> read_int_doc (PDict d) = rest_of_int (PDict d).
Proof. intros d H. unfold read_int_doc, rest_of_int. cbn [has_camera bind]. unfold kmem. rewrite H. reflexivity. Qed.

Lemma section_read : forall d cams, NoDup (map fst d) ->
  Forall2 (fun kv sc => exists y, kv = (KStr (fst sc), PDict y) /\ camera_in y (snd sc)) d cams ->
  exists ints, (do _ <- (if is_ok (validate_collection (SMap Tstr (SType Tdict)) (PDict d)) then Ok tt else Err ParamError);
    do items <- mapM (fun kv => match kv with
                              | (KStr id, PDict y) => do p <- parse_yaml_param y; Ok (id, p)
                              | _ => Err ParamError
                              end) d;
    Ok (dict_of items)) = Ok ints /\ Forall2 camera_entry ints cams /\ NoDup (map fst ints).
Proof.
  intros d cams N F.
  assert (HC : validate_collection (SMap Tstr (SType Tdict)) (PDict d) = Ok tt).
  { apply validate_iff. constructor. intros k v H. clear -F H. induction F as [|kv sc d cams (y & -> & _) F IH]; [destruct H|]. destruct H as [H|H]; [|auto].
    inversion H; subst. split; [reflexivity|constructor; constructor]. }
  destruct (entries_parsed d cams F) as (ints & E & Fi & Ek). exists ints. rewrite HC. cbn [is_ok bind]. rewrite E. cbn [bind].
  rewrite Ek in N. apply NoDup_names in N. rewrite dict_of_id by exact N. auto.
Qed.

Lemma nested_read : forall d cams, d <> [] -> NoDup (map fst d) ->
  Forall2 (fun kv sc => exists y, kv = (KStr (fst sc), PDict y) /\ camera_in y (snd sc)) d cams ->
  exists ints, rest_of_int (PDict d) = Ok ints /\ Forall2 camera_entry ints cams /\ NoDup (map fst ints).
Proof.
  intros d cams Hne N F. unfold rest_of_int. cbn [bind]. destruct d as [|[k v] d]; [contradiction|].
  assert (Ed : is_dict v = true) by (inversion F as [|? ? ? ? (y & E & _)]; subst; congruence || (injection E as _ ->; reflexivity)).
  rewrite Ed. cbn [bind]. apply section_read; assumption.
Qed.

Lemma In_kget : forall V (d : list (pykey * V)) k v, NoDup (map fst d) -> In (KStr k, v) d -> kget (KStr k) d = Some v.
Proof.
  intros V d k v. induction d as [|[k' v'] d IH]; cbn; intros N H; [contradiction|]. inversion N; subst. destruct H as [H|H].
  - injection H as -> ->. rewrite String.eqb_refl. reflexivity.
  - destruct k' as [s|z]; cbn; [|auto]. destruct (String.eqb_spec k s) as [->|]; [|auto]. exfalso. apply H2. apply (in_map fst) in H. exact H.
Qed.

Lemma first_not_dict : forall k v y c, camera_in ((k, v) :: y) c -> (forall w, kget (KStr "name") ((k, v) :: y) = Some w -> is_dict w = false) -> is_dict v = false.
Proof.
  intros k v y c H Hn. destruct (y_known _ _ H k (or_introl eq_refl)) as (s & -> & Hs).
  assert (E : kget (KStr s) ((KStr s, v) :: y) = Some v) by (cbn; rewrite String.eqb_refl; reflexivity).
  assert (Real : forall x, real_at ((KStr s, v) :: y) s x -> is_dict v = false) by (intros x; unfold real_at; rewrite E; intros X; destruct X; reflexivity).
  destruct Hs as [[<-|[<-|[<-|[<-|[]]]]]|Hs].
  - apply Hn, E.
  - destruct (y_type _ _ H) as (s & t & E' & _). rewrite E in E'. injection E' as ->. reflexivity.
  - rewrite (y_size _ _ H) in E. injection E as <-. reflexivity.
  - destruct (y_focal _ _ H) as (v' & E' & Hv). rewrite E in E'. injection E' as <-. destruct Hv as [[Hv _]|(fx & fy & -> & _)]; [destruct Hv; reflexivity|reflexivity].
  - apply optional_is in Hs. destruct Hs as [[<-|[<-|[<-|[]]]]|Hs].
    + pose proof (y_sensor _ _ H) as X. rewrite E in X. destruct (in_sensor c) as [[sw sh]|]; [|contradiction]. destruct X as (a & b & -> & _). reflexivity.
    + apply (Real _ (y_cx _ _ H)).
    + apply (Real _ (y_cy _ _ H)).
    + apply (Real _ (y_coefs _ _ H _ Hs)).
Qed.

Lemma single_read : forall y c id, camera_in y c -> (kget (KStr "name") y = None /\ id = "unknown" \/ kget (KStr "name") y = Some (PStr id)) ->
  exists ints, rest_of_int (PDict y) = Ok ints /\ Forall2 camera_entry ints [(id, c)] /\ NoDup (map fst ints).
Proof.
  intros y c id H Hn. destruct (section_read [(KStr id, PDict y)] [(id, c)]) as (ints & E & R).
  { constructor; [intros []|constructor]. }
  { constructor; [exists y; auto|constructor]. }
  exists ints. split; [|exact R]. unfold rest_of_int. cbn [bind]. destruct y as [|[k v] y].
  { pose proof (y_size _ _ H) as X. discriminate X. }
  rewrite (first_not_dict k v y c H) by (intros w Hw; destruct Hn as [[Hn _]|Hn]; rewrite Hn in Hw; [discriminate|injection Hw as <-; reflexivity]).
  destruct Hn as [[Hn ->]|Hn]; rewrite Hn; cbn [bind]; exact E.
Qed.

Lemma no_camera_key : forall y c, camera_in y c -> kget (KStr "camera") y = None.
Proof.
  intros y c H. destruct (kget (KStr "camera") y) as [v|] eqn:E; [|reflexivity]. apply kget_In, (in_map fst) in E. destruct (y_known _ _ H _ E) as (s & Ek & Hs). cbn in Ek. injection Ek as <-.
  destruct Hs as [Hs|Hs]; [cbn in Hs; intuition discriminate|]. apply optional_is in Hs. destruct Hs as [Hs|Hs]; [cbn in Hs; intuition discriminate|]. destruct (in_type c); cbn in Hs; intuition discriminate.
Qed.

Theorem cameras_read : forall doc cams, cameras_in doc cams -> exists ints, read_int_doc doc = Ok ints /\ Forall2 camera_entry ints cams /\ NoDup (map fst ints).
Proof.
  intros doc cams [d cs Hne N Nc F|y c H Hn|y c s H Hn|d doc' cs Hd Hs].
  - rewrite read_plain; [apply nested_read; assumption|]. destruct (kget (KStr "camera") d) as [v|] eqn:E; [|reflexivity]. exfalso. apply Nc. apply kget_In, (in_map fst) in E. exact E.
  - rewrite read_plain by (apply (no_camera_key _ _ H)). apply single_read; auto.
  - rewrite read_plain by (apply (no_camera_key _ _ H)). apply single_read; auto.
  - rewrite (read_camera_section d doc' Hd). destruct Hs as [d' cs Hne N F|y c H Hn|y c s H Hn]; [apply nested_read; assumption|apply single_read; auto|apply single_read; auto].
Qed.

(** * Exterior parameters *)

Lemma kreq_at : forall f k v, at_key f k v -> kreq k f = Ok v.
Proof. intros f k v (items & -> & E). cbn. rewrite E. reflexivity. Qed.

Lemma dict_fits : forall d items, items <> [] -> (forall k s, In (k, s) items -> exists n v, k = KStr n /\ at_key d n v /\ conforms s v) -> (exists l, d = PDict l) -> conforms (SDict items) d.
Proof.
  intros d items Hne H [l ->]. constructor; [exact Hne|]. intros k s Hin. destruct (H k s Hin) as (n & v & -> & (l' & El & E) & C). injection El as <-. exists v. split; [|exact C]. apply Validate_Proof.kget_iff, E.
Qed.

Lemma real_conforms : forall v x, is_real v x -> conforms num_schema v.
Proof. intros v x H. unfold num_schema. destruct H; [apply (CF_types _ Tint)|apply (CF_types _ Tfloat)]; cbn; auto; constructor. Qed.

Lemma three_conform : forall v x y z, three_reals v x y z -> conforms (SList (repeat num_schema 3)) v.
Proof. intros v x y z (a & b & c & -> & H1 & H2 & H3). apply CF_list_each; [cbn; lia|]. cbn. repeat (constructor; [eapply real_conforms; eassumption|]). constructor. Qed.

Lemma is_a_dict : forall d k v, at_key d k v -> exists l, d = PDict l.
Proof. intros d k v (l & -> & _). eauto. Qed.

Definition shot_entry (ne : string * dict mval) (s : shot) : Prop :=
  fst ne = sh_name s /\ has_id (snd ne) (sh_id s) /\ posed (snd ne) (sh_pos s) (sh_omega s) (sh_phi s) (sh_kappa s) /\
  (forall id, has_id (snd ne) id -> id = sh_id s).

Definition feature_schema : schema :=
  SDict [(KStr "type", SStr "Feature");
           (KStr "properties", SDict [(KStr "filename", SType Tstr); (KStr "camera", SNone);
                                      (KStr "xyz", SList (repeat num_schema 3));
                                      (KStr "opk", SList (repeat num_schema 3))]);
           (KStr "geometry", SDict [(KStr "type", SStr "Point"); (KStr "coordinates", SList [num_schema])])].

Lemma shot_read : forall f s, shot_in f s -> exists ne, ext_of_feature f = Ok ne /\ shot_entry ne s /\ conforms feature_schema f.
Proof.
  intros f s (Ht & (p & Hp & Hf & Hc & (xv & Hx & X3) & (ov & Ho & O3)) & (g & l & Hg & Hgt & Hgc & Hl & Fl)).
  pose proof X3 as (x1 & x2 & x3 & Ex & X1 & X2 & X3'). pose proof O3 as (o1 & o2 & o3 & Eo & O1 & O2 & O3').
  exists (sh_name s, [("xyz", MTup [x1; x2; x3]); ("opk", MTup [o1; o2; o3]); ("camera", MV (match sh_id s with Some i => PStr i | None => PNone end))]).
  split; [|split].
  - unfold ext_of_feature. rewrite (kreq_at _ _ _ Hp). cbn [bind]. rewrite (kreq_at _ _ _ Hf). cbn [bind as_str]. rewrite (kreq_at _ _ _ Hx). cbn [bind]. rewrite Ex. cbn [to_tuple bind].
    rewrite (kreq_at _ _ _ Ho). cbn [bind]. rewrite Eo. cbn [to_tuple bind]. rewrite (kreq_at _ _ _ Hc). reflexivity.
  - unfold shot_entry. cbn [fst snd]. split; [reflexivity|]. split.
    { unfold has_id. destruct (sh_id s); [reflexivity|right; reflexivity]. } split.
    { split; (eexists; split; [reflexivity|]); eexists; (split; [left; reflexivity|]); repeat constructor; assumption. }
    intros id. unfold has_id. destruct id, (sh_id s); cbn; try (intros [X|X]; discriminate X); try (intros X; discriminate X); try (intros X; injection X as ->; reflexivity). reflexivity.
  - apply dict_fits; [discriminate| |eapply is_a_dict, Ht]. intros k sc Hin. cbn in Hin. destruct Hin as [E|[E|[E|[]]]]; injection E as <- <-; (eexists; eexists; split; [reflexivity|]).
    + split; [exact Ht|constructor].
    + split; [exact Hp|]. apply dict_fits; [discriminate| |eapply is_a_dict, Hf]. intros k sc Hin. cbn in Hin. destruct Hin as [E|[E|[E|[E|[]]]]]; injection E as <- <-; (eexists; eexists; split; [reflexivity|]).
      * split; [exact Hf|constructor; constructor].
      * split; [exact Hc|constructor].
      * split; [exact Hx|eapply (three_conform _ _ _ _ X3)].
      * split; [exact Ho|eapply (three_conform _ _ _ _ O3)].
    + split; [exact Hg|]. apply dict_fits; [discriminate| |eapply is_a_dict, Hgt]. intros k sc Hin. cbn in Hin. destruct Hin as [E|[E|[]]]; injection E as <- <-; (eexists; eexists; split; [reflexivity|]).
      * split; [exact Hgt|constructor].
      * split; [exact Hgc|]. apply CF_list_all; [exact Hl|]. intros v Hv. rewrite Forall_forall in Fl. destruct (Fl v Hv) as (x & Hx'). eapply real_conforms, Hx'.
Qed.

Theorem shots_read : forall D (parse : string -> option D) doc crs l d0, shots_in doc crs l -> parse crs = Some d0 -> NoDup (map sh_name l) ->
  exists exts, read_ext_doc D parse doc = Ok (d0, exts) /\ Forall2 shot_entry exts l /\ NoDup (map fst exts).
Proof.
  intros D parse doc crs l d0 (Ht & Hw & fs & Hf & Hne & F) Hp N.
  assert (X : exists exts, mapM ext_of_feature fs = Ok exts /\ Forall2 shot_entry exts l /\ Forall (conforms feature_schema) fs).
  { clear -F. induction F as [|f s fs l H F IH]; [exists []; repeat split; constructor|]. destruct IH as (exts & E & Fe & Fc). destruct (shot_read f s H) as (ne & E1 & S & C).
    exists (ne :: exts). split; [cbn [mapM]; rewrite E1; cbn [bind]; rewrite E; reflexivity|]. split; constructor; assumption. }
  destruct X as (exts & E & Fe & Fc). assert (Nx : NoDup (map fst exts)).
  { replace (map fst exts) with (map sh_name l); [exact N|]. clear -Fe. induction Fe as [|ne s exts l (H & _) _ IH]; [reflexivity|]. cbn. rewrite IH, H. reflexivity. }
  exists exts. split; [|auto]. unfold read_ext_doc.
  assert (HC : validate_collection ext_schema doc = Ok tt).
  { apply validate_iff. apply dict_fits; [discriminate| |eapply is_a_dict, Ht]. intros k sc Hin. cbn in Hin. destruct Hin as [X|[X|[X|[]]]]; injection X as <- <-; (eexists; eexists; split; [reflexivity|]).
    - split; [exact Ht|constructor].
    - split; [exact Hw|constructor; constructor].
    - split; [exact Hf|]. apply CF_list_all; [exact Hne|]. intros v Hv. rewrite Forall_forall in Fc. apply (Fc v Hv). }
  rewrite HC. cbn [is_ok bind]. rewrite (kreq_at _ _ _ Hw). cbn [bind as_str]. rewrite Hp. cbn [bind]. rewrite (kreq_at _ _ _ Hf). cbn [bind as_list]. rewrite E. cbn [bind].
  rewrite dict_of_id by exact Nx. reflexivity.
Qed.

(** * Looking up *)

Lemma dget_In : forall V (d : dict V) k v, dget k d = Some v -> In (k, v) d.
Proof. induction d as [|[k' v'] d IH]; cbn; [discriminate|]. intros k v. destruct (String.eqb_spec k k') as [->|]; [intros X; injection X as ->; auto|auto]. Qed.
Lemma dget_of_In : forall V (d : dict V) k v, NoDup (map fst d) -> In (k, v) d -> dget k d = Some v.
Proof.
  induction d as [|[k' v'] d IH]; cbn; intros k v N H; [contradiction|]. inversion N; subst. destruct H as [H|H].
  - injection H as -> ->. rewrite String.eqb_refl. reflexivity.
  - destruct (String.eqb_spec k k') as [->|]; [exfalso; apply H2; apply (in_map fst) in H; exact H|auto].
Qed.

Lemma F2_left : forall A B (P : A -> B -> Prop) l m x, Forall2 P l m -> In x l -> exists y, In y m /\ P x y.
Proof. intros A B P l m x F. induction F as [|a b l m H F IH]; cbn; [contradiction|]. intros [<-|X]; [exists b; auto|]. destruct (IH X) as (y & Hy & Py). eauto. Qed.
Lemma F2_right : forall A B (P : A -> B -> Prop) l m y, Forall2 P l m -> In y m -> exists x, In x l /\ P x y.
Proof. intros A B P l m y F. induction F as [|a b l m H F IH]; cbn; [contradiction|]. intros [<-|X]; [exists a; auto|]. destruct (IH X) as (x & Hx & Px). eauto. Qed.

Lemma has_extension : forall name, exists st, Factory_Spec.without_extension name st.
Proof.
  assert (L : forall n, ~ Factory_Spec.has_char "."%char n \/ exists s e, n = (s ++ "." ++ e)%string /\ ~ Factory_Spec.has_char "."%char e).
  { induction n as [|ch n [IH|(s & e & -> & H)]]; [left; intros []| |].
    - destruct (Ascii.eqb_spec ch "."%char) as [->|Hc]; [right; exists "", n; auto|]. left. cbn. intros [X|X]; [congruence|exact (IH X)].
    - right. exists (String ch s), e. auto. }
  intros n. destruct (L n) as [H|(s & e & -> & H)]; [eexists; apply Factory_Spec.no_dot, H|].
  destruct s as [|ch s]; [eexists; apply Factory_Spec.hidden, H|]. destruct e as [|ch' e]; [eexists; apply Factory_Spec.last_dot|].
  eexists. apply Factory_Spec.extension; [discriminate|discriminate|exact H].
Qed.

Lemma named_iff : forall exts l n, Forall2 shot_entry exts l -> NoDup (map fst exts) ->
  (forall s, named l n s -> exists e, dget n exts = Some e /\ shot_entry (n, e) s) /\ (forall e, dget n exts = Some e -> exists s, named l n s /\ shot_entry (n, e) s).
Proof.
  intros exts l n F N. split.
  - intros s (Hs & <-). destruct (F2_right _ _ _ _ _ _ F Hs) as ([n e] & Hin & H). pose proof H as (En & _). cbn in En. subst n. exists e. split; [apply dget_of_In; assumption|exact H].
  - intros e He. apply dget_In in He. destruct (F2_left _ _ _ _ _ _ F He) as (s & Hs & H). exists s. split; [|exact H]. split; [exact Hs|]. destruct H as (En & _). symmetry. exact En.
Qed.

Lemma shot_found : forall exts l n s, Forall2 shot_entry exts l -> NoDup (map fst exts) -> shot_of l n s -> exists e m, Factory_Spec.found exts n e /\ shot_entry (m, e) s.
Proof.
  intros exts l n s F N [H|st Hno Hst H].
  - destruct (proj1 (named_iff exts l n F N) s H) as (e & E & He). exists e, n. split; [left; exact E|exact He].
  - destruct (proj1 (named_iff exts l st F N) s H) as (e & E & He). exists e, st. split; [|exact He]. right.
    + destruct (dget n exts) as [e'|] eqn:E'; [|reflexivity]. destruct (proj2 (named_iff exts l n F N) e' E') as (s' & Hs' & _). exfalso. exact (Hno s' Hs').
    + rewrite (Factory_Proof.stem_without n st Hst). exact E.
Qed.

Lemma found_shot : forall exts l n e, Forall2 shot_entry exts l -> NoDup (map fst exts) -> Factory_Spec.found exts n e -> exists s m, shot_of l n s /\ shot_entry (m, e) s.
Proof.
  intros exts l n e F N [E|E1 E2].
  - destruct (proj2 (named_iff exts l n F N) e E) as (s & Hs & H). exists s, n. split; [left; exact Hs|exact H].
  - destruct (has_extension n) as (st & Hst). rewrite (Factory_Proof.stem_without n st Hst) in E2. destruct (proj2 (named_iff exts l st F N) e E2) as (s & Hs & H).
    exists s, st. split; [|exact H]. apply (same_stem _ _ _ st); [|exact Hst|exact Hs]. intros s' Hs'. destruct (proj1 (named_iff exts l n F N) s' Hs') as (e' & E' & _). congruence.
Qed.

Lemma camera_found : forall ints cams s c, Forall2 camera_entry ints cams -> NoDup (map fst ints) -> camera_of cams s c ->
  exists y p, camera_in y c /\ parse_yaml_param y = Ok p /\ Factory_Spec.interior ints (sh_id s) p.
Proof.
  intros ints cams s c F N [id Hid Hne Hin|id Hid ->].
  - destruct (F2_right _ _ _ _ _ _ F Hin) as ([id' p] & Hi & (En & y & Hy & Ep)). cbn in En. subst id'. exists y, p. split; [exact Hy|]. split; [exact Ep|]. rewrite Hid. constructor; [exact Hne|]. apply dget_of_In; assumption.
  - inversion F as [|[id' p] ? ? ? (En & y & Hy & Ep) F']; subst. inversion F'; subst. cbn in En. subst id'. exists y, p. split; [exact Hy|]. split; [exact Ep|]. eapply Factory_Spec.only_one; [exact Hid|reflexivity].
Qed.

Section Docs.
Variable cv_surf : string -> arr fl -> fl * fl -> option fl.
Variable cast_nan : string -> fl.
Variable cv_image : string -> arr pix -> fl * fl -> option pix.
Variable convert : string -> string -> pix -> pix.
Variable cv_project cv_undistort fish_undistort : intr -> list R -> R * R -> R * R.
Hypothesis cv_projects : forall K d xy b, In (List.length d) [4; 5; 8; 12; 14]%nat -> opencv_distorts (cv_coefs d) xy b -> num2 (cv_project K d xy) = to_pixel K b.
Hypothesis cv_undistorts : forall K d d' p, In (List.length d) [4; 5; 8; 12; 14]%nat -> In (List.length d') [4; 5; 8; 12; 14]%nat ->
  (forall k, cv_coefs d k = cv_coefs d' k) -> cv_undistort K d p = cv_undistort K d' p.
Variable C : Type.
Variable parse_crs : string -> res C.
Variable rpc_crs : C.
Variable O : Type.
Variable no_options : O.
Variable warp : C -> C -> list vec -> list vec.
Notation scene_get := (scene_get cv_surf cast_nan cv_image convert cv_project cv_undistort fish_undistort C parse_crs rpc_crs O no_options warp).
Notation scene_use := (scene_use cv_surf cast_nan cv_image convert C O).
Notation scene_run := (scene_run cv_surf cast_nan cv_image convert cv_project cv_undistort fish_undistort C parse_crs rpc_crs O no_options warp).

Notation do_call := (do_call cv_surf cast_nan cv_image convert).

Theorem documents_image_full : forall D (parse : string -> option D) int_doc ext_doc crs d0 cams shots kwargs name s c before,
  cameras_in int_doc cams -> shots_in ext_doc crs shots -> NoDup (map sh_name shots) -> parse crs = Some d0 -> options kwargs true ->
  shot_of shots name s -> camera_of cams s c -> usable c ->
  exists ints exts i, read_int_doc int_doc = Ok ints /\ read_ext_doc D parse ext_doc = Ok (d0, exts) /\
  let st := scene_run before (scene_init C O ints exts kwargs) in
  snd (scene_get name st) = Ok i /\
  forall later, kept shots s i later -> keeps_distortion (before ++ later) ->
  exists cam, nth_error (sc_heap C O (scene_run later (fst (scene_get name st)))) i = Some (MadeFrame cam) /\ s_distort (fc_st cam) = true /\ fc_w cam = in_w c /\ fc_h cam = in_h c /\
  let pixel X q := snd (do_call cam (WorldToPixel (one_point (num3 X)))) = Ok (VPixels [q]) in
  (forall X, beside (sh_pos s) (sh_omega s) (sh_phi s) (sh_kappa s) X -> pixel X (Nan, Nan)) /\
  (forall X q, images c (sh_pos s) (sh_omega s) (sh_phi s) (sh_kappa s) X q -> pixel X q).
Proof.
  intros D parse int_doc ext_doc crs d0 cams shots kwargs name s c before Hi He N Hp Ho Hs Hc U.
  destruct (cameras_read _ _ Hi) as (ints & Ei & Fi & Ni). destruct (shots_read D parse _ _ _ d0 He Hp N) as (exts & Ee & Fe & Ne).
  destruct (shot_found exts shots name s Fe Ne Hs) as (e & m & Hf & (_ & Hid & Hpose & _)). destruct (camera_found ints cams s c Fi Ni Hc) as (y & p & Hy & Ep & Hint).
  destruct (camera_described y c kwargs true Hy Ho) as (p' & kw & a & Ep' & Em & Hd). assert (p' = p) by congruence. subst p'.
  cbn [snd] in Hid, Hpose.
  destruct (scene_images_full cv_surf cast_nan cv_image convert cv_project cv_undistort fish_undistort C parse_crs rpc_crs O no_options warp cv_projects cv_undistorts
    ints exts kwargs name e (sh_id s) p kw c (None, None) a _ _ _ _ before Hf Hid Hint Hpose Em Hd U eq_refl) as (i & Eg & H).
  exists ints, exts, i. split; [exact Ei|]. split; [exact Ee|]. cbv zeta in *. split; [exact Eg|]. intros later (K1 & K2) Kd. apply H; [|exact Kd]. split; [|exact K2].
  intros n e' id' Hin Hf' Hid'. destruct (found_shot exts shots n e' Fe Ne Hf') as (s' & m' & Hs' & (_ & _ & _ & Huniq)). cbn [snd] in Huniq. rewrite (Huniq id' Hid'). exact (K1 n s' Hin Hs').
Qed.

Theorem documents_image : forall D (parse : string -> option D) int_doc ext_doc crs d0 cams shots kwargs name s c before,
  cameras_in int_doc cams -> shots_in ext_doc crs shots -> NoDup (map sh_name shots) -> parse crs = Some d0 -> options kwargs true ->
  shot_of shots name s -> camera_of cams s c -> usable c ->
  exists ints exts i, read_int_doc int_doc = Ok ints /\ read_ext_doc D parse ext_doc = Ok (d0, exts) /\
  let st := scene_run before (scene_init C O ints exts kwargs) in
  snd (scene_get name st) = Ok i /\
  forall later, kept shots s i later -> keeps_distortion (before ++ later) ->
  let pixel X q := snd (scene_use i (WorldToPixel (one_point (num3 X))) (scene_run later (fst (scene_get name st)))) = Ok (VPixels [q]) in
  (forall X, beside (sh_pos s) (sh_omega s) (sh_phi s) (sh_kappa s) X -> pixel X (Nan, Nan)) /\
  (forall X q, images c (sh_pos s) (sh_omega s) (sh_phi s) (sh_kappa s) X q -> pixel X q).
Proof.
  intros D parse int_doc ext_doc crs d0 cams shots kwargs name s c before Hi He N Hp Ho Hs Hc U.
  destruct (documents_image_full D parse int_doc ext_doc crs d0 cams shots kwargs name s c before Hi He N Hp Ho Hs Hc U) as (ints & exts & i & E1 & E2 & E3 & H).
  exists ints, exts, i. split; [exact E1|]. split; [exact E2|]. split; [exact E3|]. cbv zeta in *. intros later L K. destruct (H later L K) as (cam & Hn & _ & _ & _ & A & B).
  assert (G : forall k0 r, snd (do_call cam k0) = r -> snd (scene_use i k0 (scene_run later (fst (scene_get name (scene_run before (scene_init C O ints exts kwargs)))))) = r).
  { intros k0 r Hr. unfold Scene_Model.scene_use. rewrite Hn. destruct (do_call cam k0) as [c' r']. exact Hr. }
  split; intros; apply G; auto.
Qed.
End Docs.
