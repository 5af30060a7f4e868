(** Proofs for Recon_Props (C106). *)
From Coq Require Import String List Reals QArith Qreals ZArith Bool Lia Lra.
From Verif Require Import Py Py_Proof Flt Mat Rot_Model Rot_Spec Rot_Proof Remap_Model Frame_Model Frame_Spec Undist_Model Validate_Model Validate_Proof Params_Model Params_Spec Params_Proof
  Cam_Model Cam_Spec Rcam_Model Proj_Spec Proj_Proof Make_Model Make_Spec Make_Proof Scene_Spec Str Exif_Model Tags_Spec Tags_Proof Csv_Model Factory_Model Photo_Model Photo_Spec Photo_Proof Recon_Model Recon_Spec.
From Verif Require Factory_Spec Factory_Proof Exif_Proof SceneDoc_Proof Validate_Spec Cam_Proof.
Import ListNotations.
Open Scope string_scope.
Open Scope list_scope.
Open Scope R_scope.

(** * Rodrigues' formula *)
Lemma rotated_fun : forall r X Y Y', rotated r X Y -> rotated r X Y' -> Y = Y'.
Proof.
  intros r X Y Y' (A & B) (A' & B'). destruct (Req_dec (sqrt (dot r r)) 0) as [E|N]; [rewrite (A E), (A' E)|rewrite (B N), (B' N)]; reflexivity.
Qed.

Lemma columns : forall m, m = mtr (M3 (mvec m (V3 1 0 0)) (mvec m (V3 0 1 0)) (mvec m (V3 0 0 1))).
Proof. intros [[a b c] [d e f] [g h i]]. meq; ring. Qed.

Lemma rodrigues_rotation : forall (m : mat) r, (forall X, rotated r X (mvec m X)) -> rotation m.
Proof.
  intros m r H. rewrite (columns m). pose proof (H (V3 1 0 0)) as H1. pose proof (H (V3 0 1 0)) as H2. pose proof (H (V3 0 0 1)) as H3.
  set (a := sqrt (dot r r)) in *. destruct (Req_dec a 0) as [E|N].
  - destruct H1 as [H1 _], H2 as [H2 _], H3 as [H3 _]. fold a in H1, H2, H3. rewrite (H1 E), (H2 E), (H3 E). split; meq; ring.
  - destruct H1 as [_ H1], H2 as [_ H2], H3 as [_ H3]. fold a in H1, H2, H3. rewrite (H1 N), (H2 N), (H3 N).
    assert (A : a * a = dot r r).
    { unfold a. apply sqrt_sqrt. destruct r as [x y z]. unfold dot. cbn. nra. }
    destruct r as [x y z]. unfold dot in A. cbn [vx vy vz] in A.
    remember (x / a) as ux eqn:Eux. remember (y / a) as uy eqn:Euy. remember (z / a) as uz eqn:Euz.
    assert (Ux : x = a * ux) by (rewrite Eux; field; exact N). assert (Uy : y = a * uy) by (rewrite Euy; field; exact N). assert (Uz : z = a * uz) by (rewrite Euz; field; exact N).
    assert (U : uz * uz = 1 - ux * ux - uy * uy).
    { apply (Rmult_eq_reg_l (a * a)); [|intros X; apply N; nra]. transitivity (z * z); [rewrite Uz; ring|]. transitivity (a * a - x * x - y * y); [lra|]. rewrite Ux, Uy. ring. }
    pose proof (sin2_cos2 a) as T. unfold Rsqr in T. set (s := sin a) in *. set (c := cos a) in *. assert (S : s * s = 1 - c * c) by lra.
    clearbody s c. clear - Ux Uy Uz U S N.
    assert (G : forall X, vadd (vadd (vscale c X) (vscale (s / a) (cross (V3 x y z) X))) (vscale ((1 - c) / (a * a) * dot (V3 x y z) X) (V3 x y z)) =
                vadd (vadd (vscale c X) (vscale s (cross (V3 ux uy uz) X))) (vscale ((1 - c) * dot (V3 ux uy uz) X) (V3 ux uy uz))).
    { intros [p q t]. rewrite Ux, Uy, Uz. meq; field; exact N. }
    rewrite !G. clear - U S. split; meq; ring [U S].
Qed.

Lemma row_axis : forall m, vx (row2 m) = vz (mvec m (V3 1 0 0)).
Proof. intros [[a b c] [d e f] [g h i]]. unfold mvec, dot. cbn [vx vy vz row0 row1 row2]. ring. Qed.

(** * Interior parameters *)
Lemma type_strip : forall s t c, any_case s t -> osfm_type t c -> osfm_type (strip white (lower (lower s))) c.
Proof. intros s t c H T. apply lower_any_case in H. rewrite H. destruct T; constructor. Qed.

Lemma osfm_type_fun : forall t c c', osfm_type t c -> osfm_type t c' -> c = c'.
Proof. intros t c c' H. destruct H; intros H'; inversion H'; reflexivity. Qed.

Lemma same_reals : forall u v x y, is_real u x -> is_real v y -> val_eqb u v = true -> x = y.
Proof.
  assert (I : forall z, Q2R (inject_Z z) = IZR z) by (intros z; unfold Q2R, inject_Z; cbn; field).
  intros u v x y Hu Hv E. destruct Hu, Hv; cbn in E; apply Qeq_bool_iff, Qeq_eqR in E; rewrite ?I in E; exact E.
Qed.

Theorem osfm_described : forall y c kwargs d, osfm_interior y c -> options kwargs d ->
  exists p kw a, parse_json_param y = Ok p /\ merge_kwargs p kwargs = Ok kw /\ number_at kwargs "alpha" 1 a /\ describes kw c (None, None) d a.
Proof.
  intros y c kwargs d H (Ok1 & Od & a & Oa). destruct (o_type _ _ H) as (s & t & Ks & Cs & Ts). pose proof (type_strip _ _ _ Cs Ts) as Tt.
  assert (Nr : in_type c <> Crpc) by (intros X; rewrite X in Ts; inversion Ts).
  assert (F : exists f, osfm_focal y f).
  { destruct (o_focal _ _ H) as [(f & K & _)|(fx & fy & K & Kx & Ky & _)]; [exists (MV f); apply OF_one, K|].
    destruct (val_eqb fx fy) eqn:E; eexists; [eapply OF_same|eapply OF_two]; eassumption. }
  assert (P : exists p, parse_json_param y = Ok p).
  { apply parse_iff. exists s, (in_type c). split; [exact Ks|]. split; [exact Tt|]. split; [eexists; apply (o_width _ _ H)|]. split; [eexists; apply (o_height _ _ H)|]. split; [exact F|]. apply (o_known _ _ H). }
  destruct P as (p & E). pose proof (parse_sound y p (o_keys _ _ H) E) as OC.
  destruct (oc_type _ _ OC) as (s' & c' & Ks' & Ts' & Pt & _ & Po & Pk0). rewrite Ks in Ks'. injection Ks' as <-. rewrite (osfm_type_fun _ _ _ Ts' Tt) in *. clear Ts' c'.
  assert (Pk : forall k, In k (map fst p) -> In k ["cam_type"; "im_size"; "focal_len"] \/ optional_param (in_type c) k).
  { intros k Hk. destruct (in_dget k p Hk) as (v & Ev). eapply Pk0, Ev. }
  destruct (oc_size _ _ OC) as (w & h & Kw & Kh & Ps). rewrite (o_width _ _ H) in Kw. rewrite (o_height _ _ H) in Kh. injection Kw as <-. injection Kh as <-.
  destruct (oc_focal _ _ OC) as (f & Ff & Pf).
  assert (Fv : (exists x, f = MV x /\ is_real x (in_fx c) /\ in_fy c = in_fx c) \/ is_reals f [in_fx c; in_fy c]).
  { destruct (o_focal _ _ H) as [(v & K & R1 & R2)|(fx & fy & K & Kx & Ky & R1 & R2)]; inversion Ff as [f' K'|fx' fy' K' Kx' Ky' V|fx' fy' K' Kx' Ky' V]; subst; try congruence.
    - left. exists v. split; [congruence|auto].
    - rewrite Kx in Kx'. rewrite Ky in Ky'. injection Kx' as <-. injection Ky' as <-. left. exists fx. split; [reflexivity|]. split; [exact R1|]. symmetry. eapply same_reals; eassumption.
    - rewrite Kx in Kx'. rewrite Ky in Ky'. injection Kx' as <-. injection Ky' as <-. right. exists [fx; fy]. split; [left; reflexivity|]. repeat constructor; assumption. }
  assert (Nd : forall k, In k ["distort"; "alpha"; "xyz"; "opk"] -> ~ In k (map fst p)).
  { intros k Hk Hin. exact (SceneDoc_Proof.option_not_param _ _ Hk (Pk k Hin)). }
  assert (Ap : forall k, In k (map fst kwargs) -> ~ In k (map fst p)) by (intros k Hk; apply Nd; apply Ok1 in Hk; cbn in *; tauto).
  exists p, (p ++ kwargs), a. split; [exact E|]. split.
  { unfold merge_kwargs. destruct (existsb _ kwargs) eqn:X; [|reflexivity]. apply existsb_exists in X. destruct X as ([k v] & Hin & Hk). cbn in Hk. apply dmem_iff in Hk. exfalso. apply (Ap k); [apply (in_map fst) in Hin; exact Hin|exact Hk]. }
  split; [exact Oa|].
  assert (Gk : forall k, ~ In k ["distort"; "alpha"] -> dget k (p ++ kwargs) = dget k p).
  { intros k Nk. rewrite SceneDoc_Proof.dget_app. destruct (dget k p); [reflexivity|]. destruct (dget k kwargs) as [v|] eqn:Ek; [|reflexivity]. exfalso. apply Nk, Ok1. eapply dget_in, Ek. }
  assert (Go : forall k, In k ["distort"; "alpha"; "xyz"; "opk"] -> dget k (p ++ kwargs) = dget k kwargs).
  { intros k Hk. rewrite SceneDoc_Proof.dget_app. destruct (dget k p) as [v|] eqn:Ek; [|reflexivity]. exfalso. apply (Nd k Hk). eapply dget_in, Ek. }
  assert (Gx : forall k, In k ["xyz"; "opk"] -> dget k kwargs = None).
  { intros k Hk. destruct (dget k kwargs) as [v|] eqn:Ek; [|reflexivity]. apply dget_in, Ok1 in Ek. cbn in *. intuition subst; discriminate. }
  split.
  - exact Nr.
  - intros k Hk. rewrite map_app in Hk. apply in_app_or in Hk. unfold keyword. destruct Hk as [Hk|Hk].
    + destruct (Pk k Hk) as [X|X]; [left; cbn in *; tauto|]. apply SceneDoc_Proof.optional_is in X. destruct X as [X|X]; [left; cbn in *; tauto|auto].
    + apply Ok1 in Hk. left. cbn in *. tauto.
  - exists (MCam (in_type c)). split; [rewrite Gk by (cbn; intuition discriminate); exact Pt|left; reflexivity].
  - eexists. split; [rewrite Gk by (cbn; intuition discriminate); exact Ps|left; reflexivity].
  - exists f. split; [rewrite Gk by (cbn; intuition discriminate); exact Pf|]. tauto.
  - unfold numbers_at. destruct (o_no_sensor _ _ H) as (Ns & ->). rewrite Gk, Po, Ns; [reflexivity|left; cbn; tauto|cbn; intuition discriminate|cbn; intuition discriminate].
  - unfold number_at. rewrite Gk, (oc_cx _ _ OC) by (cbn; intuition discriminate). pose proof (o_cx _ _ H) as X. unfold real_at in X.
    destruct (kget (KStr "cx") y) as [v|]; [exists v; auto|]. destruct (kget (KStr "c_x") y) as [v|]; [exists v; auto|exact X].
  - unfold number_at. rewrite Gk, (oc_cy _ _ OC) by (cbn; intuition discriminate). pose proof (o_cy _ _ H) as X. unfold real_at in X.
    destruct (kget (KStr "cy") y) as [v|]; [exists v; auto|]. destruct (kget (KStr "c_y") y) as [v|]; [exists v; auto|exact X].
  - intros k Hk. pose proof (SceneDoc_Proof.coefficient_other _ _ Hk) as No. unfold number_at. rewrite Gk, Po.
    + pose proof (o_coefs _ _ H k Hk) as X. unfold real_at in X. destruct (kget (KStr k) y) as [v|]; [exists v; auto|exact X].
    + apply SceneDoc_Proof.optional_is. auto.
    + intros X. cbn in X. destruct (in_type c); cbn in Hk; intuition subst; discriminate.
    + cbn in *. tauto.
  - apply (o_others _ _ H).
  - unfold numbers_at. rewrite Go, Gx by (cbn; tauto). reflexivity.
  - unfold numbers_at. rewrite Go, Gx by (cbn; tauto). reflexivity.
  - rewrite Go by (cbn; tauto). exact Od.
  - unfold number_at in *. rewrite Go by (cbn; tauto). exact Oa.
Qed.

(** * Documents *)
Definition recon_item (it : string * dict mval) (sc : string * Make_Spec.interior) : Prop :=
  fst it = fst sc /\ exists y, osfm_interior y (snd sc) /\ parse_json_param y = Ok (snd it).
Definition shot_item (it : string * (pyval * pyval * string)) (s : rshot) : Prop :=
  exists t r, it = (rs_name s, ((t, r), rs_id s)) /\ vec_of t = rs_t s /\ vec_of r = rs_r s.

Lemma no_options : options [] true.
Proof. split; [intros k []|]. split; [reflexivity|]. exists 1. reflexivity. Qed.

Lemma cameras_read : forall cams l,
  Forall2 (fun kv sc => exists id y, kv = (KStr id, PDict y) /\ bare id (fst sc) /\ osfm_interior y (snd sc)) cams l -> NoDup (map fst l) ->
  exists ints, read_osfm_int_param (PDict cams) = Ok ints /\ Forall2 recon_item ints l.
Proof.
  intros cams l F N.
  assert (V : validate_collection (SMap Tstr (SType Tdict)) (PDict cams) = Ok tt).
  { apply validate_iff. apply Validate_Spec.CF_map. intros k v Hin. destruct (Forall2_In_l _ _ _ F _ Hin) as (sc & _ & id & y & Ekv & _). injection Ekv as -> ->. split; [reflexivity|]. apply Validate_Spec.CF_type. constructor. }
  assert (M : exists items, mapM (fun kv => match kv with
                                | (KStr id, PDict y) => do p <- parse_json_param y; Ok (strip_v2 id, p)
                                | _ => Err ParamError
                                end) cams = Ok items /\ Forall2 recon_item items l).
  { clear V N. induction F as [|kv [b c] cams l (id & y & -> & Hb & Hy) F IH]; [exists []; split; [reflexivity|constructor]|]. destruct IH as (items & Em & Fi). cbn [fst snd] in *.
    destruct (osfm_described y c [] true Hy no_options) as (p & _ & _ & Ep & _). exists ((b, p) :: items). split.
    - cbn [mapM]. rewrite Ep. cbn [bind]. rewrite Em. cbn [bind]. apply bare_iff in Hb. rewrite <- Hb. reflexivity.
    - constructor; [|exact Fi]. split; [reflexivity|]. exists y. auto. }
  destruct M as (items & Em & Fi). exists items. split; [|exact Fi]. unfold read_osfm_int_param. rewrite V. cbn [is_ok bind]. rewrite Em. cbn [bind]. f_equal. apply dict_of_id.
  replace (map fst items) with (map fst l); [exact N|]. clear - Fi. induction Fi as [|a b ? ? (E & _) _ IH]; cbn; congruence.
Qed.

Lemma kget_at : forall v k x, at_key v k x -> field k v = Ok x.
Proof. intros v k x (items & -> & K). cbn. rewrite K. reflexivity. Qed.

Lemma shots_read : forall shots l,
  Forall2 (fun kv s => exists id p t r, kv = (KStr (rs_name s), p) /\ bare id (rs_id s) /\ at_key p "camera" (PStr id) /\
                at_key p "translation" t /\ three_floats t (rs_t s) /\ at_key p "rotation" r /\ three_floats r (rs_r s)) shots l -> NoDup (map rs_name l) ->
  exists exts, mapM (shot_ext (pyval * pyval) pair) shots = Ok exts /\ dict_of exts = exts /\ Forall2 shot_item exts l.
Proof.
  intros shots l F N.
  assert (M : exists exts, mapM (shot_ext (pyval * pyval) pair) shots = Ok exts /\ Forall2 shot_item exts l).
  { clear N. induction F as [|kv s shots l (id & p & t & r & -> & Hb & Kc & Kt & Ft & Kr & Fr) F IH]; [exists []; split; [reflexivity|constructor]|]. destruct IH as (items & Em & Fi).
    exists ((rs_name s, ((t, r), rs_id s)) :: items). split.
    - cbn [mapM]. unfold shot_ext at 1. cbn [fst snd]. rewrite (kget_at _ _ _ Kt), (kget_at _ _ _ Kr), (kget_at _ _ _ Kc). cbn [bind]. rewrite Em. cbn [bind]. apply bare_iff in Hb. rewrite <- Hb. reflexivity.
    - constructor; [|exact Fi]. exists t, r. split; [reflexivity|]. destruct Ft as (x & y & z & -> & ->), Fr as (x' & y' & z' & -> & ->). split; reflexivity. }
  destruct M as (items & Em & Fi). exists items. split; [exact Em|]. split; [|exact Fi]. apply dict_of_id.
  replace (map fst items) with (map rs_name l); [exact N|]. clear - Fi. induction Fi as [|a b ? ? (t & r & -> & _) _ IH]; cbn; congruence.
Qed.

Lemma kget_key : forall items k v, kget (KStr k) items = Some v -> Validate_Spec.at_key items (KStr k) v.
Proof. intros items k v H. apply kget_iff, H. Qed.

Lemma recon_conforms : forall v rc, recon_in v rc ->
  Validate_Spec.conforms (match osfm_schema with SList (s :: _) => s | s => s end) v.
Proof.
  intros v rc ((cams & (iv & -> & Kc) & _ & Fc) & (shots & (iv1 & E1 & Ks) & _ & Fs) & ref & lat & lon & alt & (iv2 & E2 & Kr) & (ir & -> & Klat) & (qa & -> & _) & (ir1 & E3 & Klon) & (qo & -> & _) & (ir2 & E4 & Kalt) & (ql & -> & _)).
  injection E1 as <-. injection E2 as <-. injection E3 as <-. injection E4 as <-.
  cbn [osfm_schema]. apply Validate_Spec.CF_dict; [discriminate|]. intros k s [X|[X|[X|[]]]]; injection X as <- <-.
  - exists (PDict cams). split; [apply kget_key, Kc|]. apply Validate_Spec.CF_type. constructor.
  - exists (PDict shots). split; [apply kget_key, Ks|]. apply Validate_Spec.CF_map. intros k u Hin. destruct (Forall2_In_l _ _ _ Fs _ Hin) as (s & _ & id & p & t & r & Ekv & _ & (ip & -> & Pc) & (ip1 & E1 & Pt) & Ft & (ip2 & E2 & Pr) & Fr).
    injection E1 as <-. injection E2 as <-. injection Ekv as -> ->. split; [reflexivity|]. destruct Ft as (x & y & z & -> & _), Fr as (x' & y' & z' & -> & _).
    apply Validate_Spec.CF_dict; [discriminate|]. intros k s' [X|[X|[X|[]]]]; injection X as <- <-.
    + eexists. split; [apply kget_key, Pr|]. apply Validate_Spec.CF_list_each; [cbn; lia|]. repeat constructor.
    + eexists. split; [apply kget_key, Pt|]. apply Validate_Spec.CF_list_each; [cbn; lia|]. repeat constructor.
    + eexists. split; [apply kget_key, Pc|]. repeat constructor.
  - exists (PDict ir). split; [apply kget_key, Kr|]. apply Validate_Spec.CF_dict; [discriminate|]. intros k s' [X|[X|[X|[]]]]; injection X as <- <-; eexists; (split; [apply kget_key; eassumption|]); repeat constructor.
Qed.

Theorem document_read : forall first rest rc, recon_in first rc -> Forall (fun v => exists rc', recon_in v rc') rest ->
  exists ints shots, osfm_reader (pyval * pyval) pair (PList (first :: rest)) = Ok (ints, shots) /\ Forall2 recon_item ints (rc_cams rc) /\ Forall2 shot_item shots (rc_shots rc) /\
  reference_lla (PList (first :: rest)) = Ok (rc_lat rc, rc_lon rc, rc_alt rc).
Proof.
  intros first rest rc H Hr.
  assert (V : validate_collection osfm_schema (PList (first :: rest)) = Ok tt).
  { apply validate_iff. apply Validate_Spec.CF_list_all; [discriminate|]. intros v [<-|Hin]; [exact (recon_conforms _ _ H)|]. rewrite Forall_forall in Hr. destruct (Hr v Hin) as (rc' & H'). exact (recon_conforms _ _ H'). }
  destruct H as ((cams & Kc & Nc & Fc) & (shots & Ks & Ns & Fs) & ref & lat & lon & alt & Kr & Klat & (qa & -> & Ea) & Klon & (qo & -> & Eo) & Kalt & (ql & -> & El)).
  destruct (cameras_read _ _ Fc Nc) as (ints & Ei & Fi). destruct (shots_read _ _ Fs Ns) as (exts & Ee & Ed & Fe). exists ints, exts. split; [|split; [exact Fi|split; [exact Fe|]]].
  - unfold osfm_reader. rewrite V. cbn [is_ok bind]. rewrite (kget_at _ _ _ Kc), (kget_at _ _ _ Ks). cbn [bind]. rewrite Ei. cbn [bind]. rewrite Ee. cbn [bind]. rewrite Ed. reflexivity.
  - cbn [reference_lla]. rewrite (kget_at _ _ _ Kr). cbn [bind]. rewrite (kget_at _ _ _ Klat), (kget_at _ _ _ Klon), (kget_at _ _ _ Kalt). cbn [bind]. unfold float_of. cbn [py_num]. rewrite Ea, Eo, El. reflexivity.
Qed.

(** * Pixels *)
Section Recon.
Variable cv_surf : string -> arr fl -> fl * fl -> option fl.
Variable cast_nan : string -> fl.
Variable cv_image : string -> arr pix -> fl * fl -> option pix.
Variable convert : string -> string -> pix -> pix.
Notation do_call := (do_call cv_surf cast_nan cv_image convert).
Notation recon_object := (recon_object cv_surf cast_nan cv_image convert).
Variable cv_project cv_undistort fish_undistort : intr -> list R -> R * R -> R * R.
Hypothesis cv_projects : forall K d xy b, In (List.length d) [4; 5; 8; 12; 14]%nat -> opencv_distorts (cv_coefs d) xy b -> num2 (cv_project K d xy) = to_pixel K b.
Hypothesis cv_undistorts : forall K d d' p, In (List.length d) [4; 5; 8; 12; 14]%nat -> In (List.length d') [4; 5; 8; 12; 14]%nat ->
  (forall k, cv_coefs d k = cv_coefs d' k) -> cv_undistort K d p = cv_undistort K d' p.
Variable C : Type.
Variables is_projected is_geographic : C -> bool.
Variable epsg : Z -> C.
Variable transform : C -> C -> vec -> vec.
Variable rodrigues : vec -> mat.
Notation recon_factory := (recon_factory C is_projected is_geographic epsg transform rodrigues).
Notation recon_camera := (recon_camera cv_project cv_undistort fish_undistort).

Lemma factory_made : forall first rest rc crs o l, recon_in first rc -> Forall (fun v => exists rc', recon_in v rc') rest ->
  crs_given is_projected crs o -> is_geographic l = true ->
  let world := match o with Some c => c | None => epsg (utm_code (rc_lat rc) (rc_lon rc)) end in
  exists ints shots, Forall2 recon_item ints (rc_cams rc) /\ Forall2 shot_item shots (rc_shots rc) /\
  recon_factory crs (ACrs l) (PList (first :: rest)) = Ok (Factory_Model.frame_init ints (factory_ext (map (fun kv : string * (pyval * pyval * string) =>
    (fst kv, (cv_ext_to_oty_ext (vec_of (fst (fst (snd kv)))) (rodrigues (vec_of (snd (fst (snd kv))))) (Some (transform l world (V3 (rc_lon rc) (rc_lat rc) (rc_alt rc)))), snd (snd kv)))) shots)), world).
Proof.
  intros first rest rc crs o l H Hr Hc Hl world. destruct (document_read first rest rc H Hr) as (ints & shots & Er & Fi & Fs & El). exists ints, shots. split; [exact Fi|]. split; [exact Fs|].
  unfold Recon_Model.recon_factory, read_recon. apply parse_crs_given in Hc. rewrite Hc. cbn [bind parse_crs]. rewrite Hl. cbn [bind]. rewrite Er. cbn [bind]. rewrite El. cbn [bind]. do 4 f_equal.
  apply map_ext. intros [n [[t r] id]]. reflexivity.
Qed.

Lemma shot_found : forall shots l (f : pyval * pyval -> vec * (R * R * R)) name s, Forall2 shot_item shots l -> NoDup (map rs_name l) -> rshot_of l name s ->
  exists t r, vec_of t = rs_t s /\ vec_of r = rs_r s /\
  Factory_Spec.found (factory_ext (map (fun kv : string * (pyval * pyval * string) => (fst kv, (f (fst (snd kv)), snd (snd kv)))) shots)) name (Ext (f (t, r)) (Some (rs_id s))).
Proof.
  intros shots l f name s F N H. set (exts := factory_ext _).
  assert (Nm : map fst exts = map rs_name l).
  { unfold exts, factory_ext. rewrite !map_map. cbn. clear - F. induction F as [|a b ? ? (t & r & -> & _) _ IH]; cbn; congruence. }
  assert (G : In s l -> exists t r, vec_of t = rs_t s /\ vec_of r = rs_r s /\ dget (rs_name s) exts = Some (Ext (f (t, r)) (Some (rs_id s)))).
  { intros Hin. destruct (Forall2_In_r _ _ _ F _ Hin) as (it & Hit & t & r & -> & E1 & E2). exists t, r. split; [exact E1|]. split; [exact E2|]. apply In_dget; [rewrite Nm; exact N|].
    unfold exts, factory_ext. apply in_map_iff. exists (rs_name s, (f (t, r), rs_id s)). split; [reflexivity|]. apply in_map_iff. exists (rs_name s, (t, r, rs_id s)). split; [reflexivity|exact Hit]. }
  destruct H as [Hin E|st No W Hin E]; destruct (G Hin) as (t & r & E1 & E2 & D); exists t, r; (split; [exact E1|]); (split; [exact E2|]).
  - apply Factory_Spec.by_name. rewrite <- E. exact D.
  - apply Factory_Spec.by_stem.
    + apply dget_None. rewrite Nm. intros X. apply in_map_iff in X. destruct X as (s' & E' & Hin'). exact (No s' Hin' E').
    + rewrite (Factory_Proof.stem_without _ _ W), <- E. exact D.
Qed.

Lemma camera_found : forall ints cams s c, Forall2 recon_item ints cams -> NoDup (map fst cams) -> rcamera_of cams s c ->
  exists y p, osfm_interior y c /\ parse_json_param y = Ok p /\ Factory_Spec.interior ints (Some (rs_id s)) p.
Proof.
  intros ints cams s c F N H.
  assert (Nm : map fst ints = map fst cams) by (clear - F; induction F as [|a b ? ? (E & _) _ IH]; cbn; congruence).
  destruct H as [Ne Hin|id E ->].
  - destruct (Forall2_In_r _ _ _ F _ Hin) as ([id p] & Hit & E & y & Hy & Ep). cbn [fst snd] in *. exists y, p. split; [exact Hy|]. split; [exact Ep|]. apply Factory_Spec.with_id; [exact Ne|]. apply In_dget; [rewrite Nm; exact N|]. rewrite <- E. exact Hit.
  - inversion F as [|[id' p] ? ints' ? (E' & y & Hy & Ep) F']; subst. inversion F'; subst. exists y, p. split; [exact Hy|]. split; [exact Ep|]. eapply Factory_Spec.only_one; [right; rewrite E; reflexivity|reflexivity].
Qed.

Lemma camera_made : forall kwargs c d y p, options kwargs d -> osfm_interior y c -> parse_json_param y = Ok p -> usable c ->
  exists cam kw a, recon_camera kwargs p = Ok cam /\ number_at kwargs "alpha" 1 a /\ describes kw c (None, None) d a /\ make_frame cv_project cv_undistort fish_undistort (in_type c) (filter (fun kv => negb (String.eqb (fst kv) "cam_type")) kw) = Ok cam.
Proof.
  intros kwargs c d y p Ho Hy Ep U. destruct (osfm_described y c kwargs d Hy Ho) as (p' & kw & a & Ep' & Em & Oa & D). rewrite Ep in Ep'. injection Ep' as <-.
  destruct (made_images cv_surf cast_nan cv_image convert cv_project cv_undistort fish_undistort cv_projects cv_undistorts kw c _ d a D U eq_refl) as (cam & Ec & _).
  exists cam, kw, a. split; [|split; [exact Oa|auto]]. unfold Recon_Model.recon_camera. rewrite Em. cbn [bind]. destruct (d_type _ _ _ _ _ D) as (v & Ev & Hv). rewrite Ev, (type_is v _ Hv). cbn [bind]. exact Ec.
Qed.

(** A camera at the converted pose sees points where the reconstruction does. *)
Lemma pose_sees : forall t r origin v X, (forall X, rotated r X (mvec (rodrigues r) X)) -> not_locked r ->
  let '(p, (o, ph, k)) := cv_ext_to_oty_ext t (rodrigues r) (Some origin) in
  osfm_seen origin t r X v <-> seen_at p o ph k v X.
Proof.
  intros t r origin v X Hr Nl. destruct (cv_ext_to_oty_ext t (rodrigues r) (Some origin)) as [p [[o ph] k]] eqn:E.
  assert (L : Rabs (vx (row2 (rodrigues r))) < 1) by (rewrite row_axis; apply Nl, Hr).
  pose proof (cv_ext_preserves t _ (Some origin) X p (o, ph, k) (rodrigues_rotation _ _ Hr) L E) as P. unfold frame_camera_coords, cv_camera_coords in P.
  destruct p as [x y z]. rewrite seen_iff, P. split.
  - intros (Y & HY & ->). rewrite (rotated_fun _ _ _ _ HY (Hr _)). reflexivity.
  - intros ->. exists (mvec (rodrigues r) (vsub X origin)). split; [apply Hr|reflexivity].
Qed.

Theorem recon_pixels : forall first rest rc crs o l kwargs d, (forall r X, rotated r X (mvec (rodrigues r) X)) ->
  recon_in first rc -> Forall (fun v => exists rc', recon_in v rc') rest ->
  crs_given is_projected crs o -> is_geographic l = true -> options kwargs d ->
  exists fac world, recon_factory crs (ACrs l) (PList (first :: rest)) = Ok (fac, world) /\
  match o with Some c => world = c | None => exists code, utm_of (rc_lat rc) (rc_lon rc) code /\ world = epsg code end /\
  forall name s c history, rshot_of (rc_shots rc) name s -> rcamera_of (rc_cams rc) s c -> usable c -> not_locked (rs_r s) ->
  let create := recon_camera kwargs in
  let st := frame_run create history fac in
  exists i obj, snd (frame_get create name st) = Ok i /\ nth_error (f_heap (fst (frame_get create name st))) i = Some obj /\
  let origin := transform l world (V3 (rc_lon rc) (rc_lat rc) (rc_alt rc)) in
  let pixel X q := snd (do_call (recon_object obj) (WorldToPixel (one_point (num3 X)))) = Ok (VPixels [q]) in
  (forall X v, osfm_seen origin (rs_t s) (rs_r s) X v -> vz v = 0 -> pixel X (Nan, Nan)) /\
  (d = true -> forall X v K b, osfm_seen origin (rs_t s) (rs_r s) X v -> vz v <> 0 -> pixel_intr c K -> distorts c (vx v / vz v, vy v / vz v) b -> pixel X (to_pixel K b)) /\
  (d = false -> exists K a, number_at kwargs "alpha" 1 a /\ (in_type c = Cpinhole -> pixel_intr c K) /\
     (in_type c <> Cpinhole -> exists f, lens_inverse cv_undistort fish_undistort c f /\ undistorted f (in_w c) (in_h c) a K) /\
     forall X v, osfm_seen origin (rs_t s) (rs_r s) X v -> vz v <> 0 -> pixel X (to_pixel K (vx v / vz v, vy v / vz v))).
Proof.
  intros first rest rc crs o l kwargs d Hrod H Hr Hc Hl Ho.
  destruct (factory_made first rest rc crs o l H Hr Hc Hl) as (ints & shots & Fi & Fs & Ef). cbv zeta in Ef. set (world := match o with Some c => c | None => epsg (utm_code (rc_lat rc) (rc_lon rc)) end) in *.
  eexists. exists world. split; [exact Ef|]. split.
  { unfold world. destruct o; [reflexivity|]. eexists. split; [apply utm_code_of|reflexivity]. }
  clearbody world. intros name s c history Hs Hcam U Nl create st. set (origin := transform l world (V3 (rc_lon rc) (rc_lat rc) (rc_alt rc))) in *.
  destruct H as ((cams & Kc & Nc & Fc) & (shs & Ks & Ns & Fsh) & _).
  destruct (shot_found shots _ (fun tr => cv_ext_to_oty_ext (vec_of (fst tr)) (rodrigues (vec_of (snd tr))) (Some origin)) name s Fs Ns Hs) as (t & r & Et & Er & Hf).
  cbn [fst snd] in Hf. rewrite Et, Er in Hf. destruct (camera_found ints _ s c Fi Nc Hcam) as (y & p & Hy & Ep & Hi).
  destruct (camera_made kwargs c d y p Ho Hy Ep U) as (cam & kw & a & Ecam & Oa & D & Mk).
  destruct (Factory_Proof.frame_get_right create ints _ history name _ p cam Hf Hi Ecam) as (i & G1 & G2). cbn [ex_pos] in G2.
  exists i. eexists. split; [exact G1|]. split; [exact G2|]. pose proof (pose_sees (rs_t s) (rs_r s) origin) as PS. intros origin'. subst origin'. intros pixel.
  destruct (cv_ext_to_oty_ext (rs_t s) (rodrigues (rs_r s)) (Some origin)) as [q [[om ph] ka]] eqn:Ee.
  assert (PS' : forall v X, osfm_seen origin (rs_t s) (rs_r s) X v <-> seen_at q om ph ka v X) by (intros v X; apply (PS v X (Hrod (rs_r s)) Nl)).
  destruct (made_images cv_surf cast_nan cv_image convert cv_project cv_undistort fish_undistort cv_projects cv_undistorts kw c _ d a D U eq_refl) as (cam' & Ec' & A). rewrite Mk in Ec'. injection Ec' as <-.
  destruct q as [x y' z]. specialize (A [UpdateC (Some [x; y'; z]) (Some [om; ph; ka])] x y' z om ph ka eq_refl). cbv zeta in A.
  assert (Obj : recon_object (Camera cam (Some (V3 x y' z, (om, ph, ka)))) = run_calls cv_surf cast_nan cv_image convert cam [UpdateC (Some [x; y'; z]) (Some [om; ph; ka])]) by reflexivity.
  unfold pixel. rewrite Obj. destruct A as (A1 & A2 & A3). cbn [distort_after alpha_after fold_left] in A2, A3. split; [|split].
  - intros X v Hv Zv. apply A1. exists v. split; [apply PS'; exact Hv|exact Zv].
  - intros Hd X v K b Hv Nv HK Hb. apply (A2 Hd). exists K, v, b. split; [exact HK|]. split; [apply PS'; exact Hv|]. split; [exact Nv|]. split; [exact Hb|reflexivity].
  - intros Hd. destruct (A3 Hd) as (K & K1 & K2 & K3). exists K, a. split; [exact Oa|split; [exact K1|split; [exact K2|]]].
    intros X v Hv Nv. apply K3; [apply PS'; exact Hv|exact Nv].
Qed.

(** * OpenSfM's own pixels *)
Lemma no_sensor : forall v rc s c, recon_in v rc -> rcamera_of (rc_cams rc) s c -> in_sensor c = None.
Proof.
  intros v rc s c ((cams & _ & _ & F) & _) H.
  assert (I : exists id, In (id, c) (rc_cams rc)) by (destruct H as [_ Hin|id _ ->]; eexists; [exact Hin|left; reflexivity]).
  destruct I as (id & I). destruct (Forall2_In_r _ _ _ F _ I) as (kv & _ & id' & y & _ & _ & Hy). apply (o_no_sensor _ _ Hy).
Qed.

Lemma intr_of : forall c, exists K, pixel_intr c K.
Proof. intros c. unfold pixel_intr. destruct (in_sensor c) as [[sw sh]|]; eexists (Intr _ _ _ _); cbn [kfx kfy kcx kcy]; repeat split; reflexivity. Qed.

Lemma landscape_intr : forall c K, in_sensor c = None -> (in_h c <= in_w c)%Z -> osfm_intr c K -> pixel_intr c K.
Proof. intros c K N L (A & B & D & E). unfold pixel_intr. rewrite N. rewrite (Z.max_l _ _ L) in *. auto. Qed.

Lemma portrait_intr : forall c K K' b, in_sensor c = None -> usable c -> (in_w c < in_h c)%Z -> osfm_intr c K -> pixel_intr c K' -> b <> (0, 0) -> to_pixel K' b <> to_pixel K b.
Proof.
  intros c K K' [bx by_] N (Hw & Hh & Fx & Fy & _) P (A & B & D & E) H Nb. unfold pixel_intr in H. rewrite N in H. destruct H as ((A' & B') & D' & E'). unfold to_pixel. cbn [fst snd]. intros X.
  injection X as X Y. rewrite A, A', D, D' in X. rewrite B, B', E, E' in Y. rewrite (Z.max_r _ _ (Z.lt_le_incl _ _ P)) in X, Y.
  assert (L : IZR (in_w c) - IZR (in_h c) <> 0) by (rewrite <- minus_IZR; apply IZR_neq; lia). apply Nb. f_equal.
  - assert (Z0 : (in_fx c * (IZR (in_w c) - IZR (in_h c))) * bx = 0) by lra. destruct (Rmult_integral _ _ Z0) as [Q|Q]; [|exact Q]. destruct (Rmult_integral _ _ Q); contradiction.
  - assert (Z0 : (in_fy c * (IZR (in_w c) - IZR (in_h c))) * by_ = 0) by lra. destruct (Rmult_integral _ _ Z0) as [Q|Q]; [|exact Q]. destruct (Rmult_integral _ _ Q); contradiction.
Qed.

(** Without CRSs of the right kind, or with another document. *)
Lemma given_dec : forall (ok : C -> bool) a, (forall o, ~ crs_given ok a o) -> parse_crs C ok a = Err CrsError.
Proof.
  intros ok [| |c] H; cbn [parse_crs]; [exfalso; apply (H None); left; auto|reflexivity|]. destruct (ok c) eqn:E; [|reflexivity]. exfalso. apply (H (Some c)). right. exists c. auto.
Qed.

Lemma parse_crs_error : forall (ok : C -> bool) a x, parse_crs C ok a = Err x -> x = CrsError.
Proof. intros ok [| |c] x; cbn [parse_crs]; [discriminate|congruence|destruct (ok c); congruence]. Qed.

Theorem recon_errors : forall crs lla_crs doc,
  ((forall o, ~ crs_given is_projected crs o) \/ (forall o, ~ crs_given is_geographic lla_crs o) -> recon_factory crs lla_crs doc = Err CrsError) /\
  (forall o o', crs_given is_projected crs o -> crs_given is_geographic lla_crs o' -> ~ Validate_Spec.conforms osfm_schema doc -> recon_factory crs lla_crs doc = Err ParamError) /\
  (lla_crs = NoCrs -> forall r, recon_factory crs lla_crs doc <> Ok r).
Proof.
  intros crs lla_crs doc. split; [|split].
  - intros H. unfold Recon_Model.recon_factory, read_recon. destruct (parse_crs C is_projected crs) as [a|x] eqn:A; [|rewrite (parse_crs_error _ _ _ A); reflexivity].
    destruct H as [H|H]; [apply given_dec in H; congruence|]. apply given_dec in H. cbn [bind]. rewrite H. reflexivity.
  - intros o o' Hc Hl Nv. unfold Recon_Model.recon_factory, read_recon. apply parse_crs_given in Hc. apply parse_crs_given in Hl. rewrite Hc, Hl. cbn [bind].
    unfold osfm_reader. destruct (validate_collection osfm_schema doc) as [[]|x] eqn:V; [exfalso; apply Nv, validate_iff, V|]. reflexivity.
  - intros -> r. unfold Recon_Model.recon_factory, read_recon. destruct (parse_crs C is_projected crs); [|discriminate]. cbn [bind parse_crs]. destruct (osfm_reader _ _ doc) as [[? ?]|]; [|discriminate]. cbn [bind].
    destruct (reference_lla doc) as [[[? ?] ?]|]; discriminate.
Qed.
End Recon.
