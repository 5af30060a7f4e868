(** Proofs about RPC cameras from parameter files. *)
From Coq Require Import String List Reals ZArith Bool Lia.
From Verif Require Import Py Py_Proof Flt Mat Rpc_Model Frame_Model Validate_Model Validate_Proof Params_Model Params_Spec Factory_Model Rcam_Model Rcam_Spec Rcam_Proof Make_Model Make_Spec Make_Proof
  Scene_Spec SceneDoc_Proof Rscene_Model Rscene_Spec.
From Verif Require Factory_Spec Factory_Proof Validate_Spec.
Import ListNotations.
Open Scope string_scope.
Open Scope list_scope.
Open Scope Z_scope.
Local Arguments String.eqb : simpl never.

(** * Documents *)
Definition rpc_kw (n : string) (kw : string * dict mval) (e : image_rpc) : Prop := fst kw = ir_name e /\ snd kw <> [] /\ describes_rpc (snd kw) (ir_w e) (ir_h e) (ir_rpc e).

Lemma float_conforms : forall v, is_float v -> Validate_Spec.conforms (SType Tfloat) v.
Proof. intros v (q & ->). constructor. constructor. Qed.

Lemma floats_conform : forall n l, List.length l = n -> Forall is_float l -> Forall2 Validate_Spec.conforms (repeat (SType Tfloat) n) l.
Proof. intros n l <- F. induction F; cbn; constructor; [apply float_conforms; assumption|assumption]. Qed.

Definition entry_schema : schema := match rpc_schema with SMap _ s => s | s => s end.

Lemma rpc_entry_read : forall kv e, rpc_in kv e -> exists kw, rpc_kw "" kw e /\ Validate_Spec.conforms entry_schema (snd kv) /\
  (exists s r, kreq "im_size" (snd kv) = Ok (PList s) /\ kreq "rpc" (snd kv) = Ok r /\ kw = (ir_name e, [("cam_type", MCam Crpc); ("im_size", MTup s); ("rpc", MV r)])).
Proof.
  intros kv e (Hk & Hs & items & Hr & Hi & Hf & Hc). eexists. split; [|split; [|eexists; eexists; split; [apply (kreq_at _ _ _ Hs)|split; [apply (kreq_at _ _ _ Hr)|reflexivity]]]].
  - split; [reflexivity|]. split; [discriminate|]. cbn [snd]. split; [intros k Hin; cbn in Hin |- *; tauto|]. split; [eexists; split; [reflexivity|left; reflexivity]|].
    split; [eexists; split; [reflexivity|left; reflexivity]|]. exists items. split; [reflexivity|exact Hi].
  - unfold entry_schema, rpc_schema. apply dict_fits; [discriminate| |eapply is_a_dict, Hs]. intros k sc Hin. cbn [In] in Hin. destruct Hin as [E|[E|[]]]; injection E as <- <-; (eexists; eexists; split; [reflexivity|]).
    + split; [exact Hs|]. apply Validate_Spec.CF_list_each; [cbn; lia|]. cbn. repeat (constructor; [apply (Validate_Spec.CF_types _ Tint); [cbn; tauto|constructor]|]). constructor.
    + split; [exact Hr|]. destruct Hi as (_ & _ & _ & Hi).
      assert (Fl : forall n x, In n ["long_off"; "lat_off"; "height_off"; "long_scale"; "lat_scale"; "height_scale"] -> (exists v, kget (KStr n) items = Some v /\ is_real v x) ->
        exists m v, KStr n = KStr m /\ at_key (PDict items) m v /\ Validate_Spec.conforms (SType Tfloat) v).
      { intros n x Hn (v & E & _). exists n, v. split; [reflexivity|]. split; [exists items; auto|]. apply float_conforms, (Hf n v Hn E). }
      assert (Nu : forall n x, (exists v, kget (KStr n) items = Some v /\ is_real v x) -> exists m v, KStr n = KStr m /\ at_key (PDict items) m v /\ Validate_Spec.conforms num_schema v).
      { intros n x (v & E & R). exists n, v. split; [reflexivity|]. split; [exists items; auto|]. eapply real_conforms, R. }
      assert (Co : forall n l, In n coeff_names -> (exists vs, kget (KStr n) items = Some (PList vs) /\ Forall2 is_real vs l) ->
        exists m v, KStr n = KStr m /\ at_key (PDict items) m v /\ Validate_Spec.conforms (SList (repeat (SType Tfloat) 20)) v).
      { intros n l Hn (vs & E & _). exists n, (PList vs). split; [reflexivity|]. split; [exists items; auto|]. destruct (Hc n vs Hn E) as (L & F). apply Validate_Spec.CF_list_each; [cbn; lia|]. apply floats_conform; assumption. }
      cbv zeta in Hi. destruct Hi as (A1 & A2 & A3 & A4 & A5 & A6 & A7 & A8 & A9 & A10 & A11 & A12 & A13 & A14).
      apply dict_fits; [discriminate| |eauto]. intros k sc Hin. cbn [In] in Hin.
      repeat (destruct Hin as [E|Hin]; [injection E as <- <-; first [eapply Fl; [cbn; tauto|eassumption]|eapply Nu; eassumption|eapply Co; [cbn; tauto|eassumption]]|]). contradiction.
Qed.

Theorem rpcs_read : forall doc l, rpcs_in doc l -> exists params, read_rpc_doc doc = Ok params /\ Forall2 (rpc_kw "") params l /\ NoDup (map fst params).
Proof.
  intros doc l (d & -> & N & F).
  assert (X : exists params, mapM (fun kv => match fst kv with
      | KStr f => do s <- kreq "im_size" (snd kv); do s <- to_tuple s; do r <- kreq "rpc" (snd kv); Ok (f, [("cam_type", MCam Crpc); ("im_size", MTup s); ("rpc", MV r)])
      | KInt _ => Err TypeError end) d = Ok params /\ Forall2 (rpc_kw "") params l /\ Forall (fun kv => Validate_Spec.conforms entry_schema (snd kv)) d /\
      map (fun p => KStr (fst p)) params = map fst d).
  { clear N. induction F as [|kv e d l H F IH]; [exists []; repeat split; constructor|]. destruct IH as (ps & E & F1 & F2 & F3).
    destruct (rpc_entry_read kv e H) as (kw & K & Cf & s & r & E1 & E2 & ->). destruct H as (Hk & _).
    eexists. split; [cbn [mapM]; rewrite Hk, E1; cbn [bind to_tuple]; rewrite E2; cbn [bind]; rewrite E; reflexivity|]. split; [constructor; assumption|]. split; [constructor; assumption|].
    cbn. rewrite F3, Hk. reflexivity. }
  destruct X as (ps & E & F1 & F2 & F3). assert (Np : NoDup (map fst ps)).
  { rewrite <- F3, <- map_map with (f := fst) (g := KStr) in N. apply NoDup_map_inv in N. exact N. }
  exists ps. split; [|auto]. unfold read_rpc_doc.
  assert (V : validate_collection rpc_schema (PDict d) = Ok tt).
  { apply validate_iff. apply Validate_Spec.CF_map. intros k v Hin. rewrite Forall_forall in F2. split; [|exact (F2 _ Hin)].
    apply (in_map fst) in Hin. rewrite <- F3 in Hin. apply in_map_iff in Hin. destruct Hin as (p & E1 & _). cbn in E1. subst k. reflexivity. }
  rewrite V. cbn [is_ok bind]. rewrite E. cbn [bind]. rewrite dict_of_id by exact Np. reflexivity.
Qed.

(** * The factory *)
Section Rscene.
Variable cv_project cv_undistort fish_undistort : intr -> list R -> R * R -> R * R.
Variable C : Type.
Variable parse_crs : string -> res C.
Variable rpc_crs : C.
Variable O : Type.
Variable no_options : O.
Variable warp : C -> C -> list vec -> list vec.
Variable warp1 : C -> C -> vec -> vec.
Hypothesis warp_pointwise : forall a b l, warp a b l = map (warp1 a b) l.
Notation create_camera := (create_camera cv_project cv_undistort fish_undistort C parse_crs rpc_crs O no_options warp).
Notation rscene_get := (rscene_get cv_project cv_undistort fish_undistort C parse_crs rpc_crs O no_options warp).
Notation rscene_run := (rscene_run cv_project cv_undistort fish_undistort C parse_crs rpc_crs O no_options warp).

(** Cameras are made from their parameters. *)
Definition rinv (params : dict (dict mval)) crs o (st : rscene C O) : Prop :=
  rs_param _ _ st = params /\ rs_crs _ _ st = crs /\ rs_options _ _ st = o /\
  forall n c, dget n (rs_cameras _ _ st) = Some c -> exists p, get_by_name n params = Some p /\ create_camera p crs o = Ok c.

Lemma rget_inv : forall params crs o st n, rinv params crs o st -> rinv params crs o (fst (rscene_get n st)).
Proof.
  intros params crs o st n I. pose proof I as (I1 & I2 & I3 & I4). unfold Rscene_Model.rscene_get. rewrite I1. destruct (get_by_name n params) as [[|x p]|] eqn:E; try exact I.
  destruct (dget n (rs_cameras _ _ st)) eqn:Ec; [exact I|]. rewrite I2, I3. destruct (create_camera (x :: p) crs o) as [c|] eqn:Em; [|exact I].
  split; [reflexivity|]. split; [reflexivity|]. split; [reflexivity|]. cbn [fst rs_cameras]. intros m c'. destruct (String.eqb_spec m n) as [->|Nm].
  - rewrite dget_dset_eq. intros [= <-]. eauto.
  - rewrite dget_dset_neq by congruence. apply I4.
Qed.

Lemma rrun_inv : forall params crs o names, rinv params crs o (rscene_run names (rscene_init C O params crs o)).
Proof.
  intros params crs o names. assert (G : forall st, rinv params crs o st -> rinv params crs o (rscene_run names st)).
  { induction names as [|n names IH]; intros st I; [exact I|]. cbn. apply IH, rget_inv, I. }
  apply G. repeat split. intros n c X. discriminate X.
Qed.

Lemma rpc_found : forall params l n e, Forall2 (rpc_kw "") params l -> NoDup (map fst params) -> rpc_for l n e ->
  exists p, get_by_name n params = Some p /\ p <> [] /\ describes_rpc p (ir_w e) (ir_h e) (ir_rpc e).
Proof.
  intros params l n e F N H.
  assert (G : forall m e', rpc_named l m e' -> exists p, dget m params = Some p /\ p <> [] /\ describes_rpc p (ir_w e') (ir_h e') (ir_rpc e')).
  { intros m e' (Hin & <-). destruct (F2_right _ _ _ _ _ _ F Hin) as ([k p] & Hp & (K1 & K2 & K3)). cbn in K1, K2, K3. subst k. exists p. split; [apply dget_of_In; assumption|auto]. }
  assert (G' : forall m p, dget m params = Some p -> exists e', rpc_named l m e').
  { intros m p E. apply dget_In in E. destruct (F2_left _ _ _ _ _ _ F E) as (e' & He & (K1 & _)). exists e'. split; [exact He|]. symmetry. exact K1. }
  unfold get_by_name. destruct H as [H|st Hn Hst H].
  - destruct (G _ _ H) as (p & -> & Rest). eauto.
  - destruct (dget n params) as [p|] eqn:E; [destruct (G' _ _ E) as (e' & He); exfalso; exact (Hn e' He)|]. rewrite (Factory_Proof.stem_without _ _ Hst). exact (G _ _ H).
Qed.

Theorem rpc_camera_got : forall doc l crs crs' o name e before, rpcs_in doc l -> rpc_for l name e ->
  asks_crs parse_crs (match crs with Some c => c | None => CrsNone C end) crs' -> (forall c, crs' = Some c -> keeps_heights (warp1 rpc_crs c) (ir_rpc e)) ->
  exists params c, read_rpc_doc doc = Ok params /\
  snd (rscene_get name (rscene_run before (rscene_init C O params crs o))) = Ok (MadeRpc c) /\
  rc_w _ _ c = ir_w e /\ rc_h _ _ c = ir_h e /\ rc_rpc _ _ c = ir_rpc e /\ camera_crs C rpc_crs O c = match crs' with Some c => c | None => rpc_crs end.
Proof.
  intros doc l crs crs' o name e before Hd He Hc Hk. destruct (rpcs_read doc l Hd) as (params & Er & F & N). destruct (rpc_found params l name e F N He) as (p & Ep & Np & Dp).
  destruct (create_rpc cv_project cv_undistort fish_undistort C parse_crs rpc_crs O no_options warp p _ _ _ crs o Dp) as (d & M & E).
  destruct (init_ok C parse_crs rpc_crs O no_options warp warp1 warp_pointwise (ir_w e) (ir_h e) (RpcDict d) (ir_rpc e) o _ crs' M Hc Hk) as (c & Ec & R1 & R2 & R3 & _ & R4).
  rewrite Ec in E. cbn [bind] in E. exists params, c. split; [exact Er|]. split; [|auto].
  destruct (rrun_inv params crs o before) as (I1 & I2 & I3 & I4). unfold Rscene_Model.rscene_get. rewrite I1, Ep. destruct p as [|x p]; [contradiction|].
  destruct (dget name _) as [c'|] eqn:Ecache.
  - destruct (I4 _ _ Ecache) as (p' & Ep' & Em). assert (p' = x :: p) by congruence. subst p'. cbn. congruence.
  - rewrite I2, I3, E. reflexivity.
Qed.

Theorem rpc_unknown : forall doc l crs o name st before, rpcs_in doc l -> Factory_Spec.without_extension name st ->
  (forall e, ~ rpc_named l name e) -> (forall e, ~ rpc_named l st e) ->
  exists params, read_rpc_doc doc = Ok params /\ let f := rscene_run before (rscene_init C O params crs o) in rscene_get name f = (f, Err ParamError).
Proof.
  intros doc l crs o name st before Hd Hst H1 H2. destruct (rpcs_read doc l Hd) as (params & Er & F & N). exists params. split; [exact Er|]. cbv zeta.
  assert (G : forall m, (forall e, ~ rpc_named l m e) -> dget m params = None).
  { intros m Hm. destruct (dget m params) as [p|] eqn:E; [|reflexivity]. apply dget_In in E. destruct (F2_left _ _ _ _ _ _ F E) as (e' & He & (K1 & _)).
    exfalso. apply (Hm e'). split; [exact He|]. symmetry. exact K1. }
  destruct (rrun_inv params crs o before) as (I1 & _). unfold Rscene_Model.rscene_get. rewrite I1. unfold get_by_name.
  rewrite (G _ H1), (Factory_Proof.stem_without _ _ Hst), (G _ H2). reflexivity.
Qed.
End Rscene.
