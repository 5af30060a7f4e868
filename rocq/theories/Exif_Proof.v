(** Proofs about image tags and reconstructions. *)
From Coq Require Import String Ascii List Reals ZArith Bool Lra Lia.
From Verif Require Import Py Py_Proof Flt Frame_Model Validate_Model Params_Model Str Fit_Model Factory_Model Read_Spec Read_Proof Exif_Model Exif_Spec.
From Verif Require Factory_Spec Factory_Proof.
Import ListNotations.
Open Scope list_scope.
Open Scope R_scope.

Lemma any_nonzero_iff : forall l, any_nonzero l = true <-> exists r, In r l /\ r <> 0.
Proof.
  intros l. unfold any_nonzero. rewrite existsb_exists. split; intros (r & Hin & H); exists r; (split; [exact Hin|]).
  - destruct (Req_EM_T r 0); [discriminate|assumption].
  - destruct (Req_EM_T r 0); [contradiction|reflexivity].
Qed.

Lemma truth_single : forall v, single v -> (truth v = true <-> exists r, tagged v r).
Proof.
  intros [|r|l] H; cbn.
  - split; [discriminate|]. intros (r & Hr & _). discriminate.
  - destruct (Req_EM_T r 0) as [->|Hn]; split; try discriminate; try reflexivity.
    + intros (r & Hr & Hne). injection Hr as <-. congruence.
    + intros _. exists r. split; [reflexivity|exact Hn].
  - contradiction.
Qed.

Definition dewarp_choice (e : exif) : option (R * R * R * R * R * R * R * R * R * Z * Z) :=
  match e_dewarp e, e_tag_im_size e with
  | Some [fx; fy; cx; cy; k1; k2; p1; p2; k3], Some (tw, th) =>
    if any_nonzero [fx; fy; cx; cy; k1; k2; p1; p2; k3] then Some (fx, fy, cx, cy, k1, k2, p1, p2, k3, tw, th) else None
  | _, _ => None
  end.

Lemma len9 : forall A (l : list A), List.length l = 9%nat ->
  exists a b c d e f g h i, l = [a; b; c; d; e; f; g; h; i].
Proof.
  intros A l H. destruct l as [|a [|b [|c [|d [|e [|f [|g [|h [|i [|j l]]]]]]]]]]; cbn in H; try discriminate.
  exists a, b, c, d, e, f, g, h, i. reflexivity.
Qed.

Lemma dewarp_choice_some : forall e fx fy cx cy k1 k2 p1 p2 k3 tw th,
  dewarp_choice e = Some (fx, fy, cx, cy, k1, k2, p1, p2, k3, tw, th) <->
  usable_dewarp e [fx; fy; cx; cy; k1; k2; p1; p2; k3] tw th.
Proof.
  intros. unfold dewarp_choice, usable_dewarp. split.
  - destruct (e_dewarp e) as [l|]; [|discriminate].
    destruct l as [|a [|b [|c [|d [|e' [|f [|g [|h [|i [|j l]]]]]]]]]]; try discriminate;
      destruct (e_tag_im_size e) as [[tw' th']|]; try discriminate.
    destruct (any_nonzero _) eqn:E; [|discriminate]. intros H. injection H as -> -> -> -> -> -> -> -> -> -> ->.
    apply any_nonzero_iff in E. repeat split; auto.
  - intros (-> & _ & H & ->). apply any_nonzero_iff in H. rewrite H. reflexivity.
Qed.

Lemma dewarp_choice_none : forall e, dewarp_choice e = None <-> forall d tw th, ~ usable_dewarp e d tw th.
Proof.
  intros e. split.
  - intros H d tw th Hu. pose proof Hu as (_ & Hl & _). destruct (len9 _ _ Hl) as (a & b & c & d' & e' & f & g & h & i & ->).
    apply dewarp_choice_some in Hu. congruence.
  - intros H. destruct (dewarp_choice e) as [[[[[[[[[[[fx fy] cx] cy] k1] k2] p1] p2] k3] tw] th]|] eqn:E; [|reflexivity].
    apply dewarp_choice_some in E. exfalso. eapply H. exact E.
Qed.

Definition pinhole_choice (e : exif) : res int_param :=
  let '(w, h) := e_im_size e in
    match e_sensor_size e, truth (e_focal_len e) with
    | Some (sw, sh), true =>
      Ok (IntParam Pinhole w h match e_focal_len e with TNone => [] | TOne r => [r] | TMany l => l end (Some [sw; sh]) None None [])
    | sensor, _ =>
      if truth (e_focal_len_35 e)
      then do f35 <- num_of (e_focal_len_35 e);
           match sensor with
           | Some (sw, sh) => Ok (IntParam Pinhole w h [Rmax sw sh * f35 / 36] (Some [sw; sh]) None None [])
           | None => Ok (IntParam Pinhole w h [f35 / 36] None None None [])
           end
      else Err ParamError
    end.

Lemma read_exif_int_unfold : forall e, read_exif_int_param e =
  do p <- match dewarp_choice e with
          | Some (fx, fy, cx, cy, k1, k2, p1, p2, k3, tw, th) =>
            Ok (IntParam Brown (fst (e_im_size e)) (snd (e_im_size e)) [fx; fy] (Some [IZR tw; IZR th])
                  (Some (cx / IZR (Z.max tw th))) (Some (cy / IZR (Z.max tw th)))
                  [("k1", k1); ("k2", k2); ("p1", p1); ("p2", p2); ("k3", k3)]%string)
          | None => pinhole_choice e
          end; Ok (create_exif_cam_id e, p).
Proof.
  intros e. unfold read_exif_int_param, dewarp_choice, pinhole_choice.
  destruct (e_im_size e) as [w h]. cbn [fst snd].
  destruct (e_dewarp e) as [l|]; [|reflexivity].
  destruct l as [|a [|b [|c [|d [|e' [|f [|g [|h' [|i [|j l]]]]]]]]]]; try reflexivity.
  destruct (e_tag_im_size e) as [[tw th]|]; [|reflexivity].
  destruct (any_nonzero _); reflexivity.
Qed.

Lemma exif_precedence : forall e id p, single (e_focal_len e) -> single (e_focal_len_35 e) ->
  (read_exif_int_param e = Ok (id, p) <-> interior e p /\ id = create_exif_cam_id e).
Proof.
  intros e id p Hf Hf35. rewrite read_exif_int_unfold.
  destruct (dewarp_choice e) as [[[[[[[[[[[fx fy] cx] cy] k1] k2] p1] p2] k3] tw] th]|] eqn:E; cbn [bind].
  - pose proof E as Hu. apply dewarp_choice_some in Hu. split.
    + intros H. injection H as <- <-. split; [constructor; exact Hu|reflexivity].
    + intros (Hi & ->). inversion Hi as [? ? ? ? ? ? ? ? ? ? ? Hu' Hp|? ? ? Hn|? ? ? Hn|? Hn]; subst.
      * apply dewarp_choice_some in Hu'. rewrite E in Hu'. injection Hu' as -> -> -> -> -> -> -> -> -> -> ->. reflexivity.
      * exfalso. eapply Hn. exact Hu.
      * exfalso. eapply Hn. exact Hu.
      * exfalso. eapply Hn. exact Hu.
  - pose proof E as Hn. rewrite dewarp_choice_none in Hn. unfold pinhole_choice.
    destruct (e_im_size e) as [w h] eqn:Es.
    assert (Hw : w = fst (e_im_size e)) by (rewrite Es; reflexivity).
    assert (Hh : h = snd (e_im_size e)) by (rewrite Es; reflexivity).
    pose proof (truth_single _ Hf) as Tf. pose proof (truth_single _ Hf35) as Tf35.
    destruct (e_sensor_size e) as [[sw sh]|] eqn:Ess.
    + destruct (truth (e_focal_len e)) eqn:Et.
      * destruct (proj1 Tf eq_refl) as (r & Hr & Hne). cbn [bind]. rewrite Hr. split.
        -- intros H. injection H as <- <-. split; [rewrite Hw, Hh|reflexivity]. apply I_focal; [exact Hn|split; assumption|exact Ess].
        -- intros (Hi & ->). inversion Hi as [? ? ? ? ? ? ? ? ? ? ? Hu' Hp|? ? ? _ (Ht & _) Hs|? ? ? _ Hno|? _ Hs]; subst.
           ++ exfalso. eapply Hn. exact Hu'.
           ++ rewrite Hr in Ht. injection Ht as <-. rewrite Ess in Hs. injection Hs as <- <-. rewrite Es. reflexivity.
           ++ exfalso. apply (Hno r). split; assumption.
           ++ congruence.
      * destruct (truth (e_focal_len_35 e)) eqn:Et35.
        -- destruct (proj1 Tf35 eq_refl) as (r & Hr & Hne). rewrite Hr. cbn [num_of bind]. split.
           ++ intros H. injection H as <- <-. split; [rewrite Hw, Hh|reflexivity]. apply I_focal_35_sensor; [exact Hn| |split; assumption|exact Ess].
              intros f Hft. apply Bool.diff_false_true. apply Tf. exists f. exact Hft.
           ++ intros (Hi & ->). inversion Hi as [? ? ? ? ? ? ? ? ? ? ? Hu' Hp|? ? ? _ Ht Hs|? ? ? _ Hno (Ht & _) Hs|? _ Hs]; subst.
              ** exfalso. eapply Hn. exact Hu'.
              ** exfalso. apply Bool.diff_false_true. apply Tf. eexists. exact Ht.
              ** rewrite Hr in Ht. injection Ht as <-. rewrite Ess in Hs. injection Hs as <- <-. rewrite Es. reflexivity.
              ** congruence.
        -- cbn [bind]. split; [discriminate|]. intros (Hi & _). exfalso.
           inversion Hi as [? ? ? ? ? ? ? ? ? ? ? Hu' Hp|? ? ? _ Ht Hs|? ? ? _ Hno Ht Hs|? _ Hs Ht]; subst.
           ++ eapply Hn. exact Hu'.
           ++ apply Bool.diff_false_true. apply Tf. eexists. exact Ht.
           ++ apply Bool.diff_false_true. apply Tf35. eexists. exact Ht.
           ++ congruence.
    + assert (Hcase : forall b, match truth (e_focal_len e) with true => b | false => b end = b :> res int_param)
        by (intros b; destruct (truth (e_focal_len e)); reflexivity).
      destruct (truth (e_focal_len_35 e)) eqn:Et35.
      * destruct (proj1 Tf35 eq_refl) as (r & Hr & Hne). rewrite Hr. cbn [num_of bind]. split.
        -- intros H. injection H as <- <-. split; [rewrite Hw, Hh|reflexivity]. apply I_focal_35; [exact Hn|exact Ess|split; assumption].
        -- intros (Hi & ->). inversion Hi as [? ? ? ? ? ? ? ? ? ? ? Hu' Hp|? ? ? _ Ht Hs|? ? ? _ Hno Ht Hs|? _ Hs (Ht & _)]; subst; try congruence.
           exfalso. eapply Hn. exact Hu'.
      * cbn [bind]. split; [discriminate|]. intros (Hi & _). exfalso.
        inversion Hi as [? ? ? ? ? ? ? ? ? ? ? Hu' Hp|? ? ? _ Ht Hs|? ? ? _ Hno Ht Hs|? _ Hs Ht]; subst; try congruence.
        -- eapply Hn. exact Hu'.
        -- apply Bool.diff_false_true. apply Tf35. eexists. exact Ht.
Qed.

Lemma exif_no_interior : forall e, single (e_focal_len e) -> single (e_focal_len_35 e) ->
  (forall p, ~ interior e p) -> read_exif_int_param e = Err ParamError.
Proof.
  intros e Hf Hf35 Hno. destruct (read_exif_int_param e) as [[id p]|x] eqn:E.
  - apply exif_precedence in E; [|assumption|assumption]. exfalso. apply (Hno p). apply E.
  - rewrite read_exif_int_unfold in E. destruct (dewarp_choice e) as [[[[[[[[[[[? ?] ?] ?] ?] ?] ?] ?] ?] ?] ?]|]; [discriminate|].
    unfold pinhole_choice in E. destruct (e_im_size e) as [w h].
    destruct (e_focal_len_35 e) as [|r|l]; cbn in Hf35; try contradiction;
      destruct (e_sensor_size e) as [[sw sh]|]; destruct (truth (e_focal_len e)); cbn in E; try discriminate; try congruence;
      destruct (Req_EM_T r 0); cbn in E; congruence.
Qed.

Lemma IZR_max : forall a b, IZR (Z.max a b) = Rmax (IZR a) (IZR b).
Proof.
  intros a b. destruct (Z.max_spec a b) as [(H & ->)|(H & ->)].
  - symmetry. apply Rmax_right. apply IZR_le. lia.
  - symmetry. apply Rmax_left. apply IZR_le. lia.
Qed.

Lemma dewarp_camera : forall cv e fx fy cx cy k1 k2 p1 p2 k3 tw th s,
  usable_dewarp e [fx; fy; cx; cy; k1; k2; p1; p2; k3] tw th ->
  (0 < tw)%Z -> (0 < th)%Z -> 0 < s -> IZR (fst (e_im_size e)) = s * IZR tw -> IZR (snd (e_im_size e)) = s * IZR th ->
  exists p f, read_exif_int_param e = Ok (create_exif_cam_id e, p) /\ camera_fwd cv p = Ok f /\
    forall xy, f xy = brown_fwd (Intr (s * fx) (s * fy) ((IZR (fst (e_im_size e)) - 1) / 2 + s * cx)
                                      ((IZR (snd (e_im_size e)) - 1) / 2 + s * cy)) k1 k2 p1 p2 k3 xy.
Proof.
  intros cv e fx fy cx cy k1 k2 p1 p2 k3 tw th s Hu Htw Hth Hs Hw Hh.
  rewrite read_exif_int_unfold. rewrite (proj2 (dewarp_choice_some _ _ _ _ _ _ _ _ _ _ _ _) Hu). cbn [bind].
  assert (Hrw : 0 < IZR tw) by (apply IZR_lt; exact Htw). assert (Hrh : 0 < IZR th) by (apply IZR_lt; exact Hth).
  eexists. eexists. split; [reflexivity|]. split; [reflexivity|].
  intros xy. cbn [ip_type ip_dist]. cbn [dget String.eqb Ascii.eqb Bool.eqb or0].
  set (w := fst (e_im_size e)) in *. set (h := snd (e_im_size e)) in *.
  assert (Hm : IZR (Z.max w h) = s * IZR (Z.max tw th)).
  { rewrite !IZR_max, Hw, Hh. unfold Rmax. destruct (Rle_dec (s * IZR tw) (s * IZR th)) as [H|H], (Rle_dec (IZR tw) (IZR th)) as [H'|H']; try reflexivity; exfalso.
    - apply H'. apply (Rmult_le_reg_l s); assumption.
    - apply H. apply Rmult_le_compat_l; [lra|exact H']. }
  assert (0 < IZR (Z.max tw th)) by (rewrite IZR_max; apply Rlt_le_trans with (IZR tw); [exact Hrw|apply Rmax_l]).
  f_equal. cbn [ip_cx ip_cy or0 ip_w ip_h fst snd]. f_equal.
  - rewrite Hw. field. lra.
  - rewrite Hh. field. lra.
  - rewrite Hm. field. lra.
  - rewrite Hm. field. lra.
Qed.

(** Only a 35mm focal length is usable in an image. *)
Lemma focal_35_param : forall e f35, dewarp_choice e = None -> (forall f, ~ tagged (e_focal_len e) f) -> single (e_focal_len e) ->
  tagged (e_focal_len_35 e) f35 ->
  read_exif_int_param e = Ok (create_exif_cam_id e,
    match e_sensor_size e with
    | Some (sw, sh) => IntParam Pinhole (fst (e_im_size e)) (snd (e_im_size e)) [Rmax sw sh * f35 / 36] (Some [sw; sh]) None None []
    | None => IntParam Pinhole (fst (e_im_size e)) (snd (e_im_size e)) [f35 / 36] None None None []
    end).
Proof.
  intros e f35 Hd Hf Hs (Ht & Hne). rewrite read_exif_int_unfold, Hd. unfold pinhole_choice.
  assert (truth (e_focal_len e) = false) as ->.
  { destruct (truth (e_focal_len e)) eqn:E; [|reflexivity]. apply (truth_single _ Hs) in E. destruct E as (r & Hr). exfalso. eapply Hf. exact Hr. }
  rewrite Ht. destruct (e_im_size e) as [w h]. cbn [truth fst snd]. destruct (Req_EM_T f35 0); [contradiction|].
  destruct (e_sensor_size e) as [[sw sh]|]; reflexivity.
Qed.

Lemma focal_35_pixels : forall e f35 p id k, (forall d tw th, ~ usable_dewarp e d tw th) -> (forall f, ~ tagged (e_focal_len e) f) ->
  single (e_focal_len e) -> tagged (e_focal_len_35 e) f35 -> (0 < fst (e_im_size e))%Z -> (0 < snd (e_im_size e))%Z ->
  (forall sw sh, e_sensor_size e = Some (sw, sh) -> 0 < sw /\ 0 < sh /\ sw * IZR (snd (e_im_size e)) = sh * IZR (fst (e_im_size e))) ->
  read_exif_int_param e = Ok (id, p) -> ip_intrinsic p = Ok k ->
  kfx k = match e_sensor_size e with
          | Some _ => f35 / 36 * IZR (Z.max (fst (e_im_size e)) (snd (e_im_size e)))
          | None => f35 / 36 * IZR (fst (e_im_size e))
          end.
Proof.
  intros e f35 p id k Hd Hf Hs Ht Hw Hh Hsq Hr Hk. rewrite <- dewarp_choice_none in Hd.
  rewrite (focal_35_param e f35) in Hr by assumption. injection Hr as _ Hr.
  set (w := fst (e_im_size e)) in *. set (h := snd (e_im_size e)) in *.
  assert (Hrw : 0 < IZR w) by (apply IZR_lt; exact Hw). assert (Hrh : 0 < IZR h) by (apply IZR_lt; exact Hh).
  destruct (e_sensor_size e) as [[sw sh]|]; subst p; cbn in Hk; injection Hk as <-; cbn [kfx]; [|reflexivity].
  destruct (Hsq _ _ eq_refl) as (H1 & H2 & H3). rewrite IZR_max.
  assert (Hs2 : Rmax sw sh * IZR w = sw * Rmax (IZR w) (IZR h)).
  { unfold Rmax. destruct (Rle_dec sw sh) as [A|A], (Rle_dec (IZR w) (IZR h)) as [B|B]; try lra; exfalso.
    - assert (sw * IZR h < sh * IZR w) by (apply Rle_lt_trans with (sh * IZR h); [apply Rmult_le_compat_r; lra|apply Rmult_lt_compat_l; lra]). lra.
    - assert (sh * IZR w < sw * IZR h) by (apply Rle_lt_trans with (sh * IZR h); [apply Rmult_le_compat_l; lra|apply Rmult_lt_compat_r; lra]). lra. }
  transitivity (Rmax sw sh * IZR w * f35 / 36 / sw); [field; lra|]. rewrite Hs2. field. lra.
Qed.

(** * Camera IDs *)
Lemma cam_id_not_empty : forall e, create_exif_cam_id e <> ""%string.
Proof. intros e. unfold create_exif_cam_id. destruct (String.concat _ _); discriminate. Qed.

Lemma exif_items : forall exifs ints, exif_read_int exifs = Ok ints ->
  exists items, Forall2 (fun kv item => read_exif_int_param (snd kv) = Ok item) exifs items /\ ints = dict_of items.
Proof.
  intros exifs ints H. unfold exif_read_int in H. destruct (mapM _ _) as [items|] eqn:E; [|discriminate].
  injection H as <-. exists items. split; [|reflexivity]. apply mapM_Ok. exact E.
Qed.

Lemma exif_int_id : forall e id p, read_exif_int_param e = Ok (id, p) -> id = create_exif_cam_id e.
Proof.
  intros e id p H. rewrite read_exif_int_unfold in H. 
  destruct (dewarp_choice e) as [[[[[[[[[[[? ?] ?] ?] ?] ?] ?] ?] ?] ?] ?]|]; [|destruct (pinhole_choice e) as [q|]; [|discriminate]];
    cbn [bind] in H; congruence.
Qed.

(** The last image with a camera ID decides its parameters. *)
Lemma exif_last : forall before name e after ints id p, exif_read_int (before ++ (name, e) :: after) = Ok ints ->
  read_exif_int_param e = Ok (id, p) -> (forall n e', In (n, e') after -> create_exif_cam_id e' <> id) ->
  dget id ints = Some p.
Proof.
  intros before name e after ints id p H Hr Hafter. apply exif_items in H. destruct H as (items & Hi & ->).
  rewrite dict_of_last. apply Forall2_app_inv_l in Hi. destruct Hi as (i1 & i2 & _ & Hi2 & ->).
  inversion Hi2 as [|? item ? i3 Hitem Hi3]; subst. cbn [snd] in Hitem. rewrite Hr in Hitem. injection Hitem as <-.
  assert (Hnone : last_named id i3 = None).
  { clear - Hi3 Hafter. induction Hi3 as [|[n e'] [id' p'] l l' Hx _ IH]; [reflexivity|]. cbn. rewrite IH by (intros; eapply Hafter; right; eassumption).
    destruct (String.eqb_spec id id') as [Heq|]; [|reflexivity]. exfalso. subst id'. apply exif_int_id in Hx. apply (Hafter n e'); [left; reflexivity|]. symmetry. exact Hx. }
  induction i1 as [|[k v] i1 IH]; cbn; [rewrite Hnone, String.eqb_refl; reflexivity|]. rewrite IH. reflexivity.
Qed.

Lemma last_named_In : forall V k (l : list (string * V)), In k (map fst l) -> exists v, last_named k l = Some v.
Proof.
  induction l as [|[k' v'] l IH]; cbn; [contradiction|]. intros H. destruct (last_named k l) as [w|] eqn:E; [exists w; reflexivity|].
  destruct H as [->|H]; [rewrite String.eqb_refl; exists v'; reflexivity|]. destruct (IH H) as (w & Hw). congruence.
Qed.

Lemma last_named_some : forall V k v (l : list (string * V)), last_named k l = Some v -> In (k, v) l.
Proof.
  induction l as [|[k' v'] l IH]; cbn; [discriminate|]. intros H. destruct (last_named k l); [right; apply IH; exact H|].
  destruct (String.eqb_spec k k'); [|discriminate]. injection H as <-. subst. left. reflexivity.
Qed.

Lemma exif_cameras : forall X (to_world : R * R * R -> R * R * R -> res X) exifs ints exts name x id,
  exif_read_int exifs = Ok ints -> exif_read_ext X to_world exifs = Ok exts -> dget name exts = Some (x, id) ->
  id <> ""%string /\ exists p, dget id ints = Some p.
Proof.
  intros X to_world exifs ints exts name x id Hi He Hg. apply exif_items in Hi. destruct Hi as (items & Hi & ->).
  unfold exif_read_ext in He. destruct (mapM _ _) as [eitems|] eqn:E; [|discriminate]. injection He as <-. apply mapM_Ok in E.
  rewrite dict_of_last in Hg. apply last_named_some in Hg.
  assert (Hid : exists k e, In (k, e) exifs /\ id = create_exif_cam_id e).
  { clear Hi. induction E as [|[k e] item l l' Hx _ IH]; [contradiction|]. destruct Hg as [->|Hg].
    - exists k, e. split; [left; reflexivity|]. cbn in Hx. unfold read_exif_ext_param in Hx.
      destruct (e_lla e); [|discriminate]. destruct (e_rpy e); [|discriminate]. destruct (to_world _ _); [|discriminate]. cbn in Hx. congruence.
    - destruct (IH Hg) as (k' & e' & Hin & He'). exists k', e'. split; [right; exact Hin|exact He']. }
  destruct Hid as (k & e & Hin & ->). split; [apply cam_id_not_empty|].
  rewrite dict_of_last. apply last_named_In. clear E Hg.
  induction Hi as [|[k' e'] [id p] l l' Hx _ IH]; [contradiction|]. cbn. destruct Hin as [Heq|Hin]; [|right; apply IH; exact Hin].
  injection Heq as -> ->. left. apply exif_int_id in Hx. exact Hx.
Qed.

(** * OpenSfM *)
Lemma osfm_int_keys : forall d ints, read_osfm_int_param (PDict d) = Ok ints ->
  forall id, In (KStr id) (map fst d) -> exists p, dget (strip_v2 id) ints = Some p.
Proof.
  intros d ints H id Hin. unfold read_osfm_int_param in H. destruct (is_ok _); [|discriminate]. cbn [bind] in H.
  destruct (mapM _ d) as [items|] eqn:E; [|discriminate]. injection H as <-. apply mapM_Ok in E.
  rewrite dict_of_last. apply last_named_In.
  induction E as [|[[k|z] v] item l l' Hx _ IH]; [contradiction| |].
  - destruct v; try discriminate. destruct (parse_json_param _) as [p|]; [|discriminate]. injection Hx as <-.
    cbn. destruct Hin as [Heq|Hin]; [left; cbn in Heq; congruence|right; apply IH; exact Hin].
  - discriminate.
Qed.

Lemma mapM_snd : forall A B (f : A -> res B) l ys y, mapM f l = Ok ys -> In y ys -> exists x, In x l /\ f x = Ok y.
Proof.
  intros A B f l ys y H. apply mapM_Ok in H. induction H as [|a b l' l'' Hab _ IH]; intros []; [subst|].
  - exists a. split; [left; reflexivity|exact Hab].
  - destruct (IH H) as (x & Hx & Hy). exists x. split; [right; exact Hx|exact Hy].
Qed.

Lemma osfm_cameras : forall X (cv_ext : pyval -> pyval -> X) doc ints exts name x id,
  (forall first l cams shots k shot c, doc = PList (first :: l) -> field "cameras" first = Ok (PDict cams) ->
     field "shots" first = Ok (PDict shots) -> In (k, shot) shots -> field "camera" shot = Ok (PStr c) -> In (KStr c) (map fst cams)) ->
  osfm_reader X cv_ext doc = Ok (ints, exts) -> dget name exts = Some (x, id) -> exists p, dget id ints = Some p.
Proof.
  intros X cv_ext doc ints exts name x id Hrefs H Hg. unfold osfm_reader in H. destruct (is_ok _); [|discriminate]. cbn [bind] in H.
  destruct doc as [| | | | | |l|]; try discriminate. destruct l as [|first l]; [discriminate|].
  destruct (field "cameras" first) as [cams|] eqn:Ec; [|discriminate]. cbn [bind] in H.
  destruct (field "shots" first) as [shots|] eqn:Es; [|discriminate]. cbn [bind] in H.
  destruct (read_osfm_int_param cams) as [ints'|] eqn:Ei; [|discriminate]. cbn [bind] in H.
  destruct shots as [| | | | | | |shots]; try discriminate. destruct (mapM _ shots) as [eitems|] eqn:Em; [|discriminate].
  cbn [bind] in H. injection H as <- <-. rewrite dict_of_last in Hg. apply last_named_some in Hg.
  destruct (mapM_snd _ _ _ _ _ _ Em Hg) as ([k shot] & Hin & Hshot). unfold shot_ext in Hshot. cbn [fst snd] in Hshot.
  destruct (field "translation" shot); [|discriminate]. destruct (field "rotation" shot); [|discriminate].
  destruct (field "camera" shot) as [c|] eqn:Ecam; [|discriminate]. cbn [bind] in Hshot. destruct k as [k|]; [|discriminate].
  destruct c as [| | | | |c| |]; try discriminate. injection Hshot as _ _ <-.
  destruct cams as [| | | | | | |cams]; try (unfold read_osfm_int_param in Ei; destruct (is_ok _) in Ei; discriminate).
  apply (osfm_int_keys _ _ Ei). eapply Hrefs; [reflexivity|exact Ec|exact Es|exact Hin|exact Ecam].
Qed.

(** * Positions *)
Open Scope string_scope.

Lemma plain_existsb : forall s, plain_chars s -> forall x s', s = String x s' -> existsb (Ascii.eqb x) [" "; "("]%char = false.
Proof.
  intros s H x s' ->. destruct H as (H1 & H2 & _). cbn. destruct (Ascii.eqb_spec x " "%char); [contradiction|].
  destruct (Ascii.eqb_spec x "("%char); [contradiction|]. reflexivity.
Qed.

Lemma rstrip_plain : forall s, plain_chars s -> rstrip [" "; "("]%char s = s.
Proof.
  induction s as [|x s IH]; intros H; [reflexivity|]. pose proof (plain_existsb _ H x s eq_refl) as Hx. destruct H as (_ & _ & _ & H).
  cbn [rstrip]. rewrite (IH H). destruct s; [rewrite Hx|]; reflexivity.
Qed.

Lemma lstrip_plain : forall s, plain_chars s -> lstrip [" "; "("]%char s = s.
Proof. intros [|x s] H; [reflexivity|]. cbn [lstrip]. rewrite (plain_existsb _ H x s eq_refl). reflexivity. Qed.

Lemma strip_open : forall s, plain_chars s -> strip [" "; "("]%char (String "(" s) = s.
Proof. intros s H. unfold strip. change (lstrip [" "; "("]%char (String "(" s)) with (lstrip [" "; "("]%char s). rewrite lstrip_plain by exact H. apply rstrip_plain. exact H. Qed.

Lemma strip_space_open : forall s, plain_chars s -> strip [" "; "("]%char (String " " (String "(" s)) = s.
Proof. intros s H. unfold strip. change (lstrip [" "; "("]%char (String " " (String "(" s))) with (lstrip [" "; "("]%char s). rewrite lstrip_plain by exact H. apply rstrip_plain. exact H. Qed.

Lemma split_at : forall s t, plain_chars s -> split_on ")" (s ++ String ")" t) = s :: split_on ")" t.
Proof.
  induction s as [|x s IH]; intros t H; [reflexivity|]. destruct H as (_ & _ & H3 & H). cbn [append split_on].
  destruct (Ascii.eqb_spec x ")"%char); [contradiction|]. rewrite (IH t H). reflexivity.
Qed.

Lemma split_first : forall x s t w ws, x <> ")"%char -> split_on ")" (s ++ t) = w :: ws -> split_on ")" (String x (s ++ t)) = String x w :: ws.
Proof. intros x s t w ws Hx H. cbn [split_on]. destruct (Ascii.eqb_spec x ")"%char); [contradiction|]. rewrite H. reflexivity. Qed.

Section Tags.
Variable pyfloat : string -> res R.
Variable pyint0 : string -> res Z.

Lemma float_three : forall ex key a b c x y z, plain a -> plain b -> plain c ->
  pyfloat a = Ok x -> pyfloat b = Ok y -> pyfloat c = Ok z -> dget key ex = Some (three a b c) ->
  get_exif_float pyfloat ex key = Ok (TMany [x; y; z]).
Proof.
  intros ex key a b c x y z (_ & Ha) (_ & Hb) (_ & Hc) Hx Hy Hz Hg. unfold get_exif_float. rewrite Hg. unfold three.
  assert (Hs : split_on ")" ("(" ++ a ++ ") (" ++ b ++ ") (" ++ c ++ ")") = [String "(" a; String " " (String "(" b); String " " (String "(" c); ""]).
  { change ("(" ++ a ++ ") (" ++ b ++ ") (" ++ c ++ ")") with (String "(" (a ++ String ")" (" (" ++ b ++ String ")" (" (" ++ c ++ String ")" "")))).
    apply split_first; [discriminate|]. rewrite split_at by exact Ha. f_equal.
    change (" (" ++ b ++ String ")" (" (" ++ c ++ String ")" "")) with (String " " (String "(" (b ++ String ")" (" (" ++ c ++ String ")" "")))).
    apply (split_first _ (String "(" b)); [discriminate|]. apply (split_first _ b); [discriminate|]. rewrite split_at by exact Hb. f_equal.
    change (" (" ++ c ++ String ")" "") with (String " " (String "(" (c ++ String ")" ""))).
    apply (split_first _ (String "(" c)); [discriminate|]. apply (split_first _ c); [discriminate|]. rewrite split_at by exact Hc. reflexivity. }
  rewrite Hs. cbn [filter String.length Nat.eqb negb mapM].
  rewrite strip_open, !strip_space_open by assumption. rewrite Hx, Hy, Hz. reflexivity.
Qed.

Lemma float_one : forall ex key a x, plain a -> pyfloat a = Ok x -> dget key ex = Some (one a) -> get_exif_float pyfloat ex key = Ok (TOne x).
Proof.
  intros ex key a x (_ & Ha) Hx Hg. unfold get_exif_float. rewrite Hg. unfold one.
  assert (Hs : split_on ")" ("(" ++ a ++ ")") = [String "(" a; ""]).
  { change ("(" ++ a ++ ")") with (String "(" (a ++ String ")" "")). apply split_first; [discriminate|]. rewrite split_at by exact Ha. reflexivity. }
  rewrite Hs. cbn [filter String.length Nat.eqb negb mapM]. rewrite strip_open by assumption. rewrite Hx. reflexivity.
Qed.

Lemma ref_sign : forall d m s l ref, dms_to_decimal (TMany (d :: m :: s :: l)) ref =
  Ok (if (String.eqb ref "" || String.eqb ref "N" || String.eqb ref "E" || String.eqb ref "NE") then degrees d m s else - degrees d m s)%R.
Proof.
  intros d m s l ref. unfold dms_to_decimal, degrees. f_equal.
  assert (Hc : contains ref "NE" = (String.eqb ref "" || String.eqb ref "N" || String.eqb ref "E" || String.eqb ref "NE")).
  { unfold contains. destruct ref as [|x [|y [|z r]]]; [reflexivity| | |].
    - cbn. destruct (Ascii.eqb_spec x "N"%char) as [->|HN]; [reflexivity|]. destruct (Ascii.eqb_spec x "E"%char) as [->|HE]; [reflexivity|].
      destruct (ascii_dec x "N"); [contradiction|]. destruct (ascii_dec x "E"); [contradiction|]. reflexivity.
    - cbn. destruct (Ascii.eqb_spec x "N"%char) as [->|HN]; cbn.
      + destruct (Ascii.eqb_spec y "E"%char) as [->|HE]; [reflexivity|]. destruct (ascii_dec y "E"); [contradiction|]. reflexivity.
      + destruct (ascii_dec x "N"); [contradiction|]. destruct (Ascii.eqb_spec x "E"%char); cbn; destruct (ascii_dec x "E"); reflexivity.
    - cbn. destruct (ascii_dec x "N"), (ascii_dec y "E"), (ascii_dec x "E"), (Ascii.eqb x "N"), (Ascii.eqb x "E"), (Ascii.eqb y "E"); reflexivity. }
  rewrite Hc. destruct (_ || _)%bool; field.
Qed.

Lemma exif_position : forall ex a b c a' b' c' alt d m s d' m' s' h lat_ref lon_ref (south west below : bool),
  Forall plain [a; b; c; a'; b'; c'; alt] ->
  pyfloat a = Ok d -> pyfloat b = Ok m -> pyfloat c = Ok s ->
  pyfloat a' = Ok d' -> pyfloat b' = Ok m' -> pyfloat c' = Ok s' -> pyfloat alt = Ok h ->
  dget "EXIF_GPSLatitude" ex = Some (three a b c) -> dget "EXIF_GPSLongitude" ex = Some (three a' b' c') ->
  dget "EXIF_GPSAltitude" ex = Some (one alt) ->
  dget "EXIF_GPSLatitudeRef" ex = Some (if south then "S" else "N") ->
  dget "EXIF_GPSLongitudeRef" ex = Some (if west then "W" else "E") ->
  dget "EXIF_GPSAltitudeRef" ex = Some lat_ref -> pyint0 lat_ref = Ok lon_ref -> below = (lon_ref =? 1)%Z ->
  get_lla pyfloat pyint0 ex =
    Ok (Some (if south then - degrees d m s else degrees d m s, if west then - degrees d' m' s' else degrees d' m' s',
              if below then - h else h)%R).
Proof.
  intros ex a b c a' b' c' alt d m s d' m' s' h lat_ref lon_ref south west below Hp Ha Hb Hc Ha' Hb' Hc' Hh Hlat Hlon Halt Hlatr Hlonr Haltr Hi Hbelow.
  rewrite !Forall_cons_iff in Hp. destruct Hp as (P1 & P2 & P3 & P4 & P5 & P6 & P7 & _).
  unfold get_lla. rewrite Hlatr, Hlonr. rewrite Hlat at 1. rewrite Hlon at 1.
  rewrite (float_three ex "EXIF_GPSLatitude" a b c d m s) by assumption. cbn [bind].
  rewrite ref_sign. cbn [bind].
  rewrite (float_three ex "EXIF_GPSLongitude" a' b' c' d' m' s') by assumption. cbn [bind].
  rewrite ref_sign. cbn [bind].
  rewrite (float_one ex "EXIF_GPSAltitude" alt h) by assumption. cbn [bind].
  assert (Ht : (if truth (TOne h) then num_of (TOne h) else Ok 0%R) = Ok h).
  { cbn. destruct (Req_EM_T h 0) as [->|]; reflexivity. }
  rewrite Ht. cbn [bind]. rewrite Haltr, Hi. cbn [bind]. rewrite <- Hbelow.
  destruct south, west, below; cbn; f_equal; f_equal; f_equal; field.
Qed.

Lemma first_lla : forall xmp, first_with lla_keys xmp xmp_schemas =
  if (List.length (filter (fun k => dmem k xmp) xmp_position_keys) =? 3)%nat
  then Some (hd (XmpSchema [] [] None (0, 0, 0) (0, 0, 0)) xmp_schemas, map (fun k => match dget k xmp with Some v => v | None => None end) xmp_position_keys)
  else None.
Proof.
  intros xmp. unfold xmp_schemas. cbn [first_with lla_keys hd map]. change (map dji _) with xmp_position_keys.
  change [dji "GpsLatitude"; dji "GpsLongtitude"; dji "AbsoluteAltitude"] with xmp_position_keys.
  destruct (_ =? 3)%nat; reflexivity.
Qed.

Lemma filter3 : forall (A : Type) (f : A -> bool) a b c, (List.length (filter f [a; b; c]) =? 3)%nat = f a && f b && f c.
Proof. intros. cbn. destruct (f a), (f b), (f c); reflexivity. Qed.

Lemma xmp_lla_some : forall xmp a b c x y z,
  dget "{http://www.dji.com/drone-dji/1.0/}GpsLatitude" xmp = Some (Some a) -> dget "{http://www.dji.com/drone-dji/1.0/}GpsLongtitude" xmp = Some (Some b) ->
  dget "{http://www.dji.com/drone-dji/1.0/}AbsoluteAltitude" xmp = Some (Some c) ->
  pyfloat a = Ok x -> pyfloat b = Ok y -> pyfloat c = Ok z -> get_xmp_lla pyfloat xmp = Ok (Some (x, y, z)).
Proof.
  intros xmp a b c x y z Ha Hb Hc Hx Hy Hz. unfold get_xmp_lla. rewrite first_lla. unfold xmp_position_keys. rewrite filter3. unfold dmem.
  rewrite Ha, Hb, Hc. cbn [andb map]. rewrite Ha, Hb, Hc. cbn. rewrite Hx, Hy, Hz. reflexivity.
Qed.

Lemma xmp_lla_none : forall xmp k, In k xmp_position_keys -> dget k xmp = None -> get_xmp_lla pyfloat xmp = Ok None.
Proof.
  intros xmp k Hin Hk. unfold get_xmp_lla. rewrite first_lla. unfold xmp_position_keys. rewrite filter3. unfold dmem.
  destruct Hin as [<-|[<-|[<-|[]]]]; rewrite Hk; rewrite ?andb_false_r, ?andb_false_l; reflexivity.
Qed.

Definition xml_nested (P : xml -> Prop) (step : forall tag text attrib children, Forall P children -> P (Node tag text attrib children))
  : forall x, P x :=
  fix go x := match x with
              | Node tag text attrib children =>
                step tag text attrib children
                  ((fix all l : Forall P l := match l with [] => Forall_nil P | c :: l' => Forall_cons c (go c) (all l') end) children)
              end.

Lemma flat_names : forall x k, names k x <-> exists v, dget k (xml_to_flat_dict x) = Some v.
Proof.
  intros x k. unfold xml_to_flat_dict. rewrite dict_of_last. split.
  - intros H. apply last_named_In. induction H as [text attrib children|tag text attrib children v Hin|tag text attrib children c Hin Hn IH]; cbn [xml_items map fst].
    + left. reflexivity.
    + right. rewrite map_app. apply in_or_app. left. rewrite map_map. cbn. apply (in_map fst) in Hin. exact Hin.
    + right. rewrite map_app. apply in_or_app. right. apply in_map_iff in IH. destruct IH as ([k' v] & Hk & Hv). cbn in Hk. subst k'.
      apply in_map_iff. exists (k, v). split; [reflexivity|]. apply in_flat_map. exists c. split; assumption.
  - intros (v & H). apply last_named_some in H. revert H.
    revert v. induction x as [tag text attrib children IH] using xml_nested. intros v Hin. cbn [xml_items] in Hin. destruct Hin as [Heq|Hin].
    + injection Heq as -> _. constructor.
    + apply in_app_or in Hin. destruct Hin as [Hin|Hin].
      * apply in_map_iff in Hin. destruct Hin as ([k' v'] & Heq & Hin). injection Heq as -> _. eapply N_attr. exact Hin.
      * apply in_flat_map in Hin. destruct Hin as (c & Hc & Hv). rewrite Forall_forall in IH. eapply N_child; [exact Hc|]. eapply IH; [exact Hc|exact Hv].
Qed.

Lemma flat_only : forall x k v, only_value x k v -> dget k (xml_to_flat_dict x) = Some v.
Proof.
  intros x k v (before & after & Heq & _ & Hafter). unfold xml_to_flat_dict. rewrite dict_of_last, Heq.
  assert (Hn : last_named k after = None).
  { destruct (last_named k after) as [w|] eqn:E; [|reflexivity]. apply last_named_some in E. exfalso. eapply Hafter. exact E. }
  induction before as [|[k0 v0] before IH] in x, Heq |- *; cbn [last_named app].
  - rewrite Hn, String.eqb_refl. reflexivity.
  - assert (Hl : last_named k (before ++ (k, v) :: after)%list = Some v).
    { clear - Hn. induction before as [|[k1 v1] b IHb]; cbn [app last_named]; [rewrite Hn, String.eqb_refl; reflexivity|]. rewrite IHb. reflexivity. }
    rewrite Hl. reflexivity.
Qed.

End Tags.

Lemma exif_init_inv : forall pyfloat pyint pyint0 filename im_size tags exif_ns xmp e,
  exif_init pyfloat pyint pyint0 filename im_size tags exif_ns xmp = Ok e ->
  let ex := match tags with [] => exif_ns | _ => tags end in
  let xd := match xmp with Some x => xml_to_flat_dict x | None => [] end in
  e_filename e = filename /\ e_im_size e = im_size /\
  (exists xlla, get_xmp_lla pyfloat xd = Ok xlla /\
     match xlla with Some t => Ok (Some t) | None => get_lla pyfloat pyint0 ex end = Ok (e_lla e)) /\
  get_xmp_rpy pyfloat xd = Ok (e_rpy e) /\ get_xmp_dewarp pyfloat xd = Ok (e_dewarp e) /\
  get_tag_im_size pyfloat ex = Ok (e_tag_im_size e) /\ get_sensor_size pyfloat pyint ex im_size = Ok (e_sensor_size e) /\
  get_exif_float pyfloat ex "EXIF_FocalLength" = Ok (e_focal_len e) /\
  get_exif_float pyfloat ex "EXIF_FocalLengthIn35mmFilm" = Ok (e_focal_len_35 e) /\
  e_make e = option_map lower (dget "EXIF_Make" ex) /\ e_model e = option_map lower (dget "EXIF_Model" ex) /\
  e_serial e = dget "EXIF_BodySerialNumber" ex.
Proof.
  intros pyfloat pyint pyint0 filename im_size tags exif_ns xmp e H ex xd. unfold exif_init in H. fold ex in H. fold xd in H.
  destruct (get_tag_im_size pyfloat ex) as [ts|] eqn:E1; [|discriminate]. cbn [bind] in H.
  destruct (get_sensor_size pyfloat pyint ex im_size) as [ss|] eqn:E2; [|discriminate]. cbn [bind] in H.
  destruct (get_exif_float pyfloat ex "EXIF_FocalLengthIn35mmFilm") as [f35|] eqn:E3; [|discriminate]. cbn [bind] in H.
  destruct (get_exif_float pyfloat ex "EXIF_FocalLength") as [f|] eqn:E4; [|discriminate]. cbn [bind] in H.
  destruct (match dget "EXIF_Orientation" ex with Some s => do z <- pyint s; Ok (Some z) | None => Ok None end) as [o|]; [|discriminate].
  cbn [bind] in H. destruct (get_xmp_lla pyfloat xd) as [xlla|] eqn:E5; [|discriminate]. cbn [bind] in H.
  destruct (match xlla with Some t => Ok (Some t) | None => get_lla pyfloat pyint0 ex end) as [lla|] eqn:E6; [|discriminate]. cbn [bind] in H.
  destruct (get_xmp_rpy pyfloat xd) as [rpy|] eqn:E7; [|discriminate]. cbn [bind] in H.
  destruct (get_xmp_dewarp pyfloat xd) as [dw|] eqn:E8; [|discriminate]. cbn [bind] in H. injection H as <-.
  cbn. repeat (split; [first [assumption | reflexivity | exists xlla; split; [reflexivity|exact E6]]|]). reflexivity.
Qed.

Lemma exif_tags_eq : forall tags exif_ns ex, exif_tags tags exif_ns ex -> match tags with [] => exif_ns | _ => tags end = ex.
Proof. intros tags exif_ns ex [(H & ->)|(-> & ->)]; [destruct tags; [contradiction|reflexivity]|reflexivity]. Qed.

Lemma position_xmp : forall pyfloat pyint pyint0 filename im_size tags exif_ns x e a b c lat lon alt,
  exif_init pyfloat pyint pyint0 filename im_size tags exif_ns (Some x) = Ok e ->
  only_value x "{http://www.dji.com/drone-dji/1.0/}GpsLatitude" (Some a) -> only_value x "{http://www.dji.com/drone-dji/1.0/}GpsLongtitude" (Some b) ->
  only_value x "{http://www.dji.com/drone-dji/1.0/}AbsoluteAltitude" (Some c) ->
  pyfloat a = Ok lat -> pyfloat b = Ok lon -> pyfloat c = Ok alt -> e_lla e = Some (lat, lon, alt).
Proof.
  intros pyfloat pyint pyint0 filename im_size tags exif_ns x e a b c lat lon alt H Ha Hb Hc Hx Hy Hz.
  apply exif_init_inv in H. destruct H as (_ & _ & (xlla & H1 & H2) & _).
  apply flat_only in Ha, Hb, Hc. rewrite (xmp_lla_some pyfloat _ a b c lat lon alt) in H1 by assumption. injection H1 as <-. congruence.
Qed.

Lemma no_xmp_lla : forall pyfloat xmp, no_xmp_position xmp ->
  get_xmp_lla pyfloat match xmp with Some x => xml_to_flat_dict x | None => [] end = Ok None.
Proof.
  intros pyfloat [x|] H.
  - destruct H as (k & Hin & Hn). apply (xmp_lla_none pyfloat _ k Hin). destruct (dget k (xml_to_flat_dict x)) as [v|] eqn:E; [|reflexivity].
    exfalso. apply Hn. apply flat_names. exists v. exact E.
  - reflexivity.
Qed.

Lemma position_exif : forall pyfloat pyint pyint0 filename im_size tags exif_ns xmp e ex a b c a' b' c' alt aref n d m s d' m' s' h (south west : bool),
  exif_init pyfloat pyint pyint0 filename im_size tags exif_ns xmp = Ok e ->
  no_xmp_position xmp -> exif_tags tags exif_ns ex ->
  Forall plain [a; b; c; a'; b'; c'; alt] ->
  pyfloat a = Ok d -> pyfloat b = Ok m -> pyfloat c = Ok s ->
  pyfloat a' = Ok d' -> pyfloat b' = Ok m' -> pyfloat c' = Ok s' -> pyfloat alt = Ok h -> pyint0 aref = Ok n ->
  dget "EXIF_GPSLatitude" ex = Some (three a b c) -> dget "EXIF_GPSLongitude" ex = Some (three a' b' c') ->
  dget "EXIF_GPSAltitude" ex = Some (one alt) ->
  dget "EXIF_GPSLatitudeRef" ex = Some (if south then "S" else "N") ->
  dget "EXIF_GPSLongitudeRef" ex = Some (if west then "W" else "E") ->
  dget "EXIF_GPSAltitudeRef" ex = Some aref ->
  e_lla e = Some (if south then - degrees d m s else degrees d m s, if west then - degrees d' m' s' else degrees d' m' s',
                  if (n =? 1)%Z then - h else h)%R.
Proof.
  intros pyfloat pyint pyint0 filename im_size tags exif_ns xmp e ex a b c a' b' c' alt aref n d m s d' m' s' h south west H Hno Hex.
  intros. apply exif_init_inv in H. destruct H as (_ & _ & (xlla & H1' & H2') & _). rewrite (no_xmp_lla pyfloat xmp Hno) in H1'. injection H1' as <-.
  rewrite (exif_tags_eq _ _ _ Hex) in H2'.
  rewrite (exif_position pyfloat pyint0 ex a b c a' b' c' alt d m s d' m' s' h aref n south west (n =? 1)%Z) in H2' by (assumption || reflexivity).
  congruence.
Qed.

Lemma position_none : forall pyfloat pyint pyint0 filename im_size tags exif_ns xmp e ex k,
  exif_init pyfloat pyint pyint0 filename im_size tags exif_ns xmp = Ok e ->
  no_xmp_position xmp -> exif_tags tags exif_ns ex ->
  In k ["EXIF_GPSLatitude"; "EXIF_GPSLongitude"; "EXIF_GPSLatitudeRef"; "EXIF_GPSLongitudeRef"] -> dget k ex = None ->
  e_lla e = None /\ forall X to_world, read_exif_ext_param X to_world e = Err ParamError.
Proof.
  intros pyfloat pyint pyint0 filename im_size tags exif_ns xmp e ex k H Hno Hex Hin Hk.
  assert (He : e_lla e = None).
  { apply exif_init_inv in H. destruct H as (_ & _ & (xlla & H1' & H2') & _). rewrite (no_xmp_lla pyfloat xmp Hno) in H1'. injection H1' as <-.
    rewrite (exif_tags_eq _ _ _ Hex) in H2'. unfold get_lla in H2'.
    destruct Hin as [<-|[<-|[<-|[<-|[]]]]]; rewrite Hk in H2';
      repeat match type of H2' with context [match dget ?k ?d with _ => _ end] => destruct (dget k d) end; congruence. }
  split; [exact He|]. intros X to_world. unfold read_exif_ext_param. rewrite He. reflexivity.
Qed.

(** Gimbal angles. *)
Lemma dget_flat : forall x k v, only_value x k v -> dget k (xml_to_flat_dict x) = Some v.
Proof. exact flat_only. Qed.

Lemma rpy_dji : forall pyfloat pyint pyint0 filename im_size tags exif_ns x e a b c r p y,
  exif_init pyfloat pyint pyint0 filename im_size tags exif_ns (Some x) = Ok e ->
  only_value x "{http://www.dji.com/drone-dji/1.0/}GimbalRollDegree" (Some a) -> only_value x "{http://www.dji.com/drone-dji/1.0/}GimbalPitchDegree" (Some b) ->
  only_value x "{http://www.dji.com/drone-dji/1.0/}GimbalYawDegree" (Some c) ->
  pyfloat a = Ok r -> pyfloat b = Ok p -> pyfloat c = Ok y -> e_rpy e = Some (r, p + 90, y)%R.
Proof.
  intros pyfloat pyint pyint0 filename im_size tags exif_ns x e a b c r p y H Ha Hb Hc Hx Hy Hz.
  apply exif_init_inv in H. destruct H as (_ & _ & _ & H1 & _). apply flat_only in Ha, Hb, Hc.
  unfold get_xmp_rpy, xmp_schemas in H1. cbn [first_with rpy_keys map] in H1. rewrite filter3 in H1. unfold dmem in H1.
  change (dji "GimbalRollDegree") with "{http://www.dji.com/drone-dji/1.0/}GimbalRollDegree" in H1.
  change (dji "GimbalPitchDegree") with "{http://www.dji.com/drone-dji/1.0/}GimbalPitchDegree" in H1.
  change (dji "GimbalYawDegree") with "{http://www.dji.com/drone-dji/1.0/}GimbalYawDegree" in H1.
  rewrite Ha, Hb, Hc in H1. cbn [andb float_of mapM] in H1. rewrite Hx, Hy, Hz in H1. cbn [bind triple_of rpy_gains rpy_offsets] in H1.
  injection H1 as H1. rewrite <- H1. f_equal. f_equal; [f_equal|]; ring.
Qed.

(** * Getting cameras *)
Lemma dget_map : forall V W (f : V -> W) (d : dict V) k, dget k (map (fun kv => (fst kv, f (snd kv))) d) = option_map f (dget k d).
Proof. induction d as [|[k' v] d IH]; intros k; cbn; [reflexivity|]. destruct (String.eqb k k'); [reflexivity|apply IH]. Qed.

Lemma exif_get : forall X I (to_world : R * R * R -> R * R * R -> res X) (create : int_param -> res I) exifs ints exts history name x id,
  exif_read_int exifs = Ok ints -> exif_read_ext X to_world exifs = Ok exts -> dget name exts = Some (x, id) ->
  (forall k p, dget k ints = Some p -> exists c, create p = Ok c) ->
  let st := frame_run create history (frame_init ints (factory_ext exts)) in
  exists p c i, dget id ints = Some p /\ create p = Ok c /\ snd (frame_get create name st) = Ok i /\
    nth_error (f_heap (fst (frame_get create name st))) i = Some (Camera c (Some x)).
Proof.
  intros X I to_world create exifs ints exts history name x id Hi He Hg Hc st.
  destruct (exif_cameras _ _ _ _ _ _ _ _ Hi He Hg) as (Hne & p & Hp). destruct (Hc _ _ Hp) as (c & Hcp).
  exists p, c. destruct (Factory_Proof.frame_get_right create ints (factory_ext exts) history name (Ext x (Some id)) p c) as (i & H1 & H2).
  - apply Factory_Spec.by_name. unfold factory_ext. rewrite (dget_map _ _ (fun v => Ext (fst v) (Some (snd v)))), Hg. reflexivity.
  - cbn. apply Factory_Spec.with_id; assumption.
  - exact Hcp.
  - exists i. cbn in H2. repeat split; assumption.
Qed.

Lemma osfm_get : forall X I (cv_ext : pyval -> pyval -> X) (create : dict mval -> res I) doc ints exts history name x id,
  (forall first l cams shots k shot c, doc = PList (first :: l) -> field "cameras" first = Ok (PDict cams) ->
     field "shots" first = Ok (PDict shots) -> In (k, shot) shots -> field "camera" shot = Ok (PStr c) -> In (KStr c) (map fst cams)) ->
  osfm_reader X cv_ext doc = Ok (ints, exts) -> dget name exts = Some (x, id) -> id <> "" ->
  (forall k p, dget k ints = Some p -> exists c, create p = Ok c) ->
  let st := frame_run create history (frame_init ints (factory_ext exts)) in
  exists p c i, dget id ints = Some p /\ create p = Ok c /\ snd (frame_get create name st) = Ok i /\
    nth_error (f_heap (fst (frame_get create name st))) i = Some (Camera c (Some x)).
Proof.
  intros X I cv_ext create doc ints exts history name x id Hrefs Hr Hg Hne Hc st.
  destruct (osfm_cameras _ _ _ _ _ _ _ _ Hrefs Hr Hg) as (p & Hp). destruct (Hc _ _ Hp) as (c & Hcp).
  exists p, c. destruct (Factory_Proof.frame_get_right create ints (factory_ext exts) history name (Ext x (Some id)) p c) as (i & H1 & H2).
  - apply Factory_Spec.by_name. unfold factory_ext. rewrite (dget_map _ _ (fun v => Ext (fst v) (Some (snd v)))), Hg. reflexivity.
  - cbn. apply Factory_Spec.with_id; assumption.
  - exact Hcp.
  - exists i. cbn in H2. repeat split; assumption.
Qed.

Lemma exif_shared : forall n1 n2 e1 e2 id p1 p2,
  read_exif_int_param e1 = Ok (id, p1) -> read_exif_int_param e2 = Ok (id, p2) ->
  exists ints, exif_read_int [(n1, e1); (n2, e2)] = Ok ints /\ dget id ints = Some p2.
Proof.
  intros n1 n2 e1 e2 id p1 p2 H1 H2. unfold exif_read_int. cbn [mapM snd]. rewrite H1, H2. cbn [bind]. eexists. split; [reflexivity|].
  rewrite dict_of_last. cbn. rewrite String.eqb_refl. reflexivity.
Qed.

Lemma exif_zoom : exists e1 e2 id p1 p2 ints,
  read_exif_int_param e1 = Ok (id, p1) /\ read_exif_int_param e2 = Ok (id, p2) /\ ip_focal p1 <> ip_focal p2 /\
  exif_read_int [("im1.jpg"%string, e1); ("im2.jpg"%string, e2)] = Ok ints /\ dget id ints = Some p2.
Proof.
  set (e f := Exif "im.jpg" (4000, 3000)%Z (Some "sony") (Some "a7") None None (Some (36, 24)%R) (TOne f) TNone None None None None).
  assert (Hr : forall f, (f <> 0)%R -> read_exif_int_param (e f) = Ok ("sony a7", IntParam Pinhole 4000 3000 [f] (Some [36; 24]%R) None None [])).
  { intros f Hf. apply exif_precedence; [exact I|exact I|]. split; [|reflexivity].
    apply (I_focal (e f)); [intros d tw th (H & _); discriminate|split; [reflexivity|exact Hf]|reflexivity]. }
  destruct (exif_shared "im1.jpg" "im2.jpg" (e 24%R) (e 70%R) _ _ _ (Hr 24%R ltac:(lra)) (Hr 70%R ltac:(lra))) as (ints & H1 & H2).
  exists (e 24%R), (e 70%R), "sony a7". do 2 eexists. exists ints.
  split; [apply Hr; lra|]. split; [apply Hr; lra|]. split; [|split; [exact H1|exact H2]].
  cbn. intros H. injection H as H. lra.
Qed.
