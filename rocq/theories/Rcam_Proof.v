(** Proofs about RPC and GCP cameras. *)
From Coq Require Import String List Reals ZArith Bool Lra Lia.
From Verif Require Import Py Py_Proof Flt Mat Grid_Model Remap_Model Remap_Spec Remap_Proof Frame_Model Frame_Spec Bound_Model Bound_Spec Bound_Proof Rpc_Model Rpc_Spec Rpc_Proof Cam_Model Cam_Spec Cam_Proof Rcam_Model Rcam_Spec.
Import ListNotations.
Open Scope string_scope.
Open Scope list_scope.
Open Scope Z_scope.

(** * Gathering and scattering *)
Lemma gather_map : forall X A (ok : X -> bool) (f : X -> A) l, gather (map ok l) (map f l) = map f (gather (map ok l) l).
Proof. intros X A ok f l. induction l as [|x l IH]; [reflexivity|]. cbn. destruct (ok x); cbn; rewrite IH; reflexivity. Qed.

Lemma scatter_map : forall X A (ok : X -> bool) (o g : X -> A) l,
  scatter (map ok l) (map o l) (map g (gather (map ok l) l)) = Ok (map (fun x => if ok x then g x else o x) l).
Proof. intros X A ok o g l. induction l as [|x l IH]; [reflexivity|]. cbn. destruct (ok x); cbn; rewrite IH; reflexivity. Qed.

Lemma Forall2_map_r : forall A B (P : A -> B -> Prop) (f : A -> B) l, (forall x, In x l -> P x (f x)) -> Forall2 P l (map f l).
Proof. intros A B P f l H. induction l as [|x l IH]; constructor; [apply H; left; reflexivity|]. apply IH. intros y Hy. apply H. right. exact Hy. Qed.

Lemma F2_same : forall A B (P : A -> B -> Prop) (f : A -> B) l m, (forall x y, P x y -> y = f x) -> Forall2 P l m -> m = map f l.
Proof. intros A B P f l m H F. induction F as [|x y l m Hp F IH]; [reflexivity|]. cbn. rewrite (H _ _ Hp), IH. reflexivity. Qed.

(** * RPC dictionaries *)
Lemma dmem_iff : forall V k (d : dict V), dmem k d = true <-> In k (map fst d).
Proof.
  intros V k d. unfold dmem. destruct (dget k d) as [v|] eqn:E.
  - split; [intros _; apply (dget_Some_key d k v E)|reflexivity].
  - split; [discriminate|]. intros H. apply dget_None in E. contradiction.
Qed.

Lemma required_in : forall k, In k rpc_required <-> In k (scalar_names ++ coeff_names).
Proof. intros k. unfold rpc_required, scalar_names, coeff_names. cbn [app In]. tauto. Qed.
Lemma known_in : forall k, In k (rpc_required ++ rpc_optional) <-> In k (scalar_names ++ coeff_names ++ error_names).
Proof. intros k. unfold rpc_required, rpc_optional, scalar_names, coeff_names, error_names. cbn [app In]. tauto. Qed.

Lemma known_iff : forall d : dict rval, forallb (fun kv => one_of (fst kv) (rpc_required ++ rpc_optional)) d = true <->
  forall k, In k (map fst d) -> In k (scalar_names ++ coeff_names ++ error_names).
Proof.
  intros d. rewrite forallb_forall. split.
  - intros H k Hk. apply in_map_iff in Hk. destruct Hk as ([k' v] & <- & Hin). apply known_in. apply one_of_In. apply (H _ Hin).
  - intros H [k v] Hin. apply one_of_In, known_in, H. cbn. apply in_map_iff. exists (k, v). auto.
Qed.

Lemma has_all_iff : forall d : dict rval, forallb (fun k => dmem k d) rpc_required = true <->
  forall k, In k (scalar_names ++ coeff_names) -> In k (map fst d).
Proof.
  intros d. rewrite forallb_forall. split.
  - intros H k Hk. apply dmem_iff, H, required_in, Hk.
  - intros H k Hk. apply dmem_iff, H, required_in, Hk.
Qed.

Lemma dict_incomplete : forall d, ~ complete d -> rpc_of_dict d = Err TypeError.
Proof.
  intros d H. unfold rpc_of_dict. destruct (forallb (fun k => dmem k d) rpc_required) eqn:E1; [|reflexivity].
  cbn [negb]. destruct (forallb _ d) eqn:E2; [|reflexivity]. exfalso. apply H. split; [apply has_all_iff, E1|apply known_iff, E2].
Qed.

Lemma dict_rpc : forall d r, complete d -> holds_rpc d r -> rpc_of_dict d = Ok r.
Proof.
  intros d r [H1 H2] H. unfold rpc_of_dict. rewrite (proj2 (has_all_iff d) H1), (proj2 (known_iff d) H2). cbn [negb].
  unfold holds_rpc in H. destruct H as (E1 & E2 & E3 & E4 & E5 & E6 & E7 & E8 & E9 & E10 & E11 & E12 & E13 & E14).
  unfold num_at, seq_at. rewrite E1, E2, E3, E4, E5, E6, E7, E8, E9, E10, E11, E12, E13, E14. destruct r. reflexivity.
Qed.

Lemma finite_pixel : forall r p, valid_rpc r -> rpc_pixel r p (rpc_world_to_pixel None r (fl_vec p)).
Proof.
  intros r p V. unfold rpc_pixel, quotient, fl_vec. rewrite w2p_eq. cbn [warped fst snd]. change (Num (vx p), Num (vy p), Num (vz p)) with (fl_vec p).
  rewrite norm_pt_num by assumption.
  destruct V as (L1 & L2 & L3 & L4 & _). unfold axis_value. cbn [polyf fdiv]. rewrite !poly_rpc00b by assumption.
  split; destruct (Req_EM_T _ 0) as [E|E]; cbn [fdiv fmul fadd]; [left|right|left|right]; auto.
Qed.

Lemma quotient_fun : forall n d s o a b, quotient n d s o a -> quotient n d s o b -> a = b.
Proof. intros n d s o a b [[E ->]|[E ->]] [[E' ->]|[E' ->]]; try reflexivity; contradiction. Qed.

Lemma rpc_pixel_fun : forall r p a b, rpc_pixel r p a -> rpc_pixel r p b -> a = b.
Proof. intros r p [a1 a2] [b1 b2] [H1 H2] [H3 H4]. cbn [fst snd] in *. rewrite (quotient_fun _ _ _ _ _ _ H1 H3), (quotient_fun _ _ _ _ _ _ H2 H4). reflexivity. Qed.

Section Rcam.
Variable C : Type.
Variable parse_crs : string -> res C.
Variable rpc_crs : C.
Variable O : Type.
Variable no_options : O.
Variable warp : C -> C -> list vec -> list vec.
Variable rpc_xy : rpc -> O -> list ((R * R) * R) -> list (R * R).
Notation rpc_init := (rpc_init C parse_crs rpc_crs O no_options warp).
Notation camera_crs := (camera_crs C rpc_crs O).
Notation w2p := (rpc_w2p_call C rpc_crs O warp).
Notation p2w := (rpc_p2w_call C rpc_crs O warp rpc_xy).

Variable warp1 : C -> C -> vec -> vec.
Variable xy1 : rpc -> O -> R * R -> R -> R * R.
Hypothesis warp_pointwise : forall a b l, warp a b l = map (warp1 a b) l.
Hypothesis warp_same : forall a v, warp1 a a v = v.
Hypothesis xy_pointwise : forall r o l, rpc_xy r o l = map (fun p => xy1 r o (fst p) (snd p)) l.

Lemma check_heights : forall r c, (keeps_heights (warp1 rpc_crs c) r /\ validate_crs_arg C rpc_crs warp r c = Ok c) \/
  (~ keeps_heights (warp1 rpc_crs c) r /\ validate_crs_arg C rpc_crs warp r c = Err OrthorityError).
Proof.
  clear warp_same xy_pointwise. intros r c. unfold validate_crs_arg, keeps_heights. cbn [Rpc_Model.validate_crs]. unfold Rpc_Model.validate_crs. cbn [iterM].
  rewrite !warp_pointwise. cbn [map].
  destruct (Req_EM_T (vz (warp1 rpc_crs c (V3 (long_off r) (lat_off r) 0))) 0) as [E0|E0]; cbn [bind].
  - destruct (Req_EM_T (vz (warp1 rpc_crs c (V3 (long_off r) (lat_off r) 1))) 1) as [E1|E1]; cbn [bind].
    + left. split; [intros h [->| ->]; assumption|reflexivity].
    + right. split; [intros H; apply E1, H; right; reflexivity|reflexivity].
  - right. split; [intros H; apply E0, H; left; reflexivity|reflexivity].
Qed.

Theorem init_ok : forall w h a r o crs crs', means_rpc a r -> asks_crs parse_crs crs crs' ->
  (forall c, crs' = Some c -> keeps_heights (warp1 rpc_crs c) r) ->
  exists c, rpc_init w h a o crs = Ok c /\ rc_w _ _ c = w /\ rc_h _ _ c = h /\ rc_rpc _ _ c = r /\
  rc_options _ _ c = match o with Some o => o | None => no_options end /\
  camera_crs c = match crs' with Some c => c | None => rpc_crs end.
Proof.
  intros w h a r o crs crs' Ha Hc Hk. unfold Rcam_Model.rpc_init.
  assert (Er : match a with RpcObject r => Ok r | RpcDict d => rpc_of_dict d end = Ok r).
  { destruct a as [r'|d]; cbn in Ha; [subst; reflexivity|]. destruct Ha. apply dict_rpc; assumption. }
  rewrite Er. cbn [bind].
  assert (Ev : forall c, crs' = Some c -> validate_crs_arg C rpc_crs warp r c = Ok c).
  { intros c Ec. destruct (check_heights r c) as [[_ E]|[E _]]; [exact E|]. destruct (E (Hk c Ec)). }
  assert (Ecrs : match crs with
            | CrsNone _ => Ok None
            | CrsStr _ s => if String.eqb s "" then Ok None else do c <- parse_crs s; do c <- validate_crs_arg C rpc_crs warp r c; Ok (Some c)
            | CrsObject _ c => do c <- validate_crs_arg C rpc_crs warp r c; Ok (Some c)
            end = Ok crs').
  { destruct crs as [|s|c]; cbn in Hc.
    - subst. reflexivity.
    - destruct Hc as [[-> ->]|(Ns & c & Ep & ->)]; [reflexivity|]. apply String.eqb_neq in Ns. rewrite Ns, Ep. cbn [bind]. rewrite (Ev c eq_refl). reflexivity.
    - subst. rewrite (Ev c eq_refl). reflexivity. }
  rewrite Ecrs. cbn [bind]. eexists. split; [reflexivity|]. cbn. destruct o, crs'; auto.
Qed.

Theorem init_bad_crs : forall w h a r o crs c, means_rpc a r -> asks_crs parse_crs crs (Some c) ->
  ~ keeps_heights (warp1 rpc_crs c) r -> rpc_init w h a o crs = Err OrthorityError.
Proof.
  intros w h a r o crs c Ha Hc Hk. unfold Rcam_Model.rpc_init.
  assert (Er : match a with RpcObject r => Ok r | RpcDict d => rpc_of_dict d end = Ok r).
  { destruct a as [r'|d]; cbn in Ha; [subst; reflexivity|]. destruct Ha. apply dict_rpc; assumption. }
  rewrite Er. cbn [bind].
  assert (Ev : validate_crs_arg C rpc_crs warp r c = Err OrthorityError). { destruct (check_heights r c) as [[E _]|[_ E]]; [contradiction|exact E]. }
  destruct crs as [|s|c']; cbn in Hc.
  - discriminate.
  - destruct Hc as [[_ E]|(Ns & c' & Ep & E)]; [discriminate|]. injection E as <-. apply String.eqb_neq in Ns. rewrite Ns, Ep. cbn [bind]. rewrite Ev. reflexivity.
  - injection Hc as <-. rewrite Ev. reflexivity.
Qed.

Theorem init_bad_dict : forall w h d o crs, ~ complete d -> rpc_init w h (RpcDict d) o crs = Err TypeError.
Proof. intros w h d o crs H. unfold Rcam_Model.rpc_init. rewrite (dict_incomplete d H). reflexivity. Qed.

(** * World to pixel *)
Lemma nan3_cases : forall p : pt3, (nan3 p = false /\ exists x y z, p = (Num x, Num y, Num z)) \/
  (nan3 p = true /\ forall Q1 Q2, (match p with (Num x, Num y, Num z) => Q1 x y z | _ => Q2 end : Prop) = Q2).
Proof.
  intros [[[|x] [|y]] [|z]]; cbn; try (right; split; [reflexivity|intros; reflexivity]). left. split; [reflexivity|]. exists x, y, z. reflexivity.
Qed.

Theorem w2p_ok : forall (c : rcam C O) xyz, valid_rpc (rc_rpc _ _ c) -> world_array xyz ->
  exists out, w2p c xyz = Ok out /\ Forall2 (pixel_of (warp1 (camera_crs c) rpc_crs) (rc_rpc _ _ c)) (nd_data xyz) out.
Proof.
  clear xy_pointwise. intros c xyz V A. unfold rpc_w2p_call.
  destruct (world_checked _ xyz) as [[-> _]|[_ N]]; [|contradiction]. cbn [bind]. unfold Rcam_Model.camera_crs.
  destruct (rc_crs _ _ c) as [crs|].
  - rewrite warp_pointwise, !map_map, scatter_map. cbn [bind]. rewrite map_map. eexists. split; [reflexivity|].
    apply Forall2_map_r. intros p _. unfold pixel_of.
    destruct p as [[[|x] [|y]] [|z]]; cbn [nan3 fisnan orb negb]; try (apply rpc_nan; auto).
    change (fl_vec (warp1 crs rpc_crs (vec_of (Num x, Num y, Num z)))) with (fl_vec (warp1 crs rpc_crs (V3 x y z))). apply finite_pixel, V.
  - cbn [bind]. eexists. split; [reflexivity|]. apply Forall2_map_r. intros p _. unfold pixel_of.
    destruct p as [[[|x] [|y]] [|z]]; try (apply rpc_nan; auto). rewrite warp_same. apply (finite_pixel _ (V3 x y z) V).
Qed.

Theorem w2p_refused : forall (c : rcam C O) xyz, ~ world_array xyz -> w2p c xyz = Err ValueError.
Proof. clear. intros. unfold rpc_w2p_call. destruct (world_checked _ xyz) as [[_ A]|[-> _]]; [contradiction|reflexivity]. Qed.

(** * Pixel to world *)
Definition okp (ph : pt2 * fl) : bool := negb (nan2 (fst ph) || fisnan (snd ph)).

Lemma map_fst_pairs : forall A B (l : list A) (h : B), map fst (map (fun p => (p, h)) l) = l.
Proof. intros. rewrite map_map. apply map_id. Qed.

Lemma zeros : forall X (ok : X -> bool) (f : X -> fl) l,
  scatter (map negb (map ok l)) (map f l) (map (fun _ => Nan) (gather (map negb (map ok l)) (map f l))) = Ok (map (fun x => if ok x then f x else Nan) l).
Proof.
  intros X ok f l. rewrite map_map. rewrite (gather_map X fl (fun x => negb (ok x)) f l), map_map. rewrite (scatter_map X fl (fun x => negb (ok x)) f (fun _ => Nan) l).
  f_equal. apply map_ext. intros x. destruct (ok x); reflexivity.
Qed.

Lemma map_fst_combine : forall A B (l : list A) (m : list B), List.length l = List.length m -> map fst (combine l m) = l.
Proof. induction l as [|x l IH]; intros [|y m] H; try discriminate; [reflexivity|]. cbn. rewrite IH by (injection H; auto). reflexivity. Qed.
Lemma map_snd_combine : forall A B (l : list A) (m : list B), List.length l = List.length m -> map snd (combine l m) = m.
Proof. induction l as [|x l IH]; intros [|y m] H; try discriminate; [reflexivity|]. cbn. rewrite IH by (injection H; auto). reflexivity. Qed.

Lemma combine_repeat : forall A B (l : list A) (h : B), combine l (repeat h (List.length l)) = map (fun p => (p, h)) l.
Proof. induction l as [|x l IH]; intros h; [reflexivity|]. cbn. rewrite IH. reflexivity. Qed.
Lemma combine_repeat_l : forall A B (l : list B) (a : A), combine (repeat a (List.length l)) l = map (fun h => (a, h)) l.
Proof. induction l as [|x l IH]; intros a; [reflexivity|]. cbn. rewrite IH. reflexivity. Qed.

Lemma broadcast_same : forall A B D (f : A -> B -> D) l m, List.length l = List.length m -> broadcast f l m = Ok (map (fun p => f (fst p) (snd p)) (combine l m)).
Proof.
  intros A B D f l m H. destruct l as [|x [|x2 l]], m as [|y [|y2 m]]; try discriminate; try reflexivity.
  unfold broadcast. rewrite H, Nat.eqb_refl. reflexivity.
Qed.

Lemma prepared : forall ji z l js, pixel_array ji -> l = paired (nd_data ji) z -> heights_for z (List.length (nd_data ji)) -> ~ integers z -> js = map fst l ->
  p2w_prepare ji z = Ok (map okp l, js, map (fun ph => if okp ph then snd ph else Nan) l).
Proof.
  clear. intros ji z l js A El Hh Ni ->. unfold p2w_prepare.
  destruct (pixel_checked _ ji) as [[-> _]|[_ N]]; [|contradiction]. cbn [bind]. set (js := nd_data ji) in *. clearbody js.
  assert (Vz : validate_z (zarg_of z) (List.length js) = true).
  { destruct z as [z|i zs|]; cbn in *; [reflexivity| |contradiction]. apply orb_true_iff. destruct Hh as [->| ->]; [right; apply Nat.eqb_refl|left; apply orb_true_iff; right; reflexivity]. }
  rewrite Vz. cbn [negb].
  (* the heights and pixels used *)
  assert (H : exists zs js', List.length js' = List.length zs /\ l = combine js' zs /\
    match z with VScalar z => Ok (false, repeat z (List.length js)) | VVec integer zs => Ok (integer, zs) | VNd => Err ValueError end = Ok (false, zs) /\
    match js with [p] => repeat p (List.length zs) | _ => js end = js').
  { destruct z as [h|i zs|]; cbn in *; [| |contradiction].
    - exists (repeat h (List.length js)), js. rewrite repeat_length. split; [reflexivity|]. split; [rewrite combine_repeat; exact El|]. split; [reflexivity|].
      destruct js as [|p [|p2 js]]; reflexivity.
    - destruct i; [destruct Ni; exact I|]. exists zs. destruct js as [|p [|p2 js]].
      + exists []. destruct Hh as [E|E]; [|discriminate]. split; [symmetry; exact E|]. split; [exact El|]. split; reflexivity.
      + exists (repeat p (List.length zs)). rewrite repeat_length. split; [reflexivity|]. split; [rewrite combine_repeat_l; exact El|]. split; reflexivity.
      + exists (p :: p2 :: js). destruct Hh as [E|E]; [|discriminate]. split; [symmetry; exact E|]. split; [exact El|]. split; reflexivity. }
  destruct H as (zs & js' & Hl & -> & -> & Ej). cbn [bind]. rewrite Ej. rewrite broadcast_same by exact Hl. cbn [bind].
  rewrite map_length, combine_length, Hl, Nat.min_id, Nat.eqb_refl. cbn [negb].
  change (fun p : pt2 * fl => negb (nan2 (fst p) || fisnan (snd p))) with okp.
  rewrite (map_fst_combine _ _ js' zs Hl). pose proof (zeros _ okp snd (combine js' zs)) as Zs. rewrite (map_snd_combine _ _ js' zs Hl) in Zs. rewrite Zs. reflexivity.
Qed.

Lemma px_args_is : forall l, px_args (map okp l) (map fst l) (map (fun ph => if okp ph then snd ph else Nan) l) =
  map (fun ph => ((val (fst (fst ph)), val (snd (fst ph))), val (snd ph))) (gather (map okp l) l).
Proof.
  clear. intros l. unfold px_args. rewrite !gather_map, !map_map. induction l as [|[p h] l IH]; [reflexivity|]. cbn [map gather].
  destruct (okp (p, h)) eqn:E; [|exact IH]. cbn [map combine]. rewrite IH, E. reflexivity.
Qed.

Lemma stack_is : forall X (f : X -> pt2) (g : X -> fl) l, stack (map f l) (map g l) = map (fun x => (fst (f x), snd (f x), g x)) l.
Proof. intros X f g l. unfold stack. induction l as [|x l IH]; [reflexivity|]. cbn in *. rewrite IH. reflexivity. Qed.

Theorem p2w_ok : forall (c : rcam C O) ji z, pixel_array ji -> heights_for z (List.length (nd_data ji)) -> ~ integers z ->
  exists out, p2w c ji z = Ok out /\
  Forall2 (position_of (xy1 (rc_rpc _ _ c) (rc_options _ _ c)) (warp1 rpc_crs (camera_crs c))) (paired (nd_data ji) z) out.
Proof.
  intros c ji z A Hh Ni. unfold rpc_p2w_call. set (l := paired (nd_data ji) z). rewrite (prepared ji z l _ A eq_refl Hh Ni eq_refl). cbn [bind].
  rewrite px_args_is, xy_pointwise, !map_map. cbn [fst snd].
  rewrite (scatter_map (pt2 * fl) pt2 okp (fun _ => (Nan, Nan)) (fun x => num2 (xy1 (rc_rpc C O c) (rc_options C O c) (val (fst (fst x)), val (snd (fst x))) (val (snd x)))) l).
  cbn [bind]. rewrite stack_is. unfold Rcam_Model.camera_crs. destruct (rc_crs _ _ c) as [crs|].
  - rewrite gather_map, warp_pointwise, !map_map.
    rewrite (scatter_map (pt2 * fl) pt3 okp). eexists. split; [reflexivity|]. apply Forall2_map_r. intros [[[|j] [|i]] [|h]] _; cbn; try reflexivity.
  - eexists. split; [reflexivity|]. apply Forall2_map_r. intros [[[|j] [|i]] [|h]] _; cbn; try reflexivity. rewrite warp_same. reflexivity.
Qed.

Theorem p2w_refused : forall (c : rcam C O) ji z,
  (~ pixel_array ji -> p2w c ji z = Err ValueError) /\
  (match z with VScalar _ => False | VVec _ zs => ~ heights_for z (List.length (nd_data ji)) /\ List.length zs <> 1%nat | VNd => True end -> p2w c ji z = Err ValueError).
Proof.
  clear. intros. unfold rpc_p2w_call, p2w_prepare. destruct (pixel_checked _ ji) as [[-> A]|[-> N]]; cbn [bind].
  - split; [contradiction|]. destruct z as [h|i zs|]; [contradiction| |reflexivity]. cbn [heights_for zarg_of validate_z]. intros [H1 H2].
    replace (Nat.eqb (List.length zs) 1 || Nat.eqb (List.length (nd_data ji)) 1 || Nat.eqb (List.length zs) (List.length (nd_data ji))) with false; [reflexivity|].
    symmetry. apply orb_false_iff. split; [apply orb_false_iff; split|]; apply Nat.eqb_neq; tauto.
  - split; reflexivity.
Qed.

(** One height in an array, for another number of pixels than one. *)
Theorem one_height : forall (c : rcam C O) ji i h, pixel_array ji -> List.length (nd_data ji) <> 1%nat -> p2w c ji (VVec i [h]) = Err IndexError.
Proof.
  clear. intros c ji i h A N. unfold rpc_p2w_call, p2w_prepare. destruct (pixel_checked _ ji) as [[-> _]|[_ N']]; [|contradiction]. cbn [bind zarg_of validate_z Nat.eqb orb negb List.length].
  destruct (nd_data ji) as [|p [|p2 js]]; [|destruct N; reflexivity|]; cbn [broadcast bind map List.length Nat.eqb negb]; reflexivity.
Qed.

Theorem integer_heights : forall (c : rcam C O) ji zs, pixel_array ji -> heights_for (VVec true zs) (List.length (nd_data ji)) -> p2w c ji (VVec true zs) = Err ValueError.
Proof.
  clear. intros c ji zs A Hh. unfold rpc_p2w_call, p2w_prepare. destruct (pixel_checked _ ji) as [[-> _]|[_ N']]; [|contradiction]. cbn [bind zarg_of validate_z]. cbn in Hh.
  replace (Nat.eqb (List.length zs) 1 || Nat.eqb (List.length (nd_data ji)) 1 || Nat.eqb (List.length zs) (List.length (nd_data ji))) with true.
  2:{ symmetry. destruct Hh as [->| ->]; rewrite ?Nat.eqb_refl, !orb_true_r; reflexivity. }
  cbn [negb]. set (js := match nd_data ji with [p] => _ | _ => _ end).
  assert (E : List.length js = List.length zs).
  { unfold js. destruct (nd_data ji) as [|p [|p2 l]]; cbn in *; [destruct Hh as [->|E]; [reflexivity|discriminate]|apply repeat_length|destruct Hh as [->|E]; [reflexivity|discriminate]]. }
  rewrite broadcast_same by exact E. cbn [bind]. rewrite map_length, combine_length, E, Nat.min_id, Nat.eqb_refl. reflexivity.
Qed.

(** * Round trip *)
Theorem round_trip : forall (c : rcam C O) ji z, valid_rpc (rc_rpc _ _ c) -> pixel_array ji -> heights_for z (List.length (nd_data ji)) -> ~ integers z ->
  (forall v, warp1 (camera_crs c) rpc_crs (warp1 rpc_crs (camera_crs c) v) = v) ->
  (forall j i h, In ((Num j, Num i), Num h) (paired (nd_data ji) z) ->
     let xy := xy1 (rc_rpc _ _ c) (rc_options _ _ c) (j, i) h in rpc_pixel (rc_rpc _ _ c) (V3 (fst xy) (snd xy) h) (Num j, Num i)) ->
  exists xyz, p2w c ji z = Ok xyz /\
  exists out, w2p c (Nd "float64" [3; Z.of_nat (List.length xyz)] xyz) = Ok out /\ Forall2 same_pixel (paired (nd_data ji) z) out.
Proof.
  intros c ji z V A Hh Ni Wi Inv. destruct (p2w_ok c ji z A Hh Ni) as (xyz & Ep & F). exists xyz. split; [exact Ep|].
  assert (WA : world_array (Nd "float64" [3; Z.of_nat (List.length xyz)] xyz)) by (split; [eexists|]; reflexivity).
  destruct (w2p_ok c _ V WA) as (out & Eo & G). exists out. split; [exact Eo|]. cbn [nd_data] in G. clear Ep Eo WA. revert out G Inv.
  induction F as [|ph q l xyz Hq F IH]; intros out G Inv; inversion G as [|q' o l' out' Ho G' Eq]; subst; constructor.
  - destruct ph as [[[|j] [|i]] [|h]]; cbn in Hq |- *; subst; cbn in Ho; try exact Ho.
    specialize (Inv j i h (or_introl eq_refl)). cbv zeta in Inv.
    match type of Ho with rpc_pixel _ (warp1 _ _ (V3 ?a ?b ?d)) _ => assert (Ev : forall v, V3 (vx v) (vy v) (vz v) = v) by (intros []; reflexivity) end.
    rewrite Ev, Wi in Ho. apply (rpc_pixel_fun _ _ _ _ Ho Inv).
  - apply IH; [exact G'|]. intros j i h Hin. apply Inv. right. exact Hin.
Qed.

(** * Boundary *)
Section Boundary.
Variable cv_surf : string -> arr fl -> fl * fl -> option fl.
Variable cast_nan : string -> fl.
Notation boundary := (rpc_boundary_call C rpc_crs O warp rpc_xy cv_surf cast_nan).

(** The ray of a pixel of the image. *)
Definition rpc_ray (c : rcam C O) (p : R * R) (h : R) : vec :=
  let xy := xy1 (rc_rpc _ _ c) (rc_options _ _ c) p h in warp1 rpc_crs (camera_crs c) (V3 (fst xy) (snd xy) h).

Lemma ray_is : forall c p, exists rr, ray_of (p2w c) p = Some rr /\ forall h, rr h = rpc_ray c p h.
Proof.
  intros c [j i]. eexists. split; [reflexivity|]. intros h.
  destruct (p2w_ok c (Nd "float64" [2; 1] [num2 (j, i)]) (VScalar (Num h))) as (out & -> & F); [eexists; reflexivity|exact I|intros []|].
  cbn in F. inversion F as [|? q ? t Hq Ft]; subst. inversion Ft; subst. cbn in Hq. subst. unfold rpc_ray. cbn. destruct (warp1 _ _ _); reflexivity.
Qed.

Theorem boundary_scalar : forall c h n t i, boundary c (HScalar h) n t i =
  do ji <- pixel_boundary (rc_w _ _ c) (rc_h _ _ c) n; Ok (map (fun p => Some (rpc_ray c p h)) ji).
Proof.
  intros c h n t i. unfold rpc_boundary_call, world_boundary. destruct (pixel_boundary _ _ _) as [ji|]; [|reflexivity]. cbn [bind]. f_equal. apply map_ext.
  intros p. destruct (ray_is c p) as (rr & -> & E). rewrite E. reflexivity.
Qed.

Theorem boundary_scalar_is_projection : forall c h n t i ji, pixel_boundary (rc_w _ _ c) (rc_h _ _ c) n = Ok ji ->
  exists pts, boundary c (HScalar h) n t i = Ok (map Some pts) /\
  p2w c (Nd "float64" [2; Z.of_nat (List.length ji)] (map num2 ji)) (VScalar (Num h)) = Ok (map fl_vec pts).
Proof.
  intros c h n t i ji E. exists (map (fun p => rpc_ray c p h) ji). rewrite boundary_scalar, E. cbn [bind]. rewrite !map_map. split; [reflexivity|].
  destruct (p2w_ok c (Nd "float64" [2; Z.of_nat (List.length ji)] (map num2 ji)) (VScalar (Num h))) as (out & -> & F); [eexists; reflexivity|exact I|intros []|].
  cbn in F. f_equal. rewrite map_map in F. clear E. revert out F. induction ji as [|[j i'] ji IH]; intros out F; inversion F as [|a b l m Hq Ft]; subst; [reflexivity|].
  cbn. rewrite (IH _ Ft). cbn in Hq. subst. reflexivity.
Qed.

Lemma surf_pixel_any : forall rr z dtype t i low top q, (low <= top)%R -> aff_det t <> 0%R ->
  surf_pixel cv_surf cast_nan rr z dtype t (IEnum i) low top = Ok q -> meets cv_surf i dtype z t low top rr q.
Proof.
  clear. intros rr z dtype t i low top q LT D H. unfold surf_pixel in H. destruct (Req_EM_T (ta t) 0) as [|Na]; [discriminate|]. destruct (Req_EM_T (te t) 0) as [|Ne]; [discriminate|].
  cbn [orb] in H. destruct (cv_sizes _ _ _ _) eqn:Cs; [|discriminate]. cbn [negb] in H. injection H as <-. apply cv_sizes_iff in Cs. unfold usable_sizes, cv_size in Cs.
  destruct (first_intersection rr (surf_at cv_surf cast_nan i dtype z t) t (ah z) (aw z) low top) as (k & Hk & E & Hf). cbv zeta in *.
  set (m := Z.to_nat (ray_steps (rr top) (rr low) t (max_ray_steps (ah z) (aw z)))) in *.
  assert (M : Z.of_nat m = ray_steps (rr top) (rr low) t (max_ray_steps (ah z) (aw z))) by (unfold m; apply Z2Nat.id; lia). rewrite <- M in Cs. rewrite E.
  change (sample_z top low m) with (sample_height top low m) in *. exists m. split; [lia|]. split.
  { unfold ray_steps in M. unfold max_ray_steps in M. fold (span t (rr top) (rr low)) in M. destruct (Rceil_bound (span t (rr top) (rr low))) as [Rc _].
    assert (Em : (Z.of_nat m - 1 = Rceil (span t (rr top) (rr low)))%Z) by lia.
    rewrite minus_INR by lia. rewrite INR_IZR_INZ. cbn [INR]. rewrite <- Em in Rc. rewrite minus_IZR in Rc. exact Rc. }
  split; [eexists; split; [apply sample_between; [exact LT|exact Hk]|reflexivity]|].
  intros Hd. exists k. split; [exact Hk|]. split; [reflexivity|].
  destruct Hf as [[B N]|[Ek N]]; [left|right].
  + split; [apply (under_iff cv_surf cast_nan i dtype); assumption|]. intros j Hj U. apply (N j Hj). apply (under_iff cv_surf cast_nan i dtype); assumption.
  + split; [exact Ek|]. intros j Hj U. apply (N j Hj). apply (under_iff cv_surf cast_nan i dtype); assumption.
Qed.

Lemma meets_ext : forall i dtype z t low top rr rr' q, (forall h, rr h = rr' h) -> meets cv_surf i dtype z t low top rr q -> meets cv_surf i dtype z t low top rr' q.
Proof.
  clear. intros i dtype z t low top rr rr' q E (m & B & Sp & (h & Hh & Q) & F). exists m. split; [exact B|]. split; [rewrite <- !E; exact Sp|].
  split; [exists h; rewrite <- E; auto|]. intros Hd. destruct (F Hd) as (k & Hk & Ek & Hf). exists k. split; [exact Hk|]. split; [rewrite <- E; exact Ek|].
  destruct Hf as [[U N]|[Kk N]]; [left; split; [exact U|]|right; split; [exact Kk|]]; intros j Hj; rewrite <- E; apply N, Hj.
Qed.

Theorem boundary_surface : forall c dtype z n t i pts, boundary c (HArray 2 dtype z) n t (IEnum i) = Ok pts ->
  exists ji low high t', t = Some t' /\ pixel_boundary (rc_w _ _ c) (rc_h _ _ c) n = Ok ji /\ lowest z low /\ highest z high /\
  Forall2 (fun p o => exists q, o = Some q /\ meets cv_surf i dtype z t' low high (rpc_ray c p) q) ji pts.
Proof.
  intros c dtype z n t i pts E. unfold rpc_boundary_call, world_boundary in E. destruct (pixel_boundary _ _ _) as [ji|]; [|discriminate]. cbn [bind] in E.
  destruct t as [t|]; [|discriminate]. destruct (negb _) eqn:Ed; [discriminate|]. destruct (_ || _) eqn:Es; [discriminate|]. destruct (Req_EM_T (aff_det t) 0) as [|D]; [discriminate|].
  destruct (range_spec z) as [[Er _]|(low & high & Er & L & Hh)]; rewrite Er in E; [discriminate|]. cbn [bind] in E.
  destruct (world_surf _ _ _ _ _ _ _ _ _) as [xs|] eqn:W; [|discriminate]. cbn [bind] in E. injection E as <-.
  exists ji, low, high, t. split; [reflexivity|]. split; [reflexivity|]. split; [exact L|]. split; [exact Hh|].
  assert (LT : (low <= high)%R) by (destruct L as [V _]; destruct Hh as [_ M]; apply M, V).
  unfold world_surf in W. rewrite Ed, Es in W. destruct (Req_EM_T (aff_det t) 0) as [|_]; [contradiction|].
  apply mapM_Ok in W. cbn [fst snd] in W. revert W. apply Forall2_lift. intros p q Hp.
  destruct (ray_is c p) as (rr & Er' & Err). rewrite Er' in Hp. exists q. split; [reflexivity|].
  apply (meets_ext i dtype z t low high rr); [exact Err|]. apply (surf_pixel_any rr z dtype t i low high q LT D Hp).
Qed.

Lemma ray_call : forall c p h, p2w c (Nd "float64" [2; 1] [num2 p]) (VScalar (Num h)) = Ok [fl_vec (rpc_ray c p h)].
Proof.
  intros c [j i] h. destruct (p2w_ok c (Nd "float64" [2; 1] [num2 (j, i)]) (VScalar (Num h))) as (out & -> & F); [eexists; reflexivity|exact I|intros []|].
  cbn in F. inversion F as [|? q ? t Hq Ft]; subst. inversion Ft; subst. cbn in Hq. subst. reflexivity.
Qed.

Theorem boundary_surface_rays : forall c dtype z n t i pts, boundary c (HArray 2 dtype z) n t (IEnum i) = Ok pts ->
  exists ji low high t', t = Some t' /\ pixel_boundary (rc_w _ _ c) (rc_h _ _ c) n = Ok ji /\ lowest z low /\ highest z high /\
  Forall2 (fun p o => exists rr q, o = Some q /\ (forall h, p2w c (Nd "float64" [2; 1] [num2 p]) (VScalar (Num h)) = Ok [fl_vec (rr h)]) /\
    meets cv_surf i dtype z t' low high rr q) ji pts.
Proof.
  intros c dtype z n t i pts E. destruct (boundary_surface c dtype z n t i pts E) as (ji & low & high & t' & E1 & E2 & L & Hh & F).
  exists ji, low, high, t'. repeat (split; [assumption|]). clear -F warp_pointwise warp_same xy_pointwise. induction F as [|p o ji pts (q & Eq & M) F IH]; constructor; [|exact IH].
  exists (rpc_ray c p), q. split; [exact Eq|]. split; [intros h; apply ray_call|exact M].
Qed.
End Boundary.

End Rcam.

(** * Remapping *)
Lemma nth_rows : forall A (f : Z -> list A) n (L : list Z) i j d d0, (forall r, List.length (f r) = n) -> (j < n)%nat -> (i < List.length L)%nat ->
  nth (i * n + j) (flat_map f L) d = nth j (f (nth i L d0)) d.
Proof.
  intros A f n L. induction L as [|r L IH]; intros i j d d0 Hf Hj Hi; [cbn in Hi; lia|]. cbn [flat_map]. destruct i as [|i]; cbn [nth].
  - rewrite app_nth1 by (rewrite Hf; lia). f_equal.
  - rewrite app_nth2 by (rewrite Hf; lia). rewrite Hf. replace (Datatypes.S i * n + j - n)%nat with (i * n + j)%nat by lia. apply IH; [exact Hf|exact Hj|cbn in Hi; lia].
Qed.

Lemma range_len : forall n, List.length (py_range 0 n 1) = Z.to_nat n.
Proof. intros n. unfold py_range. rewrite map_length, seq_length. f_equal. replace (n - 0 + 1 - 1) with n by lia. apply Z.div_1_r. Qed.
Lemma range_nth : forall n k d, (k < Z.to_nat n)%nat -> nth k (py_range 0 n 1) d = Z.of_nat k.
Proof.
  intros n k d H. unfold py_range. replace ((n - 0 + 1 - 1) / 1) with n by (rewrite Z.div_1_r; lia).
  rewrite nth_indep with (d' := (fun k => 0 + Z.of_nat k * 1) 0%nat) by (rewrite map_length, seq_length; exact H).
  rewrite (map_nth (fun k => 0 + Z.of_nat k * 1)), seq_nth by exact H. lia.
Qed.

Definition cells (m n : Z) : list (Z * Z) := flat_map (fun r => map (fun c => (r, c)) (py_range 0 n 1)) (py_range 0 m 1).

Lemma cell_at : forall m n r c d, 0 <= r < m -> 0 <= c < n -> nth (Z.to_nat (r * n + c)) (cells m n) d = (r, c).
Proof.
  intros m n r c d Hr Hc. unfold cells. replace (Z.to_nat (r * n + c)) with (Z.to_nat r * Z.to_nat n + Z.to_nat c)%nat by nia.
  rewrite (nth_rows _ _ (Z.to_nat n) _ _ _ d 0); [|intros; rewrite map_length; apply range_len|lia|rewrite range_len; lia].
  rewrite range_nth by lia. rewrite Z2Nat.id by lia.
  rewrite nth_indep with (d' := (fun c => (r, c)) 0) by (rewrite map_length, range_len; lia). rewrite (map_nth (fun c => (r, c))). rewrite range_nth by lia. rewrite Z2Nat.id by lia. reflexivity.
Qed.

Lemma cells_len : forall m n, 0 <= m -> 0 <= n -> List.length (cells m n) = Z.to_nat (m * n).
Proof.
  intros m n Hm Hn. unfold cells. assert (H : forall L, List.length (flat_map (fun r : Z => map (fun c : Z => (r, c)) (py_range 0 n 1)) L) = (List.length L * Z.to_nat n)%nat).
  { induction L as [|x L IH]; [reflexivity|]. cbn. rewrite app_length, map_length, range_len, IH. reflexivity. }
  rewrite H, range_len. nia.
Qed.

Lemma Forall2_nth : forall A B (P : A -> B -> Prop) l m, Forall2 P l m -> forall k d e, (k < List.length l)%nat -> P (nth k l d) (nth k m e).
Proof. intros A B P l m F. induction F as [|x y l m H F IH]; intros k d e Hk; [cbn in Hk; lia|]. destruct k; [exact H|]. apply IH. cbn in Hk. lia. Qed.

Lemma mapM_total : forall A B (f : A -> res B) (g : A -> B) l, (forall x, In x l -> f x = Ok (g x)) -> mapM f l = Ok (map g l).
Proof. intros A B f g l H. induction l as [|x l IH]; [reflexivity|]. cbn. rewrite (H x) by (left; reflexivity). cbn. rewrite IH; [reflexivity|]. intros y Hy. apply H. right. exact Hy. Qed.

Theorem remap_base_refused : forall cv_image (w2p : nd (list (fl * fl * fl)) -> res (list (fl * fl))) im x y z v i,
  ~ (image_array im /\ grids x y z) -> base_remap cv_image w2p im x y z (Some v) i = Err ValueError.
Proof.
  intros cv_image w2p im x y z v i N. unfold base_remap. destruct (image_checked _ im) as [[-> I]|[-> I]]; cbn [bind]; [|reflexivity].
  assert (NG : ~ grids x y z) by (intros G; apply N; auto). rewrite <- grids_checked in NG.
  destruct (negb (same_shape x y && same_shape y z && Nat.eqb (List.length (nd_shape x)) 2)); [reflexivity|].
  destruct (negb (String.eqb (nd_dtype x) "float64" && String.eqb (nd_dtype y) "float64")); [reflexivity|].
  destruct (negb (one_of (nd_dtype z) ["float16"; "float32"; "float64"; "longdouble"])); [reflexivity|].
  destruct (String.eqb (nd_dtype z) "longdouble"); [reflexivity|]. exfalso. apply NG. auto.
Qed.

Theorem remap_base : forall cv_image (w2p : nd (list (fl * fl * fl)) -> res (list (fl * fl))) seen im x y z v i h w,
  (forall xyz, world_array xyz -> exists out, w2p xyz = Ok out /\ Forall2 seen (nd_data xyz) out) ->
  grid_ok x -> grid_ok y -> grid_ok z -> image_array im -> grids x y z -> interp_name i -> image_ok im h w -> usable_sizes h w (ah (nd_data x)) (aw (nd_data x)) ->
  exists bands mask, base_remap cv_image w2p im x y z (Some v) i = Ok (bands, mask) /\
  Forall2 (fun b out => ah out = ah (nd_data x) /\ aw out = aw (nd_data x) /\ forall row col, 0 <= row < ah (nd_data x) -> 0 <= col < aw (nd_data x) ->
     value_in cv_image seen (nd_data x) (nd_data y) (nd_data z) v i b row col (aget out row col)) (nd_data im) bands /\
  ah mask = ah (nd_data x) /\ aw mask = aw (nd_data x) /\
  forall row col, aget mask row col = true <-> forall out, In out bands -> is_nodata v (aget out row col).
Proof.
  intros cv_image w2p seen im x y z v i h w W Gx Gy Gz I G Hn [Sh Fs] U. unfold base_remap.
  destruct (image_checked _ im) as [[-> _]|[_ I']]; [|contradiction]. cbn [bind].
  apply grids_checked in G. destruct G as (-> & -> & -> & ->). cbn [bind].
  set (m := ah (nd_data x)) in *. set (n := aw (nd_data x)) in *. fold (cells m n).
  set (pt := fun rc : Z * Z => (aget (nd_data x) (fst rc) (snd rc), aget (nd_data y) (fst rc) (snd rc), aget (nd_data z) (fst rc) (snd rc))).
  destruct (W (Nd "float64" [3; m * n] (map pt (cells m n)))) as (ji & -> & F); [split; [eexists|]; reflexivity|]. cbn [bind nd_data] in *.
  set (maps := Arr m n (fun r c => let (j, i) := nth (Z.to_nat (r * n + c)) ji (Nan, Nan) in (Num (nan_to_m1 j), Num (nan_to_m1 i)))).
  set (outf := fun b : arr pix => Arr m n (fun r c => match cv_image i b (aget maps r c) with Some u => u | None => v end)).
  assert (In' : interp_get i = Ok i) by (unfold interp_get; replace (one_of i interps) with true; [reflexivity|symmetry; apply one_of_In, Hn]).
  rewrite (mapM_total _ _ _ outf).
  2:{ intros b Hb. rewrite In'. cbn [bind]. unfold cv_remap. rewrite Forall_forall in Fs. destruct (Fs b Hb) as [-> ->]. cbn [ah aw maps].
      rewrite (proj2 (cv_sizes_iff h w m n) U). cbn [negb]. rewrite !Z.eqb_refl. reflexivity. }
  cbn [bind]. eexists. eexists. split; [reflexivity|]. split.
  - apply Forall2_map_r. intros b Hb. split; [reflexivity|]. split; [reflexivity|]. intros row col Hr Hc. unfold value_in, outf. cbn [aget maps].
    assert (L : (Z.to_nat (row * n + col) < List.length (map pt (cells m n)))%nat) by (rewrite map_length, cells_len by lia; nia).
    pose proof (Forall2_nth _ _ _ _ _ F (Z.to_nat (row * n + col)) (pt (0, 0)) (Nan, Nan) L) as S1.
    rewrite (map_nth pt), (cell_at m n row col _ Hr Hc) in S1. unfold pt in S1. cbn [fst snd] in S1.
    destruct (nth (Z.to_nat (row * n + col)) ji (Nan, Nan)) as [j i'] eqn:E. exists j, i'. split; [exact S1|].
    cbv zeta.
    replace (match j with Num u => Num u | Nan => Num (-1) end) with (Num (nan_to_m1 j)) by (destruct j; reflexivity).
    replace (match i' with Num u => Num u | Nan => Num (-1) end) with (Num (nan_to_m1 i')) by (destruct i'; reflexivity).
    destruct (cv_image i b _); reflexivity.
  - split; [reflexivity|]. split; [reflexivity|]. intros row col. cbn [aget]. rewrite forallb_forall. split.
    + intros H out Ho. apply nan_equals_spec, H, Ho.
    + intros H out Ho. apply nan_equals_spec, H, Ho.
Qed.

(** * GCP cameras *)
Section Gcam.
Variable gcp_rowcol : list gcp -> list vec -> list (R * R).
Variable gcp_xy : list gcp -> list ((R * R) * R) -> list (R * R).
Variable rc1 : list gcp -> vec -> R * R.
Variable gxy1 : list gcp -> R * R -> R -> R * R.
Hypothesis rowcol_pointwise : forall g l, gcp_rowcol g l = map (rc1 g) l.
Hypothesis gxy_pointwise : forall g l, gcp_xy g l = map (fun p => gxy1 g (fst p) (snd p)) l.

Theorem gcp_p2w_ok : forall (c : gcam) ji z, pixel_array ji -> heights_for z (List.length (nd_data ji)) -> ~ integers z ->
  exists out, gcp_p2w_call gcp_xy c ji z = Ok out /\ Forall2 (position_of (gxy1 (gc_gcps c)) (fun v => v)) (paired (nd_data ji) z) out.
Proof.
  clear rowcol_pointwise. intros c ji z A Hh Ni. unfold gcp_p2w_call. set (l := paired (nd_data ji) z). rewrite (prepared ji z l _ A eq_refl Hh Ni eq_refl). cbn [bind].
  rewrite px_args_is, gxy_pointwise, !map_map. cbn [fst snd].
  rewrite (scatter_map _ _ okp (fun _ => (Nan, Nan)) (fun x => num2 (gxy1 (gc_gcps c) (val (fst (fst x)), val (snd (fst x))) (val (snd x)))) l).
  cbn [bind]. rewrite stack_is. eexists. split; [reflexivity|]. apply Forall2_map_r. intros [[[|j] [|i]] [|h]] _; reflexivity.
Qed.

Theorem gcp_round_trip : forall (c : gcam) ji z, pixel_array ji -> heights_for z (List.length (nd_data ji)) -> ~ integers z ->
  (forall p h, In (p, h) (paired (nd_data ji) z) -> exists j i k, (p, h) = ((Num j, Num i), Num k) /\
     let xy := gxy1 (gc_gcps c) (j, i) k in rc1 (gc_gcps c) (V3 (fst xy) (snd xy) k) = (i + / 2, j + / 2)%R) ->
  exists xyz, gcp_p2w_call gcp_xy c ji z = Ok xyz /\
  gcp_w2p_call gcp_rowcol c (Nd "float64" [3; Z.of_nat (List.length xyz)] xyz) = Ok (map fst (paired (nd_data ji) z)).
Proof.
  intros c ji z A Hh Ni Inv. destruct (gcp_p2w_ok c ji z A Hh Ni) as (xyz & Ep & F). exists xyz. split; [exact Ep|].
  unfold gcp_w2p_call. cbn [validate_world_coords nd_shape nd_dtype]. unfold validate_world_coords. cbn [nd_shape nd_dtype String.eqb Ascii.eqb Bool.eqb bind nd_data]. f_equal. rewrite rowcol_pointwise, !map_map.
  clear Ep. induction F as [|[p h] q l xyz Hq F IH]; [reflexivity|]. cbn [map]. rewrite IH by (intros p' h' Hin; apply Inv; right; exact Hin). f_equal.
  destruct (Inv p h (or_introl eq_refl)) as (j & i & k & E & R1). injection E as -> ->. cbn in Hq. subst q. cbv zeta in R1. cbn. rewrite R1. cbn [fst snd].
  f_equal; f_equal; ring.
Qed.

Theorem gcp_dicts : forall w h gs, (exists d, In (GcpDict d) gs) -> gcp_init w h gs = Err ValueError.
Proof.
  clear. intros w h gs [d H]. unfold gcp_init. assert (E : mapM (fun g => match g with GcpDict _ => gcp_of g | GcpObject ji xyz => Ok (Gcp ji xyz) end) gs = Err ValueError); [|rewrite E; reflexivity].
  induction gs as [|g gs IH]; [destruct H|]. cbn. destruct g as [ji xyz|d']; [|reflexivity]. cbn. destruct H as [H|H]; [discriminate|]. rewrite (IH H). reflexivity.
Qed.

Theorem gcp_objects : forall w h gs, exists c, gcp_init w h (map (fun g => GcpObject (g_ji g) (g_xyz g)) gs) = Ok c /\ gc_gcps c = gs /\ gc_w c = w /\ gc_h c = h.
Proof.
  clear. intros w h gs. unfold gcp_init. assert (E : mapM (fun g => match g with GcpDict _ => gcp_of g | GcpObject ji xyz => Ok (Gcp ji xyz) end) (map (fun g => GcpObject (g_ji g) (g_xyz g)) gs) = Ok gs).
  { induction gs as [|[a b] gs IH]; [reflexivity|]. cbn. rewrite IH. reflexivity. }
  rewrite E. eexists. split; [reflexivity|]. auto.
Qed.
End Gcam.
