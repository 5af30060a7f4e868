From Coq Require Import List String ZArith Bool Lia.
From Verif Require Import Py Py_Proof Profile_Model Profile_Spec.
Import ListNotations.
Open Scope string_scope.

Lemma nodata_lookup : forall dt v, dget dt nodata_vals = Some v -> supported_dtype dt /\ dtype_nodata dt v.
Proof.
  intros dt v H. unfold nodata_vals in H. cbn in H. unfold supported_dtype, dtype_nodata.
  repeat match type of H with
  | context [String.eqb dt ?s] => destruct (String.eqb_spec dt s); [subst; inversion H; subst; split; [tauto|cbn; tauto]|]
  end. discriminate.
Qed.

Lemma nodata_supported : forall dt, supported_dtype dt -> exists v, dget dt nodata_vals = Some v.
Proof.
  intros dt H. destruct H as [->|[->|[->|[->| ->]]]]; eexists; reflexivity.
Qed.

Lemma drivers_mem : forall d, str_mem d drivers = true <-> d = "gtiff" \/ d = "cog".
Proof.
  intros d. unfold str_mem, drivers. cbn. rewrite orb_false_r, orb_true_iff, !String.eqb_eq. tauto.
Qed.

Lemma compresses_mem : forall c, str_mem c compresses = true <-> c = "jpeg" \/ c = "deflate" \/ c = "lzw".
Proof.
  intros d. unfold str_mem, compresses. cbn. rewrite orb_false_r, !orb_true_iff, !String.eqb_eq. tauto.
Qed.

Lemma jpeg_eqb_dtype : forall dt, supported_dtype dt ->
  (dt = "uint8" \/ dt = "uint16") \/ (String.eqb dt "uint8" = false /\ String.eqb dt "uint16" = false).
Proof. intros dt H. destruct H as [->|[->|[->|[->| ->]]]]; auto. Qed.

Lemma accepts : forall driver shape dt compress wm opts,
  (exists r, create_profile driver shape dt compress wm opts = Ok r) <->
  supported_dtype dt /\ (driver = "gtiff" \/ driver = "cog") /\ (~ no_options opts \/ compress_ok dt compress).
Proof.
  intros driver [[count h] w] dt compress wm opts. split.
  - intros (r & H). unfold create_profile in H.
    destruct (dget dt nodata_vals) as [nv|] eqn:Hd; [|discriminate].
    destruct (nodata_lookup _ _ Hd) as [Hs _]. split; [assumption|].
    destruct (str_mem driver drivers) eqn:Hdr; cbn [negb] in H; [|discriminate].
    apply drivers_mem in Hdr. split; [assumption|].
    destruct (match opts with Some o => o | None => [] end) as [|o os] eqn:Ho.
    + right. destruct compress as [c|]; [|exact I]. cbn.
      destruct (str_mem c compresses) eqn:Hc; cbn [negb] in H; [|discriminate].
      apply compresses_mem in Hc. destruct (String.eqb_spec c "jpeg") as [->|Hne].
      * right; right. split; [reflexivity|].
        destruct (String.eqb_spec dt "uint16"); [right; assumption|].
        destruct (String.eqb_spec dt "uint8"); [left; assumption|]. cbn in H. discriminate.
      * destruct Hc as [?|[?|?]]; [contradiction|left; assumption|right; left; assumption].
    + left. intros [->| ->]; discriminate.
  - intros (Hs & Hdr & Hc). unfold create_profile.
    destruct (nodata_supported _ Hs) as (nv & ->).
    apply drivers_mem in Hdr. rewrite Hdr. cbn [negb].
    destruct (match opts with Some o => o | None => [] end) as [|o os] eqn:Ho.
    + destruct Hc as [Hc|Hc].
      * exfalso. apply Hc. unfold no_options. destruct opts; [right; f_equal; exact Ho|left; reflexivity].
      * destruct compress as [c|]; cbn in Hc.
        -- destruct Hc as [->|[->|[-> Hu]]]; cbn; try (eexists; reflexivity).
           destruct (String.eqb_spec dt "uint16"); [eexists; reflexivity|].
           destruct (String.eqb_spec dt "uint8"); [eexists; reflexivity|]. exfalso; tauto.
        -- eexists; reflexivity.
    + eexists; reflexivity.
Qed.

Lemma rejects_dtype : forall driver shape dt compress wm opts,
  ~ supported_dtype dt -> create_profile driver shape dt compress wm opts = Err OrthorityError.
Proof.
  intros driver [[count h] w] dt compress wm opts H. unfold create_profile.
  destruct (dget dt nodata_vals) eqn:E; [|reflexivity]. apply nodata_lookup in E. tauto.
Qed.

Lemma rejects_jpeg : forall driver shape dt wm opts,
  supported_dtype dt -> dt <> "uint8" -> dt <> "uint16" -> driver = "gtiff" \/ driver = "cog" -> no_options opts ->
  create_profile driver shape dt (Some "jpeg") wm opts = Err OrthorityError.
Proof.
  intros driver [[count h] w] dt wm opts Hs H8 H16 Hd Ho. unfold create_profile.
  destruct (nodata_supported _ Hs) as (nv & ->). apply drivers_mem in Hd. rewrite Hd. cbn [negb].
  assert ((match opts with Some o => o | None => [] end) = []) as -> by (destruct Ho as [->| ->]; reflexivity).
  apply String.eqb_neq in H8, H16. cbn. rewrite H16, H8. reflexivity.
Qed.

Lemma mask_nodata : forall driver shape dt compress wm opts p m,
  create_profile driver shape dt compress wm opts = Ok (p, m) ->
  (m = true -> dget "nodata" p = Some VNone) /\
  (m = false -> exists v, dtype_nodata dt v /\ dget "nodata" p = Some v) /\
  (forall b, wm = Some b -> m = b).
Proof.
  intros driver [[count h] w] dt compress wm opts p m H. unfold create_profile in H.
  destruct (dget dt nodata_vals) as [nv|] eqn:Hd; [|discriminate].
  destruct (nodata_lookup _ _ Hd) as [_ Hn].
  destruct (negb (str_mem driver drivers)); [discriminate|].
  match type of H with (bind ?x _ = _) => destruct x as [[pr c]|] end; cbn in H; [|discriminate].
  inversion H; subst; clear H. rewrite dget_dset_eq. split; [|split].
  - intros Hm. rewrite Hm. reflexivity.
  - intros Hm. rewrite Hm. exists nv. split; [assumption|reflexivity].
  - intros b ->. reflexivity.
Qed.

Lemma default_profile : forall driver count h w dt compress wm opts p m,
  no_options opts ->
  create_profile driver (count, h, w) dt compress wm opts = Ok (p, m) ->
  exists c,
    c = (match compress with Some c => c | None => if String.eqb dt "uint8" then "jpeg" else "deflate" end) /\
    dget "driver" p = Some (VS driver) /\ dget "dtype" p = Some (VS dt) /\
    dget "width" p = Some (VZ w) /\ dget "height" p = Some (VZ h) /\ dget "count" p = Some (VZ count) /\
    dget "bigtiff" p = Some (VS "if_safer") /\
    dget "compress" p = Some (VS c) /\
    (wm = None -> (m = true <-> c = "jpeg")) /\
    (dget "photometric" p = Some (VS "ycbcr") <-> (driver = "gtiff" /\ c = "jpeg" /\ count = 3%Z)) /\
    (dget "photometric" p = None <-> ~ (driver = "gtiff" /\ c = "jpeg" /\ count = 3%Z)) /\
    (dget "nbits" p = Some (VZ 12) <-> (compress = Some "jpeg" /\ dt = "uint16")) /\
    (dget "nbits" p = None <-> ~ (compress = Some "jpeg" /\ dt = "uint16")) /\
    (driver = "gtiff" -> dget "tiled" p = Some (VB true) /\ dget "blockxsize" p = Some (VZ 512) /\
                         dget "blockysize" p = Some (VZ 512)) /\
    (driver = "cog" -> dget "blocksize" p = Some (VZ 512) /\
                       dget "overviews" p = Some (VS "force_use_existing") /\ dget "tiled" p = None).
Proof.
  intros driver count h w dt compress wm opts p m Ho H.
  assert (Ha : exists r, create_profile driver (count, h, w) dt compress wm opts = Ok r) by (eexists; exact H).
  apply accepts in Ha. destruct Ha as (Hs & Hd & Hc). destruct Hc as [Hc|Hc]; [contradiction|].
  assert (Eo : (match opts with Some o => o | None => [] end) = []) by (destruct Ho as [->| ->]; reflexivity).
  unfold create_profile in H. rewrite Eo in H. clear Eo Ho.
  destruct (nodata_supported _ Hs) as (nv & Env). rewrite Env in H. clear Env.
  destruct (Z.eqb_spec count 3) as [E3|N3].
  - subst count.
    destruct Hd as [->| ->]; cbn in H;
    (destruct compress as [c|]; cbn in Hc;
     [destruct Hc as [->|[->|[-> Hu]]]; [| |destruct Hu as [->| ->]]
     |destruct Hs as [->|[->|[->|[->| ->]]]]]; cbn in H; inversion H; subst; clear H;
     eexists; (split; [reflexivity|]); cbn;
     repeat match goal with |- _ /\ _ => split end; try reflexivity; try discriminate;
       try (intros ->); try tauto; try (split; intros; (try discriminate); (try tauto); (try reflexivity)); 
       try (destruct H as (?&?); discriminate); try (destruct H as (?&?&?); discriminate);
       try (intros (?&?); discriminate); try (intros (?&?&?); discriminate);
       try (intuition congruence)).
  - destruct Hd as [->| ->]; cbn in H;
    (destruct compress as [c|]; cbn in Hc;
     [destruct Hc as [->|[->|[-> Hu]]]; [| |destruct Hu as [->| ->]]
     |destruct Hs as [->|[->|[->|[->| ->]]]]]; cbn in H; try (rewrite (proj2 (Z.eqb_neq count 3) N3) in H; cbn in H);
     inversion H; subst; clear H;
     eexists; (split; [reflexivity|]); cbn;
     repeat match goal with |- _ /\ _ => split end; try reflexivity; try discriminate;
       try (intros ->); try tauto; try (split; intros; (try discriminate); (try tauto); (try reflexivity)); 
       try (destruct H as (?&?); discriminate); try (destruct H as (?&?&?); discriminate);
       try (intros (?&?); discriminate); try (intros (?&?&?); discriminate);
       try (intuition congruence)).
Qed.

Lemma options_profile : forall driver count h w dt compress wm o p m,
  o <> [] -> NoDup (dkeys o) ->
  create_profile driver (count, h, w) dt compress wm (Some o) = Ok (p, m) ->
  (forall k, k <> "nodata" -> In k (dkeys o) -> dget k p = dget k o) /\
  (forall k, dget k p <> None -> In k base_keys \/ In k (dkeys o)) /\
  (wm = None -> (m = true <-> compress = Some "jpeg")).
Proof.
  intros driver count h w dt compress wm o p m Hne Hnd H. unfold create_profile in H.
  destruct (dget dt nodata_vals) as [nv|]; [|discriminate].
  destruct (negb (str_mem driver drivers)); [discriminate|].
  destruct o as [|kv o]; [contradiction|]. cbn [bind] in H.
  match type of H with context [dupdate ?b ?o'] => remember b as base eqn:Hb; remember o' as opts eqn:Ho end.
  inversion H; subst p m; clear H.
  split; [|split].
  - intros k Hk Hin. rewrite dget_dset_neq by assumption.
    destruct (dget k opts) as [v|] eqn:E.
    + apply dget_dupdate_in; assumption.
    + apply dget_None in E. contradiction.
  - intros k Hk. destruct (dget k _) as [v|] eqn:E in Hk; [|contradiction].
    apply dget_Some_key in E. rewrite In_dkeys_dset in E. destruct E as [->|E]; [left; cbn; tauto|].
    apply In_dkeys_dupdate in E. destruct E as [E|E]; [left|right; exact E].
    subst base. unfold base_keys. cbn in E |- *. tauto.
  - intros ->. destruct compress as [c|].
    + rewrite String.eqb_eq. split; congruence.
    + split; discriminate.
Qed.

Lemma compress_not_ignored :
  exists driver shape dt c1 c2 wm o,
    o <> [] /\
    create_profile driver shape dt c1 wm (Some o) <> create_profile driver shape dt c2 wm (Some o).
Proof.
  exists "gtiff", (3, 20, 10)%Z, "uint8", None, (Some "jpeg"), None, [("compress", VS "deflate")].
  split; [discriminate|]. cbn. discriminate.
Qed.

Lemma jpeg_option_no_mask :
  exists driver shape dt o p,
    dget "compress" o = Some (VS "jpeg") /\
    create_profile driver shape dt None None (Some o) = Ok (p, false).
Proof.
  exists "gtiff", (3, 20, 10)%Z, "uint8", [("compress", VS "jpeg")]. eexists. split; reflexivity.
Qed.
