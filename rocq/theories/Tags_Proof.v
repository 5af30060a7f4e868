(** Proofs about tags, and cameras and shots of reconstructions. *)
From Coq Require Import String Ascii List Reals ZArith Bool Lra Lia.
From Verif Require Import Py Py_Proof Validate_Model Params_Model Params_Spec Params_Proof Str Factory_Model Read_Spec Read_Proof Exif_Model Exif_Spec Exif_Proof Tags_Spec.
Import ListNotations.
Open Scope string_scope.
Open Scope list_scope.
Local Arguments String.eqb : simpl never.

(** * Splitting *)

Lemma split_without c s : without c s -> split_on c s = [s].
Proof. induction s as [|x s IH]; [reflexivity|]. intros [H1 H2]. cbn. destruct (Ascii.eqb_spec x c); [contradiction|]. now rewrite IH. Qed.

Lemma split_sep c s t : without c s -> split_on c (s ++ String c t) = s :: split_on c t.
Proof.
  induction s as [|x s IH]; intros H; cbn [append split_on].
  - rewrite Ascii.eqb_refl. reflexivity.
  - destruct H as [H1 H2]. destruct (Ascii.eqb_spec x c); [contradiction|]. now rewrite IH.
Qed.

Lemma split_not_nil c s : split_on c s <> [].
Proof. destruct s as [|x s]; cbn; [discriminate|]. destruct (Ascii.eqb x c); [discriminate|]. destruct (split_on c s); discriminate. Qed.

Lemma split_last c s t d : without c t -> last (split_on c (s ++ String c t)) d = t.
Proof.
  intros H. induction s as [|x s IH]; cbn [append split_on].
  - rewrite Ascii.eqb_refl, (split_without c t H). reflexivity.
  - pose proof (split_not_nil c (s ++ String c t)) as N. destruct (Ascii.eqb x c).
    + destruct (split_on c (s ++ String c t)); [contradiction|]. exact IH.
    + destruct (split_on c (s ++ String c t)) as [|w [|w' ws]] eqn:E; [contradiction| |exact IH].
      exfalso. clear - E. revert w E. induction s as [|y s IHs]; intros w E; cbn [append split_on] in E.
      * rewrite Ascii.eqb_refl in E. pose proof (split_not_nil c t). destruct (split_on c t); [contradiction|discriminate E].
      * destruct (Ascii.eqb y c).
        -- injection E as _ E. exact (split_not_nil _ _ E).
        -- destruct (split_on c (s ++ String c t)) as [|w0 ws] eqn:E0; [exact (split_not_nil _ _ E0)|]. injection E as _ ->. exact (IHs w0 eq_refl).
Qed.

Lemma split_joined l : l <> [] -> Forall (without ",") l -> split_on "," (joined "," l) = l.
Proof.
  induction l as [|s l IH]; intros N H; [contradiction|]. inversion H as [|a b H1 H2]; subst. destruct l as [|s' l].
  - cbn. now apply split_without.
  - change (joined "," (s :: s' :: l)) with (s ++ String "," (joined "," (s' :: l)))%string. rewrite split_sep by assumption. f_equal. apply IH; [discriminate|assumption].
Qed.

Lemma joined_without c sep l : without c sep -> Forall (without c) l -> without c (joined sep l).
Proof.
  intros Hs. assert (A : forall a b, without c a -> without c b -> without c (a ++ b)%string).
  { induction a as [|x a IH]; intros b Ha Hb; [exact Hb|]. destruct Ha. split; [assumption|]. now apply IH. }
  induction l as [|s l IH]; intros H; [exact I|]. inversion H as [|x y H1 H2]; subst. destruct l as [|s' l]; [exact H1|].
  change (without c (s ++ sep ++ joined sep (s' :: l))). apply A; [exact H1|]. apply A; [exact Hs|]. now apply IH.
Qed.

(** * Tags *)

Lemma sensor_size pyfloat pyint pyint0 filename im_size tags exif_ns xmp e ex u code mm a b x y :
  exif_init pyfloat pyint pyint0 filename im_size tags exif_ns xmp = Ok e -> exif_tags tags exif_ns ex ->
  dget "EXIF_FocalPlaneResolutionUnit" ex = Some u -> pyint u = Ok code -> unit_mm code mm ->
  plain a -> plain b -> dget "EXIF_FocalPlaneXResolution" ex = Some (one a) -> dget "EXIF_FocalPlaneYResolution" ex = Some (one b) ->
  pyfloat a = Ok x -> pyfloat b = Ok y ->
  e_sensor_size e = Some (mm * IZR (fst im_size) / x, mm * IZR (snd im_size) / y)%R.
Proof.
  intros H HE Hu Hc Hm Pa Pb Ha Hb Hx Hy. apply exif_init_inv in H. cbv zeta in H. rewrite (exif_tags_eq _ _ _ HE) in H.
  destruct H as (_ & _ & _ & _ & _ & _ & H & _). unfold get_sensor_size in H. rewrite Hu in H. unfold dmem in H. rewrite Ha, Hb in H. cbn [andb negb] in H.
  rewrite Hc in H. cbn [bind] in H.
  assert (EM : mm_per_unit code = Some mm) by (destruct Hm; reflexivity). rewrite EM in H.
  rewrite (float_one pyfloat ex _ a x Pa Hx Ha), (float_one pyfloat ex _ b y Pb Hy Hb) in H. cbn [bind num_of] in H. congruence.
Qed.

Lemma no_sensor_size pyfloat pyint pyint0 filename im_size tags exif_ns xmp e ex :
  exif_init pyfloat pyint pyint0 filename im_size tags exif_ns xmp = Ok e -> exif_tags tags exif_ns ex ->
  (exists k, In k ["EXIF_FocalPlaneResolutionUnit"; "EXIF_FocalPlaneXResolution"; "EXIF_FocalPlaneYResolution"] /\ dget k ex = None) \/
  (exists u code, dget "EXIF_FocalPlaneResolutionUnit" ex = Some u /\ pyint u = Ok code /\ forall mm, ~ unit_mm code mm) ->
  e_sensor_size e = None.
Proof.
  intros H HE C. apply exif_init_inv in H. cbv zeta in H. rewrite (exif_tags_eq _ _ _ HE) in H.
  destruct H as (_ & _ & _ & _ & _ & _ & H & _). unfold get_sensor_size in H.
  destruct C as [(k & Hk & Hn)|(u & code & Hu & Hc & Hm)].
  - destruct (dget "EXIF_FocalPlaneResolutionUnit" ex) as [u|] eqn:EU; [|congruence].
    unfold dmem in H. destruct Hk as [<-|[<-|[<-|[]]]]; [congruence| |]; rewrite Hn in H; rewrite ?andb_false_l, ?andb_false_r in H; cbn in H; congruence.
  - rewrite Hu in H. destruct (negb _); [congruence|]. rewrite Hc in H. cbn [bind] in H.
    assert (EM : mm_per_unit code = None).
    { unfold mm_per_unit. destruct (Z.eqb_spec code 2) as [->|]; [exfalso; eapply Hm; constructor|]. destruct (Z.eqb_spec code 3) as [->|]; [exfalso; eapply Hm; constructor|].
      destruct (Z.eqb_spec code 4) as [->|]; [exfalso; eapply Hm; constructor|]. destruct (Z.eqb_spec code 5) as [->|]; [exfalso; eapply Hm; constructor|]. reflexivity. }
    rewrite EM in H. congruence.
Qed.

Lemma focal_tag pyfloat ex k v : get_exif_float pyfloat ex k = Ok v ->
  (dget k ex = None -> v = TNone) /\ (forall a x, plain a -> pyfloat a = Ok x -> dget k ex = Some (one a) -> v = TOne x).
Proof.
  intros H. split.
  - intros E. unfold get_exif_float in H. rewrite E in H. congruence.
  - intros a x P Hx E. rewrite (float_one pyfloat ex k a x P Hx E) in H. congruence.
Qed.

Lemma values pyfloat pyint pyint0 filename im_size tags exif_ns xmp e ex :
  exif_init pyfloat pyint pyint0 filename im_size tags exif_ns xmp = Ok e -> exif_tags tags exif_ns ex ->
  e_filename e = filename /\ e_im_size e = im_size /\
  e_make e = option_map lower (dget "EXIF_Make" ex) /\ e_model e = option_map lower (dget "EXIF_Model" ex) /\ e_serial e = dget "EXIF_BodySerialNumber" ex /\
  (dget "EXIF_FocalLength" ex = None -> e_focal_len e = TNone) /\
  (forall a x, plain a -> pyfloat a = Ok x -> dget "EXIF_FocalLength" ex = Some (one a) -> e_focal_len e = TOne x) /\
  (dget "EXIF_FocalLengthIn35mmFilm" ex = None -> e_focal_len_35 e = TNone) /\
  (forall a x, plain a -> pyfloat a = Ok x -> dget "EXIF_FocalLengthIn35mmFilm" ex = Some (one a) -> e_focal_len_35 e = TOne x) /\
  (forall a b w h, plain a -> plain b -> pyfloat a = Ok (IZR w) -> pyfloat b = Ok (IZR h) -> (0 < w)%Z -> (0 < h)%Z ->
     dget "EXIF_PixelXDimension" ex = Some (one a) -> dget "EXIF_PixelYDimension" ex = Some (one b) -> e_tag_im_size e = Some (w, h)) /\
  (dget "EXIF_PixelXDimension" ex = None \/ dget "EXIF_PixelYDimension" ex = None -> e_tag_im_size e = None).
Proof.
  intros H HE. apply exif_init_inv in H. cbv zeta in H. rewrite (exif_tags_eq _ _ _ HE) in H.
  destruct H as (H1 & H2 & _ & _ & _ & H6 & _ & H8 & H9 & H10 & H11 & H12).
  split; [exact H1|]. split; [exact H2|]. split; [exact H10|]. split; [exact H11|]. split; [exact H12|].
  split; [apply (focal_tag _ _ _ _ H8)|]. split; [apply (focal_tag _ _ _ _ H8)|]. split; [apply (focal_tag _ _ _ _ H9)|]. split; [apply (focal_tag _ _ _ _ H9)|].
  split.
  - intros a b w h Pa Pb Ha Hb Hw Hh Ea Eb. unfold get_tag_im_size in H6.
    rewrite (float_one pyfloat ex _ a (IZR w) Pa Ha Ea), (float_one pyfloat ex _ b (IZR h) Pb Hb Eb) in H6. cbn [bind truth] in H6.
    assert (TI : forall z, trunc (IZR z) = z).
    { intros z. unfold trunc. assert (IP : forall m, Int_part (IZR m) = m). { intros m. unfold Int_part. rewrite <- (tech_up (IZR m) (m + 1)); [lia| |]; rewrite plus_IZR; lra. }
      destruct (Rle_dec 0 (IZR z)); [apply IP|]. rewrite <- opp_IZR, IP. lia. }
    destruct (Req_EM_T (IZR w) 0) as [C|_]; [apply eq_IZR in C; lia|]. destruct (Req_EM_T (IZR h) 0) as [C|_]; [apply eq_IZR in C; lia|].
    cbn [andb int_of bind] in H6. rewrite !TI in H6. congruence.
  - intros E. unfold get_tag_im_size in H6. destruct (get_exif_float pyfloat ex "EXIF_PixelXDimension") as [vx|] eqn:EX; [|discriminate H6]. cbn [bind] in H6.
    destruct (get_exif_float pyfloat ex "EXIF_PixelYDimension") as [vy|] eqn:EY; [|discriminate H6]. cbn [bind] in H6.
    destruct E as [E|E]; [apply (focal_tag _ _ _ _ EX) in E|apply (focal_tag _ _ _ _ EY) in E]; subst; cbn [truth] in H6; rewrite ?andb_false_l, ?andb_false_r in H6; congruence.
Qed.

Lemma orientation pyfloat pyint pyint0 filename im_size tags exif_ns xmp e ex :
  exif_init pyfloat pyint pyint0 filename im_size tags exif_ns xmp = Ok e -> exif_tags tags exif_ns ex ->
  match dget "EXIF_Orientation" ex with Some s => exists z, pyint s = Ok z /\ e_orientation e = Some z | None => e_orientation e = None end.
Proof.
  intros H HE. unfold exif_init in H. cbv zeta in H. rewrite (exif_tags_eq _ _ _ HE) in H.
  destruct (get_tag_im_size _ _); [|discriminate H]. cbn [bind] in H. destruct (get_sensor_size _ _ _ _); [|discriminate H]. cbn [bind] in H.
  destruct (get_exif_float _ _ _); [|discriminate H]. cbn [bind] in H. destruct (get_exif_float _ _ _); [|discriminate H]. cbn [bind] in H.
  destruct (dget "EXIF_Orientation" ex) as [s|]; [destruct (pyint s) as [z|]; [|discriminate H]|]; cbn [bind] in H;
  (destruct (get_xmp_lla _ _) as [xlla|]; [|discriminate H]); cbn [bind] in H;
  (destruct (match xlla with Some t => Ok (Some t) | None => _ end) as [lla|]; [|discriminate H]); cbn [bind] in H;
  (destruct (get_xmp_rpy _ _) as [rpy|]; [|discriminate H]); cbn [bind] in H;
  (destruct (get_xmp_dewarp _ _) as [dw|]; [|discriminate H]); cbn [bind] in H; injection H as <-; [exists z; split; reflexivity|reflexivity].
Qed.

(** Names of cameras. *)
Lemma concat_joined sep l : String.concat sep l = joined sep l.
Proof. induction l as [|s [|s' l] IH]; [reflexivity|reflexivity|]. change (String.concat sep (s :: s' :: l)) with (s ++ sep ++ String.concat sep (s' :: l))%string. rewrite IH. reflexivity. Qed.

Lemma joined_empty sep l : Forall (fun s => s <> "") l -> joined sep l = "" -> l = [].
Proof.
  intros H E. destruct l as [|s l]; [reflexivity|]. inversion H as [|a b H1 _]; subst. exfalso. destruct s as [|x s]; [now apply H1|]. destruct l; discriminate E.
Qed.

Lemma cam_name e : let parts := given_part (e_make e) ++ given_part (e_model e) ++ given_part (e_serial e) in
  (parts = [] -> create_exif_cam_id e = "unknown") /\ (parts <> [] -> create_exif_cam_id e = joined " " parts).
Proof.
  cbv zeta. assert (E : forall p, match p with Some (String c s) => [String c s] | _ => [] end = given_part p).
  { intros [[|c s]|]; reflexivity. }
  unfold create_exif_cam_id. cbn [flat_map]. rewrite !E, app_nil_r. set (parts := given_part (e_make e) ++ given_part (e_model e) ++ given_part (e_serial e)).
  rewrite concat_joined. split.
  - intros ->. reflexivity.
  - intros N. destruct (joined " " parts) as [|c s] eqn:EJ; [|reflexivity]. exfalso. apply N. apply (joined_empty " "); [|exact EJ].
    unfold parts. assert (G : forall p, Forall (fun s => s <> "") (given_part p)).
    { intros [s|]; cbn; [|constructor]. destruct (String.eqb_spec s ""); [constructor|]. repeat constructor. assumption. }
    rewrite !Forall_app. auto.
Qed.

(** * XMP *)

Lemma lacks_none xmp keys : lacks xmp keys ->
  match xmp with Some _ => True | None => keys <> [] end ->
  exists k, In k keys /\ dget k match xmp with Some x => xml_to_flat_dict x | None => [] end = None.
Proof.
  destruct xmp as [x|]; cbn.
  - intros (k & Hk & Hn) _. exists k. split; [exact Hk|]. destruct (dget k (xml_to_flat_dict x)) eqn:E; [|reflexivity]. exfalso. apply Hn. apply flat_names. eauto.
  - intros _ N. destruct keys as [|k l]; [contradiction|]. exists k. split; [now left|reflexivity].
Qed.

Lemma rpy_skip xd (s : xmp_schema) (a b c : string) l k : rpy_keys s = [a; b; c] -> In k [a; b; c] -> dget k xd = None ->
  first_with rpy_keys xd (s :: l) = first_with rpy_keys xd l.
Proof.
  intros E Hk Hn. cbn [first_with]. rewrite E, filter3. unfold dmem. destruct Hk as [<-|[<-|[<-|[]]]]; rewrite Hn; rewrite ?andb_false_l, ?andb_false_r; reflexivity.
Qed.

Lemma rpy_take xd (s : xmp_schema) (a b c : string) l x y z : rpy_keys s = [a; b; c] -> dget a xd = Some x -> dget b xd = Some y -> dget c xd = Some z ->
  first_with rpy_keys xd (s :: l) = Some (s, [x; y; z]).
Proof. intros E Ha Hb Hc. cbn [first_with]. rewrite E, filter3. unfold dmem. rewrite Ha, Hb, Hc. cbn. now rewrite Ha, Hb, Hc. Qed.

Lemma angles_sensefly pyfloat pyint pyint0 filename im_size tags exif_ns x e a b c r p y :
  exif_init pyfloat pyint pyint0 filename im_size tags exif_ns (Some x) = Ok e -> lacks (Some x) dji_angles ->
  Forall2 (only_value x) sensefly_angles [Some a; Some b; Some c] -> pyfloat a = Ok r -> pyfloat b = Ok p -> pyfloat c = Ok y ->
  e_rpy e = Some (r, p, y).
Proof.
  intros H HD HV Hr Hp Hy. apply exif_init_inv in H. destruct H as (_ & _ & _ & H & _). destruct (lacks_none _ _ HD I) as (k & Hk & Hn). cbn in Hn.
  inversion HV as [|? ? ? ? V1 HV1]; subst. inversion HV1 as [|? ? ? ? V2 HV2]; subst. inversion HV2 as [|? ? ? ? V3 _]; subst. apply flat_only in V1, V2, V3.
  unfold get_xmp_rpy, xmp_schemas in H. erewrite rpy_skip in H; [|reflexivity|exact Hk|exact Hn].
  erewrite rpy_take in H; [|reflexivity|exact V1|exact V2|exact V3]. cbn [mapM float_of] in H. rewrite Hr, Hp, Hy in H. cbn [bind triple_of rpy_gains rpy_offsets] in H.
  injection H as <-. f_equal. f_equal; [f_equal|]; ring.
Qed.

Lemma angles_pix4d pyfloat pyint pyint0 filename im_size tags exif_ns x e a b c r p y :
  exif_init pyfloat pyint pyint0 filename im_size tags exif_ns (Some x) = Ok e -> lacks (Some x) dji_angles -> lacks (Some x) sensefly_angles ->
  Forall2 (only_value x) pix4d_angles [Some a; Some b; Some c] -> pyfloat a = Ok r -> pyfloat b = Ok p -> pyfloat c = Ok y ->
  e_rpy e = Some (r, p, y).
Proof.
  intros H HD HS HV Hr Hp Hy. apply exif_init_inv in H. destruct H as (_ & _ & _ & H & _).
  destruct (lacks_none _ _ HD I) as (k & Hk & Hn). destruct (lacks_none _ _ HS I) as (k' & Hk' & Hn'). cbn in Hn, Hn'.
  inversion HV as [|? ? ? ? V1 HV1]; subst. inversion HV1 as [|? ? ? ? V2 HV2]; subst. inversion HV2 as [|? ? ? ? V3 _]; subst. apply flat_only in V1, V2, V3.
  unfold get_xmp_rpy, xmp_schemas in H. erewrite rpy_skip in H; [|reflexivity|exact Hk|exact Hn]. erewrite rpy_skip in H; [|reflexivity|exact Hk'|exact Hn'].
  erewrite rpy_take in H; [|reflexivity|exact V1|exact V2|exact V3]. cbn [mapM float_of] in H. rewrite Hr, Hp, Hy in H. cbn [bind triple_of rpy_gains rpy_offsets] in H.
  injection H as <-. f_equal. f_equal; [f_equal|]; ring.
Qed.

Lemma angles_none pyfloat pyint pyint0 filename im_size tags exif_ns xmp e :
  exif_init pyfloat pyint pyint0 filename im_size tags exif_ns xmp = Ok e -> lacks xmp dji_angles -> lacks xmp sensefly_angles -> lacks xmp pix4d_angles ->
  e_rpy e = None /\ forall X to_world, read_exif_ext_param X to_world e = Err ParamError.
Proof.
  intros H HD HS HP. assert (E : e_rpy e = None).
  { apply exif_init_inv in H. cbv zeta in H. destruct H as (_ & _ & _ & H & _).
    destruct (lacks_none _ _ HD) as (k & Hk & Hn); [destruct xmp; [exact I|discriminate]|].
    destruct (lacks_none _ _ HS) as (k' & Hk' & Hn'); [destruct xmp; [exact I|discriminate]|].
    destruct (lacks_none _ _ HP) as (k3 & Hk3 & Hn3); [destruct xmp; [exact I|discriminate]|].
    unfold get_xmp_rpy, xmp_schemas in H. erewrite rpy_skip in H; [|reflexivity|exact Hk|exact Hn]. erewrite rpy_skip in H; [|reflexivity|exact Hk'|exact Hn'].
    erewrite rpy_skip in H; [|reflexivity|exact Hk3|exact Hn3]. cbn in H. congruence. }
  split; [exact E|]. intros X tw. unfold read_exif_ext_param. rewrite E. destruct (e_lla e); reflexivity.
Qed.

Lemma dewarp_data pyfloat pyint pyint0 filename im_size tags exif_ns x e s l vals :
  exif_init pyfloat pyint pyint0 filename im_size tags exif_ns (Some x) = Ok e ->
  only_value x dewarp_name (Some s) -> l <> [] -> Forall (without ",") l -> Forall (without ";") l -> Forall2 (fun t v => pyfloat t = Ok v) l vals ->
  (exists date, s = (date ++ ";" ++ joined "," l)%string) \/ (s = joined "," l /\ s <> "") ->
  e_dewarp e = Some vals.
Proof.
  intros H V N HC HS HF C. apply exif_init_inv in H. destruct H as (_ & _ & _ & _ & H & _). apply flat_only in V.
  unfold get_xmp_dewarp, xmp_schemas in H. cbn [xmp_dewarp dewarp_key] in H. change (dji "DewarpData") with dewarp_name in H. rewrite V in H.
  assert (W : without ";" (joined "," l)). { apply joined_without; [|exact HS]. split; [discriminate|exact I]. }
  assert (NE : s <> ""). { destruct C as [[date ->]|[_ C]]; [destruct date; discriminate|exact C]. }
  assert (L : last (split_on ";" s) "" = joined "," l).
  { destruct C as [[date ->]|[-> _]]; [apply (split_last ";" date (joined "," l)); exact W|]. now rewrite split_without. }
  destruct s as [|c0 t]; [contradiction|]. rewrite L, split_joined in H by assumption.
  apply mapM_Ok in HF. rewrite HF in H. cbn [bind] in H. congruence.
Qed.

Lemma dewarp_none pyfloat pyint pyint0 filename im_size tags exif_ns xmp e :
  exif_init pyfloat pyint pyint0 filename im_size tags exif_ns xmp = Ok e -> lacks xmp [dewarp_name] -> e_dewarp e = None.
Proof.
  intros H L. apply exif_init_inv in H. cbv zeta in H. destruct H as (_ & _ & _ & _ & H & _).
  destruct (lacks_none _ _ L) as (k & [<-|[]] & Hn); [destruct xmp; [exact I|discriminate]|].
  unfold get_xmp_dewarp, xmp_schemas in H. cbn [xmp_dewarp dewarp_key] in H. change (dji "DewarpData") with dewarp_name in H. rewrite Hn in H. congruence.
Qed.

(** * Exterior parameters *)

Lemma last_named_here {V} k v (before after : list (string * V)) : (forall w, ~ In (k, w) after) -> last_named k (before ++ (k, v) :: after) = Some v.
Proof.
  intros H. induction before as [|[k1 v1] b IH]; cbn [app last_named].
  - destruct (last_named k after) as [w|] eqn:E; [exfalso; apply last_named_some in E; eapply H; eassumption|]. now rewrite String.eqb_refl.
  - now rewrite IH.
Qed.

Lemma exterior X (to_world : R * R * R -> R * R * R -> Py.res X) before n e after exts :
  exif_read_ext X to_world (before ++ (n, e) :: after) = Ok exts -> (forall n' e', In (n', e') after -> e_filename e' <> e_filename e) ->
  exists lla rpy x, e_lla e = Some lla /\ e_rpy e = Some rpy /\ to_world lla rpy = Ok x /\ dget (e_filename e) exts = Some (x, create_exif_cam_id e).
Proof.
  intros H U. unfold exif_read_ext in H. destruct (mapM _ _) as [items|] eqn:E; [|discriminate H]. cbn [bind] in H. injection H as <-.
  apply mapM_Ok in E. apply Forall2_app_inv_l in E. destruct E as (i1 & i2 & _ & E2 & ->). inversion E2 as [|? it ? i3 E3 E4]; subst. cbn [snd] in E3.
  assert (RE : forall e0 it0, read_exif_ext_param X to_world e0 = Ok it0 ->
    exists lla rpy x, e_lla e0 = Some lla /\ e_rpy e0 = Some rpy /\ to_world lla rpy = Ok x /\ it0 = (e_filename e0, (x, create_exif_cam_id e0))).
  { intros e0 it0 HR. unfold read_exif_ext_param in HR. destruct (e_lla e0) as [lla|]; [|discriminate HR]. destruct (e_rpy e0) as [rpy|]; [|discriminate HR].
    destruct (to_world lla rpy) as [x|] eqn:EW; [|discriminate HR]. injection HR as <-. eauto 8. }
  destruct (RE _ _ E3) as (lla & rpy & x & A & B & C & ->). exists lla, rpy, x. repeat (split; [assumption|]).
  rewrite dict_of_last. apply last_named_here. intros w Hw.
  clear - E4 U Hw RE. induction E4 as [|[n' e'] it l l' E5 _ IH]; [destruct Hw|]. destruct Hw as [->|Hw].
  - destruct (RE _ _ E5) as (? & ? & ? & _ & _ & _ & EQ). injection EQ as EQ _. apply (U n' e'); [now left|congruence].
  - apply IH; [|exact Hw]. intros n0 e0 Hi. apply (U n0 e0). now right.
Qed.

Lemma exterior_iff X (to_world : R * R * R -> R * R * R -> Py.res X) exifs :
  (exists exts, exif_read_ext X to_world exifs = Ok exts) <->
  forall n e, In (n, e) exifs -> exists lla rpy x, e_lla e = Some lla /\ e_rpy e = Some rpy /\ to_world lla rpy = Ok x.
Proof.
  unfold exif_read_ext. split.
  - intros [exts H] n e Hin. destruct (mapM _ _) as [items|] eqn:E; [|discriminate H]. apply mapM_Ok in E. clear H.
    induction E as [|[n' e'] it l l' E5 _ IH]; [destruct Hin|]. destruct Hin as [EQ|Hin]; [|now apply IH]. injection EQ as -> ->. cbn [snd] in E5.
    unfold read_exif_ext_param in E5. destruct (e_lla e) as [lla|]; [|discriminate E5]. destruct (e_rpy e) as [rpy|]; [|discriminate E5].
    destruct (to_world lla rpy) as [x|] eqn:EW; [|discriminate E5]. eauto 8.
  - intros H. assert (E : exists items, mapM (fun kv => read_exif_ext_param X to_world (snd kv)) exifs = Ok items).
    { induction exifs as [|[n e] l IH]; [eexists; reflexivity|]. destruct IH as [items IH]; [intros n' e' Hi; apply (H n' e'); now right|].
      destruct (H n e (or_introl eq_refl)) as (lla & rpy & x & A & B & C). cbn [mapM snd]. unfold read_exif_ext_param at 1. rewrite A, B, C. cbn [bind]. rewrite IH. eexists. reflexivity. }
    destruct E as [items E]. rewrite E. eexists. reflexivity.
Qed.

(** * Cameras of reconstructions *)

Lemma from_odm_iff s c : from_odm s = Some c <-> osfm_type (strip white (lower s)) c.
Proof.
  unfold from_odm. set (t := strip white (lower s)). clearbody t. cbn [existsb]. split.
  - destruct (String.eqb_spec t "perspective") as [->|N1]; [intros H; injection H as <-; constructor|].
    destruct (String.eqb_spec t "simple_radial") as [->|N2]; [intros H; injection H as <-; constructor|].
    destruct (String.eqb_spec t "radial") as [->|N3]; [intros H; injection H as <-; constructor|]. cbn [orb]. unfold cam_of.
    destruct (String.eqb_spec t "pinhole") as [->|]; [intros H; injection H as <-; constructor|].
    destruct (String.eqb_spec t "brown") as [->|]; [intros H; injection H as <-; constructor|].
    destruct (String.eqb_spec t "fisheye") as [->|]; [intros H; injection H as <-; constructor|].
    destruct (String.eqb_spec t "opencv") as [->|]; [intros H; injection H as <-; constructor|].
    destruct (String.eqb t "rpc"); discriminate.
  - intros []; reflexivity.
Qed.

Lemma optional_iff c k : c <> Crpc -> In k (opt_frame_schema c) <-> optional_param c k.
Proof. intros H. unfold optional_param. destruct c; cbn; try contradiction; tauto. Qed.

Lemma osfm_not_rpc s : ~ osfm_type s Crpc.
Proof. intros H. inversion H. Qed.

Lemma bad_keys_false y l : bad_keys y l = false <-> forall k v, In (k, v) y -> exists s, k = KStr s /\ In s l.
Proof.
  unfold bad_keys. split.
  - intros H k v Hin. rewrite <- Bool.not_true_iff_false, existsb_exists in H. destruct k as [s|z].
    + exists s. split; [reflexivity|]. destruct (in_dec string_dec s l) as [|N]; [assumption|]. exfalso. apply H. exists (KStr s, v). split; [assumption|].
      cbn. apply negb_true_iff. apply Bool.not_true_is_false. rewrite existsb_exists. intros (x & Hx & E). apply String.eqb_eq in E. subst. contradiction.
    + exfalso. apply H. exists (KInt z, v). auto.
  - intros H. apply Bool.not_true_is_false. rewrite existsb_exists. intros ([k v] & Hin & E). destruct (H k v Hin) as (s & -> & Hs). cbn in E.
    apply negb_true_iff in E. rewrite <- Bool.not_true_iff_false, existsb_exists in E. apply E. exists s. split; [assumption|apply String.eqb_refl].
Qed.

(** Success exactly for the right keys. *)
Definition camera_ok (y : list (pykey * pyval)) : Prop :=
  exists s c, kget (KStr "projection_type") y = Some (PStr s) /\ osfm_type (strip white (lower (lower s))) c /\
  (exists w, kget (KStr "width") y = Some w) /\ (exists h, kget (KStr "height") y = Some h) /\ (exists f, osfm_focal y f) /\
  forall k v, In (k, v) y -> osfm_key y c k.

Lemma osfm_focal_fun y f g : osfm_focal y f -> osfm_focal y g -> f = g.
Proof. intros [] []; congruence. Qed.

Definition kdels (l : list string) (y : list (pykey * pyval)) := fold_left (fun y k => kdel k y) l y.

Lemma kget_kdels l y k : kget (KStr k) (kdels l y) = if in_dec string_dec k l then None else kget (KStr k) y.
Proof.
  unfold kdels. revert y. induction l as [|a l IH]; intros y; [reflexivity|]. cbn [fold_left]. rewrite IH, kget_kdel.
  destruct (String.eqb_spec k a) as [->|N].
  - destruct (in_dec string_dec a (a :: l)) as [_|C]; [|exfalso; apply C; now left]. destruct (in_dec string_dec a l); reflexivity.
  - destruct (in_dec string_dec k l) as [H|H], (in_dec string_dec k (a :: l)) as [H2|H2]; try reflexivity; exfalso; cbn in H2; intuition congruence.
Qed.

Lemma In_kdels l y k v : In (k, v) (kdels l y) <-> In (k, v) y /\ forall a, In a l -> k <> KStr a.
Proof.
  unfold kdels. revert y. induction l as [|a l IH]; intros y; cbn [fold_left].
  - split; [intros H; split; [exact H|intros a []]|tauto].
  - rewrite IH, In_kdel. split.
    + intros [[H1 H2] H3]. split; [exact H1|]. intros b [<-|Hb]; [exact H2|now apply H3].
    + intros [H1 H2]. split; [split; [exact H1|apply H2; now left]|]. intros b Hb. apply H2. now right.
Qed.

Lemma NoDup_kdels l y : NoDup (map fst y) -> NoDup (map fst (kdels l y)).
Proof. unfold kdels. revert y. induction l as [|a l IH]; intros y H; [exact H|]. cbn [fold_left]. apply IH. now apply NoDup_kdel. Qed.

(** The names that the focal length comes from. *)
Definition focal_keys (y : list (pykey * pyval)) : list string := match kget (KStr "focal") y with Some _ => ["focal"] | None => ["focal_x"; "focal_y"] end.
Definition used_keys (y : list (pykey * pyval)) : list string := ["projection_type"; "width"; "height"] ++ focal_keys y ++ ["c_x"; "c_y"].
Definition centre (y : list (pykey * pyval)) (from to : string) : dict mval := match kget (KStr from) y with Some v => [(to, MV v)] | None => [] end.

Lemma focal_step y y3 : y3 = kdels ["projection_type"; "width"; "height"] y -> forall (f : mval) (y4 : list (pykey * pyval)),
  match kget (KStr "focal") y3 with
  | Some v => Ok (MV v, kdel "focal" y3)
  | None => match kget (KStr "focal_x") y3, kget (KStr "focal_y") y3 with
            | Some fx, Some fy => Ok (if val_eqb fx fy then MV fx else MTup [fx; fy], kdel "focal_y" (kdel "focal_x" y3))
            | _, _ => Err ParamError
            end
  end = Ok (f, y4) <-> osfm_focal y f /\ y4 = kdels (["projection_type"; "width"; "height"] ++ focal_keys y) y.
Proof.
  intros -> f y4. rewrite !kget_kdels. cbn [in_dec]. unfold focal_keys.
  repeat match goal with |- context[in_dec string_dec ?a ?l] => destruct (in_dec string_dec a l) as [C|_]; [exfalso; cbn in C; repeat destruct C as [C|C]; discriminate || contradiction|] end.
  destruct (kget (KStr "focal") y) as [v|] eqn:E1.
  - split.
    + intros H. injection H as <- <-. split; [now constructor|reflexivity].
    + intros [H ->]. rewrite (osfm_focal_fun y f (MV v) H) by now constructor. reflexivity.
  - destruct (kget (KStr "focal_x") y) as [fx|] eqn:E2; [|split; [discriminate|intros [[] _]; congruence]].
    destruct (kget (KStr "focal_y") y) as [fy|] eqn:E3; [|split; [discriminate|intros [[] _]; congruence]].
    assert (F : osfm_focal y (if val_eqb fx fy then MV fx else MTup [fx; fy])). { destruct (val_eqb fx fy) eqn:E4; [eapply OF_same; eassumption|eapply OF_two; eassumption]. }
    split.
    + intros H. injection H as <- <-. split; [exact F|reflexivity].
    + intros [H ->]. rewrite (osfm_focal_fun y _ _ H F). reflexivity.
Qed.

Lemma parse_shape y p : parse_json_param y = Ok p <->
  exists s c w h f, kget (KStr "projection_type") y = Some (PStr s) /\ osfm_type (strip white (lower (lower s))) c /\
  kget (KStr "width") y = Some w /\ kget (KStr "height") y = Some h /\ osfm_focal y f /\ bad_keys (kdels (used_keys y) y) (opt_frame_schema c) = false /\
  p = dupdate ([("cam_type", MCam c); ("im_size", MTup [w; h]); ("focal_len", f)] ++ centre y "c_x" "cx" ++ centre y "c_y" "cy") (str_items (kdels (used_keys y) y)).
Proof.
  unfold parse_json_param. cbn [iterM]. unfold kmem.
  destruct (kget (KStr "projection_type") y) as [pt|] eqn:EP; [|split; [discriminate|intros (? & ? & ? & ? & ? & C & _); discriminate C]]. cbn [bind].
  destruct (kget (KStr "width") y) as [w|] eqn:EW; [|split; [discriminate|intros (? & ? & ? & ? & ? & _ & _ & C & _); discriminate C]]. cbn [bind].
  destruct (kget (KStr "height") y) as [h|] eqn:EH; [|split; [discriminate|intros (? & ? & ? & ? & ? & _ & _ & _ & C & _); discriminate C]]. cbn [bind].
  destruct pt as [| | | | |s| |]; try (split; [discriminate|intros (? & ? & ? & ? & ? & C & _); discriminate C]). cbn [bind].
  rewrite (kget_kdel _ y "width"), (kget_kdel _ y "height"). change (String.eqb "width" "projection_type") with false. change (String.eqb "height" "projection_type") with false. cbv iota. rewrite EW, EH. cbn [bind].
  change (kdel "height" (kdel "width" (kdel "projection_type" y))) with (kdels ["projection_type"; "width"; "height"] y).
  destruct (from_odm (lower s)) as [c|] eqn:EO; cbn [bind].
  2: { split; [discriminate|]. intros (s' & c & _ & _ & _ & C & O & _). injection C as <-. apply from_odm_iff in O. congruence. }
  pose proof (focal_step y _ eq_refl) as FS.
  match type of FS with forall f y4, ?m = Ok (f, y4) <-> _ => destruct m as [[f y4]|err] eqn:EF end; cbn [bind].
  2: { split; [discriminate|]. intros (s' & c' & w' & h' & f & _ & _ & _ & _ & C & _). exfalso.
       specialize (FS f (kdels (["projection_type"; "width"; "height"] ++ focal_keys y) y)). destruct FS as [_ FS]. discriminate (FS (conj C eq_refl)). }
  destruct (proj1 (FS f y4) eq_refl) as [F ->]. clear FS EF.
  assert (EC : forall k, In k ["c_x"; "c_y"] -> kget (KStr k) (kdels (["projection_type"; "width"; "height"] ++ focal_keys y) y) = kget (KStr k) y).
  { intros k Hk. rewrite kget_kdels. destruct (in_dec _ _ _) as [C|]; [|reflexivity]. exfalso. unfold focal_keys in C. destruct (kget (KStr "focal") y); cbn in C, Hk; intuition congruence. }
  rewrite !EC by (cbn; tauto).
  assert (EU : kdel "c_y" (kdel "c_x" (kdels (["projection_type"; "width"; "height"] ++ focal_keys y) y)) = kdels (used_keys y) y).
  { unfold used_keys, kdels. rewrite app_assoc. rewrite (fold_left_app _ (_ ++ _)). reflexivity. }
  rewrite EU. clear EC EU. split.
  - destruct (bad_keys _ _) eqn:EB; [discriminate|]. intros H. injection H as <-. exists s, c, w, h, f. apply from_odm_iff in EO. repeat (split; [assumption || reflexivity|]). reflexivity.
  - intros (s' & c' & w' & h' & f' & A & B & C & D & G & EB & ->). injection A as <-. injection C as <-. injection D as <-. apply from_odm_iff in B.
    assert (c' = c) by congruence. subst c'. rewrite (osfm_focal_fun y _ _ G F) in *. rewrite EB. reflexivity.
Qed.

Lemma used_iff y k : In k (used_keys y) <->
  In k ["projection_type"; "width"; "height"; "c_x"; "c_y"] \/ if match kget (KStr "focal") y with Some _ => true | None => false end then k = "focal" else k = "focal_x" \/ k = "focal_y".
Proof. unfold used_keys, focal_keys. destruct (kget (KStr "focal") y); cbn; intuition congruence. Qed.

Lemma bad_iff y c : c <> Crpc -> bad_keys (kdels (used_keys y) y) (opt_frame_schema c) = false <-> forall k v, In (k, v) y -> osfm_key y c k.
Proof.
  intros N. rewrite bad_keys_false. split.
  - intros H k v Hin. unfold osfm_key. destruct k as [s|z].
    + exists s. split; [reflexivity|]. destruct (in_dec string_dec s (used_keys y)) as [U|U]; [apply used_iff in U; tauto|].
      destruct (H (KStr s) v) as (s' & E & Hs); [apply In_kdels; split; [assumption|]; intros a Ha C; injection C as <-; contradiction|]. injection E as <-.
      apply optional_iff in Hs; [|assumption]. tauto.
    + exfalso. destruct (H (KInt z) v) as (s' & E & _); [apply In_kdels; split; [assumption|]; discriminate|discriminate E].
  - intros H k v Hin. apply In_kdels in Hin. destruct Hin as [Hin Hn]. destruct (H k v Hin) as (s & -> & C). exists s. split; [reflexivity|].
    apply optional_iff; [assumption|]. destruct C as [C|[C|C]]; [|assumption|]; exfalso; apply (Hn s); try reflexivity; apply used_iff; tauto.
Qed.

Lemma centre_get y from to k : dget k (centre y from to) = if String.eqb k to then option_map MV (kget (KStr from) y) else None.
Proof. unfold centre. destruct (kget (KStr from) y); cbn; destruct (String.eqb k to); reflexivity. Qed.

Lemma dget_app_or {V} k (d e : dict V) : dget k (d ++ e) = match dget k d with Some v => Some v | None => dget k e end.
Proof. induction d as [|[k' v'] d IH]; [reflexivity|]. cbn [app dget]. destruct (String.eqb k k'); [reflexivity|exact IH]. Qed.

Lemma parse_get y p c w h f : NoDup (map fst y) ->
  p = dupdate ([("cam_type", MCam c); ("im_size", MTup [w; h]); ("focal_len", f)] ++ centre y "c_x" "cx" ++ centre y "c_y" "cy") (str_items (kdels (used_keys y) y)) ->
  forall k, dget k p = match (if in_dec string_dec k (used_keys y) then None else kget (KStr k) y) with
    | Some v => Some (MV v)
    | None => if String.eqb k "cam_type" then Some (MCam c) else if String.eqb k "im_size" then Some (MTup [w; h]) else if String.eqb k "focal_len" then Some f
              else if String.eqb k "cx" then option_map MV (kget (KStr "c_x") y) else if String.eqb k "cy" then option_map MV (kget (KStr "c_y") y) else None
    end.
Proof.
  intros ND -> k. rewrite <- kget_kdels. pose proof (dget_str_items (kdels (used_keys y) y) k) as E.
  destruct (kget (KStr k) (kdels (used_keys y) y)) as [v|]; cbn [option_map] in E.
  - apply dget_dupdate_in; [apply NoDup_str_items, NoDup_kdels; exact ND|exact E].
  - rewrite dget_dupdate_notin by (apply dget_None; exact E). cbn [app dget]. destruct (String.eqb k "cam_type"); [reflexivity|]. destruct (String.eqb k "im_size"); [reflexivity|].
    destruct (String.eqb k "focal_len"); [reflexivity|]. rewrite dget_app_or, !centre_get. destruct (String.eqb_spec k "cx") as [->|].
    + destruct (kget (KStr "c_x") y); reflexivity.
    + destruct (String.eqb k "cy"); reflexivity.
Qed.

Lemma focal_needs y : forall k, ~ In k (used_keys y) -> k <> "projection_type" /\ k <> "width" /\ k <> "height" /\ k <> "c_x" /\ k <> "c_y".
Proof. intros k H. rewrite used_iff in H. repeat split; intros ->; apply H; left; cbn; tauto. Qed.

Lemma not_used y c k : optional_param c k -> ~ In k (used_keys y).
Proof.
  intros H U. apply used_iff in U. unfold optional_param in H. destruct c, (kget (KStr "focal") y); cbn in H, U;
  repeat match type of H with _ \/ _ => destruct H as [H|H] end; try contradiction; subst; intuition congruence.
Qed.

Lemma head_not_optional c k : In k ["cam_type"; "im_size"; "focal_len"] -> ~ optional_param c k.
Proof. intros H O. unfold optional_param in O. cbn in H. destruct H as [<-|[<-|[<-|[]]]]; destruct c; cbn in O; intuition congruence. Qed.

Lemma parse_sound y p : NoDup (map fst y) -> parse_json_param y = Ok p -> osfm_camera y p.
Proof.
  intros ND H. apply parse_shape in H. destruct H as (s & c & w & h & f & EP & EO & EW & EH & F & EB & E).
  assert (N : c <> Crpc) by (intros ->; exact (osfm_not_rpc _ EO)). rewrite (bad_iff y c N) in EB. pose proof (parse_get y p c w h f ND E) as G. clear E.
  assert (HK : forall k v, kget (KStr k) y = Some v -> ~ In k (used_keys y) -> optional_param c k).
  { intros k v Hk U. apply kget_In, EB in Hk. destruct Hk as (s' & EQ & C). injection EQ as <-. rewrite used_iff in U. tauto. }
  assert (HH : forall k, In k ["cam_type"; "im_size"; "focal_len"] -> (if in_dec string_dec k (used_keys y) then None else kget (KStr k) y) = None).
  { intros k Hk. destruct (in_dec _ _ _) as [|U]; [reflexivity|]. destruct (kget (KStr k) y) as [v|] eqn:EK; [|reflexivity]. exfalso. exact (head_not_optional c k Hk (HK k v EK U)). }
  split.
  - exists s, c. split; [exact EP|]. split; [exact EO|]. split; [|split; [exact EB|split]].
    + rewrite G, HH by (cbn; tauto). reflexivity.
    + intros k O NC. rewrite G. destruct (in_dec _ _ _) as [U|_]; [exfalso; exact (not_used y c k O U)|]. destruct (kget (KStr k) y); [reflexivity|].
      destruct (String.eqb_spec k "cam_type") as [->|]; [exfalso; eapply head_not_optional; [|exact O]; cbn; tauto|].
      destruct (String.eqb_spec k "im_size") as [->|]; [exfalso; eapply head_not_optional; [|exact O]; cbn; tauto|].
      destruct (String.eqb_spec k "focal_len") as [->|]; [exfalso; eapply head_not_optional; [|exact O]; cbn; tauto|].
      destruct (String.eqb_spec k "cx") as [->|]; [exfalso; apply NC; cbn; tauto|]. destruct (String.eqb_spec k "cy") as [->|]; [exfalso; apply NC; cbn; tauto|]. reflexivity.
    + intros k v Hk. rewrite G in Hk. destruct (in_dec _ _ _) as [U|U].
      * destruct (String.eqb_spec k "cam_type") as [->|]; [left; cbn; tauto|]. destruct (String.eqb_spec k "im_size") as [->|]; [left; cbn; tauto|].
        destruct (String.eqb_spec k "focal_len") as [->|]; [left; cbn; tauto|]. destruct (String.eqb_spec k "cx") as [->|]; [right; left; cbn; tauto|].
        destruct (String.eqb_spec k "cy") as [->|]; [right; left; cbn; tauto|]. discriminate Hk.
      * destruct (kget (KStr k) y) as [v'|] eqn:EK; [right; exact (HK k v' EK U)|].
        destruct (String.eqb_spec k "cam_type") as [->|]; [left; cbn; tauto|]. destruct (String.eqb_spec k "im_size") as [->|]; [left; cbn; tauto|].
        destruct (String.eqb_spec k "focal_len") as [->|]; [left; cbn; tauto|]. destruct (String.eqb_spec k "cx") as [->|]; [right; left; cbn; tauto|].
        destruct (String.eqb_spec k "cy") as [->|]; [right; left; cbn; tauto|]. discriminate Hk.
  - exists w, h. split; [exact EW|]. split; [exact EH|]. rewrite G, HH by (cbn; tauto). reflexivity.
  - exists f. split; [exact F|]. rewrite G, HH by (cbn; tauto). reflexivity.
  - rewrite G. destruct (in_dec _ _ _) as [U|_]; [exfalso; eapply (not_used y Cpinhole); [|exact U]; left; cbn; tauto|]. destruct (kget (KStr "cx") y); reflexivity.
  - rewrite G. destruct (in_dec _ _ _) as [U|_]; [exfalso; eapply (not_used y Cpinhole); [|exact U]; left; cbn; tauto|]. destruct (kget (KStr "cy") y); reflexivity.
Qed.

Lemma parse_iff y : (exists p, parse_json_param y = Ok p) <-> camera_ok y.
Proof.
  split.
  - intros [p H]. apply parse_shape in H. destruct H as (s & c & w & h & f & EP & EO & EW & EH & F & EB & _). exists s, c.
    assert (N : c <> Crpc) by (intros ->; exact (osfm_not_rpc _ EO)). rewrite (bad_iff y c N) in EB. eauto 10.
  - intros (s & c & EP & EO & [w EW] & [h EH] & [f F] & EB). assert (N : c <> Crpc) by (intros ->; exact (osfm_not_rpc _ EO)). rewrite <- (bad_iff y c N) in EB.
    eexists. apply parse_shape. exists s, c, w, h, f. repeat (split; [assumption|]). reflexivity.
Qed.

(** * The reader of reconstructions *)

Lemma Forall2_In_l {A B} (P : A -> B -> Prop) l m : Forall2 P l m -> forall a, In a l -> exists b, In b m /\ P a b.
Proof. induction 1 as [|a b l m H _ IH]; intros x Hx; [destruct Hx|]. destruct Hx as [<-|Hx]; [exists b; split; [now left|assumption]|]. destruct (IH x Hx) as (c & Hc & Pc). exists c. split; [now right|assumption]. Qed.

Lemma Forall2_In_r {A B} (P : A -> B -> Prop) l m : Forall2 P l m -> forall b, In b m -> exists a, In a l /\ P a b.
Proof. induction 1 as [|a b l m H _ IH]; intros x Hx; [destruct Hx|]. destruct Hx as [<-|Hx]; [exists a; split; [now left|assumption]|]. destruct (IH x Hx) as (c & Hc & Pc). exists c. split; [now right|assumption]. Qed.

Lemma prefix_spec p s : String.prefix p s = true -> exists t, s = (p ++ t)%string.
Proof.
  revert s. induction p as [|c p IH]; intros s H; [now exists s|]. destruct s as [|c' s]; [discriminate H|]. cbn in H. destruct (ascii_dec c c') as [->|]; [|discriminate H].
  destruct (IH s H) as [t ->]. now exists t.
Qed.

Lemma prefix_app p t : String.prefix p (p ++ t)%string = true.
Proof. induction p as [|c p IH]; cbn; [destruct t; reflexivity|]. destruct (ascii_dec c c); [exact IH|contradiction]. Qed.

Lemma drop3 a b c t : drop 3 (String a (String b (String c t))) = t.
Proof. unfold drop. cbn [String.length substring Nat.sub]. rewrite ?Nat.sub_0_r. induction t as [|x t IH]; [reflexivity|]. cbn [String.length substring]. now rewrite IH. Qed.

Lemma bare_iff id b : bare id b <-> b = strip_v2 id.
Proof.
  unfold bare, strip_v2, startswith. destruct (String.prefix "v2 " id) eqn:E.
  - apply prefix_spec in E. destruct E as [t ->]. split.
    + intros [H|[_ H]]; [|exfalso; exact (H t eq_refl)]. injection H as ->. symmetry. apply drop3.
    + intros ->. left. f_equal. symmetry. apply drop3.
  - split.
    + intros [->|[-> _]]; [|reflexivity]. rewrite prefix_app in E. discriminate E.
    + intros ->. right. split; [reflexivity|]. intros s ->. rewrite prefix_app in E. discriminate E.
Qed.

Lemma field_dict k d v : field k (PDict d) = Ok v <-> kget (KStr k) d = Some v.
Proof. cbn. destruct (kget (KStr k) d); split; intros H; congruence. Qed.

Lemma osfm_cameras X cv_ext d rest ints exts before id y after b :
  osfm_reader X cv_ext (PList (PDict d :: rest)) = Ok (ints, exts) -> kget (KStr "cameras") d = Some (PDict (before ++ (KStr id, PDict y) :: after)) ->
  NoDup (map fst y) -> bare id b -> (forall id' v, In (KStr id', v) after -> ~ bare id' b) ->
  exists p, osfm_camera y p /\ dget b ints = Some p.
Proof.
  intros H HC ND HB HU. unfold osfm_reader in H. destruct (is_ok _); [|discriminate H]. cbn [bind] in H. rewrite (proj2 (field_dict _ _ _) HC) in H. cbn [bind] in H.
  destruct (field "shots" (PDict d)) as [shots|]; [|discriminate H]. cbn [bind] in H.
  destruct (read_osfm_int_param _) as [ints'|] eqn:E; [|discriminate H]. cbn [bind] in H.
  assert (ints' = ints). { destruct shots; try discriminate H. destruct (mapM _ _); [|discriminate H]. cbn [bind] in H. congruence. } subst ints'. clear H.
  unfold read_osfm_int_param in E. destruct (is_ok _); [|discriminate E]. cbn [bind] in E. destruct (mapM _ _) as [items|] eqn:EM; [|discriminate E]. cbn [bind] in E. injection E as <-.
  apply mapM_Ok in EM. apply Forall2_app_inv_l in EM. destruct EM as (i1 & i2 & _ & E2 & ->). inversion E2 as [|? it ? i3 E3 E4]; subst.
  destruct (parse_json_param y) as [p|] eqn:EP; [|discriminate E3]. cbn [bind] in E3. injection E3 as <-.
  exists p. split; [now apply parse_sound|]. rewrite dict_of_last. apply bare_iff in HB. subst b. apply last_named_here.
  intros w Hw. clear - E4 HU Hw. induction E4 as [|[[id'|z] v'] it l l' E5 _ IH]; [destruct Hw| |].
  - destruct Hw as [->|Hw].
    + destruct v'; try discriminate E5. destruct (parse_json_param d); [|discriminate E5]. cbn [bind] in E5. injection E5 as EQ _. apply (HU id' (PDict d)); [now left|]. apply bare_iff. congruence.
    + apply IH; [|exact Hw]. intros id0 v0 Hi. apply (HU id0 v0). now right.
  - discriminate E5.
Qed.

Lemma osfm_camera_names X cv_ext d rest ints exts cams : osfm_reader X cv_ext (PList (PDict d :: rest)) = Ok (ints, exts) -> kget (KStr "cameras") d = Some (PDict cams) ->
  forall b, (exists p, dget b ints = Some p) <-> exists id y, In (KStr id, PDict y) cams /\ bare id b.
Proof.
  intros H HC b. unfold osfm_reader in H. destruct (is_ok _); [|discriminate H]. cbn [bind] in H. rewrite (proj2 (field_dict _ _ _) HC) in H. cbn [bind] in H.
  destruct (field "shots" (PDict d)) as [shots|]; [|discriminate H]. cbn [bind] in H.
  destruct (read_osfm_int_param _) as [ints'|] eqn:E; [|discriminate H]. cbn [bind] in H.
  assert (ints' = ints). { destruct shots; try discriminate H. destruct (mapM _ _); [|discriminate H]. cbn [bind] in H. congruence. } subst ints'. clear H.
  unfold read_osfm_int_param in E. destruct (is_ok _); [|discriminate E]. cbn [bind] in E. destruct (mapM _ _) as [items|] eqn:EM; [|discriminate E]. cbn [bind] in E. injection E as <-.
  apply mapM_Ok in EM. rewrite dict_of_last. split.
  - intros [p H]. apply last_named_some in H. clear HC. induction EM as [|[[id'|z] v'] it l l' E5 _ IH]; [destruct H| |discriminate E5]. destruct H as [->|H].
    + destruct v'; try discriminate E5. destruct (parse_json_param d0); [|discriminate E5]. cbn [bind] in E5. injection E5 as EQ _. exists id', d0. split; [now left|]. apply bare_iff. congruence.
    + destruct (IH H) as (id & y & Hi & Hb). exists id, y. split; [now right|exact Hb].
  - intros (id & y & Hin & Hb). apply bare_iff in Hb. subst b. destruct (Forall2_In_l _ _ _ EM _ Hin) as (it & Hit & E5). cbn in E5.
    destruct (parse_json_param y) as [p|]; [|discriminate E5]. cbn [bind] in E5. injection E5 as <-. apply last_named_In. exact (in_map fst _ _ Hit).
Qed.

Lemma osfm_shots X cv_ext d rest ints exts shots : osfm_reader X cv_ext (PList (PDict d :: rest)) = Ok (ints, exts) -> kget (KStr "shots") d = Some (PDict shots) ->
  NoDup (map fst shots) -> forall name x b, dget name exts = Some (x, b) <->
  exists sh t r id, In (KStr name, PDict sh) shots /\ kget (KStr "translation") sh = Some t /\ kget (KStr "rotation") sh = Some r /\ kget (KStr "camera") sh = Some (PStr id) /\
    x = cv_ext t r /\ bare id b.
Proof.
  intros H HS ND name x b. unfold osfm_reader in H. destruct (is_ok _); [|discriminate H]. cbn [bind] in H. destruct (field "cameras" (PDict d)) as [cams|]; [|discriminate H]. cbn [bind] in H.
  rewrite (proj2 (field_dict _ _ _) HS) in H. cbn [bind] in H. destruct (read_osfm_int_param _) as [ints'|]; [|discriminate H]. cbn [bind] in H.
  destruct (mapM _ _) as [items|] eqn:EM; [|discriminate H]. cbn [bind] in H. injection H as _ <-. apply mapM_Ok in EM. rewrite dict_of_last.
  assert (SE : forall kv it, shot_ext X cv_ext kv = Ok it <-> exists n sh t r id, kv = (KStr n, PDict sh) /\ kget (KStr "translation") sh = Some t /\ kget (KStr "rotation") sh = Some r /\
    kget (KStr "camera") sh = Some (PStr id) /\ it = (n, (cv_ext t r, strip_v2 id))).
  { intros [k v] it. unfold shot_ext. cbn [fst snd]. split.
    - intros E. destruct v as [| | | | | | |sh]; try discriminate E. cbn [field] in E. destruct (kget (KStr "translation") sh) as [t|] eqn:E1; [|discriminate E]. cbn [bind] in E.
      destruct (kget (KStr "rotation") sh) as [r|] eqn:E2; [|discriminate E]. cbn [bind] in E. destruct (kget (KStr "camera") sh) as [c|] eqn:E3; [|discriminate E]. cbn [bind] in E.
      destruct k as [n|]; [|discriminate E]. destruct c as [| | | | |id| |]; try discriminate E. injection E as <-. exists n, sh, t, r, id. auto.
    - intros (n & sh & t & r & id & E & E1 & E2 & E3 & ->). injection E as -> ->. cbn [field]. rewrite E1. cbn [bind]. rewrite E2. cbn [bind]. rewrite E3. reflexivity. }
  assert (U : forall w, In (name, w) items -> last_named name items = Some w).
  { intros w Hw. assert (NI : NoDup (map fst items)).
    { clear - EM ND SE. induction EM as [|kv it l l' E5 EM' IH]; [constructor|]. cbn [map] in ND |- *. inversion ND as [|? ? N1 N2]; subst. constructor; [|now apply IH].
      intros C. apply N1. clear - EM' E5 C SE. apply SE in E5. destruct E5 as (n & sh & t & r & id & -> & _ & _ & _ & ->). cbn [fst] in C |- *.
      induction EM' as [|kv it l l' E6 _ IH]; [destruct C|]. cbn [map] in C |- *. destruct C as [C|C]; [|right; now apply IH].
      left. apply SE in E6. destruct E6 as (n' & sh' & t' & r' & id' & -> & _ & _ & _ & ->). cbn [fst] in C |- *. congruence. }
    clear - Hw NI. apply in_split in Hw. destruct Hw as (l1 & l2 & ->). apply last_named_here. intros w' Hw'. rewrite map_app in NI. cbn [map fst] in NI.
    apply NoDup_remove_2 in NI. apply NI. apply in_or_app. right. apply (in_map fst) in Hw'. exact Hw'. }
  split.
  - intros H. apply last_named_some in H. destruct (Forall2_In_r _ _ _ EM _ H) as (kv & Hkv & E). apply SE in E. destruct E as (n & sh & t & r & id & -> & E1 & E2 & E3 & EQ).
    injection EQ as -> -> ->. exists sh, t, r, id. repeat (split; [assumption || reflexivity|]). now apply bare_iff.
  - intros (sh & t & r & id & Hin & E1 & E2 & E3 & -> & HB). apply bare_iff in HB. subst b. apply U. destruct (Forall2_In_l _ _ _ EM _ Hin) as (it & Hit & E). apply SE in E.
    destruct E as (n & sh' & t' & r' & id' & EQ & F1 & F2 & F3 & ->). injection EQ as <- <-. congruence.
Qed.
