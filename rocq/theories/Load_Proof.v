(** Proofs about loading and sharing camera parameters. *)
From Coq Require Import String Ascii List Bool Arith Lia QArith.
From Verif Require Import Py Py_Proof Validate_Model Files_Model Files_Spec Files_Proof Params_Model Params_Spec Params_Proof Exif_Model Factory_Model Load_Model Load_Spec.
From Verif Require Factory_Spec Factory_Proof.
Import ListNotations.
Open Scope string_scope.
Open Scope list_scope.

(** * Extensions *)
Lemma lower_dot : forall c, lower_ascii c = "."%char -> c = "."%char.
Proof. intros c. destruct c as [[] [] [] [] [] [] [] []]; vm_compute; congruence. Qed.

Lemma lower_no_dot : forall s, ~ Factory_Spec.has_char "." (lower s) -> ~ Factory_Spec.has_char "." s.
Proof.
  induction s as [|c s IH]; intros H; [exact H|]. cbn [lower] in H. cbn [Factory_Spec.has_char] in *. intros [<-|Hs].
  - apply H. left. reflexivity.
  - apply IH; [tauto|assumption].
Qed.

Lemma split_at : forall i s, (i <= String.length s)%nat ->
  s = (substring 0 i s ++ substring i (String.length s - i) s)%string.
Proof.
  induction i as [|i IH]; intros s H.
  - rewrite Nat.sub_0_r. rewrite Factory_Proof.substring_0_all. destruct s; reflexivity.
  - destruct s as [|c s]; [cbn in H; lia|]. cbn. f_equal. apply IH. cbn in H. lia.
Qed.

Lemma substring_0_nonempty : forall i s, (0 < i)%nat -> s <> "" -> substring 0 i s <> "".
Proof. intros [|i] [|c s] H1 H2; try lia; try congruence. cbn. discriminate. Qed.

Lemma suffix_iff : forall name e, e <> "" -> ~ Factory_Spec.has_char "." e ->
  (lower (suffix name) = String "." e <-> exists s y, name = (s ++ y)%string /\ s <> "" /\ any_case y (String "." e)).
Proof.
  intros name e He Hd. split.
  - unfold suffix. destruct (rfind "." name) as [i|] eqn:E; [|discriminate].
    destruct ((0 <? i) && (i <? String.length name - 1))%nat eqn:B; [|discriminate]. apply andb_true_iff in B.
    destruct B as [B1 B2]. apply Nat.ltb_lt in B1, B2. intros H.
    exists (substring 0 i name), (substring i (String.length name - i) name). split; [apply split_at; lia|]. split.
    + apply substring_0_nonempty; [assumption|]. intros ->. discriminate.
    + apply lower_any_case. exact H.
  - intros (s & y & -> & Hs & Hy). apply lower_any_case in Hy. destruct y as [|c y]; [discriminate|].
    cbn [lower] in Hy. injection Hy as Hc Hy. apply lower_dot in Hc. subst c.
    assert (Hn : ~ Factory_Spec.has_char "." y) by (apply lower_no_dot; rewrite Hy; assumption).
    assert (Hy0 : y <> "") by (intros ->; cbn in Hy; congruence).
    unfold suffix. rewrite Factory_Proof.rfind_at by assumption. rewrite Factory_Proof.length_app. cbn [String.length].
    assert (L1 : (0 < String.length s)%nat) by (destruct s; [congruence|cbn; lia]).
    assert (L2 : (0 < String.length y)%nat) by (destruct y; [congruence|cbn; lia]).
    destruct (Nat.ltb_spec 0 (String.length s)); [|lia].
    destruct (Nat.ltb_spec (String.length s) (String.length s + S (String.length y) - 1)); [|lia]. cbn [andb].
    replace (String.length s + S (String.length y) - String.length s)%nat with (S (String.length y)) by lia.
    assert (SUB : forall a b, substring (String.length a) (String.length b) (a ++ b) = b).
    { induction a as [|x a IH]; intros b; cbn; [apply Factory_Proof.substring_0_all|apply IH]. }
    change (S (String.length y)) with (String.length (String "." y)). rewrite SUB. cbn [lower]. rewrite Hy. reflexivity.
Qed.

Lemma last_part_exists : forall p, exists n, Factory_Spec.last_part p n.
Proof.
  induction p as [|c p [n H]].
  - exists "". constructor. intros [].
  - inversion H as [m Hn|d m Hn]; subst.
    + destruct (Ascii.ascii_dec "/" c) as [<-|N].
      * exists n. apply (Factory_Spec.in_folder "" n Hn).
      * exists (String c n). constructor. cbn. intuition.
    + exists n. apply (Factory_Spec.in_folder (String c d) n Hn).
Qed.

Lemma has_ext_iff : forall a e, e <> "" -> ~ Factory_Spec.has_char "." e ->
  (lower (suffix (get_filename a)) = String "." e <-> has_ext a (String "." e)).
Proof.
  assert (P : forall p e, e <> "" -> ~ Factory_Spec.has_char "." e -> (lower (suffix (path_name p)) = String "." e <->
            exists s y, Factory_Spec.last_part p (s ++ y)%string /\ s <> "" /\ any_case y (String "." e))).
  { intros p e He Hd. rewrite suffix_iff by assumption. split.
    - intros (s & y & E & Hs & Hy). exists s, y. split; [|auto]. destruct (last_part_exists p) as [n Hn]. rewrite <- E.
      rewrite (Factory_Proof.path_name_last _ _ Hn). assumption.
    - intros (s & y & E & Hs & Hy). exists s, y. split; [|auto]. apply Factory_Proof.path_name_last. assumption. }
  intros a e He Hd. unfold has_ext. destruct a as [p|i p|i [n|] t]; cbn [get_filename].
  1, 2, 3: rewrite P by assumption; split;
    [ intros (s & y & H); eexists; exists s, y; split; [constructor|assumption]
    | intros (q & s & y & H & H'); inversion H; subst; exists s, y; assumption ].
  split.
  - rewrite suffix_iff by assumption. intros (s & y & E & Hs & Hy). exfalso.
    assert (HC : Factory_Spec.has_char "." (s ++ y)%string).
    { apply lower_any_case in Hy. destruct y as [|c y]; [discriminate|]. cbn [lower] in Hy. injection Hy as Hc _.
      apply lower_dot in Hc. subst c. clear. induction s; cbn; auto. }
    rewrite <- E in HC. cbn in HC. intuition discriminate.
  - intros (q & s & y & H & _). inversion H.
Qed.

Ltac ext_side := first [discriminate | cbn; intuition discriminate].
Lemma ext_yaml : forall a, lower (suffix (get_filename a)) = ".yaml" <-> has_ext a ".yaml".
Proof. intros a. apply (has_ext_iff _ "yaml"); ext_side. Qed.
Lemma ext_yml : forall a, lower (suffix (get_filename a)) = ".yml" <-> has_ext a ".yml".
Proof. intros a. apply (has_ext_iff _ "yml"); ext_side. Qed.
Lemma ext_json : forall a, lower (suffix (get_filename a)) = ".json" <-> has_ext a ".json".
Proof. intros a. apply (has_ext_iff _ "json"); ext_side. Qed.
Lemma ext_geojson : forall a, lower (suffix (get_filename a)) = ".geojson" <-> has_ext a ".geojson".
Proof. intros a. apply (has_ext_iff _ "geojson"); ext_side. Qed.
Lemma ext_csv : forall a, lower (suffix (get_filename a)) = ".csv" <-> has_ext a ".csv".
Proof. intros a. apply (has_ext_iff _ "csv"); ext_side. Qed.
Lemma ext_txt : forall a, lower (suffix (get_filename a)) = ".txt" <-> has_ext a ".txt".
Proof. intros a. apply (has_ext_iff _ "txt"); ext_side. Qed.

Lemma farg_eqb_iff : forall a b, farg_eqb a b = true <-> same_arg a b.
Proof.
  intros a b. split.
  - destruct a, b; cbn; try discriminate; intros H.
    + apply String.eqb_eq in H. subst. constructor.
    + apply Nat.eqb_eq in H. subst. constructor.
    + apply Nat.eqb_eq in H. subst. constructor.
  - intros []; cbn; [apply String.eqb_refl|apply Nat.eqb_refl|apply Nat.eqb_refl].
Qed.

(** * Loading *)
Section Load.
Variable C : Type.
Variable crs_parse : string -> option C.
Variables ydec jdec : string -> option pyval.
Variable K : Type.
Variable csv_reader : io_kwargs C K -> farg -> string -> res (dict (dict mval) * option C).
Variable osfm_reader : io_kwargs C K -> pyval -> res (dict (dict mval) * dict (dict mval) * C).
Variable fs : fsys.

(** File objects that are used up after reading an argument. *)
Definition used (a : farg) (seen : list nat) : list nat :=
  match a with FObject i _ _ => i :: seen | _ => seen end.
Definition fresh (a : farg) (seen : list nat) : Prop :=
  match a with FObject i _ _ => ~ In i seen | _ => True end.

Lemma read_text_iff : forall a seen seen' t, fresh a seen ->
  (read_text fs a seen = (seen', Ok t) <-> text_of fs a t /\ seen' = match a with FObject i _ _ => i :: seen | _ => seen end).
Proof.
  intros a seen seen' t F. destruct a as [p|i p|i n u]; cbn in *.
  - split.
    + destruct (dget p fs) eqn:E; intros H; inversion H; subst. split; [constructor; assumption|reflexivity].
    + intros [H ->]. inversion H as [? ? HG| |]; subst. rewrite HG. reflexivity.
  - split.
    + destruct (dget p fs) eqn:E; intros H; inversion H; subst. split; [constructor; assumption|reflexivity].
    + intros [H ->]. inversion H as [|? ? ? HG|]; subst. rewrite HG. reflexivity.
  - destruct (existsb (Nat.eqb i) seen) eqn:E.
    + exfalso. apply F. apply existsb_exists in E. destruct E as (j & Hj & E). apply Nat.eqb_eq in E. congruence.
    + split.
      * intros H. inversion H; subst. split; [constructor|reflexivity].
      * intros [H ->]. inversion H; subst. reflexivity.
Qed.

Lemma rbind_ok : forall A B (m : reads A) (k : A -> reads B) seen seen' b,
  rbind m k seen = (seen', Ok b) <-> exists s1 a, m seen = (s1, Ok a) /\ k a s1 = (seen', Ok b).
Proof.
  intros. unfold rbind. destruct (m seen) as [s1 [a|e]] eqn:E; split.
  - intros H. exists s1, a. auto.
  - intros (s & x & H1 & H2). inversion H1; subst. assumption.
  - discriminate.
  - intros (s & x & H1 & _). discriminate.
Qed.

Lemma rret_ok : forall A (r : res A) seen seen' a, rret r seen = (seen', Ok a) <-> r = Ok a /\ seen' = seen.
Proof. intros. unfold rret. split; [intros H; inversion H; auto|intros [-> ->]; reflexivity]. Qed.

Lemma loaded_iff : forall dec a seen seen' doc, fresh a seen ->
  (loaded dec fs a seen = (seen', Ok doc) <-> exists t, text_of fs a t /\ dec t = Some doc /\ seen' = used a seen).
Proof.
  intros dec a seen seen' doc F. unfold loaded. rewrite rbind_ok. split.
  - intros (s1 & t & H1 & H2). apply read_text_iff in H1; [|assumption]. apply rret_ok in H2. destruct H1 as [H1 ->], H2 as [H2 ->].
    exists t. destruct (dec t); [|discriminate]. inversion H2; subst. auto.
  - intros (t & H1 & H2 & ->). exists (used a seen), t. split.
    + apply read_text_iff; auto.
    + apply rret_ok. rewrite H2. auto.
Qed.

Lemma exterior_iff : forall kw b seen seen' e c oi, fresh b seen ->
  (read_exterior C crs_parse jdec K csv_reader osfm_reader fs kw b seen = (seen', Ok (e, c, oi)) <->
   exterior_file C crs_parse jdec K csv_reader osfm_reader fs kw b e c oi /\ seen' = used b seen).
Proof.
  intros kw b seen seen' e c oi F. unfold read_exterior. cbv zeta.
  destruct (String.eqb_spec (lower (suffix (get_filename b))) ".csv") as [E1|N1];
  [|destruct (String.eqb_spec (lower (suffix (get_filename b))) ".txt") as [E2|N2]]; cbn [orb].
  3: destruct (String.eqb_spec (lower (suffix (get_filename b))) ".json") as [E3|N3];
     [|destruct (String.eqb_spec (lower (suffix (get_filename b))) ".geojson") as [E4|N4]].
  1, 2: (rewrite rbind_ok; split;
    [ intros (s1 & t & H1 & H2); apply rbind_ok in H2; destruct H2 as (s2 & [e' c'] & H2 & H3);
      apply rret_ok in H2, H3; destruct H2 as [H2 ->], H3 as [H3 ->]; inversion H3; subst;
      apply read_text_iff in H1; [|assumption]; destruct H1 as [H1 ->]; split;
      [ econstructor 1; [|eassumption|eassumption]; rewrite <- ext_csv, <- ext_txt; tauto | reflexivity ]
    | intros [H ->]; inversion H as [t' ? ? HE HT HR|t' ? ? ? ? HE|t' ? ? ? HE]; subst;
      [ exists (used b seen), t'; split; [apply read_text_iff; auto|]; apply rbind_ok; exists (used b seen), (e, c);
        split; apply rret_ok; auto
      | exfalso; apply ext_json in HE; congruence | exfalso; apply ext_geojson in HE; congruence ] ]).
  - rewrite rbind_ok. split.
    + intros (s1 & doc & H1 & H2). apply rbind_ok in H2. destruct H2 as (s2 & [[i' e'] c'] & H2 & H3).
      apply rret_ok in H2, H3. destruct H2 as [H2 ->], H3 as [H3 ->]. inversion H3; subst.
      apply loaded_iff in H1; [|assumption]. destruct H1 as (t & T1 & T2 & ->). split; [|reflexivity].
      econstructor 2; try eassumption. apply ext_json. assumption.
    + intros [H ->]. inversion H as [t' ? ? HE HT HR|t' doc i' ? c' HE HT HD HR|t' ? ? ? HE]; subst.
      * exfalso. rewrite <- ext_csv, <- ext_txt in HE. destruct HE; congruence.
      * exists (used b seen), doc. split; [apply loaded_iff; [assumption|exists t'; auto]|].
        apply rbind_ok. exists (used b seen), (i', e, c'). split; apply rret_ok; auto.
      * exfalso. apply ext_geojson in HE. congruence.
  - rewrite rbind_ok. split.
    + intros (s1 & doc & H1 & H2). apply rbind_ok in H2. destruct H2 as (s2 & [c' e'] & H2 & H3).
      apply rret_ok in H2, H3. destruct H2 as [H2 ->], H3 as [H3 ->]. inversion H3; subst.
      apply loaded_iff in H1; [|assumption]. destruct H1 as (t & T1 & T2 & ->). split; [|reflexivity].
      econstructor 3; try eassumption. apply ext_geojson. assumption.
    + intros [H ->]. inversion H as [t' ? ? HE HT HR|t' ? ? ? ? HE|t' doc ? c' HE HT HD HR]; subst.
      * exfalso. rewrite <- ext_csv, <- ext_txt in HE. destruct HE; congruence.
      * exfalso. apply ext_json in HE. congruence.
      * exists (used b seen), doc. split; [apply loaded_iff; [assumption|exists t'; auto]|].
        apply rbind_ok. exists (used b seen), (c', e). split; apply rret_ok; auto.
  - split; [intros H; apply rret_ok in H; destruct H; discriminate|].
    intros [H ->]. exfalso. inversion H as [t' ? ? HE|t' ? ? ? ? HE|t' ? ? ? HE]; subst.
    + rewrite <- ext_csv, <- ext_txt in HE. destruct HE; congruence.
    + apply ext_json in HE. congruence.
    + apply ext_geojson in HE. congruence.
Qed.

Lemma fresh_nil : forall a, fresh a [].
Proof. intros []; cbn; auto. Qed.

(** Interior parameters from the argument itself ([Some]), or left to the exterior file ([None]). *)
Lemma interior_iff : forall int ext seen' r,
  match int, ext with AFile a, AFile b => consistent a b | _, _ => True end ->
  (read_interior ydec jdec fs int ext [] = (seen', Ok r) <->
   seen' = (match int, r with AFile a, Some _ => used a [] | _, _ => [] end) /\
   match r with
   | Some i => own_interior ydec jdec fs int ext i
   | None => one_file int ext
   end).
Proof.
  intros int ext seen' r CO. destruct int as [a|d]; cbn [read_interior].
  2:{ rewrite rret_ok. split.
      - intros [H ->]. inversion H; subst. split; [reflexivity|constructor].
      - intros [-> H]. destruct r as [i|]; inversion H; subst. auto. }
  cbv zeta.
  destruct (String.eqb_spec (lower (suffix (get_filename a))) ".yaml") as [E1|N1];
  [|destruct (String.eqb_spec (lower (suffix (get_filename a))) ".yml") as [E2|N2]]; cbn [orb].
  1, 2: (rewrite rbind_ok; split;
    [ intros (s1 & doc & H1 & H2); apply rbind_ok in H2; destruct H2 as (s2 & i & H2 & H3);
      apply rret_ok in H2, H3; destruct H2 as [H2 ->], H3 as [H3 ->]; inversion H3; subst;
      apply loaded_iff in H1; [|apply fresh_nil]; destruct H1 as (t & T1 & T2 & ->); split; [reflexivity|];
      constructor; [intros b _ HJ; apply ext_json in HJ; congruence|];
      econstructor 1; try eassumption; rewrite <- ext_yaml, <- ext_yml; tauto
    | intros [-> H]; destruct r as [i|]; [|inversion H as [? HJ]; subst; apply ext_json in HJ; congruence];
      inversion H as [|? ? ? HN HI]; subst; inversion HI as [t doc HE HT HD HR|t doc HE]; subst;
      [ exists (used a []), doc; split; [apply loaded_iff; [apply fresh_nil|exists t; auto]|];
        apply rbind_ok; exists (used a []), i; split; apply rret_ok; auto
      | exfalso; apply ext_json in HE; congruence ] ]).
  destruct (String.eqb_spec (lower (suffix (get_filename a))) ".json") as [E3|N3].
  2:{ split; [intros H; apply rret_ok in H; destruct H; discriminate|]. intros [-> H]. exfalso. destruct r as [i|].
      - inversion H as [|? ? ? HN HI]; subst. inversion HI as [t doc HE|t doc HE]; subst.
        + rewrite <- ext_yaml, <- ext_yml in HE. destruct HE; congruence.
        + apply ext_json in HE. congruence.
      - inversion H as [? HJ]; subst. apply ext_json in HJ. congruence. }
  destruct (match ext with AFile b => farg_eqb a b | ADict _ => false end) eqn:EB; cbn [negb].
  - destruct ext as [b|]; [|discriminate]. apply farg_eqb_iff in EB. pose proof (CO EB) as <-. rewrite rret_ok. split.
    + intros [H ->]. inversion H; subst. split; [reflexivity|]. constructor. apply ext_json. assumption.
    + intros [-> H]. destruct r as [i|]; [|auto]. exfalso. inversion H as [|? ? ? HN HI]; subst.
      apply (HN a eq_refl); [apply ext_json|]; assumption.
  - assert (NS : forall b, ext = AFile b -> has_ext a ".json" -> ~ same_arg a b).
    { intros b -> _ HS. apply farg_eqb_iff in HS. congruence. }
    rewrite rbind_ok. split.
    + intros (s1 & doc & H1 & H2). apply rbind_ok in H2. destruct H2 as (s2 & i & H2 & H3).
      apply rret_ok in H2, H3. destruct H2 as [H2 ->], H3 as [H3 ->]. inversion H3; subst.
      apply loaded_iff in H1; [|apply fresh_nil]. destruct H1 as (t & T1 & T2 & ->). split; [reflexivity|].
      constructor; [assumption|]. econstructor 2; try eassumption. apply ext_json. assumption.
    + intros [-> H]. destruct r as [i|].
      * inversion H as [|? ? ? HN HI]; subst. inversion HI as [t doc HE|t doc HE HT HD HR]; subst.
        -- exfalso. rewrite <- ext_yaml, <- ext_yml in HE. destruct HE; congruence.
        -- exists (used a []), doc. split; [apply loaded_iff; [apply fresh_nil|exists t; auto]|].
           apply rbind_ok. exists (used a []), i. split; apply rret_ok; auto.
      * exfalso. inversion H as [? HJ]; subst. exact (NS a eq_refl HJ ltac:(apply farg_eqb_iff; destruct a; cbn;
          [apply String.eqb_refl|apply Nat.eqb_refl|apply Nat.eqb_refl])).
Qed.

Lemma own_crs_iff : forall kw c, own_crs crs_parse kw = Ok c <-> given_crs C crs_parse K kw c.
Proof.
  intros kw c. unfold own_crs. split.
  - destruct (io_crs kw) as [|s|x] eqn:E; intros H.
    + inversion H; subst. constructor. assumption.
    + destruct (crs_parse s) eqn:E2; inversion H; subst. econstructor; eassumption.
    + inversion H; subst. constructor. assumption.
  - intros [E|x E|s x E E2]; rewrite E; [reflexivity|reflexivity|rewrite E2; reflexivity].
Qed.

Theorem load_iff : forall kw int ext i e c,
  match int, ext with AFile a, AFile b => consistent a b | _, _ => True end ->
  ((exists seen, read_param C crs_parse ydec jdec K csv_reader osfm_reader fs kw int ext [] = (seen, Ok (i, e, c))) <->
   loads C crs_parse ydec jdec K csv_reader osfm_reader fs kw int ext i e c).
Proof.
  intros kw int ext i e c CO. unfold read_param. split.
  - intros (seen & H). apply rbind_ok in H. destruct H as (s1 & i0 & H1 & H2). apply interior_iff in H1; [|assumption].
    destruct H1 as [S1 H1]. destruct ext as [b|e'].
    + apply rbind_ok in H2. destruct H2 as (s2 & [[e2 c2] oi] & H2 & H3).
      apply rbind_ok in H3. destruct H3 as (s3 & i3 & H3 & H4). apply rret_ok in H3. destruct H3 as [H3 ->].
      apply rbind_ok in H4. destruct H4 as (s4 & c4 & H4 & H5). apply rret_ok in H4, H5. destruct H4 as [H4 ->], H5 as [H5 ->].
      inversion H5; subst i3 e2 c4.
      assert (FR : fresh b s1).
      { subst s1. destruct int as [a|d]; [|apply fresh_nil]. destruct i0 as [i0|]; [|apply fresh_nil].
        destruct b as [p|j p|j n t]; cbn; auto. destruct a as [p|k p|k m u]; cbn; auto. intros [<-|[]].
        pose proof (CO (same_object _ _ _ _ _)) as CO'. inversion CO'; subst m u.
        inversion H1 as [|? ? ? HN HI]; subst.
        assert (HJ : ~ has_ext (FObject k n t) ".json") by (intros HJ; exact (HN _ eq_refl HJ (same_object _ _ _ _ _))).
        inversion HI as [? ? HE|? ? HE]; subst; [|tauto].
        rewrite <- ext_yaml, <- ext_yml in HE. rewrite <- ext_json in HJ.
        unfold read_exterior in H2. cbv zeta in H2.
        destruct HE as [HE|HE]; rewrite HE in H2; cbn in H2; discriminate. }
      apply exterior_iff in H2; [|assumption]. destruct H2 as [H2 ->].
      destruct i0 as [i0|].
      * destruct i0 as [|x i0].
        -- destruct oi as [oi|]; [|discriminate]. inversion H3; subst oi.
           assert (exists c', c2 = Some c') as [c' ->] by (inversion H2; subst; eexists; reflexivity).
           inversion H4; subst. eapply from_exterior; [right; assumption|assumption].
        -- inversion H3; subst i. eapply from_both; [eassumption|discriminate|eassumption| |].
           ++ intros y ->. congruence.
           ++ intros ->. apply own_crs_iff. assumption.
      * destruct oi as [oi|]; [|discriminate]. inversion H3; subst oi.
        assert (exists c', c2 = Some c') as [c' ->] by (inversion H2; subst; eexists; reflexivity).
        inversion H4; subst. eapply from_exterior; [left; assumption|assumption].
    + apply rbind_ok in H2. destruct H2 as (s3 & i3 & H3 & H4). apply rret_ok in H3. destruct H3 as [H3 ->].
      apply rbind_ok in H4. destruct H4 as (s4 & c4 & H4 & H5). apply rret_ok in H4, H5. destruct H4 as [H4 ->], H5 as [H5 ->].
      inversion H5; subst i3 e' c4. destruct i0 as [i0|]; [|discriminate]. inversion H3; subst i0.
      constructor; [assumption|]. apply own_crs_iff. assumption.
  - assert (FR : forall b e c oi i0, own_interior ydec jdec fs int (AFile b) i0 -> ext = AFile b ->
              exterior_file C crs_parse jdec K csv_reader osfm_reader fs kw b e c oi ->
              fresh b (match int with AFile a => used a [] | ADict _ => [] end)).
    { intros b e' c' oi i0 HI -> HX. destruct int as [a|d]; [|apply fresh_nil].
      destruct b as [p|j p|j n t]; cbn; auto. destruct a as [p|k p|k m u]; cbn; auto. intros [<-|[]].
      pose proof (CO (same_object _ _ _ _ _)) as CO'. inversion CO'; subst m u.
      inversion HI as [|? ? ? HN HF]; subst.
      assert (HJ : ~ has_ext (FObject k n t) ".json") by (intros HJ; exact (HN _ eq_refl HJ (same_object _ _ _ _ _))).
      inversion HF as [? ? HE|? ? HE]; subst; [|tauto]. rewrite <- ext_yaml, <- ext_yml in HE.
      inversion HX as [? ? ? HE2|? ? ? ? ? HE2|? ? ? ? HE2]; subst.
      - rewrite <- ext_csv, <- ext_txt in HE2. destruct HE, HE2; congruence.
      - tauto.
      - apply ext_geojson in HE2. destruct HE; congruence. }
    intros H. inversion H as [? ? ? ? HI HC|? ? ? ? c0 oi ? HI Hne HX HC1 HC2|? ? ? ? c0 HI HX]; subst.
    + eexists. apply rbind_ok. exists (match int with AFile a => used a [] | ADict _ => [] end), (Some i). split.
      * apply interior_iff; [assumption|]. split; [|assumption]. destruct int; reflexivity.
      * apply rbind_ok. eexists _, i. split; [apply rret_ok; split; [reflexivity|reflexivity]|].
        apply rbind_ok. eexists _, c. split; [apply rret_ok; split; [apply own_crs_iff; assumption|reflexivity]|reflexivity].
    + eexists. apply rbind_ok. exists (match int with AFile a => used a [] | ADict _ => [] end), (Some i). split.
      * apply interior_iff; [assumption|]. split; [|assumption]. destruct int; reflexivity.
      * apply rbind_ok. eexists _, (e, c0, oi). split; [apply exterior_iff; [eapply FR; [eassumption|reflexivity|eassumption]|split; [assumption|reflexivity]]|].
        apply rbind_ok. eexists _, i. split; [apply rret_ok; split; [destruct i; [congruence|reflexivity]|reflexivity]|].
        apply rbind_ok. eexists _, c. split; [|reflexivity]. apply rret_ok. split; [|reflexivity].
        destruct c0 as [c0|]; [rewrite (HC1 c0 eq_refl); reflexivity|]. apply own_crs_iff. auto.
    + destruct HI as [HO|HI].
      * inversion HO as [a HJ]; subst. eexists. apply rbind_ok. exists [], None. split.
        -- apply interior_iff; [assumption|]. split; [reflexivity|assumption].
        -- apply rbind_ok. eexists _, (e, Some c0, Some i). split; [apply exterior_iff; [apply fresh_nil|split; [assumption|reflexivity]]|].
           reflexivity.
      * eexists. apply rbind_ok. exists (match int with AFile a => used a [] | ADict _ => [] end), (Some []). split.
        -- apply interior_iff; [assumption|]. split; [|assumption]. destruct int; reflexivity.
        -- apply rbind_ok. eexists _, (e, Some c0, Some i). split; [apply exterior_iff; [eapply FR; [eassumption|reflexivity|eassumption]|split; [assumption|reflexivity]]|].
           reflexivity.
Qed.

(** Files of other types. *)
Theorem interior_unsupported : forall kw a ext seen,
  ~ (exists x, In x [".yaml"; ".yml"; ".json"] /\ has_ext a x) ->
  read_param C crs_parse ydec jdec K csv_reader osfm_reader fs kw (AFile a) ext seen = (seen, Err ParamError).
Proof.
  intros kw a ext seen H. unfold read_param, rbind. cbn [read_interior]. cbv zeta.
  assert (N : forall x, In x [".yaml"; ".yml"; ".json"] -> ~ has_ext a x) by (intros x Hx HE; apply H; exists x; auto).
  pose proof (N ".yaml" ltac:(cbn; tauto)) as N1. pose proof (N ".yml" ltac:(cbn; tauto)) as N2. pose proof (N ".json" ltac:(cbn; tauto)) as N3.
  rewrite <- ext_yaml in N1. rewrite <- ext_yml in N2. rewrite <- ext_json in N3.
  destruct (String.eqb_spec (lower (suffix (get_filename a))) ".yaml"); [congruence|].
  destruct (String.eqb_spec (lower (suffix (get_filename a))) ".yml"); [congruence|].
  destruct (String.eqb_spec (lower (suffix (get_filename a))) ".json"); [congruence|]. reflexivity.
Qed.

Theorem exterior_unsupported : forall kw d b seen,
  ~ (exists x, In x [".csv"; ".txt"; ".json"; ".geojson"] /\ has_ext b x) ->
  read_param C crs_parse ydec jdec K csv_reader osfm_reader fs kw (ADict d) (AFile b) seen = (seen, Err ParamError).
Proof.
  intros kw d b seen H. unfold read_param, rbind, read_exterior. cbn [read_interior rret]. unfold rret. cbv zeta.
  assert (N : forall x, In x [".csv"; ".txt"; ".json"; ".geojson"] -> ~ has_ext b x) by (intros x Hx HE; apply H; exists x; auto).
  pose proof (N ".csv" ltac:(cbn; tauto)) as N1. pose proof (N ".txt" ltac:(cbn; tauto)) as N2.
  pose proof (N ".json" ltac:(cbn; tauto)) as N3. pose proof (N ".geojson" ltac:(cbn; tauto)) as N4.
  rewrite <- ext_csv in N1. rewrite <- ext_txt in N2. rewrite <- ext_json in N3. rewrite <- ext_geojson in N4.
  destruct (String.eqb_spec (lower (suffix (get_filename b))) ".csv"); [congruence|].
  destruct (String.eqb_spec (lower (suffix (get_filename b))) ".txt"); [congruence|].
  destruct (String.eqb_spec (lower (suffix (get_filename b))) ".json"); [congruence|].
  destruct (String.eqb_spec (lower (suffix (get_filename b))) ".geojson"); [congruence|]. reflexivity.
Qed.

(** The options do not matter with an Orthority exterior file. *)
Theorem geojson_ignores : forall kw kw' int b seen, has_ext b ".geojson" ->
  read_param C crs_parse ydec jdec K csv_reader osfm_reader fs kw int (AFile b) seen =
  read_param C crs_parse ydec jdec K csv_reader osfm_reader fs kw' int (AFile b) seen.
Proof.
  intros kw kw' int b seen HE. apply ext_geojson in HE. unfold read_param, rbind.
  destruct (read_interior ydec jdec fs int (AFile b) seen) as [s1 [i0|]]; [|reflexivity].
  unfold read_exterior. cbv zeta. rewrite HE. cbn [String.eqb orb Ascii.eqb Bool.eqb]. unfold rbind, rret.
  destruct (loaded jdec fs b s1) as [s2 [doc|]]; [|reflexivity]. destruct (read_ext_doc C crs_parse doc) as [[c e]|]; reflexivity.
Qed.

(** No interior parameters with an exterior file that has none. *)
Theorem no_interior : forall kw b seen s1 e c,
  read_exterior C crs_parse jdec K csv_reader osfm_reader fs kw b seen = (s1, Ok (e, c, None)) ->
  read_param C crs_parse ydec jdec K csv_reader osfm_reader fs kw (ADict []) (AFile b) seen = (s1, Err AttributeError).
Proof.
  intros kw b seen s1 e c H. unfold read_param, rbind, rret. cbn [read_interior]. unfold rret. rewrite H. reflexivity.
Qed.
End Load.

(** * Export and reload *)
Lemma write_doc_other : forall enc path doc ow fs fs' r q, q <> path ->
  write_doc enc path doc ow fs = (fs', r) -> dget q fs' = dget q fs.
Proof.
  intros enc path doc ow fs fs' r q Hq H. unfold write_doc in H.
  destruct (write_param_file_confined (TPath path) (do d <- doc; Ok (enc d, None)) ow fs) as (H1 & _).
  rewrite H in H1. cbn in H1. apply H1. intros E. apply Hq. exact E.
Qed.

Lemma read_doc_ext : forall A dec path (parse : pyval -> res A) fs fs',
  dget path fs' = dget path fs -> snd (read_doc dec path parse fs') = snd (read_doc dec path parse fs).
Proof.
  intros A dec path parse fs fs' H. unfold read_doc, abind. cbn [open_file]. cbn [negb andb]. unfold dmem. rewrite H.
  destruct (dget path fs) eqn:E; cbn; [|reflexivity]. rewrite H, E. reflexivity.
Qed.

Lemma no_slash_pjoin : forall dir name, ~ Factory_Spec.has_char "/" name -> path_name (pjoin dir name) = name.
Proof.
  intros dir name H. apply Factory_Proof.path_name_last. unfold pjoin.
  destruct (String.eqb dir "") eqn:E; [constructor; assumption|].
  destruct (ends_with_slash dir) eqn:ES; [|apply Factory_Spec.in_folder; assumption].
  unfold ends_with_slash in ES. apply String.eqb_eq in ES.
  assert (L : (1 <= String.length dir)%nat) by (destruct dir; [discriminate|cbn; lia]).
  assert (D : dir = (substring 0 (String.length dir - 1) dir ++ "/")%string).
  { rewrite <- ES. pose proof (split_at (String.length dir - 1) dir ltac:(lia)) as S.
    replace (String.length dir - (String.length dir - 1))%nat with 1%nat in S by lia. exact S. }
  rewrite D.
  assert (A : forall a b c : string, ((a ++ b) ++ c = a ++ (b ++ c))%string) by (induction a as [|x a IH]; intros; cbn; [reflexivity|rewrite IH; reflexivity]).
  rewrite A. apply Factory_Spec.in_folder. assumption.
Qed.

Lemma read_doc_text : forall A dec path (parse : pyval -> res A) fs a,
  snd (read_doc dec path parse fs) = Ok a ->
  exists t doc, dget path fs = Some t /\ dec t = Some doc /\ parse doc = Ok a.
Proof.
  intros A dec path parse fs a H. unfold read_doc, abind in H. cbn [open_file] in H. cbn [negb andb] in H. unfold dmem in H.
  destruct (dget path fs) as [t|] eqn:E; cbn in H; [|discriminate]. rewrite E in H.
  destruct (dec t) as [doc|] eqn:ED; [|discriminate]. exists t, doc. auto.
Qed.

(** Factories with equal parameters give the same cameras. *)
Section Same.
Variable I : Type.
Variable create : dict mval -> res I.
Hypothesis create_same : forall p q, same_dict p q -> create p = create q.

Lemma same_dicts_get : forall a b k, same_dicts a b ->
  match dget k a, dget k b with Some p, Some q => same_dict p q | None, None => True | _, _ => False end.
Proof.
  induction a as [|[n p] a IH]; intros b k H; inversion H as [|? [m q] ? ? [E S] F]; subst; cbn; [constructor|].
  cbn in E, S. subst m. destruct (String.eqb k n); [assumption|]. apply IH. assumption.
Qed.

Lemma get_same : forall name (st st' : fstate (dict mval) (option mval * option mval) I),
  same_dicts (f_int st) (f_int st') -> f_ext st = f_ext st' -> f_cache st = f_cache st' -> f_heap st = f_heap st' ->
  let r := frame_get create name st in let r' := frame_get create name st' in
  snd r = snd r' /\ same_dicts (f_int (fst r)) (f_int (fst r')) /\ f_ext (fst r) = f_ext (fst r') /\
  f_cache (fst r) = f_cache (fst r') /\ f_heap (fst r) = f_heap (fst r').
Proof.
  intros name st st' S E1 E2 E3. cbv zeta. unfold frame_get. rewrite E1.
  destruct (get_by_name name (f_ext st')) as [e|]; [|cbn; auto].
  assert (IN : match int_for st (ex_cam e), int_for st' (ex_cam e) with
               | Ok p, Ok q => create p = create q | Err x, Err y => x = y | _, _ => False end).
  { unfold int_for. destruct (given (ex_cam e)).
    - destruct (ex_cam e) as [s|]; [|reflexivity]. pose proof (same_dicts_get _ _ s S) as G.
      destruct (dget s (f_int st)), (dget s (f_int st')); try contradiction; [|reflexivity]. apply create_same. assumption.
    - inversion S as [|[? ?] [? ?] ? ? [? ?] F]; [reflexivity|]. inversion F as [|[? ?] [? ?]]; [|reflexivity].
      apply create_same. assumption. }
  destruct (int_for st (ex_cam e)) as [p|x], (int_for st' (ex_cam e)) as [q|y]; try contradiction; [|subst; cbn; auto].
  rewrite E2. destruct (cget (ex_cam e) (f_cache st')) as [i|].
  - rewrite E3. cbn. auto.
  - rewrite IN. destruct (create q) as [c|x]; [|cbn; auto]. rewrite E3. cbn. auto.
Qed.

Lemma answers_same : forall names (st st' : fstate (dict mval) (option mval * option mval) I),
  same_dicts (f_int st) (f_int st') -> f_ext st = f_ext st' -> f_cache st = f_cache st' -> f_heap st = f_heap st' ->
  answers create st names = answers create st' names.
Proof.
  induction names as [|n names IH]; intros st st' S E1 E2 E3; [reflexivity|]. cbn [answers].
  destruct (get_same n st st' S E1 E2 E3) as (R & S' & E1' & E2' & E3').
  destruct (frame_get create n st) as [s1 r1], (frame_get create n st') as [s2 r2]. cbn in *. subst r2.
  rewrite E3'. f_equal. apply IH; assumption.
Qed.

Lemma entries_same : forall a b, same_dicts a b ->
  map (fun kv => (fst kv, ext_entry (snd kv))) a = map (fun kv => (fst kv, ext_entry (snd kv))) b.
Proof.
  intros a b H. induction H as [|[n p] [m q] a b [E S] F IH]; [reflexivity|]. cbn in *. subst m. rewrite IH.
  unfold ext_entry. rewrite !S. reflexivity.
Qed.

Theorem factories_same : forall ints ints' exts exts' names, same_dicts ints' ints -> same_dicts exts' exts ->
  answers create (factory_of ints' exts') names = answers create (factory_of ints exts) names.
Proof.
  intros ints ints' exts exts' names SI SE. apply answers_same; try assumption; try reflexivity. cbn. apply entries_same. assumption.
Qed.
End Same.

(** The camera of an image of a factory made from parameters. *)
Theorem loaded_camera : forall I (create : dict mval -> res I) ints exts history name (e p : dict mval) cam c,
  Factory_Spec.found exts name e -> dget "camera" e = Some (MV cam) ->
  Factory_Spec.interior ints (match cam with PStr s => Some s | _ => None end) p -> create p = Ok c ->
  let st := frame_run create history (factory_of ints exts) in
  exists i, snd (frame_get create name st) = Ok i /\
    nth_error (f_heap (fst (frame_get create name st))) i = Some (Camera c (Some (dget "xyz" e, dget "opk" e))).
Proof.
  intros I create ints exts history name e p cam c HF HC HI HP.
  assert (MG : forall k d, dget k (map (fun kv : string * dict mval => (fst kv, ext_entry (snd kv))) d) = option_map ext_entry (dget k d)).
  { intros k d. induction d as [|[n q] d IH]; [reflexivity|]. cbn. destruct (String.eqb k n); [reflexivity|assumption]. }
  unfold factory_of. apply Factory_Proof.frame_get_right with (e := ext_entry e) (p := p).
  - destruct HF as [H|H1 H2]; [apply Factory_Spec.by_name|apply Factory_Spec.by_stem]; rewrite MG.
    + rewrite H. reflexivity.
    + rewrite H1. reflexivity.
    + rewrite H2. reflexivity.
  - cbn [ext_entry ex_cam]. rewrite HC. destruct cam; assumption.
  - assumption.
Qed.

Section Export.
Variable C : Type.
Variable crs_parse : string -> option C.
Variables ydec jdec : string -> option pyval.
Variable K : Type.
Variable csv_reader : io_kwargs C K -> farg -> string -> res (dict (dict mval) * option C).
Variable osfm_reader : io_kwargs C K -> pyval -> res (dict (dict mval) * dict (dict mval) * C).
Variables yenc jenc : pyval -> list string.
Variable crs_str : C -> string.
Variable is_projected : C -> bool.
Variable to_lla : C -> pyval -> pyval -> pyval -> res (Q * Q * Q).

(** Without a CRS the interior parameters are written, and an error is raised. *)
Theorem frame_no_crs : forall fs dir ow ints exts fs' r,
  write_frame C yenc jenc crs_str is_projected to_lla dir ow ints exts None fs = (fs', r) ->
  r <> Ok tt /\
  (forall fs1, write_int_param yenc (pjoin dir "int_param.yaml") ints ow fs = (fs1, Ok tt) -> fs' = fs1 /\ r = Err CrsMissingError).
Proof.
  intros fs dir ow ints exts fs' r H. unfold write_frame, abind, ret in H.
  destruct (write_int_param yenc (pjoin dir "int_param.yaml") ints ow fs) as [fs2 [[]|e]] eqn:E; inversion H; subst.
  - split; [discriminate|]. intros fs1 H1. inversion H1. auto.
  - split; [discriminate|]. intros fs1 H1. discriminate.
Qed.

Theorem frame_reload : forall fs dir ow ints exts crs,
  NoDup (dkeys ints) -> ints <> [] -> ~ In "camera" (dkeys ints) -> Forall (fun kv => valid_int_param (snd kv)) ints ->
  NoDup (dkeys exts) -> exts <> [] -> Forall (fun kv => valid_ext_param (snd kv)) exts ->
  is_projected crs = true -> crs_parse (crs_str crs) = Some crs -> (forall x y z, exists q, to_lla crs x y z = Ok q) ->
  writable fs (pjoin dir "int_param.yaml") ow -> writable fs (pjoin dir "ext_param.geojson") ow ->
  files_faithful yenc ydec jenc jdec crs_str is_projected to_lla crs ints exts ->
  exists fs' ints' exts',
    write_frame C yenc jenc crs_str is_projected to_lla dir ow ints exts (Some crs) fs = (fs', Ok tt) /\
    (forall kw, read_param C crs_parse ydec jdec K csv_reader osfm_reader fs' kw
       (AFile (FPath (pjoin dir "int_param.yaml"))) (AFile (FPath (pjoin dir "ext_param.geojson"))) [] =
       ([], Ok (ints', exts', Some crs))) /\
    same_dicts ints' ints /\ same_dicts exts' exts.
Proof.
  intros fs dir ow ints exts crs N1 Ne1 NC V1 N2 Ne2 V2 HP HC HL W1 W2 [T1 T2].
  destruct (int_round_trip yenc ydec fs (pjoin dir "int_param.yaml") ow ints N1 Ne1 NC V1 W1 T1) as (fs1 & i' & E1 & R1 & S1).
  assert (D12 : pjoin dir "int_param.yaml" <> pjoin dir "ext_param.geojson") by (intros H; apply pjoin_inj in H; discriminate).
  assert (W2' : writable fs1 (pjoin dir "ext_param.geojson") ow).
  { destruct W2 as [->|W2]; [left; reflexivity|right]. rewrite <- W2.
    eapply write_doc_other; [|exact E1]. congruence. }
  destruct (ext_round_trip C crs_str crs_parse is_projected to_lla jenc jdec fs1 (pjoin dir "ext_param.geojson") ow crs exts
              HP HC HL N2 Ne2 V2 W2' T2) as (fs2 & e' & E2 & R2 & S2).
  exists fs2, i', e'. split; [unfold write_frame, abind; rewrite E1; exact E2|]. split; [|split; assumption].
  intros kw.
  assert (R1' : snd (read_oty_int_param ydec (pjoin dir "int_param.yaml") fs2) = Ok i').
  { unfold read_oty_int_param in *. rewrite (read_doc_ext _ _ _ _ fs1 fs2); [rewrite R1; reflexivity|].
    eapply write_doc_other; [|exact E2]. assumption. }
  assert (R2' : snd (oty_reader jdec crs_parse (pjoin dir "ext_param.geojson") fs2) = Ok (crs, e')) by (rewrite R2; reflexivity).
  apply read_doc_text in R1', R2'. destruct R1' as (t1 & d1 & G1 & X1 & P1). destruct R2' as (t2 & d2 & G2 & X2 & P2).
  unfold read_param, rbind, read_interior, read_exterior, get_filename.
  rewrite (no_slash_pjoin dir "int_param.yaml") by (cbn; intuition discriminate).
  rewrite (no_slash_pjoin dir "ext_param.geojson") by (cbn; intuition discriminate).
  change (lower (suffix "int_param.yaml")) with ".yaml". change (lower (suffix "ext_param.geojson")) with ".geojson".
  cbv zeta. cbn [String.eqb Ascii.eqb Bool.eqb orb]. unfold loaded, rbind, rret. cbn [read_text].
  rewrite G1, X1, P1. rewrite G2, X2, P2.
  destruct i' as [|x i']; [|reflexivity]. inversion S1. congruence.
Qed.

Theorem rpc_reload : forall fs dir ow params gcps,
  NoDup (dkeys params) -> Forall (fun kv => valid_rpc_param (snd kv)) params ->
  NoDup (dkeys gcps) -> gcps <> [] -> Forall (fun kv => snd kv <> [] /\ Forall valid_gcp (snd kv)) gcps ->
  writable fs (pjoin dir "rpc_param.yaml") ow -> writable fs (pjoin dir "gcps.geojson") ow ->
  (forall doc, rpc_doc params = Ok doc -> text_faithful yenc ydec doc) ->
  (forall doc, gcp_doc gcps = Ok doc -> text_faithful jenc jdec doc) ->
  exists fs' params' gcps',
    write_rpc yenc jenc dir ow params (Some gcps) fs = (fs', Ok tt) /\
    snd (read_oty_rpc_param ydec (pjoin dir "rpc_param.yaml") fs') = Ok params' /\ same_dicts params' params /\
    snd (read_oty_gcps jdec (pjoin dir "gcps.geojson") fs') = Ok gcps' /\ same_gcps gcps' gcps.
Proof.
  intros fs dir ow params gcps N1 V1 N2 Ne2 V2 W1 W2 T1 T2.
  destruct (rpc_round_trip yenc ydec fs (pjoin dir "rpc_param.yaml") ow params N1 V1 W1 T1) as (fs1 & p' & E1 & R1 & S1).
  assert (D12 : pjoin dir "rpc_param.yaml" <> pjoin dir "gcps.geojson") by (intros H; apply pjoin_inj in H; discriminate).
  assert (W2' : writable fs1 (pjoin dir "gcps.geojson") ow).
  { destruct W2 as [->|W2]; [left; reflexivity|right]. rewrite <- W2.
    eapply write_doc_other; [|exact E1]. congruence. }
  destruct (gcp_round_trip jenc jdec fs1 (pjoin dir "gcps.geojson") ow gcps N2 Ne2 V2 W2' T2) as (fs2 & g' & E2 & R2 & S2).
  exists fs2, p', g'. split.
  { unfold write_rpc, abind. rewrite E1. destruct gcps; [congruence|exact E2]. }
  split; [|split; [assumption|split; [rewrite R2; reflexivity|assumption]]].
  unfold read_oty_rpc_param in *. rewrite (read_doc_ext _ _ _ _ fs1 fs2); [rewrite R1; reflexivity|].
  eapply write_doc_other; [|exact E2]. assumption.
Qed.

(** Without GCPs only the RPC parameters are written. *)
Theorem rpc_no_gcps : forall fs dir ow params g fs' r, g = None \/ g = Some [] ->
  write_rpc yenc jenc dir ow params g fs = (fs', r) ->
  dget (pjoin dir "gcps.geojson") fs' = dget (pjoin dir "gcps.geojson") fs.
Proof.
  intros fs dir ow params g fs' r Hg H. unfold write_rpc, abind in H.
  destruct (write_rpc_param yenc (pjoin dir "rpc_param.yaml") params ow fs) as [fs1 r1] eqn:E.
  assert (D12 : pjoin dir "gcps.geojson" <> pjoin dir "rpc_param.yaml") by (intros X; apply pjoin_inj in X; discriminate).
  pose proof (write_doc_other _ _ _ _ _ _ _ _ D12 E) as O.
  destruct r1 as [u|x]; [destruct Hg as [->| ->]|]; inversion H; subst; exact O.
Qed.
End Export.

(** * Options of the caller *)
Section Images.
Variables C N V D : Type.
Variable exif_reader : list N -> dict (optval C V) -> res (D * option C).

Lemma nth_kset : forall h i d j, nth j (kset C V i d h) [] = if ((i =? j) && (i <? List.length h))%nat then d else nth j h [].
Proof.
  induction h as [|x h IH]; intros [|i] d [|j]; cbn; try reflexivity.
  - destruct (i =? j)%nat; reflexivity.
  - rewrite IH. reflexivity.
Qed.

Lemma kset_same : forall h i, kset C V i (nth i h []) h = h.
Proof. induction h as [|x h IH]; intros [|i]; cbn; try reflexivity. rewrite IH. reflexivity. Qed.

Lemma dset_same : forall A k (v : A) d, dget k d = Some v -> dset k v d = d.
Proof.
  induction d as [|[n x] d IH]; cbn; [discriminate|]. destruct (String.eqb k n) eqn:E; intros H.
  - inversion H; subst. reflexivity.
  - rewrite IH; auto.
Qed.

Theorem images_keep : forall files arg (h : kwheap C V), honours_crs exif_reader ->
  match arg with
  | None => True
  | Some i => nth i h [] = [] \/ exists c, dget "crs" (nth i h []) = Some (OCrs c)
  end -> fst (from_images exif_reader files arg h) = h.
Proof.
  intros files arg h HH H. unfold from_images. destruct arg as [i|].
  2:{ destruct (exif_reader files []) as [[d c]|]; reflexivity. }
  destruct (exif_reader files (nth i h [])) as [[d c]|] eqn:E; [|reflexivity]. cbn [fst].
  destruct (nth i h []) as [|x kw] eqn:EN; [reflexivity|]. destruct H as [H|[u Hu]]; [discriminate|].
  rewrite (HH _ _ _ _ _ Hu E). cbn [optcrs]. rewrite dset_same by assumption. rewrite <- EN. apply kset_same.
Qed.

Theorem images_leak : forall files1 files2 i (h : kwheap C V) d1 c1 d2 r2, honours_crs exif_reader ->
  (i < List.length h)%nat -> nth i h [] <> [] ->
  from_images exif_reader files1 (Some i) h = (fst (from_images exif_reader files1 (Some i) h), Ok (d1, Some c1)) ->
  let h1 := fst (from_images exif_reader files1 (Some i) h) in
  dget "crs" (nth i h1 []) = Some (OCrs c1) /\
  (snd (from_images exif_reader files2 (Some i) h1) = Ok (d2, r2) -> r2 = Some c1).
Proof.
  intros files1 files2 i h d1 c1 d2 r2 HH Hi Hne H h1.
  assert (G : dget "crs" (nth i h1 []) = Some (OCrs c1)).
  { subst h1. unfold from_images in *. destruct (exif_reader files1 (nth i h [])) as [[d c]|]; cbn in H; [|inversion H].
    inversion H; subst. cbn [fst]. destruct (nth i h []) as [|x kw]; [congruence|].
    rewrite nth_kset, Nat.eqb_refl. destruct (Nat.ltb_spec i (List.length h)); [|lia]. apply dget_dset_eq. }
  split; [assumption|]. intros H2. unfold from_images in H2.
  destruct (exif_reader files2 (nth i h1 [])) as [[d c]|] eqn:E; cbn in H2; [|discriminate]. inversion H2; subst.
  eapply HH; eassumption.
Qed.
End Images.

(** * Shared RPC parameters *)
Section Shared.
Variables M R G C : Type.
Variable create : M -> R -> res C.
Variable refine_rpc : R -> list G -> res R.

Definition view (o : nat -> M * R) (p : dict nat) : dict (M * R) := map (fun kv => (fst kv, o (snd kv))) p.

Lemma dget_view : forall o p k, dget k (view o p) = option_map o (dget k p).
Proof. intros o p k. induction p as [|[n i] p IH]; cbn; [reflexivity|]. destruct (String.eqb k n); auto. Qed.

Lemma get_by_name_view : forall o p k, get_by_name k (view o p) = option_map o (get_by_name k p).
Proof. intros. unfold get_by_name. rewrite !dget_view. destruct (dget k p); reflexivity. Qed.

Lemma view_cons : forall o n i p, view o ((n, i) :: p) = (n, o i) :: view o p.
Proof. reflexivity. Qed.

Lemma view_other : forall o p i v, ~ In i (map snd p) -> view (set_obj M R i v o) p = view o p.
Proof.
  intros o p i v. induction p as [|[n j] p IH]; intros H; [reflexivity|]. cbn in H. rewrite !view_cons. rewrite IH by tauto.
  unfold set_obj at 1. destruct (Nat.eqb_spec i j); [subst; tauto|reflexivity].
Qed.

Lemma view_set : forall o p n i v, NoDup (dkeys p) -> NoDup (map snd p) -> In (n, i) p ->
  dset n v (view o p) = view (set_obj M R i v o) p.
Proof.
  intros o p n i v. induction p as [|[m j] p IH]; intros N1 N2 H; [contradiction|]. rewrite !view_cons. cbn in N1, N2, H. cbn [dset].
  inversion N1; inversion N2; subst. destruct H as [H|H].
  - inversion H; subst m j. rewrite String.eqb_refl. unfold set_obj at 1. rewrite Nat.eqb_refl.
    rewrite view_other by assumption. reflexivity.
  - destruct (String.eqb_spec n m) as [->|_]; [exfalso; apply H2; apply (in_map fst) in H; exact H|].
    assert (i <> j) by (intros ->; apply H6; apply (in_map snd) in H; exact H).
    unfold set_obj at 1. destruct (Nat.eqb_spec i j); [congruence|]. f_equal. apply IH; assumption.
Qed.

Lemma refine_loop_view : forall gcps items params cache g o,
  NoDup (dkeys params) -> NoDup (map snd params) -> NoDup (map snd items) -> incl items params ->
  let '(o', f', r) := s_refine_loop M R G C refine_rpc gcps items o (SFac params cache g) in
  refine_loop M R G C refine_rpc gcps (view o items) (RState (view o params) cache g) =
    (RState (view o' params) (s_cache f') g, r) /\ s_param f' = params /\ s_gcps f' = g /\
  forall j, ~ In j (map snd items) -> o' j = o j.
Proof.
  intros gcps items. induction items as [|[n i] items IH]; intros params cache g o N1 N2 N3 HI; cbn -[view].
  - auto.
  - assert (IN : In (n, i) params) by (apply HI; left; reflexivity).
    assert (HI' : incl items params) by (intros x Hx; apply HI; right; assumption).
    cbn in N3. inversion N3; subst. cbn [view map fst snd refine_loop]. fold (view o items).
    destruct (o i) as [m q] eqn:EO. cbn [fst snd].
    destruct (get_by_name (path_name n) gcps) as [[|g0 gs]|] eqn:EG.
    + specialize (IH params cache g o N1 N2 H2 HI').
      destruct (s_refine_loop M R G C refine_rpc gcps items o (SFac params cache g)) as [[o' f'] r].
      destruct IH as (A & B & B2 & D). split; [assumption|]. split; [assumption|]. split; [assumption|]. intros j Hj. apply D. tauto.
    + cbn [r_param r_cache r_gcps s_param s_cache s_gcps]. destruct (refine_rpc q (g0 :: gs)) as [q'|x].
      * rewrite (view_set o params n i (m, q')) by assumption.
        specialize (IH params (ddel (path_name n) cache) g (set_obj M R i (m, q') o) N1 N2 H2 HI').
        rewrite view_other in IH by assumption.
        destruct (s_refine_loop M R G C refine_rpc gcps items (set_obj M R i (m, q') o) (SFac params (ddel (path_name n) cache) g)) as [[o' f'] r].
        destruct IH as (A & B & B2 & D). split; [assumption|]. split; [assumption|]. split; [assumption|].
        intros j Hj. rewrite D by tauto. unfold set_obj. destruct (Nat.eqb_spec i j); [tauto|reflexivity].
      * cbn. auto.
    + specialize (IH params cache g o N1 N2 H2 HI').
      destruct (s_refine_loop M R G C refine_rpc gcps items o (SFac params cache g)) as [[o' f'] r].
      destruct IH as (A & B & B2 & D). split; [assumption|]. split; [assumption|]. split; [assumption|]. intros j Hj. apply D. tauto.
Qed.

Lemma nth_set_fac : forall l k f j, nth_error (set_fac G C k f l) j =
  if Nat.eqb k j then match nth_error l k with Some _ => Some f | None => None end else nth_error l j.
Proof.
  induction l as [|x l IH]; intros [|k] f [|j]; cbn; try reflexivity.
  - destruct (Nat.eqb k j); reflexivity.
  - apply IH.
Qed.

Lemma params_set_fac : forall l k f f0, nth_error l k = Some f0 -> s_param f = s_param f0 -> map s_param (set_fac G C k f l) = map s_param l.
Proof.
  induction l as [|x l IH]; intros [|k] f f0 H E; cbn in *; try discriminate.
  - inversion H; subst. rewrite E. reflexivity.
  - rewrite (IH k f f0); auto.
Qed.

Lemma get_param : forall o n (f : sfac G C), s_param (fst (s_get create o n f)) = s_param f.
Proof.
  intros o n f. unfold s_get. destruct (get_by_name n (s_param f)) as [i|]; [|reflexivity].
  destruct (dget n (s_cache f)); [reflexivity|]. destruct (create (fst (o i)) (snd (o i))); reflexivity.
Qed.

Lemma s_call_spec : forall kc (w : shared M R G C) k, well_formed (map s_param (sh_facs w)) ->
  (forall j p q, j <> k -> nth_error (map s_param (sh_facs w)) j = Some p -> nth_error (map s_param (sh_facs w)) k = Some q ->
     forall x, In x (map snd p) -> ~ In x (map snd q)) ->
  map s_param (sh_facs (s_call create refine_rpc kc w)) = map s_param (sh_facs w) /\
  alone (s_call create refine_rpc kc w) k =
    if Nat.eqb (fst kc) k then option_map (rpc_call M R G C create refine_rpc (snd kc)) (alone w k) else alone w k.
Proof.
  intros [j c] w k WF DJ. unfold s_call. cbn [fst snd].
  destruct (nth_error (sh_facs w) j) as [f|] eqn:EF.
  2:{ split; [reflexivity|]. destruct (Nat.eqb_spec j k) as [->|]; [|reflexivity]. unfold alone. rewrite EF. reflexivity. }
  assert (WFf : NoDup (dkeys (s_param f)) /\ NoDup (map snd (s_param f))).
  { unfold well_formed in WF. rewrite Forall_forall in WF. apply WF. apply in_map. eapply nth_error_In. eassumption. }
  destruct WFf as [N1 N2]. destruct c as [n|g].
  - split; [cbn; eapply params_set_fac; [eassumption|apply get_param]|].
    unfold alone. cbn [sh_facs sh_objs]. rewrite nth_set_fac, EF. destruct (Nat.eqb_spec j k) as [->|]; [|reflexivity].
    rewrite EF. cbn [option_map rpc_call]. f_equal. unfold rpc_get. fold (view (sh_objs w) (s_param f)). cbn [r_param].
    rewrite get_by_name_view. rewrite get_param.
    unfold s_get. destruct (get_by_name n (s_param f)) as [i|]; [|reflexivity]. cbn [option_map r_cache].
    destruct (sh_objs w i) as [m q]. cbn [fst snd]. destruct (dget n (s_cache f)); [reflexivity|]. destruct (create m q); reflexivity.
  - unfold s_refine. pose proof (refine_loop_view g (s_param f) (s_param f) (s_cache f) (Some g) (sh_objs w) N1 N2 N2 (fun x H => H)) as RL.
    destruct (s_refine_loop M R G C refine_rpc g (s_param f) (sh_objs w) (SFac (s_param f) (s_cache f) (Some g))) as [[o' f'] r].
    destruct RL as (A & B & B2 & D). split; [cbn; eapply params_set_fac; eassumption|].
    unfold alone. cbn [sh_facs sh_objs]. rewrite nth_set_fac, EF. destruct (Nat.eqb_spec j k) as [->|NJ].
    + rewrite EF. cbn [option_map rpc_call]. f_equal. unfold rpc_refine. cbn [r_param r_cache].
      fold (view (sh_objs w) (s_param f)). rewrite A. cbn [fst]. fold (view o' (s_param f')). rewrite B, B2. reflexivity.
    + destruct (nth_error (sh_facs w) k) as [fk|] eqn:EK; [|reflexivity]. cbn [option_map]. f_equal. f_equal.
      apply map_ext_in. intros [n i] Hin. cbn. f_equal. apply D. intros Hi.
      refine (DJ j (s_param f) (s_param fk) NJ _ _ i Hi _).
      * rewrite nth_error_map, EF. reflexivity.
      * rewrite nth_error_map, EK. reflexivity.
      * apply (in_map snd) in Hin. exact Hin.
Qed.

Theorem run_alone : forall calls o params k p, well_formed params -> nth_error params k = Some p ->
  (forall j q, j <> k -> nth_error params j = Some q -> forall x, In x (map snd q) -> ~ In x (map snd p)) ->
  alone (s_run create refine_rpc calls (s_init o params)) k =
  Some (rpc_run create refine_rpc (calls_on k calls) (rpc_init (map (fun kv => (fst kv, o (snd kv))) p))).
Proof.
  intros calls o params k p WF HK DJ.
  assert (GEN : forall calls (w : shared M R G C) st, map s_param (sh_facs w) = params -> alone w k = Some st ->
            alone (s_run create refine_rpc calls w) k = Some (rpc_run create refine_rpc (calls_on k calls) st)).
  { induction calls0 as [|c calls0 IH]; intros w st HP HA; [exact HA|]. cbn [s_run fold_left].
    destruct (s_call_spec c w k) as [P1 P2].
    - rewrite HP. assumption.
    - rewrite HP. intros j p' q NJ Hj Hk. rewrite HK in Hk. inversion Hk; subst q. apply (DJ j); assumption.
    - unfold calls_on. cbn [filter]. rewrite HA in P2. cbn [option_map] in P2. destruct (Nat.eqb (fst c) k); cbn [map]; apply IH;
        try congruence. }
  apply GEN.
  - cbn. rewrite map_map. cbn. apply map_id.
  - unfold alone, s_init. cbn. rewrite nth_error_map, HK. reflexivity.
Qed.

(** So calls on it return and raise what they would alone. *)
Theorem call_results_alone : forall (w : shared M R G C) k f st, nth_error (sh_facs w) k = Some f -> alone w k = Some st ->
  (forall name, snd (s_get create (sh_objs w) name f) = snd (rpc_get create name st)) /\
  (well_formed [s_param f] -> forall gcps, snd (s_refine refine_rpc gcps (sh_objs w) f) = snd (rpc_refine refine_rpc gcps st)).
Proof.
  intros w k f st HF HA. unfold alone in HA. rewrite HF in HA. cbn in HA. inversion HA; subst. split.
  - intros name. unfold rpc_get, s_get. fold (view (sh_objs w) (s_param f)). cbn [r_param]. rewrite get_by_name_view.
    destruct (get_by_name name (s_param f)) as [i|]; [|reflexivity]. cbn [option_map r_cache].
    destruct (sh_objs w i) as [m q]. cbn [fst snd]. destruct (dget name (s_cache f)); [reflexivity|]. destruct (create m q); reflexivity.
  - intros WF gcps. inversion WF as [|? ? [N1 N2] _]; subst. unfold s_refine, rpc_refine. cbn [r_param r_cache].
    pose proof (refine_loop_view gcps (s_param f) (s_param f) (s_cache f) (Some gcps) (sh_objs w) N1 N2 N2 (fun x H => H)) as RL.
    destruct (s_refine_loop M R G C refine_rpc gcps (s_param f) (sh_objs w) (SFac (s_param f) (s_cache f) (Some gcps))) as [[o' f'] r].
    destruct RL as (A & _). fold (view (sh_objs w) (s_param f)). rewrite A. reflexivity.
Qed.

Lemma s_call_params : forall kc (w : shared M R G C), well_formed (map s_param (sh_facs w)) ->
  map s_param (sh_facs (s_call create refine_rpc kc w)) = map s_param (sh_facs w).
Proof.
  intros kc w WF. apply (s_call_spec kc w (List.length (sh_facs w))); [assumption|].
  intros j p q _ _ H. rewrite nth_error_map in H.
  rewrite (proj2 (nth_error_None (sh_facs w) (List.length (sh_facs w)))) in H by lia. discriminate.
Qed.

Theorem results_alone : forall calls o params k p, well_formed params -> nth_error params k = Some p ->
  (forall j q, j <> k -> nth_error params j = Some q -> forall x, In x (map snd q) -> ~ In x (map snd p)) ->
  let w := s_run create refine_rpc calls (s_init o params) in
  let st := rpc_run create refine_rpc (calls_on k calls) (rpc_init (map (fun kv => (fst kv, o (snd kv))) p)) in
  exists f, nth_error (sh_facs w) k = Some f /\
    (forall name, snd (s_get create (sh_objs w) name f) = snd (rpc_get create name st)) /\
    (forall gcps, snd (s_refine refine_rpc gcps (sh_objs w) f) = snd (rpc_refine refine_rpc gcps st)).
Proof.
  intros calls o params k p WF HK DJ w st. pose proof (run_alone calls o params k p WF HK DJ) as RA. fold w st in RA.
  assert (HP : map s_param (sh_facs w) = params).
  { unfold w. assert (GEN : forall calls (v : shared M R G C), map s_param (sh_facs v) = params ->
      map s_param (sh_facs (s_run create refine_rpc calls v)) = params).
    { induction calls0 as [|c cs IH]; intros v Hv; [exact Hv|]. cbn [s_run fold_left]. apply IH.
      rewrite s_call_params; [assumption|]. rewrite Hv. assumption. }
    apply GEN. cbn. rewrite map_map. cbn. apply map_id. }
  destruct (nth_error (sh_facs w) k) as [f|] eqn:EF; [|unfold alone in RA; rewrite EF in RA; discriminate].
  exists f. split; [reflexivity|]. destruct (call_results_alone w k f st EF RA) as [A B]. split; [exact A|]. apply B.
  constructor; [|constructor]. unfold well_formed in WF. rewrite Forall_forall in WF. apply WF.
  rewrite <- HP. apply in_map. eapply nth_error_In. eassumption.
Qed.

(** Refining changes the caller's own dictionaries. *)
Theorem refine_caller : forall gcps (o : nat -> M * R) p n i, NoDup (dkeys p) -> NoDup (map snd p) -> In (n, i) p ->
  forall g m q q', Factory_Spec.gcps_for gcps (path_name n) g -> o i = (m, q) -> refine_rpc q g = Ok q' ->
  let '(o', f', r) := s_refine refine_rpc gcps o (@SFac G C p [] None) in r = Ok tt -> o' i = (m, q').
Proof.
  intros gcps o p n i N1 N2 HI g m q q' [HG Hne] HO HR. unfold s_refine. cbn [s_param s_cache].
  assert (GEN : forall items cache gg (o : nat -> M * R), NoDup (map snd items) -> o i = (m, q) -> In (n, i) items ->
    let '(o', f', r) := s_refine_loop M R G C refine_rpc gcps items o (SFac p cache gg) in r = Ok tt -> o' i = (m, q')).
  { clear o HO HI. induction items as [|[n2 i2] items IH]; intros cache gg o N HO HI; [contradiction|].
    assert (KEEP : forall items cache gg o, ~ In i (map snd items) ->
      let '(o', f', r) := s_refine_loop M R G C refine_rpc gcps items o (SFac p cache gg) in o' i = o i).
    { clear. induction items as [|[n3 i3] items IH]; intros cache gg o H; [reflexivity|]. cbn in *.
      destruct (get_by_name (path_name n3) gcps) as [[|? ?]|]; try (apply IH; tauto).
      destruct (refine_rpc (snd (o i3)) (g :: l)); [|reflexivity]. cbn.
      match goal with |- context [s_refine_loop _ _ _ _ _ _ items ?oo (SFac p ?cc ?g2)] => specialize (IH cc g2 oo) end.
      destruct (s_refine_loop _ _ _ _ _ _ items _ _) as [[o' f'] r]. rewrite IH by tauto. unfold set_obj.
      destruct (Nat.eqb_spec i3 i); [tauto|reflexivity]. }
    cbn in N. inversion N; subst. cbn [s_refine_loop]. destruct HI as [HI|HI].
    - inversion HI; subst n2 i2. apply Factory_Proof.get_by_name_iff in HG. rewrite HG. destruct g as [|g0 gs]; [congruence|].
      rewrite HO. cbn [fst snd]. rewrite HR. cbn [s_param s_cache s_gcps].
      match goal with |- context [s_refine_loop _ _ _ _ _ _ items ?oo (SFac p ?cc ?g2)] => specialize (KEEP items cc g2 oo H1) end.
      destruct (s_refine_loop _ _ _ _ _ _ items _ _) as [[o' f'] r]. intros _. rewrite KEEP. unfold set_obj. rewrite Nat.eqb_refl. reflexivity.
    - assert (NI : i2 <> i) by (intros ->; apply H1; apply (in_map snd) in HI; exact HI).
      destruct (get_by_name (path_name n2) gcps) as [[|g0 gs]|]; try (apply IH; assumption).
      destruct (refine_rpc (snd (o i2)) (g0 :: gs)); [|intros ?; discriminate]. cbn [s_param s_cache s_gcps]. apply IH; try assumption.
      unfold set_obj. destruct (Nat.eqb_spec i2 i); [congruence|assumption]. }
  apply GEN; assumption.
Qed.
End Shared.

(** * GCPs *)
Section Gcps.
Variable jdec : string -> option pyval.
Variable im_gcps : list farg -> res (dict (list (dict mval))).
Variables M R Cam : Type.
Variable refine_rpc : R -> list (dict mval) -> res R.

Theorem refine_arg_ok : forall fs g d (st : rstate M R (dict mval) Cam), gcp_source jdec im_gcps fs g d ->
  snd (refine_arg jdec im_gcps refine_rpc fs g st []) = Ok (rpc_refine refine_rpc d st).
Proof.
  intros fs g d st H. unfold refine_arg. destruct H as [l d Hne H|a t doc d HT HD HR|d]; cbn [refine_gcps].
  - destruct l as [|x l]; [congruence|]. unfold rbind, rret. rewrite H. reflexivity.
  - assert (HL : loaded jdec fs a [] = (used a [], Ok doc)) by (apply loaded_iff; [apply fresh_nil|exists t; auto]).
    unfold rbind. rewrite HL. unfold rret. rewrite HR. reflexivity.
  - reflexivity.
Qed.

Theorem refine_arg_unread : forall fs g (st : rstate M R (dict mval) Cam), g <> GNothing -> g <> GImages [] ->
  ~ (exists d, gcp_source jdec im_gcps fs g d) ->
  exists e, snd (refine_arg jdec im_gcps refine_rpc fs g st []) = Ok (st, Err e).
Proof.
  intros fs g st N1 N2 NO. unfold refine_arg. destruct (refine_gcps jdec im_gcps fs g []) as [seen [[d|]|e]] eqn:E.
  - exfalso. apply NO. exists d. destruct g as [|[|x l]|a|d']; cbn [refine_gcps] in E; try congruence.
    + unfold rbind, rret in E. destruct (im_gcps (x :: l)) eqn:EI; [|discriminate]. inversion E; subst.
      constructor; [discriminate|assumption].
    + apply rbind_ok in E. destruct E as (s1 & doc & H1 & H2). apply rbind_ok in H2. destruct H2 as (s2 & d2 & H2 & H3).
      apply loaded_iff in H1; [|apply fresh_nil]. destruct H1 as (t & HT & HD & _). apply rret_ok in H2, H3.
      destruct H2 as [H2 _], H3 as [H3 _]. inversion H3; subst. econstructor; eassumption.
    + unfold rret in E. inversion E; subst. constructor.
  - exfalso. destruct g as [|[|x l]|a|d']; cbn [refine_gcps] in E; try congruence.
    + unfold rbind, rret in E. destruct (im_gcps (x :: l)); discriminate.
    + apply rbind_ok in E. destruct E as (s1 & doc & _ & H2). apply rbind_ok in H2. destruct H2 as (s2 & d2 & _ & H3).
      apply rret_ok in H3. destruct H3. discriminate.
    + unfold rret in E. discriminate.
  - exists e. reflexivity.
Qed.

Theorem refine_arg_empty : forall fs g (st : rstate M R (dict mval) Cam) seen, g = GNothing \/ g = GImages [] -> r_param st <> [] ->
  refine_arg jdec im_gcps refine_rpc fs g st seen = (seen, Ok (RState (r_param st) (r_cache st) None, Err AttributeError)).
Proof. intros fs g st seen [->| ->] H; unfold refine_arg; cbn; destruct (r_param st); congruence. Qed.
End Gcps.
