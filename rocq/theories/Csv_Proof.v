(** Proofs about the CSV reader. *)
From Coq Require Import String Ascii List ZArith QArith Bool Lia.
From Verif Require Import Py Py_Proof Params_Model Factory_Model Str Grid_Model Grid_Spec Grid_Proof Read_Spec Read_Proof Csv_Model Csv_Spec.
Import ListNotations.
Open Scope string_scope.
Open Scope list_scope.

Lemma has_In : forall k l, has k l = true <-> In k l.
Proof.
  intros k l. unfold has. rewrite existsb_exists. split.
  - intros (x & Hin & Hx). apply String.eqb_eq in Hx. subst. exact Hin.
  - intros H. exists k. split; [exact H|apply String.eqb_refl].
Qed.

Lemma has_all_incl : forall names l, has_all names l = true <-> incl names l.
Proof.
  intros names l. unfold has_all. rewrite forallb_forall. unfold incl. split; intros H a Ha; specialize (H a Ha); apply has_In; exact H.
Qed.

Lemma has_all_not : forall names l, has_all names l = false <-> ~ incl names l.
Proof. intros names l. rewrite <- has_all_incl. destruct (has_all names l); split; intros; congruence. Qed.

Lemma has_not : forall k l, has k l = false <-> ~ In k l.
Proof. intros k l. rewrite <- has_In. destruct (has k l); split; intros; congruence. Qed.

Lemma parse_fieldnames_ok : forall fields fmt, parse_fieldnames fields = Ok fmt <-> format_of fields fmt.
Proof.
  intros fields fmt. unfold parse_fieldnames. fold xyz_fields lla_fields opk_fields rpy_fields.
  destruct (has "filename" fields) eqn:E0; cbn [negb].
  2:{ apply has_not in E0. split; [discriminate|]. intros H. inversion H; contradiction. }
  apply has_In in E0.
  destruct (has_all xyz_fields fields) eqn:E1, (has_all lla_fields fields) eqn:E2, (has_all opk_fields fields) eqn:E3, (has_all rpy_fields fields) eqn:E4;
    rewrite ?has_all_incl, ?has_all_not in *; cbn [orb negb];
    (split; intros H; [first [discriminate | injection H as <-; constructor; assumption]
                      |inversion H; subst; first [contradiction | reflexivity]]).
Qed.

Lemma parse_fieldnames_err : forall fields, (forall fmt, ~ format_of fields fmt) -> parse_fieldnames fields = Err ParamError.
Proof.
  intros fields H. destruct (parse_fieldnames fields) as [fmt|e] eqn:E.
  - apply parse_fieldnames_ok in E. exfalso. eapply H. exact E.
  - unfold parse_fieldnames in E. destruct (negb _); [congruence|]. destruct (negb _); [congruence|]. destruct (negb _); [congruence|discriminate].
Qed.

Lemma incl_congr : forall (l f f' : list string), (forall k, In k l -> (In k f <-> In k f')) -> (incl l f <-> incl l f').
Proof. intros l f f' H. split; intros Hi k Hk; apply H; auto. Qed.

Lemma format_set : forall f f', (forall k, In k recognised -> (In k f <-> In k f')) -> parse_fieldnames f = parse_fieldnames f'.
Proof.
  intros f f' H.
  assert (Hb : forall k, In k recognised -> has k f = has k f').
  { intros k Hk. destruct (has k f) eqn:E, (has k f') eqn:E'; try reflexivity; rewrite ?has_In, ?has_not in *; exfalso; apply (H k) in Hk; tauto. }
  unfold parse_fieldnames, has_all. cbn [forallb].
  rewrite !Hb by (cbn; tauto). reflexivity.
Qed.

Lemma names_of_names : forall first fields header names, names_of first fields header names <->
  names = match fields with Some (n :: ns) => n :: ns | _ => if header then first else legacy_fieldnames end.
Proof.
  intros first fields header names. split.
  - intros H. inversion H as [user h Hu|user Hu|user Hu]; subst.
    + destruct names; [congruence|reflexivity].
    + destruct Hu as [->| ->]; reflexivity.
    + destruct Hu as [->| ->]; reflexivity.
  - intros ->. destruct fields as [[|n ns]|].
    + destruct header; constructor; right; reflexivity.
    + constructor. discriminate.
    + destruct header; constructor; left; reflexivity.
Qed.

Lemma parse_file_ok : forall fields header first names fmt, parse_file fields header first = Ok (names, fmt) <->
  exists raw, names_of first fields header raw /\ names = map (fun n => lower (strip white n)) raw /\ format_of names fmt.
Proof.
  intros fields header first names fmt. unfold parse_file. split.
  - intros H. destruct (parse_fieldnames _) as [f|] eqn:E; [|discriminate]. cbn [bind] in H. injection H as <- <-.
    eexists. split; [apply names_of_names; reflexivity|]. split; [reflexivity|]. apply parse_fieldnames_ok. exact E.
  - intros (raw & Hr & -> & Hf). apply names_of_names in Hr. subst raw. apply parse_fieldnames_ok in Hf. rewrite Hf. reflexivity.
Qed.

Lemma parse_file_err : forall fields header first,
  (forall raw fmt, names_of first fields header raw -> ~ format_of (map (fun n => lower (strip white n)) raw) fmt) ->
  parse_file fields header first = Err ParamError.
Proof.
  intros fields header first H. unfold parse_file. rewrite parse_fieldnames_err; [reflexivity|]. intros fmt. apply H. apply names_of_names. reflexivity.
Qed.

Lemma format_insert : forall l1 l2 x, ~ In x recognised -> parse_fieldnames (l1 ++ x :: l2) = parse_fieldnames (l1 ++ l2).
Proof.
  intros l1 l2 x Hx. apply format_set. intros k Hk. rewrite !in_app_iff. cbn. split; [|tauto]. intros [H|[->|H]]; tauto.
Qed.

Lemma rfind_none : forall c s, ~ In c (list_ascii_of_string s) -> rfind c s = None.
Proof.
  intros c s. induction s as [|a s IH]; [reflexivity|]. cbn. intros H. rewrite IH by tauto.
  destruct (Ascii.eqb c a) eqn:E; [|reflexivity]. apply Ascii.eqb_eq in E. exfalso. apply H. left. congruence.
Qed.

Lemma rfind_last : forall c base ext, ~ In c (list_ascii_of_string ext) -> rfind c (base ++ String c ext)%string = Some (String.length base).
Proof.
  intros c base ext H. induction base as [|a base IH]; cbn.
  - rewrite rfind_none by exact H. rewrite Ascii.eqb_refl. reflexivity.
  - rewrite IH. reflexivity.
Qed.

Lemma substring_prefix : forall base ext, substring 0 (String.length base) (base ++ ext)%string = base.
Proof. induction base as [|a base IH]; intros ext; cbn; [destruct ext; reflexivity|]. f_equal. apply IH. Qed.

Lemma prj_extension : forall base ext, ~ In "."%char (list_ascii_of_string ext) -> prj_path (base ++ "." ++ ext)%string = (base ++ ".prj")%string.
Proof. intros base ext H. unfold prj_path. cbn [append]. rewrite rfind_last by exact H. rewrite substring_prefix. reflexivity. Qed.

Lemma prj_no_extension : forall base c, ~ In "."%char (list_ascii_of_string (base ++ String c "")%string) ->
  prj_path (base ++ String c "")%string = (base ++ ".prj")%string.
Proof.
  intros base c H. unfold prj_path. rewrite rfind_none by exact H.
  assert (Hl : String.length (base ++ String c "")%string = S (String.length base)).
  { clear H. induction base; cbn; [reflexivity|congruence]. }
  rewrite Hl. cbn [Nat.sub]. rewrite Nat.sub_0_r, substring_prefix. reflexivity.
Qed.

(** * Rows *)
Lemma dget_numbered : forall (row fields : list string) s k,
  NoDup fields ->
  dget k (map (fun ic => (fst ic, nth_error row (snd ic))) (combine fields (seq s (List.length fields)))) =
  match find (fun ic => String.eqb k (fst ic)) (combine fields (seq s (List.length fields))) with
  | Some ic => Some (nth_error row (snd ic))
  | None => None
  end.
Proof.
  intros row fields. induction fields as [|f fields IH]; intros s k Hn; [reflexivity|]. cbn. destruct (String.eqb k f); [reflexivity|].
  apply IH. inversion Hn; assumption.
Qed.

Lemma find_numbered : forall fields s k, NoDup fields -> forall i, nth_error fields i = Some k ->
  find (fun ic => String.eqb k (fst ic)) (combine fields (seq s (List.length fields))) = Some (k, (s + i)%nat).
Proof.
  induction fields as [|f fields IH]; intros s k Hn i Hi; [destruct i; discriminate|]. inversion Hn; subst. cbn.
  destruct i as [|i]; cbn in Hi.
  - injection Hi as ->. rewrite String.eqb_refl. rewrite Nat.add_0_r. reflexivity.
  - destruct (String.eqb_spec k f) as [Heq|].
    + subst. exfalso. apply H1. eapply nth_error_In. exact Hi.
    + rewrite (IH (S s) k H2 i Hi). f_equal. f_equal. lia.
Qed.

Lemma find_numbered_none : forall fields s k, ~ In k fields ->
  find (fun ic => String.eqb k (fst ic)) (combine fields (seq s (List.length fields))) = None.
Proof.
  induction fields as [|f fields IH]; intros s k Hn; [reflexivity|]. cbn. destruct (String.eqb_spec k f) as [->|]; [exfalso; apply Hn; left; reflexivity|].
  apply IH. intros H. apply Hn. right. exact H.
Qed.

Lemma keys_numbered : forall (row fields : list string) s,
  map fst (map (fun ic => (fst ic, nth_error row (snd ic))) (combine fields (seq s (List.length fields)))) = fields.
Proof. intros row fields. induction fields as [|f fields IH]; intros s; cbn; [reflexivity|]. f_equal. apply IH. Qed.

Lemma dict_row_items : forall fields row, NoDup fields ->
  dict_row fields row = map (fun ic => (fst ic, nth_error row (snd ic))) (combine fields (seq 0 (List.length fields))).
Proof. intros fields row H. unfold dict_row. apply dict_of_id. rewrite keys_numbered. exact H. Qed.

Lemma dict_row_get : forall fields row k i, NoDup fields -> nth_error fields i = Some k -> dget k (dict_row fields row) = Some (nth_error row i).
Proof. intros fields row k i Hn Hi. rewrite dict_row_items, dget_numbered, (find_numbered fields 0 k Hn i Hi) by exact Hn. reflexivity. Qed.

Lemma dict_row_none : forall fields row k, NoDup fields -> ~ In k fields -> dget k (dict_row fields row) = None.
Proof. intros fields row k Hn Hi. rewrite dict_row_items, dget_numbered, find_numbered_none by assumption. reflexivity. Qed.

Lemma NoDup_nth_error_eq : forall (l : list string) i j k, NoDup l -> nth_error l i = Some k -> nth_error l j = Some k -> i = j.
Proof.
  intros l i j k Hn Hi Hj. rewrite NoDup_nth_error in Hn. apply Hn; [apply nth_error_Some; congruence|congruence].
Qed.

Lemma cell_get : forall fields row k v, NoDup fields -> (dget k (dict_row fields row) = Some (Some v) <-> cell fields row k v).
Proof.
  intros fields row k v Hn. unfold cell. split.
  - intros H. destruct (in_dec string_dec k fields) as [Hin|Hin].
    + apply In_nth_error in Hin. destruct Hin as (i & Hi). exists i. split; [exact Hi|]. rewrite (dict_row_get _ _ _ _ Hn Hi) in H. congruence.
    + rewrite dict_row_none in H by assumption. discriminate.
  - intros (i & Hi & Hv). rewrite (dict_row_get _ _ _ _ Hn Hi). congruence.
Qed.

Lemma no_cell_get : forall fields row k, NoDup fields ->
  (no_cell fields row k <-> match dget k (dict_row fields row) with Some c => c | None => None end = None).
Proof.
  intros fields row k Hn. unfold no_cell. split.
  - intros H. destruct (dget k (dict_row fields row)) as [[v|]|] eqn:E; [|reflexivity|reflexivity]. exfalso. apply (H v). apply cell_get; assumption.
  - intros H v Hc. apply cell_get in Hc; [|exact Hn]. rewrite Hc in H. discriminate.
Qed.

Local Arguments has : simpl never.

Section Rows.
Variable pyfloat : string -> res Q.
Variable radians : Q -> Q.
Variable from_lla to_lla : Q * Q * Q -> Q * Q * Q.
Variable rpy_to_opk : Q * Q * Q -> Q * Q * Q -> Q * Q * Q.

Lemma convert_row_spec : forall d, NoDup (map fst d) -> forall nums, convert_row pyfloat d = Ok nums ->
  (forall k, In k number_fields -> forall ov, dget k d = Some ov -> exists s q, ov = Some s /\ pyfloat s = Ok q) /\
  (forall k q, dget k nums = Some q <-> In k number_fields /\ exists s, dget k d = Some (Some s) /\ pyfloat s = Ok q).
Proof.
  intros d Hn nums H. unfold convert_row in H. destruct (mapM _ _) as [items|] eqn:E; [|discriminate]. cbn [bind] in H. injection H as <-.
  apply mapM_Ok in E.
  assert (Hk : map fst items = map fst (filter (fun kv : string * option string => has (fst kv) number_fields) d)).
  { clear Hn. induction E as [|[k v] y l l' Hx _ IH]; [reflexivity|]. cbn. f_equal; [|exact IH].
    cbn in Hx. destruct v as [s|]; [|discriminate]. destruct (pyfloat s); [|discriminate]. cbn in Hx. injection Hx as <-. reflexivity. }
  assert (Hnf : NoDup (map fst (filter (fun kv : string * option string => has (fst kv) number_fields) d))).
  { clear - Hn. induction d as [|[k v] d IH]; [constructor|]. inversion Hn; subst. cbn [filter fst]. destruct (has k number_fields); [|apply IH; assumption].
    cbn [map fst]. constructor; [|apply IH; assumption]. intros Hin. apply H1. apply in_map_iff in Hin. destruct Hin as ([k' v'] & Hk' & Hin).
    apply filter_In in Hin. apply in_map_iff. exists (k', v'). split; [exact Hk'|apply Hin]. }
  rewrite (dict_of_id items) by (rewrite Hk; exact Hnf).
  assert (Hf : forall k ov, In (k, ov) (filter (fun kv : string * option string => has (fst kv) number_fields) d) <-> In k number_fields /\ dget k d = Some ov).
  { intros k ov. rewrite filter_In. cbn [fst]. rewrite has_In. split.
    - intros (Hin & Hnum). split; [exact Hnum|]. apply In_dget; assumption.
    - intros (Hnum & Hg). split; [apply dget_In; exact Hg|exact Hnum]. }
  split.
  - intros k Hnum ov Hg. assert (Hin := proj2 (Hf k ov) (conj Hnum Hg)). clear - E Hin.
    induction E as [|x y l l' Hx _ IH]; [contradiction|]. destruct Hin as [->|Hin]; [|apply IH; exact Hin].
    cbn in Hx. destruct ov as [s|]; [|discriminate]. destruct (pyfloat s) as [q|] eqn:Ep; [|discriminate]. exists s, q. split; [reflexivity|exact Ep].
  - intros k q. split.
    + intros Hg. apply dget_In in Hg. assert (Hex : exists s, In (k, Some s) (filter (fun kv : string * option string => has (fst kv) number_fields) d) /\ pyfloat s = Ok q).
      { clear - E Hg. induction E as [|[k' v'] y l l' Hx _ IH]; [contradiction|]. destruct Hg as [->|Hg].
        - cbn in Hx. destruct v' as [s|]; [|discriminate]. destruct (pyfloat s) as [q'|] eqn:Ep; [|discriminate]. cbn in Hx. injection Hx as -> ->.
          exists s. split; [left; reflexivity|exact Ep].
        - destruct (IH Hg) as (s & H1 & H2). exists s. split; [right; exact H1|exact H2]. }
      destruct Hex as (s & Hin & Hp). apply Hf in Hin. destruct Hin as (Hnum & Hg'). split; [exact Hnum|]. exists s. split; assumption.
    + intros (Hnum & s & Hg & Hp). assert (Hin := proj2 (Hf k (Some s)) (conj Hnum Hg)).
      apply In_dget; [rewrite Hk; exact Hnf|]. clear - E Hin Hp.
      induction E as [|x y l l' Hx _ IH]; [contradiction|]. destruct Hin as [->|Hin]; [|right; apply IH; exact Hin].
      cbn in Hx. rewrite Hp in Hx. cbn in Hx. injection Hx as <-. left. reflexivity.
Qed.

Lemma convert_row_total : forall d, NoDup (map fst d) ->
  (forall k ov, In k number_fields -> dget k d = Some ov -> exists s q, ov = Some s /\ pyfloat s = Ok q) ->
  exists nums, convert_row pyfloat d = Ok nums.
Proof.
  intros d Hn H. unfold convert_row.
  assert (Hm : exists items, mapM (fun kv : string * option string => match snd kv with
                              | Some s => do q <- pyfloat s; Ok (fst kv, q)
                              | None => Err TypeError
                              end) (filter (fun kv : string * option string => has (fst kv) number_fields) d) = Ok items); [|destruct Hm as (items & ->); eexists; reflexivity].
  assert (Hall : forall kv, In kv (filter (fun kv : string * option string => has (fst kv) number_fields) d) -> exists s q, snd kv = Some s /\ pyfloat s = Ok q).
  { intros [k ov] Hin. apply filter_In in Hin. cbn in Hin. destruct Hin as (Hin & Hnum). apply has_In in Hnum. apply (H k ov Hnum). apply In_dget; assumption. }
  induction (filter _ d) as [|kv l IH]; [exists []; reflexivity|]. cbn.
  destruct (Hall kv (or_introl eq_refl)) as (s & q & -> & ->). cbn. destruct IH as (items & ->); [intros; apply Hall; right; assumption|]. eexists. reflexivity.
Qed.

Lemma NoDup_row : forall fields row, NoDup fields -> NoDup (map fst (dict_row fields row)).
Proof. intros. rewrite dict_row_items by assumption. rewrite keys_numbered. assumption. Qed.

Lemma num_get : forall fields row nums k q, NoDup fields -> convert_row pyfloat (dict_row fields row) = Ok nums -> In k number_fields ->
  (number k nums = Ok q <-> num_cell pyfloat fields row k q).
Proof.
  intros fields row nums k q Hn Hc Hk. destruct (convert_row_spec _ (NoDup_row _ row Hn) _ Hc) as (_ & Hspec). unfold number, num_cell. split.
  - intros H. destruct (dget k nums) as [q'|] eqn:E; [|discriminate]. injection H as ->. apply Hspec in E. destruct E as (_ & s & Hg & Hp).
    exists s. split; [apply cell_get; assumption|exact Hp].
  - intros (s & Hcell & Hp). apply cell_get in Hcell; [|exact Hn]. assert (Hg : dget k nums = Some q) by (apply Hspec; split; [exact Hk|exists s; split; assumption]).
    rewrite Hg. reflexivity.
Qed.

Lemma three_get : forall fields row nums a b c t, NoDup fields -> convert_row pyfloat (dict_row fields row) = Ok nums ->
  In a number_fields -> In b number_fields -> In c number_fields ->
  (three_of a b c nums = Ok t <-> cells3 pyfloat fields row [a; b; c] t).
Proof.
  intros fields row nums a b c [[x y] z] Hn Hc Ha Hb Hcc. unfold three_of, cells3.
  rewrite <- (num_get _ _ _ _ x Hn Hc Ha), <- (num_get _ _ _ _ y Hn Hc Hb), <- (num_get _ _ _ _ z Hn Hc Hcc).
  destruct (number a nums), (number b nums), (number c nums); cbn; split; intros H; try discriminate; try (destruct H as (H1 & H2 & H3); discriminate).
  - injection H as -> -> ->. repeat split.
  - destruct H as (H1 & H2 & H3). congruence.
Qed.

Lemma convert_pose : forall fmt inrad fields row nums xyz opk, NoDup fields -> convert_row pyfloat (dict_row fields row) = Ok nums ->
  (csv_convert radians from_lla to_lla rpy_to_opk fmt inrad nums = Ok (xyz, opk) <->
   pose pyfloat radians from_lla to_lla rpy_to_opk inrad fields row fmt xyz opk).
Proof.
  intros fmt inrad fields row nums xyz opk Hn Hc. unfold csv_convert.
  assert (Hrad : forall t, rad3 radians inrad t = in_rad radians inrad t) by (intros [[? ?] ?]; destruct inrad; reflexivity).
  assert (Hx : forall t, three_of "x" "y" "z" nums = Ok t <-> cells3 pyfloat fields row xyz_fields t) by (intros; apply three_get; cbn; tauto).
  assert (Hl : forall t, three_of "latitude" "longitude" "altitude" nums = Ok t <-> cells3 pyfloat fields row lla_fields t) by (intros; apply three_get; cbn; tauto).
  assert (Ho : forall t, three_of "omega" "phi" "kappa" nums = Ok t <-> cells3 pyfloat fields row opk_fields t) by (intros; apply three_get; cbn; tauto).
  assert (Hr : forall t, three_of "roll" "pitch" "yaw" nums = Ok t <-> cells3 pyfloat fields row rpy_fields t) by (intros; apply three_get; cbn; tauto).
  split.
  - destruct fmt; cbn [is_xyz is_opk]; intros H.
    + destruct (three_of "x" "y" "z" nums) as [t|] eqn:E1; [|discriminate]. cbn [bind] in H.
      destruct (three_of "omega" "phi" "kappa" nums) as [u|] eqn:E2; [|discriminate]. cbn [bind] in H. injection H as <- <-. rewrite Hrad.
      constructor; [apply Hx|apply Ho]; reflexivity.
    + destruct (three_of "x" "y" "z" nums) as [t|] eqn:E1; [|discriminate]. cbn [bind] in H.
      destruct (three_of "roll" "pitch" "yaw" nums) as [u|] eqn:E2; [|discriminate]. cbn [bind] in H. injection H as <- <-. rewrite Hrad.
      constructor; [apply Hx|apply Hr]; reflexivity.
    + destruct (three_of "latitude" "longitude" "altitude" nums) as [t|] eqn:E1; [|discriminate]. cbn [bind] in H.
      destruct (three_of "omega" "phi" "kappa" nums) as [u|] eqn:E2; [|discriminate]. cbn [bind] in H. injection H as <- <-. rewrite Hrad.
      constructor; [apply Hl|apply Ho]; reflexivity.
    + destruct (three_of "latitude" "longitude" "altitude" nums) as [t|] eqn:E1; [|discriminate]. cbn [bind] in H.
      destruct (three_of "roll" "pitch" "yaw" nums) as [u|] eqn:E2; [|discriminate]. cbn [bind] in H. injection H as <- <-. rewrite Hrad.
      constructor; [apply Hl|apply Hr]; reflexivity.
  - intros H. inversion H as [t u H1 H2|t u H1 H2|t u H1 H2|t u H1 H2]; subst; cbn [is_xyz is_opk].
    + apply Hx in H1. apply Ho in H2. rewrite H1. cbn [bind]. rewrite H2. cbn [bind]. rewrite Hrad. reflexivity.
    + apply Hx in H1. apply Hr in H2. rewrite H1. cbn [bind]. rewrite H2. cbn [bind]. rewrite Hrad. reflexivity.
    + apply Hl in H1. apply Ho in H2. rewrite H1. cbn [bind]. rewrite H2. cbn [bind]. rewrite Hrad. reflexivity.
    + apply Hl in H1. apply Hr in H2. rewrite H1. cbn [bind]. rewrite H2. cbn [bind]. rewrite Hrad. reflexivity.
Qed.

Lemma read_row_gives : forall fmt inrad fields row name e, NoDup fields ->
  (read_row pyfloat radians from_lla to_lla rpy_to_opk fmt inrad fields row = Ok (name, e) <->
   row_gives pyfloat radians from_lla to_lla rpy_to_opk inrad fmt fields row name e).
Proof.
  intros fmt inrad fields row name e Hn. unfold read_row, row_gives. split.
  - intros H. destruct (dget "filename" (dict_row fields row)) as [[f|]|] eqn:Ef; try discriminate. cbn [bind] in H.
    destruct (convert_row pyfloat (dict_row fields row)) as [nums|] eqn:Ec; [|discriminate]. cbn [bind] in H.
    destruct (csv_convert _ _ _ _ fmt inrad nums) as [[xyz opk]|] eqn:Ev; [|discriminate]. cbn [bind] in H. injection H as <- <-.
    cbn [ce_xyz ce_opk ce_camera]. split; [exists f; split; [apply cell_get; assumption|reflexivity]|]. split; [|split].
    + intros k Hin Hnum. destruct (convert_row_spec _ (NoDup_row _ row Hn) _ Ec) as (H1 & _). apply In_nth_error in Hin. destruct Hin as (i & Hi).
      destruct (H1 k Hnum _ (dict_row_get _ row _ _ Hn Hi)) as (s & q & Hs & Hq). exists q, s. split; [exists i; split; assumption|exact Hq].
    + eapply convert_pose; [exact Hn|exact Ec|exact Ev].
    + destruct (match dget "camera" (dict_row fields row) with Some c => c | None => None end) as [c|] eqn:Ecam.
      * apply cell_get; [exact Hn|]. destruct (dget "camera" (dict_row fields row)); congruence.
      * apply no_cell_get; assumption.
  - intros ((f & Hf & ->) & Hnums & Hpose & Hcam). apply cell_get in Hf; [|exact Hn]. rewrite Hf. cbn [bind].
    destruct (convert_row_total (dict_row fields row) (NoDup_row _ row Hn)) as (nums & Ec).
    { intros k ov Hnum Hg. destruct (in_dec string_dec k fields) as [Hin|Hin]; [|rewrite dict_row_none in Hg by assumption; discriminate].
      destruct (Hnums k Hin Hnum) as (q & s & Hs & Hq). apply cell_get in Hs; [|exact Hn]. exists s, q. split; [congruence|exact Hq]. }
    rewrite Ec. cbn [bind]. apply (convert_pose _ _ _ _ _ _ _ Hn Ec) in Hpose. rewrite Hpose. cbn [bind]. f_equal. f_equal.
    destruct e as [xyz opk cam]. cbn [ce_xyz ce_opk ce_camera] in *. f_equal. destruct cam as [c|].
    + apply cell_get in Hcam; [|exact Hn]. rewrite Hcam. reflexivity.
    + apply no_cell_get in Hcam; assumption.
Qed.

Lemma csv_rows : forall C (rd : reader C) inrad rows d, NoDup (rd_fields rd) ->
  read_ext_param pyfloat C radians from_lla to_lla rpy_to_opk rd inrad rows = Ok d ->
  exists items, Forall2 (fun row item => row_gives pyfloat radians from_lla to_lla rpy_to_opk inrad (rd_format rd) (rd_fields rd) row (fst item) (snd item))
                        (if rd_header rd then tl rows else rows) items /\
                map fst d = first_names (map fst items) /\ forall k, dget k d = last_named k items.
Proof.
  intros C rd inrad rows d Hn H. unfold read_ext_param in H.
  assert (Hd : data_rows (rd_header rd) rows = Ok (if rd_header rd then tl rows else rows)).
  { unfold data_rows in *. destruct (rd_header rd); [|reflexivity]. destruct rows; [discriminate|reflexivity]. }
  rewrite Hd in H. cbn [bind] in H. destruct (mapM _ _) as [items|] eqn:E; [|discriminate]. injection H as <-. apply mapM_Ok in E.
  exists items. split; [|split; [apply dict_of_names|intros; apply dict_of_last]].
  clear Hd. induction E as [|row [name e] l l' Hx _ IH]; constructor; [|exact IH]. apply read_row_gives; assumption.
Qed.

End Rows.

Lemma Forall2_weaken : forall A B (P P' : A -> B -> Prop) l l', (forall a b, P a b -> P' a b) -> Forall2 P l l' -> Forall2 P' l l'.
Proof. intros A B P P' l l' H H2. induction H2; constructor; auto. Qed.

(** * CRS *)
Section Crs.
Variable pyfloat : string -> res Q.
Variable C : Type.
Variable epsg : Z -> C.
Variable is_projected is_geographic : C -> bool.

Notation init prj_of := (csv_init pyfloat C epsg is_projected is_geographic prj_of).

Lemma csv_user_crs : forall prj_of c lla fields path header rows rd,
  init prj_of (ACrs c) lla fields path header rows = Ok rd -> rd_crs rd = Some c /\ is_projected c = true.
Proof.
  intros prj_of c lla fields path header rows rd H. unfold csv_init, parse_crs in H. destruct (is_projected c); [|discriminate]. cbn [bind] in H.
  destruct (match lla with NoCrs => _ | _ => _ end) as [l|]; [|discriminate]. cbn [bind] in H.
  destruct (parse_file _ _ _) as [[names fmt]|]; [|discriminate]. cbn [bind] in H. injection H as <-. split; reflexivity.
Qed.

Lemma csv_user_only : forall prj_of prj_of' c lla fields path path' header rows,
  init prj_of (ACrs c) lla fields path header rows = init prj_of' (ACrs c) lla fields path' header rows.
Proof.
  intros. unfold csv_init. destruct (parse_crs C is_projected (ACrs c)) as [[c'|]|] eqn:E; [|unfold parse_crs in E; destruct (is_projected c); discriminate|reflexivity].
  reflexivity.
Qed.

Lemma csv_bad_crs : forall prj_of crs lla fields path header rows,
  crs = BadCrs \/ lla = BadCrs \/ (exists c, crs = ACrs c /\ is_projected c = false) \/ (exists c, lla = ACrs c /\ is_geographic c = false) ->
  init prj_of crs lla fields path header rows = Err CrsError.
Proof.
  intros prj_of crs lla fields path header rows H. unfold csv_init.
  destruct H as [->|[->|[(c & -> & Hc)|(c & -> & Hc)]]]; [reflexivity| | |].
  - destruct crs as [| |c]; cbn; [reflexivity|reflexivity|]. destruct (is_projected c); reflexivity.
  - cbn. rewrite Hc. reflexivity.
  - destruct crs as [| |c']; cbn; try reflexivity; [rewrite Hc; reflexivity|]. destruct (is_projected c'); cbn; [rewrite Hc|]; reflexivity.
Qed.

Lemma csv_no_user_crs : forall prj_of lla fields path header rows rd,
  init prj_of NoCrs lla fields path header rows = Ok rd ->
  get_crs pyfloat C epsg is_projected prj_of path (rd_format rd) (rd_fields rd) header rows = Ok (rd_crs rd) /\ rd_header rd = header /\
  format_of (rd_fields rd) (rd_format rd).
Proof.
  intros prj_of lla fields path header rows rd H. unfold csv_init in H. cbn [parse_crs bind] in H.
  destruct (parse_crs C is_geographic lla) as [l|]; [|discriminate]. cbn [bind] in H.
  destruct (parse_file _ _ _) as [[names fmt]|] eqn:Ef; [|discriminate]. cbn [bind] in H.
  destruct (get_crs _ _ _ _ _ _ _ _ _ _) as [crs|] eqn:Eg; [|discriminate]. injection H as <-. cbn. split; [exact Eg|]. split; [reflexivity|].
  unfold parse_file in Ef. destruct (parse_fieldnames _) as [fmt'|] eqn:Ep; [|discriminate]. cbn [bind] in Ef. injection Ef as <- <-.
  apply parse_fieldnames_ok. exact Ep.
Qed.

Lemma csv_crs_rule : forall prj_of lla fields path header rows rd,
  init prj_of NoCrs lla fields path header rows = Ok rd ->
  match rd_format rd with
  | XyzOpk => (exists p c, path = Some p /\ prj_of (prj_path p) = PrjCrs c /\ is_projected c = true /\ rd_crs rd = Some c) \/
              ((forall p, path = Some p -> prj_of (prj_path p) = PrjMissing) /\ rd_crs rd = None)
  | XyzRpy => exists p c, path = Some p /\ prj_of (prj_path p) = PrjCrs c /\ is_projected c = true /\ rd_crs rd = Some c
  | LlaRpy => exists c, find_lla_rpy_crs pyfloat C epsg (rd_fields rd) header rows = Ok c /\ rd_crs rd = Some c
  | LlaOpk => False
  end.
Proof.
  intros prj_of lla fields path header rows rd H. apply csv_no_user_crs in H. destruct H as (H & _ & _). unfold get_crs in H.
  destruct (rd_format rd).
  - destruct path as [p|]; [|right; split; [discriminate|cbn in H; congruence]].
    destruct (prj_of (prj_path p)) as [| |c] eqn:Ep; cbn [bind] in H; [right|discriminate|].
    + split; [intros p' Hp; injection Hp as <-; exact Ep|congruence].
    + destruct (is_projected c) eqn:Ec; [|discriminate]. cbn in H. left. exists p, c. repeat split; try assumption. congruence.
  - destruct path as [p|]; [|discriminate]. destruct (prj_of (prj_path p)) as [| |c] eqn:Ep; cbn [bind] in H; try discriminate.
    destruct (is_projected c) eqn:Ec; [|discriminate]. cbn in H. exists p, c. repeat split; try assumption. congruence.
  - discriminate.
  - destruct (find_lla_rpy_crs _ _ _ _ _ _) as [c|]; [|discriminate]. cbn in H. exists c. split; [reflexivity|congruence].
Qed.

Lemma csv_utm_rule : forall prj_of lla fields path header rows rd, NoDup (rd_fields rd) ->
  init prj_of NoCrs lla fields path header rows = Ok rd -> rd_format rd = LlaRpy ->
  exists latlons zone code, latlons <> [] /\
    Forall2 (fun row ll => num_cell pyfloat (rd_fields rd) row "latitude" (fst ll) /\ num_cell pyfloat (rd_fields rd) row "longitude" (snd ll))
      (if header then tl rows else rows) latlons /\
    (1 <= zone <= 60)%Z /\ in_utm_zone zone (qmean (map snd latlons)) /\
    ((0 <= qmean (map fst latlons))%Q -> code = (32600 + zone)%Z) /\ ((qmean (map fst latlons) < 0)%Q -> code = (32700 + zone)%Z) /\
    rd_crs rd = Some (epsg code).
Proof.
  intros prj_of lla fields path header rows rd Hn H Hf. apply csv_crs_rule in H. rewrite Hf in H. destruct H as (c & H & Hc).
  unfold find_lla_rpy_crs in H. destruct (data_rows header rows) as [rs|] eqn:Ed; [|discriminate]. cbn [bind] in H.
  assert (Hrs : rs = if header then tl rows else rows).
  { unfold data_rows in Ed. destruct header; [|congruence]. destruct rows; [discriminate|]. cbn. congruence. }
  subst rs. destruct (mapM _ _) as [latlons|] eqn:E; [|discriminate]. cbn [bind] in H. apply mapM_Ok in E.
  destruct (utm_zone (qmean (map fst latlons)) (qmean (map snd latlons))) as (zone & Hz & Hin & Hp & Hs).
  exists latlons, zone, (utm_crs_from_latlon (qmean (map fst latlons)) (qmean (map snd latlons))).
  split; [destruct latlons; [discriminate|discriminate]|]. split; [|repeat split; try assumption; try apply Hz].
  - eapply Forall2_weaken; [|exact E]. intros row [lat lon] Hx. cbn beta in Hx.
    destruct (convert_row pyfloat (dict_row (rd_fields rd) row)) as [nums|] eqn:Ec; [|discriminate]. cbn [bind] in Hx.
    destruct (number "latitude" nums) as [lat'|] eqn:E1; [|discriminate]. destruct (number "longitude" nums) as [lon'|] eqn:E2; [|discriminate].
    cbn in Hx. injection Hx as <- <-. cbn [fst snd].
    split; (eapply num_get; [exact Hn|exact Ec|cbn; tauto|assumption]).
  - rewrite Hc. destruct latlons; [discriminate|]. congruence.
Qed.

Lemma csv_projected : forall prj_of crs lla fields path header rows rd c,
  (forall lat lon, is_projected (epsg (utm_crs_from_latlon lat lon)) = true) ->
  init prj_of crs lla fields path header rows = Ok rd -> rd_crs rd = Some c -> is_projected c = true.
Proof.
  intros prj_of crs lla fields path header rows rd c Hutm H Hc. destruct crs as [| |c0].
  - apply csv_crs_rule in H. destruct (rd_format rd).
    + destruct H as [(p & c' & _ & _ & Hp & H)|(_ & H)]; congruence.
    + destruct H as (p & c' & _ & _ & Hp & H). congruence.
    + contradiction.
    + destruct H as (c' & H & H'). rewrite Hc in H'. injection H' as ->. unfold find_lla_rpy_crs in H.
      destruct (data_rows _ _); [|discriminate]. cbn [bind] in H. destruct (mapM _ _) as [[|ll lls]|]; try discriminate. cbn in H. injection H as <-. apply Hutm.
  - discriminate.
  - apply csv_user_crs in H. destruct H as (H & Hp). congruence.
Qed.

Lemma csv_crs_missing : forall prj_of lla fields path header rows names fmt,
  parse_crs C is_geographic lla <> Err CrsError -> parse_file fields header (hd [] rows) = Ok (names, fmt) ->
  (fmt = LlaOpk \/ (fmt = XyzRpy /\ forall p, path = Some p -> prj_of (prj_path p) = PrjMissing)) ->
  init prj_of NoCrs lla fields path header rows = Err CrsMissingError.
Proof.
  intros prj_of lla fields path header rows names fmt Hl Hf H. unfold csv_init. cbn [parse_crs bind].
  destruct (parse_crs C is_geographic lla) as [l|e] eqn:El.
  2:{ exfalso. unfold parse_crs in El. apply Hl. destruct lla as [| |c]; try discriminate; [congruence|]. destruct (is_geographic c); [discriminate|congruence]. }
  cbn [bind]. rewrite Hf. cbn [bind]. destruct H as [->|(-> & Hp)]; [reflexivity|]. unfold get_crs.
  destruct path as [p|]; [rewrite (Hp p eq_refl)|]; reflexivity.
Qed.

End Crs.
