(** Proofs about the command line. *)
From Coq Require Import String Ascii List ZArith QArith Bool Lia.
From Verif Require Import Py Py_Proof Params_Model Factory_Model Str Files_Model Files_Spec Files_Proof Read_Spec Read_Proof Csv_Proof Cli_Model Cli_Spec.
Import ListNotations.
Open Scope string_scope.
Open Scope list_scope.

(** * Options *)
Lemma resolution_ok : forall l r, resolution_cb l = Ok r <-> (l = [] /\ r = []) \/ (exists x, l = [x] /\ r = [x; x]) \/ (exists x y, l = [x; y] /\ r = [x; y]).
Proof.
  intros l r. destruct l as [|x [|y [|z l]]]; cbn; split; intros H.
  - left. split; congruence.
  - destruct H as [(_ & ->)|[(x & H & _)|(x & y & H & _)]]; [reflexivity|discriminate|discriminate].
  - right. left. exists x. split; congruence.
  - destruct H as [(H & _)|[(x' & H & ->)|(x' & y & H & _)]]; congruence.
  - right. right. exists x, y. split; congruence.
  - destruct H as [(H & _)|[(x' & H & _)|(x' & y' & H & ->)]]; congruence.
  - discriminate.
  - destruct H as [(H & _)|[(x' & H & _)|(x' & y' & H & _)]]; discriminate.
Qed.

Lemma resolution_err : forall l, (2 < List.length l)%nat -> resolution_cb l = Err BadParameter.
Proof. intros l H. destruct l as [|x [|y [|z l]]]; cbn in H; try lia. reflexivity. Qed.

Lemma split_first_some : forall c s k v, split_first c s = Some (k, v) <-> s = (k ++ String c v)%string /\ ~ In c (list_ascii_of_string k).
Proof.
  intros c s. induction s as [|x s IH]; intros k v; cbn [split_first].
  - split; [discriminate|]. intros (H & _). destruct k; discriminate.
  - destruct (Ascii.eqb x c) eqn:E.
    + apply Ascii.eqb_eq in E. subst x. split.
      * intros H. injection H as <- <-. split; [reflexivity|intros []].
      * intros (H & Hn). destruct k as [|y k]; [cbn in H; congruence|]. cbn in H. injection H as -> _. exfalso. apply Hn. left. reflexivity.
    + apply Ascii.eqb_neq in E. destruct (split_first c s) as [[k' v']|] eqn:Es.
      * split.
        -- intros H. injection H as <- <-. destruct (proj1 (IH k' v') eq_refl) as (-> & Hn). split; [reflexivity|]. intros [Hx|Hx]; [congruence|contradiction].
        -- intros (H & Hn). destruct k as [|y k]; [cbn in H; congruence|]. cbn in H. injection H as -> ->.
           assert (Hk : Some (k', v') = Some (k, v)) by (apply IH; split; [reflexivity|intros Hin; apply Hn; right; exact Hin]). congruence.
      * split; [discriminate|]. intros (H & Hn). destruct k as [|y k]; [cbn in H; congruence|]. cbn in H. injection H as -> ->.
        assert (Hk : None = Some (k, v)) by (apply IH; split; [reflexivity|intros Hin; apply Hn; right; exact Hin]). discriminate.
Qed.

Lemma split_first_none : forall c s, split_first c s = None <-> ~ In c (list_ascii_of_string s).
Proof.
  intros c s. induction s as [|x s IH]; cbn; [tauto|]. destruct (Ascii.eqb x c) eqn:E.
  - apply Ascii.eqb_eq in E. subst. split; [discriminate|]. intros H. exfalso. apply H. left. reflexivity.
  - apply Ascii.eqb_neq in E. destruct (split_first c s) as [[k v]|]; split; intros H; try discriminate; try reflexivity.
    + exfalso. destruct IH as (_ & IH). discriminate IH. tauto.
    + intros [Hx|Hx]; [congruence|]. apply IH; [reflexivity|exact Hx].
Qed.

Section Options.
Variable V : Type.
Variable none : V.
Variable safe_load : string -> res V.

Lemma option_value_res : forall v x, (if existsb (String.eqb v) ["none"; "null"; "nil"] then Ok none else safe_load v) = Ok x <-> option_value none safe_load v x.
Proof.
  intros v x. unfold option_value. change (existsb (String.eqb v) ["none"; "null"; "nil"]) with (Csv_Model.has v ["none"; "null"; "nil"]).
  destruct (Csv_Model.has v ["none"; "null"; "nil"]) eqn:E.
  - apply has_In in E. split; [intros H; left; split; [exact E|congruence]|]. intros [(_ & ->)|(H & _)]; [reflexivity|contradiction].
  - apply has_not in E. split; [intros H; right; split; assumption|]. intros [(H & _)|(_ & H)]; [contradiction|exact H].
Qed.

Lemma creation_options : forall pairs d, creation_option_cb V none safe_load pairs = Ok d ->
  exists items, Forall2 (fun pair kx => exists k v, pair = (k ++ "=" ++ v)%string /\ ~ In "="%char (list_ascii_of_string k) /\
                           fst kx = strip white (lower k) /\ option_value none safe_load (strip white (lower v)) (snd kx)) pairs items /\
    map fst d = first_names (map fst items) /\ forall k, dget k d = last_named k items.
Proof.
  intros pairs d H. unfold creation_option_cb in H. destruct (mapM _ pairs) as [items|] eqn:E; [|discriminate]. cbn [bind] in H. injection H as <-.
  apply mapM_Ok in E. exists items. split; [|split; [apply dict_of_names|intros; apply dict_of_last]].
  eapply Forall2_weaken; [|exact E]. intros pair [key x] Hx. cbn beta in Hx. destruct (split_first "=" pair) as [[k v]|] eqn:Es; [|discriminate].
  apply split_first_some in Es. destruct Es as (-> & Hn). exists k, v. split; [reflexivity|]. split; [exact Hn|].
  destruct (if existsb _ _ then _ else _) as [x'|] eqn:Ev; [|discriminate]. apply option_value_res in Ev. cbn [bind] in Hx. injection Hx as <- <-.
  split; [reflexivity|exact Ev].
Qed.

Lemma mapM_err_first : forall A B (f : A -> res B) l1 a l2 e, (forall x, In x l1 -> is_ok (f x) = true) -> f a = Err e -> mapM f (l1 ++ a :: l2) = Err e.
Proof.
  intros A B f l1 a l2 e H Ha. induction l1 as [|x l1 IH]; cbn; [rewrite Ha; reflexivity|].
  assert (Hx := H x (or_introl eq_refl)). destruct (f x); [|discriminate]. cbn. rewrite IH; [reflexivity|]. intros; apply H; right; assumption.
Qed.

Lemma creation_bad : forall l1 pair l2,
  (forall p, In p l1 -> exists k v x, p = (k ++ "=" ++ v)%string /\ ~ In "="%char (list_ascii_of_string k) /\ option_value none safe_load (strip white (lower v)) x) ->
  ~ In "="%char (list_ascii_of_string pair) -> creation_option_cb V none safe_load (l1 ++ pair :: l2) = Err BadParameter.
Proof.
  intros l1 pair l2 H Hp. unfold creation_option_cb. erewrite mapM_err_first; [reflexivity| |].
  - intros p Hin. destruct (H p Hin) as (k & v & x & Hk & Hn & Hv). rewrite (proj2 (split_first_some "=" p k v) (conj Hk Hn)).
    apply option_value_res in Hv. rewrite Hv. reflexivity.
  - apply split_first_none in Hp. rewrite Hp. reflexivity.
Qed.
End Options.

Lemma log_levels : forall v, (v >= 1 -> log_level v = 10)%Z /\ (v <= 0 -> log_level v = 20 + 10 * - v)%Z.
Proof. intros v. unfold log_level. lia. Qed.

Lemma weights_ok : forall l r, weights_cb l = Ok r <-> (forall w, In w l -> (0 <= w)%Q) /\ r = l.
Proof.
  intros l r. unfold weights_cb. destruct (existsb _ l) eqn:E.
  - apply existsb_exists in E. destruct E as (w & Hin & Hw). apply negb_true_iff in Hw. split; [discriminate|]. intros (H & _).
    specialize (H w Hin). apply Qle_bool_iff in H. congruence.
  - split; [|intros (_ & ->); reflexivity]. intros H. injection H as <-. split; [|reflexivity]. intros w Hin. apply Qle_bool_iff.
    destruct (Qle_bool 0 w) eqn:Ew; [reflexivity|]. exfalso. assert (Hex : existsb (fun w => negb (Qle_bool 0 w)) l = true); [|congruence].
    apply existsb_exists. exists w. split; [exact Hin|rewrite Ew; reflexivity].
Qed.

Lemma weights_bad : forall l w, In w l -> (w < 0)%Q -> weights_cb l = Err BadParameter.
Proof.
  intros l w Hin Hw. unfold weights_cb. assert (Hex : existsb (fun w => negb (Qle_bool 0 w)) l = true); [|rewrite Hex; reflexivity].
  apply existsb_exists. exists w. split; [exact Hin|]. apply negb_true_iff. destruct (Qle_bool 0 w) eqn:E; [|reflexivity]. apply Qle_bool_iff in E.
  exfalso. apply (Qlt_irrefl 0). eapply Qle_lt_trans; eassumption.
Qed.

Lemma indexes_ok : forall pi pc mi mc, sharpen_indexes pi pc mi mc = Ok tt <-> (1 <= pi <= pc)%Z /\ forall i, In i mi -> (1 <= i <= mc)%Z.
Proof.
  intros pi pc mi mc. unfold sharpen_indexes. destruct (_ || _)%bool eqn:E.
  - split; [discriminate|]. intros (H & _). apply orb_true_iff in E. rewrite Z.leb_le, Z.ltb_lt in E. lia.
  - apply orb_false_iff in E. rewrite Z.leb_gt, Z.ltb_ge in E. destruct (existsb _ mi) eqn:Em.
    + apply existsb_exists in Em. destruct Em as (i & Hi & Hb). apply orb_true_iff in Hb. rewrite Z.leb_le, Z.ltb_lt in Hb.
      split; [discriminate|]. intros (_ & H). specialize (H i Hi). lia.
    + split; [|reflexivity]. intros _. split; [lia|]. intros i Hi.
      destruct (Z.leb_spec i 0) as [H1|H1]; [|destruct (Z.ltb_spec mc i) as [H2|H2]; [|lia]].
      * exfalso. assert (Hex : existsb (fun i => (i <=? 0) || (mc <? i))%Z mi = true); [|congruence]. apply existsb_exists. exists i.
        split; [exact Hi|]. apply orb_true_iff. left. apply Z.leb_le. lia.
      * exfalso. assert (Hex : existsb (fun i => (i <=? 0) || (mc <? i))%Z mi = true); [|congruence]. apply existsb_exists. exists i.
        split; [exact Hi|]. apply orb_true_iff. right. apply Z.ltb_lt. lia.
Qed.

Lemma indexes_total : forall pi pc mi mc, sharpen_indexes pi pc mi mc = Ok tt \/ sharpen_indexes pi pc mi mc = Err BadParameter.
Proof. intros. unfold sharpen_indexes. destruct (_ || _)%bool; [right; reflexivity|]. destruct (existsb _ _); [right|left]; reflexivity. Qed.

(** * Processing *)
Lemma env_res_ok : forall e s, env_res e s = Ok tt <-> raises e s = None.
Proof. intros e s. unfold env_res. destruct (raises e s); split; intros; congruence. Qed.

Lemma process_success : forall e path ow b fs fs', ortho_process e path ow b fs = (fs', Ok tt) ->
  (ow = true \/ dget path fs = None) /\ no_failure e b /\ dget path fs' = Some (finished e b) /\ forall q, q <> path -> dget q fs' = dget q fs.
Proof.
  intros e path ow b fs fs' H.
  assert (Hconf := proj1 (call_confined (COrtho e path ow b) fs)). cbn [run_call writes] in Hconf. rewrite H in Hconf. cbn [fst] in Hconf.
  unfold ortho_process in H. rewrite process_eq in H.
  destruct (snd (steps (pure_step e) _ fs)) as [[]|] eqn:Epre; [|discriminate].
  destruct (negb ow && dmem path fs) eqn:Eow; [discriminate|]. destruct (env_res e RioOpen) as [[]|] eqn:Eopen; [|discriminate].
  split; [|split; [|split; [|exact Hconf]]].
  - destruct ow; [left; reflexivity|]. right. cbn in Eow. unfold dmem in Eow. destruct (dget path fs); [discriminate|reflexivity].
  - unfold no_failure. intros s Hs.
    assert (Hpre : forall l, snd (steps (pure_step e) l fs) = Ok tt -> forall s, In s l -> raises e s = None).
    { intros l. induction l as [|s0 l IH]; intros Hl s1 Hin; [contradiction|]. cbn in Hl. unfold abind, pure_step, ret in Hl.
      destruct (env_res e s0) as [[]|] eqn:E0; [|discriminate]. apply env_res_ok in E0. destruct Hin as [<-|Hin]; [exact E0|]. apply IH; assumption. }
    assert (Hpost := proj2 (steps_write_ok e path ([ColorInterp; InterpArg; Tiles] ++ (if b then [Overviews] else [])) (dset path "" fs))).
    rewrite H in Hpost. specialize (Hpost eq_refl). specialize (Hpre _ Epre). apply env_res_ok in Eopen.
    destruct b; cbn in Hs, Hpost, Hpre;
      repeat (destruct Hs as [<-|Hs]; [first [exact Eopen | apply Hpre; tauto | apply Hpost; tauto]|]); contradiction.
  - assert (Hlast : forall l s fs0 fs1, steps (write_step e path) (l ++ [s]) fs0 = (fs1, Ok tt) -> dget path fs1 = Some (content_after e s)).
    { intros l s. induction l as [|s0 l IH]; intros fs0 fs1 H1.
      - cbn [app] in H1. rewrite steps_write_cons in H1. destruct (env_res e s); [|discriminate]. cbn in H1. injection H1 as <-. apply dget_dset_eq.
      - cbn [app] in H1. rewrite steps_write_cons in H1. destruct (env_res e s0); [|discriminate]. eapply IH. exact H1. }
    unfold finished. destruct b.
    + apply (Hlast [ColorInterp; InterpArg; Tiles]) in H. exact H.
    + apply (Hlast [ColorInterp; InterpArg]) in H. exact H.
Qed.

Lemma process_complete : forall e path ow b fs, (ow = true \/ dget path fs = None) -> no_failure e b -> snd (ortho_process e path ow b fs) = Ok tt.
Proof.
  intros e path ow b fs How Hok. unfold ortho_process. rewrite process_eq.
  rewrite (steps_pure_ok e); [|intros s Hs; apply Hok; apply in_app_iff; left; cbn in *; tauto]. cbn [snd].
  replace (negb ow && dmem path fs) with false.
  2:{ destruct How as [->|H]; [reflexivity|]. unfold dmem. rewrite H. symmetry. apply andb_false_r. }
  rewrite (proj2 (env_res_ok e RioOpen)); [|apply Hok; cbn; tauto]. apply steps_write_ok. intros s Hs. apply Hok.
  apply in_app_iff in Hs. apply in_app_iff. destruct Hs as [Hs|Hs]; [left; cbn in *; tauto|right; exact Hs].
Qed.

Lemma process_other : forall e path ow b fs q, q <> path -> dget q (fst (ortho_process e path ow b fs)) = dget q fs.
Proof. intros e path ow b fs q Hq. apply (proj1 (call_confined (COrtho e path ow b) fs)). exact Hq. Qed.

Lemma append_inj_r : forall a b s : string, (a ++ s)%string = (b ++ s)%string -> a = b.
Proof.
  assert (Hl : forall a s : string, String.length (a ++ s) = (String.length a + String.length s)%nat).
  { induction a; intros; cbn; [reflexivity|]. f_equal. apply IHa. }
  induction a as [|x a IH]; intros [|y b] s H; [reflexivity| | |].
  - exfalso. apply (f_equal String.length) in H. rewrite !Hl in H. cbn in H. lia.
  - exfalso. apply (f_equal String.length) in H. rewrite !Hl in H. cbn in H. lia.
  - cbn in H. injection H as -> H. f_equal. eapply IH. exact H.
Qed.

Lemma ortho_name_inj : forall dir a b, ortho_name dir a = ortho_name dir b <-> src_stem a = src_stem b.
Proof.
  intros dir a b. unfold ortho_name, src_stem. split; [|intros ->; reflexivity]. intros H. apply pjoin_inj in H. eapply append_inj_r. exact H.
Qed.

Lemma except_ok : forall A (p : exn -> bool) e' (m : act A) fs fs' a, except_as p e' m fs = (fs', Ok a) <-> m fs = (fs', Ok a).
Proof. intros A p e' m fs fs' a. unfold except_as. destruct (m fs) as [f [x|x]]; split; intros H; congruence. Qed.

Lemma except_fst : forall A (p : exn -> bool) e' (m : act A) fs, fst (except_as p e' m fs) = fst (m fs).
Proof. intros A p e' m fs. unfold except_as. destruct (m fs) as [f [x|x]]; reflexivity. Qed.

Lemma first_some_app : forall A (l : list (option A)) a l', first_some l a -> first_some (l ++ l') a.
Proof. intros A l a l' H. induction H; cbn; constructor. assumption. Qed.

Lemma first_some_fun : forall A (l : list (option A)) a b, first_some l a -> first_some l b -> a = b.
Proof. intros A l a b H. induction H; intros Hb; inversion Hb; subst; auto. Qed.

Section Ortho.
Variable C K : Type.
Variable camera_get : string -> res K.
Variable src_open : string -> res (option C).
Variable ortho_init : string -> K -> C -> res unit.
Variable env_of : string -> K -> C -> env.
Variable dir : string.
Variable ow b : bool.

Notation one := (ortho_one C K camera_get src_open ortho_init env_of dir ow b).
Notation loop := (ortho_loop C K camera_get src_open ortho_init env_of dir ow b).

Lemma one_ok : forall crs src fs fs' r, one crs src fs = (fs', Ok r) <->
  exists k own c, camera_get src = Ok k /\ src_open src = Ok own /\ first_some [crs; own] c /\ r = Some c /\ ortho_init src k c = Ok tt /\
    ortho_process (env_of src k c) (ortho_name dir src) ow b fs = (fs', Ok tt).
Proof.
  intros crs src fs fs' r. unfold ortho_one, abind, ret, except_as. split.
  - intros H. destruct (camera_get src) as [k|] eqn:Ek; [|discriminate]. destruct (src_open src) as [own|] eqn:Eo; [|discriminate].
    destruct (match crs with Some c => Some c | None => own end) as [c|] eqn:Ec; [|discriminate].
    destruct (ortho_init src k c) as [[]|] eqn:Ei; [|discriminate].
    destruct (ortho_process _ _ _ _ fs) as [f [[]|]] eqn:Ep; [|discriminate]. injection H as <- <-.
    exists k, own, c. split; [reflexivity|]. split; [reflexivity|]. split; [|split; [reflexivity|split; [exact Ei|exact Ep]]].
    destruct crs; [injection Ec as ->; constructor|]. subst. constructor. constructor.
  - intros (k & own & c & -> & -> & Hc & -> & Hi & Hp).
    assert (Ec : match crs with Some c => Some c | None => own end = Some c).
    { inversion Hc as [|? ? Hc']; subst; [reflexivity|]. inversion Hc' as [|? ? Hc'']; subst; [reflexivity|]. inversion Hc''. }
    rewrite Ec, Hi, Hp. reflexivity.
Qed.

Lemma one_other : forall crs src fs q, q <> ortho_name dir src -> dget q (fst (one crs src fs)) = dget q fs.
Proof.
  intros crs src fs q Hq. unfold ortho_one, abind, ret, except_as. destruct (camera_get src) as [k|]; [|reflexivity].
  destruct (src_open src) as [own|]; [|reflexivity]. destruct (match crs with Some c => Some c | None => own end) as [c|]; [|reflexivity].
  destruct (ortho_init src k c) as [[]|]; [|reflexivity]. assert (Hp := process_other (env_of src k c) (ortho_name dir src) ow b fs q Hq).
  destruct (ortho_process _ _ _ _ fs) as [f [[]|]]; exact Hp.
Qed.

Lemma loop_other : forall srcs crs fs q, (forall src, In src srcs -> q <> ortho_name dir src) -> dget q (fst (loop crs srcs fs)) = dget q fs.
Proof.
  induction srcs as [|src srcs IH]; intros crs fs q Hq; [reflexivity|]. cbn. unfold abind.
  assert (Ho := one_other crs src fs q (Hq src (or_introl eq_refl))). destruct (one crs src fs) as [fs1 [r|e]]; cbn [fst] in *; [|exact Ho].
  rewrite IH; [exact Ho|]. intros; apply Hq; right; assumption.
Qed.

Lemma loop_app : forall srcs1 srcs2 crs fs, loop crs (srcs1 ++ srcs2) fs =
  match loop crs srcs1 fs with (fs1, Ok crs1) => loop crs1 srcs2 fs1 | (fs1, Err e) => (fs1, Err e) end.
Proof.
  induction srcs1 as [|src srcs1 IH]; intros srcs2 crs fs; [reflexivity|]. cbn. unfold abind. destruct (one crs src fs) as [fs1 [r|e]]; [apply IH|reflexivity].
Qed.

Lemma loop_crs : forall srcs crs fs fs' r, loop crs srcs fs = (fs', Ok r) ->
  forall c, r = Some c <-> first_some (crs :: map (own_crs src_open) srcs) c.
Proof.
  induction srcs as [|src srcs IH]; intros crs fs fs' r H c.
  - cbn in H. injection H as <- <-. cbn. split; [intros ->; constructor|]. intros H. inversion H as [|? ? H']; subst; [reflexivity|inversion H'].
  - cbn in H. unfold abind in H. destruct (one crs src fs) as [fs1 [r1|]] eqn:E1; [|discriminate]. rewrite (IH _ _ _ _ H c).
    apply one_ok in E1. destruct E1 as (k & own & c1 & _ & Ho & Hc & -> & _ & _). cbn [map]. unfold own_crs at 2. rewrite Ho.
    split.
    + intros Hf. inversion Hf; subst. exact (first_some_app _ _ _ (map (own_crs src_open) srcs) Hc).
    + intros Hf. assert (Hc2 := first_some_app _ _ _ (map (own_crs src_open) srcs) Hc). cbn [app] in Hc2.
      rewrite (first_some_fun _ _ _ _ Hf Hc2). constructor.
Qed.

Lemma loop_run : forall srcs crs fs fs' r, loop crs srcs fs = (fs', Ok r) ->
  forall before src after, srcs = before ++ src :: after ->
  exists k c, camera_get src = Ok k /\ first_some (crs :: map (own_crs src_open) (before ++ [src])) c /\ ortho_init src k c = Ok tt /\
    no_failure (env_of src k c) b /\
    ((forall s, In s after -> src_stem s <> src_stem src) -> dget (ortho_name dir src) fs' = Some (finished (env_of src k c) b)).
Proof.
  intros srcs crs fs fs' r H before src after ->. rewrite loop_app in H. destruct (loop crs before fs) as [fs1 [crs1|]] eqn:E1; [|discriminate].
  cbn in H. unfold abind in H. destruct (one crs1 src fs1) as [fs2 [crs2|]] eqn:E2; [|discriminate].
  assert (Hcrs : loop crs (before ++ [src]) fs = (fs2, Ok crs2)) by (rewrite loop_app, E1; cbn; unfold abind; rewrite E2; reflexivity).
  apply one_ok in E2. destruct E2 as (k & own & c & Hk & Ho & Hc & -> & Hi & Hp). exists k, c. split; [exact Hk|]. split.
  - apply (loop_crs _ _ _ _ _ Hcrs c). reflexivity.
  - split; [exact Hi|]. apply process_success in Hp. destruct Hp as (_ & Hn & Hg & _). split; [exact Hn|]. intros Ha.
    assert (Hl := loop_other after (Some c) fs2 (ortho_name dir src)). rewrite H in Hl. cbn [fst] in Hl. rewrite Hl; [exact Hg|].
    intros s Hs He. apply (Ha s Hs). apply (ortho_name_inj dir). symmetry. exact He.
Qed.

Lemma loop_fresh : forall srcs crs fs fs' r, loop crs srcs fs = (fs', Ok r) -> ow = false ->
  NoDup (map src_stem srcs) /\ forall src, In src srcs -> dget (ortho_name dir src) fs = None.
Proof.
  induction srcs as [|src srcs IH]; intros crs fs fs' r H How.
  - split; [constructor|intros ? []].
  - cbn in H. unfold abind in H. destruct (one crs src fs) as [fs1 [r1|]] eqn:E1; [|discriminate].
    destruct (IH _ _ _ _ H How) as (Hn & Hfresh).
    apply one_ok in E1. destruct E1 as (k & own & c1 & _ & _ & _ & _ & _ & Hp).
    assert (Hoth := fun q => process_other (env_of src k c1) (ortho_name dir src) ow b fs q). rewrite Hp in Hoth. cbn [fst] in Hoth.
    apply process_success in Hp. destruct Hp as (How' & _ & Hg & _).
    assert (Hnin : forall s, In s srcs -> src_stem s <> src_stem src).
    { intros s Hs He. specialize (Hfresh s Hs). apply (ortho_name_inj dir) in He. rewrite He in Hfresh. congruence. }
    split.
    + cbn. constructor; [|exact Hn]. intros Hin. apply in_map_iff in Hin. destruct Hin as (s & He & Hs). apply (Hnin s Hs He).
    + intros s [<-|Hs]; [destruct How' as [How'|How']; [congruence|exact How']|]. rewrite <- (Hoth (ortho_name dir s)); [apply Hfresh; exact Hs|].
      intros He. apply (Hnin s Hs). apply (ortho_name_inj dir). exact He.
Qed.

Lemma loop_stop : forall srcs crs fs fs' e, loop crs srcs fs = (fs', Err e) ->
  exists before src after fs1 crs1, srcs = before ++ src :: after /\ loop crs before fs = (fs1, Ok crs1) /\
    snd (one crs1 src fs1) = Err e /\ forall q, q <> ortho_name dir src -> dget q fs' = dget q fs1.
Proof.
  induction srcs as [|src srcs IH]; intros crs fs fs' e H; [discriminate|]. cbn in H. unfold abind in H.
  destruct (one crs src fs) as [fs1 [r1|e1]] eqn:E1.
  - destruct (IH _ _ _ _ H) as (before & src' & after & fs2 & crs2 & -> & Hl & Ho & Hq).
    exists (src :: before), src', after, fs2, crs2. split; [reflexivity|]. split; [cbn; unfold abind; rewrite E1; exact Hl|]. split; assumption.
  - injection H as <- <-. exists [], src, srcs, fs, crs. split; [reflexivity|]. split; [reflexivity|]. split; [rewrite E1; reflexivity|].
    intros q Hq. assert (Hoth := one_other crs src fs q Hq). rewrite E1 in Hoth. exact Hoth.
Qed.

Lemma loop_complete : forall srcs crs fs,
  (forall before src after, srcs = before ++ src :: after -> exists k c, camera_get src = Ok k /\ is_ok (src_open src) = true /\
     first_some (crs :: map (own_crs src_open) (before ++ [src])) c /\ ortho_init src k c = Ok tt /\ no_failure (env_of src k c) b) ->
  (ow = true \/ (NoDup (map src_stem srcs) /\ forall src, In src srcs -> dget (ortho_name dir src) fs = None)) ->
  is_ok (snd (loop crs srcs fs)) = true.
Proof.
  induction srcs as [|src srcs IH]; intros crs fs H How; [reflexivity|]. cbn. unfold abind.
  destruct (H [] src srcs eq_refl) as (k & c & Hk & Ho & Hc & Hi & Hn). cbn [app map] in Hc.
  destruct (src_open src) as [own|] eqn:Eo; [|discriminate]. assert (Hown : own_crs src_open src = own) by (unfold own_crs; rewrite Eo; reflexivity).
  rewrite Hown in Hc.
  assert (Hp : exists fs1, ortho_process (env_of src k c) (ortho_name dir src) ow b fs = (fs1, Ok tt)).
  { assert (Hs : snd (ortho_process (env_of src k c) (ortho_name dir src) ow b fs) = Ok tt).
    { apply process_complete; [|exact Hn]. destruct How as [->|(_ & Hf)]; [left; reflexivity|right; apply Hf; left; reflexivity]. }
    destruct (ortho_process _ _ _ _ fs) as [fs1 r]. cbn in Hs. subst r. exists fs1. reflexivity. }
  destruct Hp as (fs1 & Hp). assert (H1 : one crs src fs = (fs1, Ok (Some c))).
  { apply one_ok. exists k, own, c. repeat split; assumption. }
  rewrite H1. apply IH.
  - intros before s after Hs. destruct (H (src :: before) s after ltac:(rewrite Hs; reflexivity)) as (k' & c' & Hk' & Ho' & Hc' & Hi' & Hn').
    exists k', c'. split; [exact Hk'|]. split; [exact Ho'|]. split; [|split; assumption].
    cbn [app map] in Hc'. rewrite Hown in Hc'.
    assert (Hc2 := first_some_app _ _ _ (map (own_crs src_open) (before ++ [s])) Hc). cbn [app] in Hc2.
    rewrite (first_some_fun _ _ _ _ Hc' Hc2). constructor.
  - destruct How as [->|(Hnd & Hf)]; [left; reflexivity|right]. cbn in Hnd. inversion Hnd; subst. split; [assumption|].
    intros s Hs. assert (Hoth := process_other (env_of src k c) (ortho_name dir src) ow b fs (ortho_name dir s)). rewrite Hp in Hoth. cbn [fst] in Hoth.
    rewrite Hoth; [apply Hf; right; exact Hs|]. intros He. apply (ortho_name_inj dir) in He. apply H3. rewrite <- He. apply in_map. exact Hs.
Qed.

Lemma one_no_crs : forall src fs k, camera_get src = Ok k -> src_open src = Ok None -> one None src fs = (fs, Err MissingParameter).
Proof. intros src fs k Hk Ho. unfold ortho_one, abind, ret, except_as. rewrite Hk, Ho. reflexivity. Qed.

Lemma one_exists : forall crs src fs k own c content, camera_get src = Ok k -> src_open src = Ok own -> first_some [crs; own] c ->
  ortho_init src k c = Ok tt -> (forall s, ortho_before s -> raises (env_of src k c) s = None) -> ow = false ->
  dget (ortho_name dir src) fs = Some content -> one crs src fs = (fs, Err UsageError).
Proof.
  intros crs src fs k own c content Hk Ho Hc Hi Hb How Hg. unfold ortho_one, abind at 1 2, ret at 1 2, except_as at 1 2. rewrite Hk, Ho.
  assert (Ec : match crs with Some c => Some c | None => own end = Some c).
  { inversion Hc as [|? ? Hc']; subst; [reflexivity|]. inversion Hc' as [|? ? Hc'']; subst; [reflexivity|]. inversion Hc''. }
  rewrite Ec. unfold abind at 1, except_as, abind at 1, ret at 1. rewrite Hi. unfold ortho_process. rewrite process_eq.
  rewrite steps_pure_ok; [|intros s Hs; apply Hb; unfold ortho_before; cbn in *; tauto]. cbn [snd]. unfold dmem. rewrite Hg, How. reflexivity.
Qed.

Lemma one_camera : forall crs src fs e, camera_get src = Err e -> is_orthority e = true -> one crs src fs = (fs, Err UsageError).
Proof. intros crs src fs e Hk He. unfold ortho_one, abind, ret, except_as. rewrite Hk, He. reflexivity. Qed.
End Ortho.

(** * OpenDroneMap images *)
Lemma rfind_in : forall c s, In c (list_ascii_of_string s) -> rfind c s <> None.
Proof.
  intros c s. induction s as [|y s IH]; intros Hin; [contradiction|]. cbn.
  destruct (rfind c s); [discriminate|]. destruct Hin as [->|Hin]; [rewrite Ascii.eqb_refl; discriminate|]. exfalso. apply IH; [exact Hin|reflexivity].
Qed.

Lemma rfind_some : forall c s i, rfind c s = Some i ->
  exists base ext, s = (base ++ String c ext)%string /\ ~ In c (list_ascii_of_string ext) /\ i = String.length base.
Proof.
  intros c s. induction s as [|x s IH]; intros i H; [discriminate|]. cbn in H. destruct (rfind c s) as [j|] eqn:E.
  - injection H as <-. destruct (IH j eq_refl) as (base & ext & -> & Hn & ->). exists (String x base), ext. repeat split. exact Hn.
  - destruct (Ascii.eqb c x) eqn:Ex; [|discriminate]. injection H as <-. apply Ascii.eqb_eq in Ex. subst x. exists "", s. repeat split.
    intros Hin. apply (rfind_in _ _ Hin). exact E.
Qed.

Lemma drop_append : forall base s, drop (String.length base) (base ++ s)%string = s.
Proof.
  unfold drop. induction base as [|x base IH]; intros s; cbn.
  - rewrite Nat.sub_0_r. induction s; cbn; [reflexivity|]. f_equal. assumption.
  - apply IH.
Qed.

Lemma no_dot_last : forall f, ~ In "."%char (list_ascii_of_string f) -> ~ In (lower (drop (String.length f - 1) f)) [".jpg"; ".jpeg"; ".tif"; ".tiff"].
Proof.
  intros f Hf Hin.
  assert (Hlen : (String.length (lower (drop (String.length f - 1) f)) <= 1)%nat).
  { assert (Hl : forall s, String.length (lower s) = String.length s) by (induction s; cbn; [reflexivity|f_equal; assumption]).
    rewrite Hl. unfold drop. assert (Hs : forall n m s, (String.length (substring n m s) <= m)%nat).
    { intros n m s. revert n m. induction s as [|x s IHs]; intros n m; destruct n, m; cbn; try lia; [specialize (IHs 0%nat m); lia|apply IHs|apply IHs]. }
    etransitivity; [apply Hs|]. lia. }
  destruct Hin as [H|[H|[H|[H|[]]]]]; rewrite <- H in Hlen; cbn in Hlen; lia.
Qed.

Lemma odm_selected : forall files f, In f (odm_images files) <->
  In f files /\ exists base ext, f = (base ++ "." ++ ext)%string /\ ~ In "."%char (list_ascii_of_string ext) /\ In (lower ext) ["jpg"; "jpeg"; "tif"; "tiff"].
Proof.
  intros files f. unfold odm_images. rewrite filter_In.
  match goal with |- context [existsb (String.eqb ?x) ?l] => change (existsb (String.eqb x) l) with (Csv_Model.has x l) end. rewrite has_In.
  destruct (rfind "." f) as [i|] eqn:E.
  - apply rfind_some in E. destruct E as (base & ext & -> & Hn & ->). rewrite drop_append. split.
    + intros (Hf & He). split; [exact Hf|]. exists base, ext. split; [reflexivity|]. split; [exact Hn|].
      cbn in He. cbn. destruct He as [H|[H|[H|[H|[]]]]]; injection H as <-; tauto.
    + intros (Hf & base' & ext' & He & Hn' & Hin). split; [exact Hf|].
      assert (Hr : Some (String.length base) = Some (String.length base')) by (rewrite <- (rfind_last "." base ext Hn), <- (rfind_last "." base' ext' Hn'); rewrite He; reflexivity).
      injection Hr as Hr. assert (Hee : String "." ext = String "." ext').
      { rewrite <- (drop_append base (String "." ext)). rewrite He. rewrite Hr. apply drop_append. }
      injection Hee as ->. cbn in *. destruct Hin as [H|[H|[H|[H|[]]]]]; rewrite <- H; tauto.
  - split.
    + intros (_ & He). exfalso. eapply no_dot_last; [|exact He]. intros Hin. apply (rfind_in _ _ Hin). exact E.
    + intros (_ & base & ext & -> & Hn & _). exfalso. cbn [append] in E. rewrite rfind_last in E by exact Hn. discriminate.
Qed.

(** * Legacy command *)
Section Legacy.
Variable P : Type.
Variable poses : dict P.
Variable legacy_init : string -> P -> res unit.
Variable legacy_env : string -> P -> env.
Variable ow b : bool.

Notation one := (legacy_one P poses legacy_init legacy_env ow b).
Notation loop := (legacy_loop P poses legacy_init legacy_env ow b).

Lemma legacy_one_ok : forall od src fs fs' d, one od src fs = (fs', Ok d) ->
  exists p dir, dget (src_stem src) poses = Some p /\ d = Some dir /\ first_some [od; Some (path_parent src)] dir /\ legacy_init src p = Ok tt /\
    ortho_process (legacy_env src p) (ortho_name dir src) ow b fs = (fs', Ok tt).
Proof.
  intros od src fs fs' d H. unfold legacy_one, abind, ret in H. unfold src_stem. destruct (dget _ poses) as [p|]; [|discriminate].
  destruct (legacy_init src p) as [[]|] eqn:Ei; [|discriminate]. destruct (ortho_process _ _ _ _ fs) as [f [[]|]] eqn:Ep; [|discriminate].
  injection H as <- <-. eexists p, _. split; [reflexivity|]. split; [reflexivity|]. split; [|split; [exact Ei|exact Ep]].
  destruct od; repeat constructor.
Qed.

Lemma legacy_one_other : forall dir src fs q, q <> ortho_name dir src -> dget q (fst (one (Some dir) src fs)) = dget q fs.
Proof.
  intros dir src fs q Hq. unfold legacy_one, abind, ret. destruct (dget _ poses) as [p|]; [|reflexivity].
  destruct (legacy_init src p) as [[]|]; [|reflexivity]. assert (Hp := process_other (legacy_env src p) (ortho_name dir src) ow b fs q Hq).
  destruct (ortho_process _ _ _ _ fs) as [f [[]|]]; exact Hp.
Qed.

Lemma legacy_loop_dir : forall srcs dir fs fs' r, loop (Some dir) srcs fs = (fs', Ok r) -> r = Some dir /\
  (forall q, (forall src, In src srcs -> q <> ortho_name dir src) -> dget q fs' = dget q fs) /\
  forall before src after, srcs = before ++ src :: after -> exists p, dget (src_stem src) poses = Some p /\ legacy_init src p = Ok tt /\
    no_failure (legacy_env src p) b /\
    ((forall s, In s after -> src_stem s <> src_stem src) -> dget (ortho_name dir src) fs' = Some (finished (legacy_env src p) b)).
Proof.
  induction srcs as [|src srcs IH]; intros dir fs fs' r H.
  - cbn in H. injection H as <- <-. split; [reflexivity|]. split; [reflexivity|]. intros [|? ?] ? ? Hs; discriminate.
  - cbn in H. unfold abind in H. destruct (one (Some dir) src fs) as [fs1 [d|]] eqn:E1; [|discriminate].
    assert (Hoth := fun q => legacy_one_other dir src fs q). rewrite E1 in Hoth. cbn [fst] in Hoth.
    apply legacy_one_ok in E1. destruct E1 as (p & dir' & Hp & -> & Hd & Hi & Hpr). inversion Hd; subst. clear Hd.
    destruct (IH _ _ _ _ H) as (-> & Hq & Hrun). split; [reflexivity|]. split.
    + intros q Hn. rewrite Hq by (intros; apply Hn; right; assumption). apply Hoth. apply Hn. left. reflexivity.
    + intros [|s0 before] s after Hs; cbn in Hs; injection Hs as -> Hs.
      * subst after. exists p. split; [exact Hp|]. split; [exact Hi|]. apply process_success in Hpr. destruct Hpr as (_ & Hn & Hg & _).
        split; [exact Hn|]. intros Ha. rewrite Hq; [exact Hg|]. intros s' Hs' He. apply (Ha s' Hs'). symmetry. apply (ortho_name_inj dir'). exact He.
      * apply (Hrun before s after Hs).
Qed.

Lemma legacy_outputs : forall od srcs fs fs', legacy_cmd P poses legacy_init legacy_env ow b od srcs fs = (fs', Ok tt) ->
  forall before src after first rest, srcs = before ++ src :: after -> srcs = first :: rest ->
  exists p, dget (src_stem src) poses = Some p /\ legacy_init src p = Ok tt /\ no_failure (legacy_env src p) b /\
    ((forall s, In s after -> src_stem s <> src_stem src) ->
     dget (ortho_name (match od with None | Some "" => path_parent first | Some d => d end) src) fs' = Some (finished (legacy_env src p) b)).
Proof.
  intros od srcs fs fs' H before src after first rest Hs Hf. unfold legacy_cmd, abind, ret in H.
  set (od' := match od with Some "" => None | _ => od end) in *.
  destruct (loop od' srcs fs) as [fs1 [r|]] eqn:E; [|discriminate]. injection H as <-.
  assert (Hsame : loop (Some match od with None | Some "" => path_parent first | Some d => d end) srcs fs = (fs1, Ok r)).
  { rewrite <- E. subst srcs. rewrite Hf. cbn. unfold abind. subst od'. destruct od as [[|c d]|]; reflexivity. }
  apply legacy_loop_dir in Hsame. destruct Hsame as (_ & _ & Hrun). apply (Hrun before src after Hs).
Qed.
End Legacy.

Lemma legacy_levels : forall v, (1 <= v)%Z -> legacy_level v = (10 * v)%Z.
Proof. intros v H. unfold legacy_level, log_level. lia. Qed.

Lemma cmd_export : forall C K cg so oi eo dir ow b export dem band crs srcs fs,
  fst (ortho_cmd C K cg so oi eo dir ow b true export dem band crs srcs fs) = fst (export fs) /\
  (snd (export fs) = Ok tt <-> snd (ortho_cmd C K cg so oi eo dir ow b true export dem band crs srcs fs) = Ok tt).
Proof.
  intros. unfold ortho_cmd. rewrite !except_fst. split; [reflexivity|]. unfold except_as. destruct (export fs) as [f [[]|e]]; cbn; [tauto|].
  split; discriminate.
Qed.

Lemma cmd_dem : forall C K cg so oi eo dir ow b export dem band crs srcs fs fs',
  ortho_cmd C K cg so oi eo dir ow b false export dem band crs srcs fs = (fs', Ok tt) <->
  exists count r, dem = Some (Ok count) /\ (1 <= band <= count)%Z /\ ortho_loop C K cg so oi eo dir ow b crs srcs fs = (fs', Ok r).
Proof.
  intros. unfold ortho_cmd. destruct dem as [[count|e]|].
  - unfold except_as, abind at 1, ret. destruct (_ || _)%bool eqn:E.
    + split; [discriminate|]. intros (count' & r & Hd & Hb & _). injection Hd as <-. apply orb_true_iff in E. rewrite Z.leb_le, Z.ltb_lt in E. lia.
    + apply orb_false_iff in E. rewrite Z.leb_gt, Z.ltb_ge in E. unfold abind. destruct (ortho_loop _ _ _ _ _ _ _ _ _ crs srcs fs) as [f [r|e]].
      * split; [intros H; injection H as <-; exists count, r; repeat split; lia|]. intros (count' & r' & _ & _ & H). congruence.
      * split; [discriminate|]. intros (count' & r' & _ & _ & H). discriminate.
  - split; [discriminate|]. intros (count & r & Hd & _). discriminate.
  - split; [discriminate|]. intros (count & r & Hd & _). discriminate.
Qed.

Lemma cmd_dem_error : forall C K cg so oi eo dir ow b export dem band crs srcs fs,
  dem = None \/ dem = Some (Err FileNotFoundError) \/ (exists count, dem = Some (Ok count) /\ (band <= 0 \/ count < band)%Z) ->
  ortho_cmd C K cg so oi eo dir ow b false export dem band crs srcs fs = (fs, Err (match dem with None => MissingParameter | _ => BadParameter end)).
Proof.
  intros C K cg so oi eo dir ow b export dem band crs srcs fs [->|[->|(count & -> & H)]]; [reflexivity|reflexivity|].
  unfold ortho_cmd, except_as, abind at 1, ret. replace (_ || _)%bool with true; [reflexivity|]. symmetry. apply orb_true_iff.
  rewrite Z.leb_le, Z.ltb_lt. exact H.
Qed.
