From Coq Require Import List String Ascii Bool Arith Lia.
From Verif Require Import Py Py_Proof Factory_Model Factory_Spec.
Import ListNotations.
Open Scope string_scope.

Lemma get_by_name_iff : forall V name (d : dict V) v, get_by_name name d = Some v <-> found d name v.
Proof.
  intros V name d v. unfold get_by_name. split.
  - destruct (dget name d) eqn:E; intros H.
    + inversion H; subst. apply by_name; assumption.
    + apply by_stem; assumption.
  - intros [H|H H2]; rewrite H; auto.
Qed.

(** * File names *)
Lemma rfind_absent : forall c s, ~ has_char c s -> rfind c s = None.
Proof.
  intros c s. induction s as [|x s IH]; intros H; [reflexivity|]. cbn in *. rewrite IH by tauto.
  destruct (Ascii.eqb_spec c x); [tauto|reflexivity].
Qed.

Lemma rfind_at : forall c a b, ~ has_char c b -> rfind c (a ++ String c b) = Some (String.length a).
Proof.
  intros c a b H. induction a as [|x a IH]; cbn.
  - rewrite rfind_absent by assumption. rewrite Ascii.eqb_refl. reflexivity.
  - cbn in IH. rewrite IH. reflexivity.
Qed.

Lemma length_app : forall a b, String.length (a ++ b) = (String.length a + String.length b)%nat.
Proof. induction a as [|x a IH]; intros b; cbn; [reflexivity|]. rewrite IH. reflexivity. Qed.

Lemma substring_0_all : forall s, substring 0 (String.length s) s = s.
Proof. induction s as [|x s IH]; cbn; [reflexivity|]. rewrite IH. reflexivity. Qed.

Lemma substring_tail : forall a c b, substring (S (String.length a)) (String.length b) (a ++ String c b) = b.
Proof. induction a as [|x a IH]; intros c b; cbn; [apply substring_0_all|]. apply IH. Qed.

Lemma substring_head : forall a b, substring 0 (String.length a) (a ++ b) = a.
Proof. induction a as [|x a IH]; intros b; cbn; [destruct b; reflexivity|]. rewrite IH. reflexivity. Qed.

Theorem path_name_last : forall path name, last_part path name -> path_name path = name.
Proof.
  intros path name [n H|d n H]; unfold path_name.
  - rewrite rfind_absent by assumption. reflexivity.
  - cbn [append]. rewrite rfind_at by assumption. rewrite length_app. cbn [String.length].
    replace (String.length d + S (String.length n) - S (String.length d))%nat with (String.length n) by lia. apply substring_tail.
Qed.

Theorem stem_without : forall name st, without_extension name st -> stem name = st.
Proof.
  intros name st [n H|s e Hs He H|e H|s]; unfold stem.
  - rewrite rfind_absent by assumption. reflexivity.
  - cbn [append]. rewrite rfind_at by assumption. rewrite length_app. cbn [String.length].
    destruct s as [|x s]; [congruence|]. destruct e as [|y e]; [congruence|].
    destruct (Nat.ltb_spec 0 (String.length (String x s))) as [_|L]; [|cbn in L; lia].
    destruct (Nat.ltb_spec (String.length (String x s)) (String.length (String x s) + S (String.length (String y e)) - 1)) as [_|L]; [|cbn in L; lia].
    cbn [andb]. apply substring_head.
  - pose proof (rfind_at "." "" e H) as E. cbn [append] in *. rewrite E. reflexivity.
  - rewrite (rfind_at "." s "") by tauto. rewrite length_app. cbn [String.length].
    destruct (Nat.ltb_spec (String.length s) (String.length s + 1 - 1)) as [L|_]; [lia|]. rewrite andb_false_r. reflexivity.
Qed.

Section Frame.
Context {P X I : Type}.
Variable create : P -> res I.
Notation fstate := (fstate P X I).

Lemma oeqb_eq : forall a b, oeqb a b = true <-> a = b.
Proof.
  intros [s|] [t|]; cbn; split; intros H; try discriminate; try reflexivity.
  - apply String.eqb_eq in H. congruence.
  - inversion H. apply String.eqb_refl.
Qed.

Lemma int_for_iff : forall (st : fstate) cam p, int_for st cam = Ok p <-> interior (f_int st) cam p.
Proof.
  intros st cam p. unfold int_for. split.
  - destruct (given cam) eqn:E.
    + destruct cam as [s|]; [|discriminate]. destruct (dget s (f_int st)) eqn:D; intros H; inversion H; subst.
      apply with_id; [|assumption]. cbn in E. intros ->. discriminate.
    + destruct (f_int st) as [|[id q] [|]] eqn:EI; intros H; inversion H; subst. apply only_one with id; [|reflexivity].
      destruct cam as [s|]; [|left; reflexivity]. right. cbn in E. apply negb_false_iff, String.eqb_eq in E. congruence.
  - intros [s q Hs Hq|cam' id q Hc Hi].
    + cbn. rewrite (proj2 (String.eqb_neq s "") Hs). cbn. rewrite Hq. reflexivity.
    + rewrite Hi. destruct Hc as [->| ->]; reflexivity.
Qed.

Lemma int_for_err : forall (st : fstate) cam x, int_for st cam = Err x -> x = ParamError.
Proof.
  intros st cam x. unfold int_for. destruct (given cam); [destruct cam as [s|]; [destruct (dget s (f_int st))|]|
    destruct (f_int st) as [|[? ?] [|]]]; congruence.
Qed.

Lemma nth_hset : forall (h : list (camera X I)) i c j, nth_error (hset X I i c h) j =
  if (i =? j)%nat then match nth_error h i with Some _ => Some c | None => None end else nth_error h j.
Proof.
  induction h as [|c' h IH]; intros [|i] c [|j]; cbn; try reflexivity.
  - destruct (i =? j)%nat; reflexivity.
  - apply IH.
Qed.

Lemma hset_length : forall (h : list (camera X I)) i c, List.length (hset X I i c h) = List.length h.
Proof. induction h as [|c' h IH]; intros [|i] c; cbn; auto. Qed.

(** Cached objects exist, were created from the interior parameters of their ID, and are one per ID. *)
Definition inv (st : fstate) : Prop :=
  (forall k i, cget k (f_cache st) = Some i -> exists p c, interior (f_int st) k p /\ create p = Ok (c_int c) /\ nth_error (f_heap st) i = Some c) /\
  (forall k k' i, cget k (f_cache st) = Some i -> cget k' (f_cache st) = Some i -> k = k').

Lemma cget_app : forall k c k' i, cget k (c ++ [(k', i)])%list = match cget k c with Some j => Some j | None => if oeqb k k' then Some i else None end.
Proof. intros k c k' i. induction c as [|[k2 j] c IH]; cbn; [reflexivity|]. destruct (oeqb k k2); auto. Qed.

(** What one call does, in a state reached by calls. *)
Lemma frame_get_spec : forall name (st : fstate), inv st ->
  let r := frame_get create name st in
  inv (fst r) /\ f_int (fst r) = f_int st /\ f_ext (fst r) = f_ext st /\
  (forall k i, cget k (f_cache st) = Some i -> cget k (f_cache (fst r)) = Some i) /\
  match snd r with
  | Ok i => exists e p c, found (f_ext st) name e /\ interior (f_int st) (ex_cam e) p /\ create p = Ok c /\
              cget (ex_cam e) (f_cache (fst r)) = Some i /\
              nth_error (f_heap (fst r)) i = Some (Camera c (Some (ex_pos e))) /\
              (forall j, j <> i -> (j < List.length (f_heap st))%nat -> nth_error (f_heap (fst r)) j = nth_error (f_heap st) j)
  | Err x => fst r = st /\
             (x = ParamError /\ ~ (exists e p, found (f_ext st) name e /\ interior (f_int st) (ex_cam e) p) \/
              exists e p, found (f_ext st) name e /\ interior (f_int st) (ex_cam e) p /\ create p = Err x)
  end.
Proof.
  intros name st Hinv r. subst r. unfold frame_get.
  destruct (get_by_name name (f_ext st)) as [e|] eqn:EE.
  2:{ cbn. split; [first [assumption|split; assumption]|]. split; [reflexivity|]. split; [reflexivity|]. split; [auto|]. split; [reflexivity|]. left. split; [reflexivity|].
      intros (e & p & H & _). apply get_by_name_iff in H. congruence. }
  apply get_by_name_iff in EE.
  destruct (int_for st (ex_cam e)) as [p|x] eqn:EP.
  2:{ cbn. split; [first [assumption|split; assumption]|]. split; [reflexivity|]. split; [reflexivity|]. split; [auto|]. split; [reflexivity|]. left. split; [eapply int_for_err; eassumption|].
      intros (e' & p & H & Hi). apply get_by_name_iff in H. apply get_by_name_iff in EE. assert (e' = e) by congruence. subst.
      apply int_for_iff in Hi. congruence. }
  apply int_for_iff in EP. destruct Hinv as [HA HB].
  destruct (cget (ex_cam e) (f_cache st)) as [i|] eqn:EC.
  - destruct (HA _ _ EC) as (p' & c & Hp & Hc & Hn). rewrite Hn. cbn [fst snd f_int f_ext f_cache f_heap].
    split.
    { split; cbn [f_cache f_int f_heap]; [|assumption]. intros k j Hk. destruct (HA k j Hk) as (q & c2 & Hq & Hc2 & Hn2).
      exists q. destruct (Nat.eq_dec i j) as [<-|Hij].
      - exists (Camera (c_int c) (Some (ex_pos e))). cbn. rewrite Hn in Hn2. inversion Hn2; subst c2.
        split; [assumption|]. split; [assumption|]. rewrite nth_hset, Nat.eqb_refl, Hn. reflexivity.
      - exists c2. split; [assumption|]. split; [assumption|]. rewrite nth_hset. rewrite (proj2 (Nat.eqb_neq i j) Hij). assumption. }
    split; [reflexivity|]. split; [reflexivity|]. split; [auto|].
    exists e, p', (c_int c). split; [assumption|]. split; [assumption|]. split; [assumption|]. split; [assumption|]. split.
    + rewrite nth_hset, Nat.eqb_refl, Hn. reflexivity.
    + intros j Hj _. rewrite nth_hset. rewrite (proj2 (Nat.eqb_neq i j)) by congruence. reflexivity.
  - destruct (create p) as [c|x] eqn:ECr.
    + rewrite nth_error_app2 by lia. rewrite Nat.sub_diag. cbn [nth_error c_int fst snd f_int f_ext f_cache f_heap].
      assert (HBound : forall k i, cget k (f_cache st) = Some i -> (i < List.length (f_heap st))%nat).
      { intros k i Hk. destruct (HA k i Hk) as (_ & c2 & _ & _ & Hn). apply nth_error_Some. congruence. }
      split.
      { split; cbn [f_cache f_int f_heap].
        - intros k j Hk. rewrite cget_app in Hk. destruct (cget k (f_cache st)) as [j'|] eqn:EK.
          + inversion Hk; subst j'. destruct (HA k j EK) as (q & c2 & Hq & Hc2 & Hn2). exists q, c2. split; [assumption|].
            split; [assumption|]. rewrite nth_hset. pose proof (HBound k j EK). rewrite (proj2 (Nat.eqb_neq _ _)) by lia.
            rewrite nth_error_app1 by lia. assumption.
          + destruct (oeqb k (ex_cam e)) eqn:EO; [|discriminate]. inversion Hk; subst j. apply oeqb_eq in EO. subst k.
            exists p, (Camera c (Some (ex_pos e))). cbn. split; [assumption|]. split; [assumption|].
            rewrite nth_hset, Nat.eqb_refl, nth_error_app2, Nat.sub_diag by lia. reflexivity.
        - intros k k' i Hk Hk'. rewrite cget_app in Hk, Hk'.
          destruct (cget k (f_cache st)) as [j|] eqn:EK; destruct (cget k' (f_cache st)) as [j'|] eqn:EK'.
          + inversion Hk; inversion Hk'; subst. eapply HB; eassumption.
          + inversion Hk; subst. destruct (oeqb k' (ex_cam e)); inversion Hk'. pose proof (HBound _ _ EK). lia.
          + inversion Hk'; subst. destruct (oeqb k (ex_cam e)); inversion Hk. pose proof (HBound _ _ EK'). lia.
          + destruct (oeqb k (ex_cam e)) eqn:E1; [|discriminate]. destruct (oeqb k' (ex_cam e)) eqn:E2; [|discriminate].
            apply oeqb_eq in E1, E2. congruence. }
      split; [reflexivity|]. split; [reflexivity|].
      split; [intros k i Hk; rewrite cget_app, Hk; reflexivity|].
      exists e, p, c. split; [assumption|]. split; [assumption|]. split; [assumption|]. split; [|split].
      * rewrite cget_app, EC. rewrite (proj2 (oeqb_eq _ _) eq_refl). reflexivity.
      * rewrite nth_hset, Nat.eqb_refl, nth_error_app2, Nat.sub_diag by lia. reflexivity.
      * intros j Hj Hl. rewrite nth_hset. rewrite (proj2 (Nat.eqb_neq _ _)) by congruence. rewrite nth_error_app1 by lia. reflexivity.
    + cbn. split; [first [assumption|split; assumption]|]. split; [reflexivity|]. split; [reflexivity|]. split; [auto|]. split; [reflexivity|]. right. exists e, p. auto.
Qed.

Lemma init_inv : forall ints (exts : dict (ext X)), inv (frame_init ints exts).
Proof. intros. split; intros; discriminate. Qed.

Lemma run_inv : forall names (st : fstate), inv st -> inv (frame_run create names st) /\
  f_int (frame_run create names st) = f_int st /\ f_ext (frame_run create names st) = f_ext st.
Proof.
  unfold frame_run. induction names as [|n names IH]; intros st H; [auto|]. cbn.
  destruct (frame_get_spec n st H) as (H1 & H2 & H3 & _). destruct (IH _ H1) as (I1 & I2 & I3). split; [assumption|]. split; congruence.
Qed.

Theorem frame_get_right : forall ints (exts : dict (ext X)) history name (e : ext X) p c,
  found exts name e -> interior ints (ex_cam e) p -> create p = Ok c ->
  let st := frame_run create history (frame_init ints exts) in
  exists i, snd (frame_get create name st) = Ok i /\
            nth_error (f_heap (fst (frame_get create name st))) i = Some (Camera c (Some (ex_pos e))).
Proof.
  intros ints exts history name e p c He Hp Hc st.
  destruct (run_inv history _ (init_inv ints exts)) as (HI & H1 & H2). fold st in HI, H1, H2. cbn in H1, H2.
  destruct (frame_get_spec name st HI) as (_ & _ & _ & _ & HS).
  destruct (snd (frame_get create name st)) as [i|x].
  - exists i. split; [reflexivity|]. destruct HS as (e' & p' & c' & He' & Hp' & Hc' & _ & Hn & _).
    rewrite H2 in He'. apply get_by_name_iff in He, He'. assert (e' = e) by congruence. subst e'.
    rewrite H1 in Hp'. assert (p' = p).
    { pose proof (proj2 (int_for_iff st (ex_cam e) p')) as A. pose proof (proj2 (int_for_iff st (ex_cam e) p)) as B.
      rewrite H1 in A, B. specialize (A Hp'). specialize (B Hp). congruence. }
    assert (Hcc : c' = c) by congruence. rewrite <- Hcc. exact Hn.
  - exfalso. destruct HS as [_ [[_ HS]|(e' & p' & He' & Hp' & Hc')]].
    + apply HS. exists e, p. rewrite H1, H2. auto.
    + rewrite H2 in He'. apply get_by_name_iff in He, He'. assert (e' = e) by congruence. subst e'.
      rewrite H1 in Hp'. assert (p' = p).
      { pose proof (proj2 (int_for_iff st (ex_cam e) p')) as A. pose proof (proj2 (int_for_iff st (ex_cam e) p)) as B.
        rewrite H1 in A, B. specialize (A Hp'). specialize (B Hp). congruence. }
      congruence.
Qed.

Theorem frame_get_error : forall ints (exts : dict (ext X)) history name,
  ~ (exists e p, found exts name e /\ interior ints (ex_cam e) p) ->
  let st := frame_run create history (frame_init ints exts) in
  frame_get create name st = (st, Err ParamError).
Proof.
  intros ints exts history name Hn st.
  destruct (run_inv history _ (init_inv ints exts)) as (HI & H1 & H2). fold st in HI, H1, H2. cbn in H1, H2.
  destruct (frame_get_spec name st HI) as (_ & _ & _ & _ & HS).
  destruct (frame_get create name st) as [st' [i|x]]; cbn [fst snd] in HS.
  - exfalso. apply Hn. destruct HS as (e & p & _ & He & Hp & _). exists e, p. rewrite <- H1, <- H2. auto.
  - destruct HS as [-> [[-> _]|(e & p & He & Hp & _)]]; [reflexivity|]. exfalso. apply Hn. exists e, p. rewrite <- H1, <- H2. auto.
Qed.

(** Objects of other camera IDs are left alone; the object of the same ID is the same one, updated. *)
Theorem frame_get_aliasing : forall ints (exts : dict (ext X)) history n1 n2 i1 i2 (e1 e2 : ext X),
  let st := frame_run create history (frame_init ints exts) in
  let st1 := fst (frame_get create n1 st) in
  let st2 := fst (frame_get create n2 st1) in
  snd (frame_get create n1 st) = Ok i1 -> snd (frame_get create n2 st1) = Ok i2 ->
  found exts n1 e1 -> found exts n2 e2 ->
  (ex_cam e1 = ex_cam e2 <-> i1 = i2) /\
  (i1 = i2 -> exists c, nth_error (f_heap st2) i1 = Some (Camera c (Some (ex_pos e2)))) /\
  (i1 <> i2 -> nth_error (f_heap st2) i1 = nth_error (f_heap st1) i1).
Proof.
  intros ints exts history n1 n2 i1 i2 e1 e2 st st1 st2 R1 R2 He1 He2.
  destruct (run_inv history _ (init_inv ints exts)) as (HI & H1 & H2). fold st in HI, H1, H2. cbn in H1, H2.
  destruct (frame_get_spec n1 st HI) as (J1 & A1 & A2 & _ & S1). fold st1 in J1, A1, A2, S1. rewrite R1 in S1.
  destruct (frame_get_spec n2 st1 J1) as (J2 & B1 & B2 & B3 & S2). fold st2 in J2, B1, B2, B3, S2. rewrite R2 in S2.
  destruct S1 as (e & p & c & F & _ & _ & C1 & N1 & _). rewrite H2 in F. apply get_by_name_iff in F, He1.
  assert (e = e1) by congruence. subst e. clear F.
  destruct S2 as (e & p2 & c2 & F & _ & _ & C2 & N2 & O2). rewrite A2, H2 in F. apply get_by_name_iff in F, He2.
  assert (e = e2) by congruence. subst e. clear F.
  split; [|split].
  - split.
    + intros Hc. rewrite Hc in C1. apply B3 in C1. congruence.
    + intros ->. apply B3 in C1. destruct J2 as [_ JB]. eapply JB; eassumption.
  - intros ->. eauto.
  - intros Hne. apply O2; [assumption|]. apply nth_error_Some. congruence.
Qed.
End Frame.

(** * RPC *)
Section Rpc.
Context {M R G C : Type}.
Variable create : M -> R -> res C.
Variable refine_rpc : R -> list G -> res R.
Notation rstate := (rstate M R G C).

(** Cached cameras of names that parameters are stored under were made from the current parameters. *)
Definition rinv (st : rstate) : Prop :=
  NoDup (dkeys (r_param st)) /\ (forall f, In f (dkeys (r_param st)) -> path_name f = f) /\ NoDup (dkeys (r_cache st)) /\
  forall f m r c, dget f (r_param st) = Some (m, r) -> dget f (r_cache st) = Some c -> create m r = Ok c.

Lemma rpc_get_inv : forall name st, rinv st -> rinv (fst (rpc_get create name st)) /\ r_param (fst (rpc_get create name st)) = r_param st.
Proof.
  intros name st (HN & HP & HC & HI). unfold rpc_get. destruct (get_by_name name (r_param st)) as [[m r]|] eqn:E; [|repeat split; assumption].
  destruct (dget name (r_cache st)) eqn:D; [repeat split; assumption|].
  destruct (create m r) as [c|] eqn:EC; [|repeat split; assumption]. cbn. split; [|reflexivity].
  split; [assumption|]. split; [assumption|]. split; [apply NoDup_dset; assumption|]. cbn. intros f m' r' c' Hf Hc.
  rewrite dget_dset in Hc. destruct (String.eqb f name) eqn:EF; [|eapply HI; eassumption].
  apply String.eqb_eq in EF. subst f. inversion Hc; subst c'. unfold get_by_name in E. rewrite Hf in E. inversion E; subst. assumption.
Qed.

Lemma refine_loop_spec : forall gcps items st,
  rinv st -> NoDup (dkeys items) -> (forall f v, In (f, v) items -> dget f (r_param st) = Some v) ->
  let r := refine_loop M R G C refine_rpc gcps items st in
  rinv (fst r) /\ dkeys (r_param (fst r)) = dkeys (r_param st) /\
  (forall f, ~ In f (dkeys items) -> dget f (r_param (fst r)) = dget f (r_param st)) /\
  (snd r = Ok tt -> forall f m q, In (f, (m, q)) items ->
     (forall g, gcps_for gcps f g -> exists q', refine_rpc q g = Ok q' /\ dget f (r_param (fst r)) = Some (m, q')) /\
     ((forall g, ~ gcps_for gcps f g) -> dget f (r_param (fst r)) = Some (m, q))).
Proof.
  intros gcps items. induction items as [|[f [m q]] items IH]; intros st Hinv HN Hit r; subst r.
  - cbn. split; [assumption|]. split; [reflexivity|]. split; [auto|]. intros _ f m q [].
  - inversion HN as [|? ? Hf HN']; subst.
    pose proof (Hit f (m, q) (or_introl eq_refl)) as Hcur.
    assert (Hpn : path_name f = f).
    { destruct Hinv as (_ & HP & _ & _). apply HP. eapply dget_Some_key; eassumption. }
    cbn [refine_loop]. rewrite Hpn.
    assert (Hskip : (forall g, ~ gcps_for gcps f g) ->
       let r := refine_loop M R G C refine_rpc gcps items st in
       rinv (fst r) /\ dkeys (r_param (fst r)) = dkeys (r_param st) /\
       (forall f', ~ In f' (dkeys ((f, (m, q)) :: items)) -> dget f' (r_param (fst r)) = dget f' (r_param st)) /\
       (snd r = Ok tt -> forall f' m' q', In (f', (m', q')) ((f, (m, q)) :: items) ->
         (forall g, gcps_for gcps f' g -> exists q2, refine_rpc q' g = Ok q2 /\ dget f' (r_param (fst r)) = Some (m', q2)) /\
         ((forall g, ~ gcps_for gcps f' g) -> dget f' (r_param (fst r)) = Some (m', q')))).
    { intros Hno r. destruct (IH st Hinv HN') as (I1 & I2 & I3 & I4); [intros; apply Hit; right; assumption|]. fold r in I1, I2, I3, I4.
      split; [assumption|]. split; [assumption|]. split; [intros f' Hf'; apply I3; cbn in Hf'; tauto|].
      intros Hok f' m' q' [E|Hin]; [|apply I4; assumption]. inversion E; subst. split.
      - intros g Hg. exfalso. eapply Hno; eassumption.
      - intros _. rewrite I3 by assumption. assumption. }
    destruct (get_by_name f gcps) as [[|g gs]|] eqn:EG.
    + apply Hskip. intros g [Hg Hne]. apply get_by_name_iff in Hg. congruence.
    + assert (Hg : gcps_for gcps f (g :: gs)) by (split; [apply get_by_name_iff; assumption|discriminate]).
      assert (Huni : forall g', gcps_for gcps f g' -> g' = g :: gs).
      { intros g' [Hg' _]. apply get_by_name_iff in Hg'. congruence. }
      clear Hskip. destruct Hinv as (K1 & K2 & K3 & K4).
      destruct (refine_rpc q (g :: gs)) as [q2|x] eqn:ER.
      * match goal with |- context [refine_loop _ _ _ _ _ _ items ?s] => set (st1 := s) end.
        assert (Hst1 : rinv st1).
        { split; [|split; [|split]]; cbn.
          - apply NoDup_dset. assumption.
          - intros f' Hf'. apply In_dkeys_dset in Hf'. destruct Hf' as [->|Hf']; [assumption|apply K2; assumption].
          - apply NoDup_ddel. assumption.
          - intros f' m' r' c' Hr Hc. destruct (string_dec f' f) as [->|Hne].
            + rewrite dget_ddel_eq in Hc by assumption. discriminate.
            + rewrite dget_ddel_neq in Hc by assumption. rewrite dget_dset_neq in Hr by assumption. eapply K4; eassumption. }
        assert (Hit1 : forall f' v, In (f', v) items -> dget f' (r_param st1) = Some v).
        { intros f' v Hin. cbn. rewrite dget_dset_neq; [apply Hit; right; assumption|]. intros ->. apply Hf. apply (in_map fst) in Hin. exact Hin. }
        destruct (IH st1 Hst1 HN' Hit1) as (I1 & I2 & I3 & I4). split; [assumption|].
        assert (HK : dkeys (r_param st1) = dkeys (r_param st)).
        { cbn. apply dkeys_dset. eapply dget_Some_key; eassumption. }
        split; [congruence|]. split.
        -- intros f' Hf'. cbn in Hf'. rewrite I3 by tauto. cbn. apply dget_dset_neq. intros ->. tauto.
        -- intros Hok f' m' q' [E|Hin]; [|apply I4; assumption]. inversion E; subst. split.
           ++ intros g' Hg'. rewrite (Huni g' Hg'). exists q2. split; [assumption|]. rewrite I3 by assumption. cbn. apply dget_dset_eq.
           ++ intros Hno. exfalso. eapply Hno; eassumption.
      * cbn. split; [|split; [reflexivity|split; [reflexivity|discriminate]]].
        split; [assumption|]. split; [assumption|]. split; [apply NoDup_ddel; assumption|]. cbn. intros f' m' r' c' Hr Hc.
        destruct (string_dec f' f) as [->|Hne]; [rewrite dget_ddel_eq in Hc by assumption; discriminate|].
        rewrite dget_ddel_neq in Hc by assumption. eapply K4; eassumption.
    + apply Hskip. intros g [Hg Hne]. apply get_by_name_iff in Hg. congruence.
Qed.

Lemma rpc_refine_spec : forall gcps st, rinv st ->
  let r := rpc_refine refine_rpc gcps st in
  rinv (fst r) /\ dkeys (r_param (fst r)) = dkeys (r_param st) /\
  (snd r = Ok tt -> forall f m q, dget f (r_param st) = Some (m, q) ->
     (forall g, gcps_for gcps f g -> exists q', refine_rpc q g = Ok q' /\ dget f (r_param (fst r)) = Some (m, q')) /\
     ((forall g, ~ gcps_for gcps f g) -> dget f (r_param (fst r)) = Some (m, q))).
Proof.
  intros gcps st Hinv r. unfold rpc_refine in r.
  set (st0 := RState (r_param st) (r_cache st) (Some gcps)) in r.
  assert (H0 : rinv st0) by exact Hinv. destruct Hinv as (HN & _ & _ & _).
  destruct (refine_loop_spec gcps (r_param st) st0 H0 HN) as (I1 & I2 & _ & I4).
  { intros f v Hin. apply In_dget; assumption. }
  fold r in I1, I2, I4. split; [assumption|]. split; [assumption|].
  intros Hok f m q Hf. apply I4; [assumption|]. apply dget_In. assumption.
Qed.

Definition bare (params : dict (M * R)) : Prop := NoDup (dkeys params) /\ forall f, In f (dkeys params) -> path_name f = f.

Lemma rpc_init_inv : forall params, bare params -> rinv (rpc_init params).
Proof. intros params [H1 H2]. repeat split; auto; [constructor|]. intros; discriminate. Qed.

Lemma rpc_run_inv : forall cs st, rinv st -> rinv (rpc_run create refine_rpc cs st) /\
  dkeys (r_param (rpc_run create refine_rpc cs st)) = dkeys (r_param st).
Proof.
  unfold rpc_run. induction cs as [|c cs IH]; intros st H; [auto|]. cbn. destruct c as [n|g]; cbn.
  - destruct (rpc_get_inv n st H) as [H1 H2]. destruct (IH _ H1) as [I1 I2]. split; [assumption|]. congruence.
  - destruct (rpc_refine_spec g st H) as (H1 & H2 & _). destruct (IH _ H1) as [I1 I2]. split; [assumption|]. etransitivity; [exact I2|]. rewrite H2. reflexivity.
Qed.

Lemma rpc_get_current : forall st f m q, rinv st -> dget f (r_param st) = Some (m, q) -> snd (rpc_get create f st) = create m q.
Proof.
  intros st f m q (_ & _ & _ & HI) Hf. unfold rpc_get, get_by_name. rewrite Hf. destruct (dget f (r_cache st)) eqn:E.
  - cbn. symmetry. eapply HI; eassumption.
  - destruct (create m q); reflexivity.
Qed.

(** After any history, get of a stored name gives the camera of the current parameters. *)
Theorem rpc_get_never_stale : forall params history f m q, bare params ->
  let st := rpc_run create refine_rpc history (rpc_init params) in
  dget f (r_param st) = Some (m, q) -> snd (rpc_get create f st) = create m q.
Proof.
  intros params history f m q Hb st Hf. apply rpc_get_current; [|assumption].
  apply rpc_run_inv. apply rpc_init_inv. assumption.
Qed.

(** And refinement changes the parameters of exactly the images with GCPs. *)
Theorem rpc_refine_visible : forall params history gcps f m q, bare params ->
  let st := rpc_run create refine_rpc history (rpc_init params) in
  let st' := fst (rpc_refine refine_rpc gcps st) in
  snd (rpc_refine refine_rpc gcps st) = Ok tt -> dget f (r_param st) = Some (m, q) ->
  (forall g, gcps_for gcps f g -> exists q', refine_rpc q g = Ok q' /\ snd (rpc_get create f st') = create m q') /\
  ((forall g, ~ gcps_for gcps f g) -> snd (rpc_get create f st') = create m q).
Proof.
  intros params history gcps f m q Hb st st' Hok Hf.
  assert (HI : rinv st) by (apply rpc_run_inv; apply rpc_init_inv; assumption).
  destruct (rpc_refine_spec gcps st HI) as (J1 & _ & J3). fold st' in J1, J3. destruct (J3 Hok f m q Hf) as [K1 K2]. split.
  - intros g Hg. destruct (K1 g Hg) as (q' & E & D). exists q'. split; [assumption|]. apply rpc_get_current; assumption.
  - intros Hno. apply rpc_get_current; auto.
Qed.
End Rpc.

(** Stored by stem, requested with an extension: the camera made before refinement stays. *)
Theorem rpc_stale_by_stem :
  exists (params : dict (nat * nat)) (gcps : dict (list nat)),
  let create (m r : nat) := Ok r in
  let refine (r : nat) (g : list nat) := Ok (r + 1)%nat in
  let st := rpc_run create refine [RGet "im.tif"; RRefine gcps] (rpc_init params) in
  r_param st = [("im", (0, 1)%nat)] /\ snd (rpc_get create "im.tif" st) = Ok 0%nat /\ snd (rpc_get create "im" st) = Ok 1%nat.
Proof. exists [("im", (0, 0)%nat)], [("im", [7]%nat)]. cbn. repeat split. Qed.
