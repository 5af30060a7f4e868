From Coq Require Import List String ZArith QArith Bool Lia.
From Verif Require Import Py Py_Proof Validate_Model Validate_Spec.
Import ListNotations.

Section SchemaInd.
  Variable P : schema -> Prop.
  Hypothesis Hmap : forall t s, P s -> P (SMap t s).
  Hypothesis Hdict : forall items, (forall k s, In (k, s) items -> P s) -> P (SDict items).
  Hypothesis Hlist : forall ss, (forall s, In s ss -> P s) -> P (SList ss).
  Hypothesis Htype : forall t, P (SType t).
  Hypothesis Htypes : forall ts, P (STypes ts).
  Hypothesis Hstr : forall s, P (SStr s).
  Hypothesis Hint : forall z, P (SInt z).
  Hypothesis Hfloat : forall q, P (SFloat q).
  Hypothesis Hnone : P SNone.
  Hypothesis Hother : P SOther.

  Fixpoint schema_ind' (s : schema) : P s :=
    match s with
    | SMap t s' => Hmap t s' (schema_ind' s')
    | SDict items =>
      Hdict items
        ((fix go (l : list (pykey * schema)) : forall k s, In (k, s) l -> P s :=
            match l with
            | [] => fun k s H => match H with end
            | (k0, s0) :: l' => fun k s H =>
              match H with
              | or_introl E => eq_ind s0 P (schema_ind' s0) s (f_equal snd E)
              | or_intror H' => go l' k s H'
              end
            end) items)
    | SList ss =>
      Hlist ss
        ((fix go (l : list schema) : forall s, In s l -> P s :=
            match l with
            | [] => fun s H => match H with end
            | s0 :: l' => fun s H =>
              match H with
              | or_introl E => eq_ind s0 P (schema_ind' s0) s E
              | or_intror H' => go l' s H'
              end
            end) ss)
    | SType t => Htype t
    | STypes ts => Htypes ts
    | SStr x => Hstr x
    | SInt z => Hint z
    | SFloat q => Hfloat q
    | SNone => Hnone
    | SOther => Hother
    end.
End SchemaInd.

Lemma num_eq_spec : forall v q, num_eq v q = true <-> equals_num v q.
Proof.
  intros v q. unfold num_eq. split.
  - destruct v; try discriminate; intros H; try (apply Qeq_bool_iff in H).
    + destruct b; constructor; symmetry; assumption.
    + constructor; assumption.
    + constructor; assumption.
  - intros H; inversion H; subst; apply Qeq_bool_iff; try assumption; symmetry; assumption.
Qed.

Lemma isinstance_iff : forall v t, isinstance v t = true <-> has_type v t.
Proof.
  intros v t. split.
  - destruct v, t; try discriminate; intros _; constructor.
  - intros H. destruct H; reflexivity.
Qed.

Lemma key_isinstance_iff : forall k t, isinstance (key_val k) t = true <-> key_has_type k t.
Proof. intros [s|z] t; destruct t; cbn; split; intros H; try reflexivity; discriminate. Qed.

Lemma key_eqb_iff : forall a b, key_eqb a b = true <-> a = b.
Proof.
  intros [s|z] [s'|z']; cbn; try (split; discriminate).
  - rewrite String.eqb_eq. split; congruence.
  - rewrite Z.eqb_eq. split; congruence.
Qed.

Lemma kget_iff : forall d k v, kget k d = Some v <-> at_key d k v.
Proof.
  induction d as [|[k0 v0] d IH]; intros k v; cbn.
  - split; [discriminate|]. intros (d1 & d2 & H & _). destruct d1; discriminate.
  - destruct (key_eqb k k0) eqn:E.
    + apply key_eqb_iff in E. subst k0. split.
      * intros H. injection H as ->. exists [], d. split; [reflexivity|intros []].
      * intros ([|[k1 v1] d1] & d2 & H & Hn); cbn in H; injection H as H1 H2; [congruence|].
        subst. exfalso. apply Hn. left. reflexivity.
    + rewrite IH. split.
      * intros (d1 & d2 & -> & Hn). exists ((k0, v0) :: d1), d2. split; [reflexivity|].
        intros [H|H]; [|contradiction]. cbn in H. subst k0. assert (key_eqb k k = true) by (apply key_eqb_iff; reflexivity). congruence.
      * intros ([|[k1 v1] d1] & d2 & H & Hn); cbn in H; injection H as H1 H2.
        -- subst k0. assert (key_eqb k k = true) by (apply key_eqb_iff; reflexivity). congruence.
        -- exists d1, d2. split; [assumption|]. intros Hx. apply Hn. right. assumption.
Qed.

Definition go_dict (d : list (pykey * pyval)) :=
  fix go (l : list (pykey * schema)) : res unit :=
    match l with
    | [] => Ok tt
    | (k, s') :: l' =>
      match kget k d with
      | Some v => do _ <- validate_collection s' v; go l'
      | None => Err KeyError
      end
    end.

Definition go_list :=
  fix go (ss : list schema) (vs : list pyval) : res unit :=
    match ss, vs with
    | s' :: ss', v :: vs' => do _ <- validate_collection s' v; go ss' vs'
    | _, _ => Ok tt
    end.

Lemma unit_ok : forall (m : res unit), (exists x, m = Ok x) <-> m = Ok tt.
Proof. intros m. split; [intros ([] & ->); reflexivity|intros ->; eexists; reflexivity]. Qed.

Lemma validate_dict_eq : forall items d, items <> [] -> validate_collection (SDict items) (PDict d) = go_dict d items.
Proof. intros [|i items] d H; [contradiction|]. reflexivity. Qed.

Lemma validate_list_many : forall ss l, (2 <= List.length ss)%nat -> l <> [] ->
  validate_collection (SList ss) (PList l) =
  if negb (List.length l =? List.length ss)%nat then Err ValueError else go_list ss l.
Proof.
  intros [|s1 [|s2 ss]] l H Hl; cbn in H; try lia. destruct l as [|v l]; [contradiction|]. reflexivity.
Qed.

Lemma go_dict_ok : forall d items,
  (forall k s, In (k, s) items -> forall v, validate_collection s v = Ok tt <-> conforms s v) ->
  (go_dict d items = Ok tt <-> forall k s, In (k, s) items -> exists v, kget k d = Some v /\ conforms s v).
Proof.
  intros d. induction items as [|[k0 s0] items IH]; intros HI.
  - split; [intros _ k s []|reflexivity].
  - cbn [go_dict]. fold (go_dict d).
    assert (IH' := IH (fun k s H => HI k s (or_intror H))). clear IH.
    assert (H0 := HI k0 s0 (or_introl eq_refl)).
    destruct (kget k0 d) as [v0|] eqn:E0.
    + destruct (validate_collection s0 v0) as [[]|e] eqn:Ev; cbn [bind].
      * rewrite IH'. split.
        -- intros H k s [E|Hin]; [|apply H; assumption]. inversion E; subst. exists v0. split; [assumption|].
           apply H0. assumption.
        -- intros H k s Hin. apply H. right. assumption.
      * split; [discriminate|]. intros H. destruct (H k0 s0 (or_introl eq_refl)) as (v & Hv & Hc).
        rewrite E0 in Hv. inversion Hv; subst. apply H0 in Hc. congruence.
    + split; [discriminate|]. intros H. destruct (H k0 s0 (or_introl eq_refl)) as (v & Hv & _). congruence.
Qed.

Lemma go_list_ok : forall ss,
  (forall s, In s ss -> forall v, validate_collection s v = Ok tt <-> conforms s v) ->
  forall l, List.length l = List.length ss -> (go_list ss l = Ok tt <-> Forall2 conforms ss l).
Proof.
  induction ss as [|s ss IH]; intros HI l Hl.
  - destruct l; [|discriminate]. split; [constructor|reflexivity].
  - destruct l as [|v l]; [discriminate|]. cbn [go_list]. fold go_list.
    assert (H0 := HI s (or_introl eq_refl) v).
    assert (IH' := IH (fun s' H => HI s' (or_intror H)) l ltac:(cbn in Hl; lia)).
    destruct (validate_collection s v) as [[]|e] eqn:E; cbn [bind].
    + rewrite IH'. split.
      * intros H. constructor; [apply H0; reflexivity|assumption].
      * intros H. inversion H; subst. assumption.
    + split; [discriminate|]. intros H. inversion H; subst. apply H0 in H4. discriminate.
Qed.

Theorem validate_iff : forall s v, validate_collection s v = Ok tt <-> conforms s v.
Proof.
  intros s. induction s using schema_ind'; intros v.
  - (* SMap *)
    destruct v as [|b|z|q| |str|l|d]; try (split; [discriminate|intros H; inversion H]).
    cbn [validate_collection]. rewrite iterM_Ok. split.
    + intros H. constructor. intros k v Hin. specialize (H (k, v) Hin). cbn [fst snd] in H.
      destruct (isinstance (key_val k) t) eqn:Et; cbn [negb] in H; [|discriminate]. split; [apply key_isinstance_iff; assumption|]. apply IHs. assumption.
    + intros H [k v] Hin. inversion H; subst. match goal with X : forall k v, In (k, v) d -> _ |- _ => destruct (X k v Hin) as [Hk Hc] end. cbn [fst snd]. apply key_isinstance_iff in Hk. rewrite Hk.
      cbn [negb]. apply IHs. assumption.
  - (* SDict *)
    destruct v as [|b|z|q| |str|l|d]; try (split; [discriminate|intros H0; inversion H0]).
    destruct items as [|i items].
    + split; [discriminate|]. intros H0; inversion H0; subst. contradiction.
    + rewrite validate_dict_eq by discriminate. rewrite go_dict_ok.
      * split.
        -- intros H0; constructor; [discriminate|]. intros k s Hin. destruct (H0 k s Hin) as (v & Hv & Hc).
           exists v. split; [apply kget_iff|]; assumption.
        -- intros H0; inversion H0; subst. intros k s Hin.
           match goal with X : forall k s, In (k, s) (i :: items) -> exists v, _ |- _ => destruct (X k s Hin) as (v & Hv & Hc) end.
           exists v. split; [apply kget_iff|]; assumption.
      * intros k s Hin. apply (H k s Hin).
  - (* SList *)
    destruct v as [|b|z|q| |str|l|d]; try (split; [discriminate|intros H0; inversion H0]).
    destruct ss as [|s1 ss].
    + split; [discriminate|]. intros H0; inversion H0; subst. cbn in *; lia.
    + destruct l as [|v l].
      * split; [destruct ss; discriminate|]. intros H0; inversion H0; subst; [contradiction|].
        match goal with F : Forall2 _ _ _ |- _ => inversion F end.
      * destruct ss as [|s2 ss].
        -- assert (E : validate_collection (SList [s1]) (PList (v :: l)) = iterM (validate_collection s1) (v :: l)) by reflexivity.
           rewrite E. clear E. rewrite iterM_Ok. split.
           ++ intros H0. apply CF_list_all; [discriminate|]. intros x Hx. apply (H s1 (or_introl eq_refl)). apply H0. assumption.
           ++ intros H0 x Hx. apply (H s1 (or_introl eq_refl)). inversion H0; subst; [auto|]. cbn in *; lia.
        -- rewrite validate_list_many by (try discriminate; cbn; lia).
           destruct (List.length (v :: l) =? List.length (s1 :: s2 :: ss))%nat eqn:E; cbn [negb].
           ++ apply Nat.eqb_eq in E. rewrite go_list_ok; [|intros s Hs; apply H; assumption|assumption]. split.
              ** intros H0. apply CF_list_each; [cbn; lia|assumption].
              ** intros H0. inversion H0; subst. assumption.
           ++ split; [discriminate|]. intros H0. inversion H0; subst.
              match goal with F : Forall2 _ _ _ |- _ => apply Forall2_length in F end. apply Nat.eqb_neq in E. congruence.
  - cbn. destruct (isinstance v t) eqn:E; split; intros H; try discriminate; try reflexivity.
    + constructor. apply isinstance_iff. assumption.
    + inversion H; subst. match goal with X : has_type _ _ |- _ => apply isinstance_iff in X end. congruence.
  - cbn. destruct (existsb (isinstance v) ts) eqn:E; split; intros H; try discriminate; try reflexivity.
    + apply existsb_exists in E. destruct E as (t & Hin & Ht). apply isinstance_iff in Ht. econstructor; eassumption.
    + inversion H; subst. match goal with X : has_type _ _ |- _ => apply isinstance_iff in X end. assert (existsb (isinstance v) ts = true) by (apply existsb_exists; eauto). congruence.
  - cbn. split.
    + destruct v; try discriminate. destruct (String.eqb s0 s) eqn:E; [|discriminate].
      apply String.eqb_eq in E. subst. constructor.
    + intros H; inversion H; subst. rewrite String.eqb_refl. reflexivity.
  - cbn. destruct (num_eq v (inject_Z z)) eqn:E; split; intros H; try discriminate; try reflexivity.
    + constructor. apply num_eq_spec. assumption.
    + inversion H; subst. match goal with F : equals_num _ _ |- _ => apply num_eq_spec in F end. congruence.
  - cbn. destruct (num_eq v q) eqn:E; split; intros H; try discriminate; try reflexivity.
    + constructor. apply num_eq_spec. assumption.
    + inversion H; subst. match goal with F : equals_num _ _ |- _ => apply num_eq_spec in F end. congruence.
  - split; constructor.
  - split; [discriminate|]. intros H; inversion H.
Qed.

Definition soft_error (m : res unit) : Prop :=
  m = Ok tt \/ m = Err KeyError \/ m = Err TypeError \/ m = Err ValueError.

Lemma iterM_soft : forall A (f : A -> res unit) l, (forall x, In x l -> soft_error (f x)) -> soft_error (iterM f l).
Proof.
  induction l as [|x l IH]; intros H; cbn; [left; reflexivity|].
  destruct (H x (or_introl eq_refl)) as [->|[->|[->| ->]]]; cbn; unfold soft_error; try tauto.
  apply IH. intros y Hy. apply H. right; assumption.
Qed.

Theorem validate_errors : forall s v, wf_schema s -> soft_error (validate_collection s v).
Proof.
  intros s. induction s using schema_ind'; intros v Hwf.
  - inversion Hwf; subst. destruct v as [|b|z|q| |str|l|d]; try (unfold soft_error; cbn; tauto).
    cbn [validate_collection]. apply iterM_soft. intros [k x] _. cbn. destruct (isinstance (key_val k) t); cbn; [|unfold soft_error; tauto].
    apply IHs. assumption.
  - inversion Hwf; subst. destruct v as [|b|z|q| |str|l|d]; try (unfold soft_error; cbn; tauto).
    rewrite validate_dict_eq by assumption. clear Hwf H1.
    induction items as [|[k0 s0] items IH]; [left; reflexivity|].
    cbn [go_dict]. fold (go_dict d). destruct (kget k0 d) as [v0|]; [|unfold soft_error; tauto].
    destruct (H k0 s0 (or_introl eq_refl) v0 (H2 k0 s0 (or_introl eq_refl))) as [->|[->|[->| ->]]];
      cbn [bind]; try (unfold soft_error; tauto).
    apply IH; intros k s Hin; [apply (H k s (or_intror Hin))|apply (H2 k s (or_intror Hin))].
  - inversion Hwf; subst. destruct v as [|b|z|q| |str|l|d]; try (unfold soft_error; cbn; tauto).
    destruct ss as [|s1 ss]; [unfold soft_error; cbn; tauto|].
    destruct l as [|v l]; [destruct ss; unfold soft_error; cbn; tauto|].
    destruct ss as [|s2 ss].
    + assert (E : validate_collection (SList [s1]) (PList (v :: l)) = iterM (validate_collection s1) (v :: l)) by reflexivity.
      rewrite E. apply iterM_soft. intros x _. apply (H s1 (or_introl eq_refl)). apply H1. left; reflexivity.
    + rewrite validate_list_many by (try discriminate; cbn; lia).
      destruct (negb _); [unfold soft_error; tauto|]. clear Hwf.
      generalize (v :: l). revert H H1. generalize (s1 :: s2 :: ss). clear.
      induction l as [|s ss IH]; intros H Hw l0; [destruct l0; left; reflexivity|].
      destruct l0 as [|v vs]; [left; reflexivity|]. cbn [go_list]. fold go_list.
      destruct (H s (or_introl eq_refl) v (Hw s (or_introl eq_refl))) as [->|[->|[->| ->]]];
        cbn [bind]; try (unfold soft_error; tauto).
      apply IH; intros x Hx; [apply H|apply Hw]; right; assumption.
  - cbn. destruct (isinstance v t); unfold soft_error; tauto.
  - cbn. destruct (existsb _ _); unfold soft_error; tauto.
  - cbn. destruct v; try (unfold soft_error; tauto). destruct (String.eqb s0 s); unfold soft_error; tauto.
  - cbn. destruct (num_eq _ _); unfold soft_error; tauto.
  - cbn. destruct (num_eq _ _); unfold soft_error; tauto.
  - left; reflexivity.
  - unfold soft_error; cbn; tauto.
Qed.

Lemma empty_list_rejected : forall ss, ~ conforms (SList ss) (PList []).
Proof.
  intros ss H. inversion H; subst; [contradiction|]. match goal with F : Forall2 _ _ _ |- _ => apply Forall2_length in F; cbn in F end. lia.
Qed.
