(** Lemmas about the dictionary model. *)
From Coq Require Import List String ZArith Bool Lia.
From Verif Require Import Py.
Import ListNotations.

Section DictLemmas.
Context {V : Type}.
Implicit Types (d e : dict V) (k : string) (v : V).

Lemma dget_dset_eq : forall d k v, dget k (dset k v d) = Some v.
Proof.
  induction d as [|[k' v'] d IH]; intros k v; cbn.
  - rewrite String.eqb_refl. reflexivity.
  - destruct (String.eqb k k') eqn:E; cbn; rewrite E; [reflexivity|apply IH].
Qed.

Lemma dget_dset_neq : forall d k k' v, k <> k' -> dget k (dset k' v d) = dget k d.
Proof.
  induction d as [|[k0 v0] d IH]; intros k k' v Hne; cbn.
  - apply String.eqb_neq in Hne. rewrite Hne. reflexivity.
  - destruct (String.eqb k' k0) eqn:E; cbn.
    + apply String.eqb_eq in E. subst k0. apply String.eqb_neq in Hne. rewrite Hne. reflexivity.
    + destruct (String.eqb k k0); [reflexivity|]. apply IH. assumption.
Qed.

Lemma dget_dset : forall d k k' v, dget k (dset k' v d) = if String.eqb k k' then Some v else dget k d.
Proof.
  intros. destruct (String.eqb k k') eqn:E.
  - apply String.eqb_eq in E. subst. apply dget_dset_eq.
  - apply String.eqb_neq in E. apply dget_dset_neq. assumption.
Qed.

Lemma dget_In : forall d k v, dget k d = Some v -> In (k, v) d.
Proof.
  induction d as [|[k0 v0] d IH]; cbn; intros k v H; [discriminate|].
  destruct (String.eqb k k0) eqn:E.
  - apply String.eqb_eq in E. inversion H; subst. left; reflexivity.
  - right. apply IH. assumption.
Qed.

Lemma dget_None : forall d k, dget k d = None <-> ~ In k (dkeys d).
Proof.
  induction d as [|[k0 v0] d IH]; cbn; intros k; [tauto|].
  destruct (String.eqb k k0) eqn:E.
  - apply String.eqb_eq in E. subst. split; [discriminate|]. intros H. exfalso. apply H. left; reflexivity.
  - apply String.eqb_neq in E. rewrite IH. split; intros H.
    + intros [?|?]; [subst; contradiction|contradiction].
    + intros ?. apply H. right; assumption.
Qed.

Lemma dget_Some_key : forall d k v, dget k d = Some v -> In k (dkeys d).
Proof. intros d k v H. apply dget_In in H. apply (in_map fst) in H. exact H. Qed.

Lemma In_dget : forall d k v, NoDup (dkeys d) -> In (k, v) d -> dget k d = Some v.
Proof.
  induction d as [|[k0 v0] d IH]; cbn; intros k v Hn Hin; [contradiction|].
  inversion Hn; subst. destruct Hin as [E|Hin].
  - inversion E; subst. rewrite String.eqb_refl. reflexivity.
  - destruct (String.eqb k k0) eqn:E.
    + apply String.eqb_eq in E. subst. exfalso. apply H1. apply (in_map fst) in Hin. exact Hin.
    + apply IH; assumption.
Qed.

Lemma dset_new : forall d k v, ~ In k (dkeys d) -> dset k v d = d ++ [(k, v)].
Proof.
  induction d as [|[k0 v0] d IH]; cbn; intros k v H; [reflexivity|].
  destruct (String.eqb k k0) eqn:E.
  - apply String.eqb_eq in E. subst. exfalso. apply H. left; reflexivity.
  - rewrite IH; [reflexivity|]. intros ?. apply H. right; assumption.
Qed.

Lemma dkeys_dset : forall d k v, In k (dkeys d) -> dkeys (dset k v d) = dkeys d.
Proof.
  induction d as [|[k0 v0] d IH]; cbn; intros k v H; [contradiction|].
  destruct (String.eqb k k0) eqn:E; cbn; [reflexivity|]. f_equal. apply IH.
  apply String.eqb_neq in E. destruct H as [?|?]; [subst; contradiction|assumption].
Qed.

Lemma In_dkeys_dset : forall d k k' v, In k (dkeys (dset k' v d)) <-> k = k' \/ In k (dkeys d).
Proof.
  induction d as [|[k0 v0] d IH]; cbn; intros k k' v.
  - intuition.
  - destruct (String.eqb k' k0) eqn:E; cbn.
    + apply String.eqb_eq in E. subst. intuition.
    + rewrite IH. intuition.
Qed.

Lemma NoDup_dset : forall d k v, NoDup (dkeys d) -> NoDup (dkeys (dset k v d)).
Proof.
  induction d as [|[k0 v0] d IH]; cbn; intros k v H.
  - constructor; [intros []|constructor].
  - inversion H; subst. destruct (String.eqb k k0) eqn:E; cbn; [constructor; assumption|].
    constructor; [|apply IH; assumption]. rewrite In_dkeys_dset. apply String.eqb_neq in E.
    intros [->|?]; [congruence|contradiction].
Qed.

Lemma NoDup_dupdate : forall e d, NoDup (dkeys d) -> NoDup (dkeys (dupdate d e)).
Proof.
  unfold dupdate. induction e as [|[k v] e IH]; cbn; intros d H; [assumption|]. apply IH. apply NoDup_dset. assumption.
Qed.

Lemma dget_dupdate_notin : forall e d k, ~ In k (dkeys e) -> dget k (dupdate d e) = dget k d.
Proof.
  unfold dupdate. induction e as [|[k0 v0] e IH]; cbn; intros d k H; [reflexivity|].
  rewrite IH by tauto. apply dget_dset_neq. intros ->. apply H. left; reflexivity.
Qed.

Lemma dget_dupdate_in : forall e d k v, NoDup (dkeys e) -> dget k e = Some v -> dget k (dupdate d e) = Some v.
Proof.
  induction e as [|[k0 v0] e IH]; intros d k v Hn H; [discriminate|].
  cbn in H. inversion Hn; subst. change (dupdate d ((k0, v0) :: e)) with (dupdate (dset k0 v0 d) e).
  destruct (String.eqb k k0) eqn:E.
  - apply String.eqb_eq in E. inversion H; subst. rewrite dget_dupdate_notin by assumption. apply dget_dset_eq.
  - apply IH; assumption.
Qed.

Lemma In_dkeys_dupdate : forall e d k, In k (dkeys (dupdate d e)) <-> In k (dkeys d) \/ In k (dkeys e).
Proof.
  unfold dupdate. induction e as [|[k0 v0] e IH]; cbn; intros d k; [tauto|].
  rewrite IH, In_dkeys_dset. intuition.
Qed.

Lemma dupdate_app_new : forall e d, NoDup (dkeys e) -> (forall k, In k (dkeys e) -> ~ In k (dkeys d)) ->
  dupdate d e = d ++ e.
Proof.
  induction e as [|[k0 v0] e IH]; intros d Hn Hd.
  - symmetry. apply app_nil_r.
  - inversion Hn; subst. change (dupdate (dset k0 v0 d) e = d ++ (k0, v0) :: e).
    rewrite dset_new by (apply Hd; left; reflexivity).
    rewrite IH.
    + rewrite <- app_assoc. reflexivity.
    + assumption.
    + intros k Hk. rewrite map_app, in_app_iff. cbn. intros [?|[?|[]]].
      * apply (Hd k); [right; assumption|assumption].
      * subst. contradiction.
Qed.

Lemma dict_of_id : forall e, NoDup (dkeys e) -> dict_of e = e.
Proof. intros e H. unfold dict_of. rewrite dupdate_app_new; auto. Qed.

Lemma dget_ddel_eq : forall d k, NoDup (dkeys d) -> dget k (ddel k d) = None.
Proof.
  induction d as [|[k0 v0] d IH]; cbn; intros k H; [reflexivity|]. inversion H; subst.
  destruct (String.eqb k k0) eqn:E.
  - apply String.eqb_eq in E. subst. apply dget_None. assumption.
  - cbn. rewrite E. apply IH. assumption.
Qed.

Lemma dget_ddel_neq : forall d k k', k <> k' -> dget k (ddel k' d) = dget k d.
Proof.
  induction d as [|[k0 v0] d IH]; cbn; intros k k' H; [reflexivity|].
  destruct (String.eqb k' k0) eqn:E.
  - apply String.eqb_eq in E. subst. apply String.eqb_neq in H. rewrite H. reflexivity.
  - cbn. destruct (String.eqb k k0); [reflexivity|]. apply IH. assumption.
Qed.

Lemma In_dkeys_ddel : forall d k k', In k (dkeys (ddel k' d)) -> In k (dkeys d).
Proof.
  induction d as [|[k0 v0] d IH]; cbn; intros k k' H; [assumption|].
  destruct (String.eqb k' k0); [right; assumption|]. cbn in H. destruct H as [?|?]; [left; assumption|].
  right. eapply IH. eassumption.
Qed.

Lemma NoDup_ddel : forall d k, NoDup (dkeys d) -> NoDup (dkeys (ddel k d)).
Proof.
  induction d as [|[k0 v0] d IH]; cbn; intros k H; [assumption|]. inversion H; subst.
  destruct (String.eqb k k0); [assumption|]. cbn. constructor; [|apply IH; assumption].
  intros Hin. apply In_dkeys_ddel in Hin. contradiction.
Qed.

End DictLemmas.

Lemma mapM_Ok : forall A B (f : A -> res B) l ys, mapM f l = Ok ys <-> Forall2 (fun x y => f x = Ok y) l ys.
Proof.
  induction l as [|x l IH]; cbn; intros ys.
  - split; intros H; inversion H; subst; constructor.
  - destruct (f x) as [y|e] eqn:E; cbn.
    + destruct (mapM f l) as [zs|e] eqn:F; cbn.
      * split; intros H.
        -- inversion H; subst. constructor; [assumption|]. apply IH. reflexivity.
        -- inversion H; subst. apply IH in H4. inversion H4; subst. congruence.
      * split; intros H; [discriminate|]. inversion H; subst. apply IH in H4. discriminate.
    + split; intros H; [discriminate|]. inversion H; subst. congruence.
Qed.

Lemma iterM_Ok : forall A (f : A -> res unit) l, iterM f l = Ok tt <-> forall x, In x l -> f x = Ok tt.
Proof.
  induction l as [|x l IH]; cbn.
  - split; [intros _ y []|reflexivity].
  - destruct (f x) as [[]|e] eqn:E; cbn.
    + rewrite IH. split.
      * intros H y [<-|Hy]; [assumption|apply H; assumption].
      * intros H y Hy. apply H. right; assumption.
    + split; [discriminate|]. intros H. rewrite <- E. apply H. left; reflexivity.
Qed.

Lemma Forall2_length : forall A B (R : A -> B -> Prop) l m, Forall2 R l m -> List.length l = List.length m.
Proof. induction 1; cbn; congruence. Qed.
