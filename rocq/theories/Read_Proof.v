(** Proofs about reading image files in a thread pool. *)
From Coq Require Import String List Arith Bool Lia ZArith.
From Verif Require Import Py Py_Proof Read_Model Read_Spec.
Import ListNotations.

Lemma set_nth_length : forall A i (x : A) l, List.length (set_nth i x l) = List.length l.
Proof.
  unfold set_nth. intros A i x l. rewrite <- (firstn_skipn i l) at 3. rewrite !app_length. f_equal.
  destruct (skipn i l); reflexivity.
Qed.

Lemma set_nth_cons : forall A i (x y : A) l, set_nth (S i) x (y :: l) = y :: set_nth i x l.
Proof. reflexivity. Qed.

Lemma set_nth_eq : forall A i (x : A) l, i < List.length l -> nth_error (set_nth i x l) i = Some x.
Proof.
  induction i as [|i IH]; intros x [|y l] H; cbn in H; try lia; [reflexivity|].
  rewrite set_nth_cons. cbn. apply IH. lia.
Qed.

Lemma set_nth_neq : forall A i j (x : A) l, i <> j -> nth_error (set_nth i x l) j = nth_error l j.
Proof.
  induction i as [|i IH]; intros j x [|y l] H.
  - reflexivity.
  - destruct j; [lia|reflexivity].
  - reflexivity.
  - rewrite set_nth_cons. destruct j; [reflexivity|]. cbn. apply IH. lia.
Qed.

Lemma last_named_app : forall V k (l : list (string * V)) k' v,
  last_named k (l ++ [(k', v)]) = if String.eqb k k' then Some v else last_named k l.
Proof.
  induction l as [|[k0 v0] l IH]; intros k' v; cbn; [reflexivity|]. rewrite IH. destruct (String.eqb k k'); [reflexivity|]. reflexivity.
Qed.

Lemma first_names_app : forall l k,
  first_names (l ++ [k]) = if existsb (String.eqb k) l then first_names l else first_names l ++ [k].
Proof.
  induction l as [|x l IH]; intros k; cbn; [reflexivity|].
  rewrite IH. rewrite (String.eqb_sym k x). destruct (String.eqb x k) eqn:E; cbn.
  - apply String.eqb_eq in E. subst. destruct (existsb (String.eqb k) l); [reflexivity|].
    f_equal. rewrite filter_app. cbn. rewrite String.eqb_refl. cbn. rewrite app_nil_r. reflexivity.
  - destruct (existsb (String.eqb k) l); [reflexivity|]. cbn. rewrite filter_app. cbn. rewrite E. reflexivity.
Qed.

Lemma In_first_names : forall l k, In k (first_names l) <-> In k l.
Proof.
  induction l as [|x l IH]; intros k; cbn; [tauto|]. rewrite filter_In, IH. destruct (String.eqb_spec x k); cbn; intuition congruence.
Qed.

Lemma dict_of_app : forall V (items : list (string * V)) k v, dict_of (items ++ [(k, v)]) = dset k v (dict_of items).
Proof. intros. unfold dict_of, dupdate. rewrite fold_left_app. reflexivity. Qed.

Lemma dict_of_last : forall V (items : list (string * V)) k, dget k (dict_of items) = last_named k items.
Proof.
  intros V items. induction items as [|[k0 v0] items IH] using rev_ind; intros k; [reflexivity|].
  rewrite dict_of_app, last_named_app, dget_dset, IH. reflexivity.
Qed.

Lemma dict_of_names : forall V (items : list (string * V)), map fst (dict_of items) = first_names (map fst items).
Proof.
  intros V items. induction items as [|[k0 v0] items IH] using rev_ind; [reflexivity|].
  rewrite dict_of_app, map_app. cbn [map fst]. rewrite first_names_app.
  destruct (existsb (String.eqb k0) (map fst items)) eqn:E.
  - apply existsb_exists in E. destruct E as (x & Hin & Heq). apply String.eqb_eq in Heq. subst x.
    rewrite dkeys_dset; [exact IH|]. rewrite IH. apply In_first_names. exact Hin.
  - rewrite dset_new; [rewrite map_app, IH; reflexivity|]. intros Hin. rewrite IH in Hin. apply (proj1 (In_first_names _ _)) in Hin.
    apply Bool.not_true_iff_false in E. apply E. apply existsb_exists. exists k0. split; [exact Hin|apply String.eqb_refl].
Qed.

Section Pool.
Variables F V : Type.
Variable task : F -> res (string * V).
Variable reraised : list exn.
Variable files : list F.

Definition slots_ok (sl : list (option (res (string * V)))) : Prop :=
  List.length sl = List.length files /\
  forall i r, nth_error sl i = Some (Some r) -> exists f, nth_error files i = Some f /\ r = task f.

Definition inv (st : pstate V) : Prop :=
  slots_ok (p_slots st) /\ (p_pos st <= List.length files)%nat /\
  (exists items, Forall2 (fun f item => task f = Ok item) (firstn (p_pos st) files) items /\ p_dict st = dict_of items) /\
  match p_out st with
  | None => True
  | Some out => reads_as task (wrap reraised) files out
  end.

Lemma inv_init : inv (pinit files).
Proof.
  repeat split.
  - cbn. apply map_length.
  - cbn. intros i r H. rewrite nth_error_map in H. destruct (nth_error files i); discriminate.
  - cbn. lia.
  - exists []. split; [constructor|reflexivity].
Qed.

Lemma firstn_S : forall A (l : list A) n x, nth_error l n = Some x -> firstn (S n) l = firstn n l ++ [x].
Proof.
  induction l as [|y l IH]; intros [|n] x H; cbn in H; try discriminate.
  - injection H as ->. reflexivity.
  - cbn [firstn app]. f_equal. apply IH. exact H.
Qed.

Lemma nth_split : forall A (l : list A) n x, nth_error l n = Some x -> l = firstn n l ++ x :: skipn (S n) l.
Proof.
  induction l as [|y l IH]; intros [|n] x H; cbn in H; try discriminate.
  - injection H as ->. reflexivity.
  - cbn. f_equal. apply IH. exact H.
Qed.

Lemma inv_step : forall st ev, inv st -> inv (pstep task reraised files st ev).
Proof.
  intros st ev Hinv. pose proof Hinv as ((Hlen & Hslots) & Hpos & (items & Hitems & Hd) & Hout).
  destruct ev as [i|]; cbn [pstep].
  - destruct (nth_error files i) as [f|] eqn:Ef; [|exact Hinv].
    split; [split|split; [exact Hpos|split; [exists items; split; assumption|exact Hout]]]; cbn [p_slots].
    + rewrite set_nth_length. exact Hlen.
    + intros j r Hj. destruct (Nat.eq_dec i j) as [<-|Hne].
      * rewrite set_nth_eq in Hj by (rewrite Hlen; apply nth_error_Some; congruence). injection Hj as <-.
        exists f. split; [exact Ef|reflexivity].
      * rewrite set_nth_neq in Hj by exact Hne. apply Hslots. exact Hj.
  - destruct (p_out st) as [out|] eqn:Eo; [exact Hinv|].
    destruct (nth_error (p_slots st) (p_pos st)) as [[[[name v]|e]|]|] eqn:En.
    + destruct (Hslots _ _ En) as (f & Ef & Hr). split; [split; assumption|]. cbn [p_pos p_dict p_out p_slots].
      assert (p_pos st < List.length files)%nat by (apply nth_error_Some; congruence).
      split; [lia|]. split; [|exact I]. exists (items ++ [(name, v)]). split.
      * rewrite (firstn_S _ _ _ _ Ef). apply Forall2_app; [exact Hitems|]. constructor; [congruence|constructor].
      * rewrite dict_of_app, <- Hd. reflexivity.
    + destruct (Hslots _ _ En) as (f & Ef & Hr). split; [split; assumption|]. cbn [p_pos p_dict p_out p_slots].
      split; [exact Hpos|]. split; [exists items; split; assumption|].
      cbn. exists (firstn (p_pos st) files), f, (skipn (S (p_pos st)) files), e.
      split; [apply nth_split; exact Ef|]. split; [|split; [congruence|reflexivity]].
      intros g Hg. clear - Hitems Hg. induction Hitems as [|x y l l' Hxy _ IH]; [contradiction|].
      destruct Hg as [<-|Hg]; [exists y; exact Hxy|apply IH; exact Hg].
    + exact Hinv.
    + split; [split; assumption|]. cbn [p_pos p_dict p_out p_slots].
      split; [exact Hpos|]. split; [exists items; split; assumption|].
      apply nth_error_None in En. rewrite Hlen in En. rewrite firstn_all2 in Hitems by exact En.
      cbn. exists items. split; [exact Hitems|]. rewrite Hd. split; [apply dict_of_names|intros; apply dict_of_last].
Qed.

Lemma inv_run : forall evs st, inv st -> inv (fold_left (pstep task reraised files) evs st).
Proof. induction evs as [|ev evs IH]; intros st H; cbn; [exact H|]. apply IH, inv_step, H. Qed.

Lemma pool_reads : forall evs out, p_out (prun task reraised files evs) = Some out -> reads_as task (wrap reraised) files out.
Proof.
  intros evs out H. pose proof (inv_run evs _ inv_init) as Hi. fold (prun task reraised files evs) in Hi.
  destruct Hi as (_ & _ & _ & Ho). rewrite H in Ho. exact Ho.
Qed.

(* liveness *)
Lemma slot_kept : forall evs st i, slots_ok (p_slots st) ->
  (exists r, nth_error (p_slots st) i = Some (Some r)) \/ In (Finish i) evs -> (i < List.length files)%nat ->
  inv st -> exists r, nth_error (p_slots (fold_left (pstep task reraised files) evs st)) i = Some (Some r).
Proof.
  induction evs as [|ev evs IH]; intros st i Hs Hor Hi Hinv; cbn [fold_left].
  - destruct Hor as [H|[]]. exact H.
  - pose proof (inv_step _ ev Hinv) as Hinv'. apply IH; [apply Hinv'| |exact Hi|exact Hinv'].
    assert (Hl : List.length (p_slots st) = List.length files) by apply Hs.
    destruct Hor as [(r & Hr)|[->|Hin]]; [|left|right; exact Hin].
    + left. destruct ev as [j|]; cbn [pstep].
      * destruct (nth_error files j) as [f|] eqn:Ef; [|exists r; exact Hr]. cbn [p_slots].
        destruct (Nat.eq_dec j i) as [->|Hne].
        -- exists (task f). apply set_nth_eq. lia.
        -- rewrite set_nth_neq by exact Hne. exists r. exact Hr.
      * exists r. destruct (p_out st); [exact Hr|]. destruct (nth_error (p_slots st) (p_pos st)) as [[[[? ?]|?]|]|]; exact Hr.
    + cbn [pstep]. destruct (nth_error files i) as [f|] eqn:Ef.
      * cbn [p_slots]. exists (task f). apply set_nth_eq. lia.
      * apply nth_error_None in Ef. lia.
Qed.

Lemma collect_out : forall n st out, p_out st = Some out ->
  p_out (fold_left (pstep task reraised files) (repeat Collect n) st) = Some out.
Proof. induction n as [|n IH]; intros st out H; cbn [repeat fold_left]; [exact H|]. apply IH. cbn [pstep]. rewrite H. exact H. Qed.

Lemma collect_all : forall n st, inv st -> (forall i, (i < List.length files)%nat -> exists r, nth_error (p_slots st) i = Some (Some r)) ->
  (List.length files < p_pos st + n)%nat ->
  exists out, p_out (fold_left (pstep task reraised files) (repeat Collect n) st) = Some out.
Proof.
  induction n as [|n IH]; intros st Hinv Hdone Hn.
  - pose proof (proj1 (proj2 Hinv)). lia.
  - cbn [repeat fold_left].
    assert (Hinv' := inv_step _ Collect Hinv). revert Hinv'.
    cbn [pstep]. destruct (p_out st) as [out|] eqn:Eo.
    + intros _. exists out. apply collect_out. exact Eo.
    + destruct (nth_error (p_slots st) (p_pos st)) as [[[[name v]|e]|]|] eqn:En; intros Hinv'.
      * apply IH; [exact Hinv'|exact Hdone|cbn; lia].
      * eexists. apply collect_out. reflexivity.
      * destruct (Hdone (p_pos st)) as (r & Hr); [|congruence].
        assert (p_pos st < List.length (p_slots st))%nat by (apply nth_error_Some; congruence).
        pose proof (proj1 (proj1 Hinv)). lia.
      * eexists. apply collect_out. reflexivity.
Qed.

Lemma pool_ends : forall evs, complete files evs -> exists out, p_out (prun task reraised files evs) = Some out.
Proof.
  intros evs (before & -> & Hall). unfold prun. rewrite fold_left_app.
  pose proof (inv_run before _ inv_init) as Hinv.
  apply collect_all; [exact Hinv| |lia].
  intros i Hi. apply slot_kept; [apply inv_init|right; apply Hall; exact Hi|exact Hi|exact inv_init].
Qed.

End Pool.

Lemma dict_ext : forall V (d e : dict V), NoDup (map fst d) -> map fst d = map fst e -> (forall k, dget k d = dget k e) -> d = e.
Proof.
  induction d as [|[k v] d IH]; intros [|[k' v'] e] Hn Hk Hg; try discriminate; [reflexivity|].
  cbn in Hk. injection Hk as -> Hk. inversion Hn; subst. assert (v = v').
  { specialize (Hg k'). cbn in Hg. rewrite String.eqb_refl in Hg. congruence. }
  subst. f_equal. apply IH; auto. intros x. specialize (Hg x). cbn in Hg. destruct (String.eqb x k') eqn:E; [|exact Hg]. apply String.eqb_eq in E.
  rewrite E. rewrite (proj2 (dget_None d k')) by assumption. symmetry. apply dget_None. rewrite <- Hk. assumption.
Qed.

Lemma NoDup_first_names : forall l, NoDup (first_names l).
Proof.
  induction l as [|x l IH]; cbn; constructor.
  - rewrite filter_In. intros [_ H]. rewrite String.eqb_refl in H. discriminate.
  - apply NoDup_filter. exact IH.
Qed.

Lemma Forall2_det : forall A B (f : A -> res B) l m m', Forall2 (fun x y => f x = Ok y) l m -> Forall2 (fun x y => f x = Ok y) l m' -> m = m'.
Proof.
  intros A B f l m m' H. revert m'. induction H; intros m' H'; inversion H'; subst; [reflexivity|]. f_equal; [congruence|auto].
Qed.

Lemma Forall2_at : forall A B (P : A -> B -> Prop) l m x, Forall2 P l m -> In x l -> exists y, P x y.
Proof. induction 1; intros []; subst; eauto. Qed.

Lemma reads_as_unique : forall F V (task : F -> res (string * V)) w files a b,
  reads_as task w files a -> reads_as task w files b -> a = b.
Proof.
  intros F V task w files [d|e] [d'|e']; cbn; intros Ha Hb.
  - destruct Ha as (it & Hit & Hk & Hg), Hb as (it' & Hit' & Hk' & Hg'). pose proof (Forall2_det _ _ _ _ _ _ Hit Hit'). subst it'.
    f_equal. apply dict_ext; [rewrite Hk; apply NoDup_first_names|congruence|]. intros k. rewrite Hg, Hg'. reflexivity.
  - destruct Ha as (it & Hit & _), Hb as (bf & f & af & e1 & -> & _ & He & _). destruct (Forall2_at _ _ _ _ _ f Hit) as (y & Hy);
      [apply in_or_app; right; left; reflexivity|congruence].
  - destruct Hb as (it & Hit & _), Ha as (bf & f & af & e1 & -> & _ & He & _). destruct (Forall2_at _ _ _ _ _ f Hit) as (y & Hy);
      [apply in_or_app; right; left; reflexivity|congruence].
  - destruct Ha as (bf & f & af & e1 & -> & Hbf & He & ->), Hb as (bf' & f' & af' & e2 & Heq & Hbf' & He' & ->).
    assert (f = f'); [|congruence].
    revert bf' Heq Hbf'. induction bf as [|x bf IH]; intros [|x' bf'] Heq Hbf'.
    + injection Heq as -> _. reflexivity.
    + injection Heq as -> _. destruct (Hbf' x') as (y & Hy); [left; reflexivity|congruence].
    + injection Heq as -> _. destruct (Hbf f') as (y & Hy); [left; reflexivity|congruence].
    + injection Heq as _ Heq. apply (IH (fun g Hg => Hbf g (or_intror Hg)) bf' Heq (fun g Hg => Hbf' g (or_intror Hg))).
Qed.

(** * Image files *)
Lemma exn_eqb_eq : forall a b, exn_eqb a b = true <-> a = b.
Proof. intros a b. unfold exn_eqb. match goal with |- context [if ?x then _ else _] => destruct x end; intuition congruence. Qed.

Lemma rpc_schedule : forall F P (filename : F -> string) (open_im : F -> res (Z * Z * option P)) files evs out,
  read_im_rpc_param filename open_im files evs = Some out ->
  reads_as (im_rpc_task filename open_im) (wrap [FileNotFoundError; ParamError]) files out.
Proof. intros. eapply pool_reads. exact H. Qed.

Lemma im_gcp_values : forall F N C (filename : F -> string) (open_gcps : F -> res (list (rio_gcp N) * C)) is_lla to_lla f name gs,
  (forall c l l', to_lla c l = Ok l' -> List.length l' = List.length l) ->
  im_gcp_task filename open_gcps is_lla to_lla f = Ok (name, gs) ->
  exists gcps crs xyz, open_gcps f = Ok (gcps, crs) /\ gcps <> [] /\ name = filename f /\
    (is_lla crs = true -> xyz = map rg_xyz gcps) /\ (is_lla crs = false -> to_lla crs (map rg_xyz gcps) = Ok xyz) /\
    map og_ji gs = map (fun g => (rg_col g, rg_row g)) gcps /\ map og_xyz gs = xyz /\
    map og_id gs = map rg_id gcps /\ map og_info gs = map rg_info gcps.
Proof.
  intros F N C filename open_gcps is_lla to_lla f name gs Hlen H. unfold im_gcp_task in H.
  destruct (open_gcps f) as [[gcps crs]|e]; [|discriminate]. cbn [bind] in H.
  assert (Hne : gcps <> []) by (destruct gcps; [discriminate|discriminate]).
  assert (exists xyz, (if is_lla crs then Ok (map rg_xyz gcps) else to_lla crs (map rg_xyz gcps)) = Ok xyz /\
    name = filename f /\ gs = map (fun gp => OtyGcp (rg_col (fst gp), rg_row (fst gp)) (snd gp) (rg_id (fst gp)) (rg_info (fst gp))) (combine gcps xyz))
    as (xyz & Hx & -> & ->).
  { destruct gcps as [|g gcps]; [discriminate|]. destruct (if is_lla crs then _ else _) as [xyz|]; [|discriminate].
    cbn [bind] in H. injection H as <- <-. exists xyz. repeat split; reflexivity. }
  clear H. exists gcps, crs, xyz. assert (List.length xyz = List.length gcps).
  { destruct (is_lla crs); [injection Hx as <-; apply map_length|]. apply Hlen in Hx. rewrite map_length in Hx. exact Hx. }
  split; [reflexivity|]. split; [exact Hne|]. split; [reflexivity|].
  split; [intros E; rewrite E in Hx; congruence|]. split; [intros E; rewrite E in Hx; exact Hx|].
  rewrite !map_map. cbn [og_ji og_xyz og_id og_info].
  clear Hx Hne. revert xyz H. induction gcps as [|g gcps IH]; intros [|x xyz] H; cbn in H; try discriminate; [repeat split; reflexivity|].
  injection H as H. destruct (IH _ H) as (H1 & H2 & H3 & H4). cbn [combine map fst snd]. rewrite H1, H2, H3, H4. repeat split; reflexivity.
Qed.

Lemma im_gcp_none : forall F N C (filename : F -> string) (open_gcps : F -> res (list (rio_gcp N) * C)) is_lla to_lla f crs,
  open_gcps f = Ok ([], crs) -> im_gcp_task filename open_gcps is_lla to_lla f = Err ParamError.
Proof. intros. unfold im_gcp_task. rewrite H. reflexivity. Qed.

Lemma reads_as_ext : forall F V (t t' : F -> res (string * V)) w w' files out,
  (forall f, t f = t' f) -> (forall e, w e = w' e) -> reads_as t w files out -> reads_as t' w' files out.
Proof.
  intros F V t t' w w' files [d|e] Ht Hw; cbn.
  - intros (items & Hi & H). exists items. split; [|exact H]. clear H. induction Hi as [|x y l l' Hxy _ IH]; constructor; [rewrite <- Ht; exact Hxy|exact IH].
  - intros (b & f & a & e' & H1 & H2 & H3 & H4). exists b, f, a, e'. rewrite <- Ht, <- Hw. repeat split; auto.
    intros g Hg. rewrite <- Ht. auto.
Qed.

Lemma rpc_reads : forall F P (filename : F -> string) (open_im : F -> res (Z * Z * option P)) files evs out,
  read_im_rpc_param filename open_im files evs = Some out ->
  reads_as (fun f => match open_im f with
                     | Ok (size, Some rpc) => Ok (filename f, (size, rpc))
                     | Ok (_, None) => Err ParamError
                     | Err e => Err e
                     end)
           (fun e => match e with FileNotFoundError => FileNotFoundError | ParamError => ParamError | _ => RuntimeError end)
           files out.
Proof.
  intros. eapply reads_as_ext; [| |eapply pool_reads; exact H].
  - intros f. unfold im_rpc_task. destruct (open_im f) as [[s [r|]]|e]; reflexivity.
  - intros []; reflexivity.
Qed.

Lemma gcps_reads : forall F N C (filename : F -> string) (open_gcps : F -> res (list (rio_gcp N) * C)) is_lla to_lla files evs out,
  read_im_gcps filename open_gcps is_lla to_lla files evs = Some out ->
  reads_as (im_gcp_task filename open_gcps is_lla to_lla)
           (fun e => match e with FileNotFoundError => FileNotFoundError | ParamError => ParamError | _ => RuntimeError end)
           files out.
Proof.
  intros. eapply reads_as_ext; [intros; reflexivity| |eapply pool_reads; exact H]. intros []; reflexivity.
Qed.

Lemma exif_reads : forall F E (filename : F -> string) (exif : F -> res E) files evs out,
  read_exif filename exif files evs = Some out ->
  reads_as (fun f => match exif f with Ok e => Ok (filename f, e) | Err e => Err e end)
           (fun e => match e with FileNotFoundError => FileNotFoundError | _ => RuntimeError end)
           files out.
Proof.
  intros. eapply reads_as_ext with (t := fun f => do e <- exif f; Ok (filename f, e)); [| |eapply pool_reads; exact H].
  - intros f. destruct (exif f); reflexivity.
  - intros []; reflexivity.
Qed.

Lemma pool_schedules : forall F V (task : F -> res (string * V)) reraised files evs evs' out out',
  p_out (prun task reraised files evs) = Some out -> p_out (prun task reraised files evs') = Some out' -> out = out'.
Proof. intros. apply pool_reads in H, H0. eapply reads_as_unique; eassumption. Qed.
