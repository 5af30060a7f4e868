From Coq Require Import List String Bool Arith.
From Verif Require Import Py Py_Proof Files_Model Files_Spec.
Import ListNotations.
Open Scope string_scope.

Lemma dmem_get : forall V (p : string) (d : dict V), dmem p d = true <-> exists c, dget p d = Some c.
Proof.
  intros. unfold dmem. destruct (dget p d) as [v|]; split; intros H; try reflexivity; try discriminate.
  - eexists; reflexivity.
  - destruct H; discriminate.
Qed.

(** An action that only touches [path], and not even that when it exists and may not be overwritten. *)
Definition confined {A} (m : act A) (paths : string -> Prop) (overwrite : bool) : Prop :=
  forall fs, (forall p, ~ paths p -> dget p (fst (m fs)) = dget p fs) /\
             (overwrite = false -> forall p, dmem p fs = true -> dget p (fst (m fs)) = dget p fs) /\
             (forall p, dmem p fs = true -> dmem p (fst (m fs)) = true).

Lemma dget_dset_other : forall (p q c : string) (fs : fsys), p <> q -> dget p (dset q c fs) = dget p fs.
Proof. intros. apply dget_dset_neq. congruence. Qed.

Lemma dmem_dset : forall (p q c : string) (fs : fsys), dmem p fs = true -> dmem p (dset q c fs) = true.
Proof.
  intros p q c fs H. apply dmem_get. destruct (string_dec p q) as [->|Hn].
  - exists c. apply dget_dset_eq.
  - rewrite dget_dset_other by assumption. apply dmem_get. assumption.
Qed.

Definition target_path (t : target) (p : string) : Prop :=
  match t with TPath q | TOpenFile q _ => p = q | TFileObj _ _ => False end.

Lemma write_dump_spec : forall h d fs,
  (forall p, h <> HPath p -> dget p (fst (write_dump h d fs)) = dget p fs) /\
  (forall p, dmem p fs = true -> dmem p (fst (write_dump h d fs)) = true).
Proof.
  intros h [chunks fa] fs. unfold write_dump. destruct h as [q|]; cbn; split; intros p Hp; try reflexivity; try assumption.
  - apply dget_dset_other. congruence.
  - apply dmem_dset. assumption.
Qed.

Lemma write_param_file_confined : forall file prep ow,
  confined (write_param_file file prep ow) (target_path file) ow.
Proof.
  intros file prep ow fs. unfold write_param_file, abind, ret. destruct prep as [d|e]; [|cbn; auto].
  assert (HP : forall path,
    let m := (fun fs : fsys => let (fs', r) := (if negb ow && true && dmem path fs then (fs, Err FileExistsError)
       else (dset path "" fs, Ok (HPath path))) in
       match r with Ok a => write_dump a d fs' | Err e => (fs', Err e) end) in
    (forall p, p <> path -> dget p (fst (m fs)) = dget p fs) /\
    (ow = false -> forall p, dmem p fs = true -> dget p (fst (m fs)) = dget p fs) /\
    (forall p, dmem p fs = true -> dmem p (fst (m fs)) = true)).
  { intros path m. subst m. cbn beta. rewrite andb_true_r.
    destruct (negb ow && dmem path fs) eqn:E; cbn [fst]; [auto|].
    destruct (write_dump_spec (HPath path) d (dset path "" fs)) as [W1 W2]. repeat split.
    - intros p Hp. rewrite W1 by congruence. apply dget_dset_other. assumption.
    - intros -> p Hp. cbn in E. assert (p <> path) by congruence. rewrite W1 by congruence.
      apply dget_dset_other. assumption.
    - intros p Hp. apply W2. apply dmem_dset. assumption. }
  destruct file as [path|path md|cl md]; cbn [open_file target_path].
  - specialize (HP path). cbn beta zeta in *. destruct (_ && _); exact HP.
  - destruct (fmode_eqb WT md); cbn [negb]; [|cbn; auto].
    specialize (HP path). cbn beta zeta in *. destruct (_ && _); exact HP.
  - clear HP. destruct cl; [cbn; auto|].
    destruct (negb (fmode_eqb _ _)); [cbn; auto|]. cbn [ret].
    destruct (write_dump_spec HObj d fs) as [W1 W2]. repeat split.
    + intros p _. apply W1. congruence.
    + intros _ p _. apply W1. congruence.
    + exact W2.
Qed.

(** Sequencing confined actions, the second confined whatever the first returned. *)
Lemma confined_bind : forall A B (m : act A) (k : A -> act B) P Q ow,
  confined m P ow -> (forall a, confined (k a) Q ow) -> confined (abind m k) (fun p => P p \/ Q p) ow.
Proof.
  intros A B m k P Q ow Hm Hk fs. destruct (Hm fs) as (M1 & M2 & M3). unfold abind.
  destruct (m fs) as [fs' [a|e]]; cbn [fst] in *.
  - destruct (Hk a fs') as (K1 & K2 & K3). repeat split.
    + intros p Hp. rewrite K1 by tauto. apply M1. tauto.
    + intros Ho p Hp. rewrite K2; [apply M2; assumption|assumption|apply M3; assumption].
    + intros p Hp. apply K3. apply M3. assumption.
  - repeat split; auto.
Qed.

Lemma confined_ret : forall A (r : res A) P ow, confined (ret r) P ow.
Proof. intros A r P ow fs. cbn. auto. Qed.

Lemma confined_weaken : forall A (m : act A) (P Q : string -> Prop) ow, confined m P ow -> (forall p, P p -> Q p) -> confined m Q ow.
Proof. intros A m P Q ow H HPQ fs. destruct (H fs) as (A1 & A2 & A3). repeat split; auto. Qed.

Lemma steps_pure : forall e l fs, fst (steps (pure_step e) l fs) = fs.
Proof.
  intros e l. induction l as [|s l IH]; intros fs; [reflexivity|]. cbn. unfold abind, pure_step, ret.
  destruct (env_res e s); [apply IH|reflexivity].
Qed.

Lemma steps_write_cons : forall e path s l fs,
  steps (write_step e path) (s :: l) fs =
  match env_res e s with
  | Ok _ => steps (write_step e path) l (dset path (content_after e s) fs)
  | Err x => (dset path (content_after e s) fs, Err x)
  end.
Proof. intros. cbn. unfold abind, write_step at 1. destruct (env_res e s); reflexivity. Qed.

Lemma process_eq : forall e pre post path ow fs,
  abind (steps (pure_step e) pre)
    (fun _ => abind (open_raster_w path ow (env_res e RioOpen)) (fun _ => steps (write_step e path) post)) fs =
  match snd (steps (pure_step e) pre fs) with
  | Ok _ => if negb ow && dmem path fs then (fs, Err FileExistsError)
            else match env_res e RioOpen with
                 | Ok _ => steps (write_step e path) post (dset path "" fs)
                 | Err x => (fs, Err x)
                 end
  | Err x => (fs, Err x)
  end.
Proof.
  intros. unfold abind. pose proof (steps_pure e pre fs) as HP.
  destruct (steps (pure_step e) pre fs) as [fs' [a|x]]; cbn [fst snd] in *; subst; [|reflexivity].
  unfold open_raster_w. destruct (negb ow && dmem path fs); [reflexivity|]. destruct (env_res e RioOpen); reflexivity.
Qed.

Lemma steps_write_spec : forall e path l fs,
  (forall p, p <> path -> dget p (fst (steps (write_step e path) l fs)) = dget p fs) /\
  (forall p, dmem p fs = true -> dmem p (fst (steps (write_step e path) l fs)) = true).
Proof.
  intros e path l. induction l as [|s l IH]; intros fs; [cbn; auto|]. rewrite steps_write_cons.
  destruct (env_res e s); cbn [fst].
  - destruct (IH (dset path (content_after e s) fs)) as [I1 I2]. split.
    + intros p Hp. rewrite I1 by assumption. apply dget_dset_other. assumption.
    + intros p Hp. apply I2. apply dmem_dset. assumption.
  - split; intros p Hp; [apply dget_dset_other; assumption|apply dmem_dset; assumption].
Qed.

Lemma process_confined : forall e pre post path ow,
  confined (abind (steps (pure_step e) pre)
             (fun _ => abind (open_raster_w path ow (env_res e RioOpen)) (fun _ => steps (write_step e path) post)))
           (fun p => p = path) ow.
Proof.
  intros e pre post path ow fs. rewrite process_eq.
  destruct (snd (steps (pure_step e) pre fs)); [|cbn; auto].
  destruct (negb ow && dmem path fs) eqn:E; [cbn; auto|].
  destruct (env_res e RioOpen); [|cbn; auto].
  destruct (steps_write_spec e path post (dset path "" fs)) as [S1 S2]. repeat split.
  - intros p Hp. rewrite S1 by assumption. apply dget_dset_other. assumption.
  - intros -> p Hp. cbn in E. assert (p <> path) by congruence. rewrite S1 by assumption. apply dget_dset_other. assumption.
  - intros p Hp. apply S2. apply dmem_dset. assumption.
Qed.

Definition ow_of (c : call) : bool :=
  match c with
  | CWrite _ _ o | CFrame _ _ _ _ o | CRpc _ _ _ o | COrtho _ _ o _ | CPan _ _ o _ => o
  end.

Lemma call_confined : forall c, confined (run_call c) (writes c) (ow_of c).
Proof.
  intros [f p o|d i x h o|d r g o|e p o b|e p o b]; cbn [run_call ow_of].
  - eapply confined_weaken; [apply write_param_file_confined|]. intros q Hq. destruct f; exact Hq.
  - unfold frame_write_param. eapply confined_weaken.
    + apply confined_bind with (Q := fun q => q = pjoin d "ext_param.geojson").
      * apply write_param_file_confined.
      * intros _. destruct h; cbn [negb]; [apply write_param_file_confined|apply confined_ret].
    + cbn. tauto.
  - unfold rpc_write_param. eapply confined_weaken.
    + apply confined_bind with (Q := fun q => q = pjoin d "gcps.geojson").
      * apply write_param_file_confined.
      * intros _. destruct g; [apply write_param_file_confined|apply confined_ret].
    + cbn. tauto.
  - apply process_confined.
  - apply process_confined.
Qed.

(** * C14 *)
Theorem history_keeps : forall cs fs p content,
  dget p fs = Some content ->
  (forall c, In c cs -> writes c p -> ~ overwriting c) ->
  dget p (run_history cs fs) = Some content.
Proof.
  unfold run_history. induction cs as [|c cs IH]; intros fs p content H Hc; [exact H|]. cbn [fold_left].
  apply IH; [|intros; apply Hc; [right|]; assumption].
  destruct (call_confined c fs) as (C1 & C2 & _).
  destruct (ow_of c) eqn:EO.
  - rewrite C1; [assumption|]. intros Hw. apply (Hc c (or_introl eq_refl) Hw). destruct c; exact EO.
  - rewrite C2; [assumption|reflexivity|]. apply dmem_get. eexists; eassumption.
Qed.

Theorem history_confined : forall cs fs p, (forall c, In c cs -> ~ writes c p) -> dget p (run_history cs fs) = dget p fs.
Proof.
  unfold run_history. induction cs as [|c cs IH]; intros fs p Hc; [reflexivity|]. cbn [fold_left].
  rewrite IH by (intros; apply Hc; right; assumption).
  destruct (call_confined c fs) as (C1 & _ & _). apply C1. apply Hc. left; reflexivity.
Qed.

(** Single file writers and rasters: rejected, unchanged. *)
Theorem existing_rejected : forall fs p content prep file,
  dget p fs = Some content -> file = TPath p \/ file = TOpenFile p WT ->
  write_param_file file prep false fs = (fs, match prep with Ok _ => Err FileExistsError | Err e => Err e end).
Proof.
  intros fs p content prep file H Hf. unfold write_param_file, abind, ret. destruct prep as [d|e]; [|reflexivity].
  assert (HM : dmem p fs = true) by (apply dmem_get; eexists; eassumption).
  destruct Hf as [->| ->]; cbn [open_file fmode_eqb negb andb]; rewrite HM; reflexivity.
Qed.

Theorem existing_raster_rejected : forall fs p content e b,
  dget p fs = Some content ->
  (fst (ortho_process e p false b fs) = fs /\ snd (ortho_process e p false b fs) <> Ok tt) /\
  (fst (pan_process e p false b fs) = fs /\ snd (pan_process e p false b fs) <> Ok tt).
Proof.
  intros fs p content e b H.
  assert (HM : dmem p fs = true) by (apply dmem_get; eexists; eassumption).
  assert (G : forall pre post, let m := abind (steps (pure_step e) pre)
     (fun _ => abind (open_raster_w p false (env_res e RioOpen)) (fun _ => steps (write_step e p) post)) in
     fst (m fs) = fs /\ snd (m fs) <> Ok tt).
  { intros pre post m. subst m. rewrite process_eq. destruct (snd (steps (pure_step e) pre fs)).
    - cbn [negb andb]. rewrite HM. split; [reflexivity|discriminate].
    - split; [reflexivity|discriminate]. }
  split; apply G.
Qed.

(** A new or overwritten file holds exactly what was dumped. *)
Theorem bad_object_rejected : forall fs file d ow,
  (exists m, file = TFileObj true m) \/ (exists c, file = TFileObj c (Some RT)) \/ (exists p, file = TOpenFile p RT) ->
  write_param_file file (Ok d) ow fs = (fs, Err OSError).
Proof. intros fs file d ow [[m ->]|[[[] ->]|[p ->]]]; reflexivity. Qed.

Theorem write_succeeds : forall fs p chunks ow,
  (ow = true \/ dget p fs = None) -> forall file, file = TPath p \/ file = TOpenFile p WT ->
  let r := write_param_file file (Ok (chunks, None)) ow fs in
  snd r = Ok tt /\ dget p (fst r) = Some (String.concat "" chunks) /\ same_except (fun q => q = p) (fst r) fs.
Proof.
  intros fs p chunks ow H file Hf r. subst r.
  assert (E : (negb ow && dmem p fs) = false).
  { destruct H as [->|H]; [reflexivity|]. unfold dmem. rewrite H. apply andb_false_r. }
  assert (E2 : write_param_file file (Ok (chunks, None)) ow fs = write_dump (HPath p) (chunks, None) (dset p "" fs)).
  { destruct Hf as [->| ->]; unfold write_param_file, abind, ret; cbn [open_file fmode_eqb negb]; rewrite andb_true_r, E; reflexivity. }
  rewrite E2. cbn [write_dump fst snd]. rewrite (dget_dset_eq fs p ""). split; [reflexivity|]. split.
  - apply dget_dset_eq.
  - intros q Hq. rewrite !dget_dset_other by assumption. reflexivity.
Qed.

(** Truncation before serialisation: overwriting with data that can not be serialised destroys the old file. *)
Theorem failed_overwrite_destroys :
  exists fs p old d, dget p fs = Some old /\ old <> "" /\
  let r := write_param_file (TPath p) (Ok d) true fs in
  snd r = Err SerializeError /\ dget p (fst r) <> Some old.
Proof.
  exists [("a.yaml", "old")], "a.yaml", "old", (["new"], Some 0%nat). cbn. repeat split; discriminate.
Qed.

Theorem concurrent_overwrite :
  exists sched c1 c2,
  interleave "f" c1 c2 sched ([], WStart, WStart) = ([("f", c1)], WDone (Ok tt), WDone (Ok tt)) /\ c1 <> c2.
Proof. exists [true; false; false; true], "one", "two". split; [reflexivity|discriminate]. Qed.

(** * C15 *)
Lemma pjoin_inj : forall d a b, pjoin d a = pjoin d b -> a = b.
Proof.
  intros d a b H. unfold pjoin in H. destruct (String.eqb d ""); [assumption|].
  assert (APP : forall s x y, s ++ x = s ++ y -> x = y) by (induction s; cbn; intros ? ? E; [assumption|inversion E; auto]).
  destruct (ends_with_slash d); apply APP in H; [assumption|]. apply APP in H. assumption.
Qed.

Theorem frame_write_ok : forall fs d int_prep ext_prep has_crs ow fs',
  frame_write_param d int_prep ext_prep has_crs ow fs = (fs', Ok tt) ->
  has_crs = true /\
  exists ci ce, int_prep = Ok (ci, None) /\ ext_prep = Ok (ce, None) /\
    dget (pjoin d "int_param.yaml") fs' = Some (String.concat "" ci) /\
    dget (pjoin d "ext_param.geojson") fs' = Some (String.concat "" ce) /\
    same_except (fun p => p = pjoin d "int_param.yaml" \/ p = pjoin d "ext_param.geojson") fs' fs.
Proof.
  intros fs d int_prep ext_prep has_crs ow fs' H. unfold frame_write_param, abind in H.
  assert (W : forall p prep fs fs', write_param_file (TOpenFile p WT) prep ow fs = (fs', Ok tt) ->
    exists c, prep = Ok (c, None) /\ dget p fs' = Some (String.concat "" c) /\ forall q, q <> p -> dget q fs' = dget q fs).
  { clear. intros p prep fs fs' H. unfold write_param_file, abind, ret in H. destruct prep as [[c fa]|e]; [|discriminate].
    cbn [open_file fmode_eqb negb] in H. destruct (_ && _); [discriminate|].
    unfold write_dump in H. rewrite dget_dset_eq in H. destruct fa as [k|]; [discriminate|]. inversion H; subst. exists c.
    split; [reflexivity|]. split; [rewrite dget_dset_eq; reflexivity|].
    intros q Hq. rewrite !dget_dset_other by assumption. reflexivity. }
  destruct (write_param_file (TOpenFile (pjoin d "int_param.yaml") WT) int_prep ow fs) as [fs1 [[]|e]] eqn:E1; [|discriminate].
  apply W in E1. destruct E1 as (ci & Ei & Gi & Oi). destruct has_crs; cbn [negb] in H; [|discriminate].
  split; [reflexivity|]. apply W in H. destruct H as (ce & Ee & Ge & Oe). exists ci, ce.
  assert (Hne : pjoin d "int_param.yaml" <> pjoin d "ext_param.geojson").
  { intros C. apply pjoin_inj in C. discriminate. }
  split; [assumption|]. split; [assumption|]. split; [rewrite Oe; assumption|]. split; [assumption|].
  intros p Hp. rewrite Oe, Oi; tauto.
Qed.

(** When the first write succeeds and the call fails later, the interior file has been written. *)
Theorem frame_write_partial_effect : forall fs d ci ext_prep has_crs ow,
  (ow = true \/ dget (pjoin d "int_param.yaml") fs = None) ->
  has_crs = false \/ (exists e, ext_prep = Err e) \/ (ow = false /\ exists c, dget (pjoin d "ext_param.geojson") fs = Some c) ->
  let r := frame_write_param d (Ok (ci, None)) ext_prep has_crs ow fs in
  snd r <> Ok tt /\
  dget (pjoin d "int_param.yaml") (fst r) = Some (String.concat "" ci) /\
  same_except (fun p => p = pjoin d "int_param.yaml") (fst r) fs.
Proof.
  intros fs d ci ext_prep has_crs ow H1 H2 r. subst r. unfold frame_write_param, abind at 1 2 3.
  set (pi := pjoin d "int_param.yaml") in *. set (pe := pjoin d "ext_param.geojson") in *.
  assert (Hne : pe <> pi) by (intros C; apply pjoin_inj in C; discriminate).
  assert (EW : write_param_file (TOpenFile pi WT) (Ok (ci, None)) ow fs = write_param_file (TPath pi) (Ok (ci, None)) ow fs).
  { reflexivity. }
  rewrite EW. destruct (write_succeeds fs pi ci ow H1 (TPath pi) (or_introl eq_refl)) as (S1 & S2 & S3). cbn zeta in *.
  destruct (write_param_file (TPath pi) (Ok (ci, None)) ow fs) as [fs1 r1]. cbn [fst snd] in *. subst r1.
  destruct has_crs; cbn [negb].
  - destruct H2 as [H2|[[e ->]|[-> [c Hc]]]]; [discriminate| |].
    + cbn. split; [discriminate|]. split; assumption.
    + rewrite (existing_rejected fs1 pe c ext_prep (TOpenFile pe WT)); [|rewrite S3 by assumption; exact Hc|right; reflexivity].
      cbn [fst snd]. split; [destruct ext_prep; discriminate|]. split; assumption.
  - cbn. split; [discriminate|]. split; assumption.
Qed.

Theorem frame_write_not_atomic :
  exists fs d int_prep ext_prep has_crs,
  let r := frame_write_param d int_prep ext_prep has_crs false fs in
  snd r = Err CrsMissingError /\ ~ same_fs (fst r) fs.
Proof.
  exists [], "out", (Ok (["x"], None)), (Ok (["y"], None)), false. cbn. split; [reflexivity|].
  intros H. specialize (H "out/int_param.yaml"). cbn in H. discriminate.
Qed.

(** * C59 *)
Lemma steps_pure_ok : forall e l fs, (forall s, In s l -> raises e s = None) -> steps (pure_step e) l fs = (fs, Ok tt).
Proof.
  intros e l. induction l as [|s l IH]; intros fs H; [reflexivity|]. cbn. unfold abind, pure_step, ret, env_res.
  rewrite (H s (or_introl eq_refl)). apply IH. intros; apply H; right; assumption.
Qed.

Lemma steps_pure_fail : forall e l fs s, In s l -> raises e s <> None -> exists x, steps (pure_step e) l fs = (fs, Err x).
Proof.
  intros e l. induction l as [|a l IH]; intros fs s Hin Hs; [destruct Hin|]. cbn. unfold abind, pure_step, ret, env_res.
  destruct (raises e a) as [x|] eqn:E; [eexists; reflexivity|]. destruct Hin as [->|Hin]; [contradiction|].
  apply (IH fs s Hin Hs).
Qed.

Lemma process_early : forall e pre post path ow fs s,
  In s pre \/ s = RioOpen -> raises e s <> None ->
  let m := abind (steps (pure_step e) pre)
             (fun _ => abind (open_raster_w path ow (env_res e RioOpen)) (fun _ => steps (write_step e path) post)) in
  fst (m fs) = fs /\ exists x, snd (m fs) = Err x.
Proof.
  intros e pre post path ow fs s Hs Hr m. subst m. rewrite process_eq. destruct Hs as [Hs| ->].
  - destruct (steps_pure_fail e pre fs s Hs Hr) as [x ->]. split; [reflexivity|eexists; reflexivity].
  - destruct (snd (steps (pure_step e) pre fs)); [|split; [reflexivity|eexists; reflexivity]].
    unfold env_res. destruct (negb ow && dmem path fs); [split; [reflexivity|eexists; reflexivity]|].
    destruct (raises e RioOpen) as [x|]; [|contradiction]. split; [reflexivity|eexists; reflexivity].
Qed.

Theorem ortho_early_failure : forall e path ow b fs s, ortho_before s -> raises e s <> None ->
  fst (ortho_process e path ow b fs) = fs /\ exists x, snd (ortho_process e path ow b fs) = Err x.
Proof.
  intros e path ow b fs s Hs Hr. unfold ortho_process. apply (process_early e _ _ path ow fs s); [|assumption].
  unfold ortho_before in Hs. cbn in *. intuition congruence.
Qed.

Theorem pan_early_failure : forall e path ow b fs s, pan_before s -> raises e s <> None ->
  fst (pan_process e path ow b fs) = fs /\ exists x, snd (pan_process e path ow b fs) = Err x.
Proof.
  intros e path ow b fs s Hs Hr. unfold pan_process. apply (process_early e _ _ path ow fs s); [|assumption].
  unfold pan_before in Hs. cbn in *. intuition congruence.
Qed.

(** The result is Ok exactly when no step raised and the output could be created. *)
Lemma steps_write_ok : forall e path l fs, (forall s, In s l -> raises e s = None) <-> snd (steps (write_step e path) l fs) = Ok tt.
Proof.
  intros e path l. induction l as [|s l IH]; intros fs; [cbn; split; [reflexivity|intros _ s []]|].
  rewrite steps_write_cons. unfold env_res. destruct (raises e s) eqn:E.
  - cbn. split; [|discriminate]. intros H. rewrite (H s (or_introl eq_refl)) in E. discriminate.
  - rewrite <- IH. split; [intros H s' Hs'; apply H; right; assumption|]. intros H s' [<-|Hs']; [assumption|auto].
Qed.

Lemma steps_write_has : forall e path l fs, l <> [] -> dmem path (fst (steps (write_step e path) l fs)) = true.
Proof.
  intros e path [|s l] fs H; [contradiction|]. rewrite steps_write_cons.
  assert (HM : dmem path (dset path (content_after e s) fs) = true) by (apply dmem_get; eexists; apply dget_dset_eq).
  destruct (env_res e s); [|exact HM]. apply steps_write_spec. exact HM.
Qed.

(** Failure after opening: the output exists, and nothing else was touched. *)
Theorem ortho_late_failure : forall e path ow b fs,
  (forall s, ortho_before s -> raises e s = None) -> (ow = true \/ dget path fs = None) ->
  dmem path (fst (ortho_process e path ow b fs)) = true /\
  same_except (fun p => p = path) (fst (ortho_process e path ow b fs)) fs /\
  (snd (ortho_process e path ow b fs) = Ok tt <->
   forall s, In s ([ColorInterp; InterpArg; Tiles] ++ (if b then [Overviews] else [])) -> raises e s = None).
Proof.
  intros e path ow b fs Hp Ho. unfold ortho_process. rewrite !process_eq.
  rewrite steps_pure_ok by (intros s Hs; apply Hp; unfold ortho_before; cbn in *; intuition congruence).
  unfold env_res. rewrite (Hp RioOpen) by (unfold ortho_before; cbn; tauto). cbn [snd].
  assert (E : (negb ow && dmem path fs) = false).
  { destruct Ho as [->|H]; [reflexivity|]. unfold dmem. rewrite H. apply andb_false_r. }
  rewrite E. split; [apply steps_write_has; discriminate|]. split.
  - intros p Hne. destruct (steps_write_spec e path ([ColorInterp; InterpArg; Tiles] ++ (if b then [Overviews] else [])) (dset path "" fs)) as [S1 _].
    rewrite S1 by assumption. apply dget_dset_other. assumption.
  - symmetry. apply steps_write_ok.
Qed.

(** A bad [interp] argument of [Ortho.process] destroys an existing output. *)
Theorem bad_interp_destroys :
  exists e fs path old, dget path fs = Some old /\ raises e InterpArg <> None /\
  (forall s, s <> InterpArg -> raises e s = None) /\
  snd (ortho_process e path true true fs) = Err ValueError /\
  dget path (fst (ortho_process e path true true fs)) <> Some old.
Proof.
  exists (Env (fun s => match s with InterpArg => Some ValueError | _ => None end) (fun _ => "part")),
         [("o.tif", "old")], "o.tif", "old".
  cbn. repeat split; try discriminate. intros s Hs. destruct s; try reflexivity. contradiction.
Qed.
