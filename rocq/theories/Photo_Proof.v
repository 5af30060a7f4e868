(** Proofs of C101 and C102. *)
From Coq Require Import String List Reals ZArith Lra Lia Bool Permutation.
From Verif Require Import Py Py_Proof Flt Mat Rot_Model Rot_Spec Rot_Proof Remap_Model Frame_Model Frame_Spec Frame_Proof Undist_Model Cam_Model Make_Model Proj_Spec Proj_Proof.
From Verif Require Import Fit_Model Exif_Model Exif_Spec Exif_Proof Read_Model Read_Spec Csv_Model Factory_Model Photo_Model Photo_Spec.
From Verif Require Rpc_Model Bound_Model Bound_Proof Read_Proof Tags_Proof Factory_Spec Factory_Proof.
Import ListNotations.
Open Scope string_scope.
Open Scope list_scope.
Open Scope R_scope.

(** * UTM zones *)
Lemma utm_code_of : forall lat lon, utm_of lat lon (utm_code lat lon).
Proof.
  intros lat lon. unfold utm_code. set (k := Bound_Model.Rfloor ((lon + 180) / 6)). exists (k mod 60 + 1)%Z.
  pose proof (Z.mod_pos_bound k 60 ltac:(lia)) as B. split; [lia|]. split.
  - exists (- (k / 60))%Z. pose proof (Bound_Proof.Rfloor_bound ((lon + 180) / 6)) as H. fold k in H.
    pose proof (Z.div_mod k 60 ltac:(lia)) as E. rewrite opp_IZR, plus_IZR. apply (f_equal IZR) in E. rewrite plus_IZR, mult_IZR in E. clear - H E. lra.
  - destruct (Rle_dec 0 lat); split; intros; try lra; reflexivity.
Qed.

Lemma zone_unique : forall z z' lon, (1 <= z <= 60)%Z -> (1 <= z' <= 60)%Z -> in_zone z lon -> in_zone z' lon -> z = z'.
Proof.
  intros z z' lon Hz Hz' (t & H) (t' & H').
  assert (A : IZR (z' - 60 * t') < IZR (z - 60 * t + 1)) by (rewrite !plus_IZR, !minus_IZR, !mult_IZR; lra).
  assert (B : IZR (z - 60 * t) < IZR (z' - 60 * t' + 1)) by (rewrite !plus_IZR, !minus_IZR, !mult_IZR; lra).
  apply lt_IZR in A, B. lia.
Qed.

Lemma utm_unique : forall lat lon c c', utm_of lat lon c -> utm_of lat lon c' -> c = c'.
Proof.
  intros lat lon c c' (z & Hz & Hin & N & S) (z' & Hz' & Hin' & N' & S'). rewrite (zone_unique _ _ _ Hz Hz' Hin Hin') in *.
  destruct (Rle_dec 0 lat); [rewrite N, N' by assumption|rewrite S, S' by lra]; reflexivity.
Qed.

(** * Averages *)
Lemma mean_average : forall l, l <> [] -> average l (Rpc_Model.mean l).
Proof.
  intros l H. unfold average, Rpc_Model.mean, Rpc_Model.sum. field. apply not_0_INR. destruct l; [congruence|discriminate].
Qed.
Lemma average_unique : forall l a b, l <> [] -> average l a -> average l b -> a = b.
Proof.
  intros l a b H Ha Hb. unfold average in *. apply Rmult_eq_reg_r with (INR (List.length l)); [congruence|]. apply not_0_INR. destruct l; [congruence|discriminate].
Qed.
Lemma sum_perm : forall l l', Permutation l l' -> fold_right Rplus 0 l = fold_right Rplus 0 l'.
Proof. induction 1; cbn; lra. Qed.
Lemma mean_perm : forall l l', Permutation l l' -> Rpc_Model.mean l = Rpc_Model.mean l'.
Proof. intros l l' H. unfold Rpc_Model.mean, Rpc_Model.sum. rewrite (sum_perm _ _ H), (Permutation_length H). reflexivity. Qed.

Lemma sum_ge : forall l a, Forall (fun x => a <= x) l -> a * INR (List.length l) <= fold_right Rplus 0 l.
Proof. induction 1; [cbn; lra|]. cbn [List.length fold_right]. rewrite S_INR. lra. Qed.
Lemma sum_lt : forall l b, l <> [] -> Forall (fun x => x < b) l -> fold_right Rplus 0 l < b * INR (List.length l).
Proof.
  intros l b N H. induction H as [|x l Hx H IH]; [congruence|]. cbn [List.length fold_right]. rewrite S_INR. destruct l as [|y l]; [cbn; lra|]. specialize (IH ltac:(discriminate)). lra.
Qed.
Lemma INR_pos : forall A (l : list A), l <> [] -> 0 < INR (List.length l).
Proof. intros A [|x l] H; [congruence|]. apply lt_0_INR. cbn. lia. Qed.
Lemma average_ge : forall l a m, l <> [] -> average l m -> Forall (fun x => a <= x) l -> a <= m.
Proof. intros l a m N A H. apply sum_ge in H. unfold average in A. apply Rmult_le_reg_r with (INR (List.length l)); [apply INR_pos, N|]. lra. Qed.
Lemma average_lt : forall l b m, l <> [] -> average l m -> Forall (fun x => x < b) l -> m < b.
Proof. intros l b m N A H. apply sum_lt in H; [|exact N]. unfold average in A. apply Rmult_lt_reg_r with (INR (List.length l)); [apply INR_pos, N|]. lra. Qed.

Lemma perm_map_inj : forall A B (f : A -> B), (forall a b, f a = f b -> a = b) -> forall l l', Permutation (map f l) (map f l') -> Permutation l l'.
Proof.
  intros A B f Hf l l' Q. apply Permutation_map_inv in Q. destruct Q as (m & Em & Q). assert (l = m); [|subst; symmetry; exact Q].
  clear - Hf Em. revert m Em. induction l as [|x l IH]; intros [|y m] E; try discriminate; [reflexivity|]. cbn in E. injection E as E1 E2. f_equal; auto.
Qed.

Lemma camera_name_is : forall e, camera_name e = create_exif_cam_id e.
Proof.
  intros e. destruct (Tags_Proof.cam_name e) as (A & B). unfold camera_name. destruct (_ ++ _)%list; [symmetry; apply A; reflexivity|symmetry; apply B; discriminate].
Qed.

Section Photo.
Variable C : Type.
Variables is_projected is_geographic : C -> bool.
Variable epsg : Z -> C.
Variable F : Type.
Variable filename : F -> string.
Variable open_exif : F -> res exif.
Variable transform : C -> C -> vec -> vec.
Notation exif_reader := (exif_reader C is_projected is_geographic epsg F filename open_exif).
Notation tags_read := (tags_read F filename open_exif).
Notation reader_made := (reader_made C is_projected is_geographic epsg F filename open_exif).

Lemma parse_crs_given : forall ok (a : crs_arg C) o, parse_crs C ok a = Ok o <-> crs_given ok a o.
Proof.
  intros ok [| |c] o; unfold crs_given; cbn.
  - split; [intros H; injection H as <-; auto|intros [[_ ->]|(c & H & _)]; [reflexivity|discriminate]].
  - split; [discriminate|intros [[H _]|(c & H & _)]; discriminate].
  - destruct (ok c) eqn:E; (split; [intros H; try discriminate|intros [[H _]|(c' & H & H' & ->)]; try discriminate; injection H as <-]); try congruence.
    injection H as <-. right. exists c. auto.
Qed.
Lemma parse_crs_bad : forall ok (a : crs_arg C) x, parse_crs C ok a = Err x -> x = CrsError /\ forall o, ~ crs_given ok a o.
Proof.
  intros ok a x H. split.
  - destruct a as [| |c]; cbn in H; [discriminate|congruence|destruct (ok c); congruence].
  - intros o G. apply parse_crs_given in G. congruence.
Qed.

Lemma read_exif_tags : forall files evs out, read_exif filename open_exif files evs = Some out -> tags_read files out.
Proof.
  intros files evs out H. unfold Photo_Spec.tags_read. eapply Read_Proof.reads_as_ext; [| |eapply Read_Proof.pool_reads; exact H].
  - intros f. cbn. destruct (open_exif f); reflexivity.
  - intros []; reflexivity.
Qed.

Lemma find_utm_ok : forall exifs c, exifs <> [] -> find_utm_crs C epsg exifs = Ok c ->
  exists positions lat lon code, Forall2 (fun kv p => e_lla (snd kv) = Some p) exifs positions /\
    average (map (fun p => fst (fst p)) positions) lat /\ average (map (fun p => snd (fst p)) positions) lon /\ utm_of lat lon code /\ c = epsg code.
Proof.
  intros exifs c N H. unfold find_utm_crs in H. destruct (mapM _ exifs) as [llas|] eqn:E; [|discriminate]. cbn [bind] in H. injection H as <-.
  apply mapM_Ok in E. assert (NL : llas <> []) by (inversion E; subst; congruence).
  exists llas. do 3 eexists. split.
  - clear - E. induction E as [|[k e] p l l' H _ IH]; constructor; [|exact IH]. cbn [snd] in *. destruct (e_lla e); congruence.
  - split; [apply mean_average; destruct llas; [congruence|discriminate]|]. split; [apply mean_average; destruct llas; [congruence|discriminate]|].
    split; [apply utm_code_of|reflexivity].
Qed.

Lemma mapM_err : forall A B (f : A -> res B) l x, mapM f l = Err x -> exists a, In a l /\ f a = Err x.
Proof.
  induction l as [|a l IH]; cbn; intros x H; [discriminate|]. destruct (f a) eqn:E; cbn [bind] in H; [|injection H as ->; exists a; auto].
  destruct (mapM f l) eqn:E'; [discriminate|]. cbn in H. injection H as ->. destruct (IH _ eq_refl) as (a' & Hin & Ha). eauto.
Qed.

Lemma find_utm_err : forall exifs x, find_utm_crs C epsg exifs = Err x -> x = ParamError /\ exists name e, In (name, e) exifs /\ e_lla e = None.
Proof.
  intros exifs x H. unfold find_utm_crs in H. destruct (mapM _ exifs) as [llas|] eqn:E; [discriminate|]. cbn [bind] in H. injection H as ->.
  apply mapM_err in E. destruct E as ([k e] & Hin & He). cbn [snd] in He. destruct (e_lla e) eqn:El; [discriminate|]. injection He as <-. eauto.
Qed.

Theorem reader_is_made : forall files crs lla evs out, exif_reader files crs lla evs = Some out -> reader_made files crs lla out.
Proof.
  intros files crs lla evs out H. unfold Photo_Model.exif_reader in H.
  destruct (parse_crs C is_projected crs) as [o|x] eqn:Ec.
  2:{ injection H as <-. apply parse_crs_bad in Ec. destruct Ec as [-> Hn]. apply bad_crs. exact Hn. }
  destruct (parse_crs C is_geographic lla) as [l|x] eqn:El.
  2:{ injection H as <-. apply parse_crs_bad in El. destruct El as [-> Hn]. apply bad_lla_crs. exact Hn. }
  apply parse_crs_given in Ec, El.
  destruct (read_exif filename open_exif files evs) as [[exifs|x]|] eqn:Er; [| |discriminate]; apply read_exif_tags in Er.
  2:{ injection H as <-. eapply bad_file; eassumption. }
  destruct o as [c|]; [injection H as <-; apply asked; assumption|].
  assert (crs = NoCrs) by (destruct Ec as [[-> _]|(c & _ & _ & E)]; [reflexivity|discriminate]).
  destruct exifs as [|kv exifs]; [injection H as <-; apply no_files; assumption|]. set (exifs' := kv :: exifs) in *.
  assert (N : exifs' <> []) by discriminate. clearbody exifs'. injection H as <-.
  destruct (find_utm_crs C epsg exifs') as [c|x] eqn:Ef; cbn [bind].
  - apply find_utm_ok in Ef; [|exact N]. destruct Ef as (ps & lat & lon & code & H1 & H2 & H3 & H4 & ->). eapply automatic; eassumption.
  - apply find_utm_err in Ef. destruct Ef as (-> & name & e & Hin & He). eapply no_position; eassumption.
Qed.

Theorem reader_ends : forall files crs lla evs, complete files evs -> exists out, exif_reader files crs lla evs = Some out.
Proof.
  intros files crs lla evs H. unfold Photo_Model.exif_reader.
  destruct (parse_crs C is_projected crs) as [o|]; [|eauto]. destruct (parse_crs C is_geographic lla) as [l|]; [|eauto].
  destruct (Read_Proof.pool_ends _ _ (fun f => do e <- open_exif f; Ok (filename f, e)) [FileNotFoundError] files evs H) as (r & E). unfold read_exif. rewrite E.
  destruct r as [exifs|x]; [|eauto]. destruct o; [eauto|]. destruct exifs; eauto.
Qed.

(** One outcome for all schedules. *)
Theorem reader_schedules : forall files crs lla evs evs' out out',
  exif_reader files crs lla evs = Some out -> exif_reader files crs lla evs' = Some out' -> out = out'.
Proof.
  intros files crs lla evs evs' out out' H H'. unfold Photo_Model.exif_reader in *.
  destruct (parse_crs C is_projected crs) as [o|]; [|congruence]. destruct (parse_crs C is_geographic lla) as [l|]; [|congruence].
  destruct (read_exif filename open_exif files evs) as [r|] eqn:Er; [|discriminate]. destruct (read_exif filename open_exif files evs') as [r'|] eqn:Er'; [|discriminate].
  apply read_exif_tags in Er, Er'. rewrite (Read_Proof.reads_as_unique _ _ _ _ _ _ _ Er Er') in *. congruence.
Qed.

(** The tags read, when names are distinct: those of the files in order. *)
Lemma first_names_nodup : forall l, NoDup l -> first_names l = l.
Proof.
  induction 1 as [|x l Hn H IH]; [reflexivity|]. cbn. rewrite IH. f_equal. clear - Hn. induction l as [|y l IH]; [reflexivity|]. cbn.
  destruct (String.eqb_spec x y); [subst; exfalso; apply Hn; left; reflexivity|]. cbn. f_equal. apply IH. intros Hi. apply Hn. right. exact Hi.
Qed.

Lemma last_named_nodup : forall V (l : list (string * V)) k, NoDup (map fst l) -> last_named k l = dget k l.
Proof.
  induction l as [|[k0 v0] l IH]; intros k H; [reflexivity|]. cbn [map fst] in H. inversion H as [|? ? Hn Hd]; subst. cbn. rewrite IH by assumption.
  destruct (String.eqb_spec k k0) as [->|N].
  - replace (dget k0 l) with (@None V); [reflexivity|]. symmetry. apply dget_None. exact Hn.
  - destruct (dget k l); reflexivity.
Qed.

Lemma tags_items : forall files exifs, NoDup (map filename files) -> tags_read files (Ok exifs) ->
  Forall2 (fun f kv => open_exif f = Ok (snd kv) /\ fst kv = filename f) files exifs.
Proof.
  intros files exifs Hn (items & Hi & Hk & Hg).
  assert (E : map fst items = map filename files).
  { clear - Hi. induction Hi as [|f [k e] l l' H _ IH]; [reflexivity|]. cbn. rewrite IH. destruct (open_exif f); [|discriminate]. congruence. }
  assert (exifs = items).
  { apply Read_Proof.dict_ext; [rewrite Hk; apply Read_Proof.NoDup_first_names|rewrite Hk; apply first_names_nodup; congruence|].
    intros k. rewrite Hg. apply last_named_nodup. congruence. }
  subst. clear - Hi. induction Hi as [|f [k e] l l' H _ IH]; constructor; [|exact IH]. cbn. destruct (open_exif f); [|discriminate]. split; congruence.
Qed.

(** Every image read is that of one of the files, and has its name. *)
Lemma tags_from : forall files exifs name e, tags_read files (Ok exifs) -> In (name, e) exifs -> exists f, In f files /\ filename f = name /\ open_exif f = Ok e.
Proof.
  intros files exifs name e (items & Hi & Hk & Hg) Hin.
  assert (Hd : dget name exifs = Some e) by (apply In_dget; [rewrite Hk; apply Read_Proof.NoDup_first_names|exact Hin]).
  rewrite Hg in Hd. apply last_named_some in Hd. clear - Hi Hd. induction Hi as [|f [k e'] l l' H _ IH]; [contradiction|].
  destruct Hd as [E|Hd]; [|destruct (IH Hd) as (g & Hg & H1 & H2); exists g; cbn; auto]. injection E as -> ->. exists f.
  destruct (open_exif f) eqn:Eo; [|discriminate]. injection H as H ->. cbn. auto.
Qed.

(** And every file is there, under its name. *)
Lemma tags_all : forall files exifs f e, tags_read files (Ok exifs) -> In f files -> open_exif f = Ok e ->
  (forall g e', In g files -> filename g = filename f -> open_exif g = Ok e' -> e' = e) -> dget (filename f) exifs = Some e.
Proof.
  intros files exifs f e T Hin Ho Hu. pose proof T as (items & Hi & Hk & Hg). rewrite Hg.
  assert (Hn : In (filename f) (map fst items)).
  { clear - Hi Hin Ho. induction Hi as [|g [k e'] l l' H _ IH]; [contradiction|]. destruct Hin as [->|Hin]; [|right; apply IH, Hin]. rewrite Ho in H. left. cbn. congruence. }
  destruct (last_named_In _ _ _ Hn) as (e' & He'). rewrite He'. f_equal. apply last_named_some in He'. clear Hk Hg Hn T.
  assert (exists g, In g files /\ filename g = filename f /\ open_exif g = Ok e') as (g & G1 & G2 & G3).
  { clear - Hi He'. induction Hi as [|g [k e0] l l' H _ IH]; [contradiction|]. destruct He' as [E|He']; [|destruct (IH He') as (g' & G & G'); exists g'; cbn; auto].
    injection E as -> ->. destruct (open_exif g) as [e1|] eqn:Eo; [|discriminate]. injection H as H1 H2. subst e1. exists g. cbn. auto. }
  eauto.
Qed.

Lemma find_utm_perm : forall exifs exifs' c c', Permutation (map snd exifs) (map snd exifs') ->
  find_utm_crs C epsg exifs = Ok c -> find_utm_crs C epsg exifs' = Ok c' -> c = c'.
Proof.
  intros exifs exifs' c c' P H H'. unfold find_utm_crs in *.
  destruct (mapM _ exifs) as [l|] eqn:E; [|discriminate]. destruct (mapM _ exifs') as [l'|] eqn:E'; [|discriminate]. cbn [bind] in *. injection H as <-. injection H' as <-.
  assert (T : forall (d : dict exif) m, mapM (fun kv : string * exif => match e_lla (snd kv) with Some lla => Ok lla | None => Err ParamError end) d = Ok m ->
    map Some m = map e_lla (map snd d)).
  { intros d m H. apply mapM_Ok in H. induction H as [|[k e] p d m Hp _ IH]; [reflexivity|]. cbn [map snd] in *. rewrite IH. destruct (e_lla e); congruence. }
  apply T in E, E'. assert (PL : Permutation l l').
  { pose proof (Permutation_map e_lla P) as Q. rewrite <- E, <- E' in Q. apply perm_map_inj in Q; [exact Q|congruence]. }
  f_equal. f_equal; apply mean_perm, Permutation_map, PL.
Qed.

(** The world CRS does not depend on the order of the files. *)
Theorem reader_order : forall files files' crs lla evs evs' r r', Permutation files files' -> NoDup (map filename files) ->
  exif_reader files crs lla evs = Some (Ok r) -> exif_reader files' crs lla evs' = Some (Ok r') -> xr_crs r = xr_crs r' /\ xr_lla_crs r = xr_lla_crs r'.
Proof.
  intros files files' crs lla evs evs' r r' P Hn H H'.
  assert (Hn' : NoDup (map filename files')) by (eapply Permutation_NoDup; [apply Permutation_map, P|exact Hn]).
  unfold Photo_Model.exif_reader in *.
  destruct (parse_crs C is_projected crs) as [o|]; [|congruence]. destruct (parse_crs C is_geographic lla) as [l|]; [|congruence].
  destruct (read_exif filename open_exif files evs) as [[exifs|]|] eqn:Er; try discriminate. destruct (read_exif filename open_exif files' evs') as [[exifs'|]|] eqn:Er'; try discriminate.
  apply read_exif_tags in Er, Er'. apply tags_items in Er; [|exact Hn]. apply tags_items in Er'; [|exact Hn'].
  assert (PE : Permutation (map snd exifs) (map snd exifs')).
  { assert (T : forall fs (d : dict exif), Forall2 (fun f kv => open_exif f = Ok (snd kv) /\ fst kv = filename f) fs d -> map open_exif fs = map (fun e => Ok e) (map snd d)).
    { induction 1 as [|f kv fs d [H1 _] _ IH]; [reflexivity|]. cbn. rewrite H1, IH. reflexivity. }
    apply T in Er, Er'. pose proof (Permutation_map open_exif P) as Q. rewrite Er, Er' in Q. apply perm_map_inj in Q; [exact Q|congruence]. }
  destruct o as [c|]; [injection H as <-; injection H' as <-; auto|].
  destruct exifs as [|kv exifs], exifs' as [|kv' exifs'].
  - injection H as <-. injection H' as <-. auto.
  - exfalso. apply Permutation_length in PE. discriminate.
  - exfalso. apply Permutation_length in PE. discriminate.
  - injection H as H. injection H' as H'. destruct (find_utm_crs C epsg (kv :: exifs)) as [c|] eqn:E; [|discriminate]. destruct (find_utm_crs C epsg (kv' :: exifs')) as [c'|] eqn:E'; [|discriminate].
    cbn [bind] in *. injection H as <-. injection H' as <-. cbn. split; [|reflexivity]. f_equal. eapply find_utm_perm; eassumption.
Qed.

(** Images in one zone and hemisphere get that zone. *)
Theorem reader_one_zone : forall files lla evs r zone (north : bool), files <> [] -> (1 <= zone <= 60)%Z ->
  exif_reader files NoCrs lla evs = Some (Ok r) ->
  (forall f e lat lon alt, In f files -> open_exif f = Ok e -> e_lla e = Some (lat, lon, alt) ->
     -180 + 6 * (IZR zone - 1) <= lon < -180 + 6 * IZR zone /\ (if north then 0 <= lat else lat < 0)) ->
  xr_crs r = Some (epsg (if north then 32600 + zone else 32700 + zone)%Z).
Proof.
  intros files lla evs r zone north N Hz H Hall. apply reader_is_made in H. inversion H; subst; try discriminate.
  - destruct H1 as [[_ E]|(c' & E & _)]; discriminate.
  - exfalso. destruct H3 as (items & Hi & Hk & _). destruct files as [|f files]; [congruence|]. inversion Hi as [|? it ? its]; subst. destruct it. discriminate Hk.
  - cbn. f_equal. f_equal. destruct H8 as (z & Hz' & Hin & HN & HS).
    assert (NP : positions <> []) by (destruct exifs; [congruence|]; inversion H5; discriminate).
    assert (FA : Forall (fun p : R * R * R => -180 + 6 * (IZR zone - 1) <= snd (fst p) < -180 + 6 * IZR zone /\ (if north then 0 <= fst (fst p) else fst (fst p) < 0)) positions).
    { assert (G : forall p, In p positions -> exists name e, In (name, e) exifs /\ e_lla e = Some p).
      { clear - H5. induction H5 as [|[k e] p l l' Hp _ IH]; [contradiction|]. intros q [->|Hq]; [exists k, e; cbn; auto|]. destruct (IH q Hq) as (n & e' & Hn & He). exists n, e'. cbn. auto. }
      apply Forall_forall. intros [[lat' lon'] alt'] Hp. destruct (G _ Hp) as (name & e & He & El). destruct (tags_from _ _ _ _ H3 He) as (f & Hf & _ & Ho). cbn [fst snd]. eapply Hall; eassumption. }
    assert (L : -180 + 6 * (IZR zone - 1) <= lon < -180 + 6 * IZR zone).
    { split; [eapply average_ge; [|exact H7|]|eapply average_lt; [|exact H7|]]; try (destruct positions; [congruence|discriminate]);
        (apply Forall_forall; intros x Hx; apply in_map_iff in Hx; destruct Hx as (p & <- & Hp); rewrite Forall_forall in FA; apply FA in Hp; lra). }
    assert (z = zone). { apply (zone_unique _ _ lon); [assumption|assumption|assumption|]. exists 0%Z. lra. } subst z.
    destruct north.
    + apply HN. eapply average_ge; [|exact H6|]; [destruct positions; [congruence|discriminate]|].
      apply Forall_forall; intros x Hx; apply in_map_iff in Hx; destruct Hx as (p & <- & Hp); rewrite Forall_forall in FA; apply FA in Hp; tauto.
    + apply HS. eapply average_lt; [|exact H6|]; [destruct positions; [congruence|discriminate]|].
      apply Forall_forall; intros x Hx; apply in_map_iff in Hx; destruct Hx as (p & <- & Hp); rewrite Forall_forall in FA; apply FA in Hp; tauto.
Qed.

(** * Cameras *)
Variable cv_project : intr -> list R -> R * R -> R * R.
Variable cv_undistort : intr -> list R -> R * R -> R * R.
Notation photo_camera := (photo_camera cv_project cv_undistort).
Notation from_images := (from_images C is_projected is_geographic epsg F filename open_exif transform).
Variable cv_surf : string -> arr fl -> fl * fl -> option fl.
Variable cast_nan : string -> fl.
Variable cv_image : string -> arr pix -> fl * fl -> option pix.
Variable convert : string -> string -> pix -> pix.
Notation do_call := (do_call cv_surf cast_nan cv_image convert).

Lemma intr_ext : forall a b, kfx a = kfx b -> kfy a = kfy b -> kcx a = kcx b -> kcy a = kcy b -> a = b.
Proof. intros [] []; cbn; intros; subst; reflexivity. Qed.

Lemma camera_sees : forall e K dist distort alpha, sees_by e K dist -> (distort = true \/ forall d tw th, ~ usable_dewarp e d tw th) ->
  exists p cam, interior e p /\ photo_camera distort alpha p = Ok cam /\
  forall t opk, exists f, test_init (photo_object (Camera cam (Some (t, opk)))) = Ok f /\ fr_R f = extrinsic_rotation opk /\ fr_T f = t /\
    forall xy, l_fwd (active_lens f) xy = to_pixel K (dist xy).
Proof.
  intros e K dist distort alpha H Hd.
  assert (PIN : forall w h focal sensor, get_intrinsic w h [focal] sensor 0 0 = Ok K ->
    exists cam, photo_camera distort alpha (IntParam Pinhole w h [focal] sensor None None []) = Ok cam /\
    forall t opk, exists f, test_init (photo_object (Camera cam (Some (t, opk)))) = Ok f /\ fr_R f = extrinsic_rotation opk /\ fr_T f = t /\
      forall xy : R * R, l_fwd (active_lens f) xy = to_pixel K xy).
  { intros w h focal sensor E. eexists. split.
    - unfold Photo_Model.photo_camera. cbn [ip_type ip_w ip_h ip_focal ip_sensor ip_cx ip_cy or0 Cam_Model.frame_init]. unfold Cam_Model.frame_init. rewrite E. reflexivity.
    - intros t opk. eexists. split; [reflexivity|]. cbn. split; [reflexivity|]. split; [reflexivity|]. intros xy. unfold active_lens. cbn. destruct distort; reflexivity. }
  destruct H as [fx fy cx cy k1 k2 p1 p2 k3 tw th K U P1 P2 E1 E2 E3 E4|f sw sh K U T S N1 N2 E1 E2 E3 E4|f35 sw sh K U NT T S N1 N2 E1 E2 E3 E4|f35 K U S T E1 E2 E3 E4].
  - destruct Hd as [->|Hd]; [|exfalso; eapply Hd; exact U]. eexists. 
    assert (IK : get_intrinsic (fst (e_im_size e)) (snd (e_im_size e)) [fx; fy] (Some [IZR tw; IZR th]) (cx / IZR (Z.max tw th)) (cy / IZR (Z.max tw th)) = Ok K).
    { apply IZR_lt in P1, P2. cbn. f_equal. apply intr_ext; cbn; [rewrite E1; field; lra|rewrite E2; field; lra|rewrite E3; ring|rewrite E4; ring]. }
    eexists. split; [apply I_dewarp, U|]. split.
    + unfold Photo_Model.photo_camera. cbn [ip_type ip_w ip_h ip_focal ip_sensor ip_cx ip_cy or0]. rewrite IK. cbn [bind]. unfold Cam_Model.frame_init. rewrite IK. reflexivity.
    + intros t opk. eexists. split; [reflexivity|]. cbn. split; [reflexivity|]. split; [reflexivity|]. intros xy. unfold active_lens. cbn.
      unfold brown_fwd. rewrite brown_is_opencv5. destruct (opencv_distort [k1; k2; p1; p2; k3] xy) as [a b]. reflexivity.
  - eexists. destruct (PIN (fst (e_im_size e)) (snd (e_im_size e)) f (Some [sw; sh])) as (cam & H1 & H2).
    { cbn. f_equal. apply intr_ext; cbn; [rewrite E1; field; assumption|rewrite E2; field; assumption|rewrite E3; ring|rewrite E4; ring]. }
    exists cam. split; [apply (I_focal e f sw sh); assumption|]. split; [exact H1|exact H2].
  - eexists. destruct (PIN (fst (e_im_size e)) (snd (e_im_size e)) (Rmax sw sh * f35 / 36) (Some [sw; sh])) as (cam & H1 & H2).
    { cbn. f_equal. apply intr_ext; cbn; [rewrite E1; field; assumption|rewrite E2; field; assumption|rewrite E3; ring|rewrite E4; ring]. }
    exists cam. split; [apply (I_focal_35_sensor e f35 sw sh); assumption|]. split; [exact H1|exact H2].
  - eexists. destruct (PIN (fst (e_im_size e)) (snd (e_im_size e)) (f35 / 36) None) as (cam & H1 & H2).
    { cbn. f_equal. apply intr_ext; cbn; [rewrite E1; ring|rewrite E2; ring|rewrite E3; ring|rewrite E4; ring]. }
    exists cam. split; [apply (I_focal_35 e f35); assumption|]. split; [exact H1|exact H2].
Qed.

Lemma object_pixel : forall c f t opk v X, test_init c = Ok f -> fr_R f = extrinsic_rotation opk -> fr_T f = t ->
  X = vadd t (let '(o, p, k) := opk in turned o p k v) ->
  snd (do_call c (WorldToPixel (one_point (num3 X)))) = Ok (VPixels [if Req_EM_T (vz v) 0 then (Nan, Nan) else l_fwd (active_lens f) (vx v / vz v, vy v / vz v)]).
Proof.
  intros c f t [[o p] k] v X H HR HT ->. destruct t as [x y z].
  assert (S : seen_at (V3 x y z) o p k v (vadd (V3 x y z) (turned o p k v))) by reflexivity. apply seen_iff in S.
  cbn [Cam_Model.do_call snd]. unfold world_to_pixel_call. rewrite H. 
  replace (validate_world_coords (one_point (num3 (vadd (V3 x y z) (turned o p k v))))) with (Ok tt) by reflexivity. cbn [bind rmap nd_data one_point map].
  unfold num3, world_to_pixel. rewrite HR, HT. replace (V3 (vx (vadd (V3 x y z) (turned o p k v))) (vy (vadd (V3 x y z) (turned o p k v))) (vz (vadd (V3 x y z) (turned o p k v)))) with (vadd (V3 x y z) (turned o p k v)) by reflexivity.
  rewrite <- S. destruct (Req_EM_T (vz v) 0); reflexivity.
Qed.

Lemma last_item : forall exifs ints name e p, exif_read_int exifs = Ok ints -> In (name, e) exifs ->
  (forall n e' q, In (n, e') exifs -> create_exif_cam_id e' = create_exif_cam_id e -> read_exif_int_param e' = Ok q -> snd q = p) ->
  dget (create_exif_cam_id e) ints = Some p.
Proof.
  intros exifs ints name e p H Hin Hs. apply exif_items in H. destruct H as (items & Hi & ->). rewrite Read_Proof.dict_of_last.
  assert (Hn : In (create_exif_cam_id e) (map fst items)).
  { clear Hs. induction Hi as [|[k e'] [i q] l l' Hx _ IH]; [contradiction|]. destruct Hin as [E|Hin]; [|right; apply IH, Hin]. injection E as -> ->. left. cbn in *. eapply exif_int_id, Hx. }
  destruct (last_named_In _ _ _ Hn) as (q & Hq). rewrite Hq. f_equal. apply last_named_some in Hq. clear Hn.
  assert (exists n e', In (n, e') exifs /\ read_exif_int_param e' = Ok (create_exif_cam_id e, q)) as (n & e' & G1 & G2).
  { clear - Hi Hq. induction Hi as [|[k e'] [i q'] l l' Hx _ IH]; [contradiction|]. destruct Hq as [E|Hq]; [|destruct (IH Hq) as (n & e0 & G & G'); exists n, e0; cbn; auto].
    injection E as -> ->. exists k, e'. cbn in *. auto. }
  pose proof (exif_int_id _ _ _ G2) as Eid. apply (Hs n e' (create_exif_cam_id e, q)); [exact G1|congruence|exact G2].
Qed.

Lemma made_crs : forall files crs lla evs r, exif_reader files crs lla evs = Some (Ok r) -> tags_read files (Ok (xr_exifs r)) /\ crs_given is_geographic lla (xr_lla_crs r).
Proof.
  intros files crs lla evs r H. apply reader_is_made in H. inversion H; subst; cbn; split; assumption.
Qed.

Lemma photo_pixels_gen : forall files crs evs fac c f e history distort alpha p cam (G : R * R -> fl * fl) l lat lon alt roll pitch yaw nx ny,
  (forall g e', open_exif g = Ok e' -> e_filename e' = filename g) ->
  from_images files crs (ACrs l) evs = Some (Ok (fac, Some c)) ->
  In f files -> open_exif f = Ok e -> (forall g e', In g files -> filename g = filename f -> open_exif g = Ok e' -> e' = e) ->
  one_camera open_exif files e -> interior e p -> photo_camera distort alpha p = Ok cam ->
  (forall t opk, exists f, test_init (photo_object (Camera cam (Some (t, opk)))) = Ok f /\ fr_R f = extrinsic_rotation opk /\ fr_T f = t /\ forall xy, l_fwd (active_lens f) xy = G xy) ->
  e_lla e = Some (lat, lon, alt) -> e_rpy e = Some (roll, pitch, yaw) ->
  let tw lat lon alt := transform l c (V3 lon lat alt) in
  north_is lat lon alt tw nx ny -> Rabs (vx (rpy_world (deg roll) (deg pitch) (deg yaw) nx ny (V3 0 0 1))) < 1 ->
  let create := photo_camera distort alpha in
  let st := frame_run create history fac in
  exists i o, snd (frame_get create (filename f) st) = Ok i /\ nth_error (f_heap (fst (frame_get create (filename f) st))) i = Some o /\
  (exists opk, o = Camera cam (Some (transform l c (V3 lon lat alt), opk)) /\
    forall v, mvec (extrinsic_rotation opk) v = rpy_world (deg roll) (deg pitch) (deg yaw) nx ny (V3 (vx v) (- vy v) (- vz v))) /\
  forall v X, X = vadd (transform l c (V3 lon lat alt)) (rpy_world (deg roll) (deg pitch) (deg yaw) nx ny (V3 (vx v) (- vy v) (- vz v))) ->
    snd (do_call (photo_object o) (WorldToPixel (one_point (num3 X)))) = Ok (VPixels [if Req_EM_T (vz v) 0 then (Nan, Nan) else G (vx v / vz v, vy v / vz v)]).
Proof.
  intros files crs evs fac c f e history distort alpha p cam G l lat lon alt roll pitch yaw nx ny Hnm H Hin Ho Hu Hone Hp Hcam Hsee El Er tw Hnorth Hg create st.
  unfold Photo_Model.from_images in H. destruct (exif_reader files crs (ACrs l) evs) as [[r|]|] eqn:Ex; try discriminate. injection H as H.
  destruct (exif_read_int (xr_exifs r)) as [ints|] eqn:Ei; [|discriminate]. cbn [bind] in H.
  destruct (exif_read_ext _ (to_world C transform r) (xr_exifs r)) as [exts|] eqn:Ee; [|discriminate]. cbn [bind] in H. injection H as Hf Hc.
  destruct (made_crs _ _ _ _ _ Ex) as (T & GC). destruct GC as [[GC _]|(l' & GC & _ & Hl)]; [discriminate|]. injection GC as <-.
  pose proof (tags_all _ _ _ _ T Hin Ho Hu) as Hdg. pose proof (dget_In _ _ _ Hdg) as HI.
  assert (Hints : dget (create_exif_cam_id e) ints = Some p).
  { eapply last_item; [exact Ei|exact HI|]. intros n e' q Hi' Eid Hq. destruct (tags_from _ _ _ _ T Hi') as (g & Hg1 & _ & Hg2). destruct (Hone g e' Hg1 Hg2 (eq_trans (camera_name_is e') (eq_trans Eid (eq_sym (camera_name_is e))))) as (S1 & S2 & S3).
    destruct q as [id q]. apply (exif_precedence e' id q S1 S2) in Hq. destruct Hq as (Hq & _). apply S3 in Hq. 
    destruct (Hone f e Hin Ho eq_refl) as (S4 & S5 & _). cbn.
    assert (R1 : read_exif_int_param e = Ok (create_exif_cam_id e, q)) by (apply exif_precedence; auto). assert (R2 : read_exif_int_param e = Ok (create_exif_cam_id e, p)) by (apply exif_precedence; auto). congruence. }
  set (opk := rpy_to_opk (radians roll) (radians pitch) (radians yaw) lat lon alt tw None).
  assert (Hexts : dget (filename f) exts = Some ((tw lat lon alt, opk), create_exif_cam_id e)).
  { apply in_split in HI. destruct HI as (b & a & HI). pose proof Ee as Ee'. rewrite HI in Ee'. apply Tags_Proof.exterior in Ee'.
    - destruct Ee' as (lla' & rpy' & x & A1 & A2 & A3 & A4). rewrite El in A1. injection A1 as <-. rewrite Er in A2. injection A2 as <-.
      unfold to_world in A3. rewrite Hl, Hc in A3. injection A3 as <-. rewrite (Hnm f e Ho) in A4. exact A4.
    - intros n' e' Ha E. assert (Hi' : In (n', e') (xr_exifs r)) by (rewrite HI; apply in_or_app; right; right; exact Ha).
      destruct (tags_from _ _ _ _ T Hi') as (g & Hg1 & Hg2 & Hg3). apply Hnm in Hg3. rewrite E, (Hnm f e Ho) in Hg3.
      destruct T as (items & _ & Hk & _). pose proof (Read_Proof.NoDup_first_names (map fst items)) as ND. rewrite <- Hk, HI, map_app in ND. cbn [map fst] in ND.
      apply NoDup_remove_2 in ND. apply ND. apply in_or_app. right. rewrite Hg3, Hg2. apply (in_map fst) in Ha. exact Ha. }
  assert (Hfound : Factory_Spec.found (factory_ext exts) (filename f) (Ext (tw lat lon alt, opk) (Some (create_exif_cam_id e)))).
  { apply Factory_Spec.by_name. unfold factory_ext. rewrite (dget_map _ _ (fun v => Ext (fst v) (Some (snd v)))), Hexts. reflexivity. }
  assert (Hint : Factory_Spec.interior ints (Some (create_exif_cam_id e)) p) by (apply Factory_Spec.with_id; [apply cam_id_not_empty|exact Hints]).
  destruct (Factory_Proof.frame_get_right create ints (factory_ext exts) history (filename f) _ p cam Hfound Hint Hcam) as (i & G1 & G2).
  rewrite Hf in G1, G2. fold st in G1, G2. cbn [ex_pos] in G2. exists i. eexists. split; [exact G1|]. split; [exact G2|].
  assert (TR : forall v, (let '(o, p, k) := opk in turned o p k v) = rpy_world (deg roll) (deg pitch) (deg yaw) nx ny (V3 (vx v) (- vy v) (- vz v))).
  { intros v. destruct opk as [[o p'] k] eqn:Eo.
    assert (D : forall a, radians a = deg a) by (intros a; unfold radians, deg; field).
    unfold turned. rewrite <- opk_rotates. unfold opk in Eo. rewrite !D in Eo. eapply rpy_opk_world; eassumption. }
  split; [exists opk; split; [reflexivity|]; intros v; rewrite <- TR; destruct opk as [[o p'] k]; symmetry; apply turned_is|].
  intros v X HX. destruct (Hsee (tw lat lon alt) opk) as (fr & F1 & F2 & F3 & F4).
  rewrite (object_pixel _ fr (tw lat lon alt) opk v X F1 F2 F3); [rewrite F4; reflexivity|]. rewrite HX, TR. reflexivity.
Qed.

Theorem photo_pixels : forall files crs evs fac c f e history distort alpha K dist l lat lon alt roll pitch yaw nx ny,
  (forall g e', open_exif g = Ok e' -> e_filename e' = filename g) ->
  from_images files crs (ACrs l) evs = Some (Ok (fac, Some c)) ->
  In f files -> open_exif f = Ok e -> (forall g e', In g files -> filename g = filename f -> open_exif g = Ok e' -> e' = e) ->
  one_camera open_exif files e -> sees_by e K dist -> (distort = true \/ forall d tw th, ~ usable_dewarp e d tw th) ->
  e_lla e = Some (lat, lon, alt) -> e_rpy e = Some (roll, pitch, yaw) ->
  let tw lat lon alt := transform l c (V3 lon lat alt) in
  north_is lat lon alt tw nx ny -> Rabs (vx (rpy_world (deg roll) (deg pitch) (deg yaw) nx ny (V3 0 0 1))) < 1 ->
  let create := photo_camera distort alpha in
  let st := frame_run create history fac in
  exists i o, snd (frame_get create (filename f) st) = Ok i /\ nth_error (f_heap (fst (frame_get create (filename f) st))) i = Some o /\
  forall v X, vz v <> 0 -> X = vadd (transform l c (V3 lon lat alt)) (rpy_world (deg roll) (deg pitch) (deg yaw) nx ny (V3 (vx v) (- vy v) (- vz v))) ->
    snd (do_call (photo_object o) (WorldToPixel (one_point (num3 X)))) = Ok (VPixels [to_pixel K (dist (vx v / vz v, vy v / vz v))]).
Proof.
  intros files crs evs fac c f e history distort alpha K dist l lat lon alt roll pitch yaw nx ny Hnm H Hin Ho Hu Hone Hs Hd El Er.
  destruct (camera_sees e K dist distort alpha Hs Hd) as (p & cam & Hp & Hcam & Hsee).
  intros tw Hn Hg create st.
  destruct (photo_pixels_gen files crs evs fac c f e history distort alpha p cam (fun xy => to_pixel K (dist xy)) l lat lon alt roll pitch yaw nx ny Hnm H Hin Ho Hu Hone Hp Hcam Hsee El Er Hn Hg) as (i & o & G1 & G2 & _ & G3).
  exists i, o. split; [exact G1|]. split; [exact G2|]. intros v X Hv HX. rewrite (G3 v X HX). destruct (Req_EM_T (vz v) 0); [contradiction|reflexivity].
Qed.

(** Without distortion. *)
Lemma camera_undistorted : forall e alpha K fx fy cx cy k1 k2 p1 p2 k3 tagw tagh d,
  usable_dewarp e [fx; fy; cx; cy; k1; k2; p1; p2; k3] tagw tagh -> sees_by e K (opencv_distort [k1; k2; p1; p2; k3]) ->
  (k3 <> 0 /\ d = [k1; k2; p1; p2; k3] \/ k3 = 0 /\ d = [k1; k2; p1; p2]) ->
  exists p cam, interior e p /\ photo_camera false alpha p = Ok cam /\
  forall t opk, exists f, test_init (photo_object (Camera cam (Some (t, opk)))) = Ok f /\ fr_R f = extrinsic_rotation opk /\ fr_T f = t /\
    forall xy, l_fwd (active_lens f) xy = to_pixel (undistort_intrinsic (cv_undistort K d) (fst (e_im_size e)) (snd (e_im_size e)) alpha) xy.
Proof.
  intros e alpha K fx fy cx cy k1 k2 p1 p2 k3 tagw tagh d U Hs Hd.
  assert (IK : get_intrinsic (fst (e_im_size e)) (snd (e_im_size e)) [fx; fy] (Some [IZR tagw; IZR tagh]) (cx / IZR (Z.max tagw tagh)) (cy / IZR (Z.max tagw tagh)) = Ok K).
  { inversion Hs as [fx' fy' cx' cy' k1' k2' p1' p2' k3' tw th K' U' P1 P2 E1 E2 E3 E4|? ? ? ? NU|? ? ? ? NU|? ? NU]; subst; try (exfalso; eapply NU; exact U).
    destruct U as (D & _ & _ & S), U' as (D' & _ & _ & S'). rewrite D in D'. rewrite S in S'. injection D' as <- <- <- <- _ _ _ _ _. injection S' as <- <-.
    apply IZR_lt in P1, P2. cbn. f_equal. apply intr_ext; cbn; [rewrite E1; field; lra|rewrite E2; field; lra|rewrite E3; ring|rewrite E4; ring]. }
  assert (ED : opencv_dist_param k1 k2 k3 p1 p2 0 0 0 0 0 0 0 0 0 = d).
  { unfold opencv_dist_param. cbn [truncate_dist skipn firstn all_zero forallb]. destruct Hd as [[N ->]|[-> ->]]; unfold all_zero; cbn [forallb skipn firstn];
      destruct (Req_EM_T 0 0) as [_|N0]; try (exfalso; apply N0; reflexivity); try reflexivity. destruct (Req_EM_T k3 0); [contradiction|]. reflexivity. }
  do 2 eexists. split; [exact (I_dewarp e _ _ _ _ _ _ _ _ _ _ _ U)|]. split.
  - unfold Photo_Model.photo_camera. cbn [ip_type ip_w ip_h ip_focal ip_sensor ip_cx ip_cy or0 ip_dist]. rewrite IK. cbn [bind]. unfold Cam_Model.frame_init. rewrite IK. reflexivity.
  - intros t opk. eexists. split; [reflexivity|]. split; [reflexivity|]. split; [reflexivity|]. intros xy. unfold active_lens. cbn [fr_distort fr_ku fr_lens s_ku s_distort]. rewrite <- ED. reflexivity.
Qed.

Theorem photo_undistorted : forall files crs evs fac c f e history alpha K fx fy cx cy k1 k2 p1 p2 k3 tagw tagh d l lat lon alt roll pitch yaw nx ny,
  (forall g e', open_exif g = Ok e' -> e_filename e' = filename g) ->
  from_images files crs (ACrs l) evs = Some (Ok (fac, Some c)) ->
  In f files -> open_exif f = Ok e -> (forall g e', In g files -> filename g = filename f -> open_exif g = Ok e' -> e' = e) ->
  one_camera open_exif files e -> usable_dewarp e [fx; fy; cx; cy; k1; k2; p1; p2; k3] tagw tagh -> sees_by e K (opencv_distort [k1; k2; p1; p2; k3]) ->
  (k3 <> 0 /\ d = [k1; k2; p1; p2; k3] \/ k3 = 0 /\ d = [k1; k2; p1; p2]) ->
  e_lla e = Some (lat, lon, alt) -> e_rpy e = Some (roll, pitch, yaw) ->
  let tw lat lon alt := transform l c (V3 lon lat alt) in
  north_is lat lon alt tw nx ny -> Rabs (vx (rpy_world (deg roll) (deg pitch) (deg yaw) nx ny (V3 0 0 1))) < 1 ->
  let create := photo_camera false alpha in
  let st := frame_run create history fac in
  exists i o, snd (frame_get create (filename f) st) = Ok i /\ nth_error (f_heap (fst (frame_get create (filename f) st))) i = Some o /\
  forall v X, vz v <> 0 -> X = vadd (transform l c (V3 lon lat alt)) (rpy_world (deg roll) (deg pitch) (deg yaw) nx ny (V3 (vx v) (- vy v) (- vz v))) ->
    snd (do_call (photo_object o) (WorldToPixel (one_point (num3 X)))) =
    Ok (VPixels [to_pixel (undistort_intrinsic (cv_undistort K d) (fst (e_im_size e)) (snd (e_im_size e)) alpha) (vx v / vz v, vy v / vz v)]).
Proof.
  intros files crs evs fac c f e history alpha K fx fy cx cy k1 k2 p1 p2 k3 tagw tagh d l lat lon alt roll pitch yaw nx ny Hnm H Hin Ho Hu Hone U Hs Hd El Er tw Hn Hg create st.
  destruct (camera_undistorted e alpha K fx fy cx cy k1 k2 p1 p2 k3 tagw tagh d U Hs Hd) as (p & cam & Hp & Hcam & Hsee).
  destruct (photo_pixels_gen files crs evs fac c f e history false alpha p cam _ l lat lon alt roll pitch yaw nx ny Hnm H Hin Ho Hu Hone Hp Hcam Hsee El Er Hn Hg) as (i & o & G1 & G2 & _ & G3).
  exists i, o. split; [exact G1|]. split; [exact G2|]. intros v X Hv HX. rewrite (G3 v X HX). destruct (Req_EM_T (vz v) 0); [contradiction|reflexivity].
Qed.

(** Success. *)
Theorem photo_success : forall files crs l evs, complete files evs ->
  (crs = NoCrs \/ exists c, crs = ACrs c /\ is_projected c = true) -> is_geographic l = true ->
  (forall f, In f files -> exists e lla rpy p, open_exif f = Ok e /\ e_lla e = Some lla /\ e_rpy e = Some rpy /\ interior e p /\ single (e_focal_len e) /\ single (e_focal_len_35 e)) ->
  exists fac c, from_images files crs (ACrs l) evs = Some (Ok (fac, c)).
Proof.
  intros files crs l evs Hc Hcrs Hl Hall. destruct (reader_ends files crs (ACrs l) evs Hc) as (out & Ho). unfold Photo_Model.from_images. rewrite Ho.
  pose proof (reader_is_made _ _ _ _ _ Ho) as M.
  assert (NE : forall x, ~ tags_read files (Err x)).
  { intros x (b & f & a & x' & -> & _ & Hx & _). destruct (Hall f ltac:(apply in_or_app; right; left; reflexivity)) as (e & ? & ? & ? & He & _). rewrite He in Hx. discriminate. }
  destruct out as [r|x].
  - destruct (made_crs _ _ _ _ _ Ho) as (T & G). destruct G as [[G _]|(l' & G & _ & Hl')]; [discriminate|]. injection G as <-.
    assert (Hex : forall n e, In (n, e) (xr_exifs r) -> exists lla rpy p, e_lla e = Some lla /\ e_rpy e = Some rpy /\ interior e p /\ single (e_focal_len e) /\ single (e_focal_len_35 e)).
    { intros n e Hin. destruct (tags_from _ _ _ _ T Hin) as (f & Hf & _ & Hof). destruct (Hall f Hf) as (e' & lla & rpy & p & H1 & H2). rewrite Hof in H1. injection H1 as <-. eauto. }
    assert (EI : exists ints, exif_read_int (xr_exifs r) = Ok ints).
    { unfold exif_read_int. assert (exists items, mapM (fun kv => read_exif_int_param (snd kv)) (xr_exifs r) = Ok items) as (items & ->); [|eexists; reflexivity].
      clear - Hex. induction (xr_exifs r) as [|[n e] d IH]; [eexists; reflexivity|]. cbn [mapM snd]. destruct (Hex n e (or_introl eq_refl)) as (_ & _ & p & _ & _ & Hp & S1 & S2).
      rewrite (proj2 (exif_precedence e _ p S1 S2) (conj Hp eq_refl)). cbn [bind]. destruct IH as (items & ->); [intros n' e' Hi; apply (Hex n' e'); right; exact Hi|]. eexists. reflexivity. }
    destruct EI as (ints & ->). cbn [bind].
    assert (EE : exists exts, exif_read_ext _ (to_world C transform r) (xr_exifs r) = Ok exts).
    { apply Tags_Proof.exterior_iff. intros n e Hin. destruct (Hex n e Hin) as (lla & rpy & _ & H1 & H2 & _). exists lla, rpy. 
      assert (exists c, xr_crs r = Some c) as (c & Ec).
      { clear - M Hin. inversion M; subst; cbn in *; eauto. contradiction. }
      unfold to_world. rewrite Hl', Ec. destruct lla as [[? ?] ?], rpy as [[? ?] ?]. eexists. auto. }
    destruct EE as (exts & ->). cbn [bind]. eauto.
  - exfalso. inversion M as [B|B|? ? ? ? ? B| | | |? ? ? ? ? ? B B1 B2]; subst.
    + destruct Hcrs as [->|(c & -> & Hc')]; [apply (B None); left; auto|apply (B (Some c)); right; exists c; auto].
    + apply (B (Some l)). right. exists l. auto.
    + apply (NE x), B.
    + destruct (tags_from _ _ _ _ B B1) as (f & Hf & _ & Hof). destruct (Hall f Hf) as (e' & lla & rpy & p & H1 & H2 & _). rewrite Hof in H1. injection H1 as <-. congruence.
Qed.

(** And it needs all of that. *)
Lemma reader_error : forall files crs lla x out, reader_made files crs lla (Err x) -> reader_made files crs lla out -> out = Err x.
Proof.
  assert (U : forall files a b, tags_read files a -> tags_read files b -> a = b) by (intros files a b A B; exact (Read_Proof.reads_as_unique _ _ _ _ _ _ _ A B)).
  assert (P : forall exifs ps name (e : exif), Forall2 (fun (kv : string * exif) p => e_lla (snd kv) = Some p) exifs ps -> In (name, e) exifs -> e_lla e = None -> False).
  { intros exifs ps name e Hf Hin He. induction Hf as [|kv p exifs ps Hk _ IH]; [destruct Hin|]. destruct Hin as [->|Hin]; [cbn in Hk; congruence|exact (IH Hin)]. }
  assert (N : crs_given is_projected NoCrs None) by (left; split; reflexivity).
  intros files crs lla x out A B. inversion A as [A1|A1|o l x' A1 A2 A3| | | |l exifs name e A1 A2 A3 A4 A5]; subst; inversion B; subst; try reflexivity;
    try solve [exfalso; match goal with H : forall o, ~ _ |- _ => eapply H; eassumption end];
    try solve [match goal with H1 : tags_read files ?a, H2 : tags_read files ?b |- _ => pose proof (U _ _ _ H1 H2) as Q; congruence end];
    try solve [exfalso; match goal with H : forall o, ~ crs_given is_projected NoCrs o |- _ => exact (H None N) end].
  - exfalso. match goal with H : crs_given _ NoCrs (Some _) |- _ => destruct H as [[_ Q]|(q & Q & _)]; discriminate Q end.
  - pose proof (U _ _ _ A3 H1) as Q. injection Q as ->. destruct A4.
  - pose proof (U _ _ _ A3 H1) as Q. injection Q as ->. exfalso. eapply P; eassumption.
Qed.

Theorem photo_errors : forall files crs lla evs x, complete files evs -> reader_made files crs lla (Err x) -> from_images files crs lla evs = Some (Err x).
Proof.
  intros files crs lla evs x Hc M. destruct (reader_ends files crs lla evs Hc) as (out & Ho). unfold Photo_Model.from_images. rewrite Ho.
  rewrite (reader_error _ _ _ _ _ M (reader_is_made _ _ _ _ _ Ho)). reflexivity.
Qed.

Theorem photo_needs : forall files crs lla evs fac c f e, from_images files crs lla evs = Some (Ok (fac, c)) -> In f files -> open_exif f = Ok e ->
  (forall g e', In g files -> filename g = filename f -> open_exif g = Ok e' -> e' = e) ->
  (exists lla, e_lla e = Some lla) /\ (exists rpy, e_rpy e = Some rpy) /\ (single (e_focal_len e) -> single (e_focal_len_35 e) -> exists p, interior e p) /\ (exists w, c = Some w).
Proof.
  intros files crs lla evs fac c f e H Hin Ho Hu. unfold Photo_Model.from_images in H. destruct (exif_reader files crs lla evs) as [[r|]|] eqn:Ex; try discriminate. injection H as H.
  destruct (exif_read_int (xr_exifs r)) as [ints|] eqn:Ei; [|discriminate]. cbn [bind] in H.
  destruct (exif_read_ext _ (to_world C transform r) (xr_exifs r)) as [exts|] eqn:Ee; [|discriminate]. cbn [bind] in H. injection H as _ <-.
  destruct (made_crs _ _ _ _ _ Ex) as (T & _). pose proof (dget_In _ _ _ (tags_all _ _ _ _ T Hin Ho Hu)) as HI.
  destruct (proj1 (Tags_Proof.exterior_iff _ (to_world C transform r) (xr_exifs r)) (ex_intro _ _ Ee) _ _ HI) as (l & a & x & H1 & H2 & H3).
  split; [eauto|]. split; [eauto|]. split.
  - intros S1 S2. apply exif_items in Ei. destruct Ei as (items & Hi & _).
    assert (exists q, read_exif_int_param e = Ok q) as ([id p] & Hq).
    { clear - Hi HI. induction Hi as [|[k e'] q l l' Hx _ IH]; [contradiction|]. destruct HI as [E|HI]; [injection E as _ ->; eauto|auto]. }
    apply exif_precedence in Hq; [|assumption|assumption]. exists p. apply Hq.
  - unfold to_world in H3. destruct (xr_lla_crs r); [|discriminate]. destruct (xr_crs r); [eauto|discriminate].
Qed.
End Photo.

Definition at_lon (lon : R) : exif := Exif "" (300, 400)%Z None None None None None TNone TNone None (Some (10, lon, 0)) None None.
Theorem meridian_lost : exists (files : list bool) (filename : bool -> string) open_exif evs r,
  exif_reader Z (fun _ => true) (fun _ => true) (fun z => z) bool filename open_exif files NoCrs (ACrs 4979%Z) evs = Some (Ok r) /\
  xr_crs r = Some (32600 + 31)%Z /\
  forall f e lat lon alt, In f files -> open_exif f = Ok e -> e_lla e = Some (lat, lon, alt) -> ~ in_zone 31 lon /\ (in_zone 60 lon \/ in_zone 1 lon).
Proof.
  exists [true; false], (fun b : bool => if b then "a" else "b"), (fun b : bool => Ok (at_lon (if b then 179 else -179))), [Finish 0; Finish 1; Collect; Collect; Collect].
  eexists. split; [|split].
  - unfold exif_reader. replace (read_exif _ _ _ _) with (Some (Ok [("a", at_lon 179); ("b", at_lon (-179))])) by reflexivity. reflexivity.
  - cbn [xr_crs]. apply f_equal. change (Z.add 32600 31) with 32631%Z. eapply utm_unique; [apply utm_code_of|].
    exists 31%Z. split; [lia|]. unfold Rpc_Model.mean, Rpc_Model.sum. cbn. split; [exists 0%Z; lra|]. split; [reflexivity|intros; lra].
  - intros f e lat lon alt _ He Hl. injection He as <-. cbn in Hl. assert (lon = if f then 179 else -179) by congruence. subst lon. destruct f; split.
    + intros (t & H). assert (A : IZR t < IZR 0) by lra. assert (B : IZR (-1) < IZR t) by lra. apply lt_IZR in A, B. lia.
    + left. exists 0%Z. lra.
    + intros (t & H). assert (A : IZR t < IZR 1) by lra. assert (B : IZR 0 < IZR t) by lra. apply lt_IZR in A, B. lia.
    + right. exists 0%Z. lra.
Qed.
