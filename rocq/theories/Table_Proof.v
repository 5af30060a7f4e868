(** Proofs for Table_Props (C103). *)
From Coq Require Import String List Reals QArith Qreals ZArith Bool Lia.
From Verif Require Import Py Py_Proof Flt Mat Remap_Model Frame_Model Frame_Spec Undist_Model Validate_Model Params_Model Params_Spec Factory_Model Cam_Model Cam_Spec Rpc_Model Rcam_Model Proj_Spec
  Make_Model Make_Spec Csv_Model Csv_Spec Csv_Proof Read_Spec Read_Proof Scene_Model Scene_Spec Scene_Proof SceneDoc_Proof Table_Model Table_Spec.
From Verif Require Factory_Spec Factory_Proof Exif_Proof.
Import ListNotations.
Open Scope string_scope.
Open Scope list_scope.

(** * Entries *)
Definition q3_vec (t : Q * Q * Q) : vec := let '(x, y, z) := t in V3 (Q2R x) (Q2R y) (Q2R z).
Definition item_shot (ne : string * csv_ext) : shot :=
  let o := q3_vec (ce_opk (snd ne)) in Shot (fst ne) (ce_camera (snd ne)) (q3_vec (ce_xyz (snd ne))) (vx o) (vy o) (vz o).

Lemma entry_shot : forall ne, shot_entry (fst ne, csv_entry (snd ne)) (item_shot ne).
Proof.
  intros [n [[[x y] z] [[o p] k] cam]]. unfold shot_entry, csv_entry, item_shot. cbn. split; [reflexivity|]. split; [|split].
  - destruct cam; [reflexivity|right; reflexivity].
  - split; (eexists; split; [reflexivity|]); eexists; (split; [left; reflexivity|]); repeat constructor.
  - intros id. unfold has_id. cbn. destruct id, cam; cbn; try (intros [X|X]; discriminate X); try (intros X; discriminate X); try (intros X; injection X as ->; reflexivity). reflexivity.
Qed.

Lemma entries_shots : forall d, Forall2 shot_entry (map (fun ne => (fst ne, csv_entry (snd ne))) d) (map item_shot d).
Proof. induction d as [|ne d IH]; cbn; constructor; [apply entry_shot|exact IH]. Qed.

Lemma last_named_split : forall V k v (l : list (string * V)), last_named k l = Some v <-> exists a b, l = a ++ (k, v) :: b /\ ~ In k (map fst b).
Proof.
  intros V k v l. split.
  - induction l as [|[k' v'] l IH]; cbn; [discriminate|]. destruct (last_named k l) as [w|] eqn:E.
    + intros X. destruct (IH X) as (a & b & -> & N). exists ((k', v') :: a), b. auto.
    + destruct (String.eqb_spec k k') as [->|]; [|discriminate]. intros [= ->]. exists [], l. split; [reflexivity|]. intros X. destruct (Exif_Proof.last_named_In _ _ _ X). congruence.
  - intros (a & b & -> & N). assert (Hn : last_named k b = None).
    { destruct (last_named k b) as [w|] eqn:E; [|reflexivity]. apply Exif_Proof.last_named_some, (in_map fst) in E. contradiction. }
    induction a as [|[k' v'] a IH]; cbn; [rewrite Hn, String.eqb_refl; reflexivity|]. rewrite IH. reflexivity.
Qed.

Lemma finals_dict : forall items, finals (map item_shot items) (map item_shot (dict_of items)).
Proof.
  intros items. assert (N : NoDup (map fst (dict_of items))) by (rewrite dict_of_names; apply NoDup_first_names). split.
  - rewrite map_map. exact N.
  - intros s. rewrite in_map_iff. split.
    + intros ([k e] & <- & Hin). apply (dget_of_In _ _ _ _ N) in Hin. rewrite dict_of_last in Hin. apply last_named_split in Hin. destruct Hin as (a & b & -> & Nb).
      exists (map item_shot a), (map item_shot b). rewrite map_app. split; [reflexivity|]. rewrite map_map. exact Nb.
    + intros (a & b & E & Nb). destruct (map_eq_app _ _ _ _ E) as (l1 & l2 & -> & <- & E2). destruct l2 as [|[k e] l2]; [discriminate|]. cbn in E2. injection E2 as <- <-.
      exists (k, e). split; [reflexivity|]. apply dget_In. rewrite dict_of_last. apply last_named_split. exists l1, l2. split; [reflexivity|]. rewrite map_map in Nb. exact Nb.
Qed.

Lemma same_shots : forall l l', (forall s, In s l <-> In s l') ->
  (forall n s, shot_of l n s <-> shot_of l' n s) /\ (forall s i acts, kept l s i acts -> kept l' s i acts).
Proof.
  assert (G : forall l l', (forall s, In s l <-> In s l') -> forall n s, shot_of l n s -> shot_of l' n s).
  { intros l l' H n s [(Hin & E)|st Hno Hst (Hin & E)]; [left; split; [apply H; exact Hin|exact E]|].
    apply (same_stem _ _ _ st); [|exact Hst|split; [apply H; exact Hin|exact E]]. intros s' (Hin' & E'). apply (Hno s'). split; [apply H; exact Hin'|exact E']. }
  intros l l' H. assert (H' : forall s, In s l' <-> In s l) by (intros s; symmetry; apply H). split; [intros n s; split; apply G; assumption|].
  intros s i acts (K1 & K2). split; [|exact K2]. intros n s' Hin Hs. apply (K1 n s' Hin). exact (G _ _ H' _ _ Hs).
Qed.

(** * Rows *)
Section Rows.
Variable pyfloat : string -> res Q.
Variable C : Type.
Variable epsg : Z -> C.
Variables is_projected is_geographic : C -> bool.
Variable prj_of : string -> prj C.
Variable radians : Q -> Q.
Variable transform : C -> C -> Q * Q * Q -> Q * Q * Q.
Variable rpy_to_opk : C -> C -> Q * Q * Q -> Q * Q * Q -> Q * Q * Q.
Notation read_table := (read_table pyfloat C radians transform rpy_to_opk).
Notation row_shot := (row_shot pyfloat C radians transform rpy_to_opk).

Lemma conversions_model : forall c l, conversions C transform rpy_to_opk c l (lla_world C transform l c) (world_lla C transform l c) (rpy_to_opk c l).
Proof. intros c l. split; [reflexivity| |reflexivity]. intros p lat lon alt E. unfold world_lla. rewrite E. reflexivity. Qed.

Lemma item_gives : forall from to rpy crs lla inrad fmt fields row item,
  (fmt = XyzOpk \/ exists c l, crs = Some c /\ lla = Some l /\ conversions C transform rpy_to_opk c l from to rpy) ->
  row_gives pyfloat radians from to rpy inrad fmt fields row (fst item) (snd item) -> row_shot crs lla inrad fmt fields row (item_shot item).
Proof.
  intros from to rpy crs lla inrad fmt fields row [n [[[x y] z] [[o p] k] cam]] Hc H. exists from, to, rpy. eexists. split; [exact Hc|]. split; [exact H|]. repeat split.
Qed.

Lemma F2_map : forall A B B' (P : A -> B -> Prop) (Q : A -> B' -> Prop) f l m, (forall a b, P a b -> Q a (f b)) -> Forall2 P l m -> Forall2 Q l (map f m).
Proof. intros A B B' P Q f l m H F. induction F; cbn; constructor; auto. Qed.

Theorem table_rows : forall rd inrad rows d, NoDup (rd_fields rd) -> read_table rd inrad rows = Ok d ->
  exists items, d = dict_of items /\ Forall2 (row_shot (rd_crs rd) (rd_lla_crs rd) inrad (rd_format rd) (rd_fields rd)) (if rd_header rd then tl rows else rows) (map item_shot items).
Proof.
  intros rd inrad rows d N H.
  assert (G : forall from to rpy, (rd_format rd = XyzOpk \/ exists c l, rd_crs rd = Some c /\ rd_lla_crs rd = Some l /\ conversions C transform rpy_to_opk c l from to rpy) ->
    read_ext_param pyfloat C radians from to rpy rd inrad rows = Ok d -> exists items, d = dict_of items /\
    Forall2 (row_shot (rd_crs rd) (rd_lla_crs rd) inrad (rd_format rd) (rd_fields rd)) (if rd_header rd then tl rows else rows) (map item_shot items)).
  { intros from to rpy Hc E. unfold read_ext_param in E. assert (Hd : data_rows (rd_header rd) rows = Ok (if rd_header rd then tl rows else rows)).
    { unfold data_rows in *. destruct (rd_header rd); [|reflexivity]. destruct rows; [discriminate|reflexivity]. }
    rewrite Hd in E. cbn [bind] in E. destruct (mapM _ _) as [items|] eqn:Em; [|discriminate]. injection E as <-. apply mapM_Ok in Em. exists items. split; [reflexivity|].
    eapply F2_map; [|exact Em]. intros row [n e] Hr. cbn in Hr. apply read_row_gives in Hr; [|exact N]. eapply item_gives; [exact Hc|exact Hr]. }
  unfold Table_Model.read_table in H.
  assert (P : match rd_format rd with
    | XyzOpk => read_ext_param pyfloat C radians (fun x => x) (fun x => x) (fun a _ => a) rd inrad rows
    | _ => do rows <- data_rows (rd_header rd) rows;
           do items <- mapM (fun row => do _ <- read_row pyfloat radians (fun x => x) (fun x => x) (fun a _ => a) (rd_format rd) inrad (rd_fields rd) row; Err ExternalError) rows;
           Ok (dict_of items) end = Ok d -> exists items, d = dict_of items /\
    Forall2 (row_shot (rd_crs rd) (rd_lla_crs rd) inrad (rd_format rd) (rd_fields rd)) (if rd_header rd then tl rows else rows) (map item_shot items)).
  { intros E. assert (Emp : (do rows <- data_rows (rd_header rd) rows;
           do items <- mapM (fun row => do _ <- read_row pyfloat radians (fun x => x) (fun x => x) (fun a _ => a) (rd_format rd) inrad (rd_fields rd) row; Err ExternalError) rows;
           Ok (dict_of items)) = Ok d -> exists items, d = dict_of items /\
      Forall2 (row_shot (rd_crs rd) (rd_lla_crs rd) inrad (rd_format rd) (rd_fields rd)) (if rd_header rd then tl rows else rows) (map item_shot items)).
    { intros E'. assert (Hd : data_rows (rd_header rd) rows = Ok (if rd_header rd then tl rows else rows)).
      { unfold data_rows in *. destruct (rd_header rd); [|reflexivity]. destruct rows; [discriminate|reflexivity]. }
      rewrite Hd in E'. cbn [bind] in E'. destruct (if rd_header rd then tl rows else rows) as [|row r]; [cbn in E'; injection E' as <-; exists []; split; [reflexivity|constructor]|].
      cbn [mapM] in E'. destruct (read_row _ _ _ _ _ _ _ _ row); discriminate E'. }
    destruct (rd_format rd) eqn:Ef; try (apply Emp; exact E). eapply G; [left; reflexivity|exact E]. }
  destruct (rd_crs rd) as [c|] eqn:Ec; [destruct (rd_lla_crs rd) as [l|] eqn:El|]; [|apply P; exact H|apply P; exact H].
  eapply G; [|exact H]. right. exists c, l. split; [reflexivity|]. split; [reflexivity|]. apply conversions_model.
Qed.

(** What a row gives does not depend on the conversions that it does not use. *)
Lemma gives_row : forall from to rpy from' to' rpy' inrad fmt fields row name e,
  (fmt = XyzOpk \/ ((forall l, from l = from' l) /\ (forall x, to x = to' x) /\ forall a l, rpy a l = rpy' a l)) ->
  row_gives pyfloat radians from to rpy inrad fmt fields row name e -> row_gives pyfloat radians from' to' rpy' inrad fmt fields row name e.
Proof.
  intros from to rpy from' to' rpy' inrad fmt fields row name e Hc (H1 & H2 & H3 & H4). split; [exact H1|]. split; [exact H2|]. split; [|exact H4]. clear H1 H2 H4.
  destruct Hc as [->|(F & T & A)].
  - inversion H3; subst. constructor; assumption.
  - inversion H3; subst; rewrite ?F, ?A, ?T; constructor; assumption.
Qed.

Lemma row_shot_unique : forall crs lla inrad fmt fields row s s', NoDup fields -> row_shot crs lla inrad fmt fields row s -> row_shot crs lla inrad fmt fields row s' -> s = s'.
Proof.
  intros crs lla inrad fmt fields row s s' N (from & to & rpy & e & Hc & Hg & P1 & P2 & P3) (from' & to' & rpy' & e' & Hc' & Hg' & P1' & P2' & P3').
  assert (X : (sh_name s, e) = (sh_name s', e')).
  { enough (Hg2 : row_gives pyfloat radians from' to' rpy' inrad fmt fields row (sh_name s) e).
    { apply read_row_gives in Hg2; [|exact N]. apply read_row_gives in Hg'; [|exact N]. congruence. }
    eapply gives_row; [|exact Hg]. destruct Hc as [Hc|(c & l & E1 & E2 & Cv)]; [left; exact Hc|]. destruct Hc' as [Hc'|(c' & l' & E1' & E2' & Cv')]; [left; exact Hc'|].
    assert (c' = c) by congruence. assert (l' = l) by congruence. subst c' l'. right. split; [|split].
    - intros [[lat lon] alt]. rewrite (to_world _ _ _ _ _ _ _ _ Cv), (to_world _ _ _ _ _ _ _ _ Cv'). reflexivity.
    - intros x. destruct (transform c l x) as [[a b] z] eqn:Et. rewrite (from_world _ _ _ _ _ _ _ _ Cv x b a z Et), (from_world _ _ _ _ _ _ _ _ Cv' x b a z Et). reflexivity.
    - intros a x. rewrite (angles _ _ _ _ _ _ _ _ Cv), (angles _ _ _ _ _ _ _ _ Cv'). reflexivity. }
  injection X as En <-. destruct (ce_xyz e) as [[x y] z], (ce_opk e) as [[o p] k]. cbn in P1, P2, P1', P2'. destruct s as [n id pos so sp sk], s' as [n' id' pos' so' sp' sk']. cbn in *.
  injection P2 as -> -> ->. injection P2' as -> -> ->. subst. reflexivity.
Qed.

Lemma row_shots_unique : forall crs lla inrad fmt fields rows l l', NoDup fields -> Forall2 (row_shot crs lla inrad fmt fields) rows l -> Forall2 (row_shot crs lla inrad fmt fields) rows l' -> l = l'.
Proof.
  intros crs lla inrad fmt fields rows l l' N F. revert l'. induction F as [|row s rows l H F IH]; intros l' F'; inversion F' as [|? s' ? l2 H' F2]; subst; [reflexivity|].
  rewrite (row_shot_unique _ _ _ _ _ _ _ _ N H H'), (IH _ F2). reflexivity.
Qed.

Theorem table_reads : forall rd inrad rows, NoDup (rd_fields rd) -> (rd_header rd = true -> rows <> []) ->
  Forall (fun row => exists s, row_shot (rd_crs rd) (rd_lla_crs rd) inrad (rd_format rd) (rd_fields rd) row s) (if rd_header rd then tl rows else rows) ->
  exists d, read_table rd inrad rows = Ok d.
Proof.
  intros rd inrad rows N Hh F.
  assert (Hd : data_rows (rd_header rd) rows = Ok (if rd_header rd then tl rows else rows)).
  { unfold data_rows. destruct (rd_header rd); [|reflexivity]. destruct rows; [contradiction (Hh eq_refl eq_refl)|reflexivity]. }
  assert (G : forall from to rpy,
    (forall row s, row_shot (rd_crs rd) (rd_lla_crs rd) inrad (rd_format rd) (rd_fields rd) row s -> exists n e, row_gives pyfloat radians from to rpy inrad (rd_format rd) (rd_fields rd) row n e) ->
    exists d, read_ext_param pyfloat C radians from to rpy rd inrad rows = Ok d).
  { intros from to rpy Hr. unfold read_ext_param. rewrite Hd. cbn [bind]. clear Hd.
    assert (X : exists items, mapM (read_row pyfloat radians from to rpy (rd_format rd) inrad (rd_fields rd)) (if rd_header rd then tl rows else rows) = Ok items).
    { induction F as [|row l (s & Hs) F IH]; [exists []; reflexivity|]. destruct IH as (items & E). destruct (Hr row s Hs) as (n & e & Hg). apply read_row_gives in Hg; [|exact N].
      exists ((n, e) :: items). cbn [mapM]. rewrite Hg. cbn [bind]. rewrite E. reflexivity. }
    destruct X as (items & ->). eexists. reflexivity. }
  unfold Table_Model.read_table. destruct (rd_crs rd) as [c|] eqn:Ec; [destruct (rd_lla_crs rd) as [l|] eqn:El|].
  - apply G. intros row s (from & to & rpy & e & Hc & Hg & _). exists (sh_name s), e. eapply gives_row; [|exact Hg]. destruct Hc as [Hc|(c' & l' & E1 & E2 & Cv)]; [left; exact Hc|]. injection E1 as <-. injection E2 as <-. right.
    split; [intros [[lat lon] alt]; apply (to_world _ _ _ _ _ _ _ _ Cv)|]. split; [|intros a l'; apply (angles _ _ _ _ _ _ _ _ Cv)].
    intros x. unfold world_lla. destruct (transform c l x) as [[a b] z] eqn:Et. apply (from_world _ _ _ _ _ _ _ _ Cv), Et.
  - destruct (rd_format rd) eqn:Ef; [apply G; intros row s (from & to & rpy & e & Hc & Hg & _); exists (sh_name s), e; eapply gives_row; [left; reflexivity|exact Hg]| | |];
      (rewrite Hd; cbn [bind]; destruct (if rd_header rd then tl rows else rows) as [|row r]; [eexists; reflexivity|]; exfalso; inversion F as [|? ? (s & from & to & rpy & e & [X|(c' & l' & _ & X & _)] & _) _]; discriminate X).
  - destruct (rd_format rd) eqn:Ef; [apply G; intros row s (from & to & rpy & e & Hc & Hg & _); exists (sh_name s), e; eapply gives_row; [left; reflexivity|exact Hg]| | |];
      (rewrite Hd; cbn [bind]; destruct (if rd_header rd then tl rows else rows) as [|row r]; [eexists; reflexivity|]; exfalso; inversion F as [|? ? (s & from & to & rpy & e & [X|(c' & l' & X & _)] & _) _]; discriminate X).
Qed.
End Rows.

(** * Pixels *)
Section Table.
Variable cv_surf : string -> arr fl -> fl * fl -> option fl.
Variable cast_nan : string -> fl.
Variable cv_image : string -> arr pix -> fl * fl -> option pix.
Variable convert : string -> string -> pix -> pix.
Variable cv_project cv_undistort fish_undistort : intr -> list R -> R * R -> R * R.
Hypothesis cv_projects : forall K d xy b, In (List.length d) [4; 5; 8; 12; 14]%nat -> opencv_distorts (cv_coefs d) xy b -> num2 (cv_project K d xy) = to_pixel K b.
Hypothesis cv_undistorts : forall K d d' p, In (List.length d) [4; 5; 8; 12; 14]%nat -> In (List.length d') [4; 5; 8; 12; 14]%nat ->
  (forall k, cv_coefs d k = cv_coefs d' k) -> cv_undistort K d p = cv_undistort K d' p.
Variable C : Type.
Variable from_string : string -> res C.
Variable rpc_crs : C.
Variable O : Type.
Variable no_options : O.
Variable warp : C -> C -> list vec -> list vec.
Notation scene_get := (scene_get cv_surf cast_nan cv_image convert cv_project cv_undistort fish_undistort C from_string rpc_crs O no_options warp).
Notation scene_use := (scene_use cv_surf cast_nan cv_image convert C O).
Notation scene_run := (scene_run cv_surf cast_nan cv_image convert cv_project cv_undistort fish_undistort C from_string rpc_crs O no_options warp).
Variable pyfloat : string -> res Q.
Variable epsg : Z -> C.
Variables is_projected is_geographic : C -> bool.
Variable prj_of : string -> prj C.
Variable radians : Q -> Q.
Variable transform : C -> C -> Q * Q * Q -> Q * Q * Q.
Variable rpy_to_opk : C -> C -> Q * Q * Q -> Q * Q * Q -> Q * Q * Q.
Notation table_factory := (table_factory pyfloat C epsg is_projected is_geographic prj_of radians transform rpy_to_opk O).
Notation csv_init := (csv_init pyfloat C epsg is_projected is_geographic prj_of).
Notation row_shot := (row_shot pyfloat C radians transform rpy_to_opk).

Notation do_call := (do_call cv_surf cast_nan cv_image convert).

Lemma entries_image_full : forall ints exts cams shots kwargs name s c before,
  Forall2 camera_entry ints cams -> NoDup (map fst ints) -> Forall2 shot_entry exts shots -> NoDup (map fst exts) -> options kwargs true ->
  shot_of shots name s -> camera_of cams s c -> usable c ->
  exists i, let st := scene_run before (scene_init C O ints exts kwargs) in
  snd (scene_get name st) = Ok i /\
  forall later, kept shots s i later -> keeps_distortion (before ++ later) ->
  exists cam, nth_error (sc_heap C O (scene_run later (fst (scene_get name st)))) i = Some (MadeFrame cam) /\ s_distort (fc_st cam) = true /\ fc_w cam = in_w c /\ fc_h cam = in_h c /\
  let pixel X q := snd (do_call cam (WorldToPixel (one_point (num3 X)))) = Ok (VPixels [q]) in
  (forall X, beside (sh_pos s) (sh_omega s) (sh_phi s) (sh_kappa s) X -> pixel X (Nan, Nan)) /\
  (forall X q, images c (sh_pos s) (sh_omega s) (sh_phi s) (sh_kappa s) X q -> pixel X q).
Proof.
  intros ints exts cams shots kwargs name s c before Fi Ni Fe Ne Ho Hs Hc U.
  destruct (shot_found exts shots name s Fe Ne Hs) as (e & m & Hf & (_ & Hid & Hpose & _)). destruct (camera_found ints cams s c Fi Ni Hc) as (y & p & Hy & Ep & Hint).
  destruct (camera_described y c kwargs true Hy Ho) as (p' & kw & a & Ep' & Em & Hd). assert (p' = p) by congruence. subst p'. cbn [snd] in Hid, Hpose.
  destruct (scene_images_full cv_surf cast_nan cv_image convert cv_project cv_undistort fish_undistort C from_string rpc_crs O no_options warp cv_projects cv_undistorts
    ints exts kwargs name e (sh_id s) p kw c (None, None) a _ _ _ _ before Hf Hid Hint Hpose Em Hd U eq_refl) as (i & Eg & H).
  exists i. cbv zeta in *. split; [exact Eg|]. intros later (K1 & K2) Kd. apply H; [|exact Kd]. split; [|exact K2].
  intros n e' id' Hin Hf' Hid'. destruct (found_shot exts shots n e' Fe Ne Hf') as (s' & m' & Hs' & (_ & _ & _ & Huniq)). cbn [snd] in Huniq. rewrite (Huniq id' Hid'). exact (K1 n s' Hin Hs').
Qed.

Theorem table_image_full : forall doc crs lla_crs fields path header rows in_radians kwargs rd f world cams,
  cameras_in doc cams -> options kwargs true -> csv_init crs lla_crs fields path header rows = Ok rd -> NoDup (rd_fields rd) ->
  table_factory doc crs lla_crs fields path header rows in_radians kwargs = Ok (f, world) ->
  world = rd_crs rd /\
  forall shots l, Forall2 (row_shot (rd_crs rd) (rd_lla_crs rd) in_radians (rd_format rd) (rd_fields rd)) (if header then tl rows else rows) shots -> finals shots l ->
  forall name s c before, shot_of l name s -> camera_of cams s c -> usable c ->
  exists i, let st := scene_run before f in
  snd (scene_get name st) = Ok i /\
  forall later, kept l s i later -> keeps_distortion (before ++ later) ->
  exists cam, nth_error (sc_heap C O (scene_run later (fst (scene_get name st)))) i = Some (MadeFrame cam) /\ s_distort (fc_st cam) = true /\ fc_w cam = in_w c /\ fc_h cam = in_h c /\
  let pixel X q := snd (do_call cam (WorldToPixel (one_point (num3 X)))) = Ok (VPixels [q]) in
  (forall X, beside (sh_pos s) (sh_omega s) (sh_phi s) (sh_kappa s) X -> pixel X (Nan, Nan)) /\
  (forall X q, images c (sh_pos s) (sh_omega s) (sh_phi s) (sh_kappa s) X q -> pixel X q).
Proof.
  intros doc crs lla_crs fields path header rows inrad kwargs rd f world cams Hc Ho Hr N H. destruct (cameras_read _ _ Hc) as (ints & Ei & Fi & Ni).
  unfold Table_Model.table_factory in H. rewrite Ei, Hr in H. cbn [bind] in H. destruct (read_table _ _ _ _ _ rd inrad rows) as [d|] eqn:Et; [|discriminate]. cbn [bind] in H. injection H as <- <-.
  split; [reflexivity|]. destruct (table_rows _ _ _ _ _ rd inrad rows d N Et) as (items & -> & F).
  assert (Eh : rd_header rd = header).
  { clear -Hr. unfold Csv_Model.csv_init in Hr. destruct (parse_crs C is_projected crs) as [o1|]; [|discriminate]. cbn [bind] in Hr. destruct (parse_crs C is_geographic lla_crs) as [o2|]; [|discriminate]. cbn [bind] in Hr.
    destruct (parse_file _ _ _) as [[names fmt]|]; [|discriminate]. cbn [bind] in Hr. destruct (match o1 with Some c => _ | None => _ end) as [o3|]; [|discriminate]. cbn [bind] in Hr. injection Hr as <-. reflexivity. }
  rewrite Eh in F. intros shots l F' (_ & Fl) name s c before Hs Hcam U. rewrite (row_shots_unique _ _ _ _ _ _ _ _ _ _ _ _ _ N F' F) in Fl. destruct (finals_dict items) as (_ & Fd).
  assert (Hl : forall s, In s l <-> In s (map item_shot (dict_of items))) by (intros s0; rewrite Fl, Fd; reflexivity).
  destruct (same_shots l (map item_shot (dict_of items)) Hl) as (Hso & Hk). apply Hso in Hs.
  cut (exists i, let st := scene_run before (scene_init C O ints (map (fun ne => (fst ne, csv_entry (snd ne))) (dict_of items)) kwargs) in
    snd (scene_get name st) = Ok i /\
    forall later, kept (map item_shot (dict_of items)) s i later -> keeps_distortion (before ++ later) ->
    exists cam, nth_error (sc_heap C O (scene_run later (fst (scene_get name st)))) i = Some (MadeFrame cam) /\ s_distort (fc_st cam) = true /\ fc_w cam = in_w c /\ fc_h cam = in_h c /\
  let pixel X q := snd (do_call cam (WorldToPixel (one_point (num3 X)))) = Ok (VPixels [q]) in
    (forall X, beside (sh_pos s) (sh_omega s) (sh_phi s) (sh_kappa s) X -> pixel X (Nan, Nan)) /\
    (forall X q, images c (sh_pos s) (sh_omega s) (sh_phi s) (sh_kappa s) X q -> pixel X q)).
  { intros (i & Eg & H). exists i. cbv zeta in *. split; [exact Eg|]. intros later K. apply H, Hk, K. }
  apply (entries_image_full ints _ cams _ kwargs name s c before Fi Ni (entries_shots (dict_of items))); try assumption.
  rewrite map_map. cbn. rewrite dict_of_names. apply NoDup_first_names.
Qed.

Theorem table_pixels : forall doc crs lla_crs fields path header rows in_radians kwargs rd f world cams,
  cameras_in doc cams -> options kwargs true -> csv_init crs lla_crs fields path header rows = Ok rd -> NoDup (rd_fields rd) ->
  table_factory doc crs lla_crs fields path header rows in_radians kwargs = Ok (f, world) ->
  world = rd_crs rd /\
  forall shots l, Forall2 (row_shot (rd_crs rd) (rd_lla_crs rd) in_radians (rd_format rd) (rd_fields rd)) (if header then tl rows else rows) shots -> finals shots l ->
  forall name s c before, shot_of l name s -> camera_of cams s c -> usable c ->
  exists i, let st := scene_run before f in
  snd (scene_get name st) = Ok i /\
  forall later, kept l s i later -> keeps_distortion (before ++ later) ->
  let pixel X q := snd (scene_use i (WorldToPixel (one_point (num3 X))) (scene_run later (fst (scene_get name st)))) = Ok (VPixels [q]) in
  (forall X, beside (sh_pos s) (sh_omega s) (sh_phi s) (sh_kappa s) X -> pixel X (Nan, Nan)) /\
  (forall X q, images c (sh_pos s) (sh_omega s) (sh_phi s) (sh_kappa s) X q -> pixel X q).
Proof.
  intros doc crs lla_crs fields path header rows inrad kwargs rd f world cams Hc Ho Hr N H. destruct (table_image_full _ _ _ _ _ _ _ _ _ _ _ _ _ Hc Ho Hr N H) as (Ew & F). split; [exact Ew|].
  intros shots l F1 F2 name s c before Hs Hcam U. destruct (F shots l F1 F2 name s c before Hs Hcam U) as (i & Eg & G). exists i. cbv zeta in *. split; [exact Eg|]. intros later K D.
  destruct (G later K D) as (cam & Hn & _ & _ & _ & A & B).
  assert (X : forall k r, snd (do_call cam k) = r -> snd (scene_use i k (scene_run later (fst (scene_get name (scene_run before f))))) = r).
  { intros k r Hk. unfold Scene_Model.scene_use. rewrite Hn. destruct (do_call cam k) as [c' r']. exact Hk. }
  split; intros; apply X; auto.
Qed.

Theorem table_success : forall doc crs lla_crs fields path header rows in_radians kwargs rd cams,
  cameras_in doc cams -> csv_init crs lla_crs fields path header rows = Ok rd -> NoDup (rd_fields rd) -> (header = true -> rows <> []) ->
  ((exists f world, table_factory doc crs lla_crs fields path header rows in_radians kwargs = Ok (f, world)) <->
   Forall (fun row => exists s, row_shot (rd_crs rd) (rd_lla_crs rd) in_radians (rd_format rd) (rd_fields rd) row s) (if header then tl rows else rows)).
Proof.
  intros doc crs lla_crs fields path header rows inrad kwargs rd cams Hc Hr N Hh. destruct (cameras_read _ _ Hc) as (ints & Ei & _).
  assert (Eh : rd_header rd = header).
  { clear -Hr. unfold Csv_Model.csv_init in Hr. destruct (parse_crs C is_projected crs) as [o1|]; [|discriminate]. cbn [bind] in Hr. destruct (parse_crs C is_geographic lla_crs) as [o2|]; [|discriminate]. cbn [bind] in Hr.
    destruct (parse_file _ _ _) as [[names fmt]|]; [|discriminate]. cbn [bind] in Hr. destruct (match o1 with Some c => _ | None => _ end) as [o3|]; [|discriminate]. cbn [bind] in Hr. injection Hr as <-. reflexivity. }
  unfold Table_Model.table_factory. rewrite Ei, Hr. cbn [bind]. split.
  - intros (f & w & H). destruct (read_table _ _ _ _ _ rd inrad rows) as [d|] eqn:Et; [|discriminate]. destruct (table_rows _ _ _ _ _ rd inrad rows d N Et) as (items & _ & F). rewrite Eh in F.
    clear -F. induction F; constructor; eauto.
  - intros F. rewrite <- Eh in F, Hh. destruct (table_reads pyfloat C radians transform rpy_to_opk rd inrad rows N Hh F) as (d & ->). cbn [bind]. eauto.
Qed.
End Table.
