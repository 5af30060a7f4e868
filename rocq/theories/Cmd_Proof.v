(** Proofs about the commands. *)
From Coq Require Import String Ascii List Bool ZArith Lia QArith.
From Verif Require Import Py Py_Proof Validate_Model Files_Model Files_Spec Files_Proof Params_Model Params_Spec Params_Proof Exif_Model Factory_Model Load_Model Load_Spec Load_Proof Str Cli_Model Cmd_Model Cmd_Spec.
From Verif Require Factory_Spec Factory_Proof Cli_Spec Cli_Proof.
Import ListNotations.
Open Scope string_scope.
Open Scope list_scope.

(** * Options *)
Lemma append_assoc : forall a b c : string, (a ++ (b ++ c))%string = ((a ++ b) ++ c)%string.
Proof. induction a as [|x a IH]; intros b c; [reflexivity|]. cbn. f_equal. apply IH. Qed.

Lemma tiff_iff : forall s, let suf := lower (suffix (path_name s)) in
  (String.eqb suf ".tif" || String.eqb suf ".tiff") = true <-> tiff s.
Proof.
  intros s suf.
  assert (H : forall e, e <> "" -> ~ Factory_Spec.has_char "." e -> (suf = String "." e <->
    exists name base y, Factory_Spec.last_part s name /\ name = (base ++ y)%string /\ base <> "" /\ any_case y (String "." e))).
  { intros e He Hd. unfold suf. rewrite suffix_iff by assumption. destruct (last_part_exists s) as [n Hn].
    rewrite (Factory_Proof.path_name_last _ _ Hn). split.
    - intros (b & y & E & Hb & Hy). exists n, b, y. auto.
    - intros (m & b & y & Hm & E & Hb & Hy). exists b, y. split; [|auto].
      apply Factory_Proof.path_name_last in Hn, Hm. congruence. }
  rewrite orb_true_iff, !String.eqb_eq. unfold tiff. split.
  - intros [E|E]; apply H in E; try discriminate; try (cbn; intuition discriminate); destruct E as (n & b & y & E).
    + exists n, b, y, ".tif". cbn. tauto.
    + exists n, b, y, ".tiff". cbn. tauto.
  - intros (n & b & y & x & H1 & H2 & H3 & Hx & H4). cbn in Hx. destruct Hx as [<-|[<-|[]]].
    + left. apply (H "tif"); [discriminate|cbn; intuition discriminate|]. exists n, b, y. auto.
    + right. apply (H "tiff"); [discriminate|cbn; intuition discriminate|]. exists n, b, y. auto.
Qed.

Section Options.
Variable C : Type.
Variable crs_parse : string -> option C.
Variable image_crs : string -> res (option C).
Variable exists_ : string -> res bool.
Variable is_uri : string -> bool.
Variable read_text : string -> res string.
Variable is_geographic : C -> bool.
Let cb := crs_cb C crs_parse image_crs exists_ is_uri read_text.
Let lla := lla_crs_cb C crs_parse image_crs exists_ is_uri read_text is_geographic.

Lemma read_crs_iff : forall s c, read_crs C crs_parse image_crs exists_ is_uri read_text s = Ok c <->
  crs_of crs_parse image_crs exists_ is_uri read_text s c.
Proof.
  intros s c. unfold read_crs. cbv zeta. pose proof (tiff_iff s) as T. cbv zeta in T.
  destruct (String.eqb (lower (suffix (path_name s))) ".tif" || String.eqb (lower (suffix (path_name s))) ".tiff").
  - assert (HT : tiff s) by (apply T; reflexivity). split.
    + intros H. apply crs_of_image; assumption.
    + intros [c' _ H|t c' N|c' N]; [assumption|contradiction|contradiction].
  - assert (HT : ~ tiff s) by (intros X; apply T in X; discriminate). split.
    + destruct (exists_ s) as [b|x] eqn:EX; cbn [bind]; [|discriminate]. destruct (b || is_uri s) eqn:EB.
      * destruct (read_text s) as [t|x] eqn:ER; cbn [bind]; [|discriminate]. destruct (crs_parse t) as [y|] eqn:EP; [|discriminate].
        intros H. inversion H; subst. apply crs_of_file with t; auto. destruct b; [auto|]. right. auto.
      * cbn [bind]. destruct (crs_parse s) as [y|] eqn:EP; [|discriminate]. intros H. inversion H; subst.
        apply orb_false_iff in EB. destruct EB as [-> EB]. apply crs_of_text; assumption.
    + intros [c' HT' _|t c' _ [EX|[EX EU]] ER EP|c' _ EX EU EP]; [contradiction| | |]; rewrite EX; cbn [bind orb].
      * rewrite ER. cbn [bind]. rewrite EP. reflexivity.
      * rewrite EU, ER. cbn [bind]. rewrite EP. reflexivity.
      * rewrite EU. cbn [bind]. rewrite EP. reflexivity.
Qed.

Theorem crs_cb_iff : forall s c, cb (Some s) = Ok c <-> crs_of crs_parse image_crs exists_ is_uri read_text s c.
Proof.
  intros s c. rewrite <- read_crs_iff. unfold cb, crs_cb.
  destruct (read_crs C crs_parse image_crs exists_ is_uri read_text s); split; intros H; congruence.
Qed.

Theorem crs_cb_err : forall arg e, cb arg = Err e -> e = BadParameter.
Proof. intros [s|] e; unfold cb, crs_cb; [|discriminate]. destruct (read_crs _ _ _ _ _ _ s); congruence. Qed.

Theorem lla_cb_iff : forall s c, lla (Some s) = Ok c <->
  exists x, c = Some x /\ crs_of crs_parse image_crs exists_ is_uri read_text s (Some x) /\ is_geographic x = true.
Proof.
  intros s c. unfold lla, lla_crs_cb. destruct (read_crs C crs_parse image_crs exists_ is_uri read_text s) as [[x|]|e] eqn:E.
  - destruct (is_geographic x) eqn:G; split.
    + intros H. inversion H; subst. exists x. rewrite <- read_crs_iff. auto.
    + intros (y & -> & H & _). apply read_crs_iff in H. congruence.
    + discriminate.
    + intros (y & -> & H & HG). apply read_crs_iff in H. congruence.
  - split; [discriminate|]. intros (y & -> & H & _). apply read_crs_iff in H. congruence.
  - split; [discriminate|]. intros (y & -> & H & _). apply read_crs_iff in H. congruence.
Qed.

Theorem crs_cb_ignored : forall s, tiff s -> image_crs s = Ok None -> cb (Some s) = cb None /\ lla (Some s) = Err AttributeError.
Proof.
  intros s T H. assert (R : read_crs C crs_parse image_crs exists_ is_uri read_text s = Ok None)
    by (apply read_crs_iff; apply crs_of_image; assumption).
  unfold cb, lla, crs_cb, lla_crs_cb. rewrite R. auto.
Qed.

Theorem crs_cb_long : forall s e, ~ tiff s -> exists_ s = Err e -> cb (Some s) = Err BadParameter.
Proof.
  intros s e T H. unfold cb, crs_cb. destruct (read_crs C crs_parse image_crs exists_ is_uri read_text s) as [c|x] eqn:R; [|reflexivity].
  apply read_crs_iff in R. inversion R; subst; try contradiction; intuition congruence.
Qed.
End Options.

Section Files.
Variable F : Type.
Variable open_files : list string -> res (list F).
Variable fopen : string -> res F.
Variable is_dir : F -> bool.
Variable join : F -> string -> F.
Variable mkdirs : F -> res unit.

Theorem src_files_iff : forall args l, src_files_cb F open_files args = Ok l <->
  (args = [] /\ l = []) \/ (args <> [] /\ l <> [] /\ open_files args = Ok l).
Proof.
  intros [|a args] l; unfold src_files_cb.
  - split; [intros H; inversion H; auto|intros [[_ ->]|[H _]]; [reflexivity|congruence]].
  - destruct (open_files (a :: args)) as [[|x l']|e]; split; try discriminate.
    + intros [[H _]|[_ [H1 H2]]]; congruence.
    + intros H. inversion H; subst. right. split; [discriminate|]. split; [discriminate|reflexivity].
    + intros [[H _]|[_ [_ H]]]; congruence.
    + intros [[H _]|[_ [_ H]]]; congruence.
Qed.

Lemma rstrip_slash_spec : forall s, exists t, s = (rstrip_slash s ++ t)%string /\ (forall c, Factory_Spec.has_char c t -> c = "/"%char) /\
  (forall u, rstrip_slash s <> (u ++ "/")%string).
Proof.
  induction s as [|c s (t & E & Ht & Hn)].
  - exists "". split; [reflexivity|]. split; [intros c []|]. intros [|? u]; discriminate.
  - cbn [rstrip_slash]. destruct (rstrip_slash s) as [|d r] eqn:ER.
    + cbn in E. subst t. destruct (Ascii.eqb_spec c "/") as [->|N].
      * exists (String "/" s). split; [reflexivity|]. split; [intros c [->|H]; auto|]. intros [|? u]; discriminate.
      * exists s. split; [reflexivity|]. split; [assumption|]. intros [|x u] H; cbn in H; inversion H; subst; [congruence|].
        destruct u; discriminate.
    + exists t. split; [cbn in E |- *; congruence|]. split; [assumption|]. intros [|x u] H; cbn in H.
      * inversion H.
      * inversion H; subst. apply (Hn u). assumption.
Qed.

Lemma rstrip_slash_iff : forall s t, rstrip_slash s = t <-> without_slashes s t.
Proof.
  intros s t. split.
  - intros <-. destruct (rstrip_slash_spec s) as (z & E & Hz & Hn). exists z. auto.
  - intros (z & E & Hz & Hn). assert (Z : rstrip_slash z = "").
    { clear -Hz. induction z as [|c z IH]; [reflexivity|]. cbn [rstrip_slash]. rewrite IH by (intros x Hx; apply Hz; right; assumption).
      rewrite (Hz c (or_introl eq_refl)). reflexivity. }
    subst s. revert Hn. induction t as [|c t IH]; intros Hn; [cbn; assumption|]. cbn [append rstrip_slash].
    destruct t as [|d t].
    + cbn [append]. rewrite Z. destruct (Ascii.eqb_spec c "/") as [->|N]; [|reflexivity]. exfalso. apply (Hn ""). reflexivity.
    + rewrite IH; [reflexivity|]. intros u H. apply (Hn (String c u)). cbn. f_equal. assumption.
Qed.

Theorem dir_cb_parts : forall s f, dir_cb F fopen is_dir s = Ok f <-> exists t, without_slashes s t /\ fopen t = Ok f /\ is_dir f = true.
Proof.
  intros s f. assert (D : dir_cb F fopen is_dir s = Ok f <-> fopen (rstrip_slash s) = Ok f /\ is_dir f = true).
  { unfold dir_cb. destruct (fopen (rstrip_slash s)) as [g|e].
    - destruct (is_dir g) eqn:E; split; intros H.
      + inversion H; subst. auto.
      + destruct H as [H _]. assumption.
      + discriminate.
      + destruct H as [H H']. congruence.
    - split; [discriminate|]. intros [H _]. discriminate. }
  rewrite D. split.
  - intros H. exists (rstrip_slash s). split; [apply rstrip_slash_iff; reflexivity|assumption].
  - intros (t & H & H'). apply rstrip_slash_iff in H. subst. assumption.
Qed.

Theorem dir_cb_iff : forall s f, dir_cb F fopen is_dir s = Ok f <-> fopen (rstrip_slash s) = Ok f /\ is_dir f = true.
Proof.
  intros s f. unfold dir_cb. destruct (fopen (rstrip_slash s)) as [g|e].
  - destruct (is_dir g) eqn:E; split; intros H.
    + inversion H; subst. auto.
    + destruct H as [H _]. assumption.
    + discriminate.
    + destruct H as [H H']. congruence.
  - split; [discriminate|]. intros [H _]. discriminate.
Qed.

Theorem dir_cb_err : forall s e, dir_cb F fopen is_dir s = Err e -> e = BadParameter.
Proof. intros s e. unfold dir_cb. destruct (fopen _) as [g|]; [destruct (is_dir g)|]; congruence. Qed.

Theorem odm_dir : forall d arg f, odm_out_dir_cb F fopen is_dir join mkdirs d arg = Ok f ->
  ((arg = None \/ arg = Some "") /\ f = join d "orthority" /\ mkdirs f = Ok tt) \/
  exists s t, arg = Some s /\ s <> "" /\ without_slashes s t /\ fopen t = Ok f /\ is_dir f = true.
Proof.
  intros d arg f H. destruct arg as [[|c s]|]; cbn [odm_out_dir_cb] in H.
  - destruct (mkdirs (join d "orthority")) as [[]|] eqn:E; [|discriminate]. inversion H; subst. auto.
  - right. apply dir_cb_parts in H. destruct H as (t & H). exists (String c s), t. split; [reflexivity|]. split; [discriminate|tauto].
  - destruct (mkdirs (join d "orthority")) as [[]|] eqn:E; [|discriminate]. inversion H; subst. auto.
Qed.

Theorem dir_root : dir_cb F fopen is_dir "/" = dir_cb F fopen is_dir "".
Proof. reflexivity. Qed.

Theorem gcp_cb_tags : forall s, any_case s "tags" -> gcp_refine_cb F fopen (Some s) = Ok (GcpTags F).
Proof. intros s H. apply lower_any_case in H. unfold gcp_refine_cb. rewrite H. reflexivity. Qed.

Theorem gcp_cb_file : forall s f, ~ any_case s "tags" -> gcp_refine_cb F fopen (Some s) = Ok (GcpFile F f) <-> s <> "" /\ fopen s = Ok f.
Proof.
  intros s f N. unfold gcp_refine_cb. destruct (String.eqb_spec (lower s) "tags") as [E|_]; [exfalso; apply N; apply lower_any_case; assumption|].
  destruct s as [|c s]; cbn [file_cb].
  - split; [discriminate|intros [H _]; congruence].
  - destruct (fopen (String c s)) as [g|]; split; intros H; try discriminate.
    + inversion H; subst. split; [discriminate|reflexivity].
    + destruct H as [_ H]. inversion H. reflexivity.
    + destruct H as [_ H]. discriminate.
Qed.
End Files.

(** * Cameras *)
Lemma ext_get : forall k (d : dict (dict mval)), dget k (map (fun kv : string * dict mval => (fst kv, ext_entry (snd kv))) d) = option_map ext_entry (dget k d).
Proof. intros k d. induction d as [|[n q] d IH]; [reflexivity|]. cbn. destruct (String.eqb k n); [reflexivity|assumption]. Qed.

Lemma frame_camera_iff : forall I (create : dict mval -> res I) ints exts src cam,
  frame_camera I create ints exts src = Ok cam <-> image_camera create ints exts src cam.
Proof.
  intros I create ints exts src cam. destruct (last_part_exists src) as [name Hn]. pose proof (Factory_Proof.path_name_last _ _ Hn) as Pn.
  unfold frame_camera. rewrite Pn.
  assert (FN : forall e, Factory_Spec.found (map (fun kv : string * dict mval => (fst kv, ext_entry (snd kv))) exts) name e <->
            exists d, Factory_Spec.found exts name d /\ e = ext_entry d).
  { intros e. split.
    - intros [H|H1 H2].
      + rewrite ext_get in H. destruct (dget name exts) as [d|] eqn:E; [|discriminate]. inversion H. exists d. split; [left; assumption|reflexivity].
      + rewrite ext_get in H1, H2. destruct (dget name exts) eqn:E; [discriminate|]. destruct (dget (stem name) exts) as [d|] eqn:E2; [|discriminate].
        inversion H2. exists d. split; [right; assumption|reflexivity].
    - intros (d & [H|H1 H2] & ->); [left|right]; rewrite ext_get.
      + rewrite H. reflexivity.
      + rewrite H1. reflexivity.
      + rewrite H2. reflexivity. }
  pose proof (Factory_Proof.frame_get_spec create name (factory_of ints exts) (Factory_Proof.init_inv create ints _)) as (_ & _ & _ & _ & HS).
  destruct (frame_get create name (factory_of ints exts)) as [st [i|x]] eqn:EG; cbn [fst snd bind] in *.
  - destruct HS as (e & p & c & He & Hp & Hc & _ & HN & _). rewrite HN. cbn [f_ext f_int factory_of frame_init] in He, Hp.
    apply FN in He. destruct He as (d & Hd & ->). cbn [ex_cam ex_pos ext_entry] in *. split.
    + intros H. injection H as <-. exists name, d, p, c. auto.
    + intros (n2 & d2 & p2 & c2 & H1 & H2 & H3 & H4 & ->). apply Factory_Proof.path_name_last in H1. rewrite Pn in H1. subst n2.
      apply Factory_Proof.get_by_name_iff in Hd, H2. assert (d2 = d) by congruence. subst d2.
      pose proof (Factory_Proof.int_for_iff (X := option mval * option mval) (I := I) (factory_of ints exts) (camera_id d) p) as A.
      pose proof (Factory_Proof.int_for_iff (X := option mval * option mval) (I := I) (factory_of ints exts) (camera_id d) p2) as B.
      apply A in Hp. apply B in H3. assert (p2 = p) by congruence. subst p2. assert (c2 = c) by congruence. subst. reflexivity.
  - split; [discriminate|]. intros (n2 & d2 & p2 & c2 & H1 & H2 & H3 & H4 & _). exfalso.
    apply Factory_Proof.path_name_last in H1. rewrite Pn in H1. subst n2.
    assert (HF : Factory_Spec.found (map (fun kv : string * dict mval => (fst kv, ext_entry (snd kv))) exts) name (ext_entry d2))
      by (apply FN; exists d2; split; [exact H2|reflexivity]).
    destruct HS as [_ [[_ HS]|(e & p & He & Hp & Hc)]].
    + apply HS. exists (ext_entry d2), p2. split; [exact HF|exact H3].
    + cbn [f_ext f_int factory_of frame_init] in He, Hp. apply Factory_Proof.get_by_name_iff in He, HF. assert (e = ext_entry d2) by congruence. subst e.
      pose proof (Factory_Proof.int_for_iff (X := option mval * option mval) (I := I) (factory_of ints exts) (camera_id d2) p) as A.
      pose proof (Factory_Proof.int_for_iff (X := option mval * option mval) (I := I) (factory_of ints exts) (camera_id d2) p2) as B.
      apply A in Hp. apply B in H3. assert (p2 = p) by congruence. subst p2. congruence.
Qed.

(** * CRSs *)
Lemma loads_crs : forall C crs_parse ydec jdec K csv_reader osfm_reader fs (kw : io_kwargs C K) int b i e c x,
  csv_honours csv_reader -> osfm_honours osfm_reader -> ~ has_ext b ".geojson" ->
  loads C crs_parse ydec jdec K csv_reader osfm_reader fs kw int (AFile b) i e c -> io_crs kw = CCrs x -> c = Some x.
Proof.
  intros C crs_parse ydec jdec K csv_reader osfm_reader fs kw int b i e c x HC HO N H HX.
  assert (HE : forall e0 c0 oi, exterior_file C crs_parse jdec K csv_reader osfm_reader fs kw b e0 c0 oi -> c0 = Some x).
  { intros e0 c0 oi [t e1 c1 _ _ R|t doc i1 e1 c1 _ _ _ R|t doc e1 c1 G _ _ _]; [exact (HC _ _ _ _ _ _ HX R)| |contradiction].
    f_equal. exact (HO _ _ _ _ _ _ HX R). }
  inversion H; subst.
  - match goal with H : exterior_file _ _ _ _ _ _ _ _ _ _ _ _ |- _ => apply HE in H; subst end. auto.
  - match goal with H : exterior_file _ _ _ _ _ _ _ _ _ _ _ _ |- _ => apply HE in H; assumption end.
Qed.

Lemma first_some_skip : forall A (a b : option A) l x, Cli_Spec.first_some (or_else a b :: l) x <-> Cli_Spec.first_some (a :: b :: l) x.
Proof.
  intros A [a|] b l x; cbn [or_else].
  - split; intros H; inversion H; subst; constructor.
  - split; [intros H; constructor; assumption|intros H; inversion H; assumption].
Qed.

Lemma first_some_head : forall A (a : A) l x, Cli_Spec.first_some (Some a :: l) x -> x = a.
Proof. intros A a l x H. inversion H. reflexivity. Qed.

Section Commands.
Variable C : Type.
Variable crs_parse : string -> option C.
Variables ydec jdec : string -> option pyval.
Variable K : Type.
Variable csv_reader : io_kwargs C K -> farg -> string -> res (dict (dict mval) * option C).
Variable osfm_reader : io_kwargs C K -> pyval -> res (dict (dict mval) * dict (dict mval) * C).
Variable exif_reader : list string -> dict (optval C K) -> res (dict (dict mval) * dict (dict mval) * option C).
Variables yenc jenc : pyval -> list string.
Variable crs_str : C -> string.
Variable is_projected : C -> bool.
Variable to_lla : C -> pyval -> pyval -> pyval -> res (Q * Q * Q).
Variable I : Type.
Variable create : dict mval -> res I.
Variable src_open : string -> res (option C).
Variable ortho_init : string -> camera (option mval * option mval) I -> C -> res unit.
Variable env_of : string -> camera (option mval * option mval) I -> C -> env.

Notation FRAME := (frame_command C crs_parse ydec jdec K csv_reader osfm_reader yenc jenc crs_str is_projected to_lla I create src_open ortho_init env_of).
Notation EXIF := (exif_command C K exif_reader yenc jenc crs_str is_projected to_lla I create src_open ortho_init env_of).
Notation ODM := (odm_command C crs_parse ydec jdec K csv_reader osfm_reader yenc jenc crs_str is_projected to_lla I create src_open ortho_init env_of).
Notation FORTHO := (frame_ortho C yenc jenc crs_str is_projected to_lla I create src_open ortho_init env_of).
Notation LOADS := (loads C crs_parse ydec jdec K csv_reader osfm_reader).
Notation MADE := (orthos_made src_open ortho_init env_of).

Lemma frame_ortho_made : forall r ints exts fc crs srcs fs fs', r_export r = false ->
  FORTHO r ints exts fc crs srcs fs = (fs', Ok tt) ->
  MADE (image_camera create ints exts) (r_dir r) (r_ovw r) crs srcs fs'.
Proof.
  intros r ints exts fc crs srcs fs fs' HX H. unfold frame_ortho in H. rewrite HX in H. apply Cli_Proof.cmd_dem in H.
  destruct H as (n & c & _ & _ & H). intros before src after E.
  destruct (Cli_Proof.loop_run _ _ _ _ _ _ _ _ _ _ _ _ _ _ H before src after E) as (k & x & H1 & H2 & H3 & H4 & H5).
  exists k, x. apply frame_camera_iff in H1. auto.
Qed.

Lemma snd_ex : forall A B (p : A * B) b, snd p = b -> exists a, p = (a, b).
Proof. intros A B [a b'] b H. cbn in H. subst. eauto. Qed.

Theorem frame_crs : forall other int_file ext_file crs r srcs fs fs',
  consistent int_file ext_file -> r_export r = false ->
  FRAME other int_file ext_file crs r srcs fs = (fs', Ok tt) ->
  exists ints exts world,
    LOADS fs (Io (match crs with Some c => CCrs c | None => CNone end) other) (AFile int_file) (AFile ext_file) ints exts world /\
    MADE (image_camera create ints exts) (r_dir r) (r_ovw r) (match crs with Some c => Some c | None => world end) srcs fs'.
Proof.
  clear exif_reader.
  intros other a b crs r srcs fs fs' CO HX H. unfold frame_command in H.
  destruct (snd (read_param C crs_parse ydec jdec K csv_reader osfm_reader fs (Io (crs_option C crs) other) (AFile a) (AFile b) []))
    as [[[i e] c]|x] eqn:E; [|discriminate].
  exists i, e, c. split.
  - apply snd_ex in E. apply load_iff in E; [|assumption]. destruct crs; exact E.
  - apply frame_ortho_made in H; assumption.
Qed.

Theorem frame_same_crs : forall other int_file ext_file crs r srcs fs fs',
  csv_honours csv_reader -> osfm_honours osfm_reader -> consistent int_file ext_file ->
  (has_ext ext_file ".geojson" -> crs = None) -> r_export r = false ->
  FRAME other int_file ext_file crs r srcs fs = (fs', Ok tt) ->
  exists ints exts world,
    LOADS fs (Io (match crs with Some c => CCrs c | None => CNone end) other) (AFile int_file) (AFile ext_file) ints exts world /\
    MADE (image_camera create ints exts) (r_dir r) (r_ovw r) world srcs fs'.
Proof.
  clear exif_reader.
  intros other a b crs r srcs fs fs' HC HO CO HG HX H. destruct (frame_crs _ _ _ _ _ _ _ _ CO HX H) as (i & e & w & HL & HM).
  exists i, e, w. split; [assumption|]. destruct crs as [x|]; [|assumption].
  assert (w = Some x).
  { eapply (loads_crs C crs_parse ydec jdec K csv_reader osfm_reader fs); [exact HC|exact HO| |exact HL|reflexivity]. intros G. apply HG in G. discriminate. }
  subst. assumption.
Qed.

Theorem frame_other_crs : forall other int_file ext_file crs r srcs fs fs',
  consistent int_file ext_file -> has_ext ext_file ".geojson" -> r_export r = false ->
  FRAME other int_file ext_file (Some crs) r srcs fs = (fs', Ok tt) ->
  exists ints exts world,
    (forall kw, LOADS fs kw (AFile int_file) (AFile ext_file) ints exts (Some world)) /\
    MADE (image_camera create ints exts) (r_dir r) (r_ovw r) (Some crs) srcs fs'.
Proof.
  clear exif_reader.
  intros other a b crs r srcs fs fs' CO HG HX H. destruct (frame_crs _ _ _ _ _ _ _ _ CO HX H) as (i & e & w & HL & HM).
  assert (HL' := HL). apply load_iff in HL; [|assumption]. destruct HL as [seen HL].
  assert (HW : exists x, w = Some x).
  { assert (HE : forall kw e0 c0 oi, exterior_file C crs_parse jdec K csv_reader osfm_reader fs kw b e0 c0 oi -> exists x, c0 = Some x).
    { intros kw e0 c0 oi [t e1 c1 X _ _|t doc i1 e1 c1 _ _ _ _|t doc e1 c1 _ _ _ _]; eauto.
      exfalso. apply ext_geojson in HG. destruct X as [X|X]; [apply ext_csv in X|apply ext_txt in X]; congruence. }
    inversion HL'; subst; [|eauto].
    match goal with H : exterior_file _ _ _ _ _ _ _ _ _ _ _ _ |- _ => apply HE in H; destruct H as [x ->] end. eauto. }
  destruct HW as [x ->]. exists i, e, x. split; [|assumption]. intros kw. apply load_iff; [assumption|]. exists seen.
  rewrite <- HL. apply geojson_ignores. assumption.
Qed.

Theorem exif_crs : forall other crs r srcs fs fs', honours_crs exif_reader -> r_export r = false ->
  EXIF other crs r srcs fs = (fs', Ok tt) ->
  exists ints exts world,
    exif_reader srcs [("crs", match crs with Some c => OCrs c | None => ONone end); ("lla_crs", OOther other)] = Ok (ints, exts, world) /\
    MADE (image_camera create ints exts) (r_dir r) (r_ovw r) world srcs fs'.
Proof.
  intros other crs r srcs fs fs' HH HX H. unfold exif_command, from_images in H. cbn [nth] in H.
  change (optcrs C K crs) with (match crs with Some c => OCrs c | None => ONone end : optval C K) in H.
  destruct (exif_reader srcs _) as [[[i e] c]|x] eqn:E; [|discriminate]. cbn [snd] in H.
  exists i, e, c. split; [reflexivity|]. apply frame_ortho_made in H; [|assumption]. destruct crs as [x|]; [|assumption].
  assert (c = Some x) by (eapply HH; [|exact E]; reflexivity). subst. assumption.
Qed.

Theorem odm_crs : forall other dataset files dsm crs r fs fs', osfm_honours osfm_reader -> r_export r = false ->
  ODM other dataset files dsm crs r fs = (fs', Ok tt) ->
  exists count dsm_crs t doc ints exts world,
    dsm = Ok (count, dsm_crs) /\ dget (pjoin dataset "opensfm/reconstruction.json") fs = Some t /\ jdec t = Some doc /\
    (let given := match crs with Some c => Some c | None => dsm_crs end in
     osfm_reader (Io (match given with Some c => CCrs c | None => CNone end) other) doc = Ok (ints, exts, world) /\
     MADE (image_camera create ints exts) (r_dir r) (r_ovw r) given (odm_images files) fs' /\
     forall c, given = Some c -> world = c).
Proof.
  clear exif_reader.
  intros other dataset files dsm crs r fs fs' HO HX H. unfold odm_command in H. cbv zeta in H.
  set (srcs := odm_images files) in *. assert (NE : srcs <> []) by (destruct srcs; [discriminate|discriminate]).
  destruct dsm as [[count dc]|x]; [|destruct srcs; discriminate].
  set (a := FOpenFile 0 (pjoin dataset "opensfm/reconstruction.json")) in *.
  destruct (snd (read_param C crs_parse ydec jdec K csv_reader osfm_reader fs (Io (crs_option C (or_else crs dc)) other) (AFile a) (AFile a) []))
    as [[[i e] c]|x] eqn:E; [|destruct srcs; discriminate].
  assert (HF : FORTHO (Rest (r_export r) (Some (Ok count)) 1 (r_dir r) (r_overwrite r) (r_ovw r)) i e c (or_else crs dc) srcs fs = (fs', Ok tt))
    by (destruct srcs; [discriminate|assumption]).
  clear H. apply frame_ortho_made in HF; [|assumption]. cbn [r_dir r_ovw] in HF.
  apply snd_ex in E. apply load_iff in E; [|intros _; reflexivity].
  assert (HJ : has_ext a ".json").
  { pose (p := pjoin dataset "opensfm/reconstruction.json"). exists p, "reconstruction", ".json".
    split; [constructor|]. split; [|split; [discriminate|apply lower_any_case; reflexivity]].
    unfold p, pjoin. destruct (String.eqb dataset ""); [apply (Factory_Spec.in_folder "opensfm" "reconstruction.json"); cbn; intuition discriminate|].
    destruct (ends_with_slash dataset).
    - change "opensfm/reconstruction.json" with ("opensfm" ++ "/" ++ "reconstruction.json")%string. rewrite append_assoc.
      apply (Factory_Spec.in_folder (dataset ++ "opensfm") "reconstruction.json"). cbn; intuition discriminate.
    - change ("/" ++ "opensfm/reconstruction.json")%string with ("/opensfm" ++ "/" ++ "reconstruction.json")%string. rewrite append_assoc.
      apply (Factory_Spec.in_folder (dataset ++ "/opensfm") "reconstruction.json"). cbn; intuition discriminate. }
  assert (HE : exists t doc w, dget (pjoin dataset "opensfm/reconstruction.json") fs = Some t /\ jdec t = Some doc /\ c = Some w /\
             osfm_reader (Io (crs_option C (or_else crs dc)) other) doc = Ok (i, e, w)).
  { inversion E; subst.
    - exfalso. match goal with H : own_interior _ _ _ _ _ _ |- _ => inversion H; subst end.
      match goal with H : forall b, AFile a = AFile b -> _ |- _ => apply (H a eq_refl HJ); constructor end.
    - match goal with H : exterior_file _ _ _ _ _ _ _ _ _ _ _ _ |- _ => inversion H; subst end.
      match goal with H : text_of _ _ _ |- _ => inversion H; subst end. do 3 eexists. repeat split; eassumption. }
  destruct HE as (t & doc & w & H1 & H2 & -> & H3). exists count, dc, t, doc, i, e, w.
  split; [reflexivity|]. split; [assumption|]. split; [assumption|]. cbv zeta.
  change (match crs with Some c => Some c | None => dc end) with (or_else crs dc).
  change (match or_else crs dc with Some c => CCrs c | None => CNone end) with (crs_option C (or_else crs dc)).
  split; [assumption|]. split; [assumption|]. intros c Hc. rewrite Hc in H3. eapply HO; [|exact H3]. reflexivity.
Qed.
End Commands.

(** * Errors *)
Lemma steps_pure_err : forall e l fs fs' x, steps (pure_step e) l fs = (fs', Err x) -> exists s, raises e s = Some x.
Proof.
  intros e l. induction l as [|s l IH]; intros fs fs' x H; [discriminate|]. cbn in H. unfold abind, pure_step, ret, env_res in H.
  destruct (raises e s) as [y|] eqn:E; [inversion H; subst; eauto|]. eapply IH. exact H.
Qed.

Lemma steps_write_err : forall e path l fs fs' x, steps (write_step e path) l fs = (fs', Err x) -> exists s, raises e s = Some x.
Proof.
  intros e path l. induction l as [|s l IH]; intros fs fs' x H; [discriminate|]. rewrite steps_write_cons in H. unfold env_res in H.
  destruct (raises e s) as [y|] eqn:E; [inversion H; subst; eauto|]. eapply IH. exact H.
Qed.

Lemma steps_err : forall e pre post path ow fs fs' x,
  abind (steps (pure_step e) pre)
    (fun _ => abind (open_raster_w path ow (env_res e RioOpen)) (fun _ => steps (write_step e path) post)) fs = (fs', Err x) ->
  x = FileExistsError \/ exists s, raises e s = Some x.
Proof.
  intros e pre post path ow fs fs' x H. rewrite process_eq in H. destruct (snd (steps (pure_step e) pre fs)) as [u|y] eqn:E.
  - destruct (negb ow && dmem path fs); [inversion H; auto|]. unfold env_res in H. destruct (raises e RioOpen) as [y|] eqn:ER.
    + inversion H; subst. right. exists RioOpen. assumption.
    + right. eapply steps_write_err. exact H.
  - inversion H; subst. right. apply snd_ex in E. destruct E as [f E]. eapply steps_pure_err. exact E.
Qed.

Lemma is_orthority_user : forall e, is_orthority e = true \/ e = FileNotFoundError <-> user_error e.
Proof. intros e. unfold user_error. cbn. destruct e; cbn; intuition congruence. Qed.

Lemma click_not_user : forall e, click_error e -> ~ user_error e.
Proof. intros e. unfold click_error, user_error. cbn. intros [<-|[<-|[<-|[]]]]; intuition discriminate. Qed.

Ltac not_user := exfalso; match goal with H : user_error _ |- _ => unfold user_error in H; cbn in H; intuition discriminate end.

Section Errors.
Variables C K : Type.
Variable camera_get : string -> res K.
Variable src_open : string -> res (option C).
Variable ortho_init : string -> K -> C -> res unit.
Variable env_of : string -> K -> C -> env.
Variable dir : string.
Variables ow b : bool.

Lemma one_error : forall crs src fs fs' e, ortho_one C K camera_get src_open ortho_init env_of dir ow b crs src fs = (fs', Err e) ->
  user_error e ->
  (e = FileNotFoundError /\ camera_get src = Err e) \/ (e <> FileNotFoundError /\ src_open src = Err e) \/
  (e = FileNotFoundError /\ exists k c, ortho_init src k c = Err e \/ exists s, raises (env_of src k c) s = Some e).
Proof.
  intros crs src fs fs' e H U. unfold ortho_one, abind, ret, except_as in H.
  destruct (camera_get src) as [k|x] eqn:EK.
  2:{ inversion H; subst. destruct (is_orthority x) eqn:O; [not_user|]. apply is_orthority_user in U. left. destruct U as [U|U]; [congruence|subst; auto]. }
  destruct (src_open src) as [own|x] eqn:EO.
  2:{ inversion H; subst. destruct (is_not_found x) eqn:O; [not_user|]. right. left. split; [intros ->; discriminate|reflexivity]. }
  destruct (match crs with Some c => Some c | None => own end) as [c|]; [|inversion H; subst; not_user].
  right. right.
  assert (A : e = FileNotFoundError /\ (ortho_init src k c = Err e \/ exists s, raises (env_of src k c) s = Some e)).
  { destruct (ortho_init src k c) as [[]|x] eqn:EI.
    - destruct (ortho_process (env_of src k c) (ortho_name dir src) ow b fs) as [f [[]|x]] eqn:EP; [discriminate|]. inversion H; subst.
      destruct (is_exists x || is_orthority x) eqn:O; [not_user|]. apply orb_false_iff in O. destruct O as [O1 O2].
      apply is_orthority_user in U. destruct U as [U|U]; [congruence|]. subst x. split; [reflexivity|]. right.
      apply steps_err in EP. destruct EP as [EP|EP]; [discriminate|assumption].
    - inversion H; subst. destruct (is_exists x || is_orthority x) eqn:O; [not_user|]. apply orb_false_iff in O. destruct O as [O1 O2].
      apply is_orthority_user in U. destruct U as [U|U]; [congruence|]. subst x. split; [reflexivity|]. left. reflexivity. }
  destruct A as [A1 A2]. split; [assumption|]. exists k, c. assumption.
Qed.

Lemma loop_error : forall srcs crs fs fs' e, ortho_loop C K camera_get src_open ortho_init env_of dir ow b crs srcs fs = (fs', Err e) ->
  user_error e -> exists src, In src srcs /\
  ((e = FileNotFoundError /\ camera_get src = Err e) \/ (e <> FileNotFoundError /\ src_open src = Err e) \/
   (e = FileNotFoundError /\ exists k c, ortho_init src k c = Err e \/ exists s, raises (env_of src k c) s = Some e)).
Proof.
  induction srcs as [|src srcs IH]; intros crs fs fs' e H U; [discriminate|]. cbn in H. unfold abind in H.
  destruct (ortho_one C K camera_get src_open ortho_init env_of dir ow b crs src fs) as [fs1 [c|x]] eqn:E.
  - destruct (IH _ _ _ _ H U) as (s & H1 & H2). exists s. split; [right; assumption|assumption].
  - inversion H; subst. exists src. split; [left; reflexivity|]. eapply one_error; eassumption.
Qed.

Lemma cmd_error : forall export dem band crs srcs fs fs' e,
  ortho_cmd C K camera_get src_open ortho_init env_of dir ow b false export dem band crs srcs fs = (fs', Err e) ->
  user_error e -> escapes (fun src e => camera_get src = Err e) src_open ortho_init env_of dem srcs e.
Proof.
  intros export dem band crs srcs fs fs' e H U. unfold ortho_cmd in H. destruct dem as [dem|].
  2:{ inversion H; subst. not_user. }
  unfold abind at 1, except_as, ret at 1 in H. destruct dem as [n|x].
  - destruct ((band <=? 0) || (n <? band))%Z; [inversion H; subst; not_user|]. unfold abind in H.
    destruct (ortho_loop C K camera_get src_open ortho_init env_of dir ow b crs srcs fs) as [f [c|x]] eqn:E; [discriminate|]. inversion H; subst.
    apply loop_error in E; [|assumption]. destruct E as (src & HI & [[-> E]|[[N E]|(-> & k & c & [E|[s E]])]]).
    + apply camera_escapes with src; [assumption|exact E|reflexivity].
    + apply source_escapes with src; assumption.
    + apply init_escapes with src k c; [assumption|exact E|reflexivity].
    + apply step_escapes with src k c s; [assumption|exact E|reflexivity].
  - inversion H; subst. destruct (is_not_found x) eqn:O; [not_user|]. apply dem_escapes; [reflexivity|]. intros ->. discriminate.
Qed.

Lemma cmd_export_error : forall export dem band crs srcs fs fs' e,
  ortho_cmd C K camera_get src_open ortho_init env_of dir ow b true export dem band crs srcs fs = (fs', Err e) ->
  user_error e -> export fs = (fs', Err e) /\ e <> CrsMissingError.
Proof.
  intros export dem band crs srcs fs fs' e H U. unfold ortho_cmd, except_as in H. destruct (export fs) as [f [[]|x]]; [discriminate|].
  destruct x; cbn in H; inversion H; subst; try not_user; split; congruence.
Qed.
End Errors.

Lemma frame_camera_error : forall I (create : dict mval -> res I) ints exts src e, frame_camera I create ints exts src = Err e ->
  e = ParamError \/ exists p, create p = Err e.
Proof.
  intros I create ints exts src e H. unfold frame_camera in H.
  pose proof (Factory_Proof.frame_get_spec create (path_name src) (factory_of ints exts) (Factory_Proof.init_inv create ints _)) as (_ & _ & _ & _ & HS).
  destruct (frame_get create (path_name src) (factory_of ints exts)) as [st [i|x]] eqn:EG; cbn [fst snd bind] in *.
  - destruct HS as (e1 & p & c & _ & _ & _ & _ & HN & _). rewrite HN in H. discriminate.
  - inversion H; subst. destruct HS as [_ [[HS _]|(e1 & p & _ & _ & HS)]]; [left; assumption|right; eauto].
Qed.

Lemma escapes_weaken : forall C K (cr cr' : string -> exn -> Prop) so oi eo dem srcs e,
  (forall src, cr src FileNotFoundError -> cr' src FileNotFoundError) ->
  @escapes C K cr so oi eo dem srcs e -> escapes cr' so oi eo dem srcs e.
Proof.
  intros C K cr cr' so oi eo dem srcs e H [E1 E2|src E1 E2 E3|src E1 E2 E3|src k c E1 E2 E3|src k c s E1 E2 E3].
  - apply dem_escapes; assumption.
  - eapply source_escapes; eassumption.
  - subst e. apply camera_escapes with src; [assumption|apply H; assumption|reflexivity].
  - eapply init_escapes; eassumption.
  - eapply step_escapes; eassumption.
Qed.

Section CommandErrors.
Variable C : Type.
Variable crs_parse : string -> option C.
Variables ydec jdec : string -> option pyval.
Variable K : Type.
Variable csv_reader : io_kwargs C K -> farg -> string -> res (dict (dict mval) * option C).
Variable osfm_reader : io_kwargs C K -> pyval -> res (dict (dict mval) * dict (dict mval) * C).
Variable exif_reader : list string -> dict (optval C K) -> res (dict (dict mval) * dict (dict mval) * option C).
Variables yenc jenc : pyval -> list string.
Variable crs_str : C -> string.
Variable is_projected : C -> bool.
Variable to_lla : C -> pyval -> pyval -> pyval -> res (Q * Q * Q).
Variable I : Type.
Variable create : dict mval -> res I.
Variable src_open : string -> res (option C).
Variable ortho_init : string -> camera (option mval * option mval) I -> C -> res unit.
Variable env_of : string -> camera (option mval * option mval) I -> C -> env.

Notation FRAME := (frame_command C crs_parse ydec jdec K csv_reader osfm_reader yenc jenc crs_str is_projected to_lla I create src_open ortho_init env_of).
Notation EXIF := (exif_command C K exif_reader yenc jenc crs_str is_projected to_lla I create src_open ortho_init env_of).
Notation ODM := (odm_command C crs_parse ydec jdec K csv_reader osfm_reader yenc jenc crs_str is_projected to_lla I create src_open ortho_init env_of).
Notation FORTHO := (frame_ortho C yenc jenc crs_str is_projected to_lla I create src_open ortho_init env_of).
Notation WRITE := (write_frame C yenc jenc crs_str is_projected to_lla).
Notation ESCAPES := (escapes (fun _ e => exists p, create p = Err e) src_open ortho_init env_of).

Lemma frame_ortho_error : forall r ints exts fc crs srcs fs fs' e, FORTHO r ints exts fc crs srcs fs = (fs', Err e) -> user_error e ->
  if r_export r then WRITE (r_dir r) (r_overwrite r) ints exts fc fs = (fs', Err e) /\ e <> CrsMissingError
  else ESCAPES (r_dem r) srcs e.
Proof.
  intros r ints exts fc crs srcs fs fs' e H U. unfold frame_ortho in H. destruct (r_export r).
  - eapply cmd_export_error; eassumption.
  - apply cmd_error in H; [|assumption]. revert H. apply escapes_weaken. intros src H. apply frame_camera_error in H.
    destruct H as [H|H]; [discriminate|assumption].
Qed.

Lemma frame_error_not_user : forall e, ~ user_error (frame_error e).
Proof. intros e U. destruct e; unfold user_error in U; cbn in U; intuition discriminate. Qed.
Lemma exif_error_not_user : forall e, ~ user_error (exif_error e).
Proof. intros e U. destruct e; unfold user_error in U; cbn in U; intuition discriminate. Qed.
Lemma odm_error_not_user : forall e, ~ user_error (odm_error e).
Proof. intros e U. destruct e; unfold user_error in U; cbn in U; intuition discriminate. Qed.
Lemma rpc_error_not_user : forall e, ~ user_error (rpc_error e).
Proof. intros e U. destruct e; unfold user_error in U; cbn in U; intuition discriminate. Qed.

Theorem frame_errors : forall other int_file ext_file crs r srcs fs fs' e, consistent int_file ext_file ->
  FRAME other int_file ext_file crs r srcs fs = (fs', Err e) -> user_error e ->
  exists ints exts world,
    loads C crs_parse ydec jdec K csv_reader osfm_reader fs (Io (match crs with Some c => CCrs c | None => CNone end) other)
      (AFile int_file) (AFile ext_file) ints exts world /\
    if r_export r then WRITE (r_dir r) (r_overwrite r) ints exts world fs = (fs', Err e) /\ e <> CrsMissingError
    else ESCAPES (r_dem r) srcs e.
Proof.
  clear exif_reader.
  intros other a b crs r srcs fs fs' e CO H U. unfold frame_command in H.
  destruct (snd (read_param C crs_parse ydec jdec K csv_reader osfm_reader fs (Io (crs_option C crs) other) (AFile a) (AFile b) []))
    as [[[i x] c]|y] eqn:E.
  - exists i, x, c. split; [|eapply frame_ortho_error; eassumption]. apply snd_ex in E. apply load_iff in E; [|assumption]. destruct crs; exact E.
  - inversion H; subst. apply frame_error_not_user in U. contradiction.
Qed.

Theorem frame_read_error : forall other int_file ext_file crs r srcs fs seen e,
  read_param C crs_parse ydec jdec K csv_reader osfm_reader fs (Io (match crs with Some c => CCrs c | None => CNone end) other)
    (AFile int_file) (AFile ext_file) [] = (seen, Err e) ->
  exists e', FRAME other int_file ext_file crs r srcs fs = (fs, Err e') /\
    (e = CrsMissingError -> e' = MissingParameter) /\ (e = CrsError -> e' = BadParameter) /\
    (In e [FileNotFoundError; ParamError; OrthorityError] -> e' = UsageError) /\ (~ user_error e -> e' = e).
Proof.
  clear exif_reader.
  intros other a b crs r srcs fs seen e H. exists (frame_error e). split.
  - unfold frame_command. replace (crs_option C crs) with (match crs with Some c => CCrs c | None => CNone end) by (destruct crs; reflexivity).
    rewrite H. reflexivity.
  - unfold user_error. cbn. destruct e; cbn; intuition congruence.
Qed.

Theorem exif_errors : forall other crs r srcs fs fs' e,
  EXIF other crs r srcs fs = (fs', Err e) -> user_error e ->
  exists ints exts world,
    exif_reader srcs [("crs", match crs with Some c => OCrs c | None => ONone end); ("lla_crs", OOther other)] = Ok (ints, exts, world) /\
    if r_export r then WRITE (r_dir r) (r_overwrite r) ints exts world fs = (fs', Err e) /\ e <> CrsMissingError
    else ESCAPES (r_dem r) srcs e.
Proof.
  intros other crs r srcs fs fs' e H U. unfold exif_command, from_images in H. cbn [nth] in H.
  change (optcrs C K crs) with (match crs with Some c => OCrs c | None => ONone end : optval C K) in H.
  destruct (exif_reader srcs _) as [[[i x] c]|y] eqn:E; cbn [snd] in H.
  - exists i, x, c. split; [reflexivity|]. eapply frame_ortho_error; eassumption.
  - inversion H; subst. apply exif_error_not_user in U. contradiction.
Qed.

Theorem exif_read_error : forall other crs r srcs fs e,
  exif_reader srcs [("crs", match crs with Some c => OCrs c | None => ONone end); ("lla_crs", OOther other)] = Err e ->
  EXIF other crs r srcs fs = (fs, Err (match e with FileNotFoundError | ParamError | OrthorityError | CrsError | CrsMissingError => BadParameter | _ => e end)).
Proof.
  intros other crs r srcs fs e H. unfold exif_command, from_images. cbn [nth].
  change (optcrs C K crs) with (match crs with Some c => OCrs c | None => ONone end : optval C K). rewrite H. cbn [snd]. destruct e; reflexivity.
Qed.

Theorem odm_errors : forall other dataset files dsm crs r fs fs' e,
  ODM other dataset files dsm crs r fs = (fs', Err e) -> user_error e ->
  (dsm = Err e /\ e <> FileNotFoundError /\ fs' = fs) \/
  exists count dsm_crs ints exts world, dsm = Ok (count, dsm_crs) /\
    (let a := AFile (FOpenFile 0 (pjoin dataset "opensfm/reconstruction.json")) in
     let given := match crs with Some c => Some c | None => dsm_crs end in
     loads C crs_parse ydec jdec K csv_reader osfm_reader fs (Io (match given with Some c => CCrs c | None => CNone end) other) a a ints exts world) /\
    if r_export r then WRITE (r_dir r) (r_overwrite r) ints exts world fs = (fs', Err e) /\ e <> CrsMissingError
    else ESCAPES None (odm_images files) e.
Proof.
  clear exif_reader.
  intros other dataset files dsm crs r fs fs' e H U. unfold odm_command in H. cbv zeta in H.
  set (srcs := odm_images files) in *. assert (NE : srcs <> []) by (destruct srcs; [inversion H; subst; not_user|discriminate]).
  destruct dsm as [[count dc]|x].
  2:{ left. assert (H' : (fs, Err (if is_not_found x then BadParameter else x)) = (fs', Err e : Py.res unit)) by (destruct srcs; [congruence|assumption]).
      inversion H'; subst. destruct (is_not_found x) eqn:O; [not_user|]. split; [reflexivity|]. split; [|reflexivity]. intros ->. discriminate. }
  right. set (a := FOpenFile 0 (pjoin dataset "opensfm/reconstruction.json")) in *.
  destruct (snd (read_param C crs_parse ydec jdec K csv_reader osfm_reader fs (Io (crs_option C (or_else crs dc)) other) (AFile a) (AFile a) []))
    as [[[i x] c]|y] eqn:E.
  2:{ assert (H' : (fs, Err (odm_error y)) = (fs', Err e : Py.res unit)) by (destruct srcs; [congruence|assumption]).
      inversion H'; subst. apply odm_error_not_user in U. contradiction. }
  assert (HF : FORTHO (Rest (r_export r) (Some (Ok count)) 1 (r_dir r) (r_overwrite r) (r_ovw r)) i x c (or_else crs dc) srcs fs = (fs', Err e))
    by (destruct srcs; [congruence|assumption]).
  apply frame_ortho_error in HF; [|assumption]. cbn [r_export r_dir r_overwrite r_dem] in HF.
  exists count, dc, i, x, c. split; [reflexivity|]. split.
  - apply snd_ex in E. apply load_iff in E; [|intros _; reflexivity]. exact E.
  - destruct (r_export r); [assumption|]. destruct HF as [E1|src H1 H2 H3|src H1 H2 H3|src k c' H1 H2 H3|src k c' s H1 H2 H3].
    + discriminate.
    + eapply source_escapes; eassumption.
    + eapply camera_escapes; eassumption.
    + eapply init_escapes; eassumption.
    + eapply step_escapes; eassumption.
Qed.

Theorem odm_read_error : forall other dataset files count dsm_crs crs r fs seen e,
  let a := AFile (FOpenFile 0 (pjoin dataset "opensfm/reconstruction.json")) in
  let given := match crs with Some c => Some c | None => dsm_crs end in
  odm_images files <> [] ->
  read_param C crs_parse ydec jdec K csv_reader osfm_reader fs (Io (match given with Some c => CCrs c | None => CNone end) other) a a [] = (seen, Err e) ->
  exists e', ODM other dataset files (Ok (count, dsm_crs)) crs r fs = (fs, Err e') /\
    (e = FileNotFoundError -> e' = BadParameter) /\
    (In e [ParamError; OrthorityError; CrsError; CrsMissingError] -> e' = UsageError) /\ (~ user_error e -> e' = e).
Proof.
  clear exif_reader.
  intros other dataset files count dsm_crs crs r fs seen e a given NE H. exists (odm_error e). split.
  - unfold odm_command. cbv zeta. change (or_else crs dsm_crs) with given.
    change (crs_option C given) with (match given with Some c => CCrs c | None => CNone end). fold a. rewrite H. destruct (odm_images files); [congruence|reflexivity].
  - unfold user_error. cbn. destruct e; cbn; intuition congruence.
Qed.

Theorem odm_no_input : forall other dataset files dsm crs r fs,
  (odm_images files = [] \/ dsm = Err FileNotFoundError) -> ODM other dataset files dsm crs r fs = (fs, Err BadParameter).
Proof.
  clear exif_reader.
  intros other dataset files dsm crs r fs [H| ->]; unfold odm_command; cbv zeta; [rewrite H; reflexivity|destruct (odm_images files); reflexivity].
Qed.

Lemma write_doc_err : forall enc path x ow fs, x <> FileExistsError -> write_doc enc path (Err x) ow fs = (fs, Err x).
Proof. intros enc path x ow fs H. reflexivity. Qed.

Theorem export_geographic : forall other int_file ext_file crs r srcs fs fs1 ints exts world,
  consistent int_file ext_file -> r_export r = true ->
  loads C crs_parse ydec jdec K csv_reader osfm_reader fs (Io (match crs with Some c => CCrs c | None => CNone end) other)
    (AFile int_file) (AFile ext_file) ints exts (Some world) ->
  is_projected world = false ->
  write_int_param yenc (pjoin (r_dir r) "int_param.yaml") ints (r_overwrite r) fs = (fs1, Ok tt) ->
  FRAME other int_file ext_file crs r srcs fs = (fs1, Err CrsError).
Proof.
  clear exif_reader.
  intros other a b crs r srcs fs fs1 ints exts w CO HX HL HP HW. apply load_iff in HL; [|assumption]. destruct HL as [seen HL].
  unfold frame_command. replace (crs_option C crs) with (match crs with Some c => CCrs c | None => CNone end) by (destruct crs; reflexivity).
  rewrite HL. cbn [snd]. unfold frame_ortho, ortho_cmd. rewrite HX. unfold except_as, write_frame, abind. rewrite HW.
  unfold write_ext_param, ext_doc. rewrite HP. cbn [negb]. rewrite write_doc_err by discriminate. reflexivity.
Qed.
End CommandErrors.

(** * RPC and pan-sharpening commands *)
Lemma dkeys_get : forall V k (d d' : dict V), dkeys d' = dkeys d -> (dget k d' = None <-> dget k d = None).
Proof.
  intros V k. assert (A : forall d : dict V, dget k d = None <-> ~ In k (dkeys d)).
  { induction d as [|[n v] d IH]; cbn; [tauto|]. destruct (String.eqb_spec k n) as [->|N].
    - split; [discriminate|]. intros H. exfalso. apply H. left. reflexivity.
    - rewrite IH. cbn. intuition congruence. }
  intros d d' E. rewrite !A, E. tauto.
Qed.

Section Rpc.
Variables C M R G Cam : Type.
Variable wgs84_3d : C.
Variable create : option C -> M -> R -> res Cam.
Variable refine_rpc : R -> list G -> res R.
Variable src_open : string -> res (option C).
Variable ortho_init : string -> Cam -> C -> res unit.
Variable env_of : string -> Cam -> C -> env.
Variable export : rstate M R G Cam -> act unit.
Notation RPC := (rpc_command C M R G Cam wgs84_3d create refine_rpc src_open ortho_init env_of export).

Lemma get_fresh : forall crs name (st : rstate M R G Cam) cam, r_cache st = [] ->
  (snd (rpc_get (create crs) name st) = Ok cam <-> exists m q, Factory_Spec.found (r_param st) name (m, q) /\ create crs m q = Ok cam).
Proof.
  intros crs name st cam HC. unfold rpc_get. rewrite HC. cbn [dget]. destruct (get_by_name name (r_param st)) as [[m q]|] eqn:E.
  - apply Factory_Proof.get_by_name_iff in E. destruct (create crs m q) as [c|x] eqn:EC; cbn [snd]; split.
    + intros H. inversion H; subst. eauto.
    + intros (m2 & q2 & H1 & H2). apply Factory_Proof.get_by_name_iff in E, H1. congruence.
    + discriminate.
    + intros (m2 & q2 & H1 & H2). apply Factory_Proof.get_by_name_iff in E, H1. congruence.
  - split; [discriminate|]. intros (m2 & q2 & H1 & H2). apply Factory_Proof.get_by_name_iff in H1. congruence.
Qed.

Lemma refine_loop_cache : forall gcps items (st : rstate M R G Cam), r_cache st = [] ->
  r_cache (fst (refine_loop M R G Cam refine_rpc gcps items st)) = [].
Proof.
  intros gcps items. induction items as [|[f [m q]] items IH]; intros st H; [assumption|]. cbn [refine_loop].
  destruct (get_by_name (path_name f) gcps) as [[|g gs]|]; [apply IH; assumption| |apply IH; assumption].
  destruct (refine_rpc q (g :: gs)) as [q'|x]; cbn [fst r_cache]; [apply IH; cbn [r_cache]|]; rewrite H; reflexivity.
Qed.

Theorem rpc_crs : forall params gcps crs r srcs fs fs', NoDup (dkeys params) -> (forall f, In f (dkeys params) -> Factory_Spec.last_part f f) ->
  r_export r = false -> RPC (Ok params) (option_map Ok gcps) crs r srcs fs = (fs', Ok tt) ->
  orthos_made src_open ortho_init env_of (rpc_image_camera create refine_rpc params gcps crs) (r_dir r) (r_ovw r)
    (Some (match crs with Some c => c | None => wgs84_3d end)) srcs fs'.
Proof.
  intros params gcps crs r srcs fs fs' ND HB HX H. unfold rpc_command in H. cbv zeta in H.
  assert (HI : Factory_Proof.rinv (create crs) (@rpc_init M R G Cam params)).
  { apply Factory_Proof.rpc_init_inv. split; [assumption|]. intros f Hf. apply Factory_Proof.path_name_last. apply HB. assumption. }
  assert (A : exists st : rstate M R G Cam, r_cache st = [] /\ dkeys (r_param st) = dkeys params /\
    (forall f m q q2 m2, dget f params = Some (m, q) -> dget f (r_param st) = Some (m2, q2) -> m2 = m /\
       match gcps with
       | None => q2 = q
       | Some g => (exists gs, Factory_Spec.gcps_for g f gs /\ refine_rpc q gs = Ok q2) \/ ((forall gs, ~ Factory_Spec.gcps_for g f gs) /\ q2 = q)
       end) /\
    ortho_cmd C Cam (fun src => snd (rpc_get (create crs) (path_name src) st)) src_open ortho_init env_of
        (r_dir r) (r_overwrite r) (r_ovw r) (r_export r) (export st) (r_dem r) (r_band r)
        (Some (match crs with Some c => c | None => wgs84_3d end)) srcs fs = (fs', Ok tt)).
  { destruct gcps as [g|]; cbn [option_map] in H.
    - pose proof (Factory_Proof.rpc_refine_spec (create crs) refine_rpc g _ HI) as (_ & HK & HS).
      pose proof (refine_loop_cache g params (RState params [] (Some g)) eq_refl) as HC.
      change (refine_loop M R G Cam refine_rpc g params (RState params [] (Some g))) with (rpc_refine refine_rpc g (@rpc_init M R G Cam params)) in HC.
      destruct (rpc_refine refine_rpc g (rpc_init params)) as [st [[]|x]] eqn:ER; [|discriminate]. cbn [fst snd] in *.
      exists st. split; [assumption|]. split; [exact HK|]. split; [|exact H].
      intros f m q q2 m2 H1 H2. destruct (HS eq_refl f m q H1) as [S1 S2].
      destruct (get_by_name f g) as [[|g0 gs]|] eqn:EG.
      + assert (NG : forall gs, ~ Factory_Spec.gcps_for g f gs) by (intros gs [F N]; apply Factory_Proof.get_by_name_iff in F; congruence).
        specialize (S2 NG). assert (m2 = m /\ q2 = q) as [-> ->] by (split; congruence). split; [reflexivity|]. right. auto.
      + assert (GF : Factory_Spec.gcps_for g f (g0 :: gs)) by (split; [apply Factory_Proof.get_by_name_iff; assumption|discriminate]).
        destruct (S1 _ GF) as (q' & R1 & R2). assert (m2 = m /\ q2 = q') as [-> ->] by (split; congruence). split; [reflexivity|]. left. eauto.
      + assert (NG : forall gs, ~ Factory_Spec.gcps_for g f gs) by (intros gs [F N]; apply Factory_Proof.get_by_name_iff in F; congruence).
        specialize (S2 NG). assert (m2 = m /\ q2 = q) as [-> ->] by (split; congruence). split; [reflexivity|]. right. auto.
    - exists (rpc_init params). split; [reflexivity|]. split; [reflexivity|]. split; [|exact H].
      intros f m q q2 m2 H1 H2. cbn [r_param rpc_init] in H2. rewrite H1 in H2. inversion H2. auto. }
  destruct A as (st & HC & HK & HP & HR). rewrite HX in HR. apply Cli_Proof.cmd_dem in HR. destruct HR as (n & c & _ & _ & HR).
  intros before src after E.
  destruct (Cli_Proof.loop_run _ _ _ _ _ _ _ _ _ _ _ _ _ _ HR before src after E) as (k & x & H1 & H2 & H3 & H4 & H5).
  exists k, x. split; [|auto]. apply get_fresh in H1; [|assumption]. destruct H1 as (m & q' & HF & HCr).
  destruct (last_part_exists src) as [name Hn]. pose proof (Factory_Proof.path_name_last _ _ Hn) as Pn. rewrite Pn in HF.
  assert (KEY : exists key, (key = name \/ (dget name params = None /\ key = stem name)) /\ dget key (r_param st) = Some (m, q')).
  { destruct HF as [F|F1 F2]; [eauto|]. exists (stem name). split; [|assumption]. right. split; [|reflexivity]. apply (dkeys_get _ _ _ _ HK). assumption. }
  destruct KEY as (key & KE & KG). destruct (dget key params) as [[m0 q]|] eqn:EP.
  - destruct (HP _ _ _ _ _ EP KG) as [-> HQ]. exists name, key, m0, q, q'. auto.
  - apply (dkeys_get _ _ _ _ HK) in EP. congruence.
Qed.

Theorem rpc_errors : forall params gcps crs r srcs fs fs' e, RPC params gcps crs r srcs fs = (fs', Err e) -> user_error e ->
  exists st, (exists p, params = Ok p) /\ (forall g, gcps = Some g -> exists d, g = Ok d) /\
  if r_export r then export st fs = (fs', Err e) /\ e <> CrsMissingError
  else escapes (fun _ e => exists m q, create crs m q = Err e) src_open ortho_init env_of (r_dem r) srcs e.
Proof.
  intros params gcps crs r srcs fs fs' e H U. unfold rpc_command in H. destruct params as [p|x].
  2:{ inversion H; subst. apply rpc_error_not_user in U. contradiction. }
  cbv zeta in H.
  set (m := match gcps with None => _ | Some _ => _ end) in H. destruct m as [st|x] eqn:EM.
  2:{ inversion H; subst. apply rpc_error_not_user in U. contradiction. }
  exists st. split; [eauto|]. split.
  { intros g ->. subst m. destruct g as [d|y]; [eauto|discriminate]. }
  destruct (r_export r).
  - eapply cmd_export_error; eassumption.
  - apply cmd_error in H; [|assumption]. revert H. apply escapes_weaken. intros src H. unfold rpc_get in H.
    destruct (get_by_name (path_name src) (r_param st)) as [[m0 q]|]; [|discriminate].
    destruct (dget (path_name src) (r_cache st)); [discriminate|]. destruct (create crs m0 q) eqn:EC; [discriminate|]. cbn in H. inversion H; subst. eauto.
Qed.

Theorem rpc_read_error : forall e gcps crs r srcs fs,
  RPC (Err e) gcps crs r srcs fs = (fs, Err (match e with FileNotFoundError | ParamError | OrthorityError | CrsError | CrsMissingError => BadParameter | _ => e end)) /\
  forall params, RPC (Ok params) (Some (Err e)) crs r srcs fs =
    (fs, Err (match e with FileNotFoundError | ParamError | OrthorityError | CrsError | CrsMissingError => BadParameter | _ => e end)).
Proof. intros e gcps crs r srcs fs. split; [|intros params]; unfold rpc_command; destruct e; reflexivity. Qed.
End Rpc.

Theorem sharpen_ok : forall pan ms pi mi init e path ow b fs fs',
  sharpen_command pan ms pi mi init e path ow b fs = (fs', Ok tt) <->
  exists pc mc, pan = Ok pc /\ ms = Ok mc /\ (1 <= pi <= pc)%Z /\ (forall i, In i mi -> (1 <= i <= mc)%Z) /\ init = Ok tt /\
    pan_process e path ow b fs = (fs', Ok tt).
Proof.
  intros pan ms pi mi init e path ow b fs fs'. unfold sharpen_command, abind, ret, except_as. split.
  - destruct pan as [pc|]; [|discriminate]. destruct ms as [mc|]; [|discriminate].
    destruct (sharpen_indexes pi pc mi mc) as [[]|] eqn:EI; [|discriminate]. apply Cli_Proof.indexes_ok in EI.
    destruct init as [[]|]; [|discriminate]. destruct (pan_process e path ow b fs) as [f [[]|]] eqn:EP; [|discriminate].
    intros H. inversion H; subst. exists pc, mc. tauto.
  - intros (pc & mc & -> & -> & H1 & H2 & -> & HP). assert (EI : sharpen_indexes pi pc mi mc = Ok tt) by (apply Cli_Proof.indexes_ok; auto).
    rewrite EI, HP. reflexivity.
Qed.

Theorem sharpen_errors : forall pan ms pi mi init e path ow b fs fs' x,
  sharpen_command pan ms pi mi init e path ow b fs = (fs', Err x) -> user_error x \/ x = FileExistsError ->
  (x <> FileNotFoundError /\ (pan = Err x \/ ms = Err x)) \/
  (x = FileNotFoundError /\ (init = Err x \/ exists s, raises e s = Some x)).
Proof.
  intros pan ms pi mi init e path ow b fs fs' x H U. unfold sharpen_command, abind, ret, except_as in H.
  assert (NU : forall y, In y [UsageError; BadParameter] -> ~ (user_error y \/ y = FileExistsError)).
  { intros y Hy. unfold user_error. cbn in *. destruct Hy as [<-|[<-|[]]]; intuition discriminate. }
  destruct pan as [pc|y].
  2:{ inversion H; subst. destruct (is_not_found y) eqn:O; [exfalso; revert U; apply NU; cbn; auto|]. left. split; [intros ->; discriminate|auto]. }
  destruct ms as [mc|y].
  2:{ inversion H; subst. destruct (is_not_found y) eqn:O; [exfalso; revert U; apply NU; cbn; auto|]. left. split; [intros ->; discriminate|auto]. }
  destruct (Cli_Proof.indexes_total pi pc mi mc) as [EI|EI]; rewrite EI in H.
  2:{ inversion H; subst. exfalso. revert U. apply NU. cbn. auto. }
  right. destruct init as [[]|y].
  - destruct (pan_process e path ow b fs) as [f [[]|y]] eqn:EP; [discriminate|]. inversion H; subst.
    destruct (is_exists y || is_orthority y) eqn:O; [exfalso; revert U; apply NU; cbn; auto|]. apply orb_false_iff in O. destruct O as [O1 O2].
    destruct U as [U| ->]; [|discriminate]. apply is_orthority_user in U. destruct U as [U| ->]; [congruence|]. split; [reflexivity|]. right.
    apply steps_err in EP. destruct EP as [EP|EP]; [discriminate|assumption].
  - inversion H; subst. destruct (is_exists y || is_orthority y) eqn:O; [exfalso; revert U; apply NU; cbn; auto|]. apply orb_false_iff in O. destruct O as [O1 O2].
    destruct U as [U| ->]; [|discriminate]. apply is_orthority_user in U. destruct U as [U| ->]; [congruence|]. auto.
Qed.

Theorem sharpen_exists : forall pan ms pi mi init e path b fs content,
  dget path fs = Some content -> (forall s, raises e s = None) -> init = Ok tt ->
  forall pc mc, pan = Ok pc -> ms = Ok mc -> (1 <= pi <= pc)%Z -> (forall i, In i mi -> (1 <= i <= mc)%Z) ->
  sharpen_command pan ms pi mi init e path false b fs = (fs, Err UsageError).
Proof.
  intros pan ms pi mi init e path b fs content HG HN -> pc mc -> -> H1 H2. unfold sharpen_command, abind at 1 2 3 4, ret, except_as.
  assert (EI : sharpen_indexes pi pc mi mc = Ok tt) by (apply Cli_Proof.indexes_ok; auto). rewrite EI.
  assert (EP : pan_process e path false b fs = (fs, Err FileExistsError)).
  { unfold pan_process. rewrite process_eq. rewrite steps_pure_ok by (intros; apply HN). cbn [snd].
    assert (D : dmem path fs = true) by (apply dmem_get; eauto). rewrite D. reflexivity. }
  rewrite EP. reflexivity.
Qed.

(** * Outputs *)
Lemma confined_only : forall (m : act unit) P ow, confined m P ow -> only_writes m P ow.
Proof.
  intros m P ow H fs p. destruct (H fs) as (H1 & H2 & H3). split; [apply H1|]. intros content E.
  assert (M : dmem p fs = true) by (apply dmem_get; eauto). pose proof (H3 _ M) as M'. apply dmem_get in M'. destruct M' as [c' E'].
  exists c'. split; [assumption|]. intros Ho. rewrite H2 in E' by assumption. congruence.
Qed.

Lemma only_confined : forall (m : act unit) P ow, only_writes m P ow -> confined m P ow.
Proof.
  intros m P ow H fs. split; [|split].
  - intros p. apply (H fs p).
  - intros Ho p M. apply dmem_get in M. destruct M as [c E]. destruct (H fs p) as [_ H2]. destruct (H2 _ E) as (c' & E' & F). rewrite E', E, F; auto.
  - intros p M. apply dmem_get in M. destruct M as [c E]. destruct (H fs p) as [_ H2]. destruct (H2 _ E) as (c' & E' & _). apply dmem_get. eauto.
Qed.

Lemma confined_except : forall A (m : act A) P ow p e, confined m P ow -> confined (except_as p e m) P ow.
Proof. intros A m P ow p e H fs. rewrite Cli_Proof.except_fst. apply H. Qed.

Lemma confined_nowrite : forall A (m : act A) P ow, (forall fs, fst (m fs) = fs) -> confined m P ow.
Proof. intros A m P ow H fs. rewrite H. auto. Qed.

Section Outputs.
Variables C K : Type.
Variable camera_get : string -> res K.
Variable src_open : string -> res (option C).
Variable ortho_init : string -> K -> C -> res unit.
Variable env_of : string -> K -> C -> env.
Variable dir : string.
Variables ow b : bool.

Lemma one_confined : forall crs src, confined (ortho_one C K camera_get src_open ortho_init env_of dir ow b crs src) (fun p => p = ortho_name dir src) ow.
Proof.
  intros crs src fs. unfold ortho_one, abind, ret, except_as. destruct (camera_get src) as [k|]; [|cbn; auto].
  destruct (src_open src) as [own|]; [|cbn; auto]. destruct (match crs with Some c => Some c | None => own end) as [c|]; [|cbn; auto].
  destruct (ortho_init src k c) as [[]|]; [|cbn; auto].
  pose proof (process_confined (env_of src k c) [ProgressBar; OpenInputs; DemInterpArg; ReprojectDem; MaskDem; CreateProfile]
    ([ColorInterp; InterpArg; Tiles] ++ (if b then [Overviews] else [])) (ortho_name dir src) ow fs) as H.
  fold (ortho_process (env_of src k c) (ortho_name dir src) ow b) in H.
  destruct (ortho_process (env_of src k c) (ortho_name dir src) ow b fs) as [f [[]|]]; exact H.
Qed.

Lemma loop_confined : forall srcs crs, confined (ortho_loop C K camera_get src_open ortho_init env_of dir ow b crs srcs)
  (fun p => exists src, In src srcs /\ p = ortho_name dir src) ow.
Proof.
  induction srcs as [|src srcs IH]; intros crs; [apply confined_ret|]. cbn [ortho_loop]. eapply confined_weaken.
  - apply confined_bind; [apply one_confined|]. intros a. apply IH.
  - intros p [->|(s & H1 & H2)]; [exists src; cbn; auto|exists s; cbn; auto].
Qed.

Lemma cmd_confined : forall (x : bool) files export dem band crs srcs,
  only_writes export (fun p => exists f, In f files /\ p = pjoin dir f) ow ->
  confined (ortho_cmd C K camera_get src_open ortho_init env_of dir ow b x export dem band crs srcs) (outputs x files dir srcs) ow.
Proof.
  intros x files export dem band crs srcs HX. unfold ortho_cmd. destruct x.
  - do 2 apply confined_except. apply only_confined. assumption.
  - destruct dem as [dem|]; [|apply confined_ret]. eapply confined_weaken with (P := fun p => False \/ exists src, In src srcs /\ p = ortho_name dir src).
    + apply confined_bind; [apply confined_except; apply confined_ret|]. intros n. destruct ((band <=? 0) || (n <? band))%Z; [apply confined_ret|].
      eapply confined_weaken with (P := fun p => (exists src, In src srcs /\ p = ortho_name dir src) \/ False).
      * apply confined_bind; [apply loop_confined|]. intros; apply confined_ret.
      * intros p [H|[]]. assumption.
    + intros p [[]|H]. exact H.
Qed.
End Outputs.

Lemma write_doc_confined : forall enc path doc ow, confined (write_doc enc path doc ow) (fun p => p = path) ow.
Proof.
  intros enc path doc ow. unfold write_doc. apply write_param_file_confined.
Qed.

Lemma write_frame_only : forall C yenc jenc (crs_str : C -> string) is_projected to_lla dir ow ints exts crs,
  only_writes (write_frame C yenc jenc crs_str is_projected to_lla dir ow ints exts crs)
    (fun p => exists f, In f ["int_param.yaml"; "ext_param.geojson"] /\ p = pjoin dir f) ow.
Proof.
  intros. apply confined_only. unfold write_frame. eapply confined_weaken.
  - apply confined_bind with (Q := fun p => p = pjoin dir "ext_param.geojson"); [apply write_doc_confined|]. intros _.
    destruct crs; [apply write_doc_confined|apply confined_ret].
  - intros p [->| ->]; eexists; (split; [|reflexivity]); cbn; auto.
Qed.

Lemma write_rpc_only : forall yenc jenc dir ow params gcps,
  only_writes (write_rpc yenc jenc dir ow params gcps) (fun p => exists f, In f ["rpc_param.yaml"; "gcps.geojson"] /\ p = pjoin dir f) ow.
Proof.
  intros. apply confined_only. unfold write_rpc. eapply confined_weaken.
  - apply confined_bind with (Q := fun p => p = pjoin dir "gcps.geojson"); [apply write_doc_confined|]. intros _.
    destruct gcps as [[|]|]; [apply confined_ret|apply write_doc_confined|apply confined_ret].
  - intros p [->| ->]; eexists; (split; [|reflexivity]); cbn; auto.
Qed.

Section CommandOutputs.
Variable C : Type.
Variable crs_parse : string -> option C.
Variables ydec jdec : string -> option pyval.
Variable K : Type.
Variable csv_reader : io_kwargs C K -> farg -> string -> res (dict (dict mval) * option C).
Variable osfm_reader : io_kwargs C K -> pyval -> res (dict (dict mval) * dict (dict mval) * C).
Variable exif_reader : list string -> dict (optval C K) -> res (dict (dict mval) * dict (dict mval) * option C).
Variables yenc jenc : pyval -> list string.
Variable crs_str : C -> string.
Variable is_projected : C -> bool.
Variable to_lla : C -> pyval -> pyval -> pyval -> res (Q * Q * Q).
Variable I : Type.
Variable create : dict mval -> res I.
Variable src_open : string -> res (option C).
Variable ortho_init : string -> camera (option mval * option mval) I -> C -> res unit.
Variable env_of : string -> camera (option mval * option mval) I -> C -> env.

Notation FRAME := (frame_command C crs_parse ydec jdec K csv_reader osfm_reader yenc jenc crs_str is_projected to_lla I create src_open ortho_init env_of).
Notation EXIF := (exif_command C K exif_reader yenc jenc crs_str is_projected to_lla I create src_open ortho_init env_of).
Notation ODM := (odm_command C crs_parse ydec jdec K csv_reader osfm_reader yenc jenc crs_str is_projected to_lla I create src_open ortho_init env_of).
Notation FORTHO := (frame_ortho C yenc jenc crs_str is_projected to_lla I create src_open ortho_init env_of).
Notation WRITE := (write_frame C yenc jenc crs_str is_projected to_lla).
Notation FILES := ["int_param.yaml"; "ext_param.geojson"].

Lemma frame_ortho_confined : forall r ints exts fc crs srcs,
  confined (FORTHO r ints exts fc crs srcs) (outputs (r_export r) FILES (r_dir r) srcs) (r_overwrite r).
Proof. intros. apply cmd_confined. apply write_frame_only. Qed.

Theorem frame_only : forall other int_file ext_file crs r srcs,
  only_writes (FRAME other int_file ext_file crs r srcs) (outputs (r_export r) FILES (r_dir r) srcs) (r_overwrite r).
Proof.
  clear exif_reader. intros. apply confined_only. intros fs. unfold frame_command.
  destruct (snd (read_param _ _ _ _ _ _ _ _ _ _ _ _)) as [[[i e] c]|]; [apply frame_ortho_confined|cbn; auto].
Qed.

Theorem exif_only : forall other crs r srcs,
  only_writes (EXIF other crs r srcs) (outputs (r_export r) FILES (r_dir r) srcs) (r_overwrite r).
Proof.
  intros. apply confined_only. intros fs. unfold exif_command.
  destruct (snd (from_images _ _ _ _)) as [[[i e] c]|]; [apply frame_ortho_confined|cbn; auto].
Qed.

Theorem odm_only : forall other dataset files dsm crs r,
  only_writes (ODM other dataset files dsm crs r) (outputs (r_export r) FILES (r_dir r) (odm_images files)) (r_overwrite r).
Proof.
  clear exif_reader. intros. apply confined_only. intros fs. unfold odm_command. cbv zeta.
  destruct (odm_images files) as [|s srcs] eqn:ES; [cbn; auto|]. destruct dsm as [[n dc]|]; [|cbn; auto].
  destruct (snd (read_param _ _ _ _ _ _ _ _ _ _ _ _)) as [[[i e] c]|]; [|cbn; auto].
  apply (frame_ortho_confined (Rest (r_export r) (Some (Ok n)) 1 (r_dir r) (r_overwrite r) (r_ovw r))).
Qed.

Lemma frame_ortho_export : forall r ints exts fc crs srcs fs fs', r_export r = true ->
  (FORTHO r ints exts fc crs srcs fs = (fs', Ok tt) <-> WRITE (r_dir r) (r_overwrite r) ints exts fc fs = (fs', Ok tt)).
Proof. clear exif_reader. intros r ints exts fc crs srcs fs fs' HX. unfold frame_ortho, ortho_cmd. rewrite HX. rewrite !Cli_Proof.except_ok. tauto. Qed.

Theorem frame_export : forall other int_file ext_file crs r srcs fs fs', consistent int_file ext_file -> r_export r = true ->
  (FRAME other int_file ext_file crs r srcs fs = (fs', Ok tt) <->
   exists ints exts world,
    loads C crs_parse ydec jdec K csv_reader osfm_reader fs (Io (match crs with Some c => CCrs c | None => CNone end) other)
      (AFile int_file) (AFile ext_file) ints exts world /\
    WRITE (r_dir r) (r_overwrite r) ints exts world fs = (fs', Ok tt)).
Proof.
  clear exif_reader. intros other a b crs r srcs fs fs' CO HX. unfold frame_command.
  replace (crs_option C crs) with (match crs with Some c => CCrs c | None => CNone end) by (destruct crs; reflexivity).
  set (kw := Io _ other). split.
  - destruct (snd (read_param C crs_parse ydec jdec K csv_reader osfm_reader fs kw (AFile a) (AFile b) [])) as [[[i e] c]|x] eqn:E; [|discriminate].
    intros H. exists i, e, c. split; [apply snd_ex in E; apply load_iff in E; assumption|]. apply frame_ortho_export in H; assumption.
  - intros (i & e & w & HL & HW). apply load_iff in HL; [|assumption]. destruct HL as [seen HL]. rewrite HL. cbn [snd].
    apply frame_ortho_export; assumption.
Qed.

Theorem exif_export : forall other crs r srcs fs fs', r_export r = true ->
  (EXIF other crs r srcs fs = (fs', Ok tt) <->
   exists ints exts world,
    exif_reader srcs [("crs", match crs with Some c => OCrs c | None => ONone end); ("lla_crs", OOther other)] = Ok (ints, exts, world) /\
    WRITE (r_dir r) (r_overwrite r) ints exts world fs = (fs', Ok tt)).
Proof.
  intros other crs r srcs fs fs' HX. unfold exif_command, from_images. cbn [nth].
  change (optcrs C K crs) with (match crs with Some c => OCrs c | None => ONone end : optval C K).
  destruct (exif_reader srcs _) as [[[i e] c]|x] eqn:E; cbn [snd].
  - rewrite frame_ortho_export by assumption. split; [intros H; exists i, e, c; auto|]. intros (i2 & e2 & w & H1 & H2). inversion H1; subst. assumption.
  - split; [discriminate|]. intros (i2 & e2 & w & H1 & H2). discriminate.
Qed.

Theorem odm_export : forall other dataset files dsm crs r fs fs', r_export r = true ->
  (ODM other dataset files dsm crs r fs = (fs', Ok tt) <->
   odm_images files <> [] /\ exists count dsm_crs ints exts world, dsm = Ok (count, dsm_crs) /\
    (let a := AFile (FOpenFile 0 (pjoin dataset "opensfm/reconstruction.json")) in
     let given := match crs with Some c => Some c | None => dsm_crs end in
     loads C crs_parse ydec jdec K csv_reader osfm_reader fs (Io (match given with Some c => CCrs c | None => CNone end) other) a a ints exts world) /\
    WRITE (r_dir r) (r_overwrite r) ints exts world fs = (fs', Ok tt)).
Proof.
  clear exif_reader. intros other dataset files dsm crs r fs fs' HX. unfold odm_command. cbv zeta.
  destruct (odm_images files) as [|s srcs] eqn:ES; [split; [discriminate|intros [H _]; congruence]|].
  destruct dsm as [[n dc]|x].
  2:{ split; [discriminate|]. intros (_ & n & dc & i & e & w & H & _). discriminate. }
  change (or_else crs dc) with (match crs with Some c => Some c | None => dc end).
  set (given := match crs with Some c => Some c | None => dc end).
  change (crs_option C given) with (match given with Some c => CCrs c | None => CNone end).
  set (a := FOpenFile 0 (pjoin dataset "opensfm/reconstruction.json")).
  set (kw := Io _ other).
  split.
  - destruct (snd (read_param C crs_parse ydec jdec K csv_reader osfm_reader fs kw (AFile a) (AFile a) [])) as [[[i e] c]|x] eqn:E; [|discriminate].
    intros H. split; [discriminate|]. exists n, dc, i, e, c. split; [reflexivity|]. split.
    + apply snd_ex in E. apply load_iff in E; [exact E|intros _; reflexivity].
    + apply frame_ortho_export in H; assumption.
  - intros (_ & n2 & dc2 & i & e & w & H1 & HL & HW). inversion H1; subst n2 dc2. apply load_iff in HL; [|intros _; reflexivity]. destruct HL as [seen HL].
    fold given in HL. fold kw in HL. rewrite HL. cbn [snd]. apply frame_ortho_export; assumption.
Qed.

Theorem odm_band : forall other dataset files dsm crs x d1 b1 d2 b2 dir ow ovw,
  ODM other dataset files dsm crs (Rest x d1 b1 dir ow ovw) = ODM other dataset files dsm crs (Rest x d2 b2 dir ow ovw).
Proof. reflexivity. Qed.

Theorem odm_has_band : forall other dataset files dsm crs r fs fs', r_export r = false ->
  ODM other dataset files dsm crs r fs = (fs', Ok tt) -> exists count dsm_crs, dsm = Ok (count, dsm_crs) /\ (1 <= count)%Z.
Proof.
  clear exif_reader. intros other dataset files dsm crs r fs fs' HX. unfold odm_command. cbv zeta.
  destruct (odm_images files) as [|s srcs]; [discriminate|]. destruct dsm as [[n dc]|]; [|discriminate].
  destruct (snd (read_param _ _ _ _ _ _ _ _ _ _ _ _)) as [[[i e] c]|]; [|discriminate]. unfold frame_ortho. cbn [r_export r_dem r_band]. rewrite HX.
  intros H. apply Cli_Proof.cmd_dem in H. destruct H as (n' & rr & H1 & H2 & _). exists n, dc. split; [reflexivity|]. inversion H1; subst. tauto.
Qed.
End CommandOutputs.

Section RpcOutputs.
Variables C M R G Cam : Type.
Variable wgs84_3d : C.
Variable create : option C -> M -> R -> res Cam.
Variable refine_rpc : R -> list G -> res R.
Variable src_open : string -> res (option C).
Variable ortho_init : string -> Cam -> C -> res unit.
Variable env_of : string -> Cam -> C -> env.
Variable export : rstate M R G Cam -> act unit.
Notation RPC := (rpc_command C M R G Cam wgs84_3d create refine_rpc src_open ortho_init env_of export).

Theorem rpc_only : forall params gcps crs r srcs files,
  (forall st, only_writes (export st) (fun p => exists f, In f files /\ p = pjoin (r_dir r) f) (r_overwrite r)) ->
  only_writes (RPC params gcps crs r srcs) (outputs (r_export r) files (r_dir r) srcs) (r_overwrite r).
Proof.
  intros params gcps crs r srcs files HX. apply confined_only. intros fs. unfold rpc_command. destruct params as [p|]; [|cbn; auto]. cbv zeta.
  destruct (match gcps with None => _ | Some _ => _ end) as [st|]; [|cbn; auto]. apply cmd_confined. apply HX.
Qed.

Lemma refine_loop_gcps : forall gcps items (st : rstate M R G Cam), r_gcps (fst (refine_loop M R G Cam refine_rpc gcps items st)) = r_gcps st.
Proof.
  intros gcps items. induction items as [|[f [m q]] items IH]; intros st; [reflexivity|]. cbn [refine_loop].
  destruct (get_by_name (path_name f) gcps) as [[|g gs]|]; [apply IH| |apply IH].
  destruct (refine_rpc q (g :: gs)) as [q'|x]; [rewrite IH|]; reflexivity.
Qed.

Theorem rpc_export : forall params gcps crs r srcs fs fs', NoDup (dkeys params) -> (forall f, In f (dkeys params) -> Factory_Spec.last_part f f) ->
  r_export r = true -> RPC (Ok params) (option_map Ok gcps) crs r srcs fs = (fs', Ok tt) ->
  exists st, refined refine_rpc params gcps (r_param st) /\ r_gcps st = gcps /\ export st fs = (fs', Ok tt).
Proof.
  intros params gcps crs r srcs fs fs' ND HB HX H. unfold rpc_command in H. cbv zeta in H.
  assert (HI : Factory_Proof.rinv (create crs) (@rpc_init M R G Cam params)).
  { apply Factory_Proof.rpc_init_inv. split; [assumption|]. intros f Hf. apply Factory_Proof.path_name_last. apply HB. assumption. }
  destruct gcps as [g|]; cbn [option_map] in H.
  - pose proof (Factory_Proof.rpc_refine_spec (create crs) refine_rpc g _ HI) as (_ & HK & HS).
    assert (HG : r_gcps (fst (rpc_refine refine_rpc g (@rpc_init M R G Cam params))) = Some g).
    { unfold rpc_refine. rewrite refine_loop_gcps. reflexivity. }
    destruct (rpc_refine refine_rpc g (rpc_init params)) as [st [[]|x]] eqn:ER; [|discriminate]. cbn [fst snd] in *.
    exists st. split; [|split; [assumption|]].
    + split; [exact HK|]. intros f m q H1. destruct (HS eq_refl f m q H1) as [S1 S2].
      destruct (get_by_name f g) as [[|g0 gs]|] eqn:EG.
      * assert (NG : forall gs, ~ Factory_Spec.gcps_for g f gs) by (intros gs [F N]; apply Factory_Proof.get_by_name_iff in F; congruence). exists q. split; [apply S2; assumption|right; auto].
      * assert (GF : Factory_Spec.gcps_for g f (g0 :: gs)) by (split; [apply Factory_Proof.get_by_name_iff; assumption|discriminate]).
        destruct (S1 _ GF) as (q' & R1 & R2). exists q'. split; [assumption|]. left. eauto.
      * assert (NG : forall gs, ~ Factory_Spec.gcps_for g f gs) by (intros gs [F N]; apply Factory_Proof.get_by_name_iff in F; congruence). exists q. split; [apply S2; assumption|right; auto].
    + unfold ortho_cmd in H. rewrite HX in H. rewrite !Cli_Proof.except_ok in H. assumption.
  - exists (rpc_init params). split; [|split; [reflexivity|]].
    + split; [reflexivity|]. intros f m q H1. exists q. auto.
    + unfold ortho_cmd in H. rewrite HX in H. rewrite !Cli_Proof.except_ok in H. assumption.
Qed.

Theorem rpc_refine_error : forall params g crs r srcs fs (st : rstate M R G Cam) e, rpc_refine refine_rpc g (rpc_init params) = (st, Err e) ->
  RPC (Ok params) (Some (Ok g)) crs r srcs fs =
  (fs, Err (match e with FileNotFoundError | ParamError | OrthorityError | CrsError | CrsMissingError => BadParameter | _ => e end)).
Proof. intros params g crs r srcs fs st e H. unfold rpc_command. cbv zeta. rewrite H. destruct e; reflexivity. Qed.
End RpcOutputs.

Theorem sharpen_only : forall pan ms pi mi init e path ow b, only_writes (sharpen_command pan ms pi mi init e path ow b) (fun p => p = path) ow.
Proof.
  intros. apply confined_only. intros fs. pose proof (call_confined (CPan e path ow b) fs) as H. cbn [run_call writes ow_of] in H.
  destruct pan as [pc|ep]; [|cbn; auto]. destruct ms as [mc|em]; [|cbn; auto].
  unfold sharpen_command, abind, ret, except_as. destruct (sharpen_indexes pi pc mi mc) as [u|ei]; [|cbn; auto].
  destruct init as [v|en]; [|cbn; auto]. cbn. destruct (pan_process e path ow b fs) as [f [[]|]]; exact H.
Qed.
