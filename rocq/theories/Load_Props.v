(** Properties C79 - C81. *)
From Coq Require Import String Ascii List Bool Arith QArith.
From Verif Require Import Py Validate_Model Files_Model Params_Model Params_Spec Exif_Model Factory_Model Load_Model Load_Spec Load_Proof.
From Verif Require Factory_Spec.
Import ListNotations.
Open Scope string_scope.
Open Scope list_scope.

(** C79: a frame camera factory holds the parameters of its arguments, read with the readers of their file extensions,
    and the CRS of the exterior file or else of the options; and it is made only when they can all be read. *)
Theorem C79_load : forall C crs_parse ydec jdec K csv_reader osfm_reader fs (kw : io_kwargs C K) int ext i e c,
  match int, ext with AFile a, AFile b => consistent a b | _, _ => True end ->
  ((exists seen, read_param C crs_parse ydec jdec K csv_reader osfm_reader fs kw int ext [] = (seen, Ok (i, e, c))) <->
   loads C crs_parse ydec jdec K csv_reader osfm_reader fs kw int ext i e c).
Proof. exact load_iff. Qed.
Print Assumptions C79_load.

(** C79: a file of another type is a ParamError. *)
Theorem C79_unsupported : forall C crs_parse ydec jdec K csv_reader osfm_reader fs (kw : io_kwargs C K) seen,
  let load := read_param C crs_parse ydec jdec K csv_reader osfm_reader fs kw in
  (forall a ext, ~ (exists x, In x [".yaml"; ".yml"; ".json"] /\ has_ext a x) -> load (AFile a) ext seen = (seen, Err ParamError)) /\
  (forall d b, ~ (exists x, In x [".csv"; ".txt"; ".json"; ".geojson"] /\ has_ext b x) ->
     load (ADict d) (AFile b) seen = (seen, Err ParamError)).
Proof. intros. split; intros; [apply interior_unsupported|apply exterior_unsupported]; assumption. Qed.
Print Assumptions C79_unsupported.

(** C79: but no option, not even the CRS, changes what is loaded with an Orthority exterior file. *)
Theorem C79_geojson_options_refuted : forall C crs_parse ydec jdec K csv_reader osfm_reader fs (kw kw' : io_kwargs C K) int b seen,
  has_ext b ".geojson" ->
  read_param C crs_parse ydec jdec K csv_reader osfm_reader fs kw int (AFile b) seen =
  read_param C crs_parse ydec jdec K csv_reader osfm_reader fs kw' int (AFile b) seen.
Proof. exact geojson_ignores. Qed.
Print Assumptions C79_geojson_options_refuted.

(** C79: and with no interior parameters and an exterior file without them, an AttributeError is raised. *)
Theorem C79_no_interior_refuted : forall C crs_parse ydec jdec K csv_reader osfm_reader fs (kw : io_kwargs C K) b seen s1 e c,
  read_exterior C crs_parse jdec K csv_reader osfm_reader fs kw b seen = (s1, Ok (e, c, None)) ->
  read_param C crs_parse ydec jdec K csv_reader osfm_reader fs kw (ADict []) (AFile b) seen = (s1, Err AttributeError).
Proof. exact no_interior. Qed.
Print Assumptions C79_no_interior_refuted.

(** C79: RPC models are refined with the GCPs of the argument. *)
Theorem C79_refine : forall jdec im_gcps M R Cam (refine_rpc : R -> list (dict mval) -> res R) fs g d (st : rstate M R (dict mval) Cam),
  gcp_source jdec im_gcps fs g d ->
  snd (refine_arg jdec im_gcps refine_rpc fs g st []) = Ok (rpc_refine refine_rpc d st).
Proof. exact refine_arg_ok. Qed.
Print Assumptions C79_refine.

(** C79: GCPs that can not be read are an error, and leave the factory as it was. *)
Theorem C79_refine_unread : forall jdec im_gcps M R Cam (refine_rpc : R -> list (dict mval) -> res R) fs g (st : rstate M R (dict mval) Cam),
  g <> GNothing -> g <> GImages [] -> ~ (exists d, gcp_source jdec im_gcps fs g d) ->
  exists e, snd (refine_arg jdec im_gcps refine_rpc fs g st []) = Ok (st, Err e).
Proof. exact refine_arg_unread. Qed.
Print Assumptions C79_refine_unread.

(** C79: but an empty list of images is an AttributeError, and the GCPs that were there are lost. *)
Theorem C79_refine_empty_refuted : forall jdec im_gcps M R Cam (refine_rpc : R -> list (dict mval) -> res R) fs g (st : rstate M R (dict mval) Cam) seen,
  g = GNothing \/ g = GImages [] -> r_param st <> [] ->
  refine_arg jdec im_gcps refine_rpc fs g st seen = (seen, Ok (RState (r_param st) (r_cache st) None, Err AttributeError)).
Proof. exact refine_arg_empty. Qed.
Print Assumptions C79_refine_empty_refuted.

(** One OpenSfM file object with both kinds of parameters is read once; two are both read; a CSV file with a CRS. *)
Example C79_case :
  let osfm (kw : io_kwargs nat unit) (doc : pyval) : res (dict (dict mval) * dict (dict mval) * nat) :=
    match doc with PStr "both" => Ok ([("cam", [])], [("im", [])], 7%nat) | _ => Err ParamError end in
  let csv (kw : io_kwargs nat unit) (a : farg) (t : string) : res (dict (dict mval) * option nat) := Ok ([("im2", [])], None) in
  let load := read_param nat (fun s => if String.eqb s "EPSG:5" then Some 5%nat else None)
                (fun _ => None) (fun t => if String.eqb t "" then None else Some (PStr t)) unit csv osfm [("a/b.CSV", "x")] in
  let f := FObject 3 (Some "data/reconstruction.JSON") "both" in
  load (Io CNone tt) (AFile f) (AFile f) [] = ([3%nat], Ok ([("cam", [])], [("im", [])], Some 7%nat)) /\
  load (Io (CStr "EPSG:5") tt) (ADict [("c2", [])]) (AFile (FPath "a/b.CSV")) [] = ([], Ok ([("c2", [])], [("im2", [])], Some 5%nat)) /\
  has_ext f ".json" /\ ~ has_ext f ".yaml".
Proof.
  cbv zeta. split; [reflexivity|]. split; [reflexivity|]. split.
  - apply ext_json. reflexivity.
  - rewrite <- ext_yaml. discriminate.
Qed.

(** C80: a frame camera factory made from the files that another one wrote has its parameters and CRS, with any
    options. *)
Theorem C80_frame : forall C crs_parse ydec jdec K csv_reader osfm_reader yenc jenc (crs_str : C -> string) is_projected to_lla
    fs dir ow ints exts crs,
  NoDup (dkeys ints) -> ints <> [] -> ~ In "camera" (dkeys ints) -> Forall (fun kv => valid_int_param (snd kv)) ints ->
  NoDup (dkeys exts) -> exts <> [] -> Forall (fun kv => valid_ext_param (snd kv)) exts ->
  is_projected crs = true -> crs_parse (crs_str crs) = Some crs -> (forall x y z, exists q, to_lla crs x y z = Ok q) ->
  writable fs (pjoin dir "int_param.yaml") ow -> writable fs (pjoin dir "ext_param.geojson") ow ->
  files_faithful yenc ydec jenc jdec crs_str is_projected to_lla crs ints exts ->
  exists fs' ints' exts',
    write_frame C yenc jenc crs_str is_projected to_lla dir ow ints exts (Some crs) fs = (fs', Ok tt) /\
    (forall kw, read_param C crs_parse ydec jdec K csv_reader osfm_reader fs' kw
       (AFile (FPath (pjoin dir "int_param.yaml"))) (AFile (FPath (pjoin dir "ext_param.geojson"))) [] =
       ([], Ok (ints', exts', Some crs))) /\
    same_dicts ints' ints /\ same_dicts exts' exts.
Proof. exact frame_reload. Qed.
Print Assumptions C80_frame.

(** C80: and so gives the same cameras, for every history of requests. *)
Theorem C80_cameras : forall I (create : dict mval -> res I), (forall p q, same_dict p q -> create p = create q) ->
  forall ints ints' exts exts' names, same_dicts ints' ints -> same_dicts exts' exts ->
  answers create (factory_of ints' exts') names = answers create (factory_of ints exts) names.
Proof. exact factories_same. Qed.
Print Assumptions C80_cameras.

(** C80: which have the interior of the camera that the parameters of the image name, and the position and angles of
    the image, whatever was requested before. *)
Theorem C80_loaded_camera : forall I (create : dict mval -> res I) ints exts history name (e p : dict mval) cam c,
  Factory_Spec.found exts name e -> dget "camera" e = Some (MV cam) ->
  Factory_Spec.interior ints (match cam with PStr s => Some s | _ => None end) p -> create p = Ok c ->
  let st := frame_run create history (factory_of ints exts) in
  exists i, snd (frame_get create name st) = Ok i /\
    nth_error (f_heap (fst (frame_get create name st))) i = Some (Camera c (Some (dget "xyz" e, dget "opk" e))).
Proof. exact loaded_camera. Qed.
Print Assumptions C80_loaded_camera.

(** C80: exporting without a CRS never succeeds: it is a CrsMissingError, once the interior parameters are written. *)
Theorem C80_no_crs : forall C yenc jenc (crs_str : C -> string) is_projected to_lla fs dir ow ints exts fs' r,
  write_frame C yenc jenc crs_str is_projected to_lla dir ow ints exts None fs = (fs', r) ->
  r <> Ok tt /\
  (forall fs1, write_int_param yenc (pjoin dir "int_param.yaml") ints ow fs = (fs1, Ok tt) -> fs' = fs1 /\ r = Err CrsMissingError).
Proof. exact frame_no_crs. Qed.
Print Assumptions C80_no_crs.

(** C80: the same for RPC models and the GCPs they were refined with. *)
Theorem C80_rpc : forall ydec jdec yenc jenc fs dir ow params gcps,
  NoDup (dkeys params) -> Forall (fun kv => valid_rpc_param (snd kv)) params ->
  NoDup (dkeys gcps) -> gcps <> [] -> Forall (fun kv => snd kv <> [] /\ Forall valid_gcp (snd kv)) gcps ->
  writable fs (pjoin dir "rpc_param.yaml") ow -> writable fs (pjoin dir "gcps.geojson") ow ->
  (forall doc, rpc_doc params = Ok doc -> text_faithful yenc ydec doc) ->
  (forall doc, gcp_doc gcps = Ok doc -> text_faithful jenc jdec doc) ->
  exists fs' params' gcps',
    write_rpc yenc jenc dir ow params (Some gcps) fs = (fs', Ok tt) /\
    snd (read_oty_rpc_param ydec (pjoin dir "rpc_param.yaml") fs') = Ok params' /\ same_dicts params' params /\
    snd (read_oty_gcps jdec (pjoin dir "gcps.geojson") fs') = Ok gcps' /\ same_gcps gcps' gcps.
Proof. exact rpc_reload. Qed.
Print Assumptions C80_rpc.

(** C80: a GCP file is only written when there are GCPs. *)
Theorem C80_no_gcps : forall yenc jenc fs dir ow params g fs' r, g = None \/ g = Some [] ->
  write_rpc yenc jenc dir ow params g fs = (fs', r) ->
  dget (pjoin dir "gcps.geojson") fs' = dget (pjoin dir "gcps.geojson") fs.
Proof. exact rpc_no_gcps. Qed.
Print Assumptions C80_no_gcps.

Definition demo_ints : dict (dict mval) :=
  [("cam", [("cam_type", MCam Cpinhole); ("im_size", MTup [PInt 4; PInt 3]); ("focal_len", MV (PInt 1))])].
Definition demo_exts : dict (dict mval) :=
  [("im.tif", [("xyz", MTup [PFloat 1; PInt 2; PFloat 3]); ("opk", MTup [PInt 0; PInt 0; PInt 0]); ("camera", MV (PStr "cam"))])].

Example C80_case :
  (NoDup (dkeys demo_ints) /\ demo_ints <> [] /\ ~ In "camera" (dkeys demo_ints) /\ Forall (fun kv => valid_int_param (snd kv)) demo_ints) /\
  (NoDup (dkeys demo_exts) /\ demo_exts <> [] /\ Forall (fun kv => valid_ext_param (snd kv)) demo_exts) /\
  let create (p : dict mval) : res (option mval) := Ok (dget "focal_len" p) in
  answers create (factory_of demo_ints demo_exts) ["im.tif"; "other"] =
  [Some (Camera (Some (MV (PInt 1))) (Some (Some (MTup [PFloat 1; PInt 2; PFloat 3]), Some (MTup [PInt 0; PInt 0; PInt 0])))); None].
Proof.
  split; [|split; [|reflexivity]].
  - split; [repeat constructor; cbn; tauto|]. split; [discriminate|]. split; [cbn; intuition discriminate|].
    constructor; [|constructor]. split; [repeat constructor; cbn; intuition discriminate|]. exists Cpinhole. split; [discriminate|].
    split; [reflexivity|]. split; [eexists; reflexivity|]. split; [eexists; split; [reflexivity|left; eexists; split; [reflexivity|exact I]]|].
    intros k v H Hk. exfalso. apply Hk. apply Py_Proof.dget_In in H. cbn in *. intuition congruence.
  - split; [repeat constructor; cbn; tauto|]. split; [discriminate|]. constructor; [|constructor].
    exists (MTup [PFloat 1; PInt 2; PFloat 3]), (MTup [PInt 0; PInt 0; PInt 0]), (PStr "cam").
    split; [eexists; split; [reflexivity|]; split; [reflexivity|repeat constructor]|].
    split; [eexists; split; [reflexivity|]; split; [reflexivity|repeat constructor]|]. intros k. reflexivity.
Qed.

(** C81: making a factory from images leaves the caller's options as they are when there are none, or they have a
    CRS. *)
Theorem C81_options : forall C N V D (exif_reader : list N -> dict (optval C V) -> res (D * option C)) files arg (h : kwheap C V),
  honours_crs exif_reader ->
  match arg with
  | None => True
  | Some i => nth i h [] = [] \/ exists c, dget "crs" (nth i h []) = Some (OCrs c)
  end -> fst (from_images exif_reader files arg h) = h.
Proof. exact images_keep. Qed.
Print Assumptions C81_options.

(** C81: other options get the CRS that was found for the first images, so that it is used for the next ones, wherever
    they are. *)
Theorem C81_options_refuted : forall C N V D (exif_reader : list N -> dict (optval C V) -> res (D * option C)) files1 files2 i (h : kwheap C V) d1 c1 d2 r2,
  honours_crs exif_reader -> (i < List.length h)%nat -> nth i h [] <> [] ->
  from_images exif_reader files1 (Some i) h = (fst (from_images exif_reader files1 (Some i) h), Ok (d1, Some c1)) ->
  let h1 := fst (from_images exif_reader files1 (Some i) h) in
  dget "crs" (nth i h1 []) = Some (OCrs c1) /\
  (snd (from_images exif_reader files2 (Some i) h1) = Ok (d2, r2) -> r2 = Some c1).
Proof. exact images_leak. Qed.
Print Assumptions C81_options_refuted.

(** C81: an RPC factory whose parameter dictionaries are its own does just what it would do alone, whatever the calls
    on the other factories. *)
Theorem C81_own_parameters : forall M R G C (create : M -> R -> res C) (refine_rpc : R -> list G -> res R) calls o params k p,
  well_formed params -> nth_error params k = Some p ->
  (forall j q, j <> k -> nth_error params j = Some q -> forall x, In x (map snd q) -> ~ In x (map snd p)) ->
  alone (s_run create refine_rpc calls (s_init o params)) k =
  Some (rpc_run create refine_rpc (calls_on k calls) (rpc_init (map (fun kv => (fst kv, o (snd kv))) p))).
Proof. exact run_alone. Qed.
Print Assumptions C81_own_parameters.

(** C81: and its calls return or raise what they would then. *)
Theorem C81_own_results : forall M R G C (create : M -> R -> res C) (refine_rpc : R -> list G -> res R) calls o params k p,
  well_formed params -> nth_error params k = Some p ->
  (forall j q, j <> k -> nth_error params j = Some q -> forall x, In x (map snd q) -> ~ In x (map snd p)) ->
  let w := s_run create refine_rpc calls (s_init o params) in
  let st := rpc_run create refine_rpc (calls_on k calls) (rpc_init (map (fun kv => (fst kv, o (snd kv))) p)) in
  exists f, nth_error (sh_facs w) k = Some f /\
    (forall name, snd (s_get create (sh_objs w) name f) = snd (rpc_get create name st)) /\
    (forall gcps, snd (s_refine refine_rpc gcps (sh_objs w) f) = snd (rpc_refine refine_rpc gcps st)).
Proof. exact results_alone. Qed.
Print Assumptions C81_own_results.

(** C81: but refining changes the dictionaries that the factory was made from. *)
Theorem C81_caller_refuted : forall M R G C (refine_rpc : R -> list G -> res R) gcps (o : nat -> M * R) p n i,
  NoDup (dkeys p) -> NoDup (map snd p) -> In (n, i) p ->
  forall g m q q', Factory_Spec.gcps_for gcps (path_name n) g -> o i = (m, q) -> refine_rpc q g = Ok q' ->
  let '(o', f', r) := s_refine refine_rpc gcps o (@SFac G C p [] None) in r = Ok tt -> o' i = (m, q').
Proof. exact refine_caller. Qed.
Print Assumptions C81_caller_refuted.

(** C81: so that two factories made from one dictionary, each refined once, refine it twice. *)
Theorem C81_shared_refuted :
  let create (m r : nat) : res nat := Ok r in
  let refine (r : nat) (g : list nat) : res nat := Ok (r + 1)%nat in
  let w := s_run create refine [(0, RRefine [("im", [1])]); (1, RRefine [("im", [1])])]%nat
             (s_init (fun _ => (0, 0)%nat) [[("im", 0%nat)]; [("im", 0%nat)]]) in
  sh_objs w 0%nat = (0, 2)%nat /\
  option_map (fun f => snd (s_get create (sh_objs w) "im" f)) (nth_error (sh_facs w) 0) = Some (Ok 2%nat).
Proof. split; reflexivity. Qed.
Print Assumptions C81_shared_refuted.

Example C81_case :
  let exif (files : list nat) (kw : dict (optval nat nat)) : res (unit * option nat) :=
    Ok (tt, match dget "crs" kw with Some (OCrs c) => Some c | _ => match files with f :: _ => Some f | [] => None end end) in
  honours_crs exif /\
  let h : kwheap nat nat := [[("progress", OOther 1%nat)]; []] in
  snd (from_images exif [35%nat] (Some 0%nat) h) = Ok (tt, Some 35%nat) /\
  snd (from_images exif [51%nat] (Some 0%nat) h) = Ok (tt, Some 51%nat) /\
  snd (from_images exif [51%nat] (Some 0%nat) (fst (from_images exif [35%nat] (Some 0%nat) h))) = Ok (tt, Some 35%nat).
Proof.
  cbv zeta. split; [|repeat split]. intros files kw c d r H E. rewrite H in E. inversion E. reflexivity.
Qed.

Example C81_own_case :
  well_formed [[("a", 0%nat); ("b", 1%nat)]; [("a", 2%nat)]] /\
  forall x, In x [2%nat] -> ~ In x [0; 1]%nat.
Proof.
  split; [|cbn; intuition congruence]. repeat constructor; cbn; intuition congruence.
Qed.
