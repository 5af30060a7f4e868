(** Property theorems: C96 parameter files to pixels. *)
From Coq Require Import String List Reals QArith Qreals ZArith Lra Lia.
From Verif Require Import Py Flt Mat Rot_Spec Remap_Model Frame_Model Frame_Spec Rpc_Model Validate_Model Params_Model Params_Spec Factory_Model Cam_Model Cam_Spec Proj_Spec
  Make_Model Make_Spec Make_Props Scene_Model Scene_Spec Scene_Proof SceneDoc_Proof.
From Verif Require Factory_Spec.
Import ListNotations.
Open Scope string_scope.
Open Scope list_scope.
Open Scope Z_scope.

Section Props.
Variable cv_surf : string -> arr fl -> fl * fl -> option fl.
Variable cast_nan : string -> fl.
Variable cv_image : string -> arr pix -> fl * fl -> option pix.
Variable convert : string -> string -> pix -> pix.
Variable cv_project cv_undistort fish_undistort : intr -> list R -> R * R -> R * R.
Variable C : Type.
Variable parse_crs : string -> res C.
Variable rpc_crs : C.
Variable O : Type.
Variable no_options : O.
Variable warp : C -> C -> list vec -> list vec.
Notation scene_get := (scene_get cv_surf cast_nan cv_image convert cv_project cv_undistort fish_undistort C parse_crs rpc_crs O no_options warp).
Notation scene_use := (scene_use cv_surf cast_nan cv_image convert C O).
Notation scene_run := (scene_run cv_surf cast_nan cv_image convert cv_project cv_undistort fish_undistort C parse_crs rpc_crs O no_options warp).

(** OpenCV: [projectPoints] applies its documented distortion model, and [undistortPoints] depends on the coefficients only, not on how
    many zeros are given. *)
Hypothesis cv_projects : forall K d xy b, In (List.length d) [4; 5; 8; 12; 14]%nat -> opencv_distorts (cv_coefs d) xy b -> num2 (cv_project K d xy) = to_pixel K b.
Hypothesis cv_undistorts : forall K d d' p, In (List.length d) [4; 5; 8; 12; 14]%nat -> In (List.length d') [4; 5; 8; 12; 14]%nat ->
  (forall k, cv_coefs d k = cv_coefs d' k) -> cv_undistort K d p = cv_undistort K d' p.

(** C96: for an image of a pair of interior and exterior parameter files, the camera that is got images each point by the parameters that the files have for it; whatever
    was asked before, and until another image of the same camera is asked for or the camera is updated. *)
Theorem C96_documents : forall D (parse : string -> option D) int_doc ext_doc crs d0 cams shots kwargs name s c before,
  cameras_in int_doc cams -> shots_in ext_doc crs shots -> NoDup (map sh_name shots) -> parse crs = Some d0 -> options kwargs true ->
  shot_of shots name s -> camera_of cams s c -> usable c ->
  exists ints exts i, read_int_doc int_doc = Ok ints /\ read_ext_doc D parse ext_doc = Ok (d0, exts) /\
  let st := scene_run before (scene_init C O ints exts kwargs) in
  snd (scene_get name st) = Ok i /\
  forall later, kept shots s i later -> keeps_distortion (before ++ later) ->
  let pixel X q := snd (scene_use i (WorldToPixel (one_point (num3 X))) (scene_run later (fst (scene_get name st)))) = Ok (VPixels [q]) in
  (forall X, beside (sh_pos s) (sh_omega s) (sh_phi s) (sh_kappa s) X -> pixel X (Nan, Nan)) /\
  (forall X q, images c (sh_pos s) (sh_omega s) (sh_phi s) (sh_kappa s) X q -> pixel X q).
Proof. exact (documents_image cv_surf cast_nan cv_image convert cv_project cv_undistort fish_undistort cv_projects cv_undistorts C parse_crs rpc_crs O no_options warp). Qed.

(** C96: the same for parameter dictionaries, however they were read. *)
Theorem C96_dictionaries : forall ints exts kwargs n e id p kw c p0 a t o ph k before,
  Factory_Spec.found exts n e -> has_id e id -> Factory_Spec.interior ints id p -> posed e t o ph k ->
  merge_kwargs p kwargs = Ok kw -> describes kw c p0 true a -> usable c -> refused p0 = false ->
  exists i, let st := scene_run before (scene_init C O ints exts kwargs) in
  snd (scene_get n st) = Ok i /\
  forall later, left_alone exts id i later -> keeps_distortion (before ++ later) ->
  let pixel X q := snd (scene_use i (WorldToPixel (one_point (num3 X))) (scene_run later (fst (scene_get n st)))) = Ok (VPixels [q]) in
  (forall X, beside t o ph k X -> pixel X (Nan, Nan)) /\ (forall X q, images c t o ph k X q -> pixel X q).
Proof. exact (scene_images cv_surf cast_nan cv_image convert cv_project cv_undistort fish_undistort C parse_crs rpc_crs O no_options warp cv_projects cv_undistorts). Qed.
End Props.

Print Assumptions C96_documents.
Print Assumptions C96_dictionaries.

(** * Case *)

(** An old style interior file with one Brown camera, and an exterior file with two images. *)
Definition demo_yaml : list (pykey * pyval) :=
  [(KStr "name", PStr "pt"); (KStr "type", PStr "Brown"); (KStr "im_size", PList [PInt 4; PInt 3]); (KStr "focal_len", PFloat (5 # 10));
   (KStr "sensor_size", PList [PInt 2; PFloat (3 # 2)]); (KStr "k1", PFloat (1 # 2))].
Definition demo_int_doc : pyval := PDict [(KStr "camera", PDict demo_yaml)].
Definition demo_feature (name : string) (x y z : Z) : pyval :=
  PDict [(KStr "type", PStr "Feature");
         (KStr "properties", PDict [(KStr "filename", PStr name); (KStr "camera", PStr "pt"); (KStr "xyz", PList [PInt x; PInt y; PInt z]); (KStr "opk", PList [PInt 0; PInt 0; PInt 0])]);
         (KStr "geometry", PDict [(KStr "type", PStr "Point"); (KStr "coordinates", PList [PInt 24; PInt (-33); PInt 100])])].
Definition demo_ext_doc : pyval :=
  PDict [(KStr "type", PStr "FeatureCollection"); (KStr "world_crs", PStr "EPSG:32635"); (KStr "features", PList [demo_feature "a" 10 20 100; demo_feature "b.tif" 0 0 50])].
Definition demo_shots : list shot := [Shot "a" (Some "pt") (V3 10 20 100) 0 0 0; Shot "b.tif" (Some "pt") (V3 0 0 50) 0 0 0].

Lemma demo_cameras_in : cameras_in demo_int_doc [("pt", demo_interior)].
Proof.
  apply (old_format _ (PDict demo_yaml)); [reflexivity|]. apply section_named; [|reflexivity].
  split; cbn [demo_interior in_type in_w in_h in_fx in_fy in_sensor in_cx in_cy in_coef].
  - cbn. repeat constructor; cbn; intuition discriminate.
  - intros k Hk. cbn in Hk. repeat (destruct Hk as [<-|Hk]; [eexists; split; [reflexivity|]; unfold optional_param; cbn; tauto|]). contradiction.
  - exists "Brown", "brown". split; [reflexivity|]. split; [|reflexivity]. apply AC_upper; [cbn; lia|reflexivity|]. repeat (apply AC_same; [cbn; lia|]). constructor.
  - reflexivity.
  - eexists. split; [reflexivity|]. left. split; [constructor|reflexivity].
  - cbn. eexists. eexists. split; [reflexivity|]. split; constructor.
  - reflexivity.
  - reflexivity.
  - intros k Hk. cbn in Hk. repeat (destruct Hk as [<-|Hk]; [cbn; try reflexivity; try constructor|]). contradiction.
  - intros k Hk. destruct (String.eqb_spec k "k1") as [->|_]; [exfalso; apply Hk; cbn; tauto|reflexivity].
Qed.

Lemma demo_shots_in : shots_in demo_ext_doc "EPSG:32635" demo_shots.
Proof.
  assert (A : forall k v l, kget (KStr k) l = Some v -> at_key (PDict l) k v) by (intros k v l E; exists l; auto).
  assert (T : forall x y z, three_reals (PList [PInt x; PInt y; PInt z]) (IZR x) (IZR y) (IZR z)) by (intros x y z; exists (PInt x), (PInt y), (PInt z); repeat split; constructor).
  assert (Fe : forall n x y z, shot_in (demo_feature n x y z) (Shot n (Some "pt") (V3 (IZR x) (IZR y) (IZR z)) 0 0 0)).
  { intros n x y z. split; [apply A; reflexivity|]. split.
    - eexists. split; [apply A; reflexivity|]. split; [apply A; reflexivity|]. split; [apply A; reflexivity|]. split; eexists; (split; [apply A; reflexivity|]); apply T.
    - eexists. eexists. split; [apply A; reflexivity|]. split; [apply A; reflexivity|]. split; [apply A; reflexivity|]. split; [discriminate|]. repeat constructor; eexists; constructor. }
  split; [apply A; reflexivity|]. split; [apply A; reflexivity|]. eexists. split; [apply A; reflexivity|]. split; [discriminate|]. repeat constructor; apply Fe.
Qed.

(** After "b.tif" was asked for and its camera moved, "a.jpg" is asked for, and its camera images the point of C95_case. *)
Example C96_case : exists ints exts i, read_int_doc demo_int_doc = Ok ints /\ read_ext_doc unit (fun _ => Some tt) demo_ext_doc = Ok (tt, exts) /\
  let run := scene_run (fun _ _ _ => None) (fun _ => Nan) (fun _ _ _ => None) (fun _ _ v => v) demo_project (fun _ _ p => p) (fun _ _ p => p) unit (fun _ => Ok tt) tt unit tt (fun _ _ l => l) in
  let get := scene_get (fun _ _ _ => None) (fun _ => Nan) (fun _ _ _ => None) (fun _ _ v => v) demo_project (fun _ _ p => p) (fun _ _ p => p) unit (fun _ => Ok tt) tt unit tt (fun _ _ l => l) in
  let st := run [Get "b.tif"; Use 0 (UpdateC (Some [1; 2; 3]%R) (Some [0; 1; 0]%R))] (scene_init unit unit ints exts []) in
  snd (get "a.jpg" st) = Ok i /\
  exists j k, snd (scene_use (fun _ _ _ => None) (fun _ => Nan) (fun _ _ _ => None) (fun _ _ v => v) unit unit i (WorldToPixel (one_point (num3 (V3 60 20 50)))) (run [Get "c.tif"] (fst (get "a.jpg" st)))) =
    Ok (VPixels [(Num j, Num k)]) /\ j = 3%R /\ k = 1%R.
Proof.
  assert (W : Factory_Spec.without_extension "a.jpg" "a") by (apply (Factory_Spec.extension "a" "jpg"); [discriminate|discriminate|cbn; intuition discriminate]).
  destruct (C96_documents (fun _ _ _ => None) (fun _ => Nan) (fun _ _ _ => None) (fun _ _ v => v) demo_project (fun _ _ p => p) (fun _ _ p => p) unit (fun _ => Ok tt) tt unit tt (fun _ _ l => l)
    (fun K d xy b _ => demo_projects K d xy b) (fun _ _ _ _ _ _ _ => eq_refl) unit (fun _ => Some tt) demo_int_doc demo_ext_doc "EPSG:32635" tt [("pt", demo_interior)] demo_shots []
    "a.jpg" (Shot "a" (Some "pt") (V3 10 20 100) 0 0 0) demo_interior [Get "b.tif"; Use 0 (UpdateC (Some [1; 2; 3]%R) (Some [0; 1; 0]%R))]) as (ints & exts & i & E1 & E2 & E3 & B).
  - exact demo_cameras_in.
  - exact demo_shots_in.
  - cbn. repeat constructor; cbn; intuition discriminate.
  - reflexivity.
  - split; [intros k []|]. split; [reflexivity|]. exists 1%R. reflexivity.
  - apply (same_stem _ _ _ "a"); [|exact W|split; [left; reflexivity|reflexivity]]. intros s [[<-|[<-|[]]] E]; discriminate E.
  - apply (has_one _ _ _ "pt"); [reflexivity|discriminate|left; reflexivity].
  - exact demo_usable.
  - exists ints, exts, i. split; [exact E1|]. split; [exact E2|]. split; [exact E3|]. exists 3%R, 1%R. split; [|auto].
    destruct (B [Get "c.tif"]) as (_ & B2).
    + assert (Wc : forall st, Factory_Spec.without_extension "c.tif" st -> st = "c").
      { intros st H. rewrite <- (Factory_Proof.stem_without _ _ H). reflexivity. }
      split; [|intros xyz opk [X|[]]; discriminate X]. intros n s' [X|[]] Hs. injection X as <-. exfalso. destruct Hs as [[[<-|[<-|[]]] E]|st _ Hst [[<-|[<-|[]]] E]]; try discriminate E; rewrite (Wc st Hst) in E; discriminate E.
    + intros j [X|[X|[X|[]]]]; discriminate X.
    + apply B2. exists (Intr 1 1 (3 / 2) 1), (V3 50 0 50), (3 / 2, 0)%R. unfold pixel_intr, demo_interior. cbn [in_sensor in_w in_h in_fx in_fy in_cx in_cy kfx kfy kcx kcy sh_pos sh_omega sh_phi sh_kappa].
      split; [unfold Q2R; cbn; repeat split; lra|]. split.
      { unfold seen_at, turned, about_x, about_y, about_z, vadd. cbn. rewrite cos_0, sin_0. f_equal; ring. }
      cbn [vx vy vz]. split; [lra|]. split.
      * unfold distorts, opencv_distorts. cbn. unfold tilted. cbn [fst snd]. rewrite cos_0, sin_0. unfold Q2R. cbn. repeat split; try lra; field.
      * unfold to_pixel. cbn. f_equal; f_equal; lra.
Qed.
