(** Property theorems: C16-C19 parameter file round trips, C63 interior parameter reading.  In the file level
    theorems [enc] and [dec] are the text encoder and loader, only assumed to give back the one document written. *)
From Coq Require Import List String ZArith QArith Bool.
From Verif Require Import Py Validate_Model Files_Model Params_Model Params_Spec Params_Proof.
Import ListNotations.
Open Scope string_scope.

(** C16: valid interior parameters come back from the file, camera by camera, in order. *)
Theorem C16_int_round_trip : forall enc dec fs path ow d,
  NoDup (dkeys d) -> d <> [] -> ~ In "camera" (dkeys d) ->
  Forall (fun kv => valid_int_param (snd kv)) d ->
  writable fs path ow -> (forall doc, int_doc d = Ok doc -> text_faithful enc dec doc) ->
  exists fs' d', write_int_param enc path d ow fs = (fs', Ok tt) /\
                 read_oty_int_param dec path fs' = (fs', Ok d') /\ same_dicts d' d.
Proof. exact int_round_trip. Qed.
Print Assumptions C16_int_round_trip.

(** C16: a camera with the ID "camera" comes back as "unknown", and every other camera is lost. *)
Theorem C16_camera_id_refuted : forall d p doc,
  NoDup (dkeys d) -> Forall (fun kv => valid_int_param (snd kv)) d -> dget "camera" d = Some p -> int_doc d = Ok doc ->
  exists p', read_int_doc doc = Ok [("unknown", p')] /\ same_dict p' p.
Proof. exact int_camera_id_lost. Qed.
Print Assumptions C16_camera_id_refuted.

(** C16: with no cameras the file that is written can not be read. *)
Theorem C16_empty_refuted : int_doc [] = Ok (PDict []) /\ read_int_doc (PDict []) = Err StopIteration.
Proof. exact int_empty_fails. Qed.
Print Assumptions C16_empty_refuted.

Definition example_int_param : dict mval :=
  [("cam_type", MCam Cbrown); ("focal_len", MTup [PFloat 1; PFloat 2]); ("k1", MV (PFloat (1 # 10)));
   ("im_size", MTup [PInt 100; PInt 50]); ("sensor_size", MTup [PFloat 36; PFloat 24])].

Lemma example_int_param_valid : valid_int_param example_int_param.
Proof.
  split; [repeat constructor; cbn; intuition discriminate|]. exists Cbrown. split; [discriminate|]. split; [reflexivity|].
  split; [eexists; reflexivity|]. split; [eexists; split; [reflexivity|right; eexists; reflexivity]|].
  intros k v H Hk. apply Py_Proof.dget_In in H. cbn in H, Hk.
  destruct H as [H|[H|[H|[H|[H|[]]]]]]; inversion H; subst; try (exfalso; tauto);
    (split; [unfold optional_param; cbn; tauto|cbn; eexists; reflexivity]).
Qed.

Example C16_case : exists d', NoDup (dkeys [("a", example_int_param)]) /\
  Forall (fun kv => valid_int_param (snd kv)) [("a", example_int_param)] /\
  (do doc <- int_doc [("a", example_int_param)]; read_int_doc doc) = Ok d' /\
  d' = [("a", [("cam_type", MCam Cbrown); ("im_size", MTup [PInt 100; PInt 50]); ("focal_len", MTup [PFloat 1; PFloat 2]);
               ("sensor_size", MTup [PFloat 36; PFloat 24]); ("k1", MV (PFloat (1 # 10)))])].
Proof.
  eexists. split; [repeat constructor; cbn; tauto|]. split; [constructor; [exact example_int_param_valid|constructor]|]. split; reflexivity.
Qed.

(** C17: valid exterior parameters and their CRS come back from the file.  [to_lla] (the transformation of the point
    geometry) is only assumed to return, and the CRS string only to parse back to the same CRS. *)
Theorem C17_ext_round_trip :
  forall crs_t (crs_str : crs_t -> string) crs_parse is_projected to_lla enc dec fs path ow crs d,
  is_projected crs = true -> crs_parse (crs_str crs) = Some crs -> (forall x y z, exists q, to_lla crs x y z = Ok q) ->
  NoDup (dkeys d) -> d <> [] -> Forall (fun kv => valid_ext_param (snd kv)) d ->
  writable fs path ow ->
  (forall doc, ext_doc crs_t crs_str is_projected to_lla crs d = Ok doc -> text_faithful enc dec doc) ->
  exists fs' d', write_ext_param enc crs_str is_projected to_lla path crs d ow fs = (fs', Ok tt) /\
                 oty_reader dec crs_parse path fs' = (fs', Ok (crs, d')) /\ same_dicts d' d.
Proof. exact ext_round_trip. Qed.
Print Assumptions C17_ext_round_trip.

(** C17: the file is GeoJSON: the feature of each image is at the longitude, latitude and height of its position. *)
Theorem C17_geojson :
  forall crs_t (crs_str : crs_t -> string) is_projected to_lla crs d doc,
  ext_doc crs_t crs_str is_projected to_lla crs d = Ok doc ->
  exists feats, doc = PDict [(KStr "type", PStr "FeatureCollection"); (KStr "world_crs", PStr (crs_str crs)); (KStr "features", PList feats)] /\
  Forall2 (fun kv f => forall x y z, dget "xyz" (snd kv) = Some (MTup [x; y; z]) ->
             exists lon lat h, to_lla crs x y z = Ok (lon, lat, h) /\ geojson_point f lon lat h) d feats.
Proof. exact ext_geojson. Qed.
Print Assumptions C17_geojson.

(** C17: positions are only written in a projected CRS. *)
Theorem C17_projected : forall crs_t (crs_str : crs_t -> string) is_projected to_lla enc path crs d ow fs, is_projected crs = false ->
  write_ext_param enc crs_str is_projected to_lla path crs d ow fs = (fs, Err CrsError).
Proof. exact ext_not_projected. Qed.
Print Assumptions C17_projected.

(** C17: with no images the file that is written is rejected. *)
Theorem C17_empty_refuted :
  forall crs_t (crs_str : crs_t -> string) crs_parse is_projected to_lla crs doc,
  is_projected crs = true -> ext_doc crs_t crs_str is_projected to_lla crs [] = Ok doc ->
  read_ext_doc crs_t crs_parse doc = Err ParamError.
Proof. exact ext_empty_rejected. Qed.
Print Assumptions C17_empty_refuted.

Definition example_ext : dict (dict mval) :=
  [("im1.tif", [("xyz", MTup [PFloat 1; PInt 2; PFloat 3]); ("opk", MTup [PFloat 0; PFloat 0; PInt 1]); ("camera", MV (PStr "c"))]);
   ("im2.tif", [("opk", MTup [PInt 0; PInt 0; PInt 0]); ("camera", MV PNone); ("xyz", MTup [PInt 1; PInt 2; PInt 3])])].

Example C17_case :
  let crs_str (c : nat) := "EPSG:32735" in
  let crs_parse (s : string) := Some 0%nat in
  let lla (_ : nat) (_ _ _ : pyval) : res (Q * Q * Q) := Ok (1, 2, 3)%Q in
  (do doc <- ext_doc nat crs_str (fun _ => true) lla 0%nat example_ext; read_ext_doc nat crs_parse doc) =
  Ok (0%nat, [("im1.tif", [("xyz", MTup [PFloat 1; PInt 2; PFloat 3]); ("opk", MTup [PFloat 0; PFloat 0; PInt 1]); ("camera", MV (PStr "c"))]);
       ("im2.tif", [("xyz", MTup [PInt 1; PInt 2; PInt 3]); ("opk", MTup [PInt 0; PInt 0; PInt 0]); ("camera", MV PNone)])]) /\
  Forall (fun kv => valid_ext_param (snd kv)) example_ext.
Proof.
  assert (N3 : forall a b c, number a -> number b -> number c -> numbers 3 (MTup [a; b; c])).
  { intros a b c Ha Hb Hc. eexists. split; [reflexivity|]. split; [reflexivity|]. repeat constructor; assumption. }
  split; [reflexivity|]. apply Forall_cons; [|apply Forall_cons; [|apply Forall_nil]]; cbn [snd].
  - exists (MTup [PFloat 1; PInt 2; PFloat 3]), (MTup [PFloat 0; PFloat 0; PInt 1]), (PStr "c").
    split; [apply N3; exact I|]. split; [apply N3; exact I|]. intros k. reflexivity.
  - exists (MTup [PInt 1; PInt 2; PInt 3]), (MTup [PInt 0; PInt 0; PInt 0]), PNone.
    split; [apply N3; exact I|]. split; [apply N3; exact I|].
    intros k. cbn. destruct (String.eqb k "opk") eqn:E1, (String.eqb k "xyz") eqn:E2, (String.eqb k "camera") eqn:E3; try reflexivity;
      repeat match goal with H : String.eqb _ _ = true |- _ => apply String.eqb_eq in H; subst k end; discriminate.
Qed.

(** C18: valid GCPs come back from the file, by image and in order. *)
Theorem C18_gcp_round_trip : forall enc dec fs path ow d,
  NoDup (dkeys d) -> d <> [] -> Forall (fun kv => snd kv <> [] /\ Forall valid_gcp (snd kv)) d ->
  writable fs path ow -> (forall doc, gcp_doc d = Ok doc -> text_faithful enc dec doc) ->
  exists fs' d', write_gcps enc path d ow fs = (fs', Ok tt) /\
                 read_oty_gcps dec path fs' = (fs', Ok d') /\ same_gcps d' d.
Proof. exact gcp_round_trip. Qed.
Print Assumptions C18_gcp_round_trip.

(** C18: images without GCPs are dropped. *)
Theorem C18_empty_lists_refuted : forall d,
  NoDup (dkeys d) -> Forall (fun kv => Forall valid_gcp (snd kv)) d ->
  (exists f gs, In (f, gs) d /\ gs <> []) ->
  exists doc d', gcp_doc d = Ok doc /\ read_gcp_doc doc = Ok d' /\
    same_gcps d' (filter (fun kv => match snd kv with [] => false | _ => true end) d).
Proof. exact gcp_empty_lists_lost. Qed.
Print Assumptions C18_empty_lists_refuted.

(** C18: and with no GCPs at all the file is rejected. *)
Theorem C18_no_gcps_refuted : forall d, Forall (fun kv => snd kv = []) d ->
  exists doc, gcp_doc d = Ok doc /\ read_gcp_doc doc = Err ParamError.
Proof. exact gcp_all_empty_rejected. Qed.
Print Assumptions C18_no_gcps_refuted.

Definition example_gcp (n : Z) : dict mval :=
  [("ji", MTup [PInt n; PFloat (1 # 2)]); ("xyz", MTup [PFloat 1; PFloat 2; PInt 3]); ("id", MV (PStr "g")); ("info", MV PNone)].

Example C18_case :
  let d := [("a", [example_gcp 1; example_gcp 2]); ("b", []); ("c", [example_gcp 3])] in
  (do doc <- gcp_doc d; read_gcp_doc doc) = Ok [("a", [example_gcp 1; example_gcp 2]); ("c", [example_gcp 3])] /\
  valid_gcp (example_gcp 1).
Proof.
  split; [reflexivity|].
  exists (MTup [PInt 1; PFloat (1 # 2)]), (MTup [PFloat 1; PFloat 2; PInt 3]), (PStr "g"), PNone.
  split; [eexists; split; [reflexivity|]; split; [reflexivity|repeat constructor]|].
  split; [eexists; split; [reflexivity|]; split; [reflexivity|repeat constructor]|].
  intros k. reflexivity.
Qed.

(** C19: valid RPC parameters come back from the file. *)
Theorem C19_rpc_round_trip : forall enc dec fs path ow d,
  NoDup (dkeys d) -> Forall (fun kv => valid_rpc_param (snd kv)) d ->
  writable fs path ow -> (forall doc, rpc_doc d = Ok doc -> text_faithful enc dec doc) ->
  exists fs' d', write_rpc_param enc path d ow fs = (fs', Ok tt) /\
                 read_oty_rpc_param dec path fs' = (fs', Ok d') /\ same_dicts d' d.
Proof. exact rpc_round_trip. Qed.
Print Assumptions C19_rpc_round_trip.

(** C19: one integer among the offsets and scales makes the whole written file unreadable. *)
Theorem C19_integer_refuted : forall d doc f p r k z,
  rpc_doc d = Ok doc -> In (f, p) d -> dget "rpc" p = Some (MV (PDict r)) ->
  In k ["height_off"; "height_scale"; "lat_off"; "lat_scale"; "long_off"; "long_scale"] ->
  kget (KStr k) r = Some (PInt z) ->
  read_rpc_doc doc = Err ParamError.
Proof. exact rpc_integer_rejected. Qed.
Print Assumptions C19_integer_refuted.

Definition example_rpc (h : pyval) : list (pykey * pyval) :=
  let f := PFloat 1 in let l := PList (repeat (PFloat 0) 20) in
  [(KStr "height_off", h); (KStr "height_scale", f); (KStr "lat_off", f); (KStr "lat_scale", f);
   (KStr "line_den_coeff", l); (KStr "line_num_coeff", l); (KStr "line_off", PInt 3); (KStr "line_scale", f);
   (KStr "long_off", f); (KStr "long_scale", f); (KStr "samp_den_coeff", l); (KStr "samp_num_coeff", l);
   (KStr "samp_off", f); (KStr "samp_scale", f); (KStr "err_bias", PNone)].

Definition example_rpc_param (h : pyval) : dict mval :=
  [("cam_type", MCam Crpc); ("im_size", MTup [PInt 10; PInt 20]); ("rpc", MV (PDict (example_rpc h)))].

Example C19_case :
  valid_rpc_param (example_rpc_param (PFloat 1)) /\
  (do doc <- rpc_doc [("a", example_rpc_param (PFloat 1))]; read_rpc_doc doc) = Ok [("a", example_rpc_param (PFloat 1))] /\
  (do doc <- rpc_doc [("a", example_rpc_param (PFloat 1)); ("b", example_rpc_param (PInt 1))]; read_rpc_doc doc) = Err ParamError.
Proof.
  split; [|split; reflexivity]. exists (MTup [PInt 10; PInt 20]), (example_rpc (PFloat 1)).
  split; [eexists; split; [reflexivity|split; [reflexivity|repeat constructor]]|]. split; [|split].
  - split; [|split]; intros k Hk; cbn in Hk;
      repeat (destruct Hk as [<-|Hk]; [eexists; split; [reflexivity|]; first [exact I|eexists; split; [reflexivity|split; [reflexivity|]]; repeat constructor]|]);
      destruct Hk.
  - repeat constructor; cbn; intuition discriminate.
  - intros k. reflexivity.
Qed.

(** C63: whatever the interior parameter file holds, if it is read, every camera has a frame camera type, an image
    size and a focal length, and otherwise only the optional parameters of its type. *)
Theorem C63_read_int_sound : forall doc d, read_int_doc doc = Ok d ->
  Forall (fun kv => exists c, c <> Crpc /\ dget "cam_type" (snd kv) = Some (MCam c) /\
    (exists l, dget "im_size" (snd kv) = Some (MTup l)) /\ (exists f, dget "focal_len" (snd kv) = Some f) /\
    forall k v, dget k (snd kv) = Some v -> In k ["cam_type"; "im_size"; "focal_len"] \/ optional_param c k) d.
Proof. exact read_int_sound. Qed.
Print Assumptions C63_read_int_sound.

(** C63: text that can't be loaded is a ParamError, a missing file a FileNotFoundError, for every reader. *)
Theorem C63_syntax : forall crs_t (crs_parse : string -> option crs_t) dec path fs,
  let result {A} (e : exn) (r : fsys * res A) := r = (fs, Err e) in
  let all e := result e (read_oty_int_param dec path fs) /\ result e (read_oty_rpc_param dec path fs) /\
               result e (read_oty_gcps dec path fs) /\ result e (oty_reader dec crs_parse path fs) in
  (dget path fs = None -> all FileNotFoundError) /\
  (forall text, dget path fs = Some text -> dec text = None -> all ParamError).
Proof. exact read_syntax. Qed.
Print Assumptions C63_syntax.

(** C63: camera types are accepted in any case, and no others. *)
Theorem C63_type : forall y s p, kget (KStr "type") y = Some (PStr s) -> parse_yaml_param y = Ok p ->
  exists c t, frame_type_name c t /\ any_case s t /\ dget "cam_type" p = Some (MCam c).
Proof. exact type_sound. Qed.
Print Assumptions C63_type.

Theorem C63_type_case : forall c s t l f, frame_type_name c t -> any_case s t -> number f ->
  parse_yaml_param [(KStr "type", PStr s); (KStr "im_size", PList l); (KStr "focal_len", f)] =
  Ok [("cam_type", MCam c); ("im_size", MTup l); ("focal_len", MV f)].
Proof. exact type_any_case. Qed.
Print Assumptions C63_type_case.

(** C63: a bad file is not always reported as a ParamError. *)
Theorem C63_errors_are_param_errors_refuted :
  read_int_doc PNone = Err TypeError /\ read_int_doc (PList [PInt 1]) = Err AttributeError /\
  read_int_doc (PDict []) = Err StopIteration /\
  read_int_doc (PDict [(KStr "a", PDict [(KStr "type", PInt 1); (KStr "im_size", PNone); (KStr "focal_len", PNone)])]) = Err AttributeError.
Proof. repeat split. Qed.
Print Assumptions C63_errors_are_param_errors_refuted.

Example C63_case :
  read_int_doc (PDict [(KStr "name", PStr "cam"); (KStr "type", PStr "Brown"); (KStr "im_size", PList [PInt 4; PInt 3]);
                       (KStr "focal_len", PInt 1); (KStr "k1", PInt 0)]) =
  Ok [("cam", [("cam_type", MCam Cbrown); ("im_size", MTup [PInt 4; PInt 3]); ("focal_len", MV (PInt 1)); ("k1", MV (PInt 0))])].
Proof. reflexivity. Qed.
