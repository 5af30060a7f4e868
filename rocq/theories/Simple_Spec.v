(** Configuration and pose files of the legacy command (C97, C98). *)
From Coq Require Import String List Reals QArith Qreals ZArith.
From Verif Require Import Py Validate_Model Params_Model Params_Spec Cam_Model Make_Spec Scene_Spec Simple_Model.
Import ListNotations.
Open Scope string_scope.
Open Scope list_scope.
Open Scope Z_scope.

(** * config.yaml *)

(** A setting, or its default. *)
Definition setting (d : list (pykey * pyval)) (k : string) (default v : pyval) : Prop :=
  match kget (KStr k) d with Some x => v = x | None => v = default end.

(** The camera section: like that of an interior parameter file, but the type is lower case and may be left out, and there may be an alpha. *)
Record legacy_camera (y : list (pykey * pyval)) (c : interior) (a : R) : Prop := {
  l_known : forall k, In k (map fst y) -> exists s, k = KStr s /\ (In s ["name"; "type"; "im_size"; "focal_len"; "alpha"] \/ optional_param (in_type c) s);
  l_type : setting y "type" (PStr "pinhole") (PStr (cam_value (in_type c))) /\ in_type c <> Crpc;
  l_size : kget (KStr "im_size") y = Some (PList [PInt (in_w c); PInt (in_h c)]);
  l_focal : exists v, kget (KStr "focal_len") y = Some v /\
    ((is_real v (in_fx c) /\ in_fy c = in_fx c) \/ exists fx fy, v = PList [fx; fy] /\ is_real fx (in_fx c) /\ is_real fy (in_fy c));
  l_sensor : match kget (KStr "sensor_size") y, in_sensor c with
             | None, None => True
             | Some v, Some (sw, sh) => exists a b, v = PList [a; b] /\ is_real a sw /\ is_real b sh
             | _, _ => False
             end;
  l_cx : real_at y "cx" (in_cx c);
  l_cy : real_at y "cy" (in_cy c);
  l_coefs : forall k, coefficient (in_type c) k -> real_at y k (in_coef c k);
  l_others : forall k, ~ coefficient (in_type c) k -> in_coef c k = 0%R;
  l_alpha : match kget (KStr "alpha") y with Some v => is_real v a | None => a = 1%R end
}.

(** The document: camera [c] with alpha [a], the settings [o] of the ortho section, and the full remap setting [d]. *)
Definition configures (doc : pyval) (c : interior) (a : R) (d : bool) (o : list (pykey * pyval)) : Prop :=
  exists cfg y, doc = PDict cfg /\ kget (KStr "camera") cfg = Some (PDict y) /\ legacy_camera y c a /\
  (kget (KStr "ortho") cfg = Some (PDict o) \/ (kget (KStr "ortho") cfg = None /\ o = [])) /\
  (forall k, In k (map fst o) -> exists s, k = KStr s) /\ setting o "full_remap" (PBool true) (PBool d).

(** The settings that are options of orthorectification. *)
Inductive passed (o : list (pykey * pyval)) (k : string) (v : pyval) : Prop :=
| as_it_is : kget (KStr k) o = Some v -> ~ In k ["crs"; "dem_band"; "full_remap"; "driver"; "tile_size"; "nodata"; "interleave"; "photometric"] ->
    ~ (In k ["interp"; "dem_interp"] /\ v = PStr "cubic_spline") -> passed o k v
| spline : In k ["interp"; "dem_interp"] -> kget (KStr k) o = Some (PStr "cubic_spline") -> v = PStr "cubic" -> passed o k v.

(** * Pose file *)

(** The last row of a name. *)
Definition row_for (rows : list (list string)) (name : string) (row : list string) : Prop :=
  exists before after, rows = before ++ row :: after /\ hd_error row = Some name /\ (forall r, In r after -> hd_error r <> Some name).

(** Name, position and angles: numbers as text, possibly followed by something else. *)
Definition row_values (pyfloat : string -> res Q) (row : list string) (l : list Q) : Prop :=
  List.length l = 6%nat /\ exists name texts extra, row = name :: texts ++ extra /\ Forall2 (fun s q => pyfloat s = Ok q) texts l.

(** All rows, apart from empty ones, are so. *)
Definition rows_ok (pyfloat : string -> res Q) (rows : list (list string)) : Prop := forall row, In row rows -> row <> [] -> exists l, row_values pyfloat row l.

(** Degrees to radians. *)
Definition in_radians (degrees : Q) (r : R) : Prop := (r * 180 = Q2R degrees * PI)%R.

(** * Camera *)

(** A call that leaves the pose and the settings of a camera as they are. *)
Definition leaves_camera (k : call) : Prop := match k with SetAlphaC _ | SetDistortC _ | UpdateC _ _ => False | _ => True end.

(** * Images *)

(** One group of calls for each pattern, in order: for the files it matches when the outputs of the groups before are there. *)
Inductive groups (glob : list string -> string -> list string) : list job -> list string -> list job -> Prop :=
| groups_nil : forall done, groups glob done [] []
| groups_cons : forall done spec specs js rest, map j_src js = glob (map j_out done) spec -> groups glob (done ++ js) specs rest -> groups glob done (spec :: specs) (js ++ rest).

(** The same for a run that stopped: the files of a pattern up to some point, and all those of the patterns before. *)
Inductive started (glob : list string -> string -> list string) : list job -> list string -> list job -> Prop :=
| started_none : forall done, started glob done [] []
| started_within : forall done spec specs js left, map j_src js ++ left = glob (map j_out done) spec -> started glob done (spec :: specs) js
| started_cons : forall done spec specs js rest, map j_src js = glob (map j_out done) spec -> started glob (done ++ js) specs rest -> started glob done (spec :: specs) (js ++ rest).

(** The configuration file: the default one if there is none. *)
Definition conf_of (default_conf : string) (a : args) : string := match a_read a with Some f => f | None => default_conf end.
