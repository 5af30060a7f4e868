(** Parameter documents, and the camera that goes with each image (C96). *)
From Coq Require Import String List Reals QArith Qreals ZArith.
From Verif Require Import Py Flt Mat Validate_Model Params_Model Params_Spec Cam_Model Rpc_Model Scene_Model Make_Spec.
From Verif Require Factory_Spec.
Import ListNotations.
Open Scope string_scope.
Open Scope list_scope.
Open Scope Z_scope.

(** * In dictionaries *)

(** Exterior parameters of an image: camera ID, position and angles. *)
Definition has_id (e : dict mval) (id : option string) : Prop :=
  match id with
  | Some s => dget "camera" e = Some (MV (PStr s))
  | None => dget "camera" e = None \/ dget "camera" e = Some (MV PNone)
  end.
Definition posed (e : dict mval) (t : vec) (o p k : R) : Prop :=
  (exists v, dget "xyz" e = Some v /\ is_reals v [vx t; vy t; vz t]) /\ (exists v, dget "opk" e = Some v /\ is_reals v [o; p; k]).

(** Camera options: [distort] and [alpha]. *)
Definition options (kw : dict mval) (d : bool) : Prop :=
  (forall k, In k (map fst kw) -> In k ["distort"; "alpha"]) /\
  match dget "distort" kw with Some v => v = MV (PBool d) | None => d = true end /\
  exists a, number_at kw "alpha" 1 a.

(** No image that has this camera ID is asked for, and this camera is not updated. *)
Definition left_alone (exts : dict (dict mval)) (id : option string) (i : nat) (l : list act) : Prop :=
  (forall n e id', In (Get n) l -> Factory_Spec.found exts n e -> has_id e id' -> id' <> id) /\
  (forall xyz opk, ~ In (Use i (UpdateC xyz opk)) l).

(** Nobody turns distortion off. *)
Definition keeps_distortion (l : list act) : Prop := forall j, ~ In (Use j (SetDistortC false)) l.

(** * In documents *)

(** A number, 0 when it is not given. *)
Definition real_at (y : list (pykey * pyval)) (k : string) (x : R) : Prop :=
  match kget (KStr k) y with Some v => is_real v x | None => x = 0%R end.

(** docs/file_formats/oty_int.rst: the interior parameters of a camera. *)
Record camera_in (y : list (pykey * pyval)) (c : Make_Spec.interior) : Prop := {
  y_keys : NoDup (map fst y);
  y_known : forall k, In k (map fst y) -> exists s, k = KStr s /\ (In s ["name"; "type"; "im_size"; "focal_len"] \/ optional_param (in_type c) s);
  y_type : exists s t, kget (KStr "type") y = Some (PStr s) /\ any_case s t /\ frame_type_name (in_type c) t;
  y_size : kget (KStr "im_size") y = Some (PList [PInt (in_w c); PInt (in_h c)]);
  y_focal : exists v, kget (KStr "focal_len") y = Some v /\
    ((is_real v (in_fx c) /\ in_fy c = in_fx c) \/ exists fx fy, v = PList [fx; fy] /\ is_real fx (in_fx c) /\ is_real fy (in_fy c));
  y_sensor : match kget (KStr "sensor_size") y, in_sensor c with
             | None, None => True
             | Some v, Some (sw, sh) => exists a b, v = PList [a; b] /\ is_real a sw /\ is_real b sh
             | _, _ => False
             end;
  y_cx : real_at y "cx" (in_cx c);
  y_cy : real_at y "cy" (in_cy c);
  y_coefs : forall k, coefficient (in_type c) k -> real_at y k (in_coef c k);
  y_others : forall k, ~ coefficient (in_type c) k -> in_coef c k = 0%R
}.

(** An interior parameter file: cameras by ID; or the parameters of one camera, possibly with its name; in the old format under "camera". *)
Inductive cameras_in : pyval -> list (string * Make_Spec.interior) -> Prop :=
| by_id : forall d cams, d <> [] -> NoDup (map fst d) -> ~ In (KStr "camera") (map fst d) ->
    Forall2 (fun kv sc => exists y, kv = (KStr (fst sc), PDict y) /\ camera_in y (snd sc)) d cams -> cameras_in (PDict d) cams
| one_camera : forall y c, camera_in y c -> kget (KStr "name") y = None -> cameras_in (PDict y) [("unknown", c)]
| one_named : forall y c s, camera_in y c -> kget (KStr "name") y = Some (PStr s) -> cameras_in (PDict y) [(s, c)]
| old_format : forall d doc cams, kget (KStr "camera") d = Some doc -> cameras_in_section doc cams -> cameras_in (PDict d) cams
with cameras_in_section : pyval -> list (string * Make_Spec.interior) -> Prop :=
| section_by_id : forall d cams, d <> [] -> NoDup (map fst d) ->
    Forall2 (fun kv sc => exists y, kv = (KStr (fst sc), PDict y) /\ camera_in y (snd sc)) d cams -> cameras_in_section (PDict d) cams
| section_one : forall y c, camera_in y c -> kget (KStr "name") y = None -> cameras_in_section (PDict y) [("unknown", c)]
| section_named : forall y c s, camera_in y c -> kget (KStr "name") y = Some (PStr s) -> cameras_in_section (PDict y) [(s, c)].

(** docs/file_formats/oty_ext.rst: an image of an exterior parameter file. *)
Record shot := Shot { sh_name : string; sh_id : option string; sh_pos : vec; sh_omega : R; sh_phi : R; sh_kappa : R }.

Definition three_reals (v : pyval) (x y z : R) : Prop := exists a b c, v = PList [a; b; c] /\ is_real a x /\ is_real b y /\ is_real c z.
Definition at_key (d : pyval) (k : string) (v : pyval) : Prop := exists items, d = PDict items /\ kget (KStr k) items = Some v.
Definition a_number (v : pyval) : Prop := exists x, is_real v x.

Definition shot_in (f : pyval) (s : shot) : Prop :=
  at_key f "type" (PStr "Feature") /\
  (exists p, at_key f "properties" p /\ at_key p "filename" (PStr (sh_name s)) /\
     at_key p "camera" (match sh_id s with Some i => PStr i | None => PNone end) /\
     (exists v, at_key p "xyz" v /\ three_reals v (vx (sh_pos s)) (vy (sh_pos s)) (vz (sh_pos s))) /\
     (exists v, at_key p "opk" v /\ three_reals v (sh_omega s) (sh_phi s) (sh_kappa s))) /\
  (exists g l, at_key f "geometry" g /\ at_key g "type" (PStr "Point") /\ at_key g "coordinates" (PList l) /\ l <> [] /\ Forall a_number l).

Definition shots_in (doc : pyval) (crs : string) (l : list shot) : Prop :=
  at_key doc "type" (PStr "FeatureCollection") /\ at_key doc "world_crs" (PStr crs) /\
  exists fs, at_key doc "features" (PList fs) /\ fs <> [] /\ Forall2 shot_in fs l.

(** The shot of an image: its name is that of the image, or else that without extension. *)
Definition named (l : list shot) (n : string) (s : shot) : Prop := In s l /\ sh_name s = n.
Inductive shot_of (l : list shot) (name : string) (s : shot) : Prop :=
| same_name : named l name s -> shot_of l name s
| same_stem : forall st, (forall s', ~ named l name s') -> Factory_Spec.without_extension name st -> named l st s -> shot_of l name s.

(** The camera of a shot: that with its ID, or without an ID the only one. *)
Inductive camera_of (cams : list (string * Make_Spec.interior)) (s : shot) (c : Make_Spec.interior) : Prop :=
| has_one : forall id, sh_id s = Some id -> id <> "" -> In (id, c) cams -> camera_of cams s c
| only : forall id, sh_id s = None \/ sh_id s = Some "" -> cams = [(id, c)] -> camera_of cams s c.

(** No other image of the same camera is asked for, and this camera is not updated. *)
Definition kept (l : list shot) (s : shot) (i : nat) (acts : list act) : Prop :=
  (forall n s', In (Get n) acts -> shot_of l n s' -> sh_id s' <> sh_id s) /\ (forall xyz opk, ~ In (Use i (UpdateC xyz opk)) acts).
