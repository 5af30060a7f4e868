(** Vocabulary for the parameter file properties. *)
From Coq Require Import List String Ascii ZArith QArith Bool.
From Verif Require Import Py Validate_Model Params_Model.
Import ListNotations.
Open Scope string_scope.

(** Python dictionary equality. *)
Definition same_dict {V} (a b : dict V) : Prop := forall k, dget k a = dget k b.

(** The same keys in the same order, with equal dictionaries. *)
Definition same_dicts (a b : dict (dict mval)) : Prop :=
  Forall2 (fun x y => fst x = fst y /\ same_dict (snd x) (snd y)) a b.

Definition same_gcps (a b : dict (list (dict mval))) : Prop :=
  Forall2 (fun x y => fst x = fst y /\ Forall2 same_dict (snd x) (snd y)) a b.

(** Numbers as Python sees them ([isinstance(v, (int, float))]). *)
Definition number (v : pyval) : Prop :=
  match v with PInt _ | PFloat _ | PNanF | PBool _ => True | _ => False end.
Definition float (v : pyval) : Prop := match v with PFloat _ | PNanF => True | _ => False end.
Definition numbers (n : nat) (v : mval) : Prop :=
  exists l, v = MTup l /\ List.length l = n /\ Forall number l.

(** docs/file_formats/oty_int: the optional parameters of each camera type. *)
Definition optional_param (c : camtype) (k : string) : Prop :=
  In k ["sensor_size"; "cx"; "cy"] \/
  match c with
  | Cpinhole | Crpc => False
  | Cbrown => In k ["k1"; "k2"; "p1"; "p2"; "k3"]
  | Cfisheye => In k ["k1"; "k2"; "k3"; "k4"]
  | Copencv => In k ["k1"; "k2"; "p1"; "p2"; "k3"; "k4"; "k5"; "k6"; "s1"; "s2"; "s3"; "s4"; "tx"; "ty"]
  end.

(** Interior parameters as [create_camera] takes them: a frame camera type, an image size tuple, a focal length that
    is a number or a tuple, and supported optional parameters, of which the sensor size is a tuple and the others
    plain values. *)
Definition valid_int_param (p : dict mval) : Prop :=
  NoDup (dkeys p) /\
  exists c, c <> Crpc /\ dget "cam_type" p = Some (MCam c) /\
  (exists l, dget "im_size" p = Some (MTup l)) /\
  (exists f, dget "focal_len" p = Some f /\ ((exists v, f = MV v /\ number v) \/ (exists l, f = MTup l))) /\
  forall k v, dget k p = Some v -> ~ In k ["cam_type"; "im_size"; "focal_len"] ->
    optional_param c k /\ (if String.eqb k "sensor_size" then exists l, v = MTup l else exists x, v = MV x).

(** Exterior parameters of one image: exactly xyz, opk and camera. *)
Definition valid_ext_param (p : dict mval) : Prop :=
  exists xyz opk cam, numbers 3 xyz /\ numbers 3 opk /\
  same_dict p [("xyz", xyz); ("opk", opk); ("camera", MV cam)].

Definition valid_gcp (g : dict mval) : Prop :=
  exists ji xyz id info, numbers 2 ji /\ numbers 3 xyz /\
  same_dict g [("ji", ji); ("xyz", xyz); ("id", MV id); ("info", MV info)].

(** RPC parameters of one image. *)
Definition coefficients (v : pyval) : Prop := exists l, v = PList l /\ List.length l = 20%nat /\ Forall float l.

Definition valid_rpc (r : list (pykey * pyval)) : Prop :=
  (forall k, In k ["height_off"; "height_scale"; "lat_off"; "lat_scale"; "long_off"; "long_scale"] ->
     exists v, kget (KStr k) r = Some v /\ float v) /\
  (forall k, In k ["line_off"; "line_scale"; "samp_off"; "samp_scale"] ->
     exists v, kget (KStr k) r = Some v /\ number v) /\
  (forall k, In k ["line_den_coeff"; "line_num_coeff"; "samp_den_coeff"; "samp_num_coeff"] ->
     exists v, kget (KStr k) r = Some v /\ coefficients v).

Definition valid_rpc_param (p : dict mval) : Prop :=
  exists im_size r, numbers 2 im_size /\ valid_rpc r /\ NoDup (dkeys p) /\
  same_dict p [("cam_type", MCam Crpc); ("im_size", im_size); ("rpc", MV (PDict r))].

(** A GeoJSON feature at a point: longitude, latitude, height. *)
Definition geojson_point (f : pyval) (lon lat h : Q) : Prop :=
  exists props, f = PDict [(KStr "type", PStr "Feature"); (KStr "properties", props);
    (KStr "geometry", PDict [(KStr "type", PStr "Point"); (KStr "coordinates", PList [PFloat lon; PFloat lat; PFloat h])])].

(** [s] is [t] with letters in any case, [t] being in lower case. *)
Inductive any_case : string -> string -> Prop :=
| AC_nil : any_case "" ""
| AC_same : forall c s t, ~ (65 <= nat_of_ascii c <= 90)%nat -> any_case s t -> any_case (String c s) (String c t)
| AC_upper : forall c c' s t, (65 <= nat_of_ascii c <= 90)%nat -> nat_of_ascii c' = (nat_of_ascii c + 32)%nat ->
    any_case s t -> any_case (String c s) (String c' t).

Definition frame_type_name (c : camtype) (s : string) : Prop :=
  match c with
  | Cpinhole => s = "pinhole" | Cbrown => s = "brown" | Cfisheye => s = "fisheye" | Copencv => s = "opencv" | Crpc => False
  end.

(** The text layer gives back what it was given. *)
Definition text_faithful (enc : pyval -> list string) (dec : string -> option pyval) (doc : pyval) : Prop :=
  dec (String.concat "" (enc doc)) = Some doc.

(** The file may be written: it does not exist or may be overwritten. *)
Definition writable (fs : dict string) (path : string) (overwrite : bool) : Prop :=
  overwrite = true \/ dget path fs = None.
