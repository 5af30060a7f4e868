(** The documented CSV formats and CRS rules. *)
From Coq Require Import String List QArith.
From Verif Require Import Py Factory_Model Csv_Model.
Import ListNotations.
Open Scope string_scope.

Definition xyz_fields := ["x"; "y"; "z"].
Definition lla_fields := ["latitude"; "longitude"; "altitude"].
Definition opk_fields := ["omega"; "phi"; "kappa"].
Definition rpy_fields := ["roll"; "pitch"; "yaw"].

(** The format of a file with given fields: a full position and a full orientation are there, and (x, y, z) and (omega, phi,
    kappa) are preferred. *)
Inductive format_of (fields : list string) : csv_format -> Prop :=
| F_xyz_opk : In "filename" fields -> incl xyz_fields fields -> incl opk_fields fields -> format_of fields XyzOpk
| F_xyz_rpy : In "filename" fields -> incl xyz_fields fields -> ~ incl opk_fields fields -> incl rpy_fields fields -> format_of fields XyzRpy
| F_lla_opk : In "filename" fields -> ~ incl xyz_fields fields -> incl lla_fields fields -> incl opk_fields fields -> format_of fields LlaOpk
| F_lla_rpy : In "filename" fields -> ~ incl xyz_fields fields -> incl lla_fields fields -> ~ incl opk_fields fields ->
              incl rpy_fields fields -> format_of fields LlaRpy.

(** The fields that a format is made of. *)
Definition recognised : list string := ("filename" :: xyz_fields ++ lla_fields ++ opk_fields ++ rpy_fields)%list.

(** The text of a row under a field. *)
Definition cell (fields row : list string) (k v : string) : Prop :=
  exists i, nth_error fields i = Some k /\ nth_error row i = Some v.

(** The row has no text under a field. *)
Definition no_cell (fields row : list string) (k : string) : Prop := forall v, ~ cell fields row k v.

Section Rows.
Variable pyfloat : string -> res Q.
Variable radians : Q -> Q.
Variable from_lla to_lla : Q * Q * Q -> Q * Q * Q.
Variable rpy_to_opk : Q * Q * Q -> Q * Q * Q -> Q * Q * Q.

(** The number of a row under a field. *)
Definition num_cell (fields row : list string) (k : string) (q : Q) : Prop := exists v, cell fields row k v /\ pyfloat v = Ok q.

Definition cells3 (fields row : list string) (ks : list string) (t : Q * Q * Q) : Prop :=
  match ks, t with
  | [a; b; c], (x, y, z) => num_cell fields row a x /\ num_cell fields row b y /\ num_cell fields row c z
  | _, _ => False
  end.

(** An angle in radians. *)
Definition in_rad (in_radians : bool) (a : Q * Q * Q) : Q * Q * Q :=
  match a with (x, y, z) => if in_radians then (x, y, z) else (radians x, radians y, radians z) end.

(** Position and orientation of a row, for each format. *)
Inductive pose (in_radians : bool) (fields row : list string) : csv_format -> Q * Q * Q -> Q * Q * Q -> Prop :=
| P_xyz_opk : forall xyz opk, cells3 fields row xyz_fields xyz -> cells3 fields row opk_fields opk ->
    pose in_radians fields row XyzOpk xyz (in_rad in_radians opk)
| P_xyz_rpy : forall xyz rpy, cells3 fields row xyz_fields xyz -> cells3 fields row rpy_fields rpy ->
    pose in_radians fields row XyzRpy xyz (rpy_to_opk (in_rad in_radians rpy) (to_lla xyz))
| P_lla_opk : forall lla opk, cells3 fields row lla_fields lla -> cells3 fields row opk_fields opk ->
    pose in_radians fields row LlaOpk (from_lla lla) (in_rad in_radians opk)
| P_lla_rpy : forall lla rpy, cells3 fields row lla_fields lla -> cells3 fields row rpy_fields rpy ->
    pose in_radians fields row LlaRpy (from_lla lla) (rpy_to_opk (in_rad in_radians rpy) lla).

(** What a row gives: the name of the file without its directory; position and orientation; and the camera, if there is one.
    Every number field of the file holds a number. *)
Definition row_gives (in_radians : bool) (fmt : csv_format) (fields row : list string) (name : string) (e : csv_ext) : Prop :=
  (exists f, cell fields row "filename" f /\ name = path_name f) /\
  (forall k, In k fields -> In k number_fields -> exists q, num_cell fields row k q) /\
  pose in_radians fields row fmt (ce_xyz e) (ce_opk e) /\
  match ce_camera e with
  | Some c => cell fields row "camera" c
  | None => no_cell fields row "camera"
  end.
End Rows.

(** The names of the fields: those of the user if there are any, otherwise those of the header if there is one, otherwise
    "filename x y z omega phi kappa"; without surrounding white space and in lower case. *)
Inductive names_of (first : list string) : option (list string) -> bool -> list string -> Prop :=
| N_user : forall user header, user <> [] -> names_of first (Some user) header user
| N_header : forall user, user = None \/ user = Some [] -> names_of first user true first
| N_legacy : forall user, user = None \/ user = Some [] ->
    names_of first user false ("filename" :: xyz_fields ++ opk_fields)%list.
