(** Images of a CSV file (C103). *)
From Coq Require Import String List Reals QArith Qreals.
From Verif Require Import Py Mat Csv_Model Csv_Spec Scene_Spec.
Import ListNotations.

Section Table.
Variable pyfloat : string -> res Q.
Variable C : Type.
Variable radians : Q -> Q.
Variable transform : C -> C -> Q * Q * Q -> Q * Q * Q.
Variable rpy_to_opk : C -> C -> Q * Q * Q -> Q * Q * Q -> Q * Q * Q.

(** The conversions of positions and angles between CRSs; points of [transform] are (longitude, latitude, altitude) in a geographic CRS. *)
Record conversions (crs lla_crs : C) (from_lla to_lla : Q * Q * Q -> Q * Q * Q) (rpy : Q * Q * Q -> Q * Q * Q -> Q * Q * Q) : Prop := {
  to_world : forall lat lon alt, from_lla (lat, lon, alt) = transform lla_crs crs (lon, lat, alt);
  from_world : forall p lat lon alt, transform crs lla_crs p = (lon, lat, alt) -> to_lla p = (lat, lon, alt);
  angles : forall a lla, rpy a lla = rpy_to_opk crs lla_crs a lla
}.

Definition point_of (t : Q * Q * Q) (v : vec) : Prop := match t with (x, y, z) => v = V3 (Q2R x) (Q2R y) (Q2R z) end.

(** The image that a row is for.  CRSs are needed for all but (x, y, z) positions with (omega, phi, kappa) angles. *)
Definition row_shot (crs lla_crs : option C) (in_radians : bool) (fmt : csv_format) (fields row : list string) (s : shot) : Prop :=
  exists from_lla to_lla rpy e,
  (fmt = XyzOpk \/ exists c l, crs = Some c /\ lla_crs = Some l /\ conversions c l from_lla to_lla rpy) /\
  row_gives pyfloat radians from_lla to_lla rpy in_radians fmt fields row (sh_name s) e /\
  point_of (ce_xyz e) (sh_pos s) /\ point_of (ce_opk e) (V3 (sh_omega s) (sh_phi s) (sh_kappa s)) /\ sh_id s = ce_camera e.
End Table.

(** The images of a file: of rows with the same name, the last. *)
Definition finals (shots l : list shot) : Prop :=
  NoDup (map sh_name l) /\ forall s, In s l <-> exists before after, shots = (before ++ s :: after)%list /\ ~ In (sh_name s) (map sh_name after).
