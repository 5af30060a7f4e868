(** An OpenSfM reconstruction, and where it images points (C106). *)
From Coq Require Import String List Reals QArith Qreals ZArith.
From Verif Require Import Py Flt Mat Frame_Model Validate_Model Params_Model Params_Spec Make_Spec Scene_Spec Tags_Spec.
From Verif Require Factory_Spec.
Import ListNotations.
Open Scope string_scope.
Open Scope list_scope.

(** A camera of a reconstruction, with focal lengths and principal point in units of the larger side of the image. *)
Record osfm_interior (y : list (pykey * pyval)) (c : Make_Spec.interior) : Prop := {
  o_keys : NoDup (map fst y);
  o_known : forall k v, In (k, v) y -> osfm_key y (in_type c) k;
  o_type : exists s t, kget (KStr "projection_type") y = Some (PStr s) /\ any_case s t /\ osfm_type t (in_type c);
  o_width : kget (KStr "width") y = Some (PInt (in_w c));
  o_height : kget (KStr "height") y = Some (PInt (in_h c));
  o_focal : (exists f, kget (KStr "focal") y = Some f /\ is_real f (in_fx c) /\ in_fy c = in_fx c) \/
            (exists fx fy, kget (KStr "focal") y = None /\ kget (KStr "focal_x") y = Some fx /\ kget (KStr "focal_y") y = Some fy /\ is_real fx (in_fx c) /\ is_real fy (in_fy c));
  o_no_sensor : kget (KStr "sensor_size") y = None /\ in_sensor c = None;
  o_cx : match kget (KStr "cx") y with Some v => is_real v (in_cx c) | None => real_at y "c_x" (in_cx c) end;
  o_cy : match kget (KStr "cy") y with Some v => is_real v (in_cy c) | None => real_at y "c_y" (in_cy c) end;
  o_coefs : forall k, coefficient (in_type c) k -> real_at y k (in_coef c k);
  o_others : forall k, ~ coefficient (in_type c) k -> in_coef c k = 0%R
}.

(** An image of a reconstruction: the ID of its camera, translation and rotation vectors. *)
Record rshot := RShot { rs_name : string; rs_id : string; rs_t : vec; rs_r : vec }.

Definition three_floats (v : pyval) (p : vec) : Prop := exists a b c, v = PList [PFloat a; PFloat b; PFloat c] /\ p = V3 (Q2R a) (Q2R b) (Q2R c).
Definition a_float (v : pyval) (x : R) : Prop := exists q, v = PFloat q /\ x = Q2R q.

(** Cameras by ID, images, and the latitude, longitude and altitude of the origin. *)
Record recon := Recon { rc_cams : list (string * Make_Spec.interior); rc_shots : list rshot; rc_lat : R; rc_lon : R; rc_alt : R }.

Definition recon_in (v : pyval) (rc : recon) : Prop :=
  (exists cams, at_key v "cameras" (PDict cams) /\ NoDup (map fst (rc_cams rc)) /\
     Forall2 (fun kv sc => exists id y, kv = (KStr id, PDict y) /\ bare id (fst sc) /\ osfm_interior y (snd sc)) cams (rc_cams rc)) /\
  (exists shots, at_key v "shots" (PDict shots) /\ NoDup (map rs_name (rc_shots rc)) /\
     Forall2 (fun kv s => exists id p t r, kv = (KStr (rs_name s), p) /\ bare id (rs_id s) /\ at_key p "camera" (PStr id) /\
                at_key p "translation" t /\ three_floats t (rs_t s) /\ at_key p "rotation" r /\ three_floats r (rs_r s)) shots (rc_shots rc)) /\
  (exists ref lat lon alt, at_key v "reference_lla" ref /\ at_key ref "latitude" lat /\ a_float lat (rc_lat rc) /\
     at_key ref "longitude" lon /\ a_float lon (rc_lon rc) /\ at_key ref "altitude" alt /\ a_float alt (rc_alt rc)).

(** The shot of an image: its name is that of the image, or else that without extension. *)
Inductive rshot_of (l : list rshot) (name : string) (s : rshot) : Prop :=
| r_same_name : In s l -> rs_name s = name -> rshot_of l name s
| r_same_stem : forall st, (forall s', In s' l -> rs_name s' <> name) -> Factory_Spec.without_extension name st -> In s l -> rs_name s = st -> rshot_of l name s.

(** The camera of a shot: that with its ID, or with an empty ID the only one. *)
Inductive rcamera_of (cams : list (string * Make_Spec.interior)) (s : rshot) (c : Make_Spec.interior) : Prop :=
| r_with_id : rs_id s <> "" -> In (rs_id s, c) cams -> rcamera_of cams s c
| r_only : forall id, rs_id s = "" -> cams = [(id, c)] -> rcamera_of cams s c.

(** [X], turned about the axis [r] by the angle that is its length (in radians), is [Y]: Rodrigues' formula. *)
Definition rotated (r X Y : vec) : Prop :=
  let a := sqrt (dot r r) in
  (a = 0 -> Y = X)%R /\
  (a <> 0 -> Y = vadd (vadd (vscale (cos a) X) (vscale (sin a / a) (cross r X))) (vscale ((1 - cos a) / (a * a) * dot r X) r))%R.

(** OpenSfM (opensfm.org/docs/geometry.html): world point [X] is at [v] (right, down, forward) in the axes of a camera with this pose, when
    the origin of the reconstruction is at [origin]. *)
Definition osfm_seen (origin t r X v : vec) : Prop := exists Y, rotated r (vsub X origin) Y /\ v = vadd Y t.

(** Focal lengths and principal point in pixels: normalised by the larger side of the image. *)
Definition osfm_intr (c : Make_Spec.interior) (K : intr) : Prop :=
  let s := IZR (Z.max (in_w c) (in_h c)) in
  (kfx K = in_fx c * s /\ kfy K = in_fy c * s /\ kcx K = (IZR (in_w c) - 1) / 2 + in_cx c * s /\ kcy K = (IZR (in_h c) - 1) / 2 + in_cy c * s)%R.

(** The x axis of the world is not along the optical axis of the camera, where angles are not unique. *)
Definition not_locked (r : vec) : Prop := forall e, rotated r (V3 1 0 0) e -> (Rabs (vz e) < 1)%R.
