(** What single tags of images, and cameras and shots of reconstructions, mean. *)
From Coq Require Import String Ascii List Reals ZArith.
From Verif Require Import Py Validate_Model Params_Model Params_Spec Str Exif_Model Exif_Spec.
Import ListNotations.
Open Scope string_scope.
Open Scope list_scope.

(** The EXIF codes of resolution units, and their length in mm. *)
Inductive unit_mm : Z -> R -> Prop :=
| U_inch : unit_mm 2 (254 / 10)
| U_cm : unit_mm 3 10
| U_mm : unit_mm 4 1
| U_um : unit_mm 5 (1 / 1000).

(** A character is not in a text. *)
Fixpoint without (c : ascii) (s : string) : Prop :=
  match s with EmptyString => True | String x s' => x <> c /\ without c s' end.

(** Texts with a separator between them. *)
Fixpoint joined (sep : string) (l : list string) : string :=
  match l with
  | [] => ""
  | [s] => s
  | s :: l' => (s ++ sep ++ joined sep l')%string
  end.

(** The angle keys of an XMP vendor: DJI, senseFly and Pix4D, in order of preference. *)
Definition dji_angles : list string :=
  ["{http://www.dji.com/drone-dji/1.0/}GimbalRollDegree"; "{http://www.dji.com/drone-dji/1.0/}GimbalPitchDegree";
   "{http://www.dji.com/drone-dji/1.0/}GimbalYawDegree"].
Definition sensefly_angles : list string :=
  ["{http://ns.sensefly.com/Camera/1.0/}Roll"; "{http://ns.sensefly.com/Camera/1.0/}Pitch"; "{http://ns.sensefly.com/Camera/1.0/}Yaw"].
Definition pix4d_angles : list string :=
  ["{http://pix4d.com/camera/1.0/}Roll"; "{http://pix4d.com/camera/1.0/}Pitch"; "{http://pix4d.com/camera/1.0/}Yaw"].
Definition dewarp_name : string := "{http://www.dji.com/drone-dji/1.0/}DewarpData".

(** A document lacks one of some names; no document lacks all. *)
Definition lacks (xmp : option xml) (keys : list string) : Prop :=
  match xmp with None => True | Some x => exists k, In k keys /\ ~ names k x end.

(** A camera or image ID without the "v2 " that OpenSfM puts before it. *)
Definition bare (id b : string) : Prop := id = ("v2 " ++ b)%string \/ (id = b /\ forall s, id <> ("v2 " ++ s)%string).

(** The camera types of OpenSfM projection types. *)
Inductive osfm_type : string -> camtype -> Prop :=
| O_perspective : osfm_type "perspective" Cbrown
| O_simple_radial : osfm_type "simple_radial" Cbrown
| O_radial : osfm_type "radial" Cbrown
| O_brown : osfm_type "brown" Cbrown
| O_fisheye : osfm_type "fisheye" Cfisheye
| O_opencv : osfm_type "opencv" Copencv
| O_pinhole : osfm_type "pinhole" Cpinhole.

(** The focal length(s) of a camera of a reconstruction: one value, or two for x and y. *)
Inductive osfm_focal (y : list (pykey * pyval)) : mval -> Prop :=
| OF_one : forall f, kget (KStr "focal") y = Some f -> osfm_focal y (MV f)
| OF_same : forall fx fy, kget (KStr "focal") y = None -> kget (KStr "focal_x") y = Some fx -> kget (KStr "focal_y") y = Some fy ->
    val_eqb fx fy = true -> osfm_focal y (MV fx)
| OF_two : forall fx fy, kget (KStr "focal") y = None -> kget (KStr "focal_x") y = Some fx -> kget (KStr "focal_y") y = Some fy ->
    val_eqb fx fy = false -> osfm_focal y (MTup [fx; fy]).

(** The keys that a camera of a reconstruction may have. *)
Definition osfm_key (y : list (pykey * pyval)) (c : camtype) (k : pykey) : Prop :=
  exists s, k = KStr s /\
  (In s ["projection_type"; "width"; "height"; "c_x"; "c_y"] \/ optional_param c s \/
   if match kget (KStr "focal") y with Some _ => true | None => false end then s = "focal" else s = "focal_x" \/ s = "focal_y").

(** The parameters of a camera of a reconstruction. *)
Record osfm_camera (y : list (pykey * pyval)) (p : dict mval) : Prop := OsfmCamera {
  oc_type : exists s c, kget (KStr "projection_type") y = Some (PStr s) /\ osfm_type (strip white (lower (lower s))) c /\ dget "cam_type" p = Some (MCam c) /\
            (forall k v, In (k, v) y -> osfm_key y c k) /\
            (forall k, optional_param c k -> ~ In k ["cx"; "cy"] -> dget k p = option_map MV (kget (KStr k) y)) /\
            (forall k v, dget k p = Some v -> In k ["cam_type"; "im_size"; "focal_len"] \/ optional_param c k);
  oc_size : exists w h, kget (KStr "width") y = Some w /\ kget (KStr "height") y = Some h /\ dget "im_size" p = Some (MTup [w; h]);
  oc_focal : exists f, osfm_focal y f /\ dget "focal_len" p = Some f;
  oc_cx : dget "cx" p = option_map MV match kget (KStr "cx") y with Some v => Some v | None => kget (KStr "c_x") y end;
  oc_cy : dget "cy" p = option_map MV match kget (KStr "cy") y with Some v => Some v | None => kget (KStr "c_y") y end
}.
