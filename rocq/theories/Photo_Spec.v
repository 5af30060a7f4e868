(** What reading cameras from tagged images is meant to give (C101, C102). *)
From Coq Require Import String List Reals ZArith.
From Verif Require Import Py Mat Frame_Model Frame_Spec Exif_Model Exif_Spec Csv_Model Read_Spec Photo_Model.
From Verif Require Tags_Spec.
Import ListNotations.
Open Scope R_scope.

(** * The world CRS *)

(** The UTM zone of a longitude: zones are 6 degrees wide, and zone 1 starts at 180 degrees west. *)
Definition in_zone (zone : Z) (lon : R) : Prop := exists turns : Z, -180 + 6 * (IZR zone - 1) <= lon + 360 * IZR turns < -180 + 6 * IZR zone.

(** The EPSG code of the UTM zone of a position: 326xx north of the equator, and 327xx south of it. *)
Definition utm_of (lat lon : R) (code : Z) : Prop :=
  exists zone, (1 <= zone <= 60)%Z /\ in_zone zone lon /\ (0 <= lat -> code = (32600 + zone)%Z) /\ (lat < 0 -> code = (32700 + zone)%Z).

Definition average (l : list R) (m : R) : Prop := m * INR (List.length l) = fold_right Rplus 0 l.

(** A CRS argument that is fine, and the CRS it gives. *)
Definition crs_given {C} (ok : C -> bool) (a : crs_arg C) (o : option C) : Prop :=
  (a = NoCrs /\ o = None) \/ exists c, a = ACrs c /\ ok c = true /\ o = Some c.

Section Reader.
Variable C : Type.
Variables is_projected is_geographic : C -> bool.
Variable epsg : Z -> C.
Variable F : Type.
Variable filename : F -> string.
Variable open_exif : F -> res exif.

(** The tags of all files, by name. *)
Definition tags_read (files : list F) (out : res (dict exif)) : Prop :=
  reads_as (fun f => match open_exif f with Ok e => Ok (filename f, e) | Err x => Err x end)
           (fun x => match x with FileNotFoundError => FileNotFoundError | _ => RuntimeError end) files out.

(** What making a reader of some files gives: the CRS arguments are looked at first, then the files; without a CRS argument, the world CRS
    is that of the UTM zone of the mean position. *)
Inductive reader_made (files : list F) (crs lla_crs : crs_arg C) : res (xreader C) -> Prop :=
| bad_crs : (forall o, ~ crs_given is_projected crs o) -> reader_made files crs lla_crs (Err CrsError)
| bad_lla_crs : (forall o, ~ crs_given is_geographic lla_crs o) -> reader_made files crs lla_crs (Err CrsError)
| bad_file : forall o l x, crs_given is_projected crs o -> crs_given is_geographic lla_crs l -> tags_read files (Err x) -> reader_made files crs lla_crs (Err x)
| asked : forall c l exifs, crs_given is_projected crs (Some c) -> crs_given is_geographic lla_crs l -> tags_read files (Ok exifs) ->
    reader_made files crs lla_crs (Ok (XReader exifs (Some c) l))
| no_files : forall l, crs = NoCrs -> crs_given is_geographic lla_crs l -> tags_read files (Ok []) -> reader_made files crs lla_crs (Ok (XReader [] None l))
| automatic : forall l exifs positions lat lon code, crs = NoCrs -> crs_given is_geographic lla_crs l -> tags_read files (Ok exifs) -> exifs <> [] ->
    Forall2 (fun kv p => e_lla (snd kv) = Some p) exifs positions ->
    average (map (fun p => fst (fst p)) positions) lat -> average (map (fun p => snd (fst p)) positions) lon -> utm_of lat lon code ->
    reader_made files crs lla_crs (Ok (XReader exifs (Some (epsg code)) l))
| no_position : forall l exifs name e, crs = NoCrs -> crs_given is_geographic lla_crs l -> tags_read files (Ok exifs) -> In (name, e) exifs -> e_lla e = None ->
    reader_made files crs lla_crs (Err ParamError).
End Reader.

(** * Cameras *)

(** Focal lengths and principal point (in pixels) and distortion of an image, from its tags:
    - dewarp values (focal lengths, principal point, and distortion), in pixels of the tagged image size;
    - focal length and sensor size in mm;
    - 35mm equivalent focal length: the larger side of the sensor is 36mm. *)
Inductive sees_by (e : exif) : intr -> (R * R -> R * R) -> Prop :=
| by_dewarp : forall fx fy cx cy k1 k2 p1 p2 k3 tw th K,
    usable_dewarp e [fx; fy; cx; cy; k1; k2; p1; p2; k3] tw th -> (0 < tw)%Z -> (0 < th)%Z ->
    kfx K = fx / IZR tw * IZR (fst (e_im_size e)) -> kfy K = fy / IZR th * IZR (snd (e_im_size e)) ->
    kcx K = (IZR (fst (e_im_size e)) - 1) / 2 + cx / IZR (Z.max tw th) * IZR (Z.max (fst (e_im_size e)) (snd (e_im_size e))) ->
    kcy K = (IZR (snd (e_im_size e)) - 1) / 2 + cy / IZR (Z.max tw th) * IZR (Z.max (fst (e_im_size e)) (snd (e_im_size e))) ->
    sees_by e K (opencv_distort [k1; k2; p1; p2; k3])
| by_focal : forall f sw sh K,
    (forall d tw th, ~ usable_dewarp e d tw th) -> tagged (e_focal_len e) f -> e_sensor_size e = Some (sw, sh) -> sw <> 0 -> sh <> 0 ->
    kfx K = f / sw * IZR (fst (e_im_size e)) -> kfy K = f / sh * IZR (snd (e_im_size e)) ->
    kcx K = (IZR (fst (e_im_size e)) - 1) / 2 -> kcy K = (IZR (snd (e_im_size e)) - 1) / 2 -> sees_by e K (fun xy => xy)
| by_focal_35_sensor : forall f35 sw sh K,
    (forall d tw th, ~ usable_dewarp e d tw th) -> (forall f, ~ tagged (e_focal_len e) f) -> tagged (e_focal_len_35 e) f35 ->
    e_sensor_size e = Some (sw, sh) -> sw <> 0 -> sh <> 0 ->
    kfx K = f35 * (Rmax sw sh / 36) / sw * IZR (fst (e_im_size e)) -> kfy K = f35 * (Rmax sw sh / 36) / sh * IZR (snd (e_im_size e)) ->
    kcx K = (IZR (fst (e_im_size e)) - 1) / 2 -> kcy K = (IZR (snd (e_im_size e)) - 1) / 2 -> sees_by e K (fun xy => xy)
| by_focal_35 : forall f35 K,
    (forall d tw th, ~ usable_dewarp e d tw th) -> e_sensor_size e = None -> tagged (e_focal_len_35 e) f35 ->
    kfx K = f35 / 36 * IZR (fst (e_im_size e)) -> kfy K = f35 / 36 * IZR (fst (e_im_size e)) ->
    kcx K = (IZR (fst (e_im_size e)) - 1) / 2 -> kcy K = (IZR (snd (e_im_size e)) - 1) / 2 -> sees_by e K (fun xy => xy).

(** Degrees. *)
Definition deg (a : R) : R := a / 180 * PI.

(** The name of the camera of an image: those of its make, model and serial number that are given. *)
Definition camera_name (e : exif) : string :=
  match (given_part (e_make e) ++ given_part (e_model e) ++ given_part (e_serial e))%list with
  | [] => "unknown"%string
  | parts => Tags_Spec.joined " "%string parts
  end.

(** Images with the camera name of [e] have its interior parameters, and no tag has several focal lengths. *)
Definition one_camera {F} (open_exif : F -> res exif) (files : list F) (e : exif) : Prop :=
  forall g e', In g files -> open_exif g = Ok e' -> camera_name e' = camera_name e ->
    single (e_focal_len e') /\ single (e_focal_len_35 e') /\ forall p, interior e' p <-> interior e p.
