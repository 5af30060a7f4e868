(** Property theorems: C101 the reader of tagged images and its world CRS, and C102 from tagged images to pixels. *)
From Coq Require Import String List Reals ZArith Lra Lia Permutation.
From Verif Require Import Py Flt Mat Rot_Spec Remap_Model Frame_Model Frame_Spec Undist_Model Cam_Model Proj_Spec Exif_Model Exif_Spec Read_Model Read_Spec Csv_Model Factory_Model Photo_Model Photo_Spec.
From Verif Require Fit_Model Rot_Proof Photo_Proof.
Import ListNotations.
Open Scope string_scope.
Open Scope list_scope.
Open Scope R_scope.

Section Photo.
Variable C : Type.
Variables is_projected is_geographic : C -> bool.
Variable epsg : Z -> C.
Variable F : Type.
Variable filename : F -> string.
Variable open_exif : F -> res exif.
Variable transform : C -> C -> vec -> vec.
Notation exif_reader := (exif_reader C is_projected is_geographic epsg F filename open_exif).
Notation reader_made := (reader_made C is_projected is_geographic epsg F filename open_exif).

(** C101: a reader has the tags of all files, and the world CRS that was asked for, or that of the UTM zone of the mean position; a bad
    argument, file or a missing position is the error, in this order. *)
Theorem C101_reader : forall files crs lla_crs evs out, exif_reader files crs lla_crs evs = Some out -> reader_made files crs lla_crs out.
Proof. exact (Photo_Proof.reader_is_made C is_projected is_geographic epsg F filename open_exif). Qed.

(** C101: once the threads have ended there is an outcome, and it does not depend on how they were scheduled. *)
Theorem C101_ends : forall files crs lla_crs evs, complete files evs -> exists out, exif_reader files crs lla_crs evs = Some out.
Proof. exact (Photo_Proof.reader_ends C is_projected is_geographic epsg F filename open_exif). Qed.

Theorem C101_schedules : forall files crs lla_crs evs evs' out out',
  exif_reader files crs lla_crs evs = Some out -> exif_reader files crs lla_crs evs' = Some out' -> out = out'.
Proof. exact (Photo_Proof.reader_schedules C is_projected is_geographic epsg F filename open_exif). Qed.

(** C101: the CRSs do not depend on the order of the files. *)
Theorem C101_order : forall files files' crs lla_crs evs evs' r r', Permutation files files' -> NoDup (map filename files) ->
  exif_reader files crs lla_crs evs = Some (Ok r) -> exif_reader files' crs lla_crs evs' = Some (Ok r') ->
  xr_crs r = xr_crs r' /\ xr_lla_crs r = xr_lla_crs r'.
Proof. exact (Photo_Proof.reader_order C is_projected is_geographic epsg F filename open_exif). Qed.

(** C101: images of one zone, all north or all south of the equator, get the CRS of that zone. *)
Theorem C101_one_zone : forall files lla_crs evs r zone (north : bool), files <> [] -> (1 <= zone <= 60)%Z ->
  exif_reader files NoCrs lla_crs evs = Some (Ok r) ->
  (forall f e lat lon alt, In f files -> open_exif f = Ok e -> e_lla e = Some (lat, lon, alt) ->
     -180 + 6 * (IZR zone - 1) <= lon < -180 + 6 * IZR zone /\ (if north then 0 <= lat else lat < 0)) ->
  xr_crs r = Some (epsg (if north then 32600 + zone else 32700 + zone)%Z).
Proof. exact (Photo_Proof.reader_one_zone C is_projected is_geographic epsg F filename open_exif). Qed.

Variable cv_project : intr -> list R -> R * R -> R * R.
Variable cv_undistort : intr -> list R -> R * R -> R * R.
Notation photo_camera := (photo_camera cv_project cv_undistort).
Notation from_images := (from_images C is_projected is_geographic epsg F filename open_exif transform).
Variable cv_surf : string -> arr fl -> fl * fl -> option fl.
Variable cast_nan : string -> fl.
Variable cv_image : string -> arr pix -> fl * fl -> option pix.
Variable convert : string -> string -> pix -> pix.
Notation do_call := (do_call cv_surf cast_nan cv_image convert).

(** C102: after any requests for cameras, that of an image takes the point that is at [v] (right, down, forward) in the axes of a camera at the
    tagged position, looking down with its top to the front of the body, on a body with the tagged roll, pitch and yaw, to the pixel that the
    tagged focal length and distortion give. *)
Theorem C102_pixels : forall files crs evs fac c f e history distort alpha K dist l lat lon alt roll pitch yaw nx ny,
  (forall g e', open_exif g = Ok e' -> e_filename e' = filename g) ->
  from_images files crs (ACrs l) evs = Some (Ok (fac, Some c)) ->
  In f files -> open_exif f = Ok e -> (forall g e', In g files -> filename g = filename f -> open_exif g = Ok e' -> e' = e) ->
  one_camera open_exif files e -> sees_by e K dist -> (distort = true \/ forall d tw th, ~ usable_dewarp e d tw th) ->
  e_lla e = Some (lat, lon, alt) -> e_rpy e = Some (roll, pitch, yaw) ->
  let to_world lat lon alt := transform l c (V3 lon lat alt) in
  north_is lat lon alt to_world nx ny -> Rabs (vx (rpy_world (deg roll) (deg pitch) (deg yaw) nx ny (V3 0 0 1))) < 1 ->
  let create := photo_camera distort alpha in
  let st := frame_run create history fac in
  exists i o, snd (frame_get create (filename f) st) = Ok i /\ nth_error (f_heap (fst (frame_get create (filename f) st))) i = Some o /\
  forall v X, vz v <> 0 -> X = vadd (transform l c (V3 lon lat alt)) (rpy_world (deg roll) (deg pitch) (deg yaw) nx ny (V3 (vx v) (- vy v) (- vz v))) ->
    snd (do_call (photo_object o) (WorldToPixel (one_point (num3 X)))) = Ok (VPixels [to_pixel K (dist (vx v / vz v, vy v / vz v))]).
Proof. exact (Photo_Proof.photo_pixels C is_projected is_geographic epsg F filename open_exif transform cv_project cv_undistort cv_surf cast_nan cv_image convert). Qed.

(** C102: with distortion switched off, dewarp data give the pixel of the undistorted image (its intrinsics are those of C34). *)
Theorem C102_undistorted : forall files crs evs fac c f e history alpha K fx fy cx cy k1 k2 p1 p2 k3 tagw tagh d l lat lon alt roll pitch yaw nx ny,
  (forall g e', open_exif g = Ok e' -> e_filename e' = filename g) ->
  from_images files crs (ACrs l) evs = Some (Ok (fac, Some c)) ->
  In f files -> open_exif f = Ok e -> (forall g e', In g files -> filename g = filename f -> open_exif g = Ok e' -> e' = e) ->
  one_camera open_exif files e -> usable_dewarp e [fx; fy; cx; cy; k1; k2; p1; p2; k3] tagw tagh -> sees_by e K (opencv_distort [k1; k2; p1; p2; k3]) ->
  (k3 <> 0 /\ d = [k1; k2; p1; p2; k3] \/ k3 = 0 /\ d = [k1; k2; p1; p2]) ->
  e_lla e = Some (lat, lon, alt) -> e_rpy e = Some (roll, pitch, yaw) ->
  let to_world lat lon alt := transform l c (V3 lon lat alt) in
  north_is lat lon alt to_world nx ny -> Rabs (vx (rpy_world (deg roll) (deg pitch) (deg yaw) nx ny (V3 0 0 1))) < 1 ->
  let create := photo_camera false alpha in
  let st := frame_run create history fac in
  exists i o, snd (frame_get create (filename f) st) = Ok i /\ nth_error (f_heap (fst (frame_get create (filename f) st))) i = Some o /\
  forall v X, vz v <> 0 -> X = vadd (transform l c (V3 lon lat alt)) (rpy_world (deg roll) (deg pitch) (deg yaw) nx ny (V3 (vx v) (- vy v) (- vz v))) ->
    snd (do_call (photo_object o) (WorldToPixel (one_point (num3 X)))) =
    Ok (VPixels [to_pixel (undistort_intrinsic (cv_undistort K d) (fst (e_im_size e)) (snd (e_im_size e)) alpha) (vx v / vz v, vy v / vz v)]).
Proof. exact (Photo_Proof.photo_undistorted C is_projected is_geographic epsg F filename open_exif transform cv_project cv_undistort cv_surf cast_nan cv_image convert). Qed.

(** C102: reading succeeds when every image has a position, angles and what its interior parameters need. *)
Theorem C102_success : forall files crs l evs, complete files evs ->
  (crs = NoCrs \/ exists c, crs = ACrs c /\ is_projected c = true) -> is_geographic l = true ->
  (forall f, In f files -> exists e lla rpy p, open_exif f = Ok e /\ e_lla e = Some lla /\ e_rpy e = Some rpy /\ interior e p /\ single (e_focal_len e) /\ single (e_focal_len_35 e)) ->
  exists fac c, from_images files crs (ACrs l) evs = Some (Ok (fac, c)).
Proof. exact (Photo_Proof.photo_success C is_projected is_geographic epsg F filename open_exif transform). Qed.

(** C102: a CRS of the wrong kind, a file that cannot be read and an image without a position are the errors of making a reader (C101). *)
Theorem C102_errors : forall files crs lla_crs evs x, complete files evs -> reader_made files crs lla_crs (Err x) ->
  from_images files crs lla_crs evs = Some (Err x).
Proof. exact (Photo_Proof.photo_errors C is_projected is_geographic epsg F filename open_exif transform). Qed.

(** C102: and only then. *)
Theorem C102_needs : forall files crs lla_crs evs fac c f e, from_images files crs lla_crs evs = Some (Ok (fac, c)) -> In f files -> open_exif f = Ok e ->
  (forall g e', In g files -> filename g = filename f -> open_exif g = Ok e' -> e' = e) ->
  (exists lla, e_lla e = Some lla) /\ (exists rpy, e_rpy e = Some rpy) /\ (single (e_focal_len e) -> single (e_focal_len_35 e) -> exists p, interior e p) /\ (exists w, c = Some w).
Proof. exact (Photo_Proof.photo_needs C is_projected is_geographic epsg F filename open_exif transform). Qed.
End Photo.
Print Assumptions C101_reader.
Print Assumptions C101_ends.
Print Assumptions C101_schedules.
Print Assumptions C101_order.
Print Assumptions C101_one_zone.
Print Assumptions C102_pixels.
Print Assumptions C102_undistorted.
Print Assumptions C102_success.
Print Assumptions C102_errors.
Print Assumptions C102_needs.

(** C101: images either side of the 180 degree meridian (in zones 60 and 1) get the CRS of zone 31, on the other side of the earth. *)
Theorem C101_meridian_refuted : exists (files : list bool) (filename : bool -> string) open_exif evs r,
  exif_reader Z (fun _ => true) (fun _ => true) (fun z => z) bool filename open_exif files NoCrs (ACrs 4979%Z) evs = Some (Ok r) /\
  xr_crs r = Some (32600 + 31)%Z /\
  forall f e lat lon alt, In f files -> open_exif f = Ok e -> e_lla e = Some (lat, lon, alt) -> ~ in_zone 31 lon /\ (in_zone 60 lon \/ in_zone 1 lon).
Proof. exact Photo_Proof.meridian_lost. Qed.
Print Assumptions C101_meridian_refuted.

(** An image of a DJI camera at latitude 1, longitude 2 and 100 m, looking down with its top to the north, and with a 35mm equivalent focal
    length of 36mm; in a CRS with 100 km per degree. *)
Definition demo_number (s : string) : res R :=
  if String.eqb s "0" then Ok 0 else if String.eqb s "1" then Ok 1 else if String.eqb s "2" then Ok 2 else if String.eqb s "36" then Ok 36
  else if String.eqb s "100" then Ok 100 else if String.eqb s "-90" then Ok (-90) else Err ValueError.
Definition dji_tag (s : string) : string := "{http://www.dji.com/drone-dji/1.0/}" ++ s.
Definition demo_file (f : unit) : res exif :=
  exif_init demo_number (fun _ => Err ValueError) (fun _ => Err ValueError) "a.jpg" (300, 400)%Z [("EXIF_Make", "DJI"); ("EXIF_FocalLengthIn35mmFilm", "(36)")] []
    (Some (Node "x" None [(dji_tag "GpsLatitude", "1"); (dji_tag "GpsLongtitude", "2"); (dji_tag "AbsoluteAltitude", "100");
                          (dji_tag "GimbalRollDegree", "0"); (dji_tag "GimbalPitchDegree", "-90"); (dji_tag "GimbalYawDegree", "0")] [])).
Definition demo_transform (l c : Z) (p : vec) : vec := V3 (vx p * 100000) (vy p * 100000) (vz p).

Example C102_case : forall cv_project cv_undistort cv_surf cast_nan cv_image convert history,
  let create := photo_camera cv_project cv_undistort true 1 in
  exists fac, from_images Z (fun _ => true) (fun _ => true) (fun z => z) unit (fun _ => "a.jpg") demo_file demo_transform [tt] NoCrs (ACrs 4979%Z) [Finish 0; Collect; Collect] =
    Some (Ok (fac, Some 32631%Z)) /\
  let st := frame_run create history fac in
  exists i o, snd (frame_get create "a.jpg" st) = Ok i /\ nth_error (f_heap (fst (frame_get create "a.jpg" st))) i = Some o /\
    snd (do_call cv_surf cast_nan cv_image convert (photo_object o) (WorldToPixel (one_point (Num 200001, Num 99998, Num 90)))) = Ok (VPixels [(Num 179.5, Num 259.5)]).
Proof.
  intros cv_project cv_undistort cv_surf cast_nan cv_image convert history create.
  assert (OE : exists e, demo_file tt = Ok e /\ e_filename e = "a.jpg" /\ e_im_size e = (300, 400)%Z /\ e_lla e = Some (1, 2, 100) /\ e_rpy e = Some (0 * 1 + 0, -90 * 1 + 90, 0 * 1 + 0) /\
    e_dewarp e = None /\ e_sensor_size e = None /\ e_focal_len e = TNone /\ e_focal_len_35 e = TOne 36).
  { eexists. split; [reflexivity|]. repeat split. }
  destruct OE as (e & HO & Hnm & Hsz & Hl & Hr & Hd & Hs & Hf & H35).
  assert (ND : forall d tw th, ~ usable_dewarp e d tw th) by (intros d tw th (E & _); congruence).
  assert (T35 : tagged (e_focal_len_35 e) 36) by (split; [exact H35|lra]).
  assert (HI : interior e (Fit_Model.IntParam Fit_Model.Pinhole 300 400 [36 / 36] None None None [])).
  { pose proof (I_focal_35 e 36 ND Hs T35) as H. rewrite Hsz in H. exact H. }
  assert (S1 : single (e_focal_len e)) by (rewrite Hf; exact I). assert (S2 : single (e_focal_len_35 e)) by (rewrite H35; exact I).
  destruct (C102_success Z (fun _ => true) (fun _ => true) (fun z => z) unit (fun _ => "a.jpg") demo_file demo_transform [tt] NoCrs 4979%Z [Finish 0; Collect; Collect]) as (fac & c & E).
  - exists [Finish 0]. split; [reflexivity|]. intros [|i] Hi; [left; reflexivity|cbn in Hi; lia].
  - auto.
  - reflexivity.
  - intros [] _. exists e, (1, 2, 100). do 2 eexists. repeat (split; [eassumption|]). assumption.
  - exists fac.
    assert (EC : c = Some 32631%Z).
    { unfold Photo_Model.from_images in E. destruct (exif_reader _ _ _ _ _ _ _ _ _ _ _) as [[r|]|] eqn:Er; try discriminate.
      assert (EX : xr_crs r = Some 32631%Z).
      { refine (C101_one_zone Z (fun _ => true) (fun _ => true) (fun z => z) unit (fun _ => "a.jpg") demo_file _ _ _ r 31%Z true _ _ Er _); [discriminate|lia|].
        intros [] e' lat lon alt _ He' Hl'. rewrite HO in He'. injection He' as <-. rewrite Hl in Hl'. injection Hl' as <- <- <-. split; lra. }
      destruct (exif_read_int _); [|discriminate]. destruct (exif_read_ext _ _ _); [|discriminate]. injection E as _ <-. exact EX. }
    subst c. split; [exact E|]. cbv zeta.
    destruct (C102_pixels Z (fun _ => true) (fun _ => true) (fun z => z) unit (fun _ => "a.jpg") demo_file demo_transform cv_project cv_undistort cv_surf cast_nan cv_image convert
      [tt] NoCrs [Finish 0; Collect; Collect] fac 32631%Z tt e history true 1 (Intr 300 300 149.5 199.5) (fun xy => xy) 4979%Z 1 2 100 (0 * 1 + 0) (-90 * 1 + 90) (0 * 1 + 0) 0 1) as (i & o & G1 & G2 & G3).
    + intros [] e' He'. rewrite HO in He'. injection He' as <-. exact Hnm.
    + exact E.
    + left. reflexivity.
    + exact HO.
    + intros [] e' _ _ He'. congruence.
    + intros [] e' _ He' _. rewrite HO in He'. injection He' as <-. split; [exact S1|]. split; [exact S2|]. intros p. reflexivity.
    + apply (by_focal_35 e 36); try assumption; rewrite Hsz; cbn; lra.
    + auto.
    + exact Hl.
    + exact Hr.
    + split; [lra|]. exists (/ 50). split; [lra|]. apply Rot_Proof.vec_eq; cbn; lra.
    + unfold deg, rpy_world, from_ned, about_x, about_y, about_z. cbn. replace ((-90 * 1 + 90) / 180 * PI) with 0 by field. replace ((0 * 1 + 0) / 180 * PI) with 0 by field. rewrite sin_0, cos_0.
      apply Rabs_def1; lra.
    + exists i, o. split; [exact G1|]. split; [exact G2|].
      specialize (G3 (V3 1 2 10) (V3 200001 99998 90)). change (num3 (V3 200001 99998 90)) with (Num 200001, Num 99998, Num 90) in G3. rewrite G3.
      * unfold to_pixel. cbn. repeat f_equal; lra.
      * cbn. lra.
      * unfold deg, rpy_world, from_ned, about_x, about_y, about_z, demo_transform. cbn. replace ((-90 * 1 + 90) / 180 * PI) with 0 by field. replace ((0 * 1 + 0) / 180 * PI) with 0 by field. rewrite sin_0, cos_0.
        apply Rot_Proof.vec_eq; cbn; lra.
Qed.

(** The reader of that image, with no CRS asked for, and for two schedules. *)
Example C101_case : exists r, forall evs, In evs [[Finish 0; Collect; Collect]; [Collect; Finish 0; Collect; Collect]] ->
  exif_reader Z (fun _ => true) (fun _ => true) (fun z => z) unit (fun _ => "a.jpg") demo_file [tt] NoCrs (ACrs 4979%Z) evs = Some (Ok r) /\ xr_crs r = Some 32631%Z.
Proof.
  assert (E : exists r, exif_reader Z (fun _ => true) (fun _ => true) (fun z => z) unit (fun _ => "a.jpg") demo_file [tt] NoCrs (ACrs 4979%Z) [Finish 0; Collect; Collect] = Some (Ok r)).
  { eexists. reflexivity. }
  destruct E as (r & E). exists r. intros evs Hevs. assert (E' : exif_reader Z (fun _ => true) (fun _ => true) (fun z => z) unit (fun _ => "a.jpg") demo_file [tt] NoCrs (ACrs 4979%Z) evs = Some (Ok r)).
  { destruct Hevs as [<-|[<-|[]]]; exact E. }
  split; [exact E'|]. refine (C101_one_zone Z (fun _ => true) (fun _ => true) (fun z => z) unit (fun _ => "a.jpg") demo_file _ _ _ r 31%Z true _ _ E' _); [discriminate|lia|].
  intros [] e lat lon alt _ He Hl. assert (L : forall x, demo_file tt = Ok x -> e_lla x = Some (1, 2, 100)) by (intros x Hx; unfold demo_file in Hx; vm_compute in Hx; injection Hx as <-; reflexivity).
  apply L in He. rewrite He in Hl. injection Hl as <- <- <-. split; lra.
Qed.
