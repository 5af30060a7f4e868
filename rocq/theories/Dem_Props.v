(** Property theorems: C06 DEM read window, C07 DEM crop and mask. *)
From Coq Require Import List ZArith QArith Reals Bool.
From Verif Require Import Py Flt Grid_Model Grid_Spec Remap_Model Dem_Model Dem_Spec Dem_Proof.
Import ListNotations.
Open Scope Z_scope.

(** C06: the returned array is an in-range, non-empty part of the DEM, its transform keeps every position, and it has
    every pixel the two requested areas touch. *)
Theorem C06_dem_window : forall dem_band count dem t req1 req2 a t',
  get_init_dem dem_band count dem t req1 req2 = Ok (a, t') ->
  exists r0 c0, sub_array a dem r0 c0 /\ same_position t' t r0 c0 /\
  exists a1 r1 c1, sub_array a1 dem r1 c1 /\
    (forall r c, in_im (ah dem) (aw dem) r c -> touches req1 r c -> r1 <= r < r1 + ah a1 /\ c1 <= c < c1 + aw a1) /\
    (forall r c, r1 <= r < r1 + ah a1 -> c1 <= c < c1 + aw a1 -> touches (req2 a1) r c ->
       r0 <= r < r0 + ah a /\ c0 <= c < c0 + aw a).
Proof. exact init_dem_ok. Qed.
Print Assumptions C06_dem_window.

(** C06: no overlap, or a band that does not exist, is an OrthorityError. *)
Theorem C06_outside_dem : forall dem_band count dem t req1 req2,
  ~ overlaps (ah dem) (aw dem) req1 \/ dem_band < 1 \/ count < dem_band ->
  get_init_dem dem_band count dem t req1 req2 = Err OrthorityError.
Proof. exact init_dem_outside. Qed.
Print Assumptions C06_outside_dem.

(** C06: the only other error is rasterio's WindowError, raised when the area for the actual heights misses all of
    the DEM read for the conservative heights (C61 is about when it can not). *)
Theorem C06_errors : forall dem_band count dem t req1 req2 e,
  get_init_dem dem_band count dem t req1 req2 = Err e ->
  e = OrthorityError \/ (e = WindowError /\ overlaps (ah dem) (aw dem) req1 /\
    exists a1 r1 c1, sub_array a1 dem r1 c1 /\ overlaps (ah dem) (aw dem) (req2 a1) /\
      forall r c, r1 <= r < r1 + ah a1 -> c1 <= c < c1 + aw a1 -> ~ touches (req2 a1) r c).
Proof. exact init_dem_errors. Qed.
Print Assumptions C06_errors.

Example C06_case :
  let dem := Arr 4 6 (fun r c => Num (IZR (10 * r + c))) in
  exists a t', get_init_dem 1 1 dem (Aff 2 0 10 0 (-2) 20) (FWin (1#2) (-3) 4 5) (fun _ => FWin (3#2) (1#2) 10 1) = Ok (a, t') /\
  ah a = 2 /\ aw a = 4 /\ aget a 1 0 = Num 11.
Proof. eexists. eexists. split; [reflexivity|]. repeat split. Qed.

Example C06_window_error_case :
  let dem := Arr 4 6 (fun r c => Num (IZR (10 * r + c))) in
  get_init_dem 1 1 dem (Aff 2 0 10 0 (-2) 20) (FWin 0 0 2 2) (fun _ => FWin 4 0 2 2) = Err WindowError.
Proof. reflexivity. Qed.

(** C07: the crop keeps every wanted pixel in place, turns all others to NaN, and is the smallest such crop. *)
Theorem C07_crop : forall dem t poly_ji poly mask a t' warn,
  mask_dem dem t poly_ji poly true mask = Ok (a, t', warn) ->
  exists r0 c0, same_position t' t r0 c0 /\
  0 <= r0 /\ 0 <= c0 /\ r0 + ah a <= ah dem /\ c0 + aw a <= aw dem /\
  (forall r c, wanted dem poly r c ->
     r0 <= r < r0 + ah a /\ c0 <= c < c0 + aw a /\ aget a (r - r0) (c - c0) = aget dem r c) /\
  (forall r c, 0 <= r < ah a -> 0 <= c < aw a -> ~ wanted dem poly (r0 + r) (c0 + c) ->
     aget a r c = if mask then Nan else aget dem (r0 + r) (c0 + c)) /\
  (exists c, wanted dem poly r0 c) /\ (exists c, wanted dem poly (r0 + ah a - 1) c) /\
  (exists r, wanted dem poly r c0) /\ (exists r, wanted dem poly r (c0 + aw a - 1)).
Proof. exact mask_dem_ok. Qed.
Print Assumptions C07_crop.

(** C07: OrthorityError exactly when nothing is wanted. *)
Theorem C07_nothing_left : forall dem t poly_ji poly crop mask,
  (~ exists r c, wanted dem poly r c) <-> mask_dem dem t poly_ji poly crop mask = Err OrthorityError.
Proof. exact mask_dem_error. Qed.
Print Assumptions C07_nothing_left.

(** C07: the partial coverage warning is silent exactly when the boundary is inside the DEM and all DEM pixels inside
    it are valid. *)
Theorem C07_coverage_warning : forall dem t poly_ji poly crop mask a t' warn,
  ah poly = ah dem -> aw poly = aw dem ->
  mask_dem dem t poly_ji poly crop mask = Ok (a, t', warn) ->
  (warn = false <->
   (forall r c, in_im (ah dem) (aw dem) r c -> aget poly r c = true -> aget dem r c <> Nan) /\
   (forall j i, In (j, i) poly_ji -> in_im (ah dem) (aw dem) i j)).
Proof. exact mask_dem_warning. Qed.
Print Assumptions C07_coverage_warning.

Example C07_case :
  let dem := Arr 4 5 (fun r c => if (r =? 2) && (c =? 2) then Nan else Num (IZR (10 * r + c))) in
  let poly := Arr 4 5 (fun r c => (1 <=? r) && (1 <=? c) && (c <=? 3)) in
  exists a t', mask_dem dem (Aff 1 0 0 0 (-1) 0) [(1, 1); (3, 1); (3, 3); (1, 3)] poly true true = Ok (a, t', true) /\
  ah a = 3 /\ aw a = 3 /\ aget a 0 0 = Num 11 /\ aget a 1 1 = Nan.
Proof. eexists. eexists. split; [reflexivity|]. repeat split. Qed.
