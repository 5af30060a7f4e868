(** What the calls of RPC and GCP cameras compute, in terms of the arguments they were made with (C93, C94). *)
From Coq Require Import String List Reals ZArith.
From Verif Require Import Py Flt Mat Remap_Model Remap_Spec Frame_Model Rpc_Model Rpc_Spec Cam_Model Cam_Spec Rcam_Model.
Import ListNotations.
Open Scope string_scope.
Open Scope list_scope.
Open Scope Z_scope.

(** * RPC parameters *)

(** The names of an RPC dictionary. *)
Definition scalar_names : list string :=
  ["long_off"; "lat_off"; "height_off"; "long_scale"; "lat_scale"; "height_scale"; "samp_off"; "line_off"; "samp_scale"; "line_scale"].
Definition coeff_names : list string := ["samp_num_coeff"; "samp_den_coeff"; "line_num_coeff"; "line_den_coeff"].
Definition error_names : list string := ["err_bias"; "err_rand"].

(** A dictionary with all the parameters and no other names. *)
Definition complete (d : dict rval) : Prop :=
  (forall k, In k (scalar_names ++ coeff_names) -> In k (map fst d)) /\
  (forall k, In k (map fst d) -> In k (scalar_names ++ coeff_names ++ error_names)).

(** The parameters a dictionary holds. *)
Definition holds_rpc (d : dict rval) (r : rpc) : Prop :=
  let num k v := dget k d = Some (RNum v) in
  let coeffs k v := dget k d = Some (RSeq v) in
  num "long_off" (long_off r) /\ num "lat_off" (lat_off r) /\ num "height_off" (height_off r) /\
  num "long_scale" (long_scale r) /\ num "lat_scale" (lat_scale r) /\ num "height_scale" (height_scale r) /\
  num "samp_off" (samp_off r) /\ num "line_off" (line_off r) /\ num "samp_scale" (samp_scale r) /\ num "line_scale" (line_scale r) /\
  coeffs "samp_num_coeff" (samp_num r) /\ coeffs "samp_den_coeff" (samp_den r) /\
  coeffs "line_num_coeff" (line_num r) /\ coeffs "line_den_coeff" (line_den r).

(** The RPC model that an argument stands for. *)
Definition means_rpc (a : rpc_arg) (r : rpc) : Prop :=
  match a with RpcObject r' => r = r' | RpcDict d => complete d /\ holds_rpc d r end.

(** The CRS that an argument asks for, when it does. *)
Definition asks_crs {C} (parse : string -> res C) (a : crs_arg C) (c : option C) : Prop :=
  match a with
  | CrsNone _ => c = None
  | CrsStr _ s => (s = "" /\ c = None) \/ (s <> "" /\ exists c', parse s = Ok c' /\ c = Some c')
  | CrsObject _ c' => c = Some c'
  end.

(** Heights 0 and 1 at the centre of the RPC model stay as they are. *)
Definition keeps_heights (f : vec -> vec) (r : rpc) : Prop :=
  forall h, h = 0%R \/ h = 1%R -> vz (f (V3 (long_off r) (lat_off r) h)) = h.

(** * Projection *)

(** The pixel of a geographic point by the RPC00B model; a coordinate whose denominator is zero is NaN. *)
Definition quotient (num den scale off : R) (v : fl) : Prop := (den = 0%R /\ v = Nan) \/ (den <> 0%R /\ v = Num (num / den * scale + off)%R).
Definition rpc_pixel (r : rpc) (p : vec) (q : pt2) : Prop :=
  let poly c := rpc00b c (nlong r p) (nlat r p) (nheight r p) in
  quotient (poly (samp_num r)) (poly (samp_den r)) (samp_scale r) (samp_off r) (fst q) /\
  quotient (poly (line_num r)) (poly (line_den r)) (line_scale r) (line_off r) (snd q).

(** The same for world coordinates, with [to_rpc] from the world to the RPC CRS: NaN for a point with a NaN. *)
Definition pixel_of (to_rpc : vec -> vec) (r : rpc) (p : pt3) (q : pt2) : Prop :=
  match p with
  | (Num x, Num y, Num z) => rpc_pixel r (to_rpc (V3 x y z)) q
  | _ => q = (Nan, Nan)
  end.

(** Each pixel with its height. *)
Definition paired (ji : list pt2) (z : zval) : list (pt2 * fl) :=
  match z with
  | VScalar h => map (fun p => (p, h)) ji
  | VVec _ zs => match ji with [p] => map (fun h => (p, h)) zs | _ => combine ji zs end
  | VNd => []
  end.

(** Heights that are one number, as many as there are pixels, or any number for one pixel. *)
Definition heights_for (z : zval) (n : nat) : Prop :=
  match z with VScalar _ => True | VVec _ zs => List.length zs = n \/ n = 1%nat | VNd => False end.
Definition integers (z : zval) : Prop := match z with VVec true _ => True | _ => False end.

(** The world position of a pixel at a height: [xy] of them, in the world CRS; NaN when the pixel or its height is. *)
Definition position_of (xy : R * R -> R -> R * R) (from_rpc : vec -> vec) (ph : pt2 * fl) (q : pt3) : Prop :=
  match ph with
  | ((Num j, Num i), Num h) => q = fl_vec (from_rpc (V3 (fst (xy (j, i) h)) (snd (xy (j, i) h)) h))
  | _ => q = (Nan, Nan, Nan)
  end.

(** The pixel of a pair, NaN if the pixel or height is. *)
Definition same_pixel (ph : pt2 * fl) (q : pt2) : Prop :=
  match ph with ((Num j, Num i), Num h) => q = (Num j, Num i) | _ => q = (Nan, Nan) end.

(** * Boundary on a surface *)

(** [q] is the first of a number of samples of ray [rr], from [top] down to [low], that is under the surface, or the last one.  There are
    at least as many steps as the ends of the ray are surface pixels apart. *)
Definition meets (cv_surf : string -> arr fl -> fl * fl -> option fl) (i dtype : string) (z : arr fl) (t : affine) (low top : R) (rr : R -> vec) (q : vec) : Prop :=
  exists m, 1 <= Z.of_nat m < 32767 /\ (span t (rr top) (rr low) <= INR (m - 1))%R /\
  (exists h, (low <= h <= top)%R /\ q = rr h) /\
  (In dtype ["float32"; "float64"] -> first_under rr (cv_surf i z) t top low m q).

(** * Remapping *)

(** The image value for grid point (row, col), with [w2p] of one point. *)
Definition value_in (cv_image : string -> arr pix -> fl * fl -> option pix) (seen : pt3 -> pt2 -> Prop) (x y z : arr fl) (nodata : pix) (interp : string)
    (b : arr pix) (row col : Z) (v : pix) : Prop :=
  exists j i, seen (aget x row col, aget y row col, aget z row col) (j, i) /\
  let m1 a := match a with Num u => Num u | Nan => Num (-1) end in
  match cv_image interp b (m1 j, m1 i) with Some u => v = u | None => v = nodata end.
