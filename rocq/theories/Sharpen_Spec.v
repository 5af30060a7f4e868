(** What a pan-sharpened image is, without tiles or threads. *)
From Coq Require Import String List ZArith QArith Reals Bool.
From Verif Require Import Py Flt Grid_Model Grid_Spec Profile_Model Pan_Model Pan_Spec PanGrid_Model PanGrid_Spec Ortho_Model Ortho_Spec Sharpen_Model.
Import ListNotations.
Open Scope string_scope.
Open Scope list_scope.
Open Scope Z_scope.

(** The data type asked for, otherwise that of the multispectral image. *)
Definition out_dtype (a : sargs) (ms : source) (dt : string) : Prop :=
  sa_dtype a = Some dt /\ dt <> "" \/ (sa_dtype a = None \/ sa_dtype a = Some "") /\ dt = so_dtype ms.

(** The multispectral bands to sharpen. *)
Definition alpha_bands (ms : source) : list bool := map (String.eqb "alpha") (so_colors ms).
Definition bands_used (a : sargs) (ms : source) (idx : list Z) : Prop := chosen_indexes (alpha_bands ms) (sa_ms_indexes a) idx.

(** The smallest and largest values of integer types. *)
Inductive limits : string -> Z -> Z -> Prop :=
| L_u8 : limits "uint8" 0 255
| L_u16 : limits "uint16" 0 65535
| L_i16 : limits "int16" (-32768) 32767.

(** [n] is the integer nearest to [x], the even one of two equally near. *)
Definition nearest_even_r (x : R) (n : Z) : Prop := (Rabs (x - IZR n) <= / 2 /\ (Rabs (x - IZR n) = / 2 -> Z.even n = true))%R.

(** [y] is [x] as stored in an image of a data type. *)
Definition stored (dt : string) (x y : R) : Prop :=
  ((dt = "float32" \/ dt = "float64") /\ y = x) \/
  exists lo hi n, limits dt lo hi /\ nearest_even_r x n /\ y = IZR (Z.max lo (Z.min hi n)).

(** [l] are the pixels of an image, each once. *)
Definition all_pixels (h w : Z) (l : list (Z * Z)) : Prop := NoDup l /\ forall r c, In (r, c) l <-> in_im h w r c.

(** A pixel of the two images on a common grid. *)
Definition pair_at (pan : Z -> Z -> Z -> fl) (ms : Z -> Z -> Z -> fl) (pan_index : Z) (idx : list Z) (rc : Z * Z) : pixel :=
  (pan pan_index (fst rc) (snd rc), map (fun b => ms b (fst rc) (snd rc)) idx).

(** The weights: those of the user in proportion, otherwise the estimate from the covariance of the data (C45). *)
Inductive weights_used (lstsq : list (list R) -> list R -> list R) (vs : list (list R)) (nb : nat) : option (list R) -> list R -> Prop :=
| WU_user : forall w0, w0 <> [] -> suml (fun x => x) w0 <> 0%R ->
    weights_used lstsq vs nb (Some w0) (map (fun x => x / suml (fun x => x) w0)%R w0)
| WU_estimate : forall user w, user = None \/ user = Some [] -> get_weights lstsq nb (band_cov vs) None = map Num w ->
    weights_used lstsq vs nb user w.

(** Band [b] of a sharpened pixel, by the statistics of the data [vs]: the pan value is brought to the mean and standard deviation of the
    simulated pan, and its difference from the simulated pan is added in proportion to the regression of the band on the simulated
    pan. *)
Definition sharp (w : list R) (vs : list (list R)) (b : nat) (pan : R) (ms : list R) : R :=
  (let sim := sim_pan w in
   let gain := sqrt (covar sim sim vs) / sqrt (covar (band 0) (band 0) vs) in
   let pan' := avg sim vs + gain * (pan - avg (band 0) vs) in
   nth b ms 0 + covar (band (S b)) sim vs / covar sim sim vs * (pan' - dotl w ms))%R.

(** The fill value of pixels that are not valid: nodata, or zero when there is a mask. *)
Inductive fill_of (dt : string) : bool -> fl -> Prop :=
| F_mask : fill_of dt true (Num 0)
| F_unsigned : dt = "uint8" \/ dt = "uint16" -> fill_of dt false (Num 0)
| F_signed : dt = "int16" -> fill_of dt false (Num (-32768))
| F_float : dt = "float32" \/ dt = "float64" -> fill_of dt false Nan.

(** The arguments about bands and weights are right. *)
Definition good_bands (pan ms : source) (a : sargs) : Prop :=
  1 <= sa_pan_index a <= so_count pan /\
  exists idx, bands_used a ms idx /\ Forall (fun i => 1 <= i <= Z.of_nat (List.length (so_colors ms))) idx /\
  (forall w, sa_weights a = Some w -> w <> [] -> List.length w = List.length idx /\ Forall (fun x => 0 <= x)%R w).
