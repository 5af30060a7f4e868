(** Model of [create_profile] (orthority/common.py:416-498). *)
From Coq Require Import List String ZArith Bool.
From Verif Require Import Py.
Import ListNotations.
Open Scope Z_scope.
Open Scope string_scope.

(** Values in a rasterio profile or creation option dictionary. *)
Inductive pval := VS (s : string) | VZ (z : Z) | VB (b : bool) | VNan | VNone.

(** common.py:58-60 [_nodata_vals]. *)
Definition nodata_vals : dict pval :=
  [("uint8", VZ 0); ("uint16", VZ 0); ("int16", VZ (-32768)); ("float32", VNan); ("float64", VNan)].

(** enums.py [Driver] and [Compress] members (string valued; a member equals its string). *)
Definition drivers : list string := ["gtiff"; "cog"].
Definition compresses : list string := ["jpeg"; "deflate"; "lzw"].

Definition str_mem (s : string) (l : list string) : bool := existsb (String.eqb s) l.

(** common.py:416-498.  [shape] is (count, height, width).  [compress] may be given as a string or as
    an enumeration member: both compare equal to the string.  The warning for 12 bit JPEG is not
    modelled. *)
Definition create_profile (driver : string) (shape : Z * Z * Z) (dt : string)
    (compress : option string) (write_mask : option bool) (creation_options : option (dict pval))
    : res (dict pval * bool) :=
  (* 433 *)
  let creation_options := match creation_options with Some o => o | None => [] end in
  (* 436-438 *)
  match dget dt nodata_vals with
  | None => Err OrthorityError
  | Some nodata_val =>
    (* 441 *)
    if negb (str_mem driver drivers) then Err ValueError else
    let '(count, height, width) := shape in
    (* 442-449 *)
    let profile := [("driver", VS driver); ("dtype", VS dt); ("width", VZ width); ("height", VZ height);
                    ("count", VZ count); ("bigtiff", VS "if_safer")] in
    (* 452-487 *)
    do (profile, compress) <-
      (match creation_options with
       | [] =>
         do (profile, compress) <-
           (match compress with
            | None => Ok (profile, if String.eqb dt "uint8" then "jpeg" else "deflate")
            | Some c =>
              if negb (str_mem c compresses) then Err ValueError
              else if String.eqb c "jpeg" then
                if String.eqb dt "uint16" then Ok (dset "nbits" (VZ 12) profile, c)
                else if negb (String.eqb dt "uint8") then Err OrthorityError
                else Ok (profile, c)
              else Ok (profile, c)
            end);
         let profile := dset "compress" (VS compress) profile in
         let profile :=
           if String.eqb driver "gtiff" then
             let profile :=
               if String.eqb compress "jpeg" && (count =? 3)%Z
               then dset "photometric" (VS "ycbcr") profile else profile in
             dupdate profile [("tiled", VB true); ("blockxsize", VZ 512); ("blockysize", VZ 512)]
           else dupdate profile [("blocksize", VZ 512); ("overviews", VS "force_use_existing")] in
         Ok (profile, Some compress)
       | _ => Ok (dupdate profile creation_options, compress)
       end);
    (* 490-491 *)
    let write_mask :=
      match write_mask with
      | Some b => b
      | None => match compress with Some c => String.eqb c "jpeg" | None => false end
      end in
    (* 495-496 *)
    let nodata := if write_mask then VNone else nodata_val in
    Ok (dset "nodata" nodata profile, write_mask)
  end.
