(** Property theorems: C09 output profile rules, C10 creation options. *)
From Coq Require Import List String ZArith Bool.
From Verif Require Import Py Profile_Model Profile_Spec Profile_Proof.
Import ListNotations.
Open Scope string_scope.

(** C09: which configurations are accepted. *)
Theorem C09_profile_accepted : forall driver shape dt compress wm opts,
  (exists r, create_profile driver shape dt compress wm opts = Ok r) <->
  supported_dtype dt /\ (driver = "gtiff" \/ driver = "cog") /\ (~ no_options opts \/ compress_ok dt compress).
Proof. exact accepts. Qed.
Print Assumptions C09_profile_accepted.

(** C09: unsupported data types, and JPEG with a type it can't store, are Orthority errors. *)
Theorem C09_unsupported_dtype : forall driver shape dt compress wm opts,
  ~ supported_dtype dt -> create_profile driver shape dt compress wm opts = Err OrthorityError.
Proof. exact rejects_dtype. Qed.
Print Assumptions C09_unsupported_dtype.

Theorem C09_jpeg_dtype : forall driver shape dt wm opts,
  supported_dtype dt -> dt <> "uint8" -> dt <> "uint16" -> driver = "gtiff" \/ driver = "cog" -> no_options opts ->
  create_profile driver shape dt (Some "jpeg") wm opts = Err OrthorityError.
Proof. exact rejects_jpeg. Qed.
Print Assumptions C09_jpeg_dtype.

(** C09: nodata is unset exactly when a mask is written, and otherwise is the documented value; an explicit
    write_mask is obeyed. *)
Theorem C09_mask_or_nodata : forall driver shape dt compress wm opts p m,
  create_profile driver shape dt compress wm opts = Ok (p, m) ->
  (m = true -> dget "nodata" p = Some VNone) /\
  (m = false -> exists v, dtype_nodata dt v /\ dget "nodata" p = Some v) /\
  (forall b, wm = Some b -> m = b).
Proof. exact mask_nodata. Qed.
Print Assumptions C09_mask_or_nodata.

(** C09: contents of the profile without creation options. *)
Theorem C09_profile_contents : forall driver count h w dt compress wm opts p m,
  no_options opts ->
  create_profile driver (count, h, w) dt compress wm opts = Ok (p, m) ->
  exists c,
    c = (match compress with Some c => c | None => if String.eqb dt "uint8" then "jpeg" else "deflate" end) /\
    dget "driver" p = Some (VS driver) /\ dget "dtype" p = Some (VS dt) /\
    dget "width" p = Some (VZ w) /\ dget "height" p = Some (VZ h) /\ dget "count" p = Some (VZ count) /\
    dget "bigtiff" p = Some (VS "if_safer") /\
    dget "compress" p = Some (VS c) /\
    (wm = None -> (m = true <-> c = "jpeg")) /\
    (dget "photometric" p = Some (VS "ycbcr") <-> (driver = "gtiff" /\ c = "jpeg" /\ count = 3%Z)) /\
    (dget "photometric" p = None <-> ~ (driver = "gtiff" /\ c = "jpeg" /\ count = 3%Z)) /\
    (dget "nbits" p = Some (VZ 12) <-> (compress = Some "jpeg" /\ dt = "uint16")) /\
    (dget "nbits" p = None <-> ~ (compress = Some "jpeg" /\ dt = "uint16")) /\
    (driver = "gtiff" -> dget "tiled" p = Some (VB true) /\ dget "blockxsize" p = Some (VZ 512) /\
                         dget "blockysize" p = Some (VZ 512)) /\
    (driver = "cog" -> dget "blocksize" p = Some (VZ 512) /\
                       dget "overviews" p = Some (VS "force_use_existing") /\ dget "tiled" p = None).
Proof. exact default_profile. Qed.
Print Assumptions C09_profile_contents.

Example C09_case : exists p,
  create_profile "gtiff" (3, 20, 10)%Z "uint8" None None None = Ok (p, true) /\
  dget "photometric" p = Some (VS "ycbcr") /\
  exists q, create_profile "cog" (1, 20, 10)%Z "int16" None None (Some []) = Ok (q, false) /\
  dget "nodata" q = Some (VZ (-32768)).
Proof. eexists. split; [reflexivity|]. split; [reflexivity|]. eexists. split; reflexivity. Qed.

(** C10: with creation options, they reach the profile and nothing else about the encoding is set. *)
Theorem C10_options_only : forall driver count h w dt compress wm o p m,
  o <> [] -> NoDup (dkeys o) ->
  create_profile driver (count, h, w) dt compress wm (Some o) = Ok (p, m) ->
  (forall k, k <> "nodata" -> In k (dkeys o) -> dget k p = dget k o) /\
  (forall k, dget k p <> None -> In k base_keys \/ In k (dkeys o)) /\
  (wm = None -> (m = true <-> compress = Some "jpeg")).
Proof. exact options_profile. Qed.
Print Assumptions C10_options_only.

(** C10: "compress is ignored with creation options" is false for the mask decision: two calls
    differing in compress only give different results ... *)
Theorem C10_compress_ignored_refuted :
  exists driver shape dt c1 c2 wm o,
    o <> [] /\
    create_profile driver shape dt c1 wm (Some o) <> create_profile driver shape dt c2 wm (Some o).
Proof. exact compress_not_ignored. Qed.
Print Assumptions C10_compress_ignored_refuted.

(** ... and "a mask is written by default when JPEG compression is used" is false for a JPEG creation
    option. *)
Theorem C10_jpeg_option_mask_refuted :
  exists driver shape dt o p,
    dget "compress" o = Some (VS "jpeg") /\
    create_profile driver shape dt None None (Some o) = Ok (p, false).
Proof. exact jpeg_option_no_mask. Qed.
Print Assumptions C10_jpeg_option_mask_refuted.

Example C10_case : exists p, create_profile "gtiff" (3, 20, 10)%Z "uint8" (Some "jpeg") None
    (Some [("compress", VS "deflate"); ("tiled", VB false)]) = Ok (p, true) /\ dget "tiled" p = Some (VB false).
Proof. eexists. split; reflexivity. Qed.
