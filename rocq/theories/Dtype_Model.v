(** Model of [convert_array_dtype] (orthority/common.py:501-529). *)
From Coq Require Import List ZArith QArith Qround Bool.
Import ListNotations.
Open Scope Z_scope.

(** numpy data types of image arrays.  64 bit integers and half floats are not modelled: orthority
    supports uint8, uint16, int16, float32 and float64 rasters only (common.py:58-60). *)
Inductive dtype := U8 | I8 | U16 | I16 | U32 | I32 | F32 | F64.

(** [np.issubdtype(d, np.floating)]; the other types are [np.integer]. *)
Definition is_floating (d : dtype) : bool :=
  match d with F32 | F64 => true | _ => false end.

(** [np.iinfo(d).min / max] and [np.finfo(d).min / max]. *)
Definition info_max (d : dtype) : Z :=
  match d with
  | U8 => 2 ^ 8 - 1 | I8 => 2 ^ 7 - 1 | U16 => 2 ^ 16 - 1 | I16 => 2 ^ 15 - 1
  | U32 => 2 ^ 32 - 1 | I32 => 2 ^ 31 - 1
  | F32 => 2 ^ 128 - 2 ^ 104
  | F64 => 2 ^ 1024 - 2 ^ 971
  end.

Definition info_min (d : dtype) : Z :=
  match d with
  | U8 | U16 | U32 => 0
  | I8 => - 2 ^ 7 | I16 => - 2 ^ 15 | I32 => - 2 ^ 31
  | F32 => - (2 ^ 128 - 2 ^ 104)
  | F64 => - (2 ^ 1024 - 2 ^ 971)
  end.

(** [np.can_cast(a, b, casting='safe')] (numpy's table for these types). *)
Definition can_cast_safe (a b : dtype) : bool :=
  match a, b with
  | F32, (F32 | F64) => true
  | F64, F64 => true
  | (F32 | F64), _ => false
  | (U8 | I8 | U16 | I16), F32 => true
  | (U32 | I32), F32 => false
  | _, F64 => true
  | _, _ => (info_min b <=? info_min a) && (info_max a <=? info_max b)
  end.

(** [np.round] (half to even) of one value. *)
Definition np_round (x : Q) : Z :=
  let f := Qfloor x in
  let d := (x - inject_Z f)%Q in
  match Qcompare d (1 # 2) with
  | Lt => f
  | Gt => f + 1
  | Eq => if Z.even f then f else f + 1
  end.

(** Truncation towards zero, as in a C float to integer conversion. *)
Definition trunc (x : Q) : Z := if Qle_bool 0 x then Qfloor x else Qceiling x.

(** [astype(d, casting='unsafe')] of one value: to integer types truncates and wraps around; to
    floating types keeps the value (rounding to the float format and overflow are not modelled). *)
Definition astype_unsafe (d : dtype) (x : Q) : Q :=
  if is_floating d then x
  else inject_Z ((trunc x - info_min d) mod (info_max d - info_min d + 1) + info_min d).

Definition Qclip (lo hi x : Q) : Q :=
  if Qle_bool x lo then lo else if Qle_bool hi x then hi else x.

(** common.py:501-529 for one element of an array of type [src].  NaN elements are not modelled (their
    integer value is undefined in numpy).  The promoted type used for clipping represents the
    destination limits exactly for all modelled types, so clipping is exact. *)
Definition convert_elem (src dst : dtype) (x : Q) : Q :=
  let unsafe_cast := negb (can_cast_safe src dst) in
  (* lines 507-509 *)
  let x1 := if unsafe_cast && is_floating src && negb (is_floating dst)
            then inject_Z (np_round x) else x in
  (* lines 511-523 *)
  let x2 := if unsafe_cast && negb (is_floating dst) then
              if (info_min src <? info_min dst) || (info_max dst <? info_max src)
              then Qclip (inject_Z (info_min dst)) (inject_Z (info_max dst)) x1
              else x1
            else x1 in
  (* lines 525-527 *)
  astype_unsafe dst x2.

Definition convert_array_dtype (src dst : dtype) (array : list Q) : list Q :=
  map (convert_elem src dst) array.
