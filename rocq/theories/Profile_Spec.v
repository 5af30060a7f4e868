(** The documented rules for output profiles. *)
From Coq Require Import List String ZArith.
From Verif Require Import Py Profile_Model.
Import ListNotations.
Open Scope string_scope.

Definition supported_dtype (dt : string) : Prop :=
  dt = "uint8" \/ dt = "uint16" \/ dt = "int16" \/ dt = "float32" \/ dt = "float64".

(** Documented nodata value per type (docs: zero for unsigned, minimum for int16, NaN for floats). *)
Definition dtype_nodata (dt : string) (v : pval) : Prop :=
  ((dt = "uint8" \/ dt = "uint16") /\ v = VZ 0) \/
  (dt = "int16" /\ v = VZ (- 2 ^ 15)) \/
  ((dt = "float32" \/ dt = "float64") /\ v = VNan).

(** The compress argument is acceptable for the data type. *)
Definition compress_ok (dt : string) (compress : option string) : Prop :=
  match compress with
  | None => True
  | Some c => c = "deflate" \/ c = "lzw" \/ (c = "jpeg" /\ (dt = "uint8" \/ dt = "uint16"))
  end.

Definition no_options (o : option (dict pval)) : Prop := o = None \/ o = Some [].

(** Profile keys that describe the image rather than how it is encoded. *)
Definition base_keys : list string :=
  ["driver"; "dtype"; "width"; "height"; "count"; "bigtiff"; "nodata"].
