(** Vocabulary for the window, overview and UTM properties. *)
From Coq Require Import ZArith QArith.
From Verif Require Import Grid_Model.
Open Scope Z_scope.

(** Pixel (row, col) lies in an integer window. *)
Definition in_win (w : window) (row col : Z) : Prop :=
  row_off w <= row < row_off w + height w /\ col_off w <= col < col_off w + width w.

(** Pixel (row, col) lies in an image. *)
Definition in_im (im_height im_width row col : Z) : Prop :=
  0 <= row < im_height /\ 0 <= col < im_width.

(** Pixel aligned window [w] contains the real rectangle [f] grown by (er, ec) on every side. *)
Definition contains_grown (w : window) (f : fwindow) (er ec : Z) : Prop :=
  (inject_Z (col_off w) <= fcol_off f - inject_Z ec)%Q /\
  (fcol_off f + fwidth f + inject_Z ec <= inject_Z (col_off w + width w))%Q /\
  (inject_Z (row_off w) <= frow_off f - inject_Z er)%Q /\
  (frow_off f + fheight f + inject_Z er <= inject_Z (row_off w + height w))%Q.

(** Window [v] is inside window [w]. *)
Definition win_incl (v w : window) : Prop :=
  col_off w <= col_off v /\ col_off v + width v <= col_off w + width w /\
  row_off w <= row_off v /\ row_off v + height v <= row_off w + height w.

(** Longitude [lon] (degrees, any revolution) is in the 6 degree band of UTM zone [zone]. *)
Definition in_utm_zone (zone : Z) (lon : Q) : Prop :=
  exists k : Z,
    (inject_Z (6 * (zone - 1) - 180) <= lon + inject_Z (360 * k))%Q /\
    (lon + inject_Z (360 * k) < inject_Z (6 * zone - 180))%Q.
