(** Model of undistortion in orthority/camera.py: the undistorted intrinsics, the undistortion maps and their caching. *)
From Coq Require Import List Reals ZArith Bool.
From Verif Require Import Py Flt Mat Rot_Model Frame_Model.
Import ListNotations.
Open Scope R_scope.

(** * Undistorted intrinsics *)

(** [min] and [max] of a non-empty numpy array. *)
Fixpoint rmin (l : list R) : R := match l with [] => 0 | [x] => x | x :: l' => Rmin x (rmin l') end.
Fixpoint rmax (l : list R) : R := match l with [] => 0 | [x] => x | x :: l' => Rmax x (rmax l') end.

(** camera.py:757-761: the 9 by 9 grid of indices [(scale_j, scale_i)]. *)
Definition grid9 : list (nat * nat) := list_prod (seq 0 9) (seq 0 9).

(** Camera coordinates of the grid point with indices [s], where [p2c] is [_pixel_to_camera] (lines 762-763). *)
Definition grid_xy (p2c : R * R -> R * R) (w h : Z) (s : nat * nat) : R * R :=
  p2c (INR (fst s) * (IZR w - 1) / 8, INR (snd s) * (IZR h - 1) / 8).

(** A rectangle: offset and size. *)
Record rect := Rect { off_x : R; off_y : R; size_x : R; size_y : R }.

(** Camera coordinates of the grid, of its columns and of its rows (lines 764-767). *)
Definition all_x p2c w h : list R := map (fun s => fst (grid_xy p2c w h s)) grid9.
Definition all_y p2c w h : list R := map (fun s => snd (grid_xy p2c w h s)) grid9.
Definition col_x p2c w h (n : nat) : list R := map (fun s => fst (grid_xy p2c w h s)) (filter (fun s => Nat.eqb (fst s) n) grid9).
Definition row_y p2c w h (n : nat) : list R := map (fun s => snd (grid_xy p2c w h s)) (filter (fun s => Nat.eqb (snd s) n) grid9).

(** camera.py:751-765 [_get_rectangles]: (inner, outer). *)
Definition get_rectangles (p2c : R * R -> R * R) (w h : Z) : rect * rect :=
  let xs := all_x p2c w h in
  let ys := all_y p2c w h in
  let outer := Rect (rmin xs) (rmin ys) (rmax xs - rmin xs) (rmax ys - rmin ys) in
  let ul := (rmax (col_x p2c w h 0), rmax (row_y p2c w h 0)) in
  let br := (rmin (col_x p2c w h 8), rmin (row_y p2c w h 8)) in
  let inner := Rect (fst ul) (snd ul) (fst br - fst ul) (snd br - snd ul) in
  (inner, outer).

(** [np.clip(alpha, 0, 1)] *)
Definition clip01 (alpha : R) : R := Rmin (Rmax alpha 0) 1.

(** camera.py:736-781 [_get_undistort_intrinsic].  Division by an empty rectangle is not modelled (the theorems have
    non-empty ones). *)
Definition undistort_intrinsic (p2c : R * R -> R * R) (w h : Z) (alpha : R) : intr :=
  let alpha := clip01 alpha in
  let '(inner, outer) := get_rectangles p2c w h in
  let f0x := (IZR w - 1) / size_x inner in
  let f0y := (IZR h - 1) / size_y inner in
  let c0x := - f0x * off_x inner in
  let c0y := - f0y * off_y inner in
  let f1x := (IZR w - 1) / size_x outer in
  let f1y := (IZR h - 1) / size_y outer in
  let c1x := - f1x * off_x outer in
  let c1y := - f1y * off_y outer in
  Intr (f0x * (1 - alpha) + f1x * alpha) (f0y * (1 - alpha) + f1y * alpha)
       (c0x * (1 - alpha) + c1x * alpha) (c0y * (1 - alpha) + c1y * alpha).

(** * Undistortion maps *)

(** camera.py:1235-1241 and 1448-1455 [_get_undistort_maps]: for each pixel of the undistorted image its source
    pixel.  OpenCV's maps undo the undistorted intrinsics, and apply the lens. *)
Definition undistort_maps (l : lens) (ku : intr) (ji : R * R) : fl * fl := l_fwd l (k_solve ku ji).

(** * The camera object *)
Section State.
Variable E : Type.         (* exterior parameters *)
Variable is_pinhole : bool.
Variable K : intr.
Variable l : lens.         (* the lens of the class, not used for the pinhole *)
Variables w h : Z.

Record cam := Cam { s_alpha : R; s_ku : intr; s_maps : option (R * R -> fl * fl); s_distort : bool; s_ext : option E }.

(** camera.py:594-614 and the subclass initialisers (1230, 1444). *)
Definition cam_init (alpha : R) (distort : bool) (ext : option E) : cam :=
  Cam alpha (if is_pinhole then K else undistort_intrinsic (l_inv l) w h alpha) None distort ext.

(** camera.py:645-650: the alpha setter. *)
Definition set_alpha (value : R) (c : cam) : cam :=
  if negb is_pinhole && (if Req_EM_T value (s_alpha c) then false else true)
  then Cam value (undistort_intrinsic (l_inv l) w h value) None (s_distort c) (s_ext c)
  else Cam value (s_ku c) (s_maps c) (s_distort c) (s_ext c).

(** camera.py:628-630 and 800-814. *)
Definition set_distort (b : bool) (c : cam) : cam := Cam (s_alpha c) (s_ku c) (s_maps c) b (s_ext c).
Definition update (e : E) (c : cam) : cam := Cam (s_alpha c) (s_ku c) (s_maps c) (s_distort c) (Some e).

(** camera.py:908-922 and 1050-1057: [read], and the maps it undistorts with ([None]: the image is returned as it
    is). *)
Definition read (c : cam) : cam * option (R * R -> fl * fl) :=
  if s_distort c then (c, None)
  else
    let maps := match s_maps c with
                | Some m => Some m
                | None => if is_pinhole then None else Some (undistort_maps l (s_ku c))
                end in
    (Cam (s_alpha c) (s_ku c) maps (s_distort c) (s_ext c), maps).

Inductive op := SetAlpha (a : R) | SetDistort (b : bool) | Update (e : E) | Read.

Definition step (c : cam) (o : op) : cam :=
  match o with
  | SetAlpha a => set_alpha a c
  | SetDistort b => set_distort b c
  | Update e => update e c
  | Read => fst (read c)
  end.

Definition run (ops : list op) (c : cam) : cam := fold_left step ops c.
End State.
Arguments Cam {E} _ _ _ _ _.
Arguments s_alpha {E} _.
Arguments s_ku {E} _.
Arguments s_maps {E} _.
Arguments s_distort {E} _.
Arguments s_ext {E} _.
Arguments cam_init {E} _ _ _ _ _ _ _ _.
Arguments read {E} _ _ _.
Arguments step {E} _ _ _ _ _ _.
Arguments run {E} _ _ _ _ _ _.
Arguments SetAlpha {E} _.
Arguments SetDistort {E} _.
Arguments Update {E} _.
Arguments Read {E}.
