(** Elementary rotations as functions on vectors, and coordinate frames, for the orientation properties. *)
From Coq Require Import Reals.
From Verif Require Import Mat.
Open Scope R_scope.

(** Right handed rotations of a vector about an axis. *)
Definition about_x (a : R) (v : vec) : vec := V3 (vx v) (cos a * vy v - sin a * vz v) (sin a * vy v + cos a * vz v).
Definition about_y (a : R) (v : vec) : vec := V3 (cos a * vx v + sin a * vz v) (vy v) (cos a * vz v - sin a * vx v).
Definition about_z (a : R) (v : vec) : vec := V3 (cos a * vx v - sin a * vy v) (sin a * vx v + cos a * vy v) (vz v).

(** The OpenCV pose (rotation matrix, translation) sees world point [p] at these camera coordinates. *)
Definition cv_camera_coords (r : mat) (t p : vec) : vec := vadd (mvec r p) t.

(** An orthority frame camera at position [t], with camera to world rotation [r], sees [p] here
    (camera.py:832). *)
Definition frame_camera_coords (r : mat) (t p : vec) : vec := mvec (mtr r) (vsub p t).

(** World (east, north, up) coordinates of a (north, east, down) vector, where grid direction (nx, ny) is north. *)
Definition from_ned (nx ny : R) (v : vec) : vec := V3 (vx v * nx + vy v * ny) (vx v * ny - vy v * nx) (- vz v).

(** Direction of a camera vector (right, up, back) in the world, for a camera mounted on a body with x front, y right
    and z down, pointing down with its top to the front. *)
Definition rpy_world (roll pitch yaw nx ny : R) (v : vec) : vec :=
  from_ned nx ny (about_z yaw (about_y pitch (about_x roll (V3 (vy v) (vx v) (- vz v))))).

(** North at (lat, lon, alt) is the horizontal unit direction (nx, ny) of the world CRS. *)
Definition north_is (lat lon alt : R) (to_world : R -> R -> R -> vec) (nx ny : R) : Prop :=
  nx * nx + ny * ny = 1 /\
  exists s, 0 < s /\ vsub (to_world (lat + / 10000000) lon alt) (to_world (lat - / 10000000) lon alt) = V3 (s * nx) (s * ny) 0.
