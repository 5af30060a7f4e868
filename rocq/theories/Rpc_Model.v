(** Model of the RPC camera of orthority/camera.py and of the RPC refinement of orthority/fit.py, over the reals. *)
From Coq Require Import List Reals ZArith Bool.
From Verif Require Import Py Flt Mat.
Import ListNotations.
Open Scope R_scope.

(** The [rasterio.rpc.RPC] parameters that are used.  [err_bias] and [err_rand] are not. *)
Record rpc := Rpc {
  long_off : R; lat_off : R; height_off : R;
  long_scale : R; lat_scale : R; height_scale : R;
  samp_off : R; line_off : R; samp_scale : R; line_scale : R;
  samp_num : list R; samp_den : list R; line_num : list R; line_den : list R }.

(** camera.py:464-476 [poly].  A missing coefficient, an IndexError in the code, is taken as 0; the theorems have 20. *)
Definition poly (x y z : R) (c : list R) : R :=
  let c := fun i => nth i c 0 in
  let res := c 0%nat + x * (
                 c 1%nat
                 + y * (c 4%nat + z * c 10%nat)
                 + z * c 5%nat
                 + x * (c 7%nat + x * c 11%nat + y * c 14%nat + z * c 17%nat)) in
  let res := res + y * (c 2%nat + c 6%nat * z + y * (c 8%nat + x * c 12%nat + y * c 15%nat + z * c 18%nat)) in
  res + z * (c 3%nat + z * (c 9%nat + x * c 13%nat + y * c 16%nat + z * c 19%nat)).

(** [poly] on possibly NaN coordinates: each coordinate is a factor or term of some product, so NaNs propagate. *)
Definition polyf (p : fl * fl * fl) (c : list R) : fl :=
  match p with (Num x, Num y, Num z) => Num (poly x y z c) | _ => Nan end.

(** camera.py:482-483: offset and scale of one coordinate. *)
Definition normalise (off scale : R) (x : fl) : fl := fdiv (fsub x (Num off)) (Num scale).

(** camera.py:450-489 [RpcCamera.world_to_pixel], for one point.  [warp] is the transform to the RPC CRS, when the
    camera has a [crs]. *)
Definition rpc_world_to_pixel (warp : option (vec -> vec)) (r : rpc) (p : fl * fl * fl) : fl * fl :=
  let p := match warp with
           | None => p  (* line 462 *)
           | Some w => match p with  (* lines 455-460 *)
                       | (Num x, Num y, Num z) => let q := w (V3 x y z) in (Num (vx q), Num (vy q), Num (vz q))
                       | _ => (Nan, Nan, Nan)
                       end
           end in
  let '(x, y, z) := p in
  let p := (normalise (long_off r) (long_scale r) x,
            normalise (lat_off r) (lat_scale r) y,
            normalise (height_off r) (height_scale r) z) in
  let i := fdiv (polyf p (line_num r)) (polyf p (line_den r)) in
  let j := fdiv (polyf p (samp_num r)) (polyf p (samp_den r)) in
  (fadd (fmul j (Num (samp_scale r))) (Num (samp_off r)), fadd (fmul i (Num (line_scale r))) (Num (line_off r))).

(** camera.py:441-448 [_validate_crs]: [warp] is the transform from the RPC CRS. *)
Definition validate_crs (warp : vec -> vec) (r : rpc) : res unit :=
  iterM (fun z => if Req_EM_T (vz (warp (V3 (long_off r) (lat_off r) z))) z then Ok tt else Err OrthorityError) [0; 1].

(** * Refinement *)

Record gcp := Gcp { g_ji : R * R; g_xyz : vec }.

(** enums.py:146 [RpcRefine]. *)
Inductive refine_method := Shift | ShiftDrift.

(** [np.mean]. *)
Definition sum (l : list R) : R := fold_right Rplus 0 l.
Definition mean (l : list R) : R := sum l / INR (length l).

Definition map2 {A B C} (f : A -> B -> C) (xs : list A) (ys : list B) : list C := map (fun p => f (fst p) (snd p)) (combine xs ys).

(** The numbers of a list, if there are no NaNs. *)
Fixpoint numbers (l : list fl) : option (list R) :=
  match l with
  | [] => Some []
  | Num x :: l' => option_map (cons x) (numbers l')
  | Nan :: _ => None
  end.

Definition fl_vec (v : vec) : fl * fl * fl := (Num (vx v), Num (vy v), Num (vz v)).

Section Refine.

(** [np.linalg.lstsq] of [y = m * x + c]. *)
Variable lstsq : list R -> list R -> R * R.

(** fit.py:87-106: the scale and offset of one axis, from normalised RPC and GCP coordinates. *)
Definition axis_tform (m : refine_method) (ji_rpc ji_gcp : list R) : R * R :=
  match m with
  | Shift => (1, mean (map2 Rminus ji_gcp ji_rpc))
  | ShiftDrift => lstsq ji_rpc ji_gcp
  end.

(** fit.py:121-130: [num * m + den * c]. *)
Definition refine_num (mc : R * R) (num den : list R) : list R := map2 (fun n d => n * fst mc + d * snd mc) num den.

(** fit.py:82-86: normalised coordinates of one axis. *)
Definition norm_axis (off scale : R) (l : list fl) : option (list R) := numbers (map (normalise off scale) l).

(** fit.py:49-130 [refine_rpc].  [Ok None] stands for GCPs with a NaN or infinite projection, for which the results are
    not modelled. *)
Definition refine_rpc (r : rpc) (gcps : list gcp) (m : refine_method) : res (option rpc) :=
  let min_gcps := match m with Shift => 1 | ShiftDrift => 2 end%nat in
  if Nat.ltb (length gcps) min_gcps then Err ValueError
  else
    let ji := map (fun g => rpc_world_to_pixel None r (fl_vec (g_xyz g))) gcps in
    let axis (off scale : R) (get : R * R -> R) (fget : fl * fl -> fl) (num den : list R) : option (list R) :=
      match norm_axis off scale (map fget ji), norm_axis off scale (map (fun g => Num (get (g_ji g))) gcps) with
      | Some x, Some y => Some (refine_num (axis_tform m x y) num den)
      | _, _ => None
      end in
    match axis (samp_off r) (samp_scale r) fst fst (samp_num r) (samp_den r),
          axis (line_off r) (line_scale r) snd snd (line_num r) (line_den r) with
    | Some sn, Some ln =>
        Ok (Some (Rpc (long_off r) (lat_off r) (height_off r) (long_scale r) (lat_scale r) (height_scale r)
                      (samp_off r) (line_off r) (samp_scale r) (line_scale r) sn (samp_den r) ln (line_den r)))
    | _, _ => Ok None
    end.

(** * Objects *)

(** [refine_rpc] on dictionary objects: [heap] holds the value of each RPC dictionary, and [a] is the one passed.
    fit.py:119 copies it, and lines 120-129 update the copy, whose address is returned. *)
Definition set_obj (heap : list rpc) (a : nat) (v : rpc) : list rpc := firstn a heap ++ v :: skipn (S a) heap.

Definition refine_obj (heap : list rpc) (a : nat) (gcps : list gcp) (m : refine_method) : list rpc * res (option nat) :=
  match nth_error heap a with
  | None => (heap, Err KeyError)  (* not reachable: an object has a value *)
  | Some v =>
    match refine_rpc v gcps m with
    | Err e => (heap, Err e)
    | Ok None => (heap, Ok None)
    | Ok (Some v') =>
      let copy := length heap in
      let heap := heap ++ [v] in  (* deepcopy *)
      (set_obj heap copy v', Ok (Some copy))
    end
  end.

(** factory.py:342-362 [RpcCameras.refine], for the parameter dictionaries [params] (file name to address of its RPC
    dictionary) that the factory shares with its caller (factory.py:269-272).  Line 358 stores the refined dictionary in
    the shared parameters.  GCPs are looked up by [find]; the first error stops the loop. *)
Fixpoint refine_shared (find : nat -> list gcp) (m : refine_method) (heap : list rpc) (params : list nat)
  : list rpc * list nat * res unit :=
  match params with
  | [] => (heap, [], Ok tt)
  | a :: rest =>
    match find a with
    | [] => let '(heap, rest, r) := refine_shared find m heap rest in (heap, a :: rest, r)
    | gcps =>
      match refine_obj heap a gcps m with
      | (heap, Err e) => (heap, params, Err e)
      | (heap, Ok None) => (heap, params, Ok tt)
      | (heap, Ok (Some a')) => let '(heap, rest, r) := refine_shared find m heap rest in (heap, a' :: rest, r)
      end
    end
  end.

End Refine.
