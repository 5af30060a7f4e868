(** Model of reading parameters from image files in a thread pool (orthority/param_io.py:332-394, 451-519 and
    1308-1340). *)
From Coq Require Import String List ZArith Bool.
From Verif Require Import Py.
Import ListNotations.

Definition exn_eqb (a b : exn) : bool := if (ltac:(decide equality) : {a = b} + {a <> b}) then true else false.

(** * The thread pool and the loop that collects its results *)
Section Pool.
Variables F V : Type.
Variable task : F -> res (string * V).  (* what the task of a file gives: its name and parameters, or an exception *)
Variable reraised : list exn.           (* exceptions that are re-raised; others become RuntimeError *)

Definition wrap (e : exn) : exn := if existsb (exn_eqb e) reraised then e else RuntimeError.

(** The results of the futures that are done, the position and the dictionary of the collecting loop, and how the loop
    ended. *)
Record pstate := PState {
  p_slots : list (option (res (string * V)));
  p_pos : nat;
  p_dict : dict V;
  p_out : option (res (dict V)) }.

(** Either a worker finishes the [i]th file, or the collecting thread runs one iteration of its loop. *)
Inductive event := Finish (i : nat) | Collect.

Definition set_nth {A} (i : nat) (x : A) (l : list A) : list A :=
  firstn i l ++ match skipn i l with [] => [] | _ :: r => x :: r end.

(** [future.result()] blocks until the future is done. *)
Definition pstep (files : list F) (st : pstate) (ev : event) : pstate :=
  match ev with
  | Finish i =>
    match nth_error files i with
    | Some f => PState (set_nth i (Some (task f)) (p_slots st)) (p_pos st) (p_dict st) (p_out st)
    | None => st
    end
  | Collect =>
    match p_out st with
    | Some _ => st
    | None =>
      match nth_error (p_slots st) (p_pos st) with
      | None => PState (p_slots st) (p_pos st) (p_dict st) (Some (Ok (p_dict st)))
      | Some None => st
      | Some (Some (Ok (name, v))) => PState (p_slots st) (S (p_pos st)) (dset name v (p_dict st)) None
      | Some (Some (Err e)) => PState (p_slots st) (p_pos st) (p_dict st) (Some (Err (wrap e)))
      end
    end
  end.

Definition pinit (files : list F) : pstate := PState (map (fun _ => None) files) 0 [] None.

(** A schedule of the pool, in order. *)
Definition prun (files : list F) (evs : list event) : pstate := fold_left (pstep files) evs (pinit files).

End Pool.
Arguments PState {V}.
Arguments p_slots {V}.
Arguments p_pos {V}.
Arguments p_dict {V}.
Arguments p_out {V}.
Arguments prun {F V}.
Arguments pstep {F V}.
Arguments pinit {F V}.

(** * The tasks *)
Section Tasks.
Variable F : Type.
Variable filename : F -> string.  (* common.py:223-236 [get_filename] *)

(** param_io.py:348-369 [_read_im_rpc_param]; [open_im] gives the size and RPC metadata of an image. *)
Definition im_rpc_task {P} (open_im : F -> res (Z * Z * option P)) (f : F) : res (string * (Z * Z * P)) :=
  do im <- open_im f;
  match im with
  | (size, None) => Err ParamError
  | (size, Some rpc) => Ok (filename f, (size, rpc))
  end.

(** param_io.py:332-394 [read_im_rpc_param]. *)
Definition read_im_rpc_param {P} (open_im : F -> res (Z * Z * option P)) (files : list F) (evs : list event) :=
  p_out (prun (im_rpc_task open_im) [FileNotFoundError; ParamError] files evs).

(** A GCP as GDAL gives it: column, row, position, and ID and info strings. *)
Record rio_gcp (N : Type) := RioGcp { rg_col : N; rg_row : N; rg_xyz : N * N * N; rg_id : string; rg_info : string }.
Arguments RioGcp {N}.
Arguments rg_col {N}.
Arguments rg_row {N}.
Arguments rg_xyz {N}.
Arguments rg_id {N}.
Arguments rg_info {N}.

(** A GCP in orthority format. *)
Record oty_gcp (N : Type) := OtyGcp { og_ji : N * N; og_xyz : N * N * N; og_id : string; og_info : string }.
Arguments OtyGcp {N}.
Arguments og_ji {N}.
Arguments og_xyz {N}.
Arguments og_id {N}.
Arguments og_info {N}.

(** param_io.py:466-495 [_read_im_gcps]: [open_gcps] gives the GCPs of an image and their CRS; [crs_is_lla] compares a CRS
    with EPSG:4979; [to_lla] transforms a list of positions to it.  GCP images without a GCP CRS raise in [to_lla]. *)
Definition im_gcp_task {N C} (open_gcps : F -> res (list (rio_gcp N) * C)) (crs_is_lla : C -> bool)
    (to_lla : C -> list (N * N * N) -> res (list (N * N * N))) (f : F) : res (string * list (oty_gcp N)) :=
  do (gcps, crs) <- open_gcps f;
  match gcps with
  | [] => Err ParamError
  | _ =>
    let xyz := map rg_xyz gcps in
    do xyz <- (if crs_is_lla crs then Ok xyz else to_lla crs xyz);
    Ok (filename f, map (fun gp => OtyGcp (rg_col (fst gp), rg_row (fst gp)) (snd gp) (rg_id (fst gp)) (rg_info (fst gp)))
                        (combine gcps xyz))
  end.

(** param_io.py:451-519 [read_im_gcps]. *)
Definition read_im_gcps {N C} (open_gcps : F -> res (list (rio_gcp N) * C)) crs_is_lla to_lla (files : list F)
    (evs : list event) :=
  p_out (prun (im_gcp_task open_gcps crs_is_lla to_lla) [FileNotFoundError; ParamError] files evs).

(** param_io.py:1303-1332 [ExifReader._read_exif]; [exif] is the [Exif] constructor, and each [Exif] object has the name of
    its file. *)
Definition read_exif {E} (exif : F -> res E) (files : list F) (evs : list event) :=
  p_out (prun (fun f => do e <- exif f; Ok (filename f, e)) [FileNotFoundError] files evs).

End Tasks.
Arguments RioGcp {N}.
Arguments rg_col {N}.
Arguments rg_row {N}.
Arguments rg_xyz {N}.
Arguments rg_id {N}.
Arguments rg_info {N}.
Arguments OtyGcp {N}.
Arguments og_ji {N}.
Arguments og_xyz {N}.
Arguments og_id {N}.
Arguments og_info {N}.
Arguments im_rpc_task {F} filename {P}.
Arguments read_im_rpc_param {F} filename {P}.
Arguments im_gcp_task {F} filename {N C}.
Arguments read_im_gcps {F} filename {N C}.
Arguments read_exif {F} filename {E}.
