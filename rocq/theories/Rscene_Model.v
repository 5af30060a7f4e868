(** Model of an RPC camera factory with its real camera objects: [RpcCameras] (orthority/factory.py) on parameter dictionaries, without
    refinement. *)
From Coq Require Import String List Reals ZArith Bool.
From Verif Require Import Py Flt Mat Rpc_Model Frame_Model Validate_Model Params_Model Factory_Model Rcam_Model Make_Model.
Import ListNotations.
Open Scope string_scope.
Open Scope list_scope.

Section Rscene.
Variable cv_project cv_undistort fish_undistort : intr -> list R -> R * R -> R * R.
Variable C : Type.
Variable parse_crs : string -> res C.
Variable rpc_crs : C.
Variable O : Type.
Variable no_options : O.
Variable warp : C -> C -> list vec -> list vec.
Notation create_camera := (create_camera cv_project cv_undistort fish_undistort C parse_crs rpc_crs O no_options warp).

(** factory.py:264-276 [RpcCameras.__init__]: parameters, camera options ([crs] and [rpc_options]), and cameras by file name. *)
Record rscene := RScene { rs_param : dict (dict mval); rs_crs : option (crs_arg C); rs_options : option O; rs_cameras : dict (made C O) }.
Definition rscene_init (params : dict (dict mval)) (crs : option (crs_arg C)) (options : option O) : rscene := RScene params crs options [].

(** factory.py:364-376 [RpcCameras.get], of a file name. *)
Definition rscene_get (name : string) (st : rscene) : rscene * res (made C O) :=
  match get_by_name name (rs_param st) with
  | None | Some [] => (st, Err ParamError)
  | Some p =>
    match dget name (rs_cameras st) with
    | Some c => (st, Ok c)
    | None =>
      match create_camera p (rs_crs st) (rs_options st) with
      | Ok c => (RScene (rs_param st) (rs_crs st) (rs_options st) (dset name c (rs_cameras st)), Ok c)
      | Err e => (st, Err e)
      end
    end
  end.

(** The factory after cameras were asked for. *)
Definition rscene_run (names : list string) (st : rscene) : rscene := fold_left (fun st n => fst (rscene_get n st)) names st.
End Rscene.
