(** Model of an RPC camera factory made from image files and refined with GCPs: [RpcCameras.from_images], [refine] and [get]
    (orthority/factory.py) with [refine_rpc] (orthority/fit.py) on real RPC dictionaries and camera objects. *)
From Coq Require Import String List Reals ZArith Bool.
From Verif Require Import Py Flt Mat Rpc_Model Factory_Model Read_Model Cam_Model Rcam_Model.
Import ListNotations.
Open Scope string_scope.
Open Scope list_scope.

(** [rasterio.rpc.RPC] of an image's tags: the RPC model, and the two error estimates, that are numbers or None. *)
Definition rpc_tags := (rpc * (rval * rval))%type.

(** [RPC.to_dict], used at param_io.py:365. *)
Definition rpc_to_dict (t : rpc_tags) : dict rval :=
  let r := fst t in
  [("height_off", RNum (height_off r)); ("height_scale", RNum (height_scale r)); ("lat_off", RNum (lat_off r)); ("lat_scale", RNum (lat_scale r));
   ("line_den_coeff", RSeq (line_den r)); ("line_num_coeff", RSeq (line_num r)); ("line_off", RNum (line_off r)); ("line_scale", RNum (line_scale r));
   ("long_off", RNum (long_off r)); ("long_scale", RNum (long_scale r)); ("samp_den_coeff", RSeq (samp_den r)); ("samp_num_coeff", RSeq (samp_num r));
   ("samp_off", RNum (samp_off r)); ("samp_scale", RNum (samp_scale r)); ("err_bias", fst (snd t)); ("err_rand", snd (snd t))].

(** The pixel and position of a GCP, as fit.py:89 and 93 take them from its dictionary. *)
Definition fit_gcp (g : oty_gcp R) : gcp := let '(x, y, z) := og_xyz g in Gcp (og_ji g) (V3 x y z).

Section Adjust.
Variable C : Type.
Variable parse_crs : string -> res C.
Variable rpc_crs : C.
Variable O : Type.
Variable no_options : O.
Variable warp : C -> C -> list vec -> list vec.
Variable lstsq : list R -> list R -> R * R.
Variable crs : crs_arg C.      (* the [crs] and [rpc_options] of [cam_kwargs] *)
Variable options : option O.
Notation fac := (rstate (Z * Z) (dict rval) (oty_gcp R) (rcam C O)).

(** fit.py:49-130 [refine_rpc] of an RPC dictionary: line 76 makes a camera of it; lines 123-129 replace the two numerators of a copy.
    GCPs that have no finite pixel ([None]) give NaN numerators; here they are an error, that the theorems exclude. *)
Definition refine_dict (m : refine_method) (d : dict rval) (gcps : list (oty_gcp R)) : res (dict rval) :=
  do r <- rpc_of_dict d;
  do refined <- refine_rpc lstsq r (map fit_gcp gcps) m;
  match refined with
  | Some r' => Ok (dset "line_num_coeff" (RSeq (line_num r')) (dset "samp_num_coeff" (RSeq (samp_num r')) d))
  | None => Err ExternalError
  end.

(** factory.py:374: [create_camera( **rpc_param, **cam_kwargs)]. *)
Definition create (size : Z * Z) (d : dict rval) : res (rcam C O) := rpc_init C parse_crs rpc_crs O no_options warp (fst size) (snd size) (RpcDict d) options crs.

Section Files.
Variable F : Type.
Variable filename : F -> string.

(** factory.py:279-302 [RpcCameras.from_images]; [None] is reading that has not ended. *)
Definition from_images (open_im : F -> res (Z * Z * option rpc_tags)) (files : list F) (evs : list event) : option (res fac) :=
  match read_im_rpc_param filename open_im files evs with
  | None => None
  | Some (Err e) => Some (Err e)
  | Some (Ok params) => Some (Ok (Factory_Model.rpc_init (map (fun p => (fst p, (fst (snd p), rpc_to_dict (snd (snd p))))) params)))
  end.
End Files.

(** factory.py:304-306 [RpcCameras.filenames]. *)
Definition filenames (st : fac) : list string := dkeys (r_param st).

(** Calls on the factory: [get], whose exceptions leave the factory as it is, and [refine] with GCPs and a method. *)
Inductive call := Get (name : string) | Refine (m : refine_method) (gcps : dict (list (oty_gcp R))).

(** Calls in order, up to the first [refine] that raises an exception. *)
Fixpoint calls (cs : list call) (st : fac) : res fac :=
  match cs with
  | [] => Ok st
  | Get name :: cs' => calls cs' (fst (rpc_get create name st))
  | Refine m gcps :: cs' =>
    match rpc_refine (refine_dict m) gcps st with
    | (st', Ok _) => calls cs' st'
    | (_, Err e) => Err e
    end
  end.
End Adjust.
