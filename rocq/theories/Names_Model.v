(** Model of the file names of camera factories, and of asking a factory for the camera of a path (orthority/factory.py). *)
From Coq Require Import List String.
From Verif Require Import Py Factory_Model.
Import ListNotations.

Section Frame.
Variables P X I : Type.
Variable create : P -> res I.

(** factory.py:146-148 [FrameCameras.filenames]; sets are lists here. *)
Definition frame_filenames (st : fstate P X I) : list string := dkeys (f_ext st).

(** factory.py:205-234 [FrameCameras.get] of a path or URI string: the last part is taken at line 207 (common.py:223-238 [get_filename]).  Other kinds of file are not
    modelled here. *)
Definition frame_at (path : string) (st : fstate P X I) : fstate P X I * res nat := frame_get create (path_name path) st.

Definition frame_history (paths : list string) (st : fstate P X I) : fstate P X I := fold_left (fun st p => fst (frame_at p st)) paths st.
End Frame.
Arguments frame_filenames {P X I}.
Arguments frame_at {P X I}.
Arguments frame_history {P X I}.

Section Rpc.
Variables M R G C : Type.
Variable create : M -> R -> res C.
Variable refine_rpc : R -> list G -> res R.

(** factory.py:304-306 [RpcCameras.filenames]. *)
Definition rpc_filenames (st : rstate M R G C) : list string := dkeys (r_param st).

(** factory.py:364-376 [RpcCameras.get] of a path or URI string. *)
Definition rpc_at (path : string) (st : rstate M R G C) : rstate M R G C * res C := rpc_get create (path_name path) st.

(** Requests for paths and refinements (factory.py:308-362). *)
Definition rpc_history (cs : list (rcall G)) (st : rstate M R G C) : rstate M R G C :=
  fold_left (fun st c => match c with RGet p => fst (rpc_at p st) | RRefine g => fst (rpc_refine refine_rpc g st) end) cs st.
End Rpc.
Arguments rpc_filenames {M R G C}.
Arguments rpc_at {M R G C}.
Arguments rpc_history {M R G C}.
