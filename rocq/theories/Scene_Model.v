(** Model of a frame camera factory with its real camera objects: [FrameCameras.get] (orthority/factory.py) on the parameter
    dictionaries, [create_camera] of Make_Model, and calls that a user makes on the cameras. *)
From Coq Require Import String List Reals QArith ZArith Bool.
From Verif Require Import Py Flt Mat Remap_Model Frame_Model Undist_Model Validate_Model Params_Model Factory_Model Cam_Model Rcam_Model Make_Model.
Import ListNotations.
Open Scope string_scope.
Open Scope list_scope.

(** Keys of the dictionary of cameras: camera IDs, which may be None, text, an empty tuple, or 0, 0.0 or False, that are one key. *)
Inductive cam_key := IdNone | IdText (s : string) | IdZero | IdTuple.

Definition key_same (a b : cam_key) : bool :=
  match a, b with
  | IdNone, IdNone | IdZero, IdZero | IdTuple, IdTuple => true
  | IdText s, IdText t => String.eqb s t
  | _, _ => false
  end.

(** The key of an ID that has interior parameters.  Lists and dictionaries can't be keys; other values never get here. *)
Definition id_key (v : mval) : res cam_key :=
  match v with
  | MV PNone => Ok IdNone
  | MV (PStr s) => Ok (IdText s)
  | MV (PList _) | MV (PDict _) => Err TypeError
  | MTup _ => Ok IdTuple
  | _ => Ok IdZero
  end.

Fixpoint key_get {V} (k : cam_key) (d : list (cam_key * V)) : option V :=
  match d with [] => None | (k', v) :: d' => if key_same k k' then Some v else key_get k d' end.

Fixpoint replace {A} (i : nat) (x : A) (l : list A) : list A :=
  match l, i with
  | [], _ => []
  | _ :: l', O => x :: l'
  | y :: l', S i' => y :: replace i' x l'
  end.

Section Scene.
Variable cv_surf : string -> arr fl -> fl * fl -> option fl.
Variable cast_nan : string -> fl.
Variable cv_image : string -> arr pix -> fl * fl -> option pix.
Variable convert : string -> string -> pix -> pix.
Notation do_call := (do_call cv_surf cast_nan cv_image convert).
Variable cv_project cv_undistort fish_undistort : intr -> list R -> R * R -> R * R.
Variable C : Type.
Variable parse_crs : string -> res C.
Variable rpc_crs : C.
Variable O : Type.
Variable no_options : O.
Variable warp : C -> C -> list vec -> list vec.
Notation create_camera := (create_camera cv_project cv_undistort fish_undistort C parse_crs rpc_crs O no_options warp).

(** factory.py:98-109: interior and exterior parameters, camera options, the dictionary of cameras, and the camera objects in the order
    they were made. *)
Record scene := Scene {
  sc_int : dict (dict mval); sc_ext : dict (dict mval); sc_kwargs : dict mval;
  sc_cache : list (cam_key * nat); sc_heap : list (made C O) }.

Definition scene_init (ints exts : dict (dict mval)) (kwargs : dict mval) : scene := Scene ints exts kwargs [] [].

(** factory.py:215-225.  Camera types as IDs are not modelled. *)
Definition scene_interior (st : scene) (id : mval) : res (dict mval) :=
  if truthy id
  then match id with
       | MV (PStr s) => match dget s (sc_int st) with Some p => Ok p | None => Err ParamError end
       | MV (PList _) | MV (PDict _) => Err TypeError
       | _ => Err ParamError
       end
  else match sc_int st with [(_, p)] => Ok p | _ => Err ParamError end.

(** factory.py:227-229: the camera object for an ID, made on first use. *)
Definition scene_camera (st : scene) (key : cam_key) (p : dict mval) : res (nat * scene) :=
  match key_get key (sc_cache st) with
  | Some i => Ok (i, st)
  | None =>
    do kw <- merge_kwargs p (sc_kwargs st);
    do c <- create_camera kw None None;
    let i := List.length (sc_heap st) in
    Ok (i, Scene (sc_int st) (sc_ext st) (sc_kwargs st) ((key, i) :: sc_cache st) (sc_heap st ++ [c]))
  end.

(** factory.py:232: [camera.update(xyz=ext_param['xyz'], opk=ext_param['opk'])]; RPC cameras have no such method. *)
Definition scene_update (st : scene) (i : nat) (e : dict mval) : scene * res nat :=
  match nth_error (sc_heap st) i with
  | Some (MadeFrame c) =>
    match (do xyz <- dreq "xyz" e; do opk <- dreq "opk" e; do xyz <- opt_seq xyz; do opk <- opt_seq opk; Ok (xyz, opk)) with
    | Err x => (st, Err x)
    | Ok (xyz, opk) =>
      match do_call c (UpdateC xyz opk) with
      | (c', Ok _) => (Scene (sc_int st) (sc_ext st) (sc_kwargs st) (sc_cache st) (replace i (MadeFrame c') (sc_heap st)), Ok i)
      | (_, Err x) => (st, Err x)
      end
    end
  | Some (MadeRpc _) => (st, Err AttributeError)
  | None => (st, Err RuntimeError)  (* not reached: cached objects exist *)
  end.

(** factory.py:205-234 [FrameCameras.get], of a file name: the camera object. *)
Definition scene_get (name : string) (st : scene) : scene * res nat :=
  match get_by_name name (sc_ext st) with
  | None | Some [] => (st, Err ParamError)
  | Some e =>
    let id := match dget "camera" e with Some v => v | None => MV PNone end in
    match (do p <- scene_interior st id; do key <- id_key id; scene_camera st key p) with
    | Err x => (st, Err x)
    | Ok (i, st) => scene_update st i e
    end
  end.

(** A call on a camera object that was returned. *)
Definition scene_use (i : nat) (k : call) (st : scene) : scene * res value :=
  match nth_error (sc_heap st) i with
  | Some (MadeFrame c) =>
    let (c', r) := do_call c k in (Scene (sc_int st) (sc_ext st) (sc_kwargs st) (sc_cache st) (replace i (MadeFrame c') (sc_heap st)), r)
  | Some (MadeRpc _) => (st, Err AttributeError)  (* RPC cameras: their calls are modelled in Rcam_Model *)
  | None => (st, Err RuntimeError)  (* there is no such object *)
  end.

(** What can be done with a factory and its cameras. *)
Inductive act := Get (name : string) | Use (i : nat) (k : call).
Definition scene_do (st : scene) (a : act) : scene :=
  match a with Get n => fst (scene_get n st) | Use i k => fst (scene_use i k st) end.
Definition scene_run (l : list act) (st : scene) : scene := fold_left scene_do l st.
End Scene.
