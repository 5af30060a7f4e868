(** Model of the camera factories (orthority/factory.py): [FrameCameras.get], [RpcCameras.get] and
    [RpcCameras.refine], as state machines with camera objects on a heap. *)
From Coq Require Import List String Ascii Bool Arith.
From Verif Require Import Py.
Import ListNotations.
Open Scope string_scope.

(** * File names *)

(** Position of the last [c] in [s]. *)
Fixpoint rfind (c : ascii) (s : string) : option nat :=
  match s with
  | EmptyString => None
  | String c' s' => match rfind c s' with
                    | Some i => Some (S i)
                    | None => if Ascii.eqb c c' then Some 0 else None
                    end
  end.

(** [Path(s).name], for paths without a trailing slash. *)
Definition path_name (s : string) : string :=
  match rfind "/" s with
  | Some i => substring (S i) (String.length s - S i) s
  | None => s
  end.

(** [Path.stem] of a file name: everything before the last dot, unless that is the first or last character. *)
Definition stem (name : string) : string :=
  match rfind "." name with
  | Some i => if ((0 <? i) && (i <? String.length name - 1))%nat then substring 0 i name else name
  | None => name
  end.

(** [d.get(filename.name, d.get(filename.stem, None))]. *)
Definition get_by_name {V} (name : string) (d : dict V) : option V :=
  match dget name d with Some v => Some v | None => dget (stem name) d end.

(** * Frame cameras *)
Section Frame.
Variables P X I : Type.  (* interior parameters; exterior parameters (position and angles); camera interior *)
Variable create : P -> res I.  (* create_camera of the interior parameters *)

(** Exterior parameters of an image: position and angles, and camera ID ([None] or an empty string when there is
    none). *)
Record ext := Ext { ex_pos : X; ex_cam : option string }.

(** A camera object: its interior, and the exterior it was last updated with. *)
Record camera := Camera { c_int : I; c_ext : option X }.

Record fstate := FState {
  f_int : dict P;
  f_ext : dict ext;
  f_cache : list (option string * nat);  (* camera ID to object *)
  f_heap : list camera                   (* objects, in order of creation *)
}.

Definition oeqb (a b : option string) : bool :=
  match a, b with
  | Some s, Some t => String.eqb s t
  | None, None => true
  | _, _ => false
  end.

Fixpoint cget (k : option string) (c : list (option string * nat)) : option nat :=
  match c with
  | [] => None
  | (k', i) :: c' => if oeqb k k' then Some i else cget k c'
  end.

(** Replace the [i]th object. *)
Fixpoint hset (i : nat) (c : camera) (h : list camera) : list camera :=
  match h, i with
  | [], _ => []
  | _ :: h', O => c :: h'
  | c' :: h', S i' => c' :: hset i' c h'
  end.

(** Truth of a camera ID. *)
Definition given (cam : option string) : bool :=
  match cam with Some s => negb (String.eqb s "") | None => false end.

(** factory.py:215-225: the interior parameters for a camera ID. *)
Definition int_for (st : fstate) (cam : option string) : res P :=
  if given cam
  then match cam with
       | Some s => match dget s (f_int st) with Some p => Ok p | None => Err ParamError end
       | None => Err ParamError
       end
  else match f_int st with [(_, p)] => Ok p | _ => Err ParamError end.

(** factory.py:205-234 [FrameCameras.get]: the object returned. *)
Definition frame_get (name : string) (st : fstate) : fstate * res nat :=
  match get_by_name name (f_ext st) with
  | None => (st, Err ParamError)
  | Some e =>
    match int_for st (ex_cam e) with
    | Err x => (st, Err x)
    | Ok p =>
      match match cget (ex_cam e) (f_cache st) with
            | Some i => Ok (i, f_cache st, f_heap st)
            | None => match create p with
                      | Ok c => let i := List.length (f_heap st) in
                                Ok (i, (f_cache st ++ [(ex_cam e, i)])%list, (f_heap st ++ [Camera c None])%list)
                      | Err x => Err x
                      end
            end with
      | Err x => (st, Err x)
      | Ok (i, cache, heap) =>
        let heap' := match nth_error heap i with
                     | Some c => hset i (Camera (c_int c) (Some (ex_pos e))) heap  (* update(xyz, opk) *)
                     | None => heap
                     end in
        (FState (f_int st) (f_ext st) cache heap', Ok i)
      end
    end
  end.

Definition frame_init (ints : dict P) (exts : dict ext) : fstate := FState ints exts [] [].

(** A history of [get] calls. *)
Definition frame_run (names : list string) (st : fstate) : fstate :=
  fold_left (fun st n => fst (frame_get n st)) names st.
End Frame.
Arguments Ext {X} _ _.
Arguments ex_pos {X} _.
Arguments ex_cam {X} _.
Arguments Camera {X I} _ _.
Arguments c_int {X I} _.
Arguments c_ext {X I} _.
Arguments FState {P X I} _ _ _ _.
Arguments f_int {P X I} _.
Arguments f_ext {P X I} _.
Arguments f_cache {P X I} _.
Arguments f_heap {P X I} _.
Arguments int_for {P X I} _ _.
Arguments frame_get {P X I} _ _ _.
Arguments frame_init {P X I} _ _.
Arguments frame_run {P X I} _ _ _.

(** * RPC cameras *)
Section Rpc.
Variables M R G C : Type.  (* image size; RPC parameters; GCP; camera *)
Variable create : M -> R -> res C.
Variable refine_rpc : R -> list G -> res R.

Record rstate := RState {
  r_param : dict (M * R);
  r_cache : dict C;         (* keyed by the requested file name; RPC cameras do not change once made *)
  r_gcps : option (dict (list G))
}.

(** factory.py:364-376 [RpcCameras.get]. *)
Definition rpc_get (name : string) (st : rstate) : rstate * res C :=
  match get_by_name name (r_param st) with
  | None => (st, Err ParamError)
  | Some (m, r) =>
    match dget name (r_cache st) with
    | Some c => (st, Ok c)
    | None => match create m r with
              | Ok c => (RState (r_param st) (dset name c (r_cache st)) (r_gcps st), Ok c)
              | Err e => (st, Err e)
              end
    end
  end.

(** factory.py:348-362, the loop over the stored parameters: a camera is dropped from the cache before its
    parameters are refined; an exception leaves the images done so far refined. *)
Fixpoint refine_loop (gcps : dict (list G)) (items : dict (M * R)) (st : rstate) : rstate * res unit :=
  match items with
  | [] => (st, Ok tt)
  | (f, (m, r)) :: items' =>
    match get_by_name (path_name f) gcps with
    | Some (g :: gs) =>
      let st1 := RState (r_param st) (ddel (path_name f) (r_cache st)) (r_gcps st) in
      match refine_rpc r (g :: gs) with
      | Ok r' => refine_loop gcps items' (RState (dset f (m, r') (r_param st1)) (r_cache st1) (r_gcps st1))
      | Err e => (st1, Err e)
      end
    | _ => refine_loop gcps items' st  (* warning *)
    end
  end.

(** factory.py:308-362 [RpcCameras.refine], with a GCP dictionary. *)
Definition rpc_refine (gcps : dict (list G)) (st : rstate) : rstate * res unit :=
  let st := RState (r_param st) (r_cache st) (Some gcps) in
  refine_loop gcps (r_param st) st.

Definition rpc_init (params : dict (M * R)) : rstate := RState params [] None.

Inductive rcall := RGet (name : string) | RRefine (gcps : dict (list G)).

Definition rpc_call (c : rcall) (st : rstate) : rstate :=
  match c with RGet n => fst (rpc_get n st) | RRefine g => fst (rpc_refine g st) end.

Definition rpc_run (cs : list rcall) (st : rstate) : rstate := fold_left (fun st c => rpc_call c st) cs st.
End Rpc.
Arguments RState {M R G C} _ _ _.
Arguments r_param {M R G C} _.
Arguments r_cache {M R G C} _.
Arguments r_gcps {M R G C} _.
Arguments rpc_get {M R G C} _ _ _.
Arguments rpc_refine {M R G C} _ _ _.
Arguments rpc_init {M R G C} _.
Arguments RGet {G} _.
Arguments RRefine {G} _.
Arguments rpc_run {M R G C} _ _ _ _.
