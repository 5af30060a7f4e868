(** Model of file writing: [Open] and [OpenRaster] (orthority/common.py), the parameter writers
    (orthority/param_io.py), [write_param] (orthority/factory.py) and the order of effects in [Ortho.process] and
    [PanSharpen.process]. *)
From Coq Require Import List String Bool Arith.
From Verif Require Import Py.
Import ListNotations.
Open Scope string_scope.

(** A file system: path to content, for the files that exist. *)
Definition fsys := dict string.

(** An action on the file system. *)
Definition act (A : Type) := fsys -> fsys * res A.

Definition ret {A} (r : res A) : act A := fun fs => (fs, r).

Definition abind {A B} (m : act A) (k : A -> act B) : act B :=
  fun fs => match m fs with (fs', Ok a) => k a fs' | (fs', Err e) => (fs', Err e) end.

Notation "'let!' x <- m ; k" := (abind m (fun x => k))
  (at level 200, x pattern, m at level 100, k at level 200, right associativity).

Inductive fmode := RT | WT.
Definition fmode_eqb (a b : fmode) : bool := match a, b with RT, RT | WT, WT => true | _, _ => false end.

(** The ways to name a file: a path, an fsspec OpenFile (a path and a mode), or an open file object
    (closed?, mode attribute). *)
Inductive target :=
| TPath (path : string)
| TOpenFile (path : string) (mode : fmode)
| TFileObj (closed : bool) (mode : option fmode).

(** An open file: a path of the file system, or the caller's own object. *)
Inductive handle := HPath (path : string) | HObj.

(** common.py:370-403 [Open.__init__].  Opening for writing truncates. *)
Definition open_file (file : target) (mode : fmode) (overwrite : bool) : act handle :=
  let open_path path : act handle := fun fs =>
    if negb overwrite && (match mode with WT => true | RT => false end) && dmem path fs
    then (fs, Err FileExistsError)
    else match mode with
         | WT => (dset path "" fs, Ok (HPath path))
         | RT => if dmem path fs then (fs, Ok (HPath path)) else (fs, Err FileNotFoundError)
         end in
  match file with
  | TFileObj closed m =>
    if closed then ret (Err OSError)
    else if negb (fmode_eqb (match m with Some m => m | None => mode end) mode) then ret (Err OSError)
    else ret (Ok HObj)
  | TOpenFile path m => if negb (fmode_eqb mode m) then ret (Err OSError) else open_path path
  | TPath path => open_path path
  end.

(** Text produced by a serialiser: chunks, and the number of them written before it raised, if it did. *)
Definition dump := (list string * option nat)%type.

(** [yaml.safe_dump] / [json.dump] to an open file: chunks are appended until the serialiser raises. *)
Definition write_dump (h : handle) (d : dump) : act unit := fun fs =>
  let (chunks, fails_after) := d in
  let written := String.concat "" (match fails_after with Some k => firstn k chunks | None => chunks end) in
  let r := match fails_after with Some _ => Err SerializeError | None => Ok tt end in
  match h with
  | HPath p => (dset p ((match dget p fs with Some c => c | None => "" end) ++ written) fs, r)
  | HObj => (fs, r)
  end.

(** param_io.py:570-726 [write_int_param], [write_ext_param], [write_rpc_param], [write_gcps]: the document is
    built first ([prep], which may raise, e.g. for a bad CRS), then the file is opened and written.  The documents
    themselves are modelled in Params_Model.v. *)
Definition write_param_file (file : target) (prep : res dump) (overwrite : bool) : act unit :=
  let! d <- ret prep;
  let! h <- open_file file WT overwrite;
  write_dump h d.

(** [posixpath.join(base, rel)] for a relative [rel] (common.py:241-247 [join_ofile]). *)
Definition ends_with_slash (s : string) : bool :=
  String.eqb (substring (String.length s - 1) 1 s) "/".

Definition pjoin (base rel : string) : string :=
  if String.eqb base "" then rel
  else if ends_with_slash base then base ++ rel else base ++ "/" ++ rel.

(** factory.py:236-248 [FrameCameras.write_param]. *)
Definition frame_write_param (dir : string) (int_prep ext_prep : res dump) (has_crs overwrite : bool) : act unit :=
  let! _ <- write_param_file (TOpenFile (pjoin dir "int_param.yaml") WT) int_prep overwrite;
  if negb has_crs then ret (Err CrsMissingError) else
  write_param_file (TOpenFile (pjoin dir "ext_param.geojson") WT) ext_prep overwrite.

(** factory.py:378-394 [RpcCameras.write_param]; [gcp_prep] is [None] when there are no GCPs. *)
Definition rpc_write_param (dir : string) (rpc_prep : res dump) (gcp_prep : option (res dump)) (overwrite : bool)
    : act unit :=
  let! _ <- write_param_file (TOpenFile (pjoin dir "rpc_param.yaml") WT) rpc_prep overwrite;
  match gcp_prep with
  | Some prep => write_param_file (TOpenFile (pjoin dir "gcps.geojson") WT) prep overwrite
  | None => ret (Ok tt)
  end.

(** * Rasters *)

(** common.py:270-334 [OpenRaster.__init__] in 'w' mode for a path: [rio.open] creates or truncates the file; its
    own failure is taken to leave the file system alone. *)
Definition open_raster_w (path : string) (overwrite : bool) (rio_open : res unit) : act unit := fun fs =>
  if negb overwrite && dmem path fs then (fs, Err FileExistsError)
  else match rio_open with
       | Ok _ => (dset path "" fs, Ok tt)
       | Err e => (fs, Err e)
       end.

(** The steps of processing, in the order of the code. *)
Inductive step :=
| ProgressBar | OpenInputs | DemInterpArg | ReprojectDem | MaskDem | ValidateParams | CreateProfile
| RioOpen | ColorInterp | InterpArg | Statistics | OpenVrts | Tiles | Overviews.

(** What the environment does: the exception each step raises, if any, and the output file's content after each
    step. *)
Record env := Env { raises : step -> option exn; content_after : step -> string }.

Definition env_res (e : env) (s : step) : res unit := match raises e s with Some x => Err x | None => Ok tt end.

(** A step that reads and computes only. *)
Definition pure_step (e : env) (s : step) : act unit := ret (env_res e s).

(** A step with the output open: whether it raises or not it may have written. *)
Definition write_step (e : env) (path : string) (s : step) : act unit :=
  fun fs => (dset path (content_after e s) fs, env_res e s).

Fixpoint steps (f : step -> act unit) (l : list step) : act unit :=
  match l with
  | [] => ret (Ok tt)
  | s :: l' => let! _ <- f s; steps f l'
  end.

(** ortho.py:556-628 [Ortho.process]: [Interp(interp)] (line 618) is evaluated after the output is opened. *)
Definition ortho_process (e : env) (path : string) (overwrite build_ovw : bool) : act unit :=
  let! _ <- steps (pure_step e) [ProgressBar; OpenInputs; DemInterpArg; ReprojectDem; MaskDem; CreateProfile];
  let! _ <- open_raster_w path overwrite (env_res e RioOpen);
  steps (write_step e path) ([ColorInterp; InterpArg; Tiles] ++ (if build_ovw then [Overviews] else [])).

(** pan_sharp.py:587-670 [PanSharpen.process]. *)
Definition pan_process (e : env) (path : string) (overwrite build_ovw : bool) : act unit :=
  let! _ <- steps (pure_step e) [InterpArg; OpenInputs; ValidateParams; CreateProfile];
  let! _ <- open_raster_w path overwrite (env_res e RioOpen);
  steps (write_step e path)
        ([ColorInterp; Statistics; OpenVrts; ProgressBar; Tiles] ++ (if build_ovw then [Overviews] else [])).

(** * Histories of calls *)

Inductive call :=
| CWrite (file : target) (prep : res dump) (overwrite : bool)
| CFrame (dir : string) (int_prep ext_prep : res dump) (has_crs overwrite : bool)
| CRpc (dir : string) (rpc_prep : res dump) (gcp_prep : option (res dump)) (overwrite : bool)
| COrtho (e : env) (path : string) (overwrite build_ovw : bool)
| CPan (e : env) (path : string) (overwrite build_ovw : bool).

Definition run_call (c : call) : act unit :=
  match c with
  | CWrite f p o => write_param_file f p o
  | CFrame d i x c o => frame_write_param d i x c o
  | CRpc d r g o => rpc_write_param d r g o
  | COrtho e p o b => ortho_process e p o b
  | CPan e p o b => pan_process e p o b
  end.

(** Calls made one after the other; an exception ends its own call only. *)
Definition run_history (cs : list call) (fs : fsys) : fsys :=
  fold_left (fun fs c => fst (run_call c fs)) cs fs.

(** * Concurrent writers: the existence check and the open are separate steps (common.py:396-399). *)
Inductive wstate := WStart | WChecked | WDone (r : res unit).

Definition wstep (path content : string) (overwrite : bool) (st : fsys * wstate) : fsys * wstate :=
  match snd st with
  | WStart => if negb overwrite && dmem path (fst st) then (fst st, WDone (Err FileExistsError)) else (fst st, WChecked)
  | WChecked => (dset path content (fst st), WDone (Ok tt))
  | WDone _ => st
  end.

(** Two writers of the same path, interleaved: [true] is a step of the first. *)
Fixpoint interleave (path c1 c2 : string) (sched : list bool) (st : fsys * wstate * wstate) : fsys * wstate * wstate :=
  match sched with
  | [] => st
  | b :: sched' =>
    let '(fs, s1, s2) := st in
    interleave path c1 c2 sched'
      (if b then let (fs', s1') := wstep path c1 false (fs, s1) in (fs', s1', s2)
       else let (fs', s2') := wstep path c2 false (fs, s2) in (fs', s1, s2'))
  end.
