(** What it means that calls leave nothing open. *)
From Coq Require Import String List Arith.
From Verif Require Import Py Res_Model.
Import ListNotations.

(** A handle that is there and open. *)
Definition open (s : st) (h : nat) : Prop := nth_error (opened s) h = Some true.

(** Between calls: no exit stack of the library is left to run, and tasks that run (of the caller) use handles that are there. *)
Definition idle (s : st) : Prop :=
  cur s = [] /\
  forall pool uses, In (pool, uses) (running s) -> pool < length (opened s) /\ forall u, In u uses -> u < length (opened s).

(** Exactly the same handles are open, and the same tasks are running: all that was opened or started in between was closed and
    waited for; and what was open before still is. *)
Definition nothing_left (s s' : st) : Prop := (forall h, open s' h <-> open s h) /\ running s' = running s.

(** The handles that were there before are open or closed as they were. *)
Definition caller_unchanged (s s' : st) : Prop := forall h, h < length (opened s) -> (open s' h <-> open s h).

(** The files of a request. *)
Definition files (q : request) : list filearg :=
  match q with
  | QCameraRead f | QReadFile f | QWriteFile f _ | QReadCsv f _ | QReadCrs f _ => [f]
  | QOrthoInit a b _ | QOrthoProcess a b _ _ _ | QPanInit a b => [a; b]
  | QPanProcess a b c _ _ _ | QCliSharpen a b c _ _ _ => [a; b; c]
  | QReadImages l => l
  | QCliOrtho a l b _ _ _ => a :: b :: l
  | QCliOdm a b l c _ _ _ => a :: b :: c :: l
  end.

(** A file that GDAL opens itself, or an object of the caller. *)
Definition not_remote (f : filearg) : Prop :=
  match f with FPath Remote _ | FOpenFile Remote _ _ => False | _ => True end.

(** [oty sharpen] with paths. *)
Definition is_sharpen_command (q : request) : Prop := match q with QCliSharpen _ _ _ _ _ _ => True | _ => False end.
