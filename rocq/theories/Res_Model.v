(** Model of what stays open: [OpenRaster] and [Open] (orthority/common.py), the exit stacks and thread pools of the functions that
    use them, and the order in which they are left, whether these functions return or raise. *)
From Coq Require Import List Arith Bool String.
From Verif Require Import Py Str.
Import ListNotations.
Open Scope string_scope.
Open Scope list_scope.

(** Where a file is: on a file system that GDAL reads itself (local or HTTP), or another one that fsspec reads. *)
Inductive place := Local | Remote.

(** The ways to name a file: a path or URI, an fsspec OpenFile, an open dataset or file object of the caller (a handle, and its mode
    attribute if it has one), or something else.  [there] says if the file exists. *)
Inductive filearg :=
| FPath (p : place) (there : bool)
| FOpenFile (p : place) (there : bool) (mode : string)
| FObject (h : nat) (mode : option string)
| FOther.

(** Handles are files, datasets, warped datasets, thread pools, progress bars and other context managers, numbered in the order of
    creation.  [running]: the tasks of thread pools that may be running, with the handles they use. *)
Record st := St {
  opened : list bool;                 (* by handle: still open? *)
  cur : list nat;                     (* the current exit stack: what is left to close, in order *)
  tick : nat;                         (* operations done so far *)
  running : list (nat * list nat);    (* (pool, handles used) *)
  misused : bool                      (* a handle was closed while a task that uses it may be running *)
}.

Definition M (A : Type) := st -> st * res A.
Definition mret {A} (r : res A) : M A := fun s => (s, r).
Definition mbind {A B} (m : M A) (k : A -> M B) : M B :=
  fun s => match m s with (s', Ok a) => k a s' | (s', Err e) => (s', Err e) end.
Notation "'let*' x <- m ; k" := (mbind m (fun x => k)) (at level 200, x pattern, m at level 99, k at level 200, right associativity).
Notation "m ;; k" := (mbind m (fun _ => k)) (at level 100, right associativity).

Definition is_open (s : st) (h : nat) : bool := nth h (opened s) false.
Fixpoint set_closed (h : nat) (l : list bool) : list bool :=
  match l, h with
  | [], _ => []
  | _ :: l', O => false :: l'
  | b :: l', S h' => b :: set_closed h' l'
  end.

Section Run.
(** What each operation does, in the order they happen: raise an exception, or not. *)
Variable raises : nat -> option exn.

(** A stretch of code that may raise. *)
Definition step : M unit := fun s =>
  (St (opened s) (cur s) (S (tick s)) (running s) (misused s), match raises (tick s) with Some e => Err e | None => Ok tt end).

(** Creation of a handle, which may fail. *)
Definition create : M nat :=
  step ;; fun s => (St (opened s ++ [true]) (cur s) (tick s) (running s) (misused s), Ok (List.length (opened s))).

(** Closing a handle, which may raise, e.g. if writing the rest of a file fails.  Closing a thread pool waits for its tasks. *)
Definition close_handle (h : nat) : M unit :=
  (fun s =>
     let rest := filter (fun t => negb (Nat.eqb (fst t) h)) (running s) in
     (St (set_closed h (opened s)) (cur s) (tick s) rest (misused s || existsb (fun t => existsb (Nat.eqb h) (snd t)) rest), Ok tt)) ;;
  step.

(** [ExitStack.__exit__]: everything is closed, last in first out; the last exception counts. *)
Fixpoint unwind {A} (l : list nat) (r : res A) : M A :=
  match l with
  | [] => mret r
  | h :: l' => fun s => let (s', c) := close_handle h s in unwind l' (match c with Ok _ => r | Err e => Err e end) s'
  end.

(** [with ExitStack() as stack: body], and [with a, b, ...: body]. *)
Definition with_stack {A} (body : M A) : M A := fun s =>
  let (s1, r) := body (St (opened s) [] (tick s) (running s) (misused s)) in
  unwind (cur s1) r (St (opened s1) (cur s) (tick s1) (running s1) (misused s1)).

Definition push (l : list nat) : M unit := fun s => (St (opened s) (l ++ cur s) (tick s) (running s) (misused s), Ok tt).

(** [stack.enter_context(...)] of something that is created there: an environment, a warning filter, a progress bar, a thread pool, a
    warped dataset or a file of fsspec. *)
Definition enter : M nat := let* h <- create; push [h] ;; mret (Ok h).

(** A context manager object that was made, and not entered yet: its dataset or file, and its own exit stack. *)
Record ctx := Ctx { c_main : nat; c_stack : list nat }.

(** common.py:267-334 [OpenRaster.__init__].  The mapping of exceptions and the [filename] attribute are left out. *)
Definition open_raster (file : filearg) (mode : string) (overwrite : bool) : M ctx :=
  let open_ofile p (there : bool) : M ctx :=
    if negb overwrite && contains "w" mode && there then mret (Err FileExistsError) else
    match p with
    | Local => let* h <- create; mret (Ok (Ctx h [h]))
    | Remote => let* f <- create; let* h <- create; mret (Ok (Ctx h [h; f]))
    end in
  if negb (existsb (String.eqb mode) ["r"; "w"]) then mret (Err ValueError) else
  match file with
  | FObject h m => fun s =>
    if negb (is_open s h) then (s, Err OSError)
    else if negb (contains mode match m with Some m => m | None => "" end) then (s, Err OSError)
    else (s, Ok (Ctx h []))
  | FOpenFile p there m => if negb (String.eqb (mode ++ "b") m) then mret (Err OSError) else open_ofile p there
  | FPath p there => open_ofile p there
  | FOther => mret (Err TypeError)
  end.

(** common.py:368-403 [Open.__init__]. *)
Definition open_text (file : filearg) (mode : string) (overwrite : bool) : M ctx :=
  let open_ofile (there : bool) : M ctx :=
    if negb overwrite && contains "w" mode && there then mret (Err FileExistsError) else
    let* h <- create; mret (Ok (Ctx h [h])) in
  match file with
  | FObject h m => fun s =>
    if negb (is_open s h) then (s, Err OSError)
    else if negb (String.eqb match m with Some m => m | None => mode end mode) then (s, Err OSError)
    else (s, Ok (Ctx h []))
  | FOpenFile _ there m => if negb (String.eqb mode m) then mret (Err OSError) else open_ofile there
  | FPath _ there => open_ofile there
  | FOther => mret (Err TypeError)
  end.

(** common.py:338-347, 406-413 [__enter__] and [__exit__]: what [OpenRaster] opened is closed by the stack that it is entered in. *)
Definition enter_ctx (c : ctx) : M nat := fun s =>
  if negb (is_open s (c_main c)) then (s, Err OSError) else (push (c_stack c) ;; mret (Ok (c_main c))) s.
Definition enter_raster (file : filearg) (mode : string) (overwrite : bool) : M nat :=
  let* c <- open_raster file mode overwrite; enter_ctx c.
Definition enter_text (file : filearg) (mode : string) (overwrite : bool) : M nat :=
  let* c <- open_text file mode overwrite; push (c_stack c) ;; mret (Ok (c_main c)).

(** [executor.submit(task, handles)]: the task may be running from here on. *)
Definition submit (pool : nat) (uses : list nat) : M unit := fun s =>
  (St (opened s) (cur s) (tick s) ((pool, uses) :: running s) (misused s), Ok tt).

Fixpoint repeat_m (n : nat) (m : M unit) : M unit := match n with O => mret (Ok tt) | S n' => m ;; repeat_m n' m end.
Fixpoint each {A} (f : A -> M unit) (l : list A) : M unit := match l with [] => mret (Ok tt) | x :: l' => f x ;; each f l' end.

(** * The functions of the library *)

(** camera.py:287-317 [Camera.read] of an image. *)
Definition camera_read (im : filearg) : M unit := with_stack (enter ;; enter ;; enter_raster im "r" false ;; step).

(** ortho.py:112-125 [_parse_crs], 127-232 [_get_init_dem] and 85-105 [Ortho.__init__]. *)
Definition ortho_init (src dem : filearg) (crs : bool) : M unit :=
  (if crs then step else with_stack (enter ;; enter_raster src "r" false ;; step)) ;;
  with_stack (enter ;; enter_raster dem "r" false ;; step) ;;
  step.

(** ortho.py:401-482 [_remap] with [n] sets of bands and [tiles] tiles: the tasks write to the ortho. *)
Definition ortho_remap (src out : nat) (n tiles : nat) : M unit :=
  with_stack (
    let* pool <- enter;
    repeat_m n (camera_read (FObject src (Some "r")) ;; repeat_m tiles (submit pool [out]) ;; repeat_m tiles step)).

(** ortho.py:556-628 [Ortho.process]. *)
Definition ortho_process (src out : filearg) (overwrite : bool) (n tiles : nat) : M unit :=
  with_stack (
    enter ;; enter ;; enter ;;
    let* s <- enter_raster src "r" false;
    step ;;
    let* o <- enter_raster out "w" overwrite;
    step ;;
    ortho_remap s o n tiles ;;
    step).

(** pan_sharp.py:69-80 [PanSharpen.__init__] and 82-189 [_get_vrt_profiles]. *)
Definition pan_init (pan ms : filearg) : M unit :=
  with_stack (enter ;; enter_raster pan "r" false ;; enter_raster ms "r" false ;; step).

(** pan_sharp.py:228-309 [_get_stats]: the tasks read warped datasets. *)
Definition pan_stats (pan ms : nat) (tiles : nat) : M unit :=
  with_stack (
    let* p <- enter; let* m <- enter; let* pool <- enter;
    repeat_m tiles (submit pool [p; m; pan; ms]) ;; repeat_m tiles step).

(** pan_sharp.py:591-667 [PanSharpen.process]: the tasks read warped datasets, and write to the output. *)
Definition pan_process (pan ms out : filearg) (overwrite : bool) (stat_tiles tiles : nat) : M unit :=
  step ;;
  with_stack (
    enter ;; enter ;;
    let* pan_im <- enter_raster pan "r" false;
    let* ms_im <- enter_raster ms "r" false;
    step ;;
    let* out_im <- enter_raster out "w" overwrite;
    step ;;
    pan_stats pan_im ms_im stat_tiles ;;
    step ;;
    let* p <- enter; let* m <- enter;
    let* pool <- enter;
    repeat_m tiles (submit pool [p; m; pan_im; ms_im; out_im]) ;;
    enter ;;
    repeat_m tiles step ;;
    step).

(** Readers and writers of parameter files: param_io.py:205-283, 286-314, 393-431, 516-567, 1184-1218 and 1365-1400 read, then check;
    570-700 prepare, then write. *)
Definition read_file (f : filearg) : M unit := with_stack (enter_text f "rt" false ;; step) ;; step.
Definition write_file (f : filearg) (overwrite : bool) : M unit := step ;; with_stack (enter_text f "wt" overwrite ;; step).

(** param_io.py:961-996 [CsvReader.__init__] and 1080-1101: a file read, and its .prj file if it has a path and a format with a world position. *)
Definition read_csv (f : filearg) (prj : bool) : M unit :=
  with_stack (enter_text f "rt" false ;; step) ;; step ;;
  (if prj then with_stack (enter ;; step) else mret (Ok tt)) ;; step.

(** exif.py:111-138 [Exif.__init__], and the same contexts in param_io.py:348-369 and 466-497: one image. *)
Definition read_image (im : filearg) : M unit := step ;; with_stack (enter ;; enter ;; enter_raster im "r" false ;; step) ;; step.

(** Tasks of a pool that open their own files.  They run one after the other in the order they complete in: what one opens is not
    seen by the others. *)
Fixpoint run_tasks (l : list (M unit)) : M (list (res unit)) :=
  match l with
  | [] => mret (Ok [])
  | m :: l' => fun s => let (s', r) := m s in (let* rs <- run_tasks l'; mret (Ok (r :: rs))) s'
  end.

(** param_io.py:332-390 [read_im_rpc_param], 454-513 [read_im_gcps] and 1302-1337 [ExifReader._read_exif]. *)
Definition read_images (l : list filearg) : M unit :=
  with_stack (enter ;; let* rs <- run_tasks (map read_image l); enter ;; each (fun r => mret r ;; step) rs).

(** * The commands *)

(** [with ctx as im: body] for an object made before. *)
Definition with_ctx (c : ctx) (body : nat -> M unit) : M unit := with_stack (let* im <- enter_ctx c; body im).

(** cli.py:139-155 [_read_crs] of an image or a text file. *)
Definition read_crs (f : filearg) (image : bool) : M unit :=
  if image then with_stack (enter ;; enter_raster f "r" false) ;; mret (Ok tt)
  else with_stack (enter_text f "rt" false ;; step) ;; step.

(** cli.py:327-369 [_ortho]. *)
Definition cli_ortho (dem : filearg) (srcs : list filearg) (out : filearg) (overwrite : bool) (n tiles : nat) : M unit :=
  let* dem_ctx <- open_raster dem "r" false;
  with_ctx dem_ctx (fun dem_im =>
    step ;;
    each (fun src =>
      step ;;
      let* src_ctx <- open_raster src "r" false;
      with_ctx src_ctx (fun src_im =>
        step ;;
        ortho_init (FObject src_im (Some "r")) (FObject dem_im (Some "r")) true ;;
        ortho_process (FObject src_im (Some "r")) out overwrite n tiles)) srcs).

(** cli.py:851-890 [odm]: the DSM, the reconstruction and orthorectification. *)
Definition cli_odm (dem rec : filearg) (srcs : list filearg) (out : filearg) (overwrite : bool) (n tiles : nat) : M unit :=
  step ;;
  let* dem_ctx <- open_raster dem "r" false;
  with_ctx dem_ctx (fun _ => step) ;;
  read_file rec ;;
  cli_ortho dem srcs out overwrite n tiles.

(** cli.py:1174-1211 [sharpen]. *)
Definition cli_sharpen (pan ms out : filearg) (overwrite : bool) (stat_tiles tiles : nat) : M unit :=
  let* pan_ctx <- open_raster pan "r" false;
  let* ms_ctx <- open_raster ms "r" false;
  with_ctx pan_ctx (fun pan_im =>
    with_ctx ms_ctx (fun ms_im =>
      step ;;
      pan_init (FObject pan_im (Some "r")) (FObject ms_im (Some "r")) ;;
      pan_process (FObject pan_im (Some "r")) (FObject ms_im (Some "r")) out overwrite stat_tiles tiles)).

End Run.

(** Calls of the library and its commands. *)
Inductive request :=
| QCameraRead (im : filearg)
| QOrthoInit (src dem : filearg) (crs : bool)
| QOrthoProcess (src out : filearg) (overwrite : bool) (n tiles : nat)
| QPanInit (pan ms : filearg)
| QPanProcess (pan ms out : filearg) (overwrite : bool) (stat_tiles tiles : nat)
| QReadFile (f : filearg)
| QWriteFile (f : filearg) (overwrite : bool)
| QReadCsv (f : filearg) (prj : bool)
| QReadImages (l : list filearg)
| QReadCrs (f : filearg) (image : bool)
| QCliOrtho (dem : filearg) (srcs : list filearg) (out : filearg) (overwrite : bool) (n tiles : nat)
| QCliOdm (dem rec : filearg) (srcs : list filearg) (out : filearg) (overwrite : bool) (n tiles : nat)
| QCliSharpen (pan ms out : filearg) (overwrite : bool) (stat_tiles tiles : nat).

Definition run_request (raises : nat -> option exn) (q : request) : M unit :=
  match q with
  | QCameraRead im => camera_read raises im
  | QOrthoInit src dem crs => ortho_init raises src dem crs
  | QOrthoProcess src out o n t => ortho_process raises src out o n t
  | QPanInit pan ms => pan_init raises pan ms
  | QPanProcess pan ms out o st t => pan_process raises pan ms out o st t
  | QReadFile f => read_file raises f
  | QWriteFile f o => write_file raises f o
  | QReadCsv f prj => read_csv raises f prj
  | QReadImages l => read_images raises l
  | QReadCrs f image => read_crs raises f image
  | QCliOrtho dem srcs out o n t => cli_ortho raises dem srcs out o n t
  | QCliOdm dem rec srcs out o n t => cli_odm raises dem rec srcs out o n t
  | QCliSharpen pan ms out o st t => cli_sharpen raises pan ms out o st t
  end.

(** Calls one after the other; an exception ends its own call only. *)
Fixpoint run_requests (raises : nat -> option exn) (l : list request) (s : st) : st :=
  match l with
  | [] => s
  | q :: l' => run_requests raises l' (fst (run_request raises q s))
  end.
