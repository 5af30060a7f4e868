(** Model of how camera factories get and give their parameters (orthority/factory.py): [FrameCameras.__init__] and
    [_read_param], [write_param] with the parameter files it makes, [FrameCameras.from_images] with the caller's
    dictionary of options, and RPC factories that share parameter dictionaries. *)
From Coq Require Import String Ascii List Bool Arith QArith.
From Verif Require Import Py Validate_Model Files_Model Params_Model Exif_Model Factory_Model.
Import ListNotations.
Open Scope string_scope.
Open Scope list_scope.

(** * File arguments *)

(** A path; an fsspec OpenFile and its path; an open file object, its name if it has one, and the text that is left to
    read in it.  OpenFile and file objects have an identity. *)
Inductive farg :=
| FPath (path : string)
| FOpenFile (id : nat) (path : string)
| FObject (id : nat) (name : option string) (text : string).

(** common.py:223-237 [get_filename], for arguments without a filename attribute. *)
Definition get_filename (a : farg) : string :=
  match a with
  | FPath p | FOpenFile _ p => path_name p
  | FObject _ (Some n) _ => path_name n
  | FObject _ None _ => "<file object>"
  end.

(** [Path.suffix] of a file name. *)
Definition suffix (name : string) : string :=
  match rfind "." name with
  | Some i => if ((0 <? i) && (i <? String.length name - 1))%nat then substring i (String.length name - i) name else ""
  | None => ""
  end.

(** [a == b] of Python: paths by value, the others by identity. *)
Definition farg_eqb (a b : farg) : bool :=
  match a, b with
  | FPath p, FPath q => String.eqb p q
  | FOpenFile i _, FOpenFile j _ | FObject i _ _, FObject j _ _ => Nat.eqb i j
  | _, _ => false
  end.

(** Parameters given as a file or as a dictionary. *)
Inductive param_arg := AFile (a : farg) | ADict (d : dict (dict mval)).

(** Reading, with the file objects that have been read to their end: they have no more text. *)
Definition reads (A : Type) := list nat -> list nat * res A.
Definition rret {A} (r : res A) : reads A := fun seen => (seen, r).
Definition rbind {A B} (m : reads A) (k : A -> reads B) : reads B :=
  fun seen => match m seen with (seen', Ok a) => k a seen' | (seen', Err e) => (seen', Err e) end.
Notation "'read!' x <- m ; k" := (rbind m (fun x => k))
  (at level 200, x pattern, m at level 100, k at level 200, right associativity).

(** [with Open(file, 'rt') as f: f.read()]. *)
Definition read_text (fs : fsys) (a : farg) : reads string := fun seen =>
  match a with
  | FPath p | FOpenFile _ p => (seen, match dget p fs with Some t => Ok t | None => Err FileNotFoundError end)
  | FObject i _ t => if existsb (Nat.eqb i) seen then (seen, Ok "") else (i :: seen, Ok t)
  end.

(** * FrameCameras *)
Section Load.
Variable C : Type.                            (* CRSs; taken as true in a condition: rasterio's empty CRS is not *)
Variable crs_parse : string -> option C.      (* CRS.from_string; [None]: raises *)
Variables ydec jdec : string -> option pyval. (* yaml.safe_load, json.load; [None]: raises *)
Variable K : Type.                            (* the other reader options *)

(** The 'crs' option. *)
Inductive crs_opt := CNone | CStr (s : string) | CCrs (c : C).
Record io_kwargs := Io { io_crs : crs_opt; io_other : K }.

(** [CsvReader(file, **kwargs)] of the file and its text: its exterior parameters and CRS. *)
Variable csv_reader : io_kwargs -> farg -> string -> res (dict (dict mval) * option C).
(** [OsfmReader(file, **kwargs)] of the JSON document: interior and exterior parameters and CRS. *)
Variable osfm_reader : io_kwargs -> pyval -> res (dict (dict mval) * dict (dict mval) * C).

Definition loaded (dec : string -> option pyval) (fs : fsys) (a : farg) : reads pyval :=
  read! text <- read_text fs a; rret (match dec text with Some doc => Ok doc | None => Err ParamError end).

(** factory.py:158-176: interior parameters; [None]: not read yet. *)
Definition read_interior (fs : fsys) (int_param ext_param : param_arg) : reads (option (dict (dict mval))) :=
  match int_param with
  | ADict d => rret (Ok (Some d))
  | AFile a =>
    let suf := lower (suffix (get_filename a)) in
    if String.eqb suf ".yaml" || String.eqb suf ".yml" then
      read! doc <- loaded ydec fs a; read! d <- rret (read_int_doc doc); rret (Ok (Some d))
    else if String.eqb suf ".json" then
      if negb (match ext_param with AFile b => farg_eqb a b | ADict _ => false end) then
        read! doc <- loaded jdec fs a; read! d <- rret (read_osfm_int_param doc); rret (Ok (Some d))
      else rret (Ok None)
    else rret (Err ParamError)
  end.

(** factory.py:178-197: exterior parameters, CRS, and interior parameters of a reader that has them. *)
Definition read_exterior (fs : fsys) (kw : io_kwargs) (b : farg)
    : reads (dict (dict mval) * option C * option (dict (dict mval))) :=
  let suf := lower (suffix (get_filename b)) in
  if String.eqb suf ".csv" || String.eqb suf ".txt" then
    read! text <- read_text fs b; read! (e, c) <- rret (csv_reader kw b text); rret (Ok (e, c, None))
  else if String.eqb suf ".json" then
    read! doc <- loaded jdec fs b; read! (i, e, c) <- rret (osfm_reader kw doc); rret (Ok (e, Some c, Some i))
  else if String.eqb suf ".geojson" then
    read! doc <- loaded jdec fs b; read! (c, e) <- rret (read_ext_doc C crs_parse doc); rret (Ok (e, Some c, None))
  else rret (Err ParamError).

(** factory.py:199-201: [rio.CRS.from_string] raises rasterio's own CRSError. *)
Definition own_crs (kw : io_kwargs) : res (option C) :=
  match io_crs kw with
  | CNone => Ok None
  | CCrs c => Ok (Some c)
  | CStr s => match crs_parse s with Some c => Ok (Some c) | None => Err ExternalError end
  end.

(** factory.py:151-203 [FrameCameras._read_param]. *)
Definition read_param (fs : fsys) (kw : io_kwargs) (int_param ext_param : param_arg)
    : reads (dict (dict mval) * dict (dict mval) * option C) :=
  read! i0 <- read_interior fs int_param ext_param;
  match ext_param with
  | AFile b =>
    read! (e, c, oi) <- read_exterior fs kw b;
    read! i <- rret (match i0, oi with
                     | Some (x :: d), _ => Ok (x :: d)
                     | _, Some i => Ok i
                     | _, None => Err AttributeError    (* the reader has no read_int_param *)
                     end);
    read! c <- rret (match c with Some c => Ok (Some c) | None => own_crs kw end);
    rret (Ok (i, e, c))
  | ADict e =>
    read! i <- rret (match i0 with Some d => Ok d | None => Err AttributeError end);  (* never [None] here *)
    read! c <- rret (own_crs kw);
    rret (Ok (i, e, c))
  end.

(** * Writing parameters *)
Variables yenc jenc : pyval -> list string.
Variable crs_str : C -> string.
Variable is_projected : C -> bool.
Variable to_lla : C -> pyval -> pyval -> pyval -> res (Q * Q * Q).

(** factory.py:236-248 [FrameCameras.write_param]. *)
Definition write_frame (dir : string) (ow : bool) (ints exts : dict (dict mval)) (crs : option C) : act unit :=
  let! _ <- write_int_param yenc (pjoin dir "int_param.yaml") ints ow;
  match crs with
  | None => ret (Err CrsMissingError)
  | Some c => write_ext_param jenc crs_str is_projected to_lla (pjoin dir "ext_param.geojson") c exts ow
  end.

(** factory.py:378-394 [RpcCameras.write_param]. *)
Definition write_rpc (dir : string) (ow : bool) (params : dict (dict mval)) (gcps : option (dict (list (dict mval)))) : act unit :=
  let! _ <- write_rpc_param yenc (pjoin dir "rpc_param.yaml") params ow;
  match gcps with
  | None | Some [] => ret (Ok tt)
  | Some d => write_gcps jenc (pjoin dir "gcps.geojson") d ow
  end.

(** factory.py:308-347: the GCPs of [RpcCameras.refine]. *)
Inductive gcp_arg :=
| GNothing                                    (* None, or an empty string *)
| GImages (l : list farg)                     (* a list or tuple of images *)
| GFile (a : farg)
| GDict (d : dict (list (dict mval))).
Variable im_gcps : list farg -> res (dict (list (dict mval))).  (* read_im_gcps *)

(** [None]: something that is not a dictionary was kept. *)
Definition refine_gcps (fs : fsys) (g : gcp_arg) : reads (option (dict (list (dict mval)))) :=
  match g with
  | GNothing | GImages [] => rret (Ok None)
  | GImages l => read! d <- rret (im_gcps l); rret (Ok (Some d))
  | GFile a => read! doc <- loaded jdec fs a; read! d <- rret (read_gcp_doc doc); rret (Ok (Some d))
  | GDict d => rret (Ok (Some d))
  end.

(** factory.py:308-362 [RpcCameras.refine]: with no dictionary, the first look up raises. *)
Definition refine_arg {M R Cam} (refine_rpc : R -> list (dict mval) -> res R) (fs : fsys) (g : gcp_arg)
    (st : rstate M R (dict mval) Cam) : reads (rstate M R (dict mval) Cam * res unit) := fun seen =>
  match refine_gcps fs g seen with
  | (seen', Err e) => (seen', Ok (st, Err e))
  | (seen', Ok None) => (seen', Ok (RState (r_param st) (r_cache st) None,
                                    match r_param st with [] => Ok tt | _ => Err AttributeError end))
  | (seen', Ok (Some d)) => (seen', Ok (rpc_refine refine_rpc d st))
  end.
End Load.
Arguments CNone {C}.
Arguments CStr {C} _.
Arguments CCrs {C} _.
Arguments Io {C K} _ _.
Arguments io_crs {C K} _.
Arguments io_other {C K} _.
Arguments own_crs {C} _ {K} _.

(** The exterior parameters of an image as [FrameCameras.get] uses them (factory.py:206-232); camera IDs are strings
    or [None]. *)
Definition ext_entry (p : dict mval) : ext (option mval * option mval) :=
  Ext (dget "xyz" p, dget "opk" p) (match dget "camera" p with Some (MV (PStr s)) => Some s | _ => None end).

Definition factory_of {I} (ints exts : dict (dict mval)) : fstate (dict mval) (option mval * option mval) I :=
  frame_init ints (map (fun kv => (fst kv, ext_entry (snd kv))) exts).

(** * The caller's options dictionary in [FrameCameras.from_images] *)
Section Images.
Variables C N V D : Type.  (* CRSs; image files; other option values; interior and exterior parameters *)

(** Option values: a CRS, [None], or something else. *)
Inductive optval := OCrs (c : C) | ONone | OOther (v : V).

(** [ExifReader(files, **io_kwargs)], its parameters and CRS ([None] when there are no images). *)
Variable exif_reader : list N -> dict optval -> res (D * option C).

Definition optcrs (c : option C) : optval := match c with Some c => OCrs c | None => ONone end.

(** Dictionaries of the caller, by reference. *)
Definition kwheap := list (dict optval).
Fixpoint kset (i : nat) (d : dict optval) (h : kwheap) : kwheap :=
  match h, i with
  | [], _ => []
  | _ :: h', O => d :: h'
  | d' :: h', S i' => d' :: kset i' d h'
  end.

(** factory.py:111-140 [FrameCameras.from_images], with options by reference or [None]: the parameters and CRS of the
    factory.  An empty dictionary is replaced with a new one; any other is updated in place. *)
Definition from_images (files : list N) (arg : option nat) (h : kwheap) : kwheap * res (D * option C) :=
  let kw := match arg with Some i => nth i h [] | None => [] end in
  match exif_reader files kw with
  | Err e => (h, Err e)
  | Ok (d, c) =>
    (match arg, kw with Some i, _ :: _ => kset i (dset "crs" (optcrs c) kw) h | _, _ => h end, Ok (d, c))
  end.

Definition from_images_run (calls : list (list N * option nat)) (h : kwheap) : kwheap :=
  fold_left (fun h call => fst (from_images (fst call) (snd call) h)) calls h.
End Images.
Arguments OCrs {C V} _.
Arguments ONone {C V}.
Arguments OOther {C V} _.
Arguments from_images {C N V D} _ _ _ _.
Arguments from_images_run {C N V D} _ _ _.

(** * RPC factories that share parameters *)
Section Shared.
Variables M R G C : Type.
Variable create : M -> R -> res C.
Variable refine_rpc : R -> list G -> res R.

(** The parameter dictionary of one image is an object: [sh_objs] has them all. *)
Record sfac := SFac { s_param : dict nat; s_cache : dict C; s_gcps : option (dict (list G)) }.
Record shared := Shared { sh_objs : nat -> M * R; sh_facs : list sfac }.

Definition set_obj (i : nat) (v : M * R) (o : nat -> M * R) : nat -> M * R := fun j => if Nat.eqb i j then v else o j.

(** factory.py:364-376 [RpcCameras.get]. *)
Definition s_get (o : nat -> M * R) (name : string) (f : sfac) : sfac * res C :=
  match get_by_name name (s_param f) with
  | None => (f, Err ParamError)
  | Some i =>
    match dget name (s_cache f) with
    | Some c => (f, Ok c)
    | None => match create (fst (o i)) (snd (o i)) with
              | Ok c => (SFac (s_param f) (dset name c (s_cache f)) (s_gcps f), Ok c)
              | Err e => (f, Err e)
              end
    end
  end.

(** factory.py:348-362: [rpc_param['rpc'] = ...] is an update of the object. *)
Fixpoint s_refine_loop (gcps : dict (list G)) (items : dict nat) (o : nat -> M * R) (f : sfac) : (nat -> M * R) * sfac * res unit :=
  match items with
  | [] => (o, f, Ok tt)
  | (n, i) :: items' =>
    match get_by_name (path_name n) gcps with
    | Some (g :: gs) =>
      let f1 := SFac (s_param f) (ddel (path_name n) (s_cache f)) (s_gcps f) in
      match refine_rpc (snd (o i)) (g :: gs) with
      | Ok r' => s_refine_loop gcps items' (set_obj i (fst (o i), r') o) f1
      | Err e => (o, f1, Err e)
      end
    | _ => s_refine_loop gcps items' o f
    end
  end.

Definition s_refine (gcps : dict (list G)) (o : nat -> M * R) (f : sfac) : (nat -> M * R) * sfac * res unit :=
  s_refine_loop gcps (s_param f) o (SFac (s_param f) (s_cache f) (Some gcps)).

Fixpoint set_fac (k : nat) (f : sfac) (l : list sfac) : list sfac :=
  match l, k with
  | [], _ => []
  | _ :: l', O => f :: l'
  | f' :: l', S k' => f' :: set_fac k' f l'
  end.

(** A call on the [k]th factory. *)
Definition s_call (kc : nat * rcall G) (w : shared) : shared :=
  match nth_error (sh_facs w) (fst kc) with
  | None => w
  | Some f =>
    match snd kc with
    | RGet n => Shared (sh_objs w) (set_fac (fst kc) (fst (s_get (sh_objs w) n f)) (sh_facs w))
    | RRefine g => let '(o, f', _) := s_refine g (sh_objs w) f in Shared o (set_fac (fst kc) f' (sh_facs w))
    end
  end.

Definition s_run (calls : list (nat * rcall G)) (w : shared) : shared := fold_left (fun w c => s_call c w) calls w.

(** [RpcCameras(params)] for dictionaries of references. *)
Definition s_init (o : nat -> M * R) (params : list (dict nat)) : shared := Shared o (map (fun p => SFac p [] None) params).
End Shared.
Arguments SFac {G C} _ _ _.
Arguments s_param {G C} _.
Arguments s_cache {G C} _.
Arguments s_gcps {G C} _.
Arguments Shared {M R G C} _ _.
Arguments sh_objs {M R G C} _.
Arguments sh_facs {M R G C} _.
Arguments s_get {M R G C} _ _ _ _.
Arguments s_refine {M R G C} _ _ _ _.
Arguments s_call {M R G C} _ _ _ _.
Arguments s_run {M R G C} _ _ _ _.
Arguments s_init {M R G C} _ _.
