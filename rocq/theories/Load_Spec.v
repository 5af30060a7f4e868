(** Vocabulary for loading and sharing camera parameters. *)
From Coq Require Import String Ascii List Bool Arith QArith.
From Verif Require Import Py Validate_Model Files_Model Params_Model Params_Spec Exif_Model Factory_Model Factory_Spec Load_Model.
Import ListNotations.
Open Scope string_scope.
Open Scope list_scope.

(** The path of a file argument; file objects need not have one. *)
Inductive arg_path : farg -> string -> Prop :=
| path_path : forall p, arg_path (FPath p) p
| open_file_path : forall i p, arg_path (FOpenFile i p) p
| object_path : forall i n t, arg_path (FObject i (Some n) t) n.

(** The file of an argument has an extension, in upper or lower case: [has_ext a ".json"].  The name of the file, that
    is the last part of its path, has something before the extension. *)
Definition has_ext (a : farg) (x : string) : Prop :=
  exists p s y, arg_path a p /\ last_part p (s ++ y)%string /\ s <> "" /\ any_case y x.

(** The text of a file argument. *)
Inductive text_of (fs : fsys) : farg -> string -> Prop :=
| at_path : forall p t, dget p fs = Some t -> text_of fs (FPath p) t
| at_open_file : forall i p t, dget p fs = Some t -> text_of fs (FOpenFile i p) t
| of_object : forall i n t, text_of fs (FObject i n t) t.

(** Two arguments that Python takes as equal: the same path, or the same object. *)
Inductive same_arg : farg -> farg -> Prop :=
| same_path : forall p, same_arg (FPath p) (FPath p)
| same_open_file : forall i p q, same_arg (FOpenFile i p) (FOpenFile i q)
| same_object : forall i n t m u, same_arg (FObject i n t) (FObject i m u).

(** One object has one file, name and text. *)
Definition consistent (a b : farg) : Prop := same_arg a b -> a = b.

Section Load.
Variable C : Type.
Variable crs_parse : string -> option C.
Variables ydec jdec : string -> option pyval.
Variable K : Type.
Variable csv_reader : io_kwargs C K -> farg -> string -> res (dict (dict mval) * option C).
Variable osfm_reader : io_kwargs C K -> pyval -> res (dict (dict mval) * dict (dict mval) * C).
Variable fs : fsys.

(** Interior parameters of an interior parameter file, by its extension. *)
Inductive interior_file (a : farg) (i : dict (dict mval)) : Prop :=
| orthority_interior : forall t doc, has_ext a ".yaml" \/ has_ext a ".yml" ->
    text_of fs a t -> ydec t = Some doc -> read_int_doc doc = Ok i -> interior_file a i
| osfm_interior : forall t doc, has_ext a ".json" ->
    text_of fs a t -> jdec t = Some doc -> read_osfm_int_param doc = Ok i -> interior_file a i.

(** Exterior parameters, CRS and interior parameters (OpenSfM only) of an exterior parameter file. *)
Inductive exterior_file (kw : io_kwargs C K) (b : farg) : dict (dict mval) -> option C -> option (dict (dict mval)) -> Prop :=
| csv_exterior : forall t e c, has_ext b ".csv" \/ has_ext b ".txt" ->
    text_of fs b t -> csv_reader kw b t = Ok (e, c) -> exterior_file kw b e c None
| osfm_exterior : forall t doc i e c, has_ext b ".json" ->
    text_of fs b t -> jdec t = Some doc -> osfm_reader kw doc = Ok (i, e, c) -> exterior_file kw b e (Some c) (Some i)
| orthority_exterior : forall t doc e c, has_ext b ".geojson" ->
    text_of fs b t -> jdec t = Some doc -> read_ext_doc C crs_parse doc = Ok (c, e) -> exterior_file kw b e (Some c) None.

(** The CRS option. *)
Inductive given_crs (kw : io_kwargs C K) : option C -> Prop :=
| no_crs : io_crs kw = CNone -> given_crs kw None
| crs_object : forall c, io_crs kw = CCrs c -> given_crs kw (Some c)
| crs_string : forall s c, io_crs kw = CStr s -> crs_parse s = Some c -> given_crs kw (Some c).

(** Interior parameters of the interior argument itself. *)
Inductive own_interior : param_arg -> param_arg -> dict (dict mval) -> Prop :=
| dict_interior : forall d ext, own_interior (ADict d) ext d
| file_interior : forall a ext i,
    (forall b, ext = AFile b -> has_ext a ".json" -> ~ same_arg a b) -> interior_file a i -> own_interior (AFile a) ext i.

(** The interior argument is the exterior file: one OpenSfM file with both. *)
Inductive one_file : param_arg -> param_arg -> Prop :=
| both_in : forall a, has_ext a ".json" -> one_file (AFile a) (AFile a).

(** What a frame camera factory holds: interior and exterior parameters and CRS. *)
Inductive loads (kw : io_kwargs C K) : param_arg -> param_arg -> dict (dict mval) -> dict (dict mval) -> option C -> Prop :=
| from_dict : forall int i e c, own_interior int (ADict e) i -> given_crs kw c -> loads kw int (ADict e) i e c
| from_both : forall int b i e c oi c', own_interior int (AFile b) i -> i <> [] -> exterior_file kw b e c oi ->
    (forall x, c = Some x -> c' = Some x) -> (c = None -> given_crs kw c') -> loads kw int (AFile b) i e c'
| from_exterior : forall int b i e c, one_file int (AFile b) \/ own_interior int (AFile b) [] ->
    exterior_file kw b e (Some c) (Some i) -> loads kw int (AFile b) i e (Some c).
End Load.

(** Text encoders give back what they were given, for the documents of these parameters. *)
Definition files_faithful {C} yenc ydec jenc jdec (crs_str : C -> string) is_projected to_lla crs ints exts : Prop :=
  (forall doc, int_doc ints = Ok doc -> text_faithful yenc ydec doc) /\
  (forall doc, ext_doc C crs_str is_projected to_lla crs exts = Ok doc -> text_faithful jenc jdec doc).

(** The camera that each of a history of requests gives: its interior and its exterior after the request. *)
Fixpoint answers {P X I} (create : P -> res I) (st : fstate P X I) (names : list string) : list (option (camera X I)) :=
  match names with
  | [] => []
  | n :: names' =>
    let '(st', r) := frame_get create n st in
    match r with Ok i => nth_error (f_heap st') i | Err _ => None end :: answers create st' names'
  end.

(** An RPC factory as if it were the only one, with the values its objects have now. *)
Definition alone {M R G C} (w : shared M R G C) (k : nat) : option (rstate M R G C) :=
  option_map (fun f => RState (map (fun kv => (fst kv, sh_objs w (snd kv))) (s_param f)) (s_cache f) (s_gcps f))
             (nth_error (sh_facs w) k).

(** The calls made on one of the factories. *)
Definition calls_on {G} (k : nat) (calls : list (nat * rcall G)) : list (rcall G) :=
  map snd (filter (fun kc => Nat.eqb (fst kc) k) calls).

(** Each factory names every image once, and has a dictionary of its own for each. *)
Definition well_formed (params : list (dict nat)) : Prop :=
  Forall (fun p : dict nat => NoDup (map fst p) /\ NoDup (map snd p)) params.

(** An EXIF reader uses the CRS it is given. *)
Definition honours_crs {C N V D} (exif_reader : list N -> dict (optval C V) -> res (D * option C)) : Prop :=
  forall files kw c d r, dget "crs" kw = Some (OCrs c) -> exif_reader files kw = Ok (d, r) -> r = Some c.

(** The GCPs of an argument: of a list of images, of a file, or as they are. *)
Inductive gcp_source (jdec : string -> option pyval) (im_gcps : list farg -> res (dict (list (dict mval)))) (fs : fsys)
  : gcp_arg -> dict (list (dict mval)) -> Prop :=
| gcps_of_images : forall l d, l <> [] -> im_gcps l = Ok d -> gcp_source jdec im_gcps fs (GImages l) d
| gcps_of_file : forall a t doc d, text_of fs a t -> jdec t = Some doc -> read_gcp_doc doc = Ok d -> gcp_source jdec im_gcps fs (GFile a) d
| gcps_as_dict : forall d, gcp_source jdec im_gcps fs (GDict d) d.
