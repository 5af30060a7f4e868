(** Model of [create_camera] and of the camera class constructors of orthority/camera.py as Python calls them: keyword
    arguments, as they come from parameter files, and the numbers that end up in the camera. *)
From Coq Require Import String List Reals QArith Qreals ZArith Bool.
From Verif Require Import Py Flt Mat Remap_Model Frame_Model Undist_Model Rpc_Model Validate_Model Params_Model Cam_Model Rcam_Model.
Import ListNotations.
Open Scope string_scope.
Open Scope list_scope.
Open Scope Z_scope.

(** * Values as numbers *)

(** A number for numpy.  NaN, text and other values, for which numpy's results or errors depend on the place they are used in, are
    a TypeError here; the theorems have numbers. *)
Definition py_num (v : pyval) : res R :=
  match v with
  | PInt z => Ok (IZR z)
  | PFloat q => Ok (Q2R q)
  | PBool b => Ok (if b then 1%R else 0%R)
  | _ => Err TypeError
  end.

Definition num_arg (v : mval) : res R := match v with MV v => py_num v | _ => Err TypeError end.

Definition seq_arg (v : mval) : res (list R) :=
  match v with MTup l | MV (PList l) => mapM py_num l | _ => Err TypeError end.

(** [focal_len]: [np.array] of a number or of a sequence (camera.py:669). *)
Definition focal_arg (v : mval) : res (list R) :=
  match v with MV (PInt _) | MV (PFloat _) | MV (PBool _) => do f <- num_arg v; Ok [f] | _ => seq_arg v end.

(** Arguments that may be None. *)
Definition opt_seq (v : mval) : res (option (list R)) :=
  match v with MV PNone => Ok None | _ => do l <- seq_arg v; Ok (Some l) end.

(** [int(v)] of the image size (camera.py:607). *)
Definition py_int (v : pyval) : res Z :=
  match v with
  | PInt z => Ok z
  | PBool b => Ok (if b then 1 else 0)
  | PFloat q => Ok (Z.quot (Qnum q) (Zpos (Qden q)))
  | PNanF => Err ValueError
  | _ => Err TypeError  (* text with digits is accepted by [int]: not modelled *)
  end.

(** Sizes are indexed with 0 and 1, and only the first two values are used. *)
Definition size_arg (v : mval) : res (list Z) :=
  match v with
  | MTup (a :: b :: _) | MV (PList (a :: b :: _)) => do a <- py_int a; do b <- py_int b; Ok [a; b]
  | MTup _ | MV (PList _) => Err IndexError
  | _ => Err TypeError
  end.

(** [if distort] *)
Definition truthy (v : mval) : bool :=
  match v with
  | MV PNone | MV (PBool false) | MV (PStr "") | MV (PList []) | MV (PDict []) | MTup [] => false
  | MV (PInt z) => negb (z =? 0)
  | MV (PFloat q) => negb (Qeq_bool q 0)
  | _ => true
  end.

(** * Keyword arguments *)

(** [f( **a, **b)]: Python raises TypeError for a keyword that is given twice. *)
Definition merge_kwargs (a b : dict mval) : res (dict mval) :=
  if existsb (fun kv => dmem (fst kv) a) b then Err TypeError else Ok (a ++ b).

(** Binding of keywords to the parameters of a function: TypeError for those it does not have, and for missing ones. *)
Definition bind_kwargs (params required : list string) (kw : dict mval) : res unit :=
  if negb (forallb (fun kv => one_of (fst kv) params) kw) then Err TypeError
  else if negb (forallb (fun k => dmem k kw) required) then Err TypeError
  else Ok tt.

Definition arg {A} (k : string) (kw : dict mval) (default : A) (conv : mval -> res A) : res A :=
  match dget k kw with Some v => conv v | None => Ok default end.

(** * Classes *)

(** The parameters of the constructors: camera.py:594-605 (all of them), and the distortion coefficients of each class (lines
    1192-1205, 1327-1331 and 1424-1427). *)
Definition frame_params : list string := ["im_size"; "focal_len"; "sensor_size"; "cx"; "cy"; "xyz"; "opk"; "distort"; "alpha"].
Definition coef_params (t : camtype) : list string :=
  match t with
  | Copencv => ["k1"; "k2"; "k3"; "p1"; "p2"; "k4"; "k5"; "k6"; "s1"; "s2"; "s3"; "s4"; "tx"; "ty"]
  | Cbrown => ["k1"; "k2"; "p1"; "p2"; "k3"]
  | Cfisheye => ["k1"; "k2"; "k3"; "k4"]
  | Cpinhole | Crpc => []
  end.

Section Make.
(** OpenCV, for intrinsics and distortion coefficients: the pixel [projectPoints] gives for normalised camera coordinates, and
    [undistortPoints]; and [fisheye.undistortPoints]. *)
Variable cv_project : intr -> list R -> R * R -> R * R.
Variable cv_undistort : intr -> list R -> R * R -> R * R.
Variable fish_undistort : intr -> list R -> R * R -> R * R.

(** camera.py:1222-1229, 1256-1268: the lens of [OpenCVCamera]. *)
Definition opencv_lens (d : list R) (k : intr) : lens := Lens (fun xy => num2 (cv_project k d xy)) (cv_undistort k d).
(** camera.py:1343-1364: [BrownCamera] with its five coefficients; [_pixel_to_camera] is that of [OpenCVCamera]. *)
Definition brown_lens (k1 k2 p1 p2 k3 : R) (k : intr) : lens := Lens (brown_fwd k k1 k2 p1 p2 k3) (cv_undistort k [k1; k2; p1; p2; k3]).
(** camera.py:1444-1488: [FisheyeCamera]. *)
Definition fisheye_lens (k1 k2 k3 k4 : R) (k : intr) : lens := Lens (fisheye_fwd k k1 k2 k3 k4) (fish_undistort k [k1; k2; k3; k4]).

(** camera.py:1345-1346: the intrinsics of [brown_lens] are those the object was made with. *)
Definition with_lens (l : lens) (c : fcam) : fcam := FCam (fc_pinhole c) l (fc_w c) (fc_h c) (fc_st c).

(** The constructors, from keyword arguments.  [BrownCamera] makes an [OpenCVCamera] and then replaces its coefficients. *)
Definition make_frame (t : camtype) (kw : dict mval) : res fcam :=
  do _ <- bind_kwargs (frame_params ++ coef_params t) ["im_size"; "focal_len"] kw;
  do im_size <- arg "im_size" kw [] size_arg;
  do focal <- arg "focal_len" kw [] focal_arg;
  do sensor <- arg "sensor_size" kw None opt_seq;
  do cx <- arg "cx" kw 0%R num_arg;
  do cy <- arg "cy" kw 0%R num_arg;
  do xyz <- arg "xyz" kw None opt_seq;
  do opk <- arg "opk" kw None opt_seq;
  let distort := match dget "distort" kw with Some v => truthy v | None => true end in
  do alpha <- arg "alpha" kw 1%R num_arg;
  do c <- mapM (fun k => arg k kw 0%R num_arg) (coef_params t);
  match t, c with
  | Copencv, [k1; k2; k3; p1; p2; k4; k5; k6; s1; s2; s3; s4; tx; ty] =>
    frame_init false (opencv_lens (opencv_dist_param k1 k2 k3 p1 p2 k4 k5 k6 s1 s2 s3 s4 tx ty)) im_size focal sensor cx cy xyz opk distort alpha
  | Cbrown, [k1; k2; p1; p2; k3] =>
    do k <- match im_size with [w; h] => get_intrinsic w h focal sensor cx cy | _ => Err IndexError end;
    do cam <- frame_init false (opencv_lens (opencv_dist_param k1 k2 k3 p1 p2 0 0 0 0 0 0 0 0 0)) im_size focal sensor cx cy xyz opk distort alpha;
    Ok (with_lens (brown_lens k1 k2 p1 p2 k3 k) cam)
  | Cfisheye, [k1; k2; k3; k4] => frame_init false (fisheye_lens k1 k2 k3 k4) im_size focal sensor cx cy xyz opk distort alpha
  | _, _ => frame_init true pinhole im_size focal sensor cx cy xyz opk distort alpha
  end.

(** * [RpcCamera] *)
Variable C : Type.
Variable parse_crs : string -> res C.
Variable rpc_crs : C.
Variable O : Type.
Variable no_options : O.
Variable warp : C -> C -> list vec -> list vec.

(** The RPC dictionary of a parameter file. *)
Definition rpc_val (v : pyval) : res rval :=
  match v with
  | PNone => Ok RNone
  | PList l => do l <- mapM py_num l; Ok (RSeq l)
  | _ => do x <- py_num v; Ok (RNum x)
  end.
Definition rpc_dict (v : mval) : res (dict rval) :=
  match v with
  | MV (PDict d) => mapM (fun kv => match fst kv with KStr k => do v <- rpc_val (snd kv); Ok (k, v) | KInt _ => Err TypeError end) d
  | _ => Err TypeError
  end.

(** camera.py:420-434, from keyword arguments, where [crs] and [rpc_options] are given as objects.  Sizes are kept as they are given;
    for a size that is not of integers this model has its integer part. *)
Definition make_rpc (kw : dict mval) (crs : option (crs_arg C)) (options : option O) : res (rcam C O) :=
  do _ <- bind_kwargs ["im_size"; "rpc"] ["im_size"; "rpc"] kw;
  do d <- arg "rpc" kw [] rpc_dict;
  do size <- arg "im_size" kw [] size_arg;
  match size with
  | [w; h] => rpc_init C parse_crs rpc_crs O no_options warp w h (RpcDict d) options (match crs with Some c => c | None => CrsNone C end)
  | _ => Err IndexError
  end.

(** * [create_camera] *)
Inductive made := MadeFrame (c : fcam) | MadeRpc (c : rcam C O).

(** [CameraType(cam_type)]. *)
Definition camera_type (v : mval) : res camtype :=
  match v with
  | MCam t => Ok t
  | MV (PStr s) => match cam_of s with Some t => Ok t | None => Err ValueError end
  | _ => Err ValueError
  end.

(** camera.py:1491-1514 [create_camera( **kw)]; [crs] and [options] are the keywords of these names, that are objects. *)
Definition create_camera (kw : dict mval) (crs : option (crs_arg C)) (options : option O) : res made :=
  do t <- match dget "cam_type" kw with Some v => camera_type v | None => Err TypeError end;
  let kw := filter (fun kv => negb (String.eqb (fst kv) "cam_type")) kw in
  match t with
  | Crpc => do c <- make_rpc kw crs options; Ok (MadeRpc c)
  | _ =>
    match crs, options with
    | None, None => do c <- make_frame t kw; Ok (MadeFrame c)
    | _, _ => Err TypeError
    end
  end.
End Make.
Arguments MadeFrame {C O} _.
Arguments MadeRpc {C O} _.
