(** Model of the calls of the camera objects of orthority/camera.py: argument checks, exterior parameters, world
    boundaries, and reading and remapping of images, for any history of calls. *)
From Coq Require Import String List Reals ZArith Bool.
From Verif Require Import Py Flt Mat Grid_Model Remap_Model Rot_Model Frame_Model Undist_Model Bound_Model.
Import ListNotations.
Open Scope string_scope.
Open Scope list_scope.
Open Scope Z_scope.

(** A numpy array as an argument: data type, shape and contents. *)
Record nd (A : Type) := Nd { nd_dtype : string; nd_shape : list Z; nd_data : A }.
Arguments Nd {A} _ _ _.
Arguments nd_dtype {A} _.
Arguments nd_shape {A} _.
Arguments nd_data {A} _.

Definition one_of (s : string) (l : list string) : bool := existsb (String.eqb s) l.

(** camera.py:46-49: [_valid_dtypes] and [_shrt_max]. *)
Definition valid_dtypes : list string := ["uint8"; "uint16"; "int16"; "float32"; "float64"].
Definition shrt_max : Z := 32767.

(** * Checks of arguments *)

(** camera.py:64-69 [_validate_world_coords]. *)
Definition validate_world_coords {A} (xyz : nd A) : res unit :=
  match nd_shape xyz with
  | [3; _] => if String.eqb (nd_dtype xyz) "float64" then Ok tt else Err ValueError
  | _ => Err ValueError
  end.

(** camera.py:72-75 [_validate_pixel_coords]. *)
Definition validate_pixel_coords {A} (ji : nd A) : res unit :=
  match nd_shape ji with [2; _] => Ok tt | _ => Err ValueError end.

(** camera.py:87-101 [_validate_image], without the warning of lines 97-101. *)
Definition validate_image {A} (im : nd A) : res unit :=
  if negb (one_of (nd_dtype im) valid_dtypes) then Err ValueError
  else match nd_shape im with
       | [_; h; w] => if (shrt_max <? h) || (shrt_max <? w) then Err ValueError else Ok tt
       | _ => Err ValueError
       end.

(** enums.py:82-109: the names of [Interp].  [Interp[interp]] of a name or a member. *)
Definition interps : list string := ["nearest"; "average"; "bilinear"; "cubic"; "lanczos"].
Definition interp_get (name : string) : res string := if one_of name interps then Ok name else Err KeyError.

(** * OpenCV *)

(** [cv2.remap(src, *maps, interp, dst=dst, borderMode=BORDER_TRANSPARENT)] and what it leaves in [dst]: [sample]
    interpolates the source for one pixel.  OpenCV asserts that the maps are not empty, and that source and
    destination are smaller than SHRT_MAX.  When [dst] does not have the size of the maps, OpenCV makes a new array
    (that this code does not use) and leaves [dst] as it is. *)
Definition cv_sizes (src_h src_w map_h map_w : Z) : bool :=
  (0 <? map_h) && (0 <? map_w) && (map_h <? shrt_max) && (map_w <? shrt_max) && (src_h <? shrt_max) && (src_w <? shrt_max).

Definition cv_remap {A} (sample : arr A -> fl * fl -> option A) (src : arr A) (maps : arr (fl * fl)) (dst : arr A) : res (arr A) :=
  if negb (cv_sizes (ah src) (aw src) (ah maps) (aw maps)) then Err ExternalError
  else if (ah dst =? ah maps) && (aw dst =? aw maps) then
    Ok (Arr (ah dst) (aw dst) (fun r c => match sample src (aget maps r c) with Some v => v | None => aget dst r c end))
  else Ok dst.

(** * World boundary on a surface *)

(** The z argument of [world_boundary]: [np.isscalar], an array with the given number of dimensions, something else. *)
Inductive harg := HScalar (z : R) | HArray (ndim : nat) (dtype : string) (z : arr fl) | HOther.

(** The [interp] argument: a member of [Interp], or a string. *)
Inductive iarg := IEnum (name : string) | IStr (name : string).

(** The values of an array that are not NaN. *)
Definition numbers_of (z : arr fl) : list R :=
  flat_map (fun r => flat_map (fun c => match aget z r c with Num v => [v] | Nan => [] end) (py_range 0 (aw z) 1))
    (py_range 0 (ah z) 1).

(** camera.py:125 [~(transform * Affine.translation(0.5, 0.5))] and its application to a point. *)
Definition aff_det (t : affine) : R := (ta t * te t - tb t * td t)%R.
Definition inv_center (t : affine) (xy : R * R) : R * R :=
  let x := (fst xy - tc t)%R in
  let y := (snd xy - tf t)%R in
  ((te t * x - tb t * y) / aff_det t - / 2, (ta t * y - td t * x) / aff_det t - / 2)%R.

Section Surface.
(** Interpolation of a surface by OpenCV; and what NaN is converted to for integer data types (line 154 fills an
    array of the surface's type with it; numpy leaves its value to the platform). *)
Variable cv_surf : string -> arr fl -> fl * fl -> option fl.
Variable cast_nan : string -> fl.

Definition surf_fill (dtype : string) : fl := if one_of dtype ["float32"; "float64"] then Nan else cast_nan dtype.

(** camera.py:153-155: the surface at a world position. *)
Definition surf_at (interp dtype : string) (z : arr fl) (t : affine) (xy : R * R) : fl :=
  let (j, i) := inv_center t xy in
  match cv_surf interp z (Num j, Num i) with Some v => v | None => surf_fill dtype end.

(** camera.py:140-164: the intersection for one pixel with the finite ray [p2w].  A transform with a zero diagonal gives an
    infinite or NaN number of samples (line 145), that is converted to a negative one (on x86-64), which [linspace]
    rejects. *)
Definition surf_pixel (p2w : R -> vec) (z : arr fl) (dtype : string) (t : affine) (interp : iarg) (min_z max_z : R) : res vec :=
  if (if Req_EM_T (ta t) 0 then true else false) || (if Req_EM_T (te t) 0 then true else false) then Err ValueError
  else match interp with
       | IStr _ => Err AttributeError
       | IEnum name =>
         let n := ray_steps (p2w max_z) (p2w min_z) t (max_ray_steps (ah z) (aw z)) in
         if negb (cv_sizes (ah z) (aw z) n 1) then Err ExternalError
         else Ok (pixel_to_world_surf p2w (surf_at name dtype z t) t (ah z) (aw z) min_z max_z)
       end.

(** camera.py:103-165 [_pixel_to_world_surf]; [p2w] gives the ray of a pixel, [None] if it is not finite (this also ends as a
    negative number of samples).  [rng] is [(min_z, max_z)]. *)
Definition world_surf (p2w : R * R -> option (R -> vec)) (ji : list (R * R)) (z : arr fl) (dtype : string) (t : affine)
    (interp : iarg) (rng : R * R) : res (list vec) :=
  if negb (one_of dtype valid_dtypes) then Err ValueError
  else if (shrt_max <? ah z) || (shrt_max <? aw z) then Err ValueError
  else if Req_EM_T (aff_det t) 0 then Err ExternalError
  else mapM (fun p => match p2w p with
                      | Some ray => surf_pixel ray z dtype t interp (fst rng) (snd rng)
                      | None => Err ValueError
                      end) ji.

(** [(np.nanmin(z), np.nanmax(z))].  Empty arrays are a ValueError of numpy; with all NaN the ray has NaN samples, see [surf_pixel]. *)
Definition z_range (z : arr fl) : res (R * R) :=
  match numbers_of z with [] => Err ValueError | l => Ok (rmin l, rmax l) end.

(** camera.py:245-285 [Camera.world_boundary], where [p2w] is as above. *)
Definition world_boundary (p2w : R * R -> option (R -> vec)) (w h : Z) (z : harg) (num_pts : option Z) (t : option affine)
    (interp : iarg) : res (list (option vec)) :=
  do ji <- pixel_boundary w h num_pts;
  match z with
  | HScalar z => Ok (map (fun p => match p2w p with Some ray => Some (ray z) | None => None end) ji)
  | HArray 2 dtype z =>
    match t with
    | None => Err ValueError
    | Some t =>
      (* the checks of [_pixel_to_world_surf] come before the range *)
      if negb (one_of dtype valid_dtypes) then Err ValueError
      else if (shrt_max <? ah z) || (shrt_max <? aw z) then Err ValueError
      else if Req_EM_T (aff_det t) 0 then Err ExternalError
      else do rng <- z_range z;
           do xyz <- world_surf p2w ji z dtype t interp rng; Ok (map Some xyz)
    end
  | _ => Err ValueError
  end.

(** The ray of a pixel of a frame camera. *)
Definition frame_ray (c : frame) (ji : R * R) : option (R -> vec) :=
  let r := ray c ji in
  if Req_EM_T (vz r) 0 then None
  else Some (fun z => vadd (vscale ((z - vz (fr_T c)) / vz r) r) (fr_T c)).

(** camera.py:960-1018 [FrameCamera.world_boundary] of an initialised camera. *)
Definition frame_world_boundary (c : frame) (w h : Z) (z : harg) (num_pts : option Z) (t : option affine) (interp : iarg)
    (clip : bool) : res (list (option vec)) :=
  if horizon_fov c w h then Err OrthorityError
  else
    do ji <- frame_pixel_boundary c w h num_pts;
    match z with
    | HScalar z =>
      let z := if clip then Rmin z (vz (fr_T c)) else z in
      Ok (map (fun p => pixel_to_world_z c p z) ji)
    | HArray 2 dtype z =>
      match t with
      | None => Err ValueError
      | Some t =>
        do (min_z, max_z) <- z_range z;
        if Rlt_dec (vz (fr_T c)) min_z then Err ValueError
        else
          let max_z := if clip then Rmin max_z (vz (fr_T c)) else max_z in
          do xyz <- world_surf (frame_ray c) ji z dtype t interp (min_z, max_z); Ok (map Some xyz)
      end
    | _ => Err ValueError
    end.
End Surface.

(** * The frame camera object *)

(** Class, lens, intrinsics and image size do not change; the rest is the state of Undist_Model, with the
    exterior parameters (R, T). *)
Record fcam := FCam { fc_pinhole : bool; fc_lens : lens; fc_w : Z; fc_h : Z; fc_st : cam (mat * vec) }.

(** camera.py:697-715 [_get_extrinsic]. *)
Definition get_extrinsic (xyz opk : option (list R)) : res (option (mat * vec)) :=
  match xyz, opk with
  | Some [x; y; z], Some [o; p; k] => Ok (Some (extrinsic_rotation (o, p, k), V3 x y z))
  | Some _, Some _ => Err ValueError
  | _, _ => Ok None
  end.

(** camera.py:594-614 and the initialisers of the subclasses (1185-1230, 1320-1344, 1417-1446); [lens_of] is the lens of the
    class for the intrinsics.  The size is made of the first two values before its length is looked at (lines 607, 664). *)
Definition frame_init (pin : bool) (lens_of : intr -> lens) (im_size : list Z) (focal_len : list R) (sensor_size : option (list R))
    (cx cy : R) (xyz opk : option (list R)) (distort : bool) (alpha : R) : res fcam :=
  match im_size with
  | w :: h :: _ =>
    do k <- get_intrinsic w h focal_len sensor_size cx cy;
    do ext <- get_extrinsic xyz opk;
    Ok (FCam pin (lens_of k) w h (cam_init pin k (lens_of k) w h alpha distort ext))
  | _ => Err IndexError
  end.

(** camera.py:717-720 [_test_init]: the camera as it is used for projection. *)
Definition test_init (c : fcam) : res frame :=
  match s_ext (fc_st c) with
  | Some (r, t) => Ok (Frame (fc_lens c) (s_ku (fc_st c)) (s_distort (fc_st c)) r t)
  | None => Err CameraInitError
  end.

(** camera.py:616-619 [pos]. *)
Definition pos (c : fcam) : option vec := option_map snd (s_ext (fc_st c)).

(** camera.py:816-841 [world_to_pixel]. *)
Definition world_to_pixel_call (c : fcam) (xyz : nd (list (fl * fl * fl))) : res (list (fl * fl)) :=
  do f <- test_init c;
  do _ <- validate_world_coords xyz;
  Ok (map (world_to_pixel f) (nd_data xyz)).

(** One pixel and height, either of which can be NaN. *)
Definition p2w_fl (f : frame) (p : fl * fl) (z : fl) : option vec :=
  match p, z with (Num j, Num i), Num z => pixel_to_world_z f (j, i) z | _, _ => None end.

(** camera.py:843-880 [pixel_to_world_z]. *)
Definition pixel_to_world_call (c : fcam) (ji : nd (list (fl * fl))) (z : zarg) : res (list (option vec)) :=
  do f <- test_init c;
  do _ <- validate_pixel_coords ji;
  frame_p2w_array (p2w_fl f) (nd_data ji) z.

(** camera.py:940-958 [pixel_boundary], which does not need exterior parameters. *)
Definition pixel_boundary_call (c : fcam) (num_pts : option Z) : res (list (R * R)) :=
  frame_pixel_boundary (Frame (fc_lens c) (s_ku (fc_st c)) (s_distort (fc_st c)) mI (V3 0 0 0)) (fc_w c) (fc_h c) num_pts.

Section Calls.
Variable cv_surf : string -> arr fl -> fl * fl -> option fl.
Variable cast_nan : string -> fl.
(** Interpolation of an image by OpenCV. *)
Variable cv_image : string -> arr pix -> fl * fl -> option pix.
(** GDAL's conversion of a pixel to a data type, from another one. *)
Variable convert : string -> string -> pix -> pix.

(** camera.py:960-1018. *)
Definition world_boundary_call (c : fcam) (z : harg) (num_pts : option Z) (t : option affine) (interp : iarg) (clip : bool)
    : res (list (option vec)) :=
  do f <- test_init c; frame_world_boundary cv_surf cast_nan f (fc_w c) (fc_h c) z num_pts t interp clip.

(** An image file: data type and contents of its bands, which have one size. *)
Record imfile := ImFile { if_h : Z; if_w : Z; if_bands : list (string * (Z -> Z -> pix)) }.

(** The [indexes] argument. *)
Inductive indexes := AllBands | OneBand (b : Z) | Bands (l : list Z).

Definition band_list (ix : indexes) (n : nat) : list Z :=
  match ix with AllBands => map Z.of_nat (seq 1 n) | OneBand b => [b] | Bands l => l end.

(** camera.py:287-317 [Camera.read]; [im_file] is the error of a file that does not open, or its contents.  rasterio raises
    IndexError for bands that do not exist, and [im.dtypes[0]] for an image without bands. *)
Definition read_image (im_file : res imfile) (ix : indexes) (dtype : option string) : res (nd (list (arr pix))) :=
  do im <- im_file;
  do dtype <- match dtype with
              | Some s => if String.eqb s "" then match if_bands im with (d, _) :: _ => Ok d | [] => Err IndexError end else Ok s
              | None => match if_bands im with (d, _) :: _ => Ok d | [] => Err IndexError end
              end;
  let bs := band_list ix (List.length (if_bands im)) in
  do data <- mapM (fun b => if (b <? 1) then Err IndexError
                            else match nth_error (if_bands im) (Z.to_nat (b - 1)) with
                                 | Some (d, px) => Ok (Arr (if_h im) (if_w im) (fun r c => convert d dtype (px r c)))
                                 | None => Err IndexError
                                 end) bs;
  Ok (Nd dtype [Z.of_nat (List.length data); if_h im; if_w im] data).

(** The maps as arrays, over the camera's image size. *)
Definition map_array (c : fcam) (m : R * R -> fl * fl) : arr (fl * fl) :=
  Arr (fc_h c) (fc_w c) (fun r col => m (IZR col, IZR r)).

(** camera.py:908-938 [_undistort_im] of an image, with maps that were made or cached (Undist_Model). *)
Definition undistort_im (c : fcam) (maps : option (R * R -> fl * fl)) (im : nd (list (arr pix))) (nodata : pix) (interp : string)
    : res (nd (list (arr pix))) :=
  do _ <- validate_image im;
  match maps with
  | None => Ok im
  | Some m =>
    do data <- mapM (fun b => do i <- interp_get interp;
                              cv_remap (cv_image i) b (map_array c m) (Arr (ah b) (aw b) (fun _ _ => nodata))) (nd_data im);
    Ok (Nd (nd_dtype im) (nd_shape im) data)
  end.

(** camera.py:1020-1057 [FrameCamera.read]: the image is validated before the maps are made. *)
Definition read_call (c : fcam) (im_file : res imfile) (ix : indexes) (dtype : option string) (nodata : option pix) (interp : string)
    : fcam * res (nd (list (arr pix))) :=
  match read_image im_file ix dtype with
  | Err e => (c, Err e)
  | Ok im =>
    if s_distort (fc_st c) then (c, Ok im)
    else
      match match nodata with Some v => Ok v | None => lookup (KDtype (nd_dtype im)) nodata_vals end with
      | Err e => (c, Err e)
      | Ok nd =>
        match validate_image im with
        | Err e => (c, Err e)
        | Ok _ =>
          let (st, maps) := read (fc_pinhole c) (fc_lens c) (fc_st c) in
          let c := FCam (fc_pinhole c) (fc_lens c) (fc_w c) (fc_h c) st in
          (c, undistort_im c maps im nd interp)
        end
      end
  end.

(** camera.py:1059-1116 [FrameCamera.remap] and 319-399 [Camera.remap]: the checks, then Remap_Model.  [z] can be of any floating
    point type, but world coordinates of more than 64 bits are refused by [world_to_pixel]. *)
Definition same_shape {A B} (x : nd A) (y : nd B) : bool := if list_eq_dec Z.eq_dec (nd_shape x) (nd_shape y) then true else false.

Definition remap_call (c : fcam) (im : nd (list (arr pix))) (x y z : nd (arr fl)) (nodata : option pix) (interp : string)
    (kernel_size : Z * Z) : res (list (arr pix) * arr bool) :=
  do _ <- validate_image im;
  if negb (same_shape x y && same_shape y z && Nat.eqb (List.length (nd_shape x)) 2) then Err ValueError
  else if negb (String.eqb (nd_dtype x) "float64" && String.eqb (nd_dtype y) "float64") then Err ValueError
  else if negb (one_of (nd_dtype z) ["float16"; "float32"; "float64"; "longdouble"]) then Err ValueError
  else
    do nd <- match nodata with Some v => Ok v | None => lookup (KDtype (nd_dtype im)) nodata_vals end;
    do f <- test_init c;
    if String.eqb (nd_dtype z) "longdouble" then Err ValueError
    else
      do _ <- match nd_data im with
              | [] => Ok tt
              | b :: _ =>
                do _ <- interp_get interp;
                if cv_sizes (ah b) (aw b) (ah (nd_data x)) (aw (nd_data x)) then Ok tt else Err ExternalError
              end;
      do _ <- (if fr_distort f then Ok "" else interp_get interp);
      frame_remap (world_to_pixel f) (fun b j i => cv_image interp b (Num j, Num i))
        (RCfg (fr_distort f) (String.eqb interp "nearest") (fc_pinhole c)) (nd_data im) (nd_data x) (nd_data y) (nd_data z) nd kernel_size.

(** * Histories *)
Inductive call :=
  | SetAlphaC (a : R) | SetDistortC (b : bool) | UpdateC (xyz opk : option (list R))
  | WorldToPixel (xyz : nd (list (fl * fl * fl))) | PixelToWorld (ji : nd (list (fl * fl))) (z : zarg)
  | PixelBoundary (num_pts : option Z) | WorldBoundary (z : harg) (num_pts : option Z) (t : option affine) (interp : iarg) (clip : bool)
  | ReadC (im_file : res imfile) (ix : indexes) (dtype : option string) (nodata : option pix) (interp : string)
  | Remap (im : nd (list (arr pix))) (x y z : nd (arr fl)) (nodata : option pix) (interp : string) (kernel_size : Z * Z)
  | Pos.

Inductive value :=
  | VNone | VPixels (l : list (fl * fl)) | VPoints (l : list (option vec)) | VBoundary (l : list (R * R))
  | VImage (im : nd (list (arr pix))) | VRemap (r : list (arr pix) * arr bool) | VPos (p : option vec).

Definition rmap {A B} (f : A -> B) (r : res A) : res B := match r with Ok a => Ok (f a) | Err e => Err e end.

Definition set_state (c : fcam) (st : cam (mat * vec)) : fcam := FCam (fc_pinhole c) (fc_lens c) (fc_w c) (fc_h c) st.

Definition do_call (c : fcam) (k : call) : fcam * res value :=
  match k with
  | SetAlphaC a => (set_state c (set_alpha _ (fc_pinhole c) (fc_lens c) (fc_w c) (fc_h c) a (fc_st c)), Ok VNone)
  | SetDistortC b => (set_state c (set_distort _ b (fc_st c)), Ok VNone)
  (* camera.py:800-814 [update] *)
  | UpdateC xyz opk =>
    match get_extrinsic xyz opk with
    | Err e => (c, Err e)
    | Ok ext => let st := fc_st c in (set_state c (Cam (s_alpha st) (s_ku st) (s_maps st) (s_distort st) ext), Ok VNone)
    end
  | WorldToPixel xyz => (c, rmap VPixels (world_to_pixel_call c xyz))
  | PixelToWorld ji z => (c, rmap VPoints (pixel_to_world_call c ji z))
  | PixelBoundary n => (c, rmap VBoundary (pixel_boundary_call c n))
  | WorldBoundary z n t i clip => (c, rmap VPoints (world_boundary_call c z n t i clip))
  | ReadC f ix d nodata i => let (c', r) := read_call c f ix d nodata i in (c', rmap VImage r)
  | Remap im x y z nodata i k => (c, rmap VRemap (remap_call c im x y z nodata i k))
  | Pos => (c, Ok (VPos (pos c)))
  end.

Definition run_calls (c : fcam) (ks : list call) : fcam := fold_left (fun c k => fst (do_call c k)) ks c.
End Calls.
