(** Model of image remapping and tiled ortho writing: [Camera.remap], [FrameCamera.remap]
    (orthority/camera.py) and [Ortho._remap_tile], [Ortho._remap] (orthority/ortho.py). *)
From Coq Require Import List ZArith QArith Reals Bool String.
From Verif Require Import Py Flt Grid_Model.
Import ListNotations.
Open Scope string_scope.
Open Scope list_scope.
Open Scope Z_scope.

(** Pixel values: finite (rational) or NaN. *)
Inductive pix := PNan | PVal (q : Q).

(** common.py:92-94 [nan_equals], on two values. *)
Definition nan_equals (a b : pix) : bool :=
  match a, b with
  | PVal x, PVal y => Qeq_bool x y
  | PNan, PNan => true
  | _, _ => false
  end.

(** 2D numpy arrays: a shape and an element for every index (only indices inside the shape
    matter). *)
Record arr (A : Type) := Arr { ah : Z; aw : Z; aget : Z -> Z -> A }.
Arguments Arr {A} ah aw aget.
Arguments ah {A} a.
Arguments aw {A} a.
Arguments aget {A} a.

(** [a[r0:r1, c0:c1]] for non-negative bounds. *)
Definition aslice {A} (a : arr A) (r0 r1 c0 c1 : Z) : arr A :=
  Arr (Z.max 0 (Z.min r1 (ah a) - r0)) (Z.max 0 (Z.min c1 (aw a) - c0))
      (fun r c => aget a (r + r0) (c + c0)).

Definition amap {A B} (f : A -> B) (a : arr A) : arr B :=
  Arr (ah a) (aw a) (fun r c => f (aget a r c)).

(** affine.Affine (a, b, c, d, e, f). *)
Record affine := Aff { ta : R; tb : R; tc : R; td : R; te : R; tf : R }.

(** [transform * (x, y)]. *)
Definition aff_apply (t : affine) (x y : R) : R * R :=
  ((ta t * x + tb t * y + tc t)%R, (td t * x + te t * y + tf t)%R).

(** [t * Affine.translation(x, y)]. *)
Definition aff_pretranslate (t : affine) (x y : R) : affine :=
  let (x', y') := aff_apply t x y in Aff (ta t) (tb t) x' (td t) (te t) y'.

(** rasterio [windows.transform(win, t)]: the transform of the window's own pixels. *)
Definition win_transform (w : window) (t : affine) : affine :=
  let (x, y) := aff_apply t (IZR (col_off w)) (IZR (row_off w)) in
  Aff (ta t) (tb t) x (td t) (te t) y.

(** camera.py:375: NaN pixel coordinates become -1. *)
Definition nan_to_m1 (a : fl) : R := match a with Num x => x | Nan => (-1)%R end.

Section Remap.
(** A camera's [world_to_pixel] of one (x, y, z) point. *)
Variable w2p : fl * fl * fl -> fl * fl.
(** OpenCV interpolation of one source band at (j, i): [cv2.remap] of one output pixel.  [None] where
    BORDER_TRANSPARENT leaves the output as it was. *)
Variable sample : arr pix -> R -> R -> option pix.

(** camera.py:319-399 [Camera.remap] for an explicit nodata, after the type checks of lines 358-364 (the
    shape check, line 359, is modelled).  [ji] is not rounded to float32. *)
Definition camera_remap (im_array : list (arr pix)) (x y z : arr fl) (nodata : pix)
    : res (list (arr pix) * arr bool) :=
  if negb ((ah x =? ah y) && (ah y =? ah z) && (aw x =? aw y) && (aw y =? aw z)) then Err ValueError
  else
    let ji r c := let (j, i) := w2p (aget x r c, aget y r c, aget z r c) in (nan_to_m1 j, nan_to_m1 i) in
    (* 380-395 *)
    let remap_array :=
      map (fun im => Arr (ah x) (aw x) (fun r c =>
             let (j, i) := ji r c in
             match sample im j i with Some v => v | None => nodata end)) im_array in
    (* 398 *)
    let remap_mask := Arr (ah x) (aw x) (fun r c => forallb (fun b => nan_equals (aget b r c) nodata) remap_array) in
    Ok (remap_array, remap_mask).
End Remap.

(** Dictionary keys: a string and the numpy dtype of that name are equal but hash differently, so a lookup of
    one does not find the other (barring a collision of the randomised string hash, not modelled). *)
Inductive dkey := KStr (s : string) | KDtype (s : string).

Definition dkey_eqb (a b : dkey) : bool :=
  match a, b with
  | KStr s, KStr t => String.eqb s t
  | KDtype s, KDtype t => String.eqb s t
  | _, _ => false
  end.

Fixpoint lookup {A} (k : dkey) (d : list (dkey * A)) : res A :=
  match d with
  | [] => Err KeyError
  | (k', v) :: d' => if dkey_eqb k k' then Ok v else lookup k d'
  end.

(** common.py:58-60 [_nodata_vals]. *)
Definition nodata_vals : list (dkey * pix) :=
  [(KStr "uint8", PVal 0); (KStr "uint16", PVal 0); (KStr "int16", PVal (-32768));
   (KStr "float32", PNan); (KStr "float64", PNan)].

(** camera.py:319-399 [Camera.remap], also with the documented default [nodata=None] (lines 366-367):
    [dtype] is [im_array.dtype]. *)
Definition camera_remap_opt (w2p : fl * fl * fl -> fl * fl) (sample : arr pix -> R -> R -> option pix)
    (dtype : string) (im_array : list (arr pix)) (x y z : arr fl) (nodata : option pix)
    : res (list (arr pix) * arr bool) :=
  match nodata with
  | Some nd => camera_remap w2p sample im_array x y z nd
  | None =>
    if negb ((ah x =? ah y) && (ah y =? ah z) && (aw x =? aw y) && (aw y =? aw z)) then Err ValueError
    else do nd <- lookup (KDtype dtype) nodata_vals; camera_remap w2p sample im_array x y z nd
  end.

(** [cv2.dilate(mask, np.ones((kh, kw)))]: the anchor is the kernel centre (kh // 2, kw // 2) and
    positions outside the array do not contribute. *)
Definition dilate (kw kh : Z) (mask : arr bool) : arr bool :=
  Arr (ah mask) (aw mask) (fun r c =>
    existsb (fun dy =>
      existsb (fun dx =>
        let r' := r + dy - kh / 2 in
        let c' := c + dx - kw / 2 in
        (0 <=? r') && (r' <? ah mask) && (0 <=? c') && (c' <? aw mask) && aget mask r' c')
      (py_range 0 kw 1))
    (py_range 0 kh 1)).

(** The camera settings that decide mask dilation (camera.py:1103-1108). *)
Record remap_cfg := RCfg { distort : bool; nearest : bool; is_pinhole : bool }.

Definition dilates (cfg : remap_cfg) (nodata : pix) : bool :=
  negb (distort cfg) && negb (nearest cfg)
  && negb (match nodata with PNan => true | PVal _ => false end) && negb (is_pinhole cfg).

(** camera.py:1059-1116 [FrameCamera.remap] for an explicit nodata; [kernel_size] is (width, height).  An
    RPC camera has no dilation: it is the case [distort = true]. *)
Definition frame_remap (w2p : fl * fl * fl -> fl * fl) (sample : arr pix -> R -> R -> option pix)
    (cfg : remap_cfg) (im_array : list (arr pix)) (x y z : arr fl) (nodata : pix) (kernel_size : Z * Z)
    : res (list (arr pix) * arr bool) :=
  do (remap, mask) <- camera_remap w2p sample im_array x y z nodata;
  if dilates cfg nodata then
    let mask := dilate (fst kernel_size) (snd kernel_size) mask in
    Ok (map (fun b => Arr (ah b) (aw b) (fun r c => if aget mask r c then nodata else aget b r c)) remap, mask)
  else Ok (remap, mask).

(** * Tiled ortho *)

(** The ortho dataset being written: bands (1 based) and the dataset mask (true = valid). *)
Record raster := Ras { bands : Z -> Z -> Z -> pix; dmask : Z -> Z -> bool }.

Definition in_winb (w : window) (row col : Z) : bool :=
  (row_off w <=? row) && (row <? row_off w + height w) && (col_off w <=? col) && (col <? col_off w + width w).

(** rasterio [ortho_im.write(tile_array, indexes, window=win)]. *)
Fixpoint write_bands (tile : list (arr pix)) (indexes : list Z) (w : window)
    (b : Z -> Z -> Z -> pix) : Z -> Z -> Z -> pix :=
  match tile, indexes with
  | t :: tile', i :: indexes' =>
    write_bands tile' indexes' w
      (fun bi r c => if (bi =? i) && in_winb w r c then aget t (r - row_off w) (c - col_off w) else b bi r c)
  | _, _ => b
  end.

(** rasterio [ortho_im.write_mask(valid, window=win)]. *)
Definition write_dmask (valid : arr bool) (w : window) (m : Z -> Z -> bool) : Z -> Z -> bool :=
  fun r c => if in_winb w r c then aget valid (r - row_off w) (c - col_off w) else m r c.

(** Everything the tile function reads. *)
Record ortho_job := Job {
  o_w2p : fl * fl * fl -> fl * fl;
  o_sample : arr pix -> R -> R -> option pix;
  o_cfg : remap_cfg;
  o_height : Z; o_width : Z; o_count : Z;       (* ortho_im.shape, ortho_im.count = src_im.count *)
  o_block : Z * Z;                              (* ortho_im.block_shapes[0] *)
  o_transform : affine;                         (* ortho_im.profile['transform'] *)
  o_nodata : pix;                               (* _nodata_vals[ortho dtype] *)
  o_src : Z -> arr pix;                         (* camera.read(src_im, [band]) *)
  o_dem : arr fl;                               (* dem_array *)
  o_gsd : R;                                    (* self._gsd, lines 378-381 *)
  o_write_mask : bool;
  o_fail : list Z -> window -> bool             (* an I/O or other external error in this tile's task *)
}.

(** ortho.py:421-426: (x, y) grids of pixel centres for the first block. *)
Definition init_grid (job : ortho_job) (bw : window) (sel : R * R -> R) : arr fl :=
  let center_transform := aff_pretranslate (o_transform job) (1 / 2) (1 / 2) in
  Arr (height bw) (width bw) (fun i j => Num (sel (aff_apply center_transform (IZR j) (IZR i)))).

(** numpy.ceil. *)
Definition Rceil (x : R) : Z := (1 - up (- x))%Z.

(** ortho.py:378-381: dilation kernel (width, height), for a transform with non-zero pixel sizes. *)
Definition kernel_size (gsd : R) (t : affine) : Z * Z :=
  (Z.max (Rceil (5 * gsd / Rabs (ta t))) 3, Z.max (Rceil (5 * gsd / Rabs (te t))) 3).

(** ortho.py:362-369: the first block's grids, cropped and offset to the tile. *)
Definition tile_xgrid (t : affine) (init_x : arr fl) (w : window) : arr fl :=
  amap (fadd (Num (tc (win_transform w t) - tc t)%R)) (aslice init_x 0 (height w) 0 (width w)).

Definition tile_ygrid (t : affine) (init_y : arr fl) (w : window) : arr fl :=
  amap (fadd (Num (tf (win_transform w t) - tf t)%R)) (aslice init_y 0 (height w) 0 (width w)).

(** ortho.py:345-399 [_remap_tile]: the update made to the ortho dataset by one tile task.  The source
    array is [camera.read] of the indexed bands (ortho.py:447-453), each band being read and undistorted
    on its own. *)
Definition remap_tile (job : ortho_job) (init_x init_y : arr fl) (indexes : list Z) (w : window)
    : res (raster -> raster) :=
  let t := o_transform job in
  (* 363-369 *)
  let tile_transform := win_transform w t in
  let tile_x := tile_xgrid t init_x w in
  let tile_y := tile_ygrid t init_y w in
  (* 373-376 *)
  let tile_z := aslice (o_dem job) (row_off w) (row_off w + height w) (col_off w) (col_off w + width w) in
  if o_fail job indexes w then Err ExternalError else
  (* 384-392 *)
  do (tile_array, tile_mask) <-
    frame_remap (o_w2p job) (o_sample job) (o_cfg job) (map (o_src job) indexes)
                tile_x tile_y tile_z (o_nodata job) (kernel_size (o_gsd job) tile_transform);
  (* 395-399: under the write lock *)
  Ok (fun ras =>
        let ras := Ras (write_bands tile_array indexes w (bands ras)) (dmask ras) in
        if o_write_mask job &&
           ((match indexes with [i] => i =? 1 | _ => false end)
            || (Z.of_nat (List.length indexes) =? o_count job))
        then Ras (bands ras) (write_dmask (amap negb tile_mask) w (dmask ras))
        else ras).

(** ortho.py:430-433. *)
Definition index_list (count : Z) (per_band : bool) : list (list Z) :=
  if per_band then map (fun i => [i]) (py_range 1 (count + 1) 1)
  else [py_range 1 (count + 1) 1].

(** Effect of one finished task on the dataset: a failed one writes nothing. *)
Definition run_task (ras : raster) (t : res (raster -> raster)) : raster :=
  match t with Ok upd => upd ras | Err _ => ras end.

(** ortho.py:473-480: waiting for the futures in submission order. *)
Definition await_tiles (tasks : list (res (raster -> raster))) : res unit :=
  iterM (fun t => match t with Ok _ => Ok tt | Err _ => Err RuntimeError end) tasks.

(** ortho.py:401-482 [_remap].  [order indexes] is the order in which the tile tasks of this band group enter
    the write lock; the pool always runs all submitted tasks to completion (leaving the
    [with ThreadPoolExecutor] block waits for them, also when an exception is propagating).  A COG dataset's
    block shape is chosen elsewhere ([default_block_shape]).  The generator [next(block_windows)] raises
    StopIteration for an empty dataset. *)
Definition ortho_remap (job : ortho_job) (per_band : bool) (order : list Z -> list window) (ras : raster)
    : raster * res unit :=
  match block_windows (o_height job) (o_width job) (o_block job) with
  | [] => (ras, Err StopIteration)
  | block_win :: rest =>
    let tile_wins := block_win :: rest in
    let init_x := init_grid job block_win fst in
    let init_y := init_grid job block_win snd in
    fold_left
      (fun (st : raster * res unit) indexes =>
         match snd st with
         | Err e => st
         | Ok _ =>
           (fold_left (fun ras w => run_task ras (remap_tile job init_x init_y indexes w)) (order indexes) (fst st),
            await_tiles (map (remap_tile job init_x init_y indexes) tile_wins))
         end)
      (index_list (o_count job) per_band) (ras, Ok tt)
  end.
