(** Model of distorting images and pixels: [distort_image] (orthority/common.py), and [_distort_pixel] and [_undistort_pixel]
    (orthority/camera.py), of the camera objects of Cam_Model. *)
From Coq Require Import String List Reals ZArith Bool.
From Verif Require Import Py Flt Remap_Model Frame_Model Undist_Model Cam_Model.
Import ListNotations.
Open Scope Z_scope.

(** [np.clip(ji.T, a_min=(0, 0), a_max=im_size - 1)], that leaves NaN as it is. *)
Definition clip_axis (size : Z) (v : fl) : fl := match v with Num x => Num (Rmin (Rmax x 0) (IZR size - 1)) | Nan => Nan end.
Definition clip_fl (c : fcam) (p : fl * fl) : fl * fl := (clip_axis (fc_w c) (fst p), clip_axis (fc_h c) (snd p)).

(** camera.py:882-893 [_distort_pixel], of finite pixels. *)
Definition distort_pixels (c : fcam) (ji : nd (list (R * R))) (clip : bool) : res (list (fl * fl)) :=
  do _ <- validate_pixel_coords ji;
  let out := map (fun p => l_fwd (fc_lens c) (k_solve (s_ku (fc_st c)) p)) (nd_data ji) in
  Ok (if clip then map (clip_fl c) out else out).

(** camera.py:894-906 [_undistort_pixel], of finite pixels. *)
Definition undistort_pixels (c : fcam) (ji : nd (list (R * R))) (clip : bool) : res (list (fl * fl)) :=
  do _ <- validate_pixel_coords ji;
  let out := map (fun p => num2 (k_apply (s_ku (fc_st c)) (l_inv (fc_lens c) p))) (nd_data ji) in
  Ok (if clip then map (clip_fl c) out else out).

Section Image.
Variable cv_image : string -> arr pix -> fl * fl -> option pix.
Variable round32 : R -> R.      (* [astype('float32')] *)

(** common.py:103-111: the undistorted position of each pixel of the camera's image. *)
Definition undistorted_maps (c : fcam) : arr (fl * fl) :=
  Arr (fc_h c) (fc_w c) (fun row col => let p := k_apply (s_ku (fc_st c)) (l_inv (fc_lens c) (IZR col, IZR row)) in
                                        (Num (round32 (fst p)), Num (round32 (snd p)))).

(** common.py:97-128 [distort_image] of an image with bands, of a data type that OpenCV remaps. *)
Definition distort_image (c : fcam) (im : nd (list (arr pix))) (nodata : pix) (interp : string) : res (nd (list (arr pix))) :=
  match nd_shape im with
  | [_; h; w] =>
    if (w =? fc_w c) && (h =? fc_h c) then
      do data <- mapM (fun b => do i <- interp_get interp;
                                cv_remap (cv_image i) b (undistorted_maps c) (Arr (ah b) (aw b) (fun _ _ => nodata))) (nd_data im);
      Ok (Nd (nd_dtype im) (nd_shape im) data)
    else Err ValueError
  | _ => Err ExternalError  (* not modelled *)
  end.
End Image.
