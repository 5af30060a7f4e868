(** Property theorems: C14 overwriting, C15 frame parameter export, C59 failed processing. *)
From Coq Require Import List String Bool.
From Verif Require Import Py Files_Model Files_Spec Files_Proof.
Import ListNotations.
Open Scope string_scope.

(** C14: over any history of parameter and raster writing calls, a file that exists keeps its content unless a call
    that writes that very path was given overwrite. *)
Theorem C14_history_keeps_files : forall cs fs p content,
  dget p fs = Some content ->
  (forall c, In c cs -> writes c p -> ~ overwriting c) ->
  dget p (run_history cs fs) = Some content.
Proof. exact history_keeps. Qed.
Print Assumptions C14_history_keeps_files.

(** C14: paths no call names are never touched or created. *)
Theorem C14_history_confined : forall cs fs p, (forall c, In c cs -> ~ writes c p) -> dget p (run_history cs fs) = dget p fs.
Proof. exact history_confined. Qed.
Print Assumptions C14_history_confined.

(** C14: a parameter write to an existing file without overwrite raises FileExistsError (or an earlier error of its
    own) and leaves the whole file system as it was. *)
Theorem C14_existing_rejected : forall fs p content prep file,
  dget p fs = Some content -> file = TPath p \/ file = TOpenFile p WT ->
  write_param_file file prep false fs = (fs, match prep with Ok _ => Err FileExistsError | Err e => Err e end).
Proof. exact existing_rejected. Qed.
Print Assumptions C14_existing_rejected.

(** C14: the same for ortho and pan-sharpened rasters, whatever the environment does. *)
Theorem C14_existing_raster_rejected : forall fs p content e b,
  dget p fs = Some content ->
  (fst (ortho_process e p false b fs) = fs /\ snd (ortho_process e p false b fs) <> Ok tt) /\
  (fst (pan_process e p false b fs) = fs /\ snd (pan_process e p false b fs) <> Ok tt).
Proof. exact existing_raster_rejected. Qed.
Print Assumptions C14_existing_raster_rejected.

(** C14: a closed file object, or an OpenFile or file object in another mode, is refused whatever overwrite says, and nothing is
    written. *)
Theorem C14_bad_object_rejected : forall fs file d ow,
  (exists m, file = TFileObj true m) \/ (exists c, file = TFileObj c (Some RT)) \/ (exists p, file = TOpenFile p RT) ->
  write_param_file file (Ok d) ow fs = (fs, Err OSError).
Proof. exact bad_object_rejected. Qed.
Print Assumptions C14_bad_object_rejected.

(** C14: otherwise the write succeeds and stores the document, and only that. *)
Theorem C14_write_succeeds : forall fs p chunks ow,
  (ow = true \/ dget p fs = None) -> forall file, file = TPath p \/ file = TOpenFile p WT ->
  let r := write_param_file file (Ok (chunks, None)) ow fs in
  snd r = Ok tt /\ dget p (fst r) = Some (String.concat "" chunks) /\ same_except (fun q => q = p) (fst r) fs.
Proof. exact write_succeeds. Qed.
Print Assumptions C14_write_succeeds.

(** C14: the guarantee is for calls made one after the other.  Two concurrent calls without overwrite can both
    succeed on the same new path, the second replacing the first one's file. *)
Theorem C14_concurrent_calls_refuted :
  exists sched c1 c2,
  interleave "f" c1 c2 sched ([], WStart, WStart) = ([("f", c1)], WDone (Ok tt), WDone (Ok tt)) /\ c1 <> c2.
Proof. exact concurrent_overwrite. Qed.
Print Assumptions C14_concurrent_calls_refuted.

(** C14: with overwrite, a document that can not be serialised costs the old file: it is truncated first. *)
Theorem C14_failed_overwrite_keeps_old_refuted :
  exists fs p old d, dget p fs = Some old /\ old <> "" /\
  let r := write_param_file (TPath p) (Ok d) true fs in
  snd r = Err SerializeError /\ dget p (fst r) <> Some old.
Proof. exact failed_overwrite_destroys. Qed.
Print Assumptions C14_failed_overwrite_keeps_old_refuted.

Example C14_case :
  let fs := [("d/int_param.yaml", "kept"); ("o.tif", "raster")] in
  let e := Env (fun _ => None) (fun _ => "new raster") in
  let cs := [CFrame "d" (Ok (["a"], None)) (Ok (["b"], None)) true false; COrtho e "o.tif" true true;
             CWrite (TPath "x.yaml") (Ok (["y"], None)) false] in
  (forall c, In c cs -> writes c "d/int_param.yaml" -> ~ overwriting c) /\
  run_history cs fs = [("d/int_param.yaml", "kept"); ("o.tif", "new raster"); ("x.yaml", "y")].
Proof.
  split; [|reflexivity]. intros c [<-|[<-|[<-|[]]]]; cbn; intros H; try discriminate.
Qed.

(** C15: success writes both files and nothing else. *)
Theorem C15_success_writes_both : forall fs d int_prep ext_prep has_crs ow fs',
  frame_write_param d int_prep ext_prep has_crs ow fs = (fs', Ok tt) ->
  has_crs = true /\
  exists ci ce, int_prep = Ok (ci, None) /\ ext_prep = Ok (ce, None) /\
    dget (pjoin d "int_param.yaml") fs' = Some (String.concat "" ci) /\
    dget (pjoin d "ext_param.geojson") fs' = Some (String.concat "" ce) /\
    same_except (fun p => p = pjoin d "int_param.yaml" \/ p = pjoin d "ext_param.geojson") fs' fs.
Proof. exact frame_write_ok. Qed.
Print Assumptions C15_success_writes_both.

(** C15: when it fails on the missing CRS, the exterior document or an existing exterior file, the interior file has
    been written all the same, and nothing else has changed. *)
Theorem C15_failure_leaves_interior : forall fs d ci ext_prep has_crs ow,
  (ow = true \/ dget (pjoin d "int_param.yaml") fs = None) ->
  has_crs = false \/ (exists e, ext_prep = Err e) \/ (ow = false /\ exists c, dget (pjoin d "ext_param.geojson") fs = Some c) ->
  let r := frame_write_param d (Ok (ci, None)) ext_prep has_crs ow fs in
  snd r <> Ok tt /\
  dget (pjoin d "int_param.yaml") (fst r) = Some (String.concat "" ci) /\
  same_except (fun p => p = pjoin d "int_param.yaml") (fst r) fs.
Proof. exact frame_write_partial_effect. Qed.
Print Assumptions C15_failure_leaves_interior.

(** C15: so it is not all or nothing. *)
Theorem C15_atomic_refuted :
  exists fs d int_prep ext_prep has_crs,
  let r := frame_write_param d int_prep ext_prep has_crs false fs in
  snd r = Err CrsMissingError /\ ~ same_fs (fst r) fs.
Proof. exact frame_write_not_atomic. Qed.
Print Assumptions C15_atomic_refuted.

Example C15_case :
  frame_write_param "out/" (Ok (["i: "; "1"], None)) (Ok (["{}"], None)) true false [("out/x", "0")] =
  ([("out/x", "0"); ("out/int_param.yaml", "i: 1"); ("out/ext_param.geojson", "{}")], Ok tt).
Proof. reflexivity. Qed.

(** C59: a failure before the output is opened leaves the file system as it was. *)
Theorem C59_ortho_early_failure : forall e path ow b fs s, ortho_before s -> raises e s <> None ->
  fst (ortho_process e path ow b fs) = fs /\ exists x, snd (ortho_process e path ow b fs) = Err x.
Proof. exact ortho_early_failure. Qed.
Print Assumptions C59_ortho_early_failure.

Theorem C59_pan_early_failure : forall e path ow b fs s, pan_before s -> raises e s <> None ->
  fst (pan_process e path ow b fs) = fs /\ exists x, snd (pan_process e path ow b fs) = Err x.
Proof. exact pan_early_failure. Qed.
Print Assumptions C59_pan_early_failure.

(** C59: from then on the output file exists, whether or not processing succeeds, and no other file is touched. *)
Theorem C59_ortho_late_failure : forall e path ow b fs,
  (forall s, ortho_before s -> raises e s = None) -> (ow = true \/ dget path fs = None) ->
  dmem path (fst (ortho_process e path ow b fs)) = true /\
  same_except (fun p => p = path) (fst (ortho_process e path ow b fs)) fs /\
  (snd (ortho_process e path ow b fs) = Ok tt <->
   forall s, In s ([ColorInterp; InterpArg; Tiles] ++ (if b then [Overviews] else [])) -> raises e s = None).
Proof. exact ortho_late_failure. Qed.
Print Assumptions C59_ortho_late_failure.

(** C59: not all arguments are checked before that: a bad 'interp' destroys an output that was to be overwritten. *)
Theorem C59_bad_argument_leaves_output_refuted :
  exists e fs path old, dget path fs = Some old /\ raises e InterpArg <> None /\
  (forall s, s <> InterpArg -> raises e s = None) /\
  snd (ortho_process e path true true fs) = Err ValueError /\
  dget path (fst (ortho_process e path true true fs)) <> Some old.
Proof. exact bad_interp_destroys. Qed.
Print Assumptions C59_bad_argument_leaves_output_refuted.

Example C59_case :
  let e := Env (fun s => match s with MaskDem => Some OrthorityError | _ => None end) (fun _ => "x") in
  ortho_before MaskDem /\ raises e MaskDem <> None /\
  ortho_process e "o.tif" true true [("o.tif", "old")] = ([("o.tif", "old")], Err OrthorityError).
Proof. split; [unfold ortho_before; cbn; tauto|]. split; [discriminate|reflexivity]. Qed.
