(** Property theorems: C32 RPC refinement through get, C33 frame cameras. *)
From Coq Require Import List String.
From Verif Require Import Py Factory_Model Factory_Spec Factory_Proof.
Import ListNotations.
Open Scope string_scope.

(** C32: after any history of get and refine calls (failed ones included), get of a name that parameters are stored
    under gives the camera of the parameters as they are now. *)
Theorem C32_get_never_stale :
  forall M R G C (create : M -> R -> res C) (refine_rpc : R -> list G -> res R) params history f m q, bare params ->
  let st := rpc_run create refine_rpc history (rpc_init params) in
  dget f (r_param st) = Some (m, q) -> snd (rpc_get create f st) = create m q.
Proof. exact @rpc_get_never_stale. Qed.
Print Assumptions C32_get_never_stale.

(** C32: so after a refine call, get gives the camera of the refined parameters for every image with GCPs, and that
    of the unchanged ones for the others. *)
Theorem C32_refine_visible :
  forall M R G C (create : M -> R -> res C) (refine_rpc : R -> list G -> res R) params history gcps f m q, bare params ->
  let st := rpc_run create refine_rpc history (rpc_init params) in
  let st' := fst (rpc_refine refine_rpc gcps st) in
  snd (rpc_refine refine_rpc gcps st) = Ok tt -> dget f (r_param st) = Some (m, q) ->
  (forall g, gcps_for gcps f g -> exists q', refine_rpc q g = Ok q' /\ snd (rpc_get create f st') = create m q') /\
  ((forall g, ~ gcps_for gcps f g) -> snd (rpc_get create f st') = create m q).
Proof. exact @rpc_refine_visible. Qed.
Print Assumptions C32_refine_visible.

(** C32: not so for a file with an extension whose parameters are stored by stem: get "im.tif" before refining still
    gives the unrefined camera after. *)
Theorem C32_stem_request_refuted :
  exists (params : dict (nat * nat)) (gcps : dict (list nat)),
  let create (m r : nat) := Ok r in
  let refine (r : nat) (g : list nat) := Ok (r + 1)%nat in
  let st := rpc_run create refine [RGet "im.tif"; RRefine gcps] (rpc_init params) in
  r_param st = [("im", (0, 1)%nat)] /\ snd (rpc_get create "im.tif" st) = Ok 0%nat /\ snd (rpc_get create "im" st) = Ok 1%nat.
Proof. exact rpc_stale_by_stem. Qed.
Print Assumptions C32_stem_request_refuted.

Example C32_case :
  let params := [("a.tif", (0, 5)%nat); ("b.tif", (0, 6)%nat)] in
  let gcps := [("a", [1; 2]%nat)] in
  let create (m r : nat) : res nat := Ok r in
  let refine (r : nat) (g : list nat) : res nat := Ok (r + 10 * List.length g)%nat in
  let st := rpc_run create refine [RGet "a.tif"; RGet "b.tif"] (rpc_init params) in
  bare params /\ gcps_for gcps "a.tif" [1; 2]%nat /\ snd (rpc_refine refine gcps st) = Ok tt /\
  snd (rpc_get create "a.tif" (fst (rpc_refine refine gcps st))) = Ok 25%nat.
Proof.
  cbn zeta. split; [|split; [|split; reflexivity]].
  - split; [repeat constructor; cbn; intuition discriminate|]. intros f [<-|[<-|[]]]; reflexivity.
  - split; [apply by_stem; reflexivity|discriminate].
Qed.

(** C33: after any history of get calls, get gives a camera with the interior of the image's camera ID and the
    exterior of the image. *)
Theorem C33_get_right_camera :
  forall P X I (create : P -> res I) ints exts history name (e : ext X) p c,
  found exts name e -> interior ints (ex_cam e) p -> create p = Ok c ->
  let st := frame_run create history (frame_init ints exts) in
  exists i, snd (frame_get create name st) = Ok i /\
            nth_error (f_heap (fst (frame_get create name st))) i = Some (Camera c (Some (ex_pos e))).
Proof. exact @frame_get_right. Qed.
Print Assumptions C33_get_right_camera.

(** C33: names are looked up by the last part of the path, and by that without its extension. *)
Theorem C33_names : forall path name st,
  (last_part path name -> path_name path = name) /\ (without_extension name st -> stem name = st).
Proof. intros. split; [apply path_name_last|apply stem_without]. Qed.
Print Assumptions C33_names.

Example C33_names_case : last_part "a/b.c/im.v2.tif" "im.v2.tif" /\ without_extension "im.v2.tif" "im.v2".
Proof.
  split; [apply (in_folder "a/b.c" "im.v2.tif")|apply (extension "im.v2" "tif")]; try discriminate; cbn; intuition discriminate.
Qed.

(** C33: when the image has no exterior parameters, or they have no interior ones, ParamError is raised and nothing
    changes. *)
Theorem C33_get_error :
  forall P X I (create : P -> res I) ints (exts : dict (ext X)) history name,
  ~ (exists e p, found exts name e /\ interior ints (ex_cam e) p) ->
  let st := frame_run create history (frame_init ints exts) in
  frame_get create name st = (st, Err ParamError).
Proof. exact @frame_get_error. Qed.
Print Assumptions C33_get_error.

(** C33: cameras of two images are one object exactly when the images have the same camera ID; then the camera that
    was returned for the first image now has the exterior of the second, and otherwise it is unchanged. *)
Theorem C33_shared_cameras :
  forall P X I (create : P -> res I) ints exts history n1 n2 i1 i2 (e1 e2 : ext X),
  let st := frame_run create history (frame_init ints exts) in
  let st1 := fst (frame_get create n1 st) in
  let st2 := fst (frame_get create n2 st1) in
  snd (frame_get create n1 st) = Ok i1 -> snd (frame_get create n2 st1) = Ok i2 ->
  found exts n1 e1 -> found exts n2 e2 ->
  (ex_cam e1 = ex_cam e2 <-> i1 = i2) /\
  (i1 = i2 -> exists c, nth_error (f_heap st2) i1 = Some (Camera c (Some (ex_pos e2)))) /\
  (i1 <> i2 -> nth_error (f_heap st2) i1 = nth_error (f_heap st1) i1).
Proof. exact @frame_get_aliasing. Qed.
Print Assumptions C33_shared_cameras.

Example C33_case :
  let ints := [("c1", 1%nat); ("c2", 2%nat)] in
  let exts := [("a", Ext 10%nat (Some "c1")); ("b.tif", Ext 20%nat (Some "c1")); ("d.tif", Ext 30%nat (Some "c2"))] in
  let create (p : nat) : res nat := Ok (p * 100)%nat in
  let st := frame_run create ["a.jpg"; "zz"; "d.tif"; "b.tif"] (frame_init ints exts) in
  found exts "a.jpg" (Ext 10%nat (Some "c1")) /\ interior ints (Some "c1") 1%nat /\
  f_heap st = [Camera 100%nat (Some 20%nat); Camera 200%nat (Some 30%nat)].
Proof.
  cbn zeta. split; [apply by_stem; reflexivity|]. split; [apply with_id; [discriminate|reflexivity]|reflexivity].
Qed.
