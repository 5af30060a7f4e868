(** Property theorems: C111 the file names of camera factories. *)
From Coq Require Import List String Ascii.
From Verif Require Import Py Factory_Model Factory_Spec Names_Model Names_Proof.
Import ListNotations.
Open Scope string_scope.

(** C111: after any requests, a frame camera factory lists the names it has exterior parameters for; a path gets a camera only if its file name is listed, with or without its
    extension, and then it does if the cameras of the listed images have interior parameters. *)
Theorem C111_frame : forall P X I (create : P -> res I) ints (exts : dict (ext X)) history path n s, last_part path n -> without_extension n s ->
  let st := frame_history create history (frame_init ints exts) in
  frame_filenames st = dkeys exts /\
  ((exists i, snd (frame_at create path st) = Ok i) -> In n (dkeys exts) \/ In s (dkeys exts)) /\
  ((forall k e, In (k, e) exts -> exists p c, interior ints (ex_cam e) p /\ create p = Ok c) -> In n (dkeys exts) \/ In s (dkeys exts) -> exists i, snd (frame_at create path st) = Ok i) /\
  (~ In n (dkeys exts) -> ~ In s (dkeys exts) -> snd (frame_at create path st) = Err ParamError).
Proof. exact @frame_names. Qed.
Print Assumptions C111_frame.

(** C111: so does an RPC camera factory, after any requests and refinements. *)
Theorem C111_rpc : forall M R G C (create : M -> R -> res C) (refine_rpc : R -> list G -> res R) params history path n s, last_part path n -> without_extension n s ->
  let st := rpc_history create refine_rpc history (rpc_init params) in
  rpc_filenames st = dkeys params /\
  ((exists c, snd (rpc_at create path st) = Ok c) -> In n (dkeys params) \/ In s (dkeys params)) /\
  ((forall m r, exists c, create m r = Ok c) -> In n (dkeys params) \/ In s (dkeys params) -> exists c, snd (rpc_at create path st) = Ok c) /\
  (~ In n (dkeys params) -> ~ In s (dkeys params) -> snd (rpc_at create path st) = Err ParamError).
Proof. exact @rpc_names. Qed.
Print Assumptions C111_rpc.

(** C111: but not each name that is listed gets a camera: one that is stored with its folder is listed, and refused, unless it is also stored without. *)
Theorem C111_folder_refuted : forall folder n s, let path := folder ++ "/" ++ n in ~ has_char "/"%char n -> without_extension n s ->
  (forall P X I (create : P -> res I) ints (exts : dict (ext X)) history, In path (dkeys exts) -> ~ In n (dkeys exts) -> ~ In s (dkeys exts) ->
   let st := frame_history create history (frame_init ints exts) in In path (frame_filenames st) /\ snd (frame_at create path st) = Err ParamError) /\
  (forall M R G C (create : M -> R -> res C) (refine_rpc : R -> list G -> res R) params history, In path (dkeys params) -> ~ In n (dkeys params) -> ~ In s (dkeys params) ->
   let st := rpc_history create refine_rpc history (rpc_init params) in In path (rpc_filenames st) /\ snd (rpc_at create path st) = Err ParamError).
Proof.
  intros folder n s path N W. assert (L : last_part path n) by (apply in_folder, N). split; intros.
  - destruct (frame_names create ints exts history path n s L W) as (F1 & _ & _ & F2). split; [unfold st; rewrite F1; assumption|apply F2; assumption].
  - destruct (rpc_names create refine_rpc params history path n s L W) as (F1 & _ & _ & F2). split; [unfold st; rewrite F1; assumption|apply F2; assumption].
Qed.
Print Assumptions C111_folder_refuted.

(** "a" is listed, and "photos/a.jpg" gets its camera; "survey/b.tif" is listed, and gets none. *)
Example C111_case :
  let ints := [("c1", 1%nat)] in
  let exts := [("a", Ext 10%nat (Some "c1")); ("survey/b.tif", Ext 20%nat (Some "c1"))] in
  let create (p : nat) : res nat := Ok (p * 100)%nat in
  let st := frame_history create ["x/a.tif"; "b.tif"] (frame_init ints exts) in
  last_part "photos/a.jpg" "a.jpg" /\ without_extension "a.jpg" "a" /\ (forall k e, In (k, e) exts -> exists p c, interior ints (ex_cam e) p /\ create p = Ok c) /\
  frame_filenames st = ["a"; "survey/b.tif"] /\ snd (frame_at create "photos/a.jpg" st) = Ok 0%nat /\ snd (frame_at create "survey/b.tif" st) = Err ParamError /\
  let st' := rpc_history (fun m r : nat => Ok r) (fun r (g : list nat) => Ok (r + 1)%nat) [RGet "x/a.tif"; RRefine [("a", [1%nat])]] (rpc_init [("a", (0, 1)%nat)]) in
  rpc_filenames st' = ["a"] /\ exists c, snd (rpc_at (fun m r : nat => Ok r) "photos/a.jpg" st') = Ok c.
Proof.
  cbn zeta. split; [apply (in_folder "photos" "a.jpg"); cbn; intuition discriminate|]. split; [apply (extension "a" "jpg"); [discriminate|discriminate|cbn; intuition discriminate]|].
  split; [intros k e [E|[E|[]]]; injection E as <- <-; exists 1%nat, 100%nat; (split; [apply with_id; [discriminate|reflexivity]|reflexivity])|].
  split; [reflexivity|]. split; [reflexivity|]. split; [reflexivity|]. split; [reflexivity|]. eexists. reflexivity.
Qed.
