(** C78: calls leave nothing open, and do not touch what the caller has open. *)
From Coq Require Import String List Arith.
From Verif Require Import Py Res_Model Res_Spec Res_Proof.
Import ListNotations.
Open Scope string_scope.
Open Scope list_scope.

(** Whatever fails and wherever (opening, reading, writing, a task, closing), a call with files that are not remote, or objects of the
    caller, leaves exactly the handles open that were, and no task running. *)
Theorem C78_nothing_left : forall raises q s s' r,
  idle s -> (forall f, In f (files q) -> not_remote f) -> ~ is_sharpen_command q ->
  run_request raises q s = (s', r) -> nothing_left s s'.
Proof. intros raises q s s' r I H1 H2 E. exact (proj1 (left_local raises q s s' r H1 H2 I E)). Qed.
Print Assumptions C78_nothing_left.

(** A call that succeeds leaves nothing open for any files, and also from the sharpen command. *)
Theorem C78_success : forall raises q s s',
  idle s -> run_request raises q s = (s', Ok tt) -> nothing_left s s'.
Proof. intros raises q s s' I E. exact (proj1 (left_success raises q s s' tt I E)). Qed.
Print Assumptions C78_success.

(** In every case the caller's own objects are as they were, no task is left running, and no dataset was closed while a task was
    using it. *)
Theorem C78_caller : forall raises q s s' r,
  idle s -> run_request raises q s = (s', r) ->
  caller_unchanged s s' /\ running s' = running s /\ misused s' = misused s /\ idle s'.
Proof.
  intros raises q s s' r I E. destruct (caller_same raises q s s' r I E) as (A & B & C). exact (conj A (conj B (conj C (idle_after raises q s s' r I E)))).
Qed.
Print Assumptions C78_caller.

(** So does any history of calls, of which any may fail. *)
Theorem C78_history : forall raises l s,
  idle s -> (forall q, In q l -> (forall f, In f (files q) -> not_remote f) /\ ~ is_sharpen_command q) ->
  nothing_left s (run_requests raises l s) /\ misused (run_requests raises l s) = misused s.
Proof. intros raises l s I H. exact (history_left raises l s H I). Qed.
Print Assumptions C78_history.

(** The sharpen command leaves at most the pan image open, and only when it fails. *)
Theorem C78_sharpen_command : forall raises pan ms out overwrite stat_tiles tiles s s' r,
  idle s -> (forall f, In f [pan; ms; out] -> not_remote f) ->
  run_request raises (QCliSharpen pan ms out overwrite stat_tiles tiles) s = (s', r) ->
  nothing_left s s' \/ ((exists e, r = Err e) /\ opened s' = opened s ++ [true] /\ running s' = running s).
Proof. exact (fun raises pan ms out ow st t s s' r I H E => sharpen_left raises pan ms out ow st t s s' r H I E). Qed.
Print Assumptions C78_sharpen_command.

(** It does leave the pan image open if the multispectral image can not be opened. *)
Theorem C78_sharpen_command_refuted : exists raises q s,
  idle s /\ (forall f, In f (files q) -> not_remote f) /\ is_sharpen_command q /\ ~ nothing_left s (fst (run_request raises q s)).
Proof.
  exists (fun t => if Nat.eqb t 1 then Some OSError else None), (QCliSharpen (FPath Local true) (FPath Local true) (FPath Local false) false 1 1), (St [] [] 0 [] false).
  split; [split; [reflexivity|intros p us []]|]. split; [intros f H; repeat destruct H as [<-|H]; try exact I; destruct H|]. split; [exact I|]. intros [H _]. destruct (H 0) as [H0 _]. specialize (H0 eq_refl). discriminate H0.
Qed.
Print Assumptions C78_sharpen_command_refuted.

(** A remote file stays open if GDAL can not open what is in it. *)
Theorem C78_remote_refuted : exists raises q s,
  idle s /\ ~ is_sharpen_command q /\ ~ nothing_left s (fst (run_request raises q s)).
Proof.
  exists (fun t => if Nat.eqb t 2 then Some ExternalError else None), (QPanInit (FPath Remote true) (FPath Local true)), (St [] [] 0 [] false).
  split; [split; [reflexivity|intros p us []]|]. split; [intros []|]. intros [H _]. destruct (H 1) as [H0 _]. specialize (H0 eq_refl). discriminate H0.
Qed.
Print Assumptions C78_remote_refuted.

(** Cases: a caller with an open dataset (0) and a closed one (1).  A pan-sharpening run with 3 tiles that succeeds, one where writing
    a tile fails, and a command that orthorectifies two images of which the second is not there. *)
Definition a_state : st := St [true; false] [] 0 [] false.
Example C78_case :
  idle a_state /\
  (let q := QPanProcess (FObject 0 (Some "r")) (FPath Local true) (FPath Local false) false 2 3 in
   snd (run_request (fun _ => None) q a_state) = Ok tt /\ opened (fst (run_request (fun _ => None) q a_state)) = [true] ++ repeat false 12 /\
   (let fails := fun t => if Nat.eqb t 22 then Some ExternalError else None in
    snd (run_request fails q a_state) = Err ExternalError /\ nothing_left a_state (fst (run_request fails q a_state)))) /\
  (let q := QCliOrtho (FPath Local true) [FPath Local true; FPath Local true] (FPath Local false) true 1 4 in
   snd (run_request (fun _ => None) q a_state) = Ok tt /\ nothing_left a_state (fst (run_request (fun _ => None) q a_state))) /\
  snd (run_request (fun _ => None) (QCameraRead (FObject 1 (Some "r"))) a_state) = Err OSError.
Proof.
  assert (I0 : idle a_state) by (split; [reflexivity|intros p us []]). split; [exact I0|]. split; [|split; [|reflexivity]].
  - split; [vm_compute; reflexivity|]. split; [vm_compute; reflexivity|]. split; [vm_compute; reflexivity|].
    match goal with |- nothing_left _ (fst ?x) => destruct x as [s' r] eqn:E end. apply (C78_nothing_left _ _ _ _ _ I0) with (3 := E); [intros f H; repeat destruct H as [<-|H]; try exact I; destruct H|intros []].
  - split; [vm_compute; reflexivity|].
    match goal with |- nothing_left _ (fst ?x) => destruct x as [s' r] eqn:E end. apply (C78_nothing_left _ _ _ _ _ I0) with (3 := E); [intros f H; repeat destruct H as [<-|H]; try exact I; destruct H|intros []].
Qed.
