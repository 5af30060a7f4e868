(** Proofs for Names_Props (C111). *)
From Coq Require Import List String Ascii Bool Arith Lia.
From Verif Require Import Py Py_Proof Factory_Model Factory_Spec Factory_Proof Names_Model.
Import ListNotations.
Open Scope string_scope.

Lemma found_listed : forall V (d : dict V) n s v, without_extension n s -> found d n v -> In n (dkeys d) \/ In s (dkeys d).
Proof. intros V d n s v W [H|_ H]; [left|right; rewrite (stem_without _ _ W) in H]; eapply dget_Some_key; exact H. Qed.

Lemma listed_found : forall V (d : dict V) n s, without_extension n s -> In n (dkeys d) \/ In s (dkeys d) -> exists k v, found d n v /\ In (k, v) d.
Proof.
  intros V d n s W H. destruct (dget n d) as [v|] eqn:E; [exists n, v; split; [apply by_name, E|apply dget_In, E]|].
  destruct H as [H|H]; [apply dget_None in E; contradiction|]. destruct (dget s d) as [v|] eqn:E'; [|apply dget_None in E'; contradiction].
  exists s, v. split; [apply by_stem; [exact E|rewrite (stem_without _ _ W); exact E']|apply dget_In, E'].
Qed.

Section Frame.
Context {P X I : Type}.
Variable create : P -> res I.

Lemma history_run : forall paths (st : fstate P X I), frame_history create paths st = frame_run create (map path_name paths) st.
Proof. induction paths as [|p paths IH]; intros st; [reflexivity|]. cbn. apply IH. Qed.

Theorem frame_names : forall ints (exts : dict (ext X)) history path n s, last_part path n -> without_extension n s ->
  let st := frame_history create history (frame_init ints exts) in
  frame_filenames st = dkeys exts /\
  ((exists i, snd (frame_at create path st) = Ok i) -> In n (dkeys exts) \/ In s (dkeys exts)) /\
  ((forall k e, In (k, e) exts -> exists p c, interior ints (ex_cam e) p /\ create p = Ok c) -> In n (dkeys exts) \/ In s (dkeys exts) -> exists i, snd (frame_at create path st) = Ok i) /\
  (~ In n (dkeys exts) -> ~ In s (dkeys exts) -> snd (frame_at create path st) = Err ParamError).
Proof.
  intros ints exts history path n s L W st. unfold st, frame_at. rewrite history_run. set (names := map path_name history).
  destruct (run_inv create names _ (init_inv create ints exts)) as (HI & H1 & H2). cbn in H1, H2.
  split; [unfold frame_filenames; rewrite H2; reflexivity|]. rewrite (path_name_last _ _ L).
  destruct (frame_get_spec create n _ HI) as (_ & _ & _ & _ & HS). split; [|split].
  - intros (i & E). rewrite E in HS. destruct HS as (e & p & c & He & _). rewrite H2 in He. exact (found_listed _ _ _ _ _ W He).
  - intros K H. destruct (listed_found _ _ _ _ W H) as (k & e & He & Hin). destruct (K k e Hin) as (p & c & Hp & Hc).
    destruct (frame_get_right create ints exts names n e p c He Hp Hc) as (i & E & _). exists i. exact E.
  - intros N1 N2. rewrite (frame_get_error create ints exts names n); [reflexivity|]. intros (e & p & He & _). destruct (found_listed _ _ _ _ _ W He); contradiction.
Qed.
End Frame.

Section Rpc.
Context {M R G C : Type}.
Variable create : M -> R -> res C.
Variable refine_rpc : R -> list G -> res R.

Lemma refine_keys : forall gcps items (st : rstate M R G C), (forall f, In f (dkeys items) -> In f (dkeys (r_param st))) ->
  dkeys (r_param (fst (refine_loop M R G C refine_rpc gcps items st))) = dkeys (r_param st).
Proof.
  intros gcps items. induction items as [|[f [m q]] items IH]; intros st H; [reflexivity|]. cbn [refine_loop].
  assert (H' : forall f', In f' (dkeys items) -> In f' (dkeys (r_param st))) by (intros f' Hf; apply H; right; exact Hf).
  destruct (get_by_name (path_name f) gcps) as [[|g gs]|]; [apply IH, H'| |apply IH, H'].
  destruct (refine_rpc q (g :: gs)) as [r'|x]; [|reflexivity]. cbn [r_param r_cache r_gcps].
  assert (K : dkeys (dset f (m, r') (r_param st)) = dkeys (r_param st)) by (apply dkeys_dset, H; left; reflexivity).
  rewrite IH; cbn [r_param]; [exact K|]. intros f' Hf. rewrite K. apply H', Hf.
Qed.

Lemma get_param : forall name (st : rstate M R G C), r_param (fst (rpc_get create name st)) = r_param st.
Proof. intros name st. unfold rpc_get. destruct (get_by_name name (r_param st)) as [[m r]|]; [|reflexivity]. destruct (dget name (r_cache st)); [reflexivity|]. destruct (create m r); reflexivity. Qed.

Lemma history_keys : forall cs (st : rstate M R G C), dkeys (r_param (rpc_history create refine_rpc cs st)) = dkeys (r_param st).
Proof.
  unfold rpc_history. induction cs as [|c cs IH]; intros st; [reflexivity|]. cbn [fold_left]. rewrite IH. destruct c as [p|g]; cbn.
  - unfold rpc_at. rewrite get_param. reflexivity.
  - unfold rpc_refine. rewrite refine_keys; cbn; auto.
Qed.

Theorem rpc_names : forall params history path n s, last_part path n -> without_extension n s ->
  let st := rpc_history create refine_rpc history (rpc_init params) in
  rpc_filenames st = dkeys params /\
  ((exists c, snd (rpc_at create path st) = Ok c) -> In n (dkeys params) \/ In s (dkeys params)) /\
  ((forall m r, exists c, create m r = Ok c) -> In n (dkeys params) \/ In s (dkeys params) -> exists c, snd (rpc_at create path st) = Ok c) /\
  (~ In n (dkeys params) -> ~ In s (dkeys params) -> snd (rpc_at create path st) = Err ParamError).
Proof.
  intros params history path n s L W st. assert (K : dkeys (r_param st) = dkeys params) by apply history_keys.
  split; [exact K|]. unfold rpc_at. rewrite (path_name_last _ _ L). rewrite <- K. clearbody st. unfold rpc_get.
  destruct (get_by_name n (r_param st)) as [[m r]|] eqn:E.
  - apply get_by_name_iff in E. pose proof (found_listed _ _ _ _ _ W E) as Hl. split; [auto|]. split.
    + intros Hc _. destruct (dget n (r_cache st)) as [c|]; [exists c; reflexivity|]. destruct (Hc m r) as (c & ->). exists c. reflexivity.
    + intros N1 N2. destruct Hl; contradiction.
  - cbn [snd]. split; [intros (c & H); discriminate|]. split; [|auto].
    intros _ H. exfalso. destruct (listed_found _ _ _ _ W H) as (k & v & Hf & _). apply get_by_name_iff in Hf. congruence.
Qed.
End Rpc.
