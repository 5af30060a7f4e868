(** Proofs for Scene_Props (C96). *)
From Coq Require Import String List Reals QArith Qreals ZArith Bool Lia.
From Verif Require Import Py Py_Proof Flt Mat Remap_Model Frame_Model Frame_Spec Undist_Model Undist_Spec Validate_Model Validate_Spec Validate_Proof Params_Model Params_Spec Params_Proof
  Factory_Model Cam_Model Cam_Spec Cam_Proof Rpc_Model Rcam_Model Proj_Spec Make_Model Make_Spec Make_Proof Scene_Model Scene_Spec.
From Verif Require Factory_Spec Factory_Proof.
Import ListNotations.
Open Scope string_scope.
Open Scope list_scope.

Lemma key_same_iff : forall a b, key_same a b = true <-> a = b.
Proof.
  intros [|s| |] [|t| |]; cbn; try (split; congruence). rewrite String.eqb_eq. split; congruence.
Qed.

Lemma nth_replace : forall A (l : list A) i x j, nth_error (replace i x l) j = if Nat.eqb i j then option_map (fun _ => x) (nth_error l j) else nth_error l j.
Proof.
  induction l as [|y l IH]; intros i x j.
  - cbn. destruct (Nat.eqb i j), j, i; reflexivity.
  - destruct i, j; cbn; try reflexivity. apply IH.
Qed.

Lemma replace_length : forall A (l : list A) i x, List.length (replace i x l) = List.length l.
Proof. induction l as [|y l IH]; intros [|i] x; cbn; auto. Qed.

Section Scene.
Variable cv_surf : string -> arr fl -> fl * fl -> option fl.
Variable cast_nan : string -> fl.
Variable cv_image : string -> arr pix -> fl * fl -> option pix.
Variable convert : string -> string -> pix -> pix.
Notation do_call := (do_call cv_surf cast_nan cv_image convert).
Notation run_calls := (run_calls cv_surf cast_nan cv_image convert).
Variable cv_project cv_undistort fish_undistort : intr -> list R -> R * R -> R * R.
Variable C : Type.
Variable parse_crs : string -> res C.
Variable rpc_crs : C.
Variable O : Type.
Variable no_options : O.
Variable warp : C -> C -> list vec -> list vec.
Notation create_camera := (create_camera cv_project cv_undistort fish_undistort C parse_crs rpc_crs O no_options warp).
Notation scene := (scene C O).
Notation scene_get := (scene_get cv_surf cast_nan cv_image convert cv_project cv_undistort fish_undistort C parse_crs rpc_crs O no_options warp).
Notation scene_use := (scene_use cv_surf cast_nan cv_image convert C O).
Notation scene_do := (scene_do cv_surf cast_nan cv_image convert cv_project cv_undistort fish_undistort C parse_crs rpc_crs O no_options warp).
Notation scene_run := (scene_run cv_surf cast_nan cv_image convert cv_project cv_undistort fish_undistort C parse_crs rpc_crs O no_options warp).
Notation scene_camera := (scene_camera cv_project cv_undistort fish_undistort C parse_crs rpc_crs O no_options warp).
Notation scene_update := (scene_update cv_surf cast_nan cv_image convert C O).
Notation sc_int := (sc_int C O).
Notation sc_ext := (sc_ext C O).
Notation sc_kwargs := (sc_kwargs C O).
Notation sc_cache := (sc_cache C O).
Notation sc_heap := (sc_heap C O).
Notation made := (made C O).

(** The parameters that go with a key. *)
Definition key_params (ints : dict (dict mval)) (key : cam_key) (p : dict mval) : Prop :=
  match key with
  | IdText s => if String.eqb s "" then exists id, ints = [(id, p)] else dget s ints = Some p
  | _ => exists id, ints = [(id, p)]
  end.

Lemma key_params_fun : forall ints key p q, key_params ints key p -> key_params ints key q -> p = q.
Proof.
  intros ints key p q H K. unfold key_params in *. destruct key as [|s| |]; [|destruct (String.eqb s ""); [|congruence]|..]; destruct H as [i ->], K as [j K]; congruence.
Qed.

Lemma interior_key : forall (st : scene) id p key, scene_interior C O st id = Ok p -> id_key id = Ok key -> key_params (sc_int st) key p.
Proof.
  intros st id p key H K. unfold scene_interior in H.
  assert (One : truthy id = false -> exists i, sc_int st = [(i, p)]).
  { intros T. rewrite T in H. destruct (sc_int st) as [|[i p'] [|x l]]; try discriminate. injection H as <-. eauto. }
  destruct (truthy id) eqn:T.
  - destruct id as [v| |]; try discriminate. destruct v; try discriminate. injection K as <-. unfold key_params.
    destruct (String.eqb_spec s "") as [->|N]; [discriminate|]. destruct (dget s (sc_int st)); congruence.
  - specialize (One eq_refl). unfold key_params. destruct id as [v| |].
    + destruct v; cbn in K; try discriminate; injection K as <-; try exact One. destruct (String.eqb_spec s "") as [->|N]; [exact One|].
      cbn in T. destruct s; [contradiction|discriminate].
    + injection K as <-. exact One.
    + injection K as <-. exact One.
Qed.

(** A call that is an update of the exterior, or one of those the user made. *)
Definition from_user (l : list act) (k : call) : Prop := (exists xyz opk, k = UpdateC xyz opk) \/ exists j, In (Use j k) l.

(** What an object has become. *)
Definition became (l : list act) (m m' : made) : Prop :=
  match m with
  | MadeFrame c => exists ks, m' = MadeFrame (run_calls c ks) /\ Forall (from_user l) ks
  | MadeRpc _ => m' = m
  end.

Record inv (ints exts : dict (dict mval)) (kwargs : dict mval) (l : list act) (st : scene) : Prop := {
  i_int : sc_int st = ints;
  i_ext : sc_ext st = exts;
  i_kwargs : sc_kwargs st = kwargs;
  i_cached : forall key i, key_get key (sc_cache st) = Some i -> exists p kw m m', key_params ints key p /\ merge_kwargs p kwargs = Ok kw /\
    create_camera kw None None = Ok m /\ nth_error (sc_heap st) i = Some m' /\ became l m m';
  i_apart : forall key key' i, key_get key (sc_cache st) = Some i -> key_get key' (sc_cache st) = Some i -> key = key'
}.

Lemma run_app : forall c ks ks', run_calls c (ks ++ ks') = run_calls (run_calls c ks) ks'.
Proof. intros. unfold run_calls, Cam_Model.run_calls. apply fold_left_app. Qed.

Lemma run_one : forall c k, run_calls c [k] = fst (do_call c k).
Proof. reflexivity. Qed.

Lemma from_more : forall l a k, from_user l k -> from_user (l ++ [a]) k.
Proof. intros l a k [H|[j H]]; [left; exact H|right; exists j; apply in_or_app; auto]. Qed.

Lemma became_more : forall l a m m', became l m m' -> became (l ++ [a]) m m'.
Proof.
  intros l a [c|c] m' H; cbn in *; [|exact H]. destruct H as (ks & -> & F). exists ks. split; [reflexivity|]. eapply Forall_impl; [|exact F]. intros k; apply from_more.
Qed.

Lemma became_call : forall l m c k, became l m (MadeFrame c) -> from_user l k -> became l m (MadeFrame (fst (do_call c k))).
Proof.
  intros l [c0|r] c k H F; cbn in *; [|discriminate]. destruct H as (ks & E & Fk). assert (c = run_calls c0 ks) by congruence. subst c.
  exists (ks ++ [k]). rewrite run_app. split; [reflexivity|]. apply Forall_app. split; [assumption|]. constructor; [assumption|constructor].
Qed.

Lemma inv_more : forall ints exts kwargs l a st, inv ints exts kwargs l st -> inv ints exts kwargs (l ++ [a]) st.
Proof.
  intros ints exts kwargs l a st [A B D E F]. split; try assumption. intros key i H. destruct (E key i H) as (p & kw & m & m' & H1 & H2 & H3 & H4 & H5).
  exists p, kw, m, m'. repeat (split; [assumption|]). apply became_more, H5.
Qed.

(** One object changes by a call. *)
Lemma inv_call : forall ints exts kwargs l st i c k, inv ints exts kwargs l st -> nth_error (sc_heap st) i = Some (MadeFrame c) -> from_user l k ->
  inv ints exts kwargs l (Scene C O (sc_int st) (sc_ext st) (sc_kwargs st) (sc_cache st) (replace i (MadeFrame (fst (do_call c k))) (sc_heap st))).
Proof.
  intros ints exts kwargs l st i c k [A B D E F] Hi Hk. split; cbn; try assumption. intros key j H. destruct (E key j H) as (p & kw & m & m' & H1 & H2 & H3 & H4 & H5).
  rewrite nth_replace. destruct (Nat.eqb_spec i j) as [<-|N].
  - rewrite H4. cbn. exists p, kw, m, (MadeFrame (fst (do_call c k))). repeat (split; [assumption || reflexivity|]). apply became_call; [|assumption]. congruence.
  - exists p, kw, m, m'. auto 10.
Qed.

Lemma camera_inv : forall ints exts kwargs l st key p i st', inv ints exts kwargs l st -> key_params ints key p -> scene_camera st key p = Ok (i, st') ->
  inv ints exts kwargs l st' /\ key_get key (sc_cache st') = Some i /\
  (forall key' j, key_get key' (sc_cache st) = Some j -> key_get key' (sc_cache st') = Some j /\ nth_error (sc_heap st') j = nth_error (sc_heap st) j).
Proof.
  intros ints exts kwargs l st key p i st' I Hp H. unfold Scene_Model.scene_camera in H. destruct (key_get key (sc_cache st)) as [j|] eqn:E.
  - injection H as <- <-. auto.
  - destruct I as [A B D Ec F]. rewrite D in H. destruct (merge_kwargs p kwargs) as [kw|] eqn:Em; [|discriminate]. cbn [bind] in H. destruct (create_camera kw None None) as [m|] eqn:Ek; [|discriminate]. cbn [bind] in H.
    assert (Hi : i = List.length (sc_heap st)) by congruence. assert (Hs : st' = Scene C O (sc_int st) (sc_ext st) kwargs ((key, i) :: sc_cache st) (sc_heap st ++ [m])) by congruence.
    clear H. assert (L : forall key' j, key_get key' (sc_cache st) = Some j -> (j < List.length (sc_heap st))%nat).
    { intros key' j H. destruct (Ec key' j H) as (p' & kw' & m' & m'' & _ & _ & _ & H4 & _). apply nth_error_Some. congruence. }
    rewrite Hs. cbn [Scene_Model.sc_heap Scene_Model.sc_cache]. split; [|split].
    + split; cbn; try assumption; try reflexivity.
      * intros key' j. destruct (key_same key' key) eqn:K.
        -- intros [= <-]. apply key_same_iff in K. subst key'. exists p, kw, m, m. rewrite Hi, nth_error_app2, Nat.sub_diag by lia. repeat (split; [assumption || reflexivity|]).
           destruct m as [c|c]; cbn; [exists []; split; [reflexivity|constructor]|reflexivity].
        -- intros H. destruct (Ec key' j H) as (p' & kw' & m' & m'' & H1 & H2 & H3 & H4 & H5). exists p', kw', m', m''. rewrite nth_error_app1 by (apply (L key'), H). auto 10.
      * intros k1 k2 j. destruct (key_same k1 key) eqn:K1, (key_same k2 key) eqn:K2; try (apply key_same_iff in K1); try (apply key_same_iff in K2); intros H1 H2.
        -- congruence.
        -- apply L in H2. injection H1 as <-. lia.
        -- apply L in H1. injection H2 as <-. lia.
        -- eapply F; eassumption.
    + cbn. rewrite (proj2 (key_same_iff key key) eq_refl). reflexivity.
    + intros key' j H. cbn. split; [|apply nth_error_app1, (L key'), H]. destruct (key_same key' key) eqn:K; [|exact H]. apply key_same_iff in K. congruence.
Qed.

Lemma update_cases : forall (st : scene) i e st' r, scene_update st i e = (st', r) ->
  (st' = st /\ exists x, r = Err x) \/
  exists c xyz opk, nth_error (sc_heap st) i = Some (MadeFrame c) /\ r = Ok i /\
    st' = Scene C O (sc_int st) (sc_ext st) (sc_kwargs st) (sc_cache st) (replace i (MadeFrame (fst (do_call c (UpdateC xyz opk)))) (sc_heap st)).
Proof.
  intros st i e st' r H. unfold Scene_Model.scene_update in H. destruct (nth_error (sc_heap st) i) as [[c|c]|]; try (injection H as <- <-; left; eauto; fail).
  match type of H with match ?b with _ => _ end = _ => destruct b as [[xyz opk]|x] end; [|injection H as <- <-; left; eauto].
  destruct (do_call c (UpdateC xyz opk)) as [c' [v|x]] eqn:E; [|injection H as <- <-; left; eauto].
  right. exists c, xyz, opk. rewrite E. injection H as <- <-. auto.
Qed.

Lemma get_inv : forall ints exts kwargs l st n, inv ints exts kwargs l st -> inv ints exts kwargs l (fst (scene_get n st)).
Proof.
  intros ints exts kwargs l st n I. unfold Scene_Model.scene_get. destruct (get_by_name n (sc_ext st)) as [[|kv e]|]; [exact I| |exact I].
  set (e' := kv :: e). set (id := match dget "camera" e' with Some v => v | None => MV PNone end).
  destruct (scene_interior C O st id) as [p|] eqn:Ep; [|exact I]. cbn [bind]. destruct (id_key id) as [key|] eqn:Ek; [|exact I]. cbn [bind].
  destruct (scene_camera st key p) as [[i st1]|] eqn:Ec; [|exact I].
  pose proof (interior_key _ _ _ _ Ep Ek) as Hp. rewrite (i_int _ _ _ _ _ I) in Hp. destruct (camera_inv _ _ _ _ _ _ _ _ _ I Hp Ec) as (I1 & _ & _).
  destruct (scene_update st1 i e') as [st2 r] eqn:Eu. cbn [fst]. apply update_cases in Eu. destruct Eu as [[-> _]|(c & xyz & opk & Hi & _ & ->)]; [exact I1|].
  apply inv_call; [exact I1|exact Hi|left; eauto].
Qed.

Lemma do_inv : forall ints exts kwargs l st a, inv ints exts kwargs l st -> inv ints exts kwargs (l ++ [a]) (scene_do st a).
Proof.
  intros ints exts kwargs l st a I. apply (inv_more _ _ _ _ a) in I. destruct a as [n|i k]; cbn [Scene_Model.scene_do]; [apply get_inv, I|].
  unfold Scene_Model.scene_use. destruct (nth_error (sc_heap st) i) as [[c|c]|] eqn:E; try exact I.
  assert (U : from_user (l ++ [Use i k]) k) by (right; exists i; apply in_or_app; cbn; auto). pose proof (inv_call _ _ _ _ _ i c k I E U) as J.
  destruct (do_call c k) as [c' r]. exact J.
Qed.

Lemma run_inv : forall ints exts kwargs l, inv ints exts kwargs l (scene_run l (scene_init C O ints exts kwargs)).
Proof.
  intros ints exts kwargs l. induction l as [|a l IH] using rev_ind.
  - split; try reflexivity; cbn; discriminate.
  - unfold Scene_Model.scene_run. rewrite fold_left_app. apply do_inv, IH.
Qed.

(** * Asking for an image *)

Definition key_of (id : option string) : cam_key := match id with Some s => IdText s | None => IdNone end.

(** The object of a key: made from [c0], with the pose [q]. *)
Definition holds (l : list act) (key : cam_key) (c0 : fcam) (p0 q : pose) (i : nat) (st : scene) : Prop :=
  key_get key (sc_cache st) = Some i /\
  exists ks, nth_error (sc_heap st) i = Some (MadeFrame (run_calls c0 ks)) /\ Forall (from_user l) ks /\ pose_after ks p0 = q.

Lemma id_of : forall e id, has_id e id -> id_key (match dget "camera" e with Some v => v | None => MV PNone end) = Ok (key_of id).
Proof. intros e [s|] H; cbn in *; [rewrite H; reflexivity|destruct H as [->| ->]; reflexivity]. Qed.

Lemma key_of_inj : forall a b, key_of a = key_of b -> a = b.
Proof. intros [a|] [b|]; cbn; congruence. Qed.

Lemma interior_of : forall (st : scene) e id p, has_id e id -> Factory_Spec.interior (sc_int st) id p ->
  scene_interior C O st (match dget "camera" e with Some v => v | None => MV PNone end) = Ok p.
Proof.
  intros st e id p H K. destruct K as [s p N E|cam i p Hc E].
  - cbn in H. rewrite H. unfold scene_interior. cbn. destruct s; [contradiction|]. rewrite E. reflexivity.
  - unfold scene_interior. rewrite E. destruct Hc as [-> | ->]; cbn in H; [destruct H as [-> | ->]; reflexivity|rewrite H; reflexivity].
Qed.

Lemma posed_args : forall e t o p k, posed e t o p k ->
  (do xyz <- dreq "xyz" e; do opk <- dreq "opk" e; do xyz <- opt_seq xyz; do opk <- opt_seq opk; Ok (xyz, opk)) = Ok (Some [vx t; vy t; vz t], Some [o; p; k]).
Proof.
  intros e t o p k [(v & E & H) (v' & E' & H')]. unfold dreq. rewrite E, E'. cbn [bind]. rewrite (opt_seq_some _ _ H), (opt_seq_some _ _ H'). reflexivity.
Qed.

Lemma get_holds : forall ints exts kwargs l st n e id p kw c0 p0 t o ph k,
  inv ints exts kwargs l st -> Factory_Spec.found exts n e -> has_id e id -> Factory_Spec.interior ints id p ->
  merge_kwargs p kwargs = Ok kw -> create_camera kw None None = Ok (MadeFrame c0) -> posed e t o ph k ->
  exists i, snd (scene_get n st) = Ok i /\ holds l (key_of id) c0 p0 (Some [vx t; vy t; vz t], Some [o; ph; k]) i (fst (scene_get n st)).
Proof.
  intros ints exts kwargs l st n e id p kw c0 p0 t o ph k I F Hid Hp Em Ec Hq. pose proof (i_int _ _ _ _ _ I) as Ei. pose proof (i_ext _ _ _ _ _ I) as Ee.
  unfold Scene_Model.scene_get. apply Factory_Proof.get_by_name_iff in F. rewrite Ee, F. destruct e as [|kv e]; [destruct Hq as [(v & E & _) _]; discriminate|].
  set (e' := kv :: e) in *. rewrite <- Ei in Hp. rewrite (interior_of st e' id p Hid Hp). cbn [bind]. rewrite (id_of e' id Hid). cbn [bind].
  pose proof (interior_key _ _ _ _ (interior_of st e' id p Hid Hp) (id_of e' id Hid)) as Kp. rewrite Ei in Kp.
  assert (S : exists i st1, scene_camera st (key_of id) p = Ok (i, st1)).
  { unfold Scene_Model.scene_camera. destruct (key_get (key_of id) (sc_cache st)); [eauto|]. rewrite (i_kwargs _ _ _ _ _ I), Em. cbn [bind]. rewrite Ec. cbn [bind]. eauto. }
  destruct S as (i & st1 & S). rewrite S. destruct (camera_inv _ _ _ _ _ _ _ _ _ I Kp S) as (I1 & Ki & _).
  destruct (i_cached _ _ _ _ _ I1 _ _ Ki) as (p' & kw' & m & m' & H1 & H2 & H3 & H4 & H5).
  rewrite (key_params_fun _ _ _ _ H1 Kp), Em in H2. assert (kw' = kw) by congruence. subst kw'. assert (m = MadeFrame c0) by congruence. subst m. destruct H5 as (ks & -> & Fk).
  unfold Scene_Model.scene_update. rewrite H4, (posed_args _ _ _ _ _ Hq). 
  set (u := UpdateC (Some [vx t; vy t; vz t]) (Some [o; ph; k])).
  assert (U : exists v, snd (do_call (run_calls c0 ks) u) = Ok v) by (eexists; reflexivity). destruct U as [v U].
  destruct (do_call (run_calls c0 ks) u) as [c' r] eqn:Eu. cbn [snd] in U. subst r. exists i. split; [reflexivity|]. split; [exact Ki|].
  exists (ks ++ [u]). cbn [fst Scene_Model.sc_heap]. rewrite nth_replace, Nat.eqb_refl, H4. cbn [option_map]. rewrite run_app, run_one, Eu. split; [|split].
  - reflexivity.
  - apply Forall_app. split; [exact Fk|]. constructor; [left; unfold u; eauto|constructor].
  - unfold pose_after. rewrite fold_left_app. reflexivity.
Qed.

Lemma do_holds : forall ints exts kwargs l st a id c0 p0 q i, inv ints exts kwargs l st -> holds l (key_of id) c0 p0 q i st -> left_alone exts id i [a] ->
  holds (l ++ [a]) (key_of id) c0 p0 q i (scene_do st a).
Proof.
  intros ints exts kwargs l st a id c0 p0 q i I (Hk & ks & Hi & Fk & Hp) [L1 L2].
  assert (Fk' : Forall (from_user (l ++ [a])) ks) by (eapply Forall_impl; [|exact Fk]; intros k; apply from_more).
  destruct a as [n|j k]; cbn [Scene_Model.scene_do].
  - unfold Scene_Model.scene_get. assert (Same : holds (l ++ [Get n]) (key_of id) c0 p0 q i st) by (split; [exact Hk|]; exists ks; auto).
    destruct (get_by_name n (sc_ext st)) as [[|kv e]|] eqn:Eg; [exact Same| |exact Same].
    set (e' := kv :: e) in *. set (id' := match dget "camera" e' with Some v => v | None => MV PNone end).
    destruct (scene_interior C O st id') as [p|] eqn:Ep; [|exact Same]. cbn [bind]. destruct (id_key id') as [key|] eqn:Ek; [|exact Same]. cbn [bind].
    destruct (scene_camera st key p) as [[j st1]|] eqn:Ec; [|exact Same].
    pose proof (interior_key _ _ _ _ Ep Ek) as Kp. rewrite (i_int _ _ _ _ _ I) in Kp. destruct (camera_inv _ _ _ _ _ _ _ _ _ I Kp Ec) as (I1 & Kj & Keep).
    destruct (Keep _ _ Hk) as (Hk1 & Hi1).
    assert (N : j <> i).
    { intros ->. pose proof (i_apart _ _ _ _ _ I1 _ _ _ Kj Hk1) as K. rewrite (i_ext _ _ _ _ _ I) in Eg. apply Factory_Proof.get_by_name_iff in Eg.
      apply (L1 n e' id); [left; reflexivity|exact Eg| |reflexivity]. subst key. unfold id' in Ek. clearbody e'. clear - Ek. destruct id as [s|]; cbn in *.
      - destruct (dget "camera" e') as [[v| |]|]; try discriminate. destruct v; cbn in Ek; try discriminate. congruence.
      - destruct (dget "camera" e') as [[v| |]|]; try discriminate; [|auto]. destruct v; cbn in Ek; try discriminate. auto. }
    destruct (scene_update st1 j e') as [st2 r] eqn:Eu. cbn [fst]. apply update_cases in Eu. destruct Eu as [[-> _]|(c & xyz & opk & _ & _ & ->)].
    + split; [exact Hk1|]. exists ks. rewrite Hi1. auto.
    + split; [exact Hk1|]. exists ks. cbn [Scene_Model.sc_heap]. rewrite nth_replace. destruct (Nat.eqb_spec j i); [contradiction|]. rewrite Hi1. auto.
  - unfold Scene_Model.scene_use. destruct (Nat.eq_dec j i) as [->|N].
    + rewrite Hi. destruct (do_call (run_calls c0 ks) k) as [c' r] eqn:Ed. split; [exact Hk|]. exists (ks ++ [k]). cbn [fst Scene_Model.sc_heap].
      rewrite nth_replace, Nat.eqb_refl, Hi. cbn [option_map]. rewrite run_app, run_one, Ed. split; [reflexivity|]. split.
      * apply Forall_app. split; [exact Fk'|]. constructor; [|constructor]. right. exists i. apply in_or_app. cbn. auto.
      * unfold pose_after. rewrite fold_left_app. unfold pose_after in Hp. rewrite Hp. destruct k; try reflexivity. exfalso. apply (L2 xyz opk). left. reflexivity.
    + destruct (nth_error (sc_heap st) j) as [[c|c]|]; try (split; [exact Hk|]; exists ks; auto; fail).
      destruct (do_call c k) as [c' r]. split; [exact Hk|]. exists ks. cbn [fst Scene_Model.sc_heap]. rewrite nth_replace. destruct (Nat.eqb_spec j i); [contradiction|]. auto.
Qed.

Lemma run_holds : forall ints exts kwargs later l st id c0 p0 q i, inv ints exts kwargs l st -> holds l (key_of id) c0 p0 q i st -> left_alone exts id i later ->
  holds (l ++ later) (key_of id) c0 p0 q i (scene_run later st).
Proof.
  intros ints exts kwargs later. induction later as [|a later IH]; intros l st id c0 p0 q i I H L; [rewrite app_nil_r; exact H|].
  destruct L as [L1 L2]. replace (l ++ a :: later) with ((l ++ [a]) ++ later) by (rewrite <- app_assoc; reflexivity).
  apply IH; [apply do_inv, I| |].
  - apply (do_holds _ _ _ _ _ _ _ _ _ _ _ I H). split.
    + intros n e id' [->|[]] F Hi. apply (L1 n e id'); [left; reflexivity|assumption|assumption].
    + intros xyz opk [->|[]]. apply (L2 xyz opk). left. reflexivity.
  - split; [intros n e id' Hin; apply L1; right; exact Hin|intros xyz opk Hin; apply (L2 xyz opk); right; exact Hin].
Qed.

(** The distortion setting of an object that nobody turned off. *)
Lemma distort_kept : forall l ks, keeps_distortion l -> Forall (from_user l) ks -> distort_after ks true = true.
Proof.
  intros l ks K F. unfold distort_after. induction F as [|k ks Hk F IH]; [reflexivity|]. cbn. destruct k; try exact IH.
  destruct b; [exact IH|]. exfalso. destruct Hk as [(xyz & opk & E)|(j & Hj)]; [discriminate|]. apply (K j Hj).
Qed.

Hypothesis cv_projects : forall K d xy b, In (List.length d) [4; 5; 8; 12; 14]%nat -> opencv_distorts (cv_coefs d) xy b -> num2 (cv_project K d xy) = to_pixel K b.
Hypothesis cv_undistorts : forall K d d' p, In (List.length d) [4; 5; 8; 12; 14]%nat -> In (List.length d') [4; 5; 8; 12; 14]%nat ->
  (forall k, cv_coefs d k = cv_coefs d' k) -> cv_undistort K d p = cv_undistort K d' p.

Lemma distort_run : forall ks c, s_distort (fc_st (run_calls c ks)) = distort_after ks (s_distort (fc_st c)).
Proof.
  induction ks as [|k ks IH]; intros c; [reflexivity|].
  change (run_calls c (k :: ks)) with (run_calls (fst (do_call c k)) ks). rewrite IH. unfold distort_after. cbn [fold_left]. f_equal.
  destruct k; cbn [Cam_Model.do_call fst]; try reflexivity.
  - unfold set_alpha. destruct (negb _ && _); reflexivity.
  - match goal with |- context [get_extrinsic ?x ?y] => destruct (get_extrinsic x y) end; reflexivity.
  - unfold read_call. destruct (read_image _ _ _ _) as [a|]; [|reflexivity]. destruct (s_distort (fc_st c)) eqn:E; [exact E|].
    match goal with |- context [match ?x with Some v => Ok v | None => _ end] => destruct (match x with Some v => Ok v | None => lookup (KDtype (nd_dtype a)) nodata_vals end) end; [|exact E]. destruct (validate_image a); [|exact E].
    unfold read. rewrite E. cbn [fst fc_st s_distort]. symmetry. try exact E; reflexivity.
Qed.

Lemma size_run : forall ks c, fc_w (run_calls c ks) = fc_w c /\ fc_h (run_calls c ks) = fc_h c.
Proof.
  induction ks as [|k ks IH]; intros c; [split; reflexivity|].
  change (run_calls c (k :: ks)) with (run_calls (fst (do_call c k)) ks). destruct (IH (fst (do_call c k))) as [-> ->].
  destruct k; cbn [Cam_Model.do_call fst]; try (split; reflexivity).
  - match goal with |- context [get_extrinsic ?x ?y] => destruct (get_extrinsic x y) end; split; reflexivity.
  - unfold read_call. destruct (read_image _ _ _ _) as [a|]; [|split; reflexivity]. destruct (s_distort (fc_st c)); [split; reflexivity|].
    match goal with |- context [match ?x with Some v => Ok v | None => _ end] => destruct (match x with Some v => Ok v | None => lookup (KDtype (nd_dtype a)) nodata_vals end) end; [|split; reflexivity].
    destruct (validate_image a); [|split; reflexivity]. destruct (read _ _ _). split; reflexivity.
Qed.

Theorem scene_images_full : forall ints exts kwargs n e id p kw c p0 a t o ph k before,
  Factory_Spec.found exts n e -> has_id e id -> Factory_Spec.interior ints id p -> posed e t o ph k ->
  merge_kwargs p kwargs = Ok kw -> describes kw c p0 true a -> usable c -> refused p0 = false ->
  exists i, let st := scene_run before (scene_init C O ints exts kwargs) in
  snd (scene_get n st) = Ok i /\
  forall later, left_alone exts id i later -> keeps_distortion (before ++ later) ->
  exists cam, nth_error (sc_heap (scene_run later (fst (scene_get n st)))) i = Some (MadeFrame cam) /\ s_distort (fc_st cam) = true /\ fc_w cam = in_w c /\ fc_h cam = in_h c /\
  let pixel X q := snd (do_call cam (WorldToPixel (one_point (num3 X)))) = Ok (VPixels [q]) in
  (forall X, beside t o ph k X -> pixel X (Nan, Nan)) /\ (forall X q, images c t o ph k X q -> pixel X q).
Proof.
  intros ints exts kwargs n e id p kw c p0 a t o ph k before F Hid Hp Hq Em D U Rp.
  destruct (made_images cv_surf cast_nan cv_image convert cv_project cv_undistort fish_undistort cv_projects cv_undistorts kw c p0 true a D U Rp) as (c0 & E0 & A).
  pose proof (made_distort cv_surf cast_nan cv_image convert cv_project cv_undistort fish_undistort cv_undistorts kw c p0 true a c0 D E0) as (Hd0 & Hw0 & Hh0).
  destruct (d_type _ _ _ _ _ D) as (v & Ev & Hv).
  assert (Ec : create_camera kw None None = Ok (MadeFrame c0)).
  { rewrite (create_frame cv_project cv_undistort fish_undistort C parse_crs rpc_crs O no_options warp kw v (in_type c) Ev Hv (d_frame _ _ _ _ _ D)), E0. reflexivity. }
  pose proof (run_inv ints exts kwargs before) as I. set (st := scene_run before (scene_init C O ints exts kwargs)) in *.
  destruct (get_holds _ _ _ _ st n e id p kw c0 p0 t o ph k I F Hid Hp Em Ec Hq) as (i & Ei & H). exists i. cbv zeta. split; [exact Ei|].
  intros later L K. pose proof (get_inv _ _ _ _ _ n I) as I1.
  destruct (run_holds _ _ _ later before _ id c0 p0 _ i I1 H L) as (_ & ks & Hi & Fk & Hpose).
  destruct (A ks (vx t) (vy t) (vz t) o ph k Hpose) as (B1 & B2 & _). pose proof (distort_kept _ _ K Fk) as Hd.
  exists (run_calls c0 ks). split; [exact Hi|]. split; [rewrite distort_run, Hd0; exact Hd|]. destruct (size_run ks c0) as [Sw Sh]. split; [congruence|]. split; [congruence|].
  replace (V3 (vx t) (vy t) (vz t)) with t in * by (destruct t; reflexivity). split.
  - intros X HX. apply B1, HX.
  - intros X q HX. apply (B2 Hd), HX.
Qed.

Theorem scene_images : forall ints exts kwargs n e id p kw c p0 a t o ph k before,
  Factory_Spec.found exts n e -> has_id e id -> Factory_Spec.interior ints id p -> posed e t o ph k ->
  merge_kwargs p kwargs = Ok kw -> describes kw c p0 true a -> usable c -> refused p0 = false ->
  exists i, let st := scene_run before (scene_init C O ints exts kwargs) in
  snd (scene_get n st) = Ok i /\
  forall later, left_alone exts id i later -> keeps_distortion (before ++ later) ->
  let pixel X q := snd (scene_use i (WorldToPixel (one_point (num3 X))) (scene_run later (fst (scene_get n st)))) = Ok (VPixels [q]) in
  (forall X, beside t o ph k X -> pixel X (Nan, Nan)) /\ (forall X q, images c t o ph k X q -> pixel X q).
Proof.
  intros ints exts kwargs n e id p kw c p0 a t o ph k before F Hid Hp Hq Em D U Rp.
  destruct (scene_images_full ints exts kwargs n e id p kw c p0 a t o ph k before F Hid Hp Hq Em D U Rp) as (i & Ei & H). exists i. cbv zeta in *. split; [exact Ei|].
  intros later L K. destruct (H later L K) as (cam & Hi & _ & _ & _ & A & B).
  assert (G : forall k0 r, snd (do_call cam k0) = r -> snd (scene_use i k0 (scene_run later (fst (scene_get n (scene_run before (scene_init C O ints exts kwargs)))))) = r).
  { intros k0 r Hr. unfold Scene_Model.scene_use. rewrite Hi. destruct (do_call cam k0) as [c' r']. exact Hr. }
  split; intros; apply G; auto.
Qed.
End Scene.
