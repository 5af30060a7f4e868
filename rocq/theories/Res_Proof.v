(** Proofs that calls leave nothing open. *)
From Coq Require Import String List Arith Bool Lia.
From Verif Require Import Py Str Res_Model Res_Spec.
Import ListNotations.
Open Scope string_scope.
Open Scope list_scope.

Definition len (s : st) := List.length (opened s).
Definition isok {A} (r : res A) : bool := match r with Ok _ => true | Err _ => false end.

(** Tasks only use handles that a stack closes after their pool. *)
Definition safe (l : list nat) (tasks : list (nat * list nat)) : Prop :=
  forall p us, In (p, us) tasks -> exists a b, l = a ++ p :: b /\ forall u, In u us -> ~ In u a.

Definition wf (s : st) : Prop := forall p us, In (p, us) (running s) -> p < len s /\ forall u, In u us -> u < len s.

(** What holds of a state [s] with stack [l], reached from [base]; [c]: nothing has leaked. *)
Record inv (c : bool) (base : st) (l : list nat) (s : st) : Prop := Inv {
  i_len : len base <= len s;
  i_old : forall h, h < len base -> nth h (opened s) false = nth h (opened base) false;
  i_wf : wf s;
  i_tasks : exists tasks, running s = tasks ++ running base /\ safe l tasks;
  i_nodup : NoDup l;
  i_new : forall h, In h l -> len base <= h < len s;
  i_clean : c = true -> forall h, len base <= h -> nth h (opened s) false = true -> In h l;
  i_mis : misused s = misused base
}.

Definition ext (s s' : st) : Prop := len s <= len s' /\ exists new, cur s' = new ++ cur s /\ forall h, In h new -> len s <= h.

Lemma ext_refl s : ext s s.
Proof. split; [lia|]. exists []. split; [reflexivity|intros h []]. Qed.
Lemma ext_trans s t u : ext s t -> ext t u -> ext s u.
Proof.
  intros [H1 (n1 & E1 & N1)] [H2 (n2 & E2 & N2)]. split; [lia|]. exists (n2 ++ n1). split; [rewrite E2, E1; apply app_assoc|].
  intros h H. apply in_app_or in H. destruct H as [H|H]; [apply N2 in H; lia|now apply N1].
Qed.
Lemma inv_mono c d base l s : (d = true -> c = true) -> inv c base l s -> inv d base l s.
Proof. intros H []. constructor; try assumption. intros E. apply i_clean0. now apply H. Qed.

Section Triples.
Variable raises : nat -> option exn.
Variable loc : bool.

Definition tr {A} (P : st -> Prop) (m : M A) (Q : A -> st -> Prop) : Prop :=
  forall c base s s' r, inv c base (cur s) s -> P s -> m s = (s', r) ->
  inv (c && (loc || isok r)) base (cur s') s' /\ ext s s' /\ forall a, r = Ok a -> Q a s'.

Definition stable (P : st -> Prop) : Prop := forall s s', P s -> ext s s' -> P s'.
Definition any {A} : A -> st -> Prop := fun _ _ => True.
Definition none : st -> Prop := fun _ => True.

Lemma tr_bind {A B} P (m : M A) Q (k : A -> M B) R :
  stable P -> tr P m Q -> (forall a, tr (fun s => P s /\ Q a s) (k a) R) -> tr P (mbind m k) R.
Proof.
  intros S1 H1 H2 c base s s' r I HP E. unfold mbind in E. destruct (m s) as [s1 [a|e]] eqn:E1.
  - destruct (H1 _ _ _ _ _ I HP E1) as (I1 & X1 & Q1). cbn [isok] in I1. rewrite orb_true_r, andb_true_r in I1.
    destruct (H2 a _ _ _ _ _ I1 (conj (S1 _ _ HP X1) (Q1 a eq_refl)) E) as (I2 & X2 & Q2). split; [exact I2|]. split; [eapply ext_trans; eassumption|exact Q2].
  - injection E as <- <-. destruct (H1 _ _ _ _ _ I HP E1) as (I1 & X1 & _). split; [exact I1|]. split; [exact X1|discriminate].
Qed.

Lemma tr_weaken {A} (P P' : st -> Prop) (m : M A) (Q Q' : A -> st -> Prop) : (forall s, P s -> P' s) -> (forall a s, Q' a s -> Q a s) -> tr P' m Q' -> tr P m Q.
Proof. intros H1 H2 H c base s s' r I HP E. destruct (H c base s s' r I (H1 _ HP) E) as (A1 & A2 & A3). split; [exact A1|]. split; [exact A2|]. intros a Ea. apply H2. now apply A3. Qed.

Lemma tr_ret {A} (P : st -> Prop) (r : res A) (Q : A -> st -> Prop) : (forall a s, r = Ok a -> P s -> Q a s) -> tr P (mret r) Q.
Proof. intros H c base s s' r' I HP E. injection E as <- <-. split; [|split; [apply ext_refl|intros a Ea; now apply H]]. eapply inv_mono; [|exact I]. destruct c; [reflexivity|intros C; destruct loc, r; discriminate C]. Qed.

Lemma tr_step P : tr P (step raises) any.
Proof.
  intros c base s s' r I HP E. injection E as <- <-. split; [|split; [split; [apply le_n|]; exists []; split; [reflexivity|intros h []]|intros; exact Logic.I]].
  apply (inv_mono c); [destruct c; [reflexivity|discriminate]|]. destruct I. constructor; assumption.
Qed.

Definition known (us : list nat) (s : st) : Prop := forall u, In u us -> u < len s.
Definition under (p : nat) (us : list nat) (s : st) : Prop := exists a b, cur s = a ++ p :: b /\ forall u, In u us -> ~ In u a /\ u < len s.

Lemma stable_known us : stable (known us).
Proof. intros s s' H [L _] u Hu. specialize (H u Hu). lia. Qed.
Lemma stable_under p us : stable (under p us).
Proof.
  intros s s' (a & b & E & H) [L (new & E' & N)]. exists (new ++ a), b. split; [rewrite E', E; apply app_assoc|]. intros u Hu. destruct (H u Hu) as [H1 H2]. split; [|lia].
  intros C. apply in_app_or in C. destruct C as [C|C]; [apply N in C; lia|contradiction].
Qed.
Lemma stable_none : stable none. Proof. intros s s' H _. exact H. Qed.
Lemma stable_and P Q : stable P -> stable Q -> stable (fun s => P s /\ Q s).
Proof. intros H1 H2 s s' [A B] E. split; [now apply (H1 s)|now apply (H2 s)]. Qed.

Lemma nth_snoc l h : nth h (l ++ [true]) false = if Nat.eqb h (List.length l) then true else nth h l false.
Proof.
  destruct (Nat.eqb_spec h (List.length l)) as [->|N].
  - rewrite app_nth2 by lia. now rewrite Nat.sub_diag.
  - destruct (lt_dec h (List.length l)) as [L|L]; [now rewrite app_nth1|]. rewrite app_nth2 by lia. rewrite (nth_overflow l) by lia. destruct (h - List.length l) as [|k] eqn:E; [lia|]. now destruct k.
Qed.

(** Creating and pushing. *)


Lemma create_eq s s' r : create raises s = (s', r) ->
  (exists e, r = Err e /\ opened s' = opened s /\ cur s' = cur s /\ running s' = running s /\ misused s' = misused s) \/
  (r = Ok (len s) /\ opened s' = opened s ++ [true] /\ cur s' = cur s /\ running s' = running s /\ misused s' = misused s).
Proof.
  unfold create, mbind, step. destruct (raises (tick s)) as [e|]; intros H; injection H as <- <-; [left; exists e; auto|right; auto].
Qed.

Lemma inv_same c d base s s' : (d = true -> c = true) -> inv c base (cur s) s -> opened s' = opened s -> cur s' = cur s -> running s' = running s -> misused s' = misused s ->
  inv d base (cur s') s' /\ ext s s'.
Proof.
  intros D I E1 E2 E3 E4. split.
  - apply (inv_mono c); [exact D|]. destruct I. unfold wf, len in *. rewrite E2. constructor; unfold wf, len in *; rewrite ?E1, ?E3, ?E4; assumption.
  - split; [unfold len; rewrite E1; lia|]. exists []. split; [exact E2|intros h []].
Qed.

Lemma inv_created c base s l s' : inv c base l s -> opened s' = opened s ++ [true] -> running s' = running s -> misused s' = misused s ->
  inv c base (len s :: l) s'.
Proof.
  intros I E1 E3 E4. destruct I. assert (L : len s' = S (len s)) by (unfold len; rewrite E1, app_length; cbn; lia). constructor.
  - lia.
  - intros h Hh. rewrite E1, nth_snoc. destruct (Nat.eqb_spec h (List.length (opened s))) as [->|]; [unfold len in *; lia|]. now apply i_old0.
  - intros p us H. rewrite E3 in H. destruct (i_wf0 p us H) as [A B]. rewrite L. split; [lia|]. intros u Hu. specialize (B u Hu). lia.
  - destruct i_tasks0 as (tasks & ET & HS). exists tasks. split; [congruence|]. intros p us H. destruct (HS p us H) as (a & b & Ea & Hu). exists (len s :: a), b.
    split; [now rewrite Ea|]. intros u Hu' [C|C]; [|exact (Hu u Hu' C)]. subst u. assert (In (p, us) (running s)) by (rewrite ET; apply in_or_app; now left).
    destruct (i_wf0 _ _ H0) as [_ B]. specialize (B _ Hu'). lia.
  - constructor; [|assumption]. intros C. apply i_new0 in C. lia.
  - intros h [<-|H]; [lia|]. apply i_new0 in H. lia.
  - intros Ec h Hh Ho. rewrite E1, nth_snoc in Ho. fold (len s) in Ho. destruct (Nat.eqb_spec h (len s)) as [->|]; [now left|]. right. now apply i_clean0.
  - congruence.
Qed.

Lemma cb c (b : bool) : c && (loc || b) = true -> c = true.
Proof. destruct c; [reflexivity|discriminate]. Qed.

Lemma tr_enter (P : st -> Prop) us : (forall s, P s -> known us s) -> tr P (enter raises) (fun h s => h < len s /\ under h us s).
Proof.
  intros HK c base s s' r I HP E. unfold enter, mbind in E. destruct (create raises s) as [s1 [h|e]] eqn:E1; apply create_eq in E1.
  - destruct E1 as [(e & C & _)|(C & E2 & E3 & E4 & E5)]; [discriminate C|]. injection C as ->. cbn in E. injection E as <- <-. cbn [cur]. rewrite E3. cbn [isok]. rewrite orb_true_r, andb_true_r.
    set (s1' := St _ _ _ _ _). assert (L : len s1' = S (len s)) by (unfold len, s1'; cbn; rewrite E2, app_length; cbn; lia).
    split; [apply (inv_created c base s (cur s) s1' I); assumption|]. split.
    + split; [lia|]. exists [len s]. split; [reflexivity|]. intros h [<-|[]]. lia.
    + intros a Ea. injection Ea as <-. split; [lia|]. exists [], (cur s). split; [reflexivity|]. intros u Hu. split; [intros []|]. specialize (HK s HP u Hu). lia.
  - injection E as <- <-. destruct E1 as [(e' & C & E2 & E3 & E4 & E5)|(C & _)]; [|discriminate C].
    destruct (inv_same c (c && (loc || @isok nat (Err e))) base s s1 (cb _ _) I E2 E3 E4 E5) as [A B]. split; [exact A|]. split; [exact B|discriminate].
Qed.

(** Rasters. *)
Definition okfile (f : filearg) : Prop := loc = true -> not_remote f.

Lemma open_raster_cases f mode ow s s' r : open_raster raises f mode ow s = (s', r) -> okfile f ->
  (exists e, r = Err e /\ opened s' = opened s /\ cur s' = cur s /\ running s' = running s /\ misused s' = misused s) \/
  (exists h, r = Ok (Ctx h []) /\ is_open s h = true /\ s' = s) \/
  (r = Ok (Ctx (len s) [len s]) /\ opened s' = opened s ++ [true] /\ cur s' = cur s /\ running s' = running s /\ misused s' = misused s) \/
  (loc = false /\ (r = Ok (Ctx (S (len s)) [S (len s); len s]) /\ opened s' = opened s ++ [true] ++ [true] /\ cur s' = cur s /\ running s' = running s /\ misused s' = misused s)) \/
  (loc = false /\ (exists e, r = Err e) /\ opened s' = opened s ++ [true] /\ cur s' = cur s /\ running s' = running s /\ misused s' = misused s).
Proof.
  unfold open_raster. intros H OK.
  assert (OF : forall p there, (p = Local \/ loc = false) ->
    (if negb ow && contains "w" mode && there then mret (Err FileExistsError) else
     match p with
     | Local => let* h <- create raises; mret (Ok (Ctx h [h]))
     | Remote => let* f <- create raises; let* h <- create raises; mret (Ok (Ctx h [h; f]))
     end) s = (s', r) ->
    (exists e, r = Err e /\ opened s' = opened s /\ cur s' = cur s /\ running s' = running s /\ misused s' = misused s) \/
    (r = Ok (Ctx (len s) [len s]) /\ opened s' = opened s ++ [true] /\ cur s' = cur s /\ running s' = running s /\ misused s' = misused s) \/
    (loc = false /\ (r = Ok (Ctx (S (len s)) [S (len s); len s]) /\ opened s' = opened s ++ [true] ++ [true] /\ cur s' = cur s /\ running s' = running s /\ misused s' = misused s)) \/
    (loc = false /\ (exists e, r = Err e) /\ opened s' = opened s ++ [true] /\ cur s' = cur s /\ running s' = running s /\ misused s' = misused s)).
  { intros p there Hp E. destruct (negb ow && contains "w" mode && there); [injection E as <- <-; left; eauto 8|]. destruct p.
    - unfold mbind in E. destruct (create raises s) as [s1 [h|e]] eqn:E1; apply create_eq in E1.
      + destruct E1 as [(e & C & _)|(C & E2)]; [discriminate C|]. injection C as ->. cbn in E. injection E as <- <-. right. left. auto.
      + destruct E1 as [(e' & C & E2)|(C & _)]; [|discriminate C]. injection E as <- <-. left. eauto.
    - destruct Hp as [Hp|Hp]; [discriminate Hp|]. unfold mbind in E. destruct (create raises s) as [s1 [h|e]] eqn:E1; apply create_eq in E1.
      + destruct E1 as [(e & C & _)|(C & E2 & E3 & E4 & E5)]; [discriminate C|]. injection C as ->. destruct (create raises s1) as [s2 [h|e]] eqn:EE; apply create_eq in EE.
        * destruct EE as [(e & C & _)|(C & F2 & F3 & F4 & F5)]; [discriminate C|]. injection C as ->. cbn in E. injection E as <- <-. right. right. left. split; [exact Hp|].
          assert (L : len s1 = S (len s)) by (unfold len; rewrite E2, app_length; cbn; lia). rewrite L. repeat split; [|congruence..]. rewrite F2, E2. now rewrite <- app_assoc.
        * destruct EE as [(e' & C & F2 & F3 & F4 & F5)|(C & _)]; [|discriminate C]. injection E as <- <-. right. right. right. split; [exact Hp|]. split; [eauto|]. repeat split; congruence.
      + destruct E1 as [(e' & C & E2)|(C & _)]; [|discriminate C]. injection E as <- <-. left. eauto. }
  destruct (negb (existsb (String.eqb mode) ["r"; "w"])); [injection H as <- <-; left; eauto 8|]. destruct f as [p there|p there m|h m|].
  - assert (Hp : p = Local \/ loc = false). { destruct p; [now left|]. destruct loc eqn:EL; [|now right]. destruct (OK EL). }
    destruct (OF p there Hp H) as [O|[O|[O|O]]]; tauto.
  - destruct (negb (String.eqb (mode ++ "b") m)); [injection H as <- <-; left; eauto 8|].
    assert (Hp : p = Local \/ loc = false). { destruct p; [now left|]. destruct loc eqn:EL; [|now right]. destruct (OK EL). }
    destruct (OF p there Hp H) as [O|[O|[O|O]]]; tauto.
  - destruct (is_open s h) eqn:EO; cbn [negb] in H; [|injection H as <- <-; left; eauto 8]. destruct (negb _); injection H as <- <-; [left; eauto 8|]. right. left. exists h. auto.
  - injection H as <- <-. left. eauto 8.
Qed.

Lemma is_open_len s h : is_open s h = true -> h < len s.
Proof. unfold is_open, len. intros H. destruct (lt_dec h (List.length (opened s))); [assumption|]. rewrite nth_overflow in H by lia. discriminate H. Qed.

Lemma tr_enter_raster P f mode ow : okfile f -> tr P (enter_raster raises f mode ow) (fun h s => h < len s).
Proof.
  intros OK c base s s' r I HP E. unfold enter_raster, mbind in E. destruct (open_raster raises f mode ow s) as [s1 r1] eqn:E1.
  destruct (open_raster_cases _ _ _ _ _ _ E1 OK) as [(e & -> & E2 & E3 & E4 & E5)|[(h & -> & EO & ->)|[(-> & E2 & E3 & E4 & E5)|[(EL & -> & E2 & E3 & E4 & E5)|(EL & [e ->] & E2 & E3 & E4 & E5)]]]].
  - injection E as <- <-. destruct (inv_same c (c && (loc || @isok nat (Err e))) base s s1 (cb _ _) I E2 E3 E4 E5) as [A B]. split; [exact A|]. split; [exact B|discriminate].
  - unfold enter_ctx in E. cbn [c_main] in E. rewrite EO in E. cbn in E. injection E as <- <-.
    destruct (inv_same c (c && (loc || @isok nat (Ok h))) base s (St (opened s) (cur s) (tick s) (running s) (misused s)) (cb _ _) I eq_refl eq_refl eq_refl eq_refl) as [A B].
    split; [exact A|]. split; [exact B|]. intros a Ea. injection Ea as <-. exact (is_open_len s h EO).
  - assert (L : len s1 = S (len s)) by (unfold len; rewrite E2, app_length; cbn; lia). unfold enter_ctx in E. cbn [c_main] in E.
    assert (EO : is_open s1 (len s) = true). { unfold is_open. rewrite E2, nth_snoc. unfold len. now rewrite Nat.eqb_refl. }
    rewrite EO in E. cbn in E. injection E as <- <-. cbn [cur isok]. rewrite E3, orb_true_r, andb_true_r. split; [apply (inv_created c base s (cur s)); assumption|]. split.
    + split; [unfold len in *; cbn; lia|]. exists [len s]. split; [reflexivity|]. intros h [<-|[]]. lia.
    + intros a Ea. injection Ea as <-. unfold len in *. cbn. lia.
  - assert (L : len s1 = S (S (len s))) by (unfold len; rewrite E2, app_length; cbn; lia). unfold enter_ctx in E. cbn [c_main] in E.
    set (sm := St (opened s ++ [true]) (cur s) (tick s) (running s) (misused s)).
    assert (Lm : len sm = S (len s)) by (unfold len, sm; cbn; rewrite app_length; cbn; lia).
    assert (I1 : inv c base (len s :: cur s) sm) by (apply (inv_created c base s (cur s)); auto).
    rewrite app_assoc in E2. assert (EO : is_open s1 (S (len s)) = true). { unfold is_open. rewrite E2, nth_snoc. rewrite app_length. cbn. replace (List.length (opened s) + 1) with (S (len s)) by (unfold len; lia). now rewrite Nat.eqb_refl. }
    rewrite EO in E. cbn in E. injection E as <- <-. cbn [cur isok]. rewrite E3, orb_true_r, andb_true_r. split.
    + rewrite <- Lm. apply (inv_created c base sm (len s :: cur s)); assumption.
    + split.
      * split; [unfold len in *; cbn; lia|]. exists [S (len s); len s]. split; [reflexivity|]. intros h [<-|[<-|[]]]; lia.
      * intros a Ea. injection Ea as <-. unfold len in *. cbn. lia.
  - injection E as <- <-. rewrite EL. cbn [orb isok]. rewrite andb_false_r. split; [|split; [|discriminate]].
    + rewrite E3. pose proof (inv_created c base s (cur s) s1 I E2 E4 E5) as J. destruct I, J. constructor; try assumption.
      * destruct i_tasks0 as (tasks & ET & HS). exists tasks. split; [congruence|exact HS].
      * intros h Hh. apply i_new1. now right.
      * discriminate.
    + split; [unfold len; rewrite E2, app_length; lia|]. exists []. split; [exact E3|intros h []].
Qed.

Lemma tr_enter_text P f mode ow : tr P (enter_text raises f mode ow) (fun h s => h < len s).
Proof.
  intros c base s s' r I HP E. unfold enter_text, mbind in E. destruct (open_text raises f mode ow s) as [s1 r1] eqn:E1.
  assert (C : (exists e, r1 = Err e /\ opened s1 = opened s /\ cur s1 = cur s /\ running s1 = running s /\ misused s1 = misused s) \/
    (exists h, r1 = Ok (Ctx h []) /\ is_open s h = true /\ s1 = s) \/
    (r1 = Ok (Ctx (len s) [len s]) /\ opened s1 = opened s ++ [true] /\ cur s1 = cur s /\ running s1 = running s /\ misused s1 = misused s)).
  { clear - E1. unfold open_text in E1.
    assert (OF : forall there : bool, (if negb ow && contains "w" mode && there then mret (Err FileExistsError) else let* h <- create raises; mret (Ok (Ctx h [h]))) s = (s1, r1) ->
      (exists e, r1 = Err e /\ opened s1 = opened s /\ cur s1 = cur s /\ running s1 = running s /\ misused s1 = misused s) \/
      (r1 = Ok (Ctx (len s) [len s]) /\ opened s1 = opened s ++ [true] /\ cur s1 = cur s /\ running s1 = running s /\ misused s1 = misused s)).
    { intros there E. destruct (negb ow && contains "w" mode && there); [injection E as <- <-; left; eauto 8|]. unfold mbind in E. destruct (create raises s) as [s2 [h|e]] eqn:E2; apply create_eq in E2.
      - destruct E2 as [(e & C & _)|(C & E3)]; [discriminate C|]. injection C as ->. cbn in E. injection E as <- <-. right. auto.
      - destruct E2 as [(e' & C & E3)|(C & _)]; [|discriminate C]. injection E as <- <-. left. eauto. }
    destruct f as [p there|p there m|h m|].
    - destruct (OF there E1); tauto.
    - destruct (negb (String.eqb mode m)); [injection E1 as <- <-; left; eauto 8|]. destruct (OF there E1); tauto.
    - destruct (is_open s h) eqn:EO; cbn [negb] in E1; [|injection E1 as <- <-; left; eauto 8]. destruct (negb _); injection E1 as <- <-; [left; eauto 8|]. right. left. exists h. auto.
    - injection E1 as <- <-. left. eauto 8. }
  destruct C as [(e & -> & E2 & E3 & E4 & E5)|[(h & -> & EO & ->)|(-> & E2 & E3 & E4 & E5)]].
  - injection E as <- <-. destruct (inv_same c (c && (loc || @isok nat (Err e))) base s s1 (cb _ _) I E2 E3 E4 E5) as [A B]. split; [exact A|]. split; [exact B|discriminate].
  - cbn in E. injection E as <- <-.
    destruct (inv_same c (c && (loc || @isok nat (Ok h))) base s (St (opened s) (cur s) (tick s) (running s) (misused s)) (cb _ _) I eq_refl eq_refl eq_refl eq_refl) as [A B].
    split; [exact A|]. split; [exact B|]. intros a Ea. injection Ea as <-. exact (is_open_len s h EO).
  - cbn in E. injection E as <- <-. cbn [cur isok]. rewrite E3, orb_true_r, andb_true_r. split; [apply (inv_created c base s (cur s)); assumption|]. split.
    + split; [unfold len in *; cbn; rewrite E2, app_length; lia|]. exists [len s]. split; [reflexivity|]. intros h [<-|[]]. lia.
    + intros a Ea. injection Ea as <-. unfold len in *. cbn. rewrite E2, app_length. cbn. lia.
Qed.

Lemma tr_submit (P : st -> Prop) pool uses : (forall s, P s -> under pool uses s) -> (forall s, P s -> pool < len s) -> tr P (submit pool uses) any.
Proof.
  intros HU HL c base s s' r I HP E. injection E as <- <-. cbn [isok cur]. rewrite orb_true_r, andb_true_r. split; [|split; [split; [apply le_n|]; exists []; split; [reflexivity|intros h []]|intros; exact Logic.I]].
  destruct (HU s HP) as (a & b & Ea & Hu). specialize (HL s HP). destruct I. constructor; try assumption.
  - intros p us [H|H]; [injection H as <- <-; split; [exact HL|intros u Hin; now apply Hu]|now apply i_wf0].
  - destruct i_tasks0 as (tasks & ET & HS). exists ((pool, uses) :: tasks). split; [cbn; now rewrite ET|]. intros p us [H|H]; [|now apply HS]. injection H as <- <-. exists a, b. split; [exact Ea|]. intros u Hin. now apply Hu.
Qed.

Lemma tr_repeat P n m : stable P -> tr P m any -> tr P (repeat_m n m) any.
Proof.
  intros S1 H. induction n as [|n IH]; cbn [repeat_m]; [apply tr_ret; intros; exact Logic.I|]. eapply tr_bind; [exact S1|exact H|]. intros a. eapply tr_weaken; [| |exact IH]; [intros s [HP _]; exact HP|auto].
Qed.

Lemma tr_each {A} P (f : A -> M unit) l : stable P -> (forall x, In x l -> tr P (f x) any) -> tr P (each f l) any.
Proof.
  intros S1 H. induction l as [|x l IH]; cbn [each]; [apply tr_ret; intros; exact Logic.I|]. eapply tr_bind; [exact S1|apply H; now left|]. intros a.
  eapply tr_weaken; [| |apply IH; intros y Hy; apply H; now right]; [intros s [HP _]; exact HP|auto].
Qed.

(** * Leaving a stack *)

Lemma nth_set_closed l h k : nth k (set_closed h l) false = if Nat.eqb k h then false else nth k l false.
Proof.
  revert h k. induction l as [|b l IH]; intros h k.
  - destruct h; cbn [set_closed]; destruct k, (Nat.eqb _ _); reflexivity.
  - destruct h as [|h]; cbn [set_closed].
    + destruct k as [|k]; reflexivity.
    + destruct k as [|k]; [reflexivity|]. cbn [nth]. rewrite IH. reflexivity.
Qed.
Lemma len_set_closed l h : List.length (set_closed h l) = List.length l.
Proof. revert h. induction l as [|b l IH]; intros h; [now destruct h|]. destruct h; cbn; [reflexivity|now rewrite IH]. Qed.

Lemma close_inv c base h l s s' r : wf base -> inv c base (h :: l) s -> close_handle raises h s = (s', r) -> inv c base l s' /\ cur s' = cur s /\ len s' = len s.
Proof.
  intros WB I E. unfold close_handle, mbind, step in E. injection E as <- _. destruct I. assert (Hh : len base <= h < len s) by (apply i_new0; now left).
  destruct i_tasks0 as (tasks & ET & HS). inversion i_nodup0 as [|? ? N1 N2]; subst.
  assert (L : List.length (set_closed h (opened s)) = len s) by apply len_set_closed.
  assert (RB : filter (fun t => negb (Nat.eqb (fst t) h)) (running base) = running base).
  { clear - WB Hh. unfold wf in WB. induction (running base) as [|[p us] t IH]; [reflexivity|]. cbn. destruct (Nat.eqb_spec p h) as [->|].
    - destruct (WB h us) as [C _]; [now left|]. lia.
    - cbn. f_equal. apply IH. intros p' us' H. apply WB. now right. }
  split; [|split; [reflexivity|exact L]]. constructor; cbn [opened running misused].
  - unfold len at 2. cbn. lia.
  - intros k Hk. rewrite nth_set_closed. destruct (Nat.eqb_spec k h); [lia|]. now apply i_old0.
  - intros p us H. cbn in H. apply filter_In in H. destruct H as [H _]. unfold len. cbn. rewrite L. now apply i_wf0.
  - exists (filter (fun t => negb (Nat.eqb (fst t) h)) tasks). split; [rewrite ET, filter_app, RB; reflexivity|].
    intros p us H. apply filter_In in H. destruct H as [H Hp]. cbn in Hp. apply negb_true_iff in Hp. apply Nat.eqb_neq in Hp.
    destruct (HS p us H) as (a & b & Ea & Hu). destruct a as [|x a]; [injection Ea as <- _; contradiction|]. injection Ea as <- ->. exists a, b. split; [reflexivity|]. intros u Hin C. apply (Hu u Hin). now right.
  - assumption.
  - intros k Hk. unfold len at 2. cbn. rewrite L. apply i_new0. now right.
  - intros Ec k Hk Ho. rewrite nth_set_closed in Ho. destruct (Nat.eqb_spec k h); [discriminate Ho|]. destruct (i_clean0 Ec k Hk Ho) as [<-|K]; [contradiction|exact K].
  - rewrite i_mis0.
    match goal with |- _ || ?b = _ => assert (EB : b = false) end; [|rewrite EB; apply orb_false_r].
    apply Bool.not_true_is_false. rewrite existsb_exists. intros ([p us] & Hin & HU). apply existsb_exists in HU. destruct HU as (u & Hu & Eu). cbn in Hu. apply Nat.eqb_eq in Eu. subst u.
    rewrite ET, filter_app, RB in Hin. apply in_app_or in Hin. destruct Hin as [Hin|Hin].
    + apply filter_In in Hin. destruct Hin as [Hin Hp]. cbn in Hp. apply negb_true_iff in Hp. apply Nat.eqb_neq in Hp. destruct (HS p us Hin) as (a & b & Ea & Hu').
      destruct a as [|x a]; [injection Ea as <- _; contradiction|]. injection Ea as <- _. apply (Hu' h Hu). now left.
    + destruct (WB p us Hin) as [_ B]. specialize (B h Hu). lia.
Qed.

Lemma unwind_inv {A} c base l (r : res A) s s' r' : wf base -> inv c base l s -> unwind raises l r s = (s', r') ->
  inv c base [] s' /\ cur s' = cur s /\ len s' = len s /\ (isok r' = true -> r' = r).
Proof.
  intros WB. revert r s. induction l as [|h l IH]; intros r s I E; cbn [unwind] in E.
  - injection E as <- <-. auto.
  - destruct (close_handle raises h s) as [s1 c1] eqn:E1. destruct (close_inv _ _ _ _ _ _ _ WB I E1) as (I1 & C1 & L1).
    destruct (IH _ _ I1 E) as (I2 & C2 & L2 & R2). split; [exact I2|]. split; [congruence|]. split; [congruence|]. intros H. specialize (R2 H). destruct c1; [exact R2|]. subst r'. discriminate H.
Qed.

Lemma inv_refl s : wf s -> cur s = [] -> inv true s [] s.
Proof.
  intros W E. constructor; auto; try lia.
  - exists []. split; [reflexivity|]. intros p us [].
  - constructor.
  - intros h [].
  - intros _ h H1 H2. exfalso. unfold len in H1. rewrite nth_overflow in H2 by assumption. discriminate H2.
Qed.

Lemma tr_with {A} (P P' : st -> Prop) (body : M A) Q : (forall s, P s -> P' (St (opened s) [] (tick s) (running s) (misused s))) -> tr P' body Q -> tr P (with_stack raises body) any.
Proof.
  intros HPP H c base s s' r I HP E. unfold with_stack in E. set (b := St (opened s) [] (tick s) (running s) (misused s)) in *.
  destruct (body b) as [s1 r1] eqn:E1. assert (WB : wf b) by (destruct I; exact i_wf0).
  destruct (H true b b s1 r1 (inv_refl b WB eq_refl) (HPP s HP) E1) as (I1 & _ & _). cbn [andb] in I1.
  set (s1' := St (opened s1) (cur s) (tick s1) (running s1) (misused s1)) in *.
  assert (I1' : inv (loc || isok r1) b (cur s1) s1') by (destruct I1; constructor; assumption).
  destruct (unwind_inv _ _ _ _ _ _ _ WB I1' E) as (I2 & C2 & L2 & R2). cbn [cur s1'] in C2. change (len b) with (len s) in *.
  assert (LL : len s <= len s') by (destruct I2; assumption).
  split; [|split; [split; [exact LL|]; exists []; split; [exact C2|intros h []]|intros; exact Logic.I]].
  rewrite C2. apply (inv_mono (c && (loc || isok r1))).
  { intros D. destruct c; [|discriminate D]. cbn [andb] in D |- *. destruct loc; [reflexivity|]. cbn [orb] in D |- *. rewrite <- (R2 D). exact D. }
  destruct I, I2. constructor.
  - change (len b) with (len s) in *. lia.
  - intros h Hh. rewrite i_old1 by (change (len b) with (len s); lia). now apply i_old0.
  - assumption.
  - destruct i_tasks0 as (t0 & ET0 & HS0). destruct i_tasks1 as (t1 & ET1 & HS1). assert (t1 = []). { destruct t1 as [|[p us] t1]; [reflexivity|]. destruct (HS1 p us (or_introl eq_refl)) as (x & y & C & _). destruct x; discriminate C. }
    subst t1. exists t0. split; [|exact HS0]. rewrite ET1. exact ET0.
  - assumption.
  - intros h Hh. apply i_new0 in Hh. lia.
  - intros Ec h Hh Ho. apply andb_prop in Ec. destruct Ec as [Ec1 Ec2]. destruct (lt_dec h (len s)) as [L|L].
    + apply i_clean0; [exact Ec1|exact Hh|]. rewrite <- Ho. symmetry. now apply i_old1.
    + destruct (i_clean1 Ec2 h) as []; [change (len b) with (len s); lia|exact Ho].
  - rewrite i_mis1. exact i_mis0.
Qed.

Lemma tr_with_true {A} P (body : M A) : tr none body any -> tr P (with_stack raises body) any.
Proof. apply tr_with. intros; exact Logic.I. Qed.


(** * The functions *)

Lemma stable_lt h : stable (fun s => h < len s).
Proof. intros s s' H [L _]. lia. Qed.
Lemma stable_any {A} (a : A) : stable (fun s => any a s).
Proof. intros s s' H _. exact H. Qed.

Ltac stab := repeat first [apply stable_and | apply stable_none | apply stable_lt | apply stable_under | apply stable_known | apply stable_any | intros ? ? ? ?; assumption].
Ltac next L := eapply tr_bind; [stab|L|intros].
Ltac st_step := next ltac:(apply tr_step).
Ltac st_enter := next ltac:(apply (tr_enter _ []); intros ? _ ? []).
Ltac conj := let H := fresh in intros ? H; cbv beta in H; repeat match goal with K : _ /\ _ |- _ => destruct K end; repeat split; assumption.

Lemma tr_camera_read P im : okfile im -> tr P (camera_read raises im) any.
Proof. intros H. apply tr_with_true. st_enter. st_enter. next ltac:(apply tr_enter_raster; exact H). apply tr_step. Qed.

Lemma okobj h m : okfile (FObject h m).
Proof. intros _. exact Logic.I. Qed.

Lemma tr_ortho_init P src dem crs : okfile src -> okfile dem -> tr P (ortho_init raises src dem crs) any.
Proof.
  intros H1 H2. unfold ortho_init. apply (tr_weaken P none _ any any); [intros; exact Logic.I|auto|]. eapply tr_bind with (Q := any); [stab| |intros].
  - destruct crs; [apply tr_step|]. apply tr_with_true. st_enter. next ltac:(apply tr_enter_raster; exact H1). apply tr_step.
  - eapply tr_bind with (Q := any); [stab| |intros; apply tr_step]. apply tr_with_true. st_enter. next ltac:(apply tr_enter_raster; exact H2). apply tr_step.
Qed.

Lemma tr_ortho_remap (P : st -> Prop) src out n tiles : (forall s, P s -> out < len s) -> tr P (ortho_remap raises src out n tiles) any.
Proof.
  intros HO. apply (tr_with _ (known [out]) _ any).
  - intros s HP u [<-|[]]. exact (HO s HP).
  - eapply tr_bind; [stab|apply (tr_enter _ [out]); auto|intros pool]. apply tr_repeat; [stab|].
    next ltac:(apply tr_camera_read; apply okobj). eapply tr_bind with (Q := any); [stab| |intros].
    + apply tr_repeat; [stab|]. apply tr_submit; intros s [[_ [L U]] _]; assumption.
    + apply tr_repeat; [stab|]. apply tr_step.
Qed.

Lemma tr_ortho_process P src out ow n tiles : okfile src -> okfile out -> tr P (ortho_process raises src out ow n tiles) any.
Proof.
  intros H1 H2. apply tr_with_true. st_enter. st_enter. st_enter. next ltac:(apply tr_enter_raster; exact H1). st_step.
  next ltac:(apply tr_enter_raster; exact H2). st_step. eapply tr_bind with (Q := any); [stab|apply tr_ortho_remap; conj|intros; apply tr_step].
Qed.

Lemma tr_pan_init P pan ms : okfile pan -> okfile ms -> tr P (pan_init raises pan ms) any.
Proof. intros H1 H2. apply tr_with_true. st_enter. next ltac:(apply tr_enter_raster; exact H1). next ltac:(apply tr_enter_raster; exact H2). apply tr_step. Qed.

Lemma tr_pan_stats (P : st -> Prop) pan ms tiles : (forall s, P s -> pan < len s /\ ms < len s) -> tr P (pan_stats raises pan ms tiles) any.
Proof.
  intros HO. apply (tr_with _ (known [pan; ms]) _ any).
  - intros s HP u [<-|[<-|[]]]; [exact (proj1 (HO s HP))|exact (proj2 (HO s HP))].
  - eapply tr_bind; [stab|apply (tr_enter _ []); intros ? _ ? []|intros p]. eapply tr_bind; [stab|apply (tr_enter _ []); intros ? _ ? []|intros m].
    eapply tr_bind; [stab|apply (tr_enter _ [p; m; pan; ms])|intros pool].
    { intros s [[K [Hp _]] [Hm _]] u [<-|[<-|H]]; auto. }
    eapply tr_bind with (Q := any); [stab| |intros].
    + apply tr_repeat; [stab|]. apply tr_submit; intros s [_ [L U]]; assumption.
    + apply tr_repeat; [stab|]. apply tr_step.
Qed.

Lemma tr_pan_process P pan ms out ow st tiles : okfile pan -> okfile ms -> okfile out -> tr P (pan_process raises pan ms out ow st tiles) any.
Proof.
  intros H1 H2 H3. apply (tr_weaken P none _ any any); [intros; exact Logic.I|auto|]. unfold pan_process. st_step. apply tr_with_true. st_enter. st_enter.
  eapply tr_bind; [stab|apply tr_enter_raster; exact H1|intros pi]. eapply tr_bind; [stab|apply tr_enter_raster; exact H2|intros mi]. st_step.
  eapply tr_bind; [stab|apply tr_enter_raster; exact H3|intros oi]. st_step. eapply tr_bind with (Q := any); [stab|apply tr_pan_stats; conj|intros]. st_step.
  eapply tr_bind; [stab|apply (tr_enter _ []); intros ? _ ? []|intros p]. eapply tr_bind; [stab|apply (tr_enter _ []); intros ? _ ? []|intros m].
  eapply tr_bind; [stab|apply (tr_enter _ [p; m; pi; mi; oi])|intros pool].
  { intros s H u Hu. repeat match goal with H : _ /\ _ |- _ => destruct H end. repeat destruct Hu as [<-|Hu]; try assumption. destruct Hu. }
  eapply tr_bind with (Q := any); [stab| |intros].
  - apply tr_repeat; [stab|]. apply tr_submit; intros s [_ [L U]]; assumption.
  - st_enter. eapply tr_bind with (Q := any); [stab|apply tr_repeat; [stab|apply tr_step]|intros; apply tr_step].
Qed.

Lemma tr_read_file P f : tr P (read_file raises f) any.
Proof.
  apply (tr_weaken P none _ any any); [intros; exact Logic.I|auto|]. eapply tr_bind with (Q := any); [stab| |intros; apply tr_step]. apply tr_with_true. next ltac:(apply tr_enter_text). apply tr_step.
Qed.
Lemma tr_write_file P f ow : tr P (write_file raises f ow) any.
Proof. apply (tr_weaken P none _ any any); [intros; exact Logic.I|auto|]. unfold write_file. st_step. apply tr_with_true. next ltac:(apply tr_enter_text). apply tr_step. Qed.
Lemma tr_read_csv P f prj : tr P (read_csv raises f prj) any.
Proof.
  apply (tr_weaken P none _ any any); [intros; exact Logic.I|auto|]. unfold read_csv. eapply tr_bind with (Q := any); [stab| |intros].
  - apply tr_with_true. next ltac:(apply tr_enter_text). apply tr_step.
  - st_step. eapply tr_bind with (Q := any); [stab| |intros; apply tr_step]. destruct prj; [|apply tr_ret; intros; exact Logic.I]. apply tr_with_true. st_enter. apply tr_step.
Qed.
Lemma tr_read_image P f : okfile f -> tr P (read_image raises f) any.
Proof.
  intros H. apply (tr_weaken P none _ any any); [intros; exact Logic.I|auto|]. unfold read_image. st_step. eapply tr_bind with (Q := any); [stab| |intros; apply tr_step].
  apply tr_with_true. st_enter. st_enter. next ltac:(apply tr_enter_raster; exact H). apply tr_step.
Qed.

Lemma run_tasks_inv l : (forall m, In m l -> tr none m any) -> forall c base s s' r, inv c base (cur s) s -> run_tasks l s = (s', r) ->
  exists rs, r = Ok rs /\ inv (c && (loc || forallb isok rs)) base (cur s') s' /\ ext s s'.
Proof.
  intros H. induction l as [|m l IH]; intros c base s s' r I E; cbn [run_tasks] in E.
  - injection E as <- <-. exists []. split; [reflexivity|]. split; [|apply ext_refl]. apply (inv_mono c); [apply cb|exact I].
  - destruct (m s) as [s1 r1] eqn:E1. destruct (H m (or_introl eq_refl) c base s s1 r1 I Logic.I E1) as (I1 & X1 & _). unfold mbind in E. destruct (run_tasks l s1) as [s2 r2] eqn:E2.
    destruct (IH (fun m' Hm => H m' (or_intror Hm)) _ _ _ _ _ I1 E2) as (rs & -> & I2 & X2). injection E as <- <-. exists (r1 :: rs). split; [reflexivity|]. split; [|eapply ext_trans; eassumption].
    eapply inv_mono; [|exact I2]. cbn [forallb]. destruct c, loc, (isok r1); auto.
Qed.

Lemma each_err (rs : list (Py.res unit)) s s' r : each (fun r => (mret r) ;; step raises) rs s = (s', r) -> isok r = true -> forallb isok rs = true.
Proof.
  revert s. induction rs as [|x rs IH]; intros s E H; [reflexivity|]. cbn [each] in E. unfold mbind at 1 in E. unfold mbind at 1, mret at 1 in E. destruct x as [x|x]; [|injection E as <- <-; discriminate H].
  cbn [forallb isok]. destruct (step raises s) as [s1 [u|e]]; [|injection E as <- <-; discriminate H]. cbn [andb]. exact (IH _ E H).
Qed.

Lemma tr_read_images P l : (forall f, In f l -> okfile f) -> tr P (read_images raises l) any.
Proof.
  intros H. apply (tr_with _ none _ any); [intros; exact Logic.I|]. st_enter. intros c base s s' r I _ E. unfold mbind at 1 in E. destruct (run_tasks (map (read_image raises) l) s) as [s1 r1] eqn:E1.
  destruct (run_tasks_inv (map (read_image raises) l)) with (2 := I) (3 := E1) as (rs & -> & I1 & X1).
  { intros m Hm. apply in_map_iff in Hm. destruct Hm as (f & <- & Hf). apply tr_read_image. now apply H. }
  assert (T : tr none (enter raises ;; each (fun r => (mret r) ;; step raises) rs) any).
  { st_enter. apply tr_each; [stab|]. intros x _. eapply tr_bind with (Q := any); [stab| |intros; apply tr_step]. apply tr_ret. intros; exact Logic.I. }
  destruct (T _ _ _ _ _ I1 Logic.I E) as (I2 & X2 & _). split; [|split; [eapply ext_trans; eassumption|intros; exact Logic.I]]. eapply inv_mono; [|exact I2].
  intros D. destruct c; [|discriminate D]. cbn [andb] in *. destruct loc; [reflexivity|]. cbn [orb] in *. destruct (isok r) eqn:ER; [|discriminate D]. rewrite andb_true_r.
  unfold mbind in E. destruct (enter raises s1) as [s2 [h|e]]; [exact (each_err _ _ _ _ E ER)|injection E as <- <-; discriminate ER].
Qed.

Definition setcur (l : list nat) (s : st) : st := St (opened s) l (tick s) (running s) (misused s).

Lemma open_raster_cur f mode ow l s : open_raster raises f mode ow (setcur l s) = (setcur l (fst (open_raster raises f mode ow s)), snd (open_raster raises f mode ow s)).
Proof.
  unfold open_raster. destruct (negb (existsb _ _)); [reflexivity|].
  assert (OF : forall p (there : bool),
    (if negb ow && contains "w" mode && there then mret (Err FileExistsError) else
     match p with
     | Local => let* h <- create raises; mret (Ok (Ctx h [h]))
     | Remote => let* f <- create raises; let* h <- create raises; mret (Ok (Ctx h [h; f]))
     end) (setcur l s) =
    (setcur l (fst ((if negb ow && contains "w" mode && there then mret (Err FileExistsError) else
     match p with
     | Local => let* h <- create raises; mret (Ok (Ctx h [h]))
     | Remote => let* f <- create raises; let* h <- create raises; mret (Ok (Ctx h [h; f]))
     end) s)),
     snd ((if negb ow && contains "w" mode && there then mret (Err FileExistsError) else
     match p with
     | Local => let* h <- create raises; mret (Ok (Ctx h [h]))
     | Remote => let* f <- create raises; let* h <- create raises; mret (Ok (Ctx h [h; f]))
     end) s))).
  { intros p there. destruct (negb ow && contains "w" mode && there); [reflexivity|]. destruct p; unfold mbind, create, step, mbind, mret; cbn.
    - destruct (raises (tick s)); reflexivity.
    - destruct (raises (tick s)); [reflexivity|]. cbn. destruct (raises (S (tick s))); reflexivity. }
  destruct f as [p there|p there m|h m|].
  - apply OF.
  - destruct (negb (String.eqb _ _)); [reflexivity|apply OF].
  - unfold is_open, setcur. cbn [opened]. destruct (nth h (opened s) false); cbn [negb]; [|reflexivity]. destruct (negb (contains _ _)); reflexivity.
  - reflexivity.
Qed.

Lemma open_raster_keeps f mode ow s : cur (fst (open_raster raises f mode ow s)) = cur s.
Proof.
  assert (E := open_raster_cur f mode ow (cur s) s). assert (ES : setcur (cur s) s = s) by (now destruct s). rewrite ES in E.
  destruct (open_raster raises f mode ow s) as [s1 r]. cbn [fst snd] in *. injection E as E. rewrite E. reflexivity.
Qed.

Lemma setcur_same s l : cur s = l -> setcur l s = s.
Proof. intros <-. now destruct s. Qed.

(** [with] an object that was made just before is the same as making it in the [with]. *)
Lemma with_made f mode ow body s : (let* c <- open_raster raises f mode ow; with_ctx raises c body) s = with_stack raises (let* h <- enter_raster raises f mode ow; body h) s.
Proof.
  unfold with_stack. change (St (opened s) [] (tick s) (running s) (misused s)) with (setcur [] s). unfold enter_raster, mbind. rewrite open_raster_cur. pose proof (open_raster_keeps f mode ow s) as K.
  destruct (open_raster raises f mode ow s) as [s1 [c|e]]; cbn [fst snd] in *.
  - unfold with_ctx, with_stack, mbind. change (St (opened s1) [] (tick s1) (running s1) (misused s1)) with (setcur [] s1). rewrite K. reflexivity.
  - unfold setcur. cbn [unwind cur opened tick running misused]. unfold mret. rewrite <- K. now destruct s1.
Qed.

Lemma tr_with_made P f mode ow body : okfile f -> (forall h, tr (fun s => h < len s) (body h) any) -> tr P (let* c <- open_raster raises f mode ow; with_ctx raises c body) any.
Proof.
  intros H HB c base s s' r I HP E. rewrite with_made in E. revert c base s s' r I HP E. apply tr_with_true. eapply tr_bind; [stab|apply tr_enter_raster; exact H|intros h]. eapply tr_weaken; [| |apply HB]; [intros s [_ K]; exact K|auto].
Qed.

Lemma tr_cli_ortho P dem srcs out ow n tiles : okfile dem -> okfile out -> (forall f, In f srcs -> okfile f) -> tr P (cli_ortho raises dem srcs out ow n tiles) any.
Proof.
  intros H1 H2 H3. apply tr_with_made; [exact H1|]. intros d. st_step. apply tr_each; [stab|]. intros x Hx. st_step. apply tr_with_made; [now apply H3|]. intros h. st_step.
  eapply tr_bind with (Q := any); [stab|apply tr_ortho_init; apply okobj|intros]. apply tr_ortho_process; [apply okobj|exact H2].
Qed.

Lemma tr_cli_odm P dem rec srcs out ow n tiles : okfile dem -> okfile out -> (forall f, In f srcs -> okfile f) -> tr P (cli_odm raises dem rec srcs out ow n tiles) any.
Proof.
  intros H1 H2 H3. apply (tr_weaken P none _ any any); [intros; exact Logic.I|auto|]. unfold cli_odm. st_step.
  intros c base s s' r I HP E.
  assert (T : tr (fun s => none s /\ any a s) ((let* c <- open_raster raises dem "r" false; with_ctx raises c (fun _ => step raises)) ;; read_file raises rec ;; cli_ortho raises dem srcs out ow n tiles) any).
  { eapply tr_bind with (Q := any); [stab|apply tr_with_made; [exact H1|intros; apply tr_step]|intros]. eapply tr_bind with (Q := any); [stab|apply tr_read_file|intros]. now apply tr_cli_ortho. }
  apply (T c base s s' r I HP). rewrite <- E. unfold mbind. destruct (open_raster raises dem "r" false s) as [s1 [x|e]]; reflexivity.
Qed.

Lemma tr_read_crs P f image : okfile f -> tr P (read_crs raises f image) any.
Proof.
  intros H. apply (tr_weaken P none _ any any); [intros; exact Logic.I|auto|]. unfold read_crs. destruct image.
  - eapply tr_bind with (Q := any); [stab| |intros; apply tr_ret; intros; exact Logic.I]. apply (tr_with _ none _ (fun h s => h < len s)); [intros; exact Logic.I|]. st_enter. apply tr_enter_raster. exact H.
  - eapply tr_bind with (Q := any); [stab| |intros; apply tr_step]. apply tr_with_true. next ltac:(apply tr_enter_text). apply tr_step.
Qed.

(** What a raster that was opened is. *)
Lemma open_raster_ok f mode ow s s' c : okfile f -> open_raster raises f mode ow s = (s', Ok c) -> is_open s' (c_main c) = true /\ forall h, is_open s h = true -> is_open s' h = true.
Proof.
  intros OK E. destruct (open_raster_cases _ _ _ _ _ _ E OK) as [(e & C & _)|[(h & C & EO & ->)|[(C & E2 & _)|[(EL & C & E2 & _)|(EL & [e C] & _)]]]]; try discriminate C; injection C as ->; cbn [c_main]; unfold is_open in *.
  - auto.
  - rewrite E2. split; [rewrite nth_snoc; unfold len; now rewrite Nat.eqb_refl|]. intros h H. rewrite nth_snoc. now destruct (Nat.eqb _ _).
  - rewrite E2, app_assoc. split; [rewrite nth_snoc, app_length; unfold len; replace (List.length (opened s) + List.length [true]) with (S (List.length (opened s))) by (cbn; lia); now rewrite Nat.eqb_refl|].
    intros h H. rewrite nth_snoc. destruct (Nat.eqb _ _); [reflexivity|]. rewrite nth_snoc. now destruct (Nat.eqb _ _).
Qed.

(** [oty sharpen]: the second image is opened outside of the first one's [with]. *)
Definition sharpen_body out ow st t pan_im ms_im : M unit :=
  step raises ;; pan_init raises (FObject pan_im (Some "r")) (FObject ms_im (Some "r")) ;; pan_process raises (FObject pan_im (Some "r")) (FObject ms_im (Some "r")) out ow st t.

Lemma with_ctx_eq c body s : is_open s (c_main c) = true ->
  with_ctx raises c body s = let (s', r) := body (c_main c) (setcur (c_stack c) s) in unwind raises (cur s') r (setcur (cur s) s').
Proof.
  intros O. unfold with_ctx, with_stack, mbind, enter_ctx. cbn [opened]. change (is_open (St (opened s) [] (tick s) (running s) (misused s)) (c_main c)) with (is_open s (c_main c)).
  rewrite O. cbn [negb]. unfold push, mret, mbind. cbn [opened cur tick running misused]. rewrite app_nil_r. reflexivity.
Qed.

Lemma inv_leak c base s s' extra : inv c base (cur s) s -> opened s' = opened s ++ extra -> cur s' = cur s -> running s' = running s -> misused s' = misused s ->
  inv false base (cur s') s' /\ ext s s'.
Proof.
  intros I E2 E3 E4 E5. assert (L : len s <= len s') by (unfold len; rewrite E2, app_length; lia). split.
  - destruct I. constructor.
    + lia.
    + intros h Hh. rewrite E2, app_nth1 by (unfold len in *; lia). now apply i_old0.
    + intros p us H. rewrite E4 in H. destruct (i_wf0 p us H) as [A B]. split; [lia|]. intros u Hu. specialize (B u Hu). lia.
    + rewrite E3, E4. exact i_tasks0.
    + now rewrite E3.
    + intros h Hh. rewrite E3 in Hh. apply i_new0 in Hh. lia.
    + discriminate.
    + congruence.
  - split; [exact L|]. exists []. split; [exact E3|intros h []].
Qed.

Lemma open_raster_leak c base f mode ow s s' r : okfile f -> inv c base (cur s) s -> open_raster raises f mode ow s = (s', r) -> inv false base (cur s') s' /\ ext s s'.
Proof.
  intros OK I E. destruct (open_raster_cases _ _ _ _ _ _ E OK) as [(e & C & E2 & E3 & E4 & E5)|[(h & C & EO & ->)|[(C & E2 & E3 & E4 & E5)|[(EL & C & E2 & E3 & E4 & E5)|(EL & C & E2 & E3 & E4 & E5)]]]].
  - apply (inv_leak c base s s' []); auto. now rewrite app_nil_r.
  - apply (inv_leak c base s s []); auto. now rewrite app_nil_r.
  - now apply (inv_leak c base s s' [true]).
  - now apply (inv_leak c base s s' ([true] ++ [true])).
  - now apply (inv_leak c base s s' [true]).
Qed.

Lemma cli_sharpen_eq pan ms out ow st t s s1 s2 c d : okfile pan -> okfile ms ->
  open_raster raises pan "r" false s = (s1, Ok c) -> open_raster raises ms "r" false s1 = (s2, Ok d) ->
  cli_sharpen raises pan ms out ow st t s =
  (let* c <- open_raster raises pan "r" false; with_ctx raises c (fun p => let* d <- open_raster raises ms "r" false; with_ctx raises d (sharpen_body out ow st t p))) s.
Proof.
  intros OK1 OK2 E1 E2. destruct (open_raster_ok _ _ _ _ _ _ OK1 E1) as [O1 _]. destruct (open_raster_ok _ _ _ _ _ _ OK2 E2) as [_ O2]. specialize (O2 _ O1).
  transitivity (with_ctx raises c (fun p => with_ctx raises d (sharpen_body out ow st t p)) s2).
  { unfold cli_sharpen. unfold mbind at 1. rewrite E1. unfold mbind at 1. rewrite E2. reflexivity. }
  transitivity (with_ctx raises c (fun p => let* d <- open_raster raises ms "r" false; with_ctx raises d (sharpen_body out ow st t p)) s1).
  2: { unfold mbind at 2. rewrite E1. reflexivity. }
  rewrite (with_ctx_eq c _ s2 O2), (with_ctx_eq c _ s1 O1). assert (K2 : cur s2 = cur s1) by (pose proof (open_raster_keeps ms "r" false s1) as K; rewrite E2 in K; exact K). rewrite K2.
  unfold mbind at 1. rewrite (open_raster_cur ms "r" false (c_stack c) s1), E2. reflexivity.
Qed.

Lemma tr_sharpen_body P out ow st t p m : okfile out -> tr P (sharpen_body out ow st t p m) any.
Proof.
  intros H. apply (tr_weaken P none _ any any); [intros; exact Logic.I|auto|]. unfold sharpen_body. st_step. eapply tr_bind with (Q := any); [stab|apply tr_pan_init; apply okobj|intros]. apply tr_pan_process; [apply okobj|apply okobj|exact H].
Qed.
End Triples.

Lemma tr_cli_sharpen raises P pan ms out ow st t : tr false P (cli_sharpen raises pan ms out ow st t) any.
Proof.
  intros c base s s' r I HP E. assert (OK : forall f, okfile false f) by (intros f D; discriminate D).
  destruct (open_raster raises pan "r" false s) as [s1 [x|e]] eqn:E1.
  - destruct (open_raster raises ms "r" false s1) as [s2 [y|e]] eqn:E2.
    + rewrite (cli_sharpen_eq raises false _ _ _ _ _ _ _ _ _ _ _ (OK _) (OK _) E1 E2) in E. revert c base s s' r I HP E E1 E2.
      assert (T : tr false P (let* c <- open_raster raises pan "r" false; with_ctx raises c (fun p => let* d <- open_raster raises ms "r" false; with_ctx raises d (sharpen_body raises out ow st t p))) any).
      { apply tr_with_made; [apply OK|]. intros p. apply tr_with_made; [apply OK|]. intros m. apply tr_sharpen_body. apply OK. }
      intros. now apply (T c base s).
    + unfold cli_sharpen in E. unfold mbind at 1 in E. rewrite E1 in E. unfold mbind at 1 in E. rewrite E2 in E. injection E as <- <-. cbn [isok orb]. rewrite andb_false_r.
      destruct (open_raster_leak raises false _ _ _ _ _ _ _ _ (OK _) I E1) as [I1 X1]. destruct (open_raster_leak raises false _ _ _ _ _ _ _ _ (OK _) I1 E2) as [I2 X2].
      split; [exact I2|]. split; [eapply ext_trans; eassumption|discriminate].
  - unfold cli_sharpen in E. unfold mbind at 1 in E. rewrite E1 in E. injection E as <- <-. cbn [isok orb]. rewrite andb_false_r.
    destruct (open_raster_leak raises false _ _ _ _ _ _ _ _ (OK _) I E1) as [I1 X1]. split; [exact I1|]. split; [exact X1|discriminate].
Qed.

(** * Whole calls *)

Lemma tr_request raises loc q : (loc = true -> (forall f, In f (files q) -> not_remote f) /\ ~ is_sharpen_command q) -> tr loc none (run_request raises q) any.
Proof.
  intros H. assert (OK : forall f, In f (files q) -> okfile loc f) by (intros f Hf E; now apply H).
  destruct q; cbn [run_request files] in *.
  - apply tr_camera_read. apply OK. now left.
  - apply tr_ortho_init; apply OK; cbn; auto.
  - apply tr_ortho_process; apply OK; cbn; auto.
  - apply tr_pan_init; apply OK; cbn; auto.
  - apply tr_pan_process; apply OK; cbn; auto.
  - apply tr_read_file.
  - apply tr_write_file.
  - apply tr_read_csv.
  - apply tr_read_images. exact OK.
  - apply tr_read_crs. apply OK. now left.
  - apply tr_cli_ortho; try (apply OK; cbn; auto; fail). intros f Hf. apply OK. cbn. auto.
  - apply tr_cli_odm; try (apply OK; cbn; auto; fail). intros f Hf. apply OK. cbn. auto.
  - destruct loc; [|apply tr_cli_sharpen]. destruct (H eq_refl) as [_ N]. destruct (N Logic.I).
Qed.

(** A whole call leaves no stack. *)
Definition keeps {A} (m : M A) : Prop := forall s, cur (fst (m s)) = cur s.

Lemma keeps_bind {A B} (m : M A) (k : A -> M B) : keeps m -> (forall a, keeps (k a)) -> keeps (mbind m k).
Proof. intros H1 H2 s. unfold mbind. specialize (H1 s). destruct (m s) as [s1 [a|e]]; cbn [fst] in *; [rewrite (H2 a s1); exact H1|exact H1]. Qed.
Lemma keeps_ret {A} (r : Py.res A) : keeps (mret r). Proof. intros s. reflexivity. Qed.
Lemma keeps_step raises : keeps (step raises). Proof. intros s. reflexivity. Qed.
Lemma keeps_unwind {A} raises l (r : Py.res A) : keeps (unwind raises l r).
Proof. revert r. induction l as [|h l IH]; intros r s; cbn [unwind]; [reflexivity|]. destruct (close_handle raises h s) as [s1 c] eqn:E. unfold close_handle, mbind, step in E. injection E as <- _. now rewrite IH. Qed.
Lemma keeps_with {A} raises (m : M A) : keeps (with_stack raises m).
Proof. intros s. unfold with_stack. destruct (m _) as [s1 r]. now rewrite keeps_unwind. Qed.
Lemma keeps_open raises f mode ow : keeps (open_raster raises f mode ow).
Proof. intros s. apply open_raster_keeps. Qed.
Lemma keeps_each {A} (f : A -> M unit) l : (forall x, keeps (f x)) -> keeps (each f l).
Proof. intros H. induction l as [|x l IH]; cbn [each]; [apply keeps_ret|]. apply keeps_bind; [apply H|intros; exact IH]. Qed.

Ltac kp := repeat first [apply keeps_with | apply keeps_step | apply keeps_ret | apply keeps_open | apply keeps_each; intros | apply keeps_bind; [|intros]].

Lemma keeps_request raises q : keeps (run_request raises q).
Proof.
  destruct q; cbn [run_request]; unfold camera_read, ortho_init, ortho_process, pan_init, pan_process, read_file, write_file, read_csv, read_images, read_crs, cli_ortho, cli_odm, cli_sharpen, cli_ortho, with_ctx, read_file.
  all: try (destruct crs); try (destruct prj); try (destruct image); kp.
Qed.

Lemma open_nth s h : open s h <-> nth h (opened s) false = true.
Proof.
  unfold open. split; intros H.
  - now apply nth_error_nth.
  - destruct (lt_dec h (List.length (opened s))) as [L|L]; [|rewrite nth_overflow in H by lia; discriminate H]. rewrite (nth_error_nth' _ false L). now rewrite H.
Qed.

Lemma request_inv raises loc q s s' r : (loc = true -> (forall f, In f (files q) -> not_remote f) /\ ~ is_sharpen_command q) -> idle s -> run_request raises q s = (s', r) ->
  inv (loc || isok r) s [] s' /\ cur s' = [].
Proof.
  intros H [E1 W] E. pose proof (keeps_request raises q s) as K. rewrite E in K. cbn [fst] in K. rewrite E1 in K.
  destruct (tr_request raises loc q H true s s s' r) as (I & _ & _); [rewrite E1; now apply inv_refl|exact Logic.I|exact E|]. rewrite K in I. split; [exact I|exact K].
Qed.

Lemma idle_after raises q s s' r : idle s -> run_request raises q s = (s', r) -> idle s'.
Proof. intros H E. destruct (request_inv raises false q s s' r) as [[] K]; [discriminate|exact H|exact E|]. split; [exact K|exact i_wf0]. Qed.

Lemma tasks_done c s s' : inv c s [] s' -> running s' = running s.
Proof. intros []. destruct i_tasks0 as (t & E & HS). destruct t as [|[p us] t]; [exact E|]. destruct (HS p us (or_introl eq_refl)) as (x & y & C & _). destruct x; discriminate C. Qed.

Lemma nothing s s' : inv true s [] s' -> nothing_left s s'.
Proof.
  intros I. split; [|exact (tasks_done _ _ _ I)]. destruct I. intros h. rewrite !open_nth. destruct (lt_dec h (len s)) as [L|L]; [now rewrite i_old0|].
  split; intros C.
  - destruct (i_clean0 eq_refl h); [lia|exact C].
  - rewrite nth_overflow in C by (unfold len in *; lia). discriminate C.
Qed.

Lemma left_local raises q s s' r : (forall f, In f (files q) -> not_remote f) -> ~ is_sharpen_command q -> idle s -> run_request raises q s = (s', r) -> nothing_left s s' /\ idle s'.
Proof. intros H1 H2 I E. split; [|exact (idle_after _ _ _ _ _ I E)]. destruct (request_inv raises true q s s' r) as [J _]; [auto|exact I|exact E|]. now apply nothing. Qed.

Lemma left_success raises q s s' a : idle s -> run_request raises q s = (s', Ok a) -> nothing_left s s' /\ idle s'.
Proof. intros I E. split; [|exact (idle_after _ _ _ _ _ I E)]. destruct (request_inv raises false q s s' (Ok a)) as [J _]; [discriminate|exact I|exact E|]. now apply nothing. Qed.

Lemma caller_same raises q s s' r : idle s -> run_request raises q s = (s', r) -> caller_unchanged s s' /\ running s' = running s /\ misused s' = misused s.
Proof.
  intros I E. destruct (request_inv raises false q s s' r) as [J _]; [discriminate|exact I|exact E|]. split; [|split; [exact (tasks_done _ _ _ J)|destruct J; assumption]].
  destruct J. intros h Hh. rewrite !open_nth. now rewrite i_old0.
Qed.

Lemma history_left raises l s : (forall q, In q l -> (forall f, In f (files q) -> not_remote f) /\ ~ is_sharpen_command q) -> idle s ->
  nothing_left s (run_requests raises l s) /\ misused (run_requests raises l s) = misused s.
Proof.
  revert s. induction l as [|q l IH]; intros s H I; cbn [run_requests]; [split; [split; [intros; reflexivity|reflexivity]|reflexivity]|].
  destruct (run_request raises q s) as [s1 r] eqn:E. cbn [fst]. destruct (H q (or_introl eq_refl)) as [H1 H2]. destruct (left_local raises q s s1 r H1 H2 I E) as [[A1 A2] A3].
  destruct (caller_same raises q s s1 r I E) as (_ & _ & M1).
  destruct (IH s1 (fun q' Hq => H q' (or_intror Hq)) A3) as [[B1 B2] B3]. split; [|congruence]. split; [|congruence]. intros h. rewrite B1. apply A1.
Qed.

Lemma sharpen_left raises pan ms out ow st t s s' r : (forall f, In f [pan; ms; out] -> not_remote f) -> idle s -> run_request raises (QCliSharpen pan ms out ow st t) s = (s', r) ->
  nothing_left s s' \/ ((exists e, r = Err e) /\ opened s' = opened s ++ [true] /\ running s' = running s).
Proof.
  intros H [EC W] E. cbn [run_request] in E. assert (OK : forall f, In f [pan; ms; out] -> okfile true f) by (intros f Hf _; now apply H).
  assert (O1 : okfile true pan) by (apply OK; cbn; auto). assert (O2 : okfile true ms) by (apply OK; cbn; auto). assert (O3 : okfile true out) by (apply OK; cbn; auto).
  pose proof (keeps_request raises (QCliSharpen pan ms out ow st t) s) as K. cbn [run_request] in K. rewrite E in K. cbn [fst] in K. rewrite EC in K.
  destruct (open_raster raises pan "r" false s) as [s1 [x|e]] eqn:E1.
  - destruct (open_raster raises ms "r" false s1) as [s2 [y|e]] eqn:E2.
    + left. rewrite (cli_sharpen_eq raises true _ _ _ _ _ _ _ _ _ _ _ O1 O2 E1 E2) in E.
      assert (T : tr true none (let* c <- open_raster raises pan "r" false; with_ctx raises c (fun p => let* d <- open_raster raises ms "r" false; with_ctx raises d (sharpen_body raises out ow st t p))) any).
      { apply tr_with_made; [exact O1|]. intros p. apply tr_with_made; [exact O2|]. intros m. apply tr_sharpen_body. exact O3. }
      destruct (T true s s s' r) as (I & _ & _); [rewrite EC; now apply inv_refl|exact Logic.I|exact E|]. rewrite K in I. now apply nothing.
    + unfold cli_sharpen in E. unfold mbind at 1 in E. rewrite E1 in E. unfold mbind at 1 in E. rewrite E2 in E. injection E as <- <-.
      destruct (open_raster_cases _ true _ _ _ _ _ _ E2 O2) as [(e' & C & F2 & F3 & F4 & F5)|[(h & C & _)|[(C & _)|[(C & _)|(C & _)]]]]; try discriminate C.
      destruct (open_raster_cases _ true _ _ _ _ _ _ E1 O1) as [(e'' & C' & _)|[(h & C' & EO & ->)|[(C' & G2 & G3 & G4 & G5)|[(C' & _)|(C' & _)]]]]; try discriminate C'.
      * left. split; [intros h'; unfold open; now rewrite F2|exact F4].
      * right. split; [eauto|]. split; congruence.
  - left. unfold cli_sharpen in E. unfold mbind at 1 in E. rewrite E1 in E. injection E as <- <-.
    destruct (open_raster_cases _ true _ _ _ _ _ _ E1 O1) as [(e'' & C' & G2 & G3 & G4 & G5)|[(h & C' & _)|[(C' & _)|[(C' & _)|(C' & _)]]]]; try discriminate C'.
    split; [intros h'; unfold open; now rewrite G2|exact G4].
Qed.
