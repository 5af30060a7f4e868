(** Proofs about pan-sharpening. *)
From Coq Require Import List Reals ZArith Bool Lra Lia Permutation Sorted FunctionalExtensionality.
From Verif Require Import Py Flt Pan_Model Pan_Spec.
Import ListNotations.
Open Scope R_scope.

(** * Sums *)

Lemma suml_ext {A} (f g : A -> R) l : (forall x, In x l -> f x = g x) -> suml f l = suml g l.
Proof. induction l as [|x l IH]; intros H; [reflexivity|]. cbn. rewrite H by now left. rewrite IH; [reflexivity|]. intros; apply H; now right. Qed.
Lemma suml_plus {A} (f g : A -> R) l : suml (fun x => f x + g x) l = suml f l + suml g l.
Proof. induction l as [|x l IH]; cbn; [ring|]. rewrite IH. ring. Qed.
Lemma suml_minus {A} (f g : A -> R) l : suml (fun x => f x - g x) l = suml f l - suml g l.
Proof. induction l as [|x l IH]; cbn; [ring|]. rewrite IH. ring. Qed.
Lemma suml_scal {A} c (f : A -> R) l : suml (fun x => c * f x) l = c * suml f l.
Proof. induction l as [|x l IH]; cbn; [ring|]. rewrite IH. ring. Qed.
Lemma suml_const {A} c (l : list A) : suml (fun _ => c) l = INR (length l) * c.
Proof. induction l as [|x l IH]; [cbn; ring|]. cbn [suml length]. rewrite IH, S_INR. ring. Qed.
Lemma suml_app {A} (f : A -> R) l1 l2 : suml f (l1 ++ l2) = suml f l1 + suml f l2.
Proof. induction l1 as [|x l IH]; cbn; [ring|]. rewrite IH. ring. Qed.
Lemma suml_map {A B} (g : A -> B) (f : B -> R) l : suml f (map g l) = suml (fun x => f (g x)) l.
Proof. induction l as [|x l IH]; cbn; [reflexivity|]. now rewrite IH. Qed.
Lemma suml_perm {A} (f : A -> R) l1 l2 : Permutation l1 l2 -> suml f l1 = suml f l2.
Proof. induction 1; cbn; lra. Qed.

Lemma sumn_ext n f g : (forall i, (i < n)%nat -> f i = g i) -> sumn n f = sumn n g.
Proof. induction n as [|n IH]; intros H; [reflexivity|]. cbn. rewrite IH by (intros; apply H; lia). rewrite H by lia. reflexivity. Qed.
Lemma sumn_plus n f g : sumn n (fun i => f i + g i) = sumn n f + sumn n g.
Proof. induction n as [|n IH]; cbn; [ring|]. rewrite IH. ring. Qed.
Lemma sumn_minus n f g : sumn n (fun i => f i - g i) = sumn n f - sumn n g.
Proof. induction n as [|n IH]; cbn; [ring|]. rewrite IH. ring. Qed.
Lemma sumn_scal n c f : sumn n (fun i => c * f i) = c * sumn n f.
Proof. induction n as [|n IH]; cbn; [ring|]. rewrite IH. ring. Qed.
Lemma sumn_zero n f : (forall i, (i < n)%nat -> f i = 0) -> sumn n f = 0.
Proof. intros H. rewrite (sumn_ext n f (fun _ => 0 * 0)); [rewrite sumn_scal; ring|]. intros i Hi. rewrite H by assumption. ring. Qed.
Lemma sumn_swap n m f : sumn n (fun i => sumn m (fun j => f i j)) = sumn m (fun j => sumn n (fun i => f i j)).
Proof.
  induction n as [|n IH]; cbn; [symmetry; now apply sumn_zero|]. rewrite IH. now rewrite <- sumn_plus.
Qed.
Lemma sumn_single n k f : (k < n)%nat -> (forall i, (i < n)%nat -> i <> k -> f i = 0) -> sumn n f = f k.
Proof.
  induction n as [|n IH]; intros Hk H; [lia|]. cbn. destruct (Nat.eq_dec k n) as [->|Hne].
  - rewrite sumn_zero; [ring|]. intros i Hi. apply H; lia.
  - rewrite IH by (try lia; intros; apply H; lia). rewrite (H n) by lia. ring.
Qed.
Lemma sumn_suml {A} n (f : nat -> A -> R) l : sumn n (fun i => suml (f i) l) = suml (fun x => sumn n (fun i => f i x)) l.
Proof. induction l as [|x l IH]; cbn; [now apply sumn_zero|]. now rewrite sumn_plus, IH. Qed.
Lemma sumn_shift n f : sumn (S n) f = f 0%nat + sumn n (fun i => f (S i)).
Proof. induction n as [|n IH]; [cbn; ring|]. cbn [sumn] in *. rewrite IH. ring. Qed.
Lemma suml_seq f n : suml f (seq 0 n) = sumn n f.
Proof. induction n as [|n IH]; [reflexivity|]. rewrite seq_S, suml_app, IH. cbn. ring. Qed.

Lemma dotl_sumn xs ys n : length xs = n -> length ys = n -> dotl xs ys = sumn n (fun i => nth i xs 0 * nth i ys 0).
Proof.
  revert ys n. induction xs as [|x xs IH]; intros [|y ys] n H1 H2; cbn in H1, H2; subst n; try discriminate H2; [reflexivity|].
  injection H2 as H2. unfold dotl in *. cbn [combine suml fst snd length]. rewrite sumn_shift. cbn [nth]. rewrite (IH ys (length xs)) by congruence. reflexivity.
Qed.

(** * Moments *)

Lemma centred {A} (f g : A -> R) a b l :
  suml (fun x => (f x - a) * (g x - b)) l = suml (fun x => f x * g x) l - a * suml g l - b * suml f l + INR (length l) * (a * b).
Proof.
  induction l as [|x l IH]; [cbn; ring|]. cbn [suml length]. rewrite IH, S_INR. ring.
Qed.

Definition rep (s : stats) (vs : list (list R)) : Prop :=
  s_n s = length vs /\ (forall k, INR (length vs) * s_mean s k = suml (band k) vs) /\ (vs = [] -> forall k, s_mean s k = 0) /\
  forall k l, s_prod s k l = suml (fun v => band k v * band l v) vs - INR (length vs) * (s_mean s k * s_mean s l).

Lemma tile_rep tile : rep (tile_stats tile) (valid_values tile).
Proof.
  unfold tile_stats. set (vs := valid_values tile). clearbody vs. unfold rep. cbn [s_n s_mean s_prod].
  destruct vs as [|v vs].
  - cbn. repeat split; intros; ring.
  - set (l := v :: vs). assert (N : INR (length l) <> 0) by (apply not_0_INR; discriminate).
    replace (Nat.eqb (length l) 0) with false by reflexivity.
    assert (M : forall k, INR (length l) * (suml (band k) l / INR (length l)) = suml (band k) l) by (intros; field; exact N).
    split; [reflexivity|]. split; [exact M|]. split; [discriminate|]. intros k k'. rewrite centred.
    rewrite <- (M k), <- (M k') at 1. field. exact N.
Qed.

Lemma empty_rep : rep no_stats [].
Proof. unfold rep, no_stats. cbn. repeat split; intros; ring. Qed.

Lemma accumulate_rep s t vs ws : rep s vs -> rep t ws -> rep (accumulate s t) (vs ++ ws).
Proof.
  intros (N1 & M1 & E1 & P1) (N2 & M2 & E2 & P2). unfold accumulate. rewrite N1, N2.
  destruct ws as [|w ws].
  { cbn [length Nat.ltb Nat.leb]. rewrite app_nil_r. repeat split; assumption. }
  set (ws' := w :: ws) in *. replace (Nat.ltb 0 (length ws')) with true by reflexivity.
  assert (Hn : INR (length ws') > 0) by (apply lt_0_INR; cbn; lia). clearbody ws'.
  assert (Hv : 0 <= INR (length vs)) by apply pos_INR.
  assert (HN : INR (length vs) + INR (length ws') <> 0) by lra.
  unfold rep. cbn [s_n s_mean s_prod].
  assert (M : forall k, (INR (length vs) + INR (length ws')) *
      (s_mean s k + (s_mean t k - s_mean s k) * INR (length ws') / (INR (length vs) + INR (length ws'))) = suml (band k) (vs ++ ws')).
  { intros k. rewrite suml_app, <- M1, <- M2. field. exact HN. }
  split; [now rewrite app_length|].
  rewrite app_length, plus_INR.
  split; [exact M|]. split.
  - intros E. apply app_eq_nil in E. destruct E as [_ E]. subst ws'. cbn in Hn. lra.
  - intros k l. rewrite P1, P2, suml_app. field. exact HN.
Qed.

Definition vals_of (tiles : list (list pixel)) : list (list R) := concat (map valid_values tiles).

Lemma gather_rep tiles : forall s vs, rep s vs ->
  exists s', gather (map tile_result (map Ok tiles)) s = Ok s' /\ rep s' (vs ++ vals_of tiles).
Proof.
  induction tiles as [|t tiles IH]; intros s vs H.
  - exists s. split; [reflexivity|]. unfold vals_of. cbn. now rewrite app_nil_r.
  - cbn [map tile_result rmap gather]. destruct (IH _ _ (accumulate_rep _ _ _ _ H (tile_rep t))) as (s' & E & R').
    exists s'. split; [exact E|]. unfold vals_of in *. cbn [map concat]. now rewrite app_assoc.
Qed.

Lemma valid_values_app l1 l2 : valid_values (l1 ++ l2) = valid_values l1 ++ valid_values l2.
Proof. induction l1 as [|p l IH]; [reflexivity|]. cbn [app valid_values]. destruct (pixel_values p); cbn [app]; now rewrite IH. Qed.
Lemma vals_of_concat tiles : vals_of tiles = valid_values (concat tiles).
Proof. unfold vals_of. induction tiles as [|t tiles IH]; [reflexivity|]. cbn. now rewrite valid_values_app, IH. Qed.

Lemma valid_perm l1 l2 : Permutation l1 l2 -> Permutation (valid_values l1) (valid_values l2).
Proof.
  induction 1; cbn [valid_values].
  - apply perm_nil.
  - destruct (pixel_values x); [now apply perm_skip|assumption].
  - destruct (pixel_values x), (pixel_values y); try apply Permutation_refl. apply perm_swap.
  - eapply perm_trans; eassumption.
Qed.

Lemma concat_perm {A} (l1 l2 : list (list A)) : Permutation l1 l2 -> Permutation (concat l1) (concat l2).
Proof.
  induction 1; cbn [concat].
  - apply perm_nil.
  - now apply Permutation_app_head.
  - rewrite !app_assoc. apply Permutation_app_tail. apply Permutation_app_comm.
  - eapply perm_trans; eassumption.
Qed.

Lemma nums_map xs : nums (map Num xs) = Some xs.
Proof. induction xs as [|x xs IH]; [reflexivity|]. cbn. now rewrite IH. Qed.
Lemma nums_nan l : In Nan l -> nums l = None.
Proof. induction l as [|x l IH]; [intros []|]. intros [->|H]; [reflexivity|]. cbn. rewrite IH by assumption. now destruct x. Qed.
Lemma nums_some l xs : nums l = Some xs -> l = map Num xs.
Proof.
  revert xs. induction l as [|x l IH]; intros xs H; cbn in H; [now injection H as <-|].
  destruct x; [discriminate H|]. destruct (nums l) as [ys|]; [|discriminate H]. injection H as <-. cbn. f_equal. now apply IH.
Qed.
Lemma nums_none l : nums l = None -> In Nan l.
Proof.
  induction l as [|x l IH]; intros H; cbn in H; [discriminate H|]. destruct x; [now left|]. right. apply IH. now destruct (nums l).
Qed.

Lemma selects_iff l vs : selects l vs <-> valid_values l = vs.
Proof.
  split.
  - induction 1 as [|x xs l vs _ IH|p l vs H _ IH]; [reflexivity| |].
    + cbn [valid_values]. unfold pixel_values. cbn [fst snd nums]. rewrite nums_map. cbn. now rewrite IH.
    + cbn [valid_values]. unfold pixel_values. rewrite nums_nan; [assumption|]. destruct H as [->|H]; [now left|now right].
  - intros <-. induction l as [|p l IH]; [constructor|]. cbn [valid_values].
    destruct (pixel_values p) as [v|] eqn:E.
    + unfold pixel_values in E. apply nums_some in E. destruct p as [x xs]. cbn [fst snd] in E. destruct v as [|a v]; [discriminate E|].
      injection E as -> ->. now constructor.
    + unfold pixel_values in E. apply nums_none in E. constructor; [|assumption]. destruct p as [x xs]. cbn [fst snd] in *. destruct E as [->|E]; auto.
Qed.

Lemma rep_avg s vs k : vs <> [] -> rep s vs -> s_mean s k = avg (band k) vs.
Proof.
  intros Hne (_ & M & _ & _). unfold avg. rewrite <- M. field. destruct vs; [contradiction|]. apply not_0_INR. discriminate.
Qed.

Lemma rep_prod s vs k l : vs <> [] -> rep s vs ->
  s_prod s k l = suml (fun v => (band k v - avg (band k) vs) * (band l v - avg (band l) vs)) vs.
Proof.
  intros Hne H. rewrite <- (rep_avg s vs k Hne H), <- (rep_avg s vs l Hne H). destruct H as (_ & M & _ & P).
  rewrite P, centred, <- (M k), <- (M l). ring.
Qed.

Lemma avg_perm {A} (f : A -> R) l1 l2 : Permutation l1 l2 -> avg f l1 = avg f l2.
Proof. intros H. unfold avg. rewrite (suml_perm _ _ _ H), (Permutation_length H). reflexivity. Qed.
Lemma covar_perm {A} (f g : A -> R) l1 l2 : Permutation l1 l2 -> covar f g l1 = covar f g l2.
Proof.
  intros H. unfold covar. rewrite (avg_perm f _ _ H), (avg_perm g _ _ H), (suml_perm _ _ _ H), (Permutation_length H). reflexivity.
Qed.

Lemma stats_ok tiles order vs : Permutation order tiles -> selects (concat tiles) vs -> (2 <= length vs)%nat ->
  exists means cov, get_stats (map Ok order) = Ok (means, cov) /\
  (forall k, means k = avg (band k) vs) /\ (forall k l, cov k l = Num (covar (band k) (band l) vs)).
Proof.
  intros HP HS HL. apply selects_iff in HS.
  destruct (gather_rep order no_stats [] empty_rep) as (s & E & HR). cbn [app] in HR. rewrite vals_of_concat in HR.
  pose proof (valid_perm _ _ (concat_perm _ _ HP)) as HPv. rewrite HS in HPv.
  set (ws := valid_values (concat order)) in *. clearbody ws.
  assert (Hws : length ws = length vs) by (apply Permutation_length; assumption).
  assert (Hne : ws <> []) by (destruct ws; [cbn in Hws; lia|discriminate]).
  unfold get_stats. rewrite E. cbn [bind]. eexists. eexists. split; [reflexivity|]. split.
  - intros k. rewrite (rep_avg _ _ k Hne HR). now apply avg_perm.
  - intros k l. rewrite (rep_prod _ _ k l Hne HR). destruct HR as (-> & _).
    unfold fdiv. destruct (Req_EM_T (INR (length ws) - 1) 0) as [Z|_].
    + exfalso. rewrite Hws in Z. pose proof (le_INR 2 (length vs) HL) as L. cbn in L. lra.
    + f_equal. exact (covar_perm (band k) (band l) ws vs HPv).
Qed.

Lemma stats_few tiles vs : selects (concat tiles) vs -> (length vs <= 1)%nat ->
  exists means cov, get_stats (map Ok tiles) = Ok (means, cov) /\
  (length vs = 0%nat -> forall k l, means k = 0 /\ cov k l = Num 0) /\ (length vs = 1%nat -> forall k l, cov k l = Nan).
Proof.
  intros HS HL. apply selects_iff in HS.
  destruct (gather_rep tiles no_stats [] empty_rep) as (s & E & HR). cbn [app] in HR. rewrite vals_of_concat, HS in HR.
  unfold get_stats. rewrite E. cbn [bind]. eexists. eexists. split; [reflexivity|].
  destruct HR as (HN & M & Z & P). rewrite HN. split; intros H k.
  - intros l. destruct vs; [|discriminate H]. split; [now apply Z|]. rewrite P, Z by reflexivity. cbn [length INR suml].
    unfold fdiv. destruct (Req_EM_T (0 - 1) 0); [lra|]. f_equal. field.
  - intros l. rewrite H. unfold fdiv. destruct (Req_EM_T (INR 1 - 1) 0) as [|C]; [reflexivity|]. exfalso. apply C. cbn. ring.
Qed.

Lemma gather_fail results s : (exists e, In (Err e) results) -> gather results s = Err RuntimeError.
Proof.
  revert s. induction results as [|[t|e] rest IH]; intros s [e' H]; cbn in *.
  - destruct H.
  - destruct H as [H|H]; [discriminate H|]. apply IH. eauto.
  - reflexivity.
Qed.

Lemma stats_fail tiles : (exists e, In (Err e) tiles) <-> get_stats tiles = Err RuntimeError.
Proof.
  split.
  - intros [e H]. unfold get_stats. rewrite gather_fail; [reflexivity|]. exists e. apply (in_map tile_result) in H. exact H.
  - intros H. unfold get_stats in H. assert (G : forall ts s, (forall e, ~ In (Err e) ts) -> exists s', gather (map tile_result ts) s = Ok s').
    { induction ts as [|[t|e] ts IH]; intros s Hn; cbn; [eauto| |exfalso; apply (Hn e); now left].
      apply IH. intros e He. apply (Hn e). now right. }
    assert (D : (exists e, In (Err e) tiles) \/ forall e, ~ In (Err e) tiles).
    { clear. induction tiles as [|[t|e] ts IH]; [right; intros e []| |left; exists e; now left].
      destruct IH as [[e H]|H]; [left; exists e; now right|]. right. intros e [C|C]; [discriminate C|]. now apply (H e). }
    destruct D as [D|D]; [exact D|]. destruct (G tiles no_stats D) as [s' E]. rewrite E in H. discriminate H.
Qed.

(** * Transforms *)

Lemma gs_fwd_app ms : forall means coeffs gs, exists rest, gs_fwd ms means coeffs gs = gs ++ rest /\
  length rest = Nat.min (length ms) (Nat.min (length means) (length coeffs)).
Proof.
  induction ms as [|m ms IH]; intros means coeffs gs; [exists []; cbn; now rewrite app_nil_r|].
  destruct means as [|mu means]; [exists []; cbn; now rewrite app_nil_r|].
  destruct coeffs as [|phi coeffs]; [exists []; cbn; now rewrite app_nil_r|].
  cbn [gs_fwd]. destruct (IH means coeffs (gs ++ [m - mu - dotl phi gs])) as (rest & E & L).
  exists ((m - mu - dotl phi gs) :: rest). rewrite E, <- app_assoc. cbn. split; [reflexivity|]. now rewrite L.
Qed.

Lemma dotl_head phi g g' tl : dotl phi (g' :: tl) - dotl phi (g :: tl) = nth 0 phi 0 * (g' - g).
Proof. destruct phi as [|c phi]; [unfold dotl; cbn; ring|]. unfold dotl. cbn. ring. Qed.

Lemma round_trip g' : forall ms means coeffs g tl b, length means = length ms -> length coeffs = length ms -> (b < length ms)%nat ->
  exists rest, gs_fwd ms means coeffs (g :: tl) = (g :: tl) ++ rest /\
  length (gs_rev means coeffs (g' :: tl) rest) = length ms /\
  nth b (gs_rev means coeffs (g' :: tl) rest) 0 = nth b ms 0 + nth 0 (nth b coeffs []) 0 * (g' - g).
Proof.
  induction ms as [|m ms IH]; intros means coeffs g tl b H1 H2 Hb; [cbn in Hb; lia|].
  destruct means as [|mu means]; [discriminate H1|]. destruct coeffs as [|phi coeffs]; [discriminate H2|].
  cbn in H1, H2. injection H1 as H1. injection H2 as H2. cbn [gs_fwd].
  set (x := m - mu - dotl phi (g :: tl)).
  assert (HH : nth 0 ((x + mu + dotl phi (g' :: tl)) :: []) 0 = m + nth 0 phi 0 * (g' - g)).
  { cbn [nth]. unfold x. pose proof (dotl_head phi g g' tl). lra. }
  change ((g :: tl) ++ [x]) with (g :: (tl ++ [x])).
  destruct ms as [|m2 ms].
  - exists [x]. cbn [gs_fwd]. split; [reflexivity|]. cbn in Hb. assert (b = 0%nat) by lia. subst b. cbn [gs_rev length nth]. split; [|exact HH].
    destruct means, coeffs; reflexivity.
  - destruct (IH means coeffs g (tl ++ [x]) (pred b) H1 H2 ltac:(cbn in *; lia)) as (rest & E & L & V).
    exists (x :: rest). rewrite E. split; [cbn; f_equal; now rewrite <- app_assoc|]. cbn [gs_rev].
    change ((g' :: tl) ++ [x]) with (g' :: (tl ++ [x])). split; [cbn [length]; rewrite L; reflexivity|].
    destruct b as [|b]; [exact HH|]. cbn [nth pred] in *. exact V.
Qed.

Lemma process_value p pan ms b : length (p_means p) = length ms -> length (p_coeffs p) = length ms -> (b < length ms)%nat ->
  nth b (process_pixel p pan ms) 0 =
  nth b ms 0 + nth 0 (nth b (p_coeffs p) []) 0 * (p_gain p * pan + p_bias p - dotl (p_weights p) ms).
Proof.
  intros H1 H2 Hb. unfold process_pixel.
  destruct (round_trip (p_gain p * pan + p_bias p) ms (p_means p) (p_coeffs p) (dotl (p_weights p) ms) [] b H1 H2 Hb) as (rest & E & _ & V).
  rewrite E. exact V.
Qed.

Lemma process_length p pan ms : length (p_means p) = length ms -> length (p_coeffs p) = length ms -> length (process_pixel p pan ms) = length ms.
Proof.
  intros H1 H2. unfold process_pixel. destruct ms as [|m ms].
  - destruct (gs_fwd_app [] (p_means p) (p_coeffs p) [dotl (p_weights p) []]) as (rest & E & L). rewrite E.
    cbn in L. destruct rest; [|discriminate L]. destruct (p_means p), (p_coeffs p); reflexivity.
  - destruct (round_trip (p_gain p * pan + p_bias p) (m :: ms) (p_means p) (p_coeffs p) (dotl (p_weights p) (m :: ms)) [] 0 H1 H2 ltac:(cbn; lia)) as (rest & E & L & _).
    rewrite E. exact L.
Qed.

Lemma process_identity p pan ms : length (p_means p) = length ms -> length (p_coeffs p) = length ms ->
  p_gain p * pan + p_bias p = dotl (p_weights p) ms -> process_pixel p pan ms = ms.
Proof.
  intros H1 H2 E. apply (nth_ext _ _ 0 0); [now apply process_length|]. intros b Hb. rewrite process_length in Hb by assumption.
  rewrite process_value by assumption. rewrite E. ring.
Qed.

(** * Coefficients *)

Lemma gs_vectors_length n c w k : length (gs_vectors n c w k) = S k.
Proof. induction k as [|k IH]; [reflexivity|]. cbn. rewrite app_length, IH. cbn. lia. Qed.

Lemma gs_vectors_0 n c w k : nth 0 (gs_vectors n c w k) (fun _ => 0) = w.
Proof. induction k as [|k IH]; [reflexivity|]. cbn. rewrite app_nth1; [exact IH|]. rewrite gs_vectors_length. lia. Qed.

Lemma gs_coeffs_length n c w : length (gs_coeffs n c w) = n.
Proof. unfold gs_coeffs. now rewrite map_length, seq_length. Qed.

Lemma gs_coeffs_nth n c w k : (k < n)%nat -> nth k (gs_coeffs n c w) [] = map (gs_coeff n c k) (gs_vectors n c (fun m => nth m w 0) k).
Proof.
  intros H. unfold gs_coeffs. set (f := fun k => map (gs_coeff n c k) (gs_vectors n c (fun m => nth m w 0) k)).
  rewrite (nth_indep _ [] (f 0%nat)) by now rewrite map_length, seq_length.
  rewrite (map_nth f). now rewrite seq_nth.
Qed.

Lemma any_nonzero_true n a : any_nonzero n a = true <-> exists i, (i < n)%nat /\ a i <> 0.
Proof.
  unfold any_nonzero. rewrite existsb_exists. split.
  - intros (i & Hi & H). apply in_seq in Hi. exists i. split; [lia|]. destruct (Req_EM_T (a i) 0); [discriminate H|assumption].
  - intros (i & Hi & H). exists i. split; [apply in_seq; lia|]. destruct (Req_EM_T (a i) 0); [contradiction|reflexivity].
Qed.
Lemma any_nonzero_false n a : any_nonzero n a = false -> forall i, (i < n)%nat -> a i = 0.
Proof.
  intros H i Hi. destruct (Req_EM_T (a i) 0) as [|C]; [assumption|]. exfalso.
  assert (any_nonzero n a = true) by (apply any_nonzero_true; eauto). congruence.
Qed.

Lemma first_coeff n c w b : (b < n)%nat -> (exists i, (i < n)%nat /\ nth i w 0 <> 0) ->
  nth 0 (nth b (gs_coeffs n c w) []) 0 = dotn n (fun m => nth m w 0) (c b) / bil n c (fun m => nth m w 0) (fun m => nth m w 0).
Proof.
  intros Hb Hw. rewrite gs_coeffs_nth by assumption.
  rewrite (nth_indep _ 0 (gs_coeff n c b (fun _ => 0))) by (rewrite map_length, gs_vectors_length; lia).
  rewrite map_nth, gs_vectors_0. unfold gs_coeff. apply any_nonzero_true in Hw. now rewrite Hw.
Qed.

(** The vectors, one by one. *)
Definition A (n : nat) (c : nat -> nat -> R) (w : nat -> R) (l : nat) : nat -> R := nth l (gs_vectors n c w l) (fun _ => 0).

Lemma gs_vectors_A n c w k : gs_vectors n c w k = map (A n c w) (seq 0 (S k)).
Proof.
  induction k as [|k IH]; [reflexivity|].
  rewrite seq_S, map_app, <- IH. cbn [map Nat.add]. unfold A at 1. cbn [gs_vectors].
  f_equal. rewrite app_nth2 by (rewrite gs_vectors_length; lia). rewrite gs_vectors_length, Nat.sub_diag. reflexivity.
Qed.

Lemma A_S n c w k m : A n c w (S k) m = (if Nat.eqb m k then 1 else 0) - sumn (S k) (fun l => gs_coeff n c k (A n c w l) * A n c w l m).
Proof.
  unfold A at 1. cbn [gs_vectors]. rewrite app_nth2 by (rewrite gs_vectors_length; lia). rewrite gs_vectors_length, Nat.sub_diag. cbn [nth].
  rewrite gs_vectors_A, suml_map, suml_seq. reflexivity.
Qed.

Lemma bil_sum_r n c u k (co : nat -> R) (v : nat -> nat -> R) :
  bil n c u (fun m => sumn k (fun l => co l * v l m)) = sumn k (fun l => co l * bil n c u (v l)).
Proof.
  unfold bil. rewrite (sumn_ext n _ (fun i => sumn k (fun l => co l * sumn n (fun j => u i * v l j * c i j)))).
  - rewrite sumn_swap. apply sumn_ext. intros l _. now rewrite sumn_scal.
  - intros i _. rewrite (sumn_ext n _ (fun j => sumn k (fun l => co l * (u i * v l j * c i j)))).
    + rewrite sumn_swap. apply sumn_ext. intros l _. now rewrite sumn_scal.
    + intros j _. rewrite <- (Rmult_comm (c i j)), <- (Rmult_comm (sumn k _)). rewrite <- Rmult_assoc.
      replace (c i j * (sumn k (fun l => co l * v l j) * u i)) with ((c i j * u i) * sumn k (fun l => co l * v l j)) by ring.
      replace (c i j * sumn k (fun l => co l * v l j) * u i) with ((c i j * u i) * sumn k (fun l => co l * v l j)) by ring.
      rewrite <- sumn_scal. apply sumn_ext. intros l _. ring.
Qed.

Lemma bil_minus_r n c u v v' : bil n c u (fun m => v m - v' m) = bil n c u v - bil n c u v'.
Proof.
  unfold bil. rewrite <- sumn_minus. apply sumn_ext. intros i _. rewrite <- sumn_minus. apply sumn_ext. intros j _. ring.
Qed.

Lemma bil_sym n c u v : (forall i j, (i < n)%nat -> (j < n)%nat -> c i j = c j i) -> bil n c u v = bil n c v u.
Proof.
  intros H. unfold bil. rewrite sumn_swap. apply sumn_ext. intros j Hj. apply sumn_ext. intros i Hi. rewrite (H i j) by assumption. ring.
Qed.

Lemma bil_unit n c u k : (k < n)%nat -> bil n c u (fun m => if Nat.eqb m k then 1 else 0) = sumn n (fun i => u i * c i k).
Proof.
  intros Hk. unfold bil. apply sumn_ext. intros i _. rewrite (sumn_single n k); [|assumption|].
  - rewrite Nat.eqb_refl. ring.
  - intros j _ Hj. apply Nat.eqb_neq in Hj. rewrite Hj. ring.
Qed.

Lemma bil_ext n c u u' v v' : (forall i, (i < n)%nat -> u i = u' i) -> (forall i, (i < n)%nat -> v i = v' i) -> bil n c u v = bil n c u' v'.
Proof. intros H1 H2. unfold bil. apply sumn_ext. intros i Hi. apply sumn_ext. intros j Hj. now rewrite H1, H2. Qed.

Lemma vectors_orthogonal n c w : pos_def n c -> forall j i, (j <= n)%nat -> (i < j)%nat -> bil n c (A n c w i) (A n c w j) = 0.
Proof.
  intros [Hs Hp] j. induction j as [j IH] using lt_wf_ind. intros i Hj Hij. destruct j as [|k]; [lia|].
  assert (O : forall a b, (a <= k)%nat -> (b <= k)%nat -> a <> b -> bil n c (A n c w a) (A n c w b) = 0).
  { intros a b Ha Hb Hne. destruct (Nat.lt_ge_cases a b) as [L|L].
    - apply IH; lia.
    - rewrite bil_sym by assumption. apply IH; lia. }
  rewrite (bil_ext n c (A n c w i) (A n c w i) (A n c w (S k))
    (fun m => (if Nat.eqb m k then 1 else 0) - sumn (S k) (fun l => gs_coeff n c k (A n c w l) * A n c w l m)));
    [|reflexivity|intros; apply A_S].
  rewrite bil_minus_r, bil_sum_r, bil_unit by lia.
  rewrite (sumn_single (S k) i); [|lia|].
  2:{ intros l Hl Hne. rewrite (O i l) by lia. ring. }
  unfold gs_coeff. destruct (any_nonzero n (A n c w i)) eqn:E.
  - apply any_nonzero_true in E. assert (P : 0 < bil n c (A n c w i) (A n c w i)) by (apply Hp; exact E).
    assert (D : dotn n (A n c w i) (c k) = sumn n (fun i0 => A n c w i i0 * c i0 k)).
    { unfold dotn. apply sumn_ext. intros m Hm. rewrite (Hs k m) by lia. reflexivity. }
    rewrite D. field. lra.
  - assert (Z := any_nonzero_false _ _ E). rewrite sumn_zero; [ring|]. intros m Hm. rewrite Z by assumption. ring.
Qed.

(** * Components of pixels *)

Lemma gs_fwd_prefix ms means coeffs gs i : (i < length gs)%nat -> nth i (gs_fwd ms means coeffs gs) 0 = nth i gs 0.
Proof. intros H. destruct (gs_fwd_app ms means coeffs gs) as (rest & E & _). rewrite E. now apply app_nth1. Qed.

Lemma gs_fwd_nth : forall ms means coeffs gs b, length means = length ms -> length coeffs = length ms -> (b < length ms)%nat ->
  let out := gs_fwd ms means coeffs gs in
  nth (length gs + b) out 0 = nth b ms 0 - nth b means 0 - dotl (nth b coeffs []) (firstn (length gs + b) out).
Proof.
  induction ms as [|m ms IH]; intros means coeffs gs b H1 H2 Hb; [cbn in Hb; lia|].
  destruct means as [|mu means]; [discriminate H1|]. destruct coeffs as [|phi coeffs]; [discriminate H2|].
  cbn in H1, H2. injection H1 as H1. injection H2 as H2. cbn zeta. cbn [gs_fwd]. set (x := m - mu - dotl phi gs).
  destruct b as [|b].
  - rewrite Nat.add_0_r. cbn [nth]. rewrite gs_fwd_prefix by (rewrite app_length; cbn; lia).
    rewrite app_nth2, Nat.sub_diag by lia. cbn [nth]. unfold x. f_equal.
    destruct (gs_fwd_app ms means coeffs (gs ++ [x])) as (rest & E & _). unfold x in E. rewrite E, <- app_assoc.
    rewrite firstn_app, Nat.sub_diag, firstn_all. cbn [firstn]. now rewrite app_nil_r.
  - cbn in Hb. specialize (IH means coeffs (gs ++ [x]) b H1 H2 ltac:(lia)). cbn zeta in IH.
    rewrite app_length in IH. cbn [length] in IH. replace (length gs + 1 + b)%nat with (length gs + S b)%nat in IH by lia. cbn [nth]. exact IH.
Qed.

Section Components.
Variables (n : nat) (c : nat -> nat -> R) (w : list R) (means : list R).
Hypotheses (Hm : length means = n) (Hw : length w = n).

Let a := A n c (fun m => nth m w 0).

(** Component [l] of a pixel. *)
Definition comp (ms : list R) : list R := gs_fwd ms means (gs_coeffs n c w) [dotl w ms].

Lemma comp_length ms : length ms = n -> length (comp ms) = S n.
Proof.
  intros H. unfold comp. destruct (gs_fwd_app ms means (gs_coeffs n c w) [dotl w ms]) as (rest & E & L). rewrite E, app_length, L, gs_coeffs_length, Hm, H. cbn. lia.
Qed.

Fixpoint consts (k : nat) : list R :=
  match k with
  | O => [0]
  | S k' => consts k' ++ [- nth k' means 0 - sumn (S k') (fun l => gs_coeff n c k' (a l) * nth l (consts k') 0)]
  end.

Lemma consts_length k : length (consts k) = S k.
Proof. induction k as [|k IH]; [reflexivity|]. cbn [consts]. rewrite app_length, IH. cbn. lia. Qed.

Definition kap (l : nat) : R := nth l (consts l) 0.

Lemma consts_nth k l : (l <= k)%nat -> nth l (consts k) 0 = kap l.
Proof.
  induction k as [|k IH]; intros H; [now replace l with 0%nat by lia|].
  destruct (Nat.eq_dec l (S k)) as [->|Hne]; [reflexivity|]. cbn [consts]. rewrite app_nth1 by (rewrite consts_length; lia). apply IH. lia.
Qed.

Lemma kap_S k : kap (S k) = - nth k means 0 - sumn (S k) (fun l => gs_coeff n c k (a l) * kap l).
Proof.
  unfold kap at 1. cbn [consts]. rewrite app_nth2 by (rewrite consts_length; lia). rewrite consts_length, Nat.sub_diag. cbn [nth].
  f_equal. apply sumn_ext. intros l Hl. rewrite consts_nth by lia. reflexivity.
Qed.

Lemma comp_affine ms l : length ms = n -> (l <= n)%nat -> nth l (comp ms) 0 = dotn n (a l) (fun m => nth m ms 0) + kap l.
Proof.
  intros Hms. induction l as [l IH] using lt_wf_ind. intros Hl. destruct l as [|k].
  - unfold comp. rewrite gs_fwd_prefix by (cbn; lia). cbn [nth]. rewrite (dotl_sumn w ms n) by assumption.
    unfold kap, dotn, a, A. cbn. ring.
  - pose proof (gs_fwd_nth ms means (gs_coeffs n c w) [dotl w ms] k ltac:(congruence) ltac:(rewrite gs_coeffs_length; congruence) ltac:(lia)) as H.
    cbn zeta in H. fold (comp ms) in H. cbn [length Nat.add] in H. rewrite H. clear H.
    rewrite gs_coeffs_nth by lia. rewrite gs_vectors_A.
    assert (HL : length (comp ms) = S n) by now apply comp_length.
    rewrite (dotl_sumn _ _ (S k)); [| now rewrite !map_length, seq_length | rewrite firstn_length; lia].
    rewrite kap_S.
    rewrite (sumn_ext (S k) _ (fun l => gs_coeff n c k (a l) * dotn n (a l) (fun m => nth m ms 0) + gs_coeff n c k (a l) * kap l)).
    2:{ intros l Hlt. rewrite map_map. rewrite (nth_indep _ 0 ((fun x => gs_coeff n c k (A n c (fun m => nth m w 0) x)) 0%nat)) by (rewrite map_length, seq_length; lia).
        rewrite (map_nth (fun x => gs_coeff n c k (A n c (fun m => nth m w 0) x))), seq_nth by lia. cbn [Nat.add]. fold a.
        rewrite <- (firstn_skipn (S k) (comp ms)) in IH.
        assert (EN : nth l (firstn (S k) (comp ms)) 0 = nth l (comp ms) 0).
        { rewrite <- (firstn_skipn (S k) (comp ms)) at 2. rewrite app_nth1; [reflexivity|]. rewrite firstn_length. lia. }
        rewrite EN. rewrite firstn_skipn in IH. rewrite IH by lia. ring. }
    rewrite sumn_plus.
    assert (EA : dotn n (a (S k)) (fun m => nth m ms 0) =
                 nth k ms 0 - sumn (S k) (fun l => gs_coeff n c k (a l) * dotn n (a l) (fun m => nth m ms 0))).
    { unfold dotn at 1. rewrite (sumn_ext n _ (fun m => (if Nat.eqb m k then 1 else 0) * nth m ms 0 - sumn (S k) (fun l => gs_coeff n c k (a l) * (a l m * nth m ms 0)))).
      - rewrite sumn_minus. rewrite (sumn_single n k) by (try lia; intros i _ Hi; apply Nat.eqb_neq in Hi; rewrite Hi; ring).
        rewrite Nat.eqb_refl. rewrite sumn_swap. f_equal; [ring|]. apply sumn_ext. intros l _. unfold dotn. now rewrite sumn_scal.
      - intros m _. unfold a. rewrite A_S. rewrite Rmult_minus_distr_r. f_equal. rewrite Rmult_comm, <- sumn_scal. apply sumn_ext. intros; ring. }
    rewrite EA. ring.
Qed.

End Components.

(** Covariance of linear quantities. *)
Lemma avg_affine {A} (f : A -> R) m b l : l <> [] -> avg (fun v => m * f v + b) l = m * avg f l + b.
Proof.
  intros H. unfold avg. rewrite suml_plus, suml_scal, suml_const. field. destruct l; [contradiction|]. apply not_0_INR. discriminate.
Qed.

Lemma avg_ext {A} (f g : A -> R) l : (forall x, In x l -> f x = g x) -> avg f l = avg g l.
Proof. intros H. unfold avg. now rewrite (suml_ext f g l H). Qed.

Lemma covar_ext {A} (f f' g g' : A -> R) l : (forall x, In x l -> f x = f' x) -> (forall x, In x l -> g x = g' x) -> covar f g l = covar f' g' l.
Proof.
  intros H1 H2. unfold covar. f_equal. rewrite (avg_ext f f' l H1), (avg_ext g g' l H2). apply suml_ext. intros x Hx. now rewrite H1, H2.
Qed.

Lemma avg_dot n (u : nat -> R) (f : nat -> list R -> R) b l : l <> [] ->
  avg (fun v => dotn n u (fun m => f m v) + b) l = dotn n u (fun m => avg (f m) l) + b.
Proof.
  intros H. unfold avg, dotn. rewrite suml_plus, suml_const, <- sumn_suml.
  assert (N : INR (length l) <> 0) by (destruct l; [contradiction|]; apply not_0_INR; discriminate).
  rewrite (sumn_ext n (fun i => suml _ l) (fun i => INR (length l) * (u i * (suml (f i) l / INR (length l))))).
  - rewrite sumn_scal. field. exact N.
  - intros i _. rewrite suml_scal. field. exact N.
Qed.

Lemma dotn_sub n u f g : dotn n u f - dotn n u g = dotn n u (fun m => f m - g m).
Proof. unfold dotn. rewrite <- sumn_minus. apply sumn_ext. intros; ring. Qed.

Lemma covar_dot n (u v : nat -> R) (f : nat -> list R -> R) a b l : l <> [] -> INR (length l) - 1 <> 0 ->
  covar (fun p => dotn n u (fun m => f m p) + a) (fun p => dotn n v (fun m => f m p) + b) l =
  bil n (fun i j => covar (f i) (f j) l) u v.
Proof.
  intros H N. unfold covar at 1. rewrite !avg_dot by assumption.
  rewrite (suml_ext _ (fun p => sumn n (fun i => sumn n (fun j => u i * v j * ((f i p - avg (f i) l) * (f j p - avg (f j) l)))))).
  - rewrite <- sumn_suml. unfold bil, covar.
    transitivity (/ (INR (length l) - 1) * sumn n (fun i => suml (fun x => sumn n (fun j => u i * v j * ((f i x - avg (f i) l) * (f j x - avg (f j) l)))) l)).
    { field. exact N. }
    rewrite <- sumn_scal. apply sumn_ext. intros i _. rewrite <- sumn_suml, <- sumn_scal. apply sumn_ext. intros j _.
    rewrite suml_scal. field. exact N.
  - intros p _. replace (dotn n u (fun m => f m p) + a - (dotn n u (fun m => avg (f m) l) + a)) with (dotn n u (fun m => f m p) - dotn n u (fun m => avg (f m) l)) by ring.
    replace (dotn n v (fun m => f m p) + b - (dotn n v (fun m => avg (f m) l) + b)) with (dotn n v (fun m => f m p) - dotn n v (fun m => avg (f m) l)) by ring.
    rewrite !dotn_sub. unfold dotn at 1. rewrite Rmult_comm, <- sumn_scal. apply sumn_ext. intros i _.
    unfold dotn. rewrite Rmult_comm, <- sumn_scal. apply sumn_ext. intros j _. ring.
Qed.

Lemma len2 {A} (l : list A) : (2 <= length l)%nat -> l <> [] /\ INR (length l) - 1 <> 0.
Proof.
  intros H. split; [destruct l; [cbn in H; lia|discriminate]|]. pose proof (le_INR 2 _ H) as L. cbn in L. lra.
Qed.

(** C44: components of the data are uncorrelated. *)
Lemma components_uncorrelated nb w means vs i j :
  length w = nb -> length means = nb -> (forall v, In v vs -> length v = S nb) -> (2 <= length vs)%nat ->
  pos_def nb (fun k l => band_cov vs (S k) (S l)) -> (i <= nb)%nat -> (j <= nb)%nat -> i <> j ->
  covar (fun v => nth i (gs_fwd (tl v) means (gs_coeffs nb (fun k l => band_cov vs (S k) (S l)) w) [dotl w (tl v)]) 0)
        (fun v => nth j (gs_fwd (tl v) means (gs_coeffs nb (fun k l => band_cov vs (S k) (S l)) w) [dotl w (tl v)]) 0) vs = 0.
Proof.
  intros Hw Hm Hv HL Hp Hi Hj Hne. set (c := fun k l => band_cov vs (S k) (S l)) in *.
  destruct (len2 vs HL) as [Hn1 Hn2].
  assert (E : forall l, (l <= nb)%nat -> forall v, In v vs ->
    nth l (gs_fwd (tl v) means (gs_coeffs nb c w) [dotl w (tl v)]) 0 =
    dotn nb (A nb c (fun m => nth m w 0) l) (fun m => band (S m) v) + kap nb c w means l).
  { intros l Hl v Hin. specialize (Hv v Hin). destruct v as [|p ms]; [discriminate Hv|]. cbn in Hv. injection Hv as Hv.
    exact (comp_affine nb c w means Hm Hw ms l Hv Hl). }
  rewrite (covar_ext _ _ _ _ vs (E i Hi) (E j Hj)).
  rewrite (covar_dot nb _ _ (fun m => band (S m)) _ _ vs Hn1 Hn2).
  change (bil nb c (A nb c (fun m => nth m w 0) i) (A nb c (fun m => nth m w 0) j) = 0).
  destruct (Nat.lt_ge_cases i j) as [L|L].
  - now apply vectors_orthogonal.
  - rewrite bil_sym by apply Hp. apply vectors_orthogonal; [assumption|assumption|lia].
Qed.

(** * Normalisation *)

Lemma sim_pan_dot nb w v : length w = nb -> length v = S nb -> sim_pan w v = dotn nb (fun m => nth m w 0) (fun m => band (S m) v) + 0.
Proof.
  intros Hw Hv. destruct v as [|p ms]; [discriminate Hv|]. cbn in Hv. injection Hv as Hv. unfold sim_pan. cbn [tl].
  rewrite (dotl_sumn w ms nb) by assumption. unfold dotn, band. cbn [nth]. ring.
Qed.

Lemma suml_nonneg {A} (f : A -> R) l : (forall x, 0 <= f x) -> 0 <= suml f l.
Proof. intros H. induction l as [|x l IH]; cbn; [lra|]. specialize (H x). lra. Qed.

Lemma covar_nonneg {A} (f : A -> R) l : (2 <= length l)%nat -> 0 <= covar f f l.
Proof.
  intros H. unfold covar. pose proof (le_INR 2 _ H) as L. cbn in L. apply Rmult_le_pos.
  - apply suml_nonneg. intros x. pose proof (Rle_0_sqr (f x - avg f l)). exact H0.
  - left. apply Rinv_0_lt_compat. lra.
Qed.

Lemma covar_affine {A} (f : A -> R) m b l : l <> [] -> INR (length l) - 1 <> 0 ->
  covar (fun v => m * f v + b) (fun v => m * f v + b) l = m * m * covar f f l.
Proof.
  intros H N. unfold covar. rewrite avg_affine by assumption.
  rewrite (suml_ext _ (fun v => (m * m) * ((f v - avg f l) * (f v - avg f l)))) by (intros; ring). rewrite suml_scal. field. exact N.
Qed.

Lemma pan_norm_ok nb w vs gain bias : length w = nb -> (forall v, In v vs -> length v = S nb) -> (2 <= length vs)%nat ->
  covar (band 0) (band 0) vs <> 0 ->
  pan_norm nb (band_mean vs) (band_cov vs) w = (gain, bias) ->
  avg (fun v => gain * band 0 v + bias) vs = avg (sim_pan w) vs /\
  covar (fun v => gain * band 0 v + bias) (fun v => gain * band 0 v + bias) vs = covar (sim_pan w) (sim_pan w) vs /\ 0 <= gain.
Proof.
  intros Hw Hv HL Hc E. destruct (len2 vs HL) as [Hn1 Hn2]. unfold pan_norm in E.
  set (var := covar (band 0) (band 0) vs) in *.
  assert (Hp : 0 < var). { pose proof (covar_nonneg (band 0) vs HL) as P. fold var in P. lra. }
  assert (S1 : avg (sim_pan w) vs = dotn nb (fun m => nth m w 0) (fun m => band_mean vs (S m))).
  { rewrite (avg_ext _ _ vs (fun v Hin => sim_pan_dot nb w v Hw (Hv v Hin))). rewrite (avg_dot nb _ (fun m => band (S m)) 0 vs Hn1). unfold band_mean. ring. }
  assert (S2 : covar (sim_pan w) (sim_pan w) vs = bil nb (fun i j => band_cov vs (S i) (S j)) (fun m => nth m w 0) (fun m => nth m w 0)).
  { rewrite (covar_ext _ _ _ _ vs (fun v Hin => sim_pan_dot nb w v Hw (Hv v Hin)) (fun v Hin => sim_pan_dot nb w v Hw (Hv v Hin))).
    rewrite (covar_dot nb _ _ (fun m => band (S m)) 0 0 vs Hn1 Hn2). reflexivity. }
  rewrite <- S1, <- S2 in E. change (band_cov vs 0%nat 0%nat) with var in E. change (band_mean vs 0%nat) with (avg (band 0) vs) in E.
  set (sv := covar (sim_pan w) (sim_pan w) vs) in *.
  assert (Hsv : 0 <= sv) by (apply covar_nonneg; assumption).
  assert (Hsq : sqrt var <> 0). { apply sqrt_lt_R0 in Hp. lra. }
  injection E as <- <-. split; [|split].
  - rewrite avg_affine by assumption. ring.
  - rewrite covar_affine by assumption. fold var.
    transitivity (sqrt sv * sqrt sv * (var / (sqrt var * sqrt var))); [field; exact Hsq|].
    rewrite !sqrt_sqrt by lra. field. lra.
  - apply Rmult_le_pos; [apply sqrt_pos|]. left. apply Rinv_0_lt_compat. now apply sqrt_lt_R0.
Qed.

Lemma process_mean nb p vs b : length (p_means p) = nb -> length (p_coeffs p) = nb -> length (p_weights p) = nb -> (forall v, In v vs -> length v = S nb) -> vs <> [] -> (b < nb)%nat ->
  avg (fun v => p_gain p * band 0 v + p_bias p) vs = avg (sim_pan (p_weights p)) vs ->
  avg (fun v => nth b (process_pixel p (band 0 v) (tl v)) 0) vs = avg (band (S b)) vs.
Proof.
  intros H1 H2 H3 Hv Hne Hb E.
  rewrite (avg_ext _ (fun v => band (S b) v + nth 0 (nth b (p_coeffs p) []) 0 * ((p_gain p * band 0 v + p_bias p) - sim_pan (p_weights p) v))).
  - unfold avg in *. rewrite suml_plus, suml_scal, suml_minus.
    assert (N : INR (length vs) <> 0) by (destruct vs; [contradiction|]; apply not_0_INR; discriminate).
    assert (E' : suml (fun v => p_gain p * band 0 v + p_bias p) vs = suml (sim_pan (p_weights p)) vs).
    { apply (Rmult_eq_reg_r (/ INR (length vs))); [exact E|]. now apply Rinv_neq_0_compat. }
    rewrite E'. field. exact N.
  - intros v Hin. specialize (Hv v Hin). destruct v as [|x ms]; [discriminate Hv|]. cbn in Hv. injection Hv as Hv. cbn [tl].
    rewrite process_value by congruence. reflexivity.
Qed.

(** * Weights *)

Lemma Rneg_spec x : Rneg x = true <-> x < 0.
Proof. unfold Rneg. destruct (Rlt_dec x 0); split; intros; try assumption; try reflexivity; try discriminate; contradiction. Qed.

Lemma clip0_nonneg x : 0 <= clip0 x.
Proof. unfold clip0. destruct (Rlt_dec x 0); lra. Qed.

Lemma anyb_neg_false l : anyb Rneg l = false <-> Forall (fun x => 0 <= x) l.
Proof.
  unfold anyb. induction l as [|x l IH]; cbn; [split; [constructor|reflexivity]|]. rewrite orb_false_iff, Forall_cons_iff, IH.
  unfold Rneg at 1. destruct (Rlt_dec x 0); split; intros [H1 H2]; split; try assumption; try discriminate; try reflexivity; lra.
Qed.

Lemma raw_nonneg lstsq nb cov ws : Forall (fun x => 0 <= x) (raw_weights lstsq nb cov ws).
Proof.
  unfold raw_weights. match goal with |- Forall _ (if anyb Rneg ?w then _ else _) => generalize w end. intros w.
  destruct (anyb Rneg w) eqn:E; [|now apply anyb_neg_false]. apply Forall_map. apply Forall_forall. intros; apply clip0_nonneg.
Qed.

Lemma set_at_length {X} i (x : X) l : length (set_at i x l) = length l.
Proof. revert i. induction l as [|y l IH]; intros [|i]; cbn; try reflexivity. now rewrite IH. Qed.
Lemma scatter_length idx : forall vals w, length (scatter idx vals w) = length w.
Proof. induction idx as [|i idx IH]; intros [|v vals] w; try reflexivity. cbn. rewrite IH. apply set_at_length. Qed.

Lemma raw_length lstsq nb cov ws : (forall a b, length (lstsq a b) = length b) -> (forall w, ws = Some w -> length w = nb) ->
  length (raw_weights lstsq nb cov ws) = nb.
Proof.
  intros Hl Hw. unfold raw_weights. match goal with |- length (if anyb Rneg ?w then _ else _) = _ => assert (E : length w = nb) end.
  { destruct ws as [w|]; [now apply Hw|].
    assert (L : forall m, length (lstsq m (map (fun i => cov 0%nat (S i)) (seq 0 nb))) = nb) by (intros; rewrite Hl, map_length, seq_length; reflexivity).
    destruct (anyb _ _); [|apply L]. destruct (forallb _ _); [|apply L]. rewrite scatter_length, map_length. apply L. }
  revert E. match goal with |- length ?w = nb -> _ => generalize w end. intros w E.
  destruct (anyb _ _); [rewrite map_length|]; exact E.
Qed.

Lemma suml_nn (l : list R) : Forall (fun x => 0 <= x) l -> 0 <= suml (fun y => y) l.
Proof. induction 1; cbn; lra. Qed.

Lemma suml_zero (l : list R) : Forall (fun x => 0 <= x) l -> suml (fun y => y) l = 0 -> Forall (fun x => x = 0) l.
Proof.
  induction 1 as [|x l Hx Hl IH]; intros E; [constructor|]. cbn in E. pose proof (suml_nn l Hl). constructor; [lra|]. apply IH. lra.
Qed.

Lemma suml_zero_iff (l : list R) : Forall (fun x => 0 <= x) l -> (suml (fun y => y) l = 0 <-> Forall (fun x => x = 0) l).
Proof.
  intros H. split; [now apply suml_zero|]. clear H. induction 1 as [|x l -> _ IH]; cbn; [reflexivity|]. rewrite IH. ring.
Qed.

Lemma weights_ok lstsq nb cov ws : (forall a b, length (lstsq a b) = length b) -> (forall w, ws = Some w -> length w = nb) ->
  (exists w, get_weights lstsq nb cov ws = map Num w /\ length w = nb /\ Forall (fun x => 0 <= x) w /\ suml (fun y => y) w = 1) \/
  (get_weights lstsq nb cov ws = repeat Nan nb /\ Forall (fun x => x = 0) (raw_weights lstsq nb cov ws)).
Proof.
  intros Hl Hw. pose proof (raw_length lstsq nb cov ws Hl Hw) as L. pose proof (raw_nonneg lstsq nb cov ws) as P. unfold get_weights.
  set (w := raw_weights lstsq nb cov ws) in *. clearbody w. set (s := suml (fun y => y) w).
  destruct (Req_EM_T s 0) as [Z|Z].
  - right. split; [|now apply suml_zero]. rewrite <- L. clearbody s. clear - Z.
    induction w as [|x w IH]; [reflexivity|]. cbn [map length repeat]. rewrite IH. unfold fdiv. destruct (Req_EM_T s 0); [reflexivity|contradiction].
  - left. exists (map (fun x => x / s) w). split; [|split; [|split]].
    + rewrite map_map. apply map_ext. intros x. unfold fdiv. destruct (Req_EM_T s 0); [contradiction|reflexivity].
    + now rewrite map_length.
    + apply Forall_map. apply (Forall_impl _) with (2 := P). intros x Hx. apply Rmult_le_pos; [assumption|].
      left. apply Rinv_0_lt_compat. pose proof (suml_nn w P) as S0. fold s in S0. lra.
    + rewrite suml_map. rewrite (suml_ext _ (fun x => / s * x)) by (intros; unfold Rdiv; ring). rewrite suml_scal. fold s. field. exact Z.
Qed.

(** User weights are normalised. *)
Lemma weights_user lstsq nb cov w i : Forall (fun x => 0 <= x) w -> (exists x, In x w /\ x <> 0) -> (i < length w)%nat ->
  nth i (get_weights lstsq nb cov (Some w)) Nan = Num (nth i w 0 / suml (fun y => y) w).
Proof.
  intros P (x & Hx & Hx0) Hi. unfold get_weights, raw_weights. assert (E : anyb Rneg w = false) by now apply anyb_neg_false. rewrite E.
  rewrite (nth_indep _ Nan (fdiv (Num 0) (Num (suml (fun y => y) w)))) by now rewrite map_length.
  rewrite (map_nth (fun x => fdiv (Num x) (Num (suml (fun y => y) w)))). unfold fdiv.
  destruct (Req_EM_T (suml (fun y => y) w) 0) as [Z|]; [|reflexivity]. exfalso. apply suml_zero in Z; [|assumption].
  rewrite Forall_forall in Z. auto.
Qed.

Lemma weights_zero lstsq nb cov : get_weights lstsq nb cov (Some (repeat 0 nb)) = repeat Nan nb.
Proof.
  unfold get_weights, raw_weights. assert (P : Forall (fun x => 0 <= x) (repeat 0 nb)) by (apply Forall_forall; intros x Hx; apply repeat_spec in Hx; lra).
  assert (E : anyb Rneg (repeat 0 nb) = false) by now apply anyb_neg_false. rewrite E.
  assert (S : suml (fun y => y) (repeat 0 nb) = 0). { apply suml_zero_iff; [assumption|]. apply Forall_forall. intros x Hx. now apply repeat_spec in Hx. }
  rewrite S. unfold fdiv. destruct (Req_EM_T 0 0) as [_|C]; [|contradiction]. clear. induction nb as [|nb IH]; [reflexivity|]. cbn. now rewrite IH.
Qed.

(** Bands with a non-positive first estimate get no weight. *)
Lemma clip0_nonpos x : x <= 0 -> clip0 x = 0.
Proof. intros H. unfold clip0. destruct (Rlt_dec x 0); lra. Qed.

Lemma nth_clip i w : nth i (map clip0 w) 0 = clip0 (nth i w 0).
Proof.
  rewrite <- (map_nth clip0). destruct (Nat.lt_ge_cases i (length w)) as [L|L].
  - apply nth_indep. now rewrite map_length.
  - rewrite !nth_overflow by (rewrite ?map_length; assumption). unfold clip0. destruct (Rlt_dec 0 0); lra.
Qed.

Lemma set_at_other {X} i j (x d : X) l : i <> j -> nth j (set_at i x l) d = nth j l d.
Proof.
  revert i j. induction l as [|y l IH]; intros i j H; [destruct i; reflexivity|].
  destruct i, j; cbn; try reflexivity; try lia. apply IH. lia.
Qed.

Lemma scatter_other idx : forall vals w i, ~ In i idx -> nth i (scatter idx vals w) 0 = nth i w 0.
Proof.
  induction idx as [|j idx IH]; intros [|v vals] w i H; try reflexivity. cbn. rewrite IH by (intros C; apply H; now right).
  apply set_at_other. intros ->. apply H. now left.
Qed.

Definition first_estimate (lstsq : list (list R) -> list R -> list R) (nb : nat) (cov : nat -> nat -> R) : list R :=
  lstsq (map (fun i => map (fun j => cov (S i) (S j)) (seq 0 nb)) (seq 0 nb)) (map (fun i => cov 0%nat (S i)) (seq 0 nb)).

Lemma raw_zero lstsq nb cov i : nth i (first_estimate lstsq nb cov) 0 <= 0 -> nth i (raw_weights lstsq nb cov None) 0 = 0.
Proof.
  intros H. unfold raw_weights. fold (first_estimate lstsq nb cov). set (w := first_estimate lstsq nb cov) in *. clearbody w.
  destruct (anyb Rneg w) eqn:E.
  - match goal with |- nth i (if anyb Rneg ?x then _ else _) 0 = 0 => assert (E2 : nth i x 0 = 0 \/ (anyb Rneg x = true /\ nth i x 0 <= 0)) end.
    { destruct (forallb _ _); [left|right; split; assumption]. rewrite scatter_other.
      - rewrite nth_clip. now apply clip0_nonpos.
      - unfold where_pos. rewrite filter_In. intros [_ C]. unfold Rpos in C. destruct (Rlt_dec 0 (nth i w 0)); [lra|discriminate C]. }
    revert E2. match goal with |- (nth i ?x 0 = 0 \/ _) -> _ => generalize x end. intros x [E2|[-> E2]].
    + destruct (anyb Rneg x); [|assumption]. rewrite nth_clip, E2. apply clip0_nonpos. lra.
    + rewrite nth_clip. now apply clip0_nonpos.
  - rewrite E. apply anyb_neg_false in E. destruct (Nat.lt_ge_cases i (length w)) as [L|L]; [|now apply nth_overflow].
    rewrite Forall_forall in E. pose proof (E (nth i w 0) (nth_In w 0 L)). lra.
Qed.

Lemma weights_positive_bands lstsq nb cov i w : get_weights lstsq nb cov None = map Num w ->
  nth i (first_estimate lstsq nb cov) 0 <= 0 -> nth i w 0 = 0.
Proof.
  intros E H. apply raw_zero in H. unfold get_weights in E. set (r := raw_weights lstsq nb cov None) in *. clearbody r.
  destruct (Nat.lt_ge_cases i (length w)) as [L|L]; [|now apply nth_overflow].
  assert (L2 : (i < length r)%nat). { apply (f_equal (@length _)) in E. rewrite !map_length in E. now rewrite E. }
  set (s := suml (fun y => y) r) in *. clearbody s.
  apply (f_equal (fun l => nth i l Nan)) in E.
  rewrite (nth_indep (map _ r) Nan (fdiv (Num 0) (Num s))) in E by now rewrite map_length.
  rewrite (map_nth (fun x => fdiv (Num x) (Num s))) in E.
  rewrite (nth_indep (map Num w) Nan (Num 0)) in E by now rewrite map_length. rewrite map_nth in E. rewrite H in E.
  unfold fdiv in E. destruct (Req_EM_T s 0); [discriminate E|]. injection E as E. rewrite <- E. field. assumption.
Qed.

Lemma weights_plain lstsq nb cov : Forall (fun x => 0 <= x) (first_estimate lstsq nb cov) ->
  get_weights lstsq nb cov None = get_weights lstsq nb cov (Some (first_estimate lstsq nb cov)).
Proof.
  intros H. unfold get_weights, raw_weights. fold (first_estimate lstsq nb cov). apply anyb_neg_false in H. rewrite !H. reflexivity.
Qed.

(** * Estimated parameters *)

Lemma estimate_ok nb tiles order vs w : Permutation order tiles -> selects (concat tiles) vs -> (2 <= length vs)%nat ->
  estimate nb (map Ok order) w = Ok (get_params nb (band_mean vs) (band_cov vs) w).
Proof.
  intros HP HS HL. destruct (stats_ok tiles order vs HP HS HL) as (means & cov & E & HM & HC). unfold estimate. rewrite E. cbn [bind fst snd].
  do 2 f_equal.
  - extensionality k. apply HM.
  - extensionality k. extensionality l. now rewrite HC.
Qed.

Lemma dotn_scal_sum nb (w : nat -> R) vs b : vs <> [] -> INR (length vs) - 1 <> 0 -> (b < nb)%nat ->
  dotn nb w (fun m => band_cov vs (S b) (S m)) = covar (band (S b)) (fun v => dotn nb w (fun m => band (S m) v) + 0) vs.
Proof.
  intros H1 H2 Hb.
  rewrite (covar_ext _ (fun v => dotn nb (fun m => if Nat.eqb m b then 1 else 0) (fun m => band (S m) v) + 0) _
                       (fun v => dotn nb w (fun m => band (S m) v) + 0) vs).
  - rewrite (covar_dot nb _ _ (fun m => band (S m)) 0 0 vs H1 H2). unfold bil.
    rewrite (sumn_single nb b (fun i => sumn nb _)).
    + unfold dotn. apply sumn_ext. intros m _. rewrite Nat.eqb_refl. unfold band_cov. ring.
    + assumption.
    + intros i _ Hi. apply Nat.eqb_neq in Hi. rewrite Hi. apply sumn_zero. intros; ring.
  - intros v _. unfold dotn at 1. rewrite (sumn_single nb b).
    + rewrite Nat.eqb_refl. ring.
    + assumption.
    + intros i _ Hi. apply Nat.eqb_neq in Hi. rewrite Hi. ring.
  - reflexivity.
Qed.

Lemma params_lengths nb means cov w : length (p_means (get_params nb means cov w)) = nb /\ length (p_coeffs (get_params nb means cov w)) = nb /\
  p_weights (get_params nb means cov w) = w.
Proof. unfold get_params. destruct (pan_norm nb means cov w). cbn. rewrite map_length, seq_length, gs_coeffs_length. auto. Qed.

Lemma sharpen_gain nb tiles order vs w p b pan ms :
  Permutation order tiles -> selects (concat tiles) vs -> (forall v, In v vs -> length v = S nb) -> (2 <= length vs)%nat ->
  pos_def nb (fun k l => band_cov vs (S k) (S l)) ->
  length w = nb -> (exists x, In x w /\ x <> 0) -> estimate nb (map Ok order) w = Ok p -> length ms = nb -> (b < nb)%nat ->
  nth b (process_pixel p pan ms) 0 = nth b ms 0 +
    covar (band (S b)) (sim_pan w) vs / covar (sim_pan w) (sim_pan w) vs * (p_gain p * pan + p_bias p - dotl w ms).
Proof.
  intros HP HS Hv HL _ Hw (x & Hx & Hx0) HE Hms Hb. rewrite (estimate_ok nb tiles order vs w HP HS HL) in HE. injection HE as <-.
  destruct (params_lengths nb (band_mean vs) (band_cov vs) w) as (L1 & L2 & L3). destruct (len2 vs HL) as [Hn1 Hn2].
  rewrite process_value by congruence. rewrite L3. f_equal. f_equal.
  assert (EC : p_coeffs (get_params nb (band_mean vs) (band_cov vs) w) = gs_coeffs nb (fun i j => band_cov vs (S i) (S j)) w)
    by (unfold get_params; now destruct (pan_norm nb (band_mean vs) (band_cov vs) w)).
  rewrite EC, first_coeff.
  - rewrite (dotn_scal_sum nb _ vs b Hn1 Hn2 Hb).
    rewrite (covar_ext (sim_pan w) (fun v => dotn nb (fun m => nth m w 0) (fun m => band (S m) v) + 0) (sim_pan w)
                       (fun v => dotn nb (fun m => nth m w 0) (fun m => band (S m) v) + 0) vs)
      by (intros v Hin; apply sim_pan_dot; auto).
    rewrite (covar_ext (band (S b)) (band (S b)) (sim_pan w)
                       (fun v => dotn nb (fun m => nth m w 0) (fun m => band (S m) v) + 0) vs)
      by (intros v Hin; first [reflexivity | apply sim_pan_dot; auto]).
    f_equal. f_equal. symmetry. exact (covar_dot nb _ _ (fun m => band (S m)) 0 0 vs Hn1 Hn2).
  - assumption.
  - destruct (In_nth w x 0 Hx) as (i & Hi & Ei). exists i. split; [lia|]. congruence.
Qed.

Lemma sharpen_norm nb tiles order vs w p :
  Permutation order tiles -> selects (concat tiles) vs -> (forall v, In v vs -> length v = S nb) -> (2 <= length vs)%nat ->
  pos_def nb (fun k l => band_cov vs (S k) (S l)) ->
  length w = nb -> covar (band 0) (band 0) vs <> 0 -> estimate nb (map Ok order) w = Ok p ->
  let pan' := fun v => p_gain p * band 0 v + p_bias p in
  avg pan' vs = avg (sim_pan w) vs /\ covar pan' pan' vs = covar (sim_pan w) (sim_pan w) vs /\ 0 <= p_gain p /\
  forall b, (b < nb)%nat -> avg (fun v => nth b (process_pixel p (band 0 v) (tl v)) 0) vs = avg (band (S b)) vs.
Proof.
  intros HP HS Hv HL _ Hw Hc HE. rewrite (estimate_ok nb tiles order vs w HP HS HL) in HE. injection HE as <-.
  destruct (params_lengths nb (band_mean vs) (band_cov vs) w) as (L1 & L2 & L3).
  assert (EP : pan_norm nb (band_mean vs) (band_cov vs) w =
    (p_gain (get_params nb (band_mean vs) (band_cov vs) w), p_bias (get_params nb (band_mean vs) (band_cov vs) w)))
    by (unfold get_params; now destruct (pan_norm nb (band_mean vs) (band_cov vs) w)).
  set (p := get_params nb (band_mean vs) (band_cov vs) w) in *. clearbody p. cbn zeta.
  destruct (pan_norm_ok nb w vs _ _ Hw Hv HL Hc EP) as (M & V & G). split; [exact M|]. split; [exact V|]. split; [exact G|].
  intros b Hb. apply (process_mean nb); try assumption; try congruence. destruct (len2 vs HL); assumption.
Qed.

(** * Validation *)

Lemma sorted_unique (l1 l2 : list Z) : StronglySorted Z.lt l1 -> StronglySorted Z.lt l2 -> (forall i, In i l1 <-> In i l2) -> l1 = l2.
Proof.
  revert l2. induction l1 as [|x l1 IH]; intros l2 H1 H2 H.
  - destruct l2 as [|y l2]; [reflexivity|]. exfalso. destruct (H y) as [_ C]. destruct C. now left.
  - destruct l2 as [|y l2]; [exfalso; destruct (H x) as [C _]; destruct C; now left|].
    apply StronglySorted_inv in H1. apply StronglySorted_inv in H2. destruct H1 as [S1 F1], H2 as [S2 F2]. rewrite Forall_forall in F1, F2.
    assert (E : x = y).
    { destruct (proj1 (H x) (or_introl eq_refl)) as [C|C]; [congruence|]. destruct (proj2 (H y) (or_introl eq_refl)) as [D|D]; [congruence|].
      specialize (F1 _ D). specialize (F2 _ C). lia. }
    subst y. f_equal. apply IH; try assumption. intros i. split; intros Hi.
    + destruct (proj1 (H i) (or_intror Hi)) as [C|C]; [|assumption]. subst i. specialize (F1 _ Hi). lia.
    + destruct (proj2 (H i) (or_intror Hi)) as [C|C]; [|assumption]. subst i. specialize (F2 _ Hi). lia.
Qed.

Lemma seq_sorted f : forall n s, StronglySorted Z.lt (map (fun bi => Z.of_nat bi + 1)%Z (filter f (seq s n))).
Proof.
  induction n as [|n IH]; intros s; [constructor|]. cbn. destruct (f s); [|apply IH]. cbn. constructor; [apply IH|].
  apply Forall_forall. intros x Hx. apply in_map_iff in Hx. destruct Hx as (k & <- & Hk). apply filter_In in Hk. destruct Hk as [Hk _]. apply in_seq in Hk. lia.
Qed.

Lemma default_chosen alpha user : user = None \/ user = Some [] -> chosen_indexes alpha user (default_indexes alpha).
Proof.
  intros H. assert (G : StronglySorted Z.lt (default_indexes alpha) /\
    forall i, In i (default_indexes alpha) <-> (1 <= i <= Z.of_nat (length alpha))%Z /\ nth (Z.to_nat (i - 1)) alpha false = false).
  { split; [apply seq_sorted|]. intros i. unfold default_indexes. rewrite in_map_iff. split.
    - intros (k & <- & Hk). apply filter_In in Hk. destruct Hk as [Hk Hn]. apply in_seq in Hk. split; [lia|].
      replace (Z.to_nat (Z.of_nat k + 1 - 1)) with k by lia. now destruct (nth k alpha false).
    - intros (Hi & Hn). exists (Z.to_nat (i - 1)). split; [lia|]. apply filter_In. rewrite in_seq, Hn. split; [lia|reflexivity]. }
  destruct H as [->| ->]; exact G.
Qed.

Lemma chosen_unique alpha user i1 i2 : chosen_indexes alpha user i1 -> chosen_indexes alpha user i2 -> i1 = i2.
Proof.
  intros H1 H2. destruct user as [[|i l]|]; cbn in *; try congruence; destruct H1 as [S1 E1], H2 as [S2 E2];
    apply sorted_unique; try assumption; intros j; now rewrite E1, E2.
Qed.

Lemma chosen_model alpha user : chosen_indexes alpha user match user with None | Some [] => default_indexes alpha | Some l => l end.
Proof. destruct user as [[|i l]|]; [apply default_chosen; auto|reflexivity|apply default_chosen; auto]. Qed.

Lemma existsb_false {X} (f : X -> bool) l : existsb f l = false <-> Forall (fun x => f x = false) l.
Proof. induction l as [|x l IH]; cbn; [split; [constructor|reflexivity]|]. rewrite orb_false_iff, Forall_cons_iff, IH. reflexivity. Qed.

Lemma range_ok n idx : existsb (fun i => (i <=? 0)%Z) idx || existsb (fun i => (n <? i)%Z) idx = false <-> Forall (fun i => (1 <= i <= n)%Z) idx.
Proof.
  rewrite orb_false_iff, !existsb_false.
  induction idx as [|i idx IH]; [split; [constructor|split; constructor]|]. rewrite !Forall_cons_iff, <- IH. rewrite Z.leb_gt, Z.ltb_ge. intuition lia.
Qed.

Lemma validate_ok pc alpha pi mi ws idx ws' :
  validate_params pc alpha pi mi ws = Ok (idx, ws') <->
  (1 <= pi <= pc)%Z /\ chosen_indexes alpha mi idx /\ Forall (fun i => (1 <= i <= Z.of_nat (length alpha))%Z) idx /\
  ((ws = None \/ ws = Some []) /\ ws' = None \/
   exists w, ws = Some w /\ w <> [] /\ ws' = Some w /\ length w = length idx /\ Forall (fun x => 0 <= x) w).
Proof.
  unfold validate_params. pose proof (chosen_model alpha mi) as HC.
  set (ci := match mi with None | Some [] => default_indexes alpha | Some l => l end) in *. clearbody ci.
  assert (P : ((pi <=? 0) || (pc <? pi))%Z = false <-> (1 <= pi <= pc)%Z) by (rewrite orb_false_iff, Z.leb_gt, Z.ltb_ge; lia).
  destruct ((pi <=? 0) || (pc <? pi))%Z.
  { split; [discriminate|]. intros (C & _). apply P in C. discriminate C. }
  assert (P' := proj1 P eq_refl). clear P.
  assert (Rg := range_ok (Z.of_nat (length alpha)) ci).
  destruct (existsb (fun i => (i <=? 0)%Z) ci || existsb (fun i => (Z.of_nat (length alpha) <? i)%Z) ci).
  { split; [discriminate|]. intros (_ & C & D & _). rewrite (chosen_unique _ _ _ _ C HC) in D. apply Rg in D. discriminate D. }
  assert (R' := proj1 Rg eq_refl). clear Rg.
  assert (U : forall i, chosen_indexes alpha mi i -> i = ci) by (intros i Hi; exact (chosen_unique _ _ _ _ Hi HC)).
  destruct ws as [[|x w]|].
  - split.
    + intros E. injection E as <- <-. repeat (split; [assumption|]). left. auto.
    + intros (_ & C & _ & [[_ ->]|(w & E & N & _)]); [now rewrite (U _ C)|]. congruence.
  - set (W := x :: w) in *. assert (N : W <> []) by discriminate. clearbody W. clear x w.
    destruct (Nat.eqb (length W) (length ci)) eqn:EL; cbn [negb].
    + apply Nat.eqb_eq in EL. destruct (anyb Rneg W) eqn:EN.
      * split; [discriminate|]. intros (_ & _ & _ & [[[C|C] _]|(w & E & _ & _ & _ & F)]); [discriminate C|congruence|].
        injection E as <-. apply anyb_neg_false in F. congruence.
      * apply anyb_neg_false in EN. split.
        -- intros E. injection E as <- <-. repeat (split; [assumption|]). right. exists W. auto.
        -- intros (_ & C & _ & [[[D|D] _]|(w & E & _ & -> & _)]); [discriminate D|congruence|]. injection E as <-. now rewrite (U _ C).
    + apply Nat.eqb_neq in EL. split; [discriminate|]. intros (_ & C & _ & [[[D|D] _]|(w & E & _ & _ & L & _)]); [discriminate D|congruence|].
      injection E as <-. rewrite (U _ C) in L. contradiction.
  - split.
    + intros E. injection E as <- <-. repeat (split; [assumption|]). left. auto.
    + intros (_ & C & _ & [[_ ->]|(w & E & _)]); [now rewrite (U _ C)|]. discriminate E.
Qed.

Lemma validate_err pc alpha pi mi ws e : validate_params pc alpha pi mi ws = Err e -> e = OrthorityError.
Proof.
  unfold validate_params. destruct (_ || _); [congruence|].
  match goal with |- context [if existsb ?f ?c || ?d then _ else _] => destruct (existsb f c || d) end; [congruence|].
  destruct ws as [[|x w]|]; try discriminate. destruct (negb _); [congruence|]. destruct (anyb _ _); congruence.
Qed.

Lemma filter_true {X} (f : X -> bool) l : (forall x, In x l -> f x = true) -> filter f l = l.
Proof. induction l as [|x l IH]; intros H; [reflexivity|]. cbn. rewrite H by now left. f_equal. apply IH. intros; apply H; now right. Qed.

Lemma zero_weights lstsq cov nb : (0 < nb)%nat ->
  validate_params 1 (repeat false nb) 1 None (Some (repeat 0 nb)) = Ok (default_indexes (repeat false nb), Some (repeat 0 nb)) /\
  get_weights lstsq nb cov (Some (repeat 0 nb)) = repeat Nan nb.
Proof.
  intros H. split; [|apply weights_zero]. apply validate_ok. split; [lia|].
  pose proof (default_chosen (repeat false nb) None (or_introl eq_refl)) as C. split; [exact C|]. destruct C as [_ C]. split.
  - apply Forall_forall. intros i Hi. now apply C in Hi.
  - right. exists (repeat 0 nb). split; [reflexivity|]. split; [destruct nb; [lia|discriminate]|]. split; [reflexivity|]. split.
    + unfold default_indexes. rewrite map_length, !repeat_length. rewrite filter_true.
      * now rewrite seq_length.
      * intros i _. assert (E : nth i (repeat false nb) false = false) by (clear; revert i; induction nb; intros [|i]; cbn; auto). now rewrite E.
    + apply Forall_forall. intros x Hx. apply repeat_spec in Hx. lra.
Qed.
