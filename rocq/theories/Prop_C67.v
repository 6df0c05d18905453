(* C67: properties of mixtures: mixing rules, excess and partial properties, and what a call returns. *)
From Coq Require Import Reals Lra List Bool Arith Lia.
From Verif Require Import Base BaseFacts Model_rk Model_mixprop.
Import ListNotations.
Open Scope R_scope.

(* --- specification --- *)
(* the value of a pure component: with pressure where that is asked for and known, else the temperature dependent one *)
Definition pure_value (o : obj) (T P : R) (p : pure) (v : R) : Prop :=
  if correct_pressure o && P_dependent o then p_TP p T P = Some v \/ (p_TP p T P = None /\ p_T p T = Some v) else p_T p T = Some v.
Definition pure_values (o : obj) (T P : R) (l : list R) : Prop := length l = length (pures o) /\ forall i p, nth_error (pures o) i = Some p -> pure_value o T P p (nth i l 0).
Definition fractions (l : list R) : Prop := (forall i, (i < length l)%nat -> 0 <= nth i l 0) /\ rsum (length l) (fun i => nth i l 0) = 1.
Definition mean (x v : list R) : R := rsum (length x) (fun i => nth i x 0 * nth i v 0).
Definition least (v : list R) (m : R) : Prop := forall i, (i < length v)%nat -> m <= nth i v 0.
Definition greatest (v : list R) (m : R) : Prop := forall i, (i < length v)%nat -> nth i v 0 <= m.
(* the temperature dependence of a coefficient *)
Definition coefficient (c : nat -> R) (T : R) (n : nat) : R :=
  match n with
  | 2%nat => c 0%nat + c 1%nat / T
  | 3%nat => c 0%nat + c 1%nat / T + c 2%nat * ln T
  | _ => c 0%nat + c 1%nat / T + c 2%nat * ln T + c 3%nat * T + c 4%nat / T ^ 2 + c 5%nat * T ^ 2
  end.
(* the Redlich-Kister sum over n components *)
Definition rk_sum (n terms : nat) (a : nat -> nat -> nat -> R) (x : nat -> R) : R :=
  1 / 2 * rsum n (fun i => rsum n (fun j => rsum terms (fun k => a i j k * x i * x j * (x i - x j) ^ k))).

(* --- sums --- *)
Lemma rsum_zero n f : (forall i, (i < n)%nat -> 0 <= f i) -> rsum n f = 0 -> forall i, (i < n)%nat -> f i = 0.
Proof.
  induction n as [|n IH]; intros H Z i Hi; [lia|]. cbn [rsum] in Z. assert (A : 0 <= rsum n f) by (apply rsum_nonneg; intros; apply H; lia). assert (B : 0 <= f n) by (apply H; lia).
  destruct (Nat.eq_dec i n) as [->|D]; [lra|]. apply IH; [intros; apply H; lia|lra|lia].
Qed.
Lemma rsum_shift n f : rsum (S n) f = f 0%nat + rsum n (fun i => f (S i)).
Proof. induction n as [|n IH]; [cbn; lra|]. change (rsum (S (S n)) f) with (rsum (S n) f + f (S n)). rewrite IH. cbn [rsum]. lra. Qed.
Lemma dot_acc a : forall b r, length a = length b -> fold_left (fun r p => r + fst p * snd p) (combine a b) r = r + rsum (length a) (fun i => nth i a 0 * nth i b 0).
Proof.
  induction a as [|x a IH]; intros [|y b] r H; cbn [length] in *; try discriminate; [cbn; lra|]. cbn [combine fold_left fst snd]. rewrite IH by lia. rewrite rsum_shift. cbn [nth]. lra.
Qed.
Lemma dot_mean a b : length a = length b -> dot a b = mean a b.
Proof. intros H. unfold dot. rewrite dot_acc by exact H. unfold mean. lra. Qed.
Lemma all_some_spec l r : all_some l = Some r <-> length r = length l /\ forall i x, nth_error l i = Some x -> x = Some (nth i r 0).
Proof.
  revert r. induction l as [|[x|] l IH]; intros r; cbn [all_some].
  - split; [intros H; injection H as <-; split; [reflexivity|intros [|i] x; discriminate]|]. intros [H _]. destruct r; [reflexivity|discriminate].
  - destruct (all_some l) as [q|] eqn:E.
    + split.
      * intros H. injection H as <-. destruct (proj1 (IH q) eq_refl) as [H1 H2]. split; [cbn; lia|]. intros [|i] y; cbn; [congruence|apply H2].
      * intros [H1 H2]. destruct r as [|y r]; [discriminate|]. specialize (H2 0%nat (Some x) eq_refl) as H3. cbn in H3. injection H3 as ->. f_equal. f_equal.
        assert (G : Some q = Some r) by (apply IH; split; [cbn in H1; lia|intros i z Hz; apply (H2 (S i) z Hz)]). congruence.
    + split; [discriminate|]. intros [H1 H2]. destruct r as [|y r]; [discriminate|]. assert (G : None = Some r) by (apply IH; split; [cbn in H1; lia|intros i z Hz; apply (H2 (S i) z Hz)]). discriminate.
  - split; [discriminate|]. intros [_ H]. specialize (H 0%nat None eq_refl). discriminate.
Qed.
Lemma nth_error_map' {A B} (f : A -> B) l i : nth_error (map f l) i = match nth_error l i with Some x => Some (f x) | None => None end.
Proof. revert i. induction l as [|x l IH]; intros [|i]; cbn; auto. Qed.
Lemma pures_all o T P l : pure_values o T P l -> all_some (pures_corrected o T P) = Some l.
Proof.
  intros [H1 H2]. apply all_some_spec. unfold pures_corrected, pure_value in *. destruct (correct_pressure o && P_dependent o).
  - split; [rewrite map_length; exact H1|]. intros i x. rewrite nth_error_map'. destruct (nth_error (pures o) i) as [p|] eqn:E; [|discriminate]. intros H. injection H as <-.
    destruct (H2 i p E) as [G|[G1 G2]]; [rewrite G; reflexivity|rewrite G1; exact G2].
  - split; [rewrite map_length; exact H1|]. intros i x. rewrite nth_error_map'. destruct (nth_error (pures o) i) as [p|] eqn:E; [|discriminate]. intros H. injection H as <-. apply H2. exact E.
Qed.
Lemma mean_bounds x v a b : fractions x -> length x = length v -> least v a -> greatest v b -> a <= mean x v <= b.
Proof.
  intros [H1 H2] L A B. unfold mean. split.
  - replace a with (rsum (length x) (fun i => nth i x 0 * a)) by (rewrite rsum_scal_r, H2; lra). apply rsum_le. intros i Hi. apply Rmult_le_compat_l; [apply H1; exact Hi|apply A; lia].
  - replace b with (rsum (length x) (fun i => nth i x 0 * b)) by (rewrite rsum_scal_r, H2; lra). apply rsum_le. intros i Hi. apply Rmult_le_compat_l; [apply H1; exact Hi|apply B; lia].
Qed.
Lemma all_logs_spec v : (forall i, (i < length v)%nat -> 0 < nth i v 0) -> all_logs v = Some (map ln v).
Proof.
  induction v as [|x v IH]; intros H; [reflexivity|]. cbn [all_logs map]. assert (X : 0 < x) by (apply (H 0%nat); cbn; lia).
  unfold trunc_log. rewrite Rltb_false by lra. rewrite Reqb_false by lra. rewrite IH; [reflexivity|]. intros i Hi. apply (H (S i)). cbn. lia.
Qed.
Lemma nth_map_ln v i : (i < length v)%nat -> nth i (map ln v) 0 = ln (nth i v 0).
Proof. intros H. rewrite (nth_indep _ 0 (ln 0)) by (rewrite map_length; exact H). apply map_nth. Qed.

(* --- the claims: mixing rules --- *)
(* Mixed linearly, a property is the mean of the pure values and lies between them. *)
Theorem C67_linear o T P zs ws v : pure_values o T P v -> length zs = length v ->
  calculate o T P zs ws LINEAR = Some (rsum (length zs) (fun i => nth i zs 0 * nth i v 0)) /\
  (forall a b, fractions zs -> least v a -> greatest v b -> exists r, calculate o T P zs ws LINEAR = Some r /\ a <= r <= b).
Proof.
  intros H L. unfold calculate. rewrite (pures_all o T P v H). rewrite (proj2 (Nat.eqb_eq _ _) L), dot_mean by exact L. split; [reflexivity|].
  intros a b F A B. exists (mean zs v). split; [reflexivity|]. apply mean_bounds; assumption.
Qed.
(* Mixed logarithmically with mole or mass fractions, it is their weighted geometric mean, and lies between them. *)
Lemma log_value x v : length x = length v -> (forall i, (i < length v)%nat -> 0 < nth i v 0) ->
  match all_logs v with Some l => if (length x <=? length l)%nat then Some (exp (dot x l)) else None | None => None end = Some (exp (rsum (length x) (fun i => nth i x 0 * ln (nth i v 0)))).
Proof.
  intros L V. rewrite all_logs_spec by exact V. rewrite map_length, L, Nat.leb_refl. rewrite dot_mean by (rewrite map_length; exact L). unfold mean. f_equal. f_equal.
  rewrite L. apply rsum_ext. intros i Hi. rewrite nth_map_ln by exact Hi. reflexivity.
Qed.
Lemma log_bounds x v a b : fractions x -> length x = length v -> 0 < a -> least v a -> greatest v b -> a <= exp (rsum (length x) (fun i => nth i x 0 * ln (nth i v 0))) <= b.
Proof.
  intros F L A H1 H2. assert (V : forall i, (i < length v)%nat -> 0 < nth i v 0) by (intros i Hi; specialize (H1 i Hi); lra).
  assert (N : (0 < length v)%nat).
  { destruct v as [|y v]; [|cbn; lia]. destruct F as [_ F]. rewrite L in F. cbn in F. lra. }
  assert (B : 0 < b) by (specialize (H1 0%nat N); specialize (H2 0%nat N); lra).
  assert (E : rsum (length x) (fun i => nth i x 0 * ln (nth i v 0)) = mean x (map ln v)) by (unfold mean; rewrite L; apply rsum_ext; intros i Hi; rewrite nth_map_ln by exact Hi; reflexivity).
  rewrite E. destruct (mean_bounds x (map ln v) (ln a) (ln b) F) as [M1 M2]; [rewrite map_length; exact L| | |].
  - intros i Hi. rewrite map_length in Hi. rewrite nth_map_ln by exact Hi. destruct (Rle_lt_or_eq_dec a (nth i v 0) (H1 i Hi)) as [G|<-]; [left; apply ln_increasing; lra|lra].
  - intros i Hi. rewrite map_length in Hi. rewrite nth_map_ln by exact Hi. destruct (Rle_lt_or_eq_dec (nth i v 0) b (H2 i Hi)) as [G| ->]; [left; apply ln_increasing; [apply V; exact Hi|exact G]|lra].
  - split; [rewrite <- (exp_ln a A)|rewrite <- (exp_ln b B)]; [destruct M1 as [M| <-]|destruct M2 as [M| ->]]; try lra; left; apply exp_increasing; exact M.
Qed.
Theorem C67_logarithmic o T P zs ws v m x : pure_values o T P v -> (m = LOG_MOLAR /\ x = zs) \/ (m = LOG_MASS /\ x = ws) -> length x = length v -> (forall i, (i < length v)%nat -> 0 < nth i v 0) ->
  calculate o T P zs ws m = Some (exp (rsum (length x) (fun i => nth i x 0 * ln (nth i v 0)))) /\
  (forall a b, fractions x -> 0 < a -> least v a -> greatest v b -> exists r, calculate o T P zs ws m = Some r /\ a <= r <= b).
Proof.
  intros H M L V. assert (E : calculate o T P zs ws m = Some (exp (rsum (length x) (fun i => nth i x 0 * ln (nth i v 0))))).
  { unfold calculate. rewrite (pures_all o T P v H). destruct M as [[-> ->]|[-> ->]]; apply log_value; assumption. }
  split; [exact E|]. intros a b F A H1 H2. eexists. split; [exact E|]. apply log_bounds; assumption.
Qed.
(* A Redlich-Kister correlation adds its sum to the mean - for as many temperature terms as components. *)
Lemma inner_rk N terms a x : redlich_kister_excess_inner N terms a x = rk_sum N terms a x.
Proof.
  unfold redlich_kister_excess_inner, rk_sum. rewrite Rmult_comm. cbv zeta. f_equal.
  assert (I : forall i j, fst (loop terms (fun k st => let '(inner, factor) := st in (inner + a i j k * factor, factor * (x i - x j))) (0, 1)) = rsum terms (fun k => a i j k * (x i - x j) ^ k)
     /\ snd (loop terms (fun k st => let '(inner, factor) := st in (inner + a i j k * factor, factor * (x i - x j))) (0, 1)) = (x i - x j) ^ terms).
  { intros i j. induction terms as [|n IH]; [cbn; auto|]. cbn [loop]. destruct (loop n _ (0, 1)) as [p q]. cbn [fst snd] in *. destruct IH as [-> ->]. cbn [rsum pow]. split; [reflexivity|ring]. }
  rewrite (loop_ext N _ (fun i s => s + rsum N (fun j => rsum terms (fun k => a i j k * x i * x j * (x i - x j) ^ k)))).
  - rewrite loop_rsum. lra.
  - intros i s Hi. f_equal. rewrite (loop_ext N _ (fun j s => s + rsum terms (fun k => a i j k * (x i - x j) ^ k) * x j)).
    + rewrite loop_rsum, Rplus_0_l, <- rsum_scal_r. apply rsum_ext. intros j Hj. rewrite <- !rsum_scal_r. apply rsum_ext. intros k Hk. ring.
    + intros j s' Hj. destruct (loop terms _ (0, 1)) as [p q] eqn:E. pose proof (I i j) as [I1 _]. rewrite E in I1. cbn in I1. rewrite I1. reflexivity.
Qed.
Definition given (N : nat) (c : corr) (e : nat -> nat -> nat -> nat -> R) : Prop :=
  forall i j k t, (i < N)%nat -> (j < N)%nat -> (k < c_terms c)%nat -> (t < c_T c)%nat -> c_coeffs c i j k t = Some (e i j k t).
Lemma given_defined N c e : given N c e -> defined_below N N (c_terms c) (c_T c) (c_coeffs c) = true.
Proof.
  intros H. unfold defined_below. rewrite forallb_forall. intros i Hi. rewrite forallb_forall. intros j Hj. rewrite forallb_forall. intros k Hk. rewrite forallb_forall. intros t Ht.
  apply in_seq in Hi, Hj, Hk, Ht. rewrite (H i j k t) by lia. reflexivity.
Qed.
Lemma rk_sum_ext N terms a b x : (forall i j k, (i < N)%nat -> (j < N)%nat -> (k < terms)%nat -> a i j k = b i j k) -> rk_sum N terms a x = rk_sum N terms b x.
Proof. intros H. unfold rk_sum. f_equal. apply rsum_ext. intros i Hi. apply rsum_ext. intros j Hj. apply rsum_ext. intros k Hk. rewrite H by assumption. reflexivity. Qed.
Lemma corr_value o T P zs ws v k c e : pure_values o T P v -> length zs = length v -> T <> 0 -> find_corr o k = Some c -> given (length zs) c e ->
  (c_T c = 2 \/ c_T c = 3 \/ c_T c = 6)%nat -> (c_T c <= length zs)%nat ->
  calculate o T P zs ws (Corr k) = Some (mean zs v + rk_sum (c_T c) (c_terms c) (fun i j n => coefficient (e i j n) T (c_T c)) (fun i => nth i zs 0)).
Proof.
  intros H L T0 F G C B. unfold calculate. rewrite (pures_all o T P v H), F. cbv zeta. rewrite (given_defined _ _ _ G). unfold redlich_kister_T_dependence.
  assert (E : forall i j n t, (i < length zs)%nat -> (j < length zs)%nat -> (n < c_terms c)%nat -> (t < c_T c)%nat -> total (c_coeffs c) i j n t = e i j n t).
  { intros. unfold total. rewrite G by assumption. reflexivity. }
  assert (X : (c_T c <=? length zs)%nat && (length zs =? length v)%nat = true) by (apply andb_true_iff; split; [apply Nat.leb_le; exact B|apply Nat.eqb_eq; exact L]).
  destruct C as [C|[C|C]]; rewrite !C; cbn [Nat.eqb]; rewrite <- C; rewrite X, dot_mean by exact L; rewrite inner_rk; f_equal; f_equal; apply rk_sum_ext; intros i j n Hi Hj Hn; rewrite !E by lia; rewrite C; cbn [coefficient]; field; exact T0.
Qed.
Theorem C67_correlation o T P zs ws v k c e : pure_values o T P v -> length zs = length v -> T <> 0 -> find_corr o k = Some c -> given (length zs) c e ->
  (c_T c = 2 \/ c_T c = 3 \/ c_T c = 6)%nat -> c_T c = length zs ->
  calculate o T P zs ws (Corr k) = Some (rsum (length zs) (fun i => nth i zs 0 * nth i v 0) + rk_sum (length zs) (c_terms c) (fun i j n => coefficient (e i j n) T (c_T c)) (fun i => nth i zs 0)).
Proof. intros H L T0 F G C B. rewrite (corr_value o T P zs ws v k c e) by (assumption || lia). rewrite B. reflexivity. Qed.

(* --- excess properties --- *)
Lemma unit_length N i : length (unit_fracs N i) = N.
Proof. unfold unit_fracs. rewrite map_length, seq_length. reflexivity. Qed.
Lemma unit_nth N i k : (k < N)%nat -> nth k (unit_fracs N i) 0 = if (k =? i)%nat then 1 else 0.
Proof.
  intros H. unfold unit_fracs. rewrite (nth_indep _ 0 ((fun q => if (q =? i)%nat then 1 else 0) 0%nat)) by (rewrite map_length, seq_length; exact H).
  rewrite (map_nth (fun q => if (q =? i)%nat then 1 else 0) (seq 0 N) 0%nat k). rewrite seq_nth by exact H. reflexivity.
Qed.
Lemma mean_unit N i f : (i < N)%nat -> rsum N (fun k => nth k (unit_fracs N i) 0 * f k) = f i.
Proof.
  intros H. rewrite (rsum_single N i); [|exact H|]; [rewrite unit_nth, Nat.eqb_refl by exact H; lra|]. intros j Hj D. rewrite unit_nth by exact Hj. destruct (Nat.eqb_spec j i); [contradiction|lra].
Qed.
(* every pure mixture has the pure value: then the excess is the property less the mean *)
Lemma excess_value o T P zs ws m v r : length zs = length v -> calculate o T P zs ws m = Some r ->
  (forall i, (i < length zs)%nat -> calculate o T P (unit_fracs (length zs) i) (unit_fracs (length zs) i) m = Some (nth i v 0)) ->
  calculate_excess_property o T P zs ws m = Some (r - mean zs v).
Proof.
  intros L R U. unfold calculate_excess_property. rewrite R. cbv zeta.
  assert (E : forall n, (n <= length zs)%nat -> loop n (fun i tot => match tot, calculate o T P (unit_fracs (length zs) i) (unit_fracs (length zs) i) m with Some tot, Some v => Some (tot + nth i zs 0 * v) | _, _ => None end) (Some 0) = Some (rsum n (fun i => nth i zs 0 * nth i v 0))).
  { induction n as [|n IH]; intros Hn; [reflexivity|]. cbn [loop]. rewrite IH by lia. rewrite U by lia. reflexivity. }
  rewrite E by lia. reflexivity.
Qed.
Theorem C67_excess_linear o T P zs ws v : pure_values o T P v -> length zs = length v -> calculate_excess_property o T P zs ws LINEAR = Some 0.
Proof.
  intros H L. rewrite (excess_value o T P zs ws LINEAR v (mean zs v) L).
  - f_equal. lra.
  - apply C67_linear; assumption.
  - intros i Hi. destruct (C67_linear o T P (unit_fracs (length zs) i) (unit_fracs (length zs) i) v H) as [E _]; [rewrite unit_length; exact L|].
    rewrite E, unit_length. f_equal. apply mean_unit. exact Hi.
Qed.
(* the geometric mean is not above the arithmetic one *)
Lemma exp_tangent m x : exp m * (1 + (x - m)) <= exp x.
Proof. replace (exp x) with (exp m * exp (x - m)) by (rewrite <- exp_plus; f_equal; lra). apply Rmult_le_compat_l; [left; apply exp_pos|]. destruct (Req_dec (x - m) 0) as [->|N]; [rewrite exp_0; lra|]. pose proof (exp_ineq1 (x - m)). lra. Qed.
Lemma geometric_arithmetic x v : fractions x -> length x = length v -> (forall i, (i < length v)%nat -> 0 < nth i v 0) ->
  exp (rsum (length x) (fun i => nth i x 0 * ln (nth i v 0))) <= mean x v.
Proof.
  intros [F1 F2] L V. set (m := rsum (length x) (fun i => nth i x 0 * ln (nth i v 0))). unfold mean.
  assert (E : exp m = rsum (length x) (fun i => nth i x 0 * (exp m * (1 + (ln (nth i v 0) - m))))).
  { rewrite (rsum_ext (length x) (fun i => nth i x 0 * (exp m * (1 + (ln (nth i v 0) - m)))) (fun i => exp m * (1 - m) * nth i x 0 + exp m * (nth i x 0 * ln (nth i v 0)))) by (intros; ring).
    rewrite rsum_plus, !rsum_scal_l. fold m. rewrite F2. ring. }
  rewrite E. apply rsum_le. intros i Hi. apply Rmult_le_compat_l; [apply F1; exact Hi|]. rewrite <- (exp_ln (nth i v 0)) at 2 by (apply V; lia). apply exp_tangent.
Qed.
Theorem C67_excess_logarithmic o T P zs ws v : pure_values o T P v -> length zs = length v -> (forall i, (i < length v)%nat -> 0 < nth i v 0) -> fractions zs ->
  exists r, calculate_excess_property o T P zs ws LOG_MOLAR = Some r /\ r <= 0.
Proof.
  intros H L V F. destruct (C67_logarithmic o T P zs ws v LOG_MOLAR zs H (or_introl (conj eq_refl eq_refl)) L V) as [E _].
  eexists. split.
  - apply (excess_value o T P zs ws LOG_MOLAR v _ L E). intros i Hi.
    destruct (C67_logarithmic o T P (unit_fracs (length zs) i) (unit_fracs (length zs) i) v LOG_MOLAR (unit_fracs (length zs) i) H (or_introl (conj eq_refl eq_refl))) as [U _]; [rewrite unit_length; exact L|exact V|].
    rewrite U, unit_length. f_equal. rewrite (mean_unit (length zs) i (fun k => ln (nth k v 0)) Hi). apply exp_ln. apply V. lia.
  - pose proof (geometric_arithmetic zs v F L V). lra.
Qed.
Theorem C67_excess_correlation o T P zs ws v k c e : pure_values o T P v -> length zs = length v -> T <> 0 -> find_corr o k = Some c -> given (length zs) c e ->
  (c_T c = 2 \/ c_T c = 3 \/ c_T c = 6)%nat -> c_T c = length zs -> (forall i n t, e i i n t = 0) ->
  calculate_excess_property o T P zs ws (Corr k) = Some (rk_sum (length zs) (c_terms c) (fun i j n => coefficient (e i j n) T (c_T c)) (fun i => nth i zs 0)).
Proof.
  intros H L T0 F G C B D. rewrite (excess_value o T P zs ws (Corr k) v _ L (C67_correlation o T P zs ws v k c e H L T0 F G C B)).
  - unfold mean. f_equal. lra.
  - intros i Hi. rewrite (C67_correlation o T P _ (unit_fracs (length zs) i) v k c e); rewrite ?unit_length; try assumption.
    f_equal. rewrite mean_unit by exact Hi.
    assert (Z : rk_sum (length zs) (c_terms c) (fun i0 j n => coefficient (e i0 j n) T (c_T c)) (fun i0 => nth i0 (unit_fracs (length zs) i) 0) = 0); [|lra].
    unfold rk_sum. rewrite rsum_eq_0; [lra|]. intros p Hp. apply rsum_eq_0. intros q Hq. apply rsum_eq_0. intros n Hn. rewrite !unit_nth by assumption.
    destruct (Nat.eqb_spec p i) as [->|]; [destruct (Nat.eqb_spec q i) as [->|]|]; try lra.
    assert (Y : coefficient (e i i n) T (c_T c) = 0); [|rewrite Y; lra]. destruct C as [->|[->| ->]]; cbn [coefficient]; rewrite !D; unfold Rdiv; ring.
Qed.

(* --- the value of a mixture, and the partial property --- *)
(* a value comes from the selected method and lies in the valid range *)
Theorem C67_value o T P zs ws v : mixture_property o T P (Some zs) (Some ws) = Value v -> calculate o T P zs ws (method o) = Some v /\ (skip_prop o = false -> property_min o <= v <= property_max o).
Proof.
  unfold mixture_property, complete_zs_ws. destruct (if negb (skip_method o) then _ else _) as [[|]|]; [|destruct (raise_errors o); discriminate|discriminate].
  destruct (calculate o T P zs ws (method o)) as [r|]; [|destruct (raise_errors o); discriminate]. destruct (skip_prop o) eqn:S; cbn [orb].
  - intros H. injection H as <-. split; [reflexivity|discriminate].
  - destruct (test_property_validity o r) eqn:E; [|destruct (raise_errors o); discriminate]. intros H. injection H as <-. split; [reflexivity|]. intros _.
    unfold test_property_validity in E. destruct (Rltb_spec r (property_min o)); [discriminate|]. destruct (Rltb_spec (property_max o) r); [discriminate|]. lra.
Qed.
(* compositions given as mole fractions, or as the mass fractions they have, give the same *)
Lemma rsum_list (l : list R) (f : R -> R) : rsum (length l) (fun i => nth i (map f l) 0) = rsum (length l) (fun i => f (nth i l 0)).
Proof. apply rsum_ext. intros i Hi. rewrite (nth_indep _ 0 (f 0)) by (rewrite map_length; exact Hi). apply map_nth. Qed.
Lemma list_ext (a b : list R) : length a = length b -> (forall i, (i < length a)%nat -> nth i a 0 = nth i b 0) -> a = b.
Proof. revert b. induction a as [|x a IH]; intros [|y b] L H; try discriminate; [reflexivity|]. f_equal; [apply (H 0%nat); cbn; lia|]. apply IH; [cbn in L; lia|]. intros i Hi. apply (H (S i)). cbn. lia. Qed.
Lemma weighted_length (f : R * R -> R) (a b : list R) : length a = length b -> length (map f (combine a b)) = length a.
Proof. intros H. rewrite map_length, combine_length. lia. Qed.
Lemma nth_map_default {A} (f : A -> R) l d i : (i < length l)%nat -> nth i (map f l) 0 = f (nth i l d).
Proof. intros H. rewrite (nth_indep _ 0 (f d)) by (rewrite map_length; exact H). apply map_nth. Qed.
Lemma conversion (op : R -> R -> R) (a b : list R) i : length a = length b -> (i < length a)%nat ->
  nth i (let q := map (fun p => op (fst p) (snd p)) (combine a b) in map (fun x => x / rsum (length q) (fun i => nth i q 0)) q) 0 = op (nth i a 0) (nth i b 0) / rsum (length a) (fun i => op (nth i a 0) (nth i b 0)).
Proof.
  intros L H. cbv zeta. set (q := map (fun p => op (fst p) (snd p)) (combine a b)). assert (Q : length q = length a) by (unfold q; apply weighted_length; exact L).
  assert (N : forall k, (k < length a)%nat -> nth k q 0 = op (nth k a 0) (nth k b 0)).
  { intros k Hk. unfold q. rewrite (nth_map_default _ _ (0, 0)) by (rewrite combine_length; lia). rewrite combine_nth by exact L. reflexivity. }
  rewrite (nth_map_default _ _ 0) by lia. rewrite N by exact H. f_equal. rewrite Q. apply rsum_ext. exact N.
Qed.
Theorem C67_composition o T P zs : length zs = length (MWs o) -> (forall i, (i < length zs)%nat -> 0 <= nth i zs 0 /\ 0 < nth i (MWs o) 0) -> rsum (length zs) (fun i => nth i zs 0) = 1 ->
  mixture_property o T P None (Some (zs_to_ws zs (MWs o))) = mixture_property o T P (Some zs) None.
Proof.
  intros L H S. unfold mixture_property. cbn [complete_zs_ws].
  assert (E : ws_to_zs (zs_to_ws zs (MWs o)) (MWs o) = zs); [|rewrite E; reflexivity].
  set (M := MWs o) in *. set (s := rsum (length zs) (fun i => nth i zs 0 * nth i M 0)).
  assert (Sp : 0 < s).
  { assert (G : 0 <= s) by (apply rsum_nonneg; intros i Hi; specialize (H i Hi); apply Rmult_le_pos; lra). destruct G as [G|G]; [exact G|]. exfalso.
    assert (Z : rsum (length zs) (fun i => nth i zs 0) = 0); [|lra]. apply rsum_eq_0. intros i Hi. pose proof (rsum_zero (length zs) (fun i => nth i zs 0 * nth i M 0)) as W.
    specialize (W ltac:(intros k Hk; specialize (H k Hk); apply Rmult_le_pos; lra) (eq_sym G) i Hi). cbv beta in W. specialize (H i Hi). apply Rmult_integral in W. lra. }
  assert (W : forall i, (i < length zs)%nat -> nth i (zs_to_ws zs M) 0 = nth i zs 0 * nth i M 0 / s) by (intros i Hi; apply (conversion Rmult zs M i L Hi)).
  assert (WL : length (zs_to_ws zs M) = length zs) by (unfold zs_to_ws; cbv zeta; rewrite map_length; apply weighted_length; exact L).
  assert (ZL : length (ws_to_zs (zs_to_ws zs M) M) = length zs) by (unfold ws_to_zs; cbv zeta; rewrite map_length; rewrite weighted_length; [exact WL|rewrite WL; exact L]).
  apply list_ext; [exact ZL|]. intros i Hi. rewrite ZL in Hi.
  pose proof (conversion Rdiv (zs_to_ws zs M) M i ltac:(rewrite WL; assumption) ltac:(rewrite WL; assumption)) as CV.
  match type of CV with _ = ?r => change (nth i (ws_to_zs (zs_to_ws zs M) M) 0 = r) in CV end. rewrite CV, WL.
  assert (D : forall k, (k < length zs)%nat -> nth k (zs_to_ws zs M) 0 / nth k M 0 = nth k zs 0 * / s).
  { intros k Hk. rewrite W by exact Hk. specialize (H k Hk). field. split; lra. }
  rewrite (rsum_ext (length zs) (fun i0 => nth i0 (zs_to_ws zs M) 0 / nth i0 M 0) (fun k => nth k zs 0 * / s)) by exact D.
  rewrite D by exact Hi. rewrite rsum_scal_r, S. field. lra.
Qed.
(* Mixed linearly, the partial property of a component is its pure value - with the differences the code uses, whatever the composition. *)
Lemma replace_length l i x : length (replace_nth l i x) = length l.
Proof. unfold replace_nth. rewrite map_length, seq_length. reflexivity. Qed.
Lemma replace_nth_nth l i x k : (k < length l)%nat -> nth k (replace_nth l i x) 0 = if (k =? i)%nat then x else nth k l 0.
Proof. intros H. unfold replace_nth. rewrite (nth_map_default _ _ 0%nat) by (rewrite seq_length; exact H). rewrite seq_nth by exact H. reflexivity. Qed.
Lemma extensive_linear o T P zs i v ni r : method o = LINEAR -> pure_values o T P v -> length zs = length v -> (i < length zs)%nat -> total_of (replace_nth zs i ni) <> 0 -> prop_extensive o T P zs i ni = Some r ->
  r = rsum (length zs) (fun k => if (k =? i)%nat then 0 else nth k zs 0 * nth k v 0) + ni * nth i v 0.
Proof.
  intros M H L Hi N. unfold prop_extensive. cbv zeta. set (ns := replace_nth zs i ni) in *. set (n := total_of ns) in *.
  destruct (mixture_property o T P (Some (map (fun x => x / n) ns)) None) as [u| |] eqn:E; [|discriminate..]. intros Q. injection Q as <-.
  unfold mixture_property in E. cbn [complete_zs_ws] in E. 
  assert (C : calculate o T P (map (fun x => x / n) ns) (zs_to_ws (map (fun x => x / n) ns) (MWs o)) (method o) = Some u).
  { pose proof (C67_value o T P (map (fun x => x / n) ns) (zs_to_ws (map (fun x => x / n) ns) (MWs o)) u) as V. apply V. exact E. }
  rewrite M in C. destruct (C67_linear o T P (map (fun x => x / n) ns) (zs_to_ws (map (fun x => x / n) ns) (MWs o)) v H) as [F _]; [rewrite map_length; unfold ns; rewrite replace_length; exact L|].
  rewrite F in C. injection C as <-. rewrite map_length. unfold ns. rewrite replace_length. fold ns.
  rewrite <- rsum_scal_r. rewrite (rsum_split (length zs) i) by exact Hi.
  rewrite (rsum_ext (length zs) (fun j => if (j =? i)%nat then 0 else nth j (map (fun x => x / n) ns) 0 * nth j v 0 * n) (fun k => if (k =? i)%nat then 0 else nth k zs 0 * nth k v 0)).
  - rewrite (nth_map_default _ _ 0) by (unfold ns; rewrite replace_length; exact Hi). unfold ns at 1. rewrite replace_nth_nth, Nat.eqb_refl by exact Hi. rewrite Rplus_comm. f_equal. field. exact N.
  - intros k Hk. destruct (Nat.eqb_spec k i) as [->|D]; [reflexivity|]. rewrite (nth_map_default _ _ 0) by (unfold ns; rewrite replace_length; exact Hk). unfold ns at 1. rewrite replace_nth_nth by exact Hk.
    destruct (Nat.eqb_spec k i); [contradiction|]. field. exact N.
Qed.
Lemma total_replace zs i ni : (i < length zs)%nat -> total_of (replace_nth zs i ni) = total_of zs - nth i zs 0 + ni.
Proof.
  intros H. unfold total_of. rewrite replace_length. rewrite (rsum_split (length zs) i (fun k => nth k (replace_nth zs i ni) 0)) by exact H. rewrite (rsum_split (length zs) i (fun k => nth k zs 0)) by exact H.
  rewrite replace_nth_nth, Nat.eqb_refl by exact H. rewrite (rsum_ext (length zs) (fun j => if (j =? i)%nat then 0 else nth j (replace_nth zs i ni) 0) (fun j => if (j =? i)%nat then 0 else nth j zs 0)); [lra|].
  intros k Hk. destruct (Nat.eqb_spec k i) as [|D]; [reflexivity|]. rewrite replace_nth_nth by exact Hk. destruct (Nat.eqb_spec k i); [contradiction|reflexivity].
Qed.
Theorem C67_partial_linear o T P zs ws v i r : method o = LINEAR -> pure_values o T P v -> length zs = length v -> (i < length zs)%nat -> rsum (length zs) (fun k => nth k zs 0) = 1 ->
  partial_property o T P i (Some zs) ws = Some r -> r = nth i v 0.
Proof.
  intros M H L Hi S. unfold partial_property. replace (complete_zs_ws o (Some zs) ws) with (Some (zs, match ws with Some w => w | None => zs_to_ws zs (MWs o) end)) by (destruct ws; reflexivity).
  cbv zeta. set (dx := 1 / 1000000).
  assert (Tn : forall y, - dx <= y <= dx -> total_of (replace_nth zs i (nth i zs 0 + y)) <> 0).
  { intros y Hy. rewrite total_replace by exact Hi. unfold total_of. rewrite S. unfold dx in *. lra. }
  destruct (prop_extensive o T P zs i (nth i zs 0 - dx)) as [a|] eqn:A; [|discriminate]. destruct (prop_extensive o T P zs i (nth i zs 0)) as [b|] eqn:B; [|discriminate].
  destruct (prop_extensive o T P zs i (nth i zs 0 + dx)) as [c|] eqn:C; [|discriminate]. intros Q. injection Q as <-.
  apply (extensive_linear o T P zs i v) in A; try assumption; [|apply (Tn (- dx)); unfold dx; lra]. apply (extensive_linear o T P zs i v) in C; try assumption; [|apply Tn; unfold dx; lra].
  subst a c. unfold dx. field.
Qed.

(* --- what a call returns --- *)
Fixpoint run (s : state) (h : list op) : state := match h with [] => s | a :: h => run (exec s a) h end.
Definition listed (k : key) : Prop := match k with Tuple _ _ _ _ => False | _ => True end.
Lemma exec_listed s a : listed (cached s) -> listed (cached (exec s a)).
Proof.
  intros H. destruct a; cbn [exec]; [|exact I| |exact I].
  - unfold call. destruct (complete_zs_ws (ob s) zs ws) as [[z w]|]; [|exact H]. destruct (key_eqb (Tuple T P z w) (cached s)); [exact H|]. destruct (mixture_property (ob s) T P (Some z) (Some w)); [exact I|exact I|exact H].
  - destruct (eqb b (correct_pressure (ob s))); [exact H|exact I].
Qed.
Lemma run_listed h : forall s, listed (cached s) -> listed (cached (run s h)).
Proof. induction h as [|a h IH]; intros s H; [exact H|]. cbn [run]. apply IH, exec_listed. exact H. Qed.
(* whatever happened before, a call returns the property of the mixture for the methods selected now *)
Theorem C67_call o h T P zs ws : fst (call (run {| ob := o; cached := List_None; prop_cached := NoValue |} h) T P zs ws) = mixture_property (ob (run {| ob := o; cached := List_None; prop_cached := NoValue |} h)) T P zs ws.
Proof.
  set (s := run _ h). assert (H : listed (cached s)) by (apply run_listed; exact I). unfold call, mixture_property at 2.
  destruct (complete_zs_ws (ob s) zs ws) as [[z w]|]; [|reflexivity].
  assert (K : key_eqb (Tuple T P z w) (cached s) = false) by (destruct (cached s); [destruct H|reflexivity|reflexivity]). rewrite K.
  unfold mixture_property. cbn [complete_zs_ws]. destruct (if negb (skip_method (ob s)) then _ else _) as [[|]|]; [|destruct (raise_errors (ob s)); reflexivity|reflexivity].
  destruct (calculate (ob s) T P z w (method (ob s))) as [v|]; [|destruct (raise_errors (ob s)); reflexivity]. destruct (skip_prop (ob s) || test_property_validity (ob s) v); [reflexivity|destruct (raise_errors (ob s)); reflexivity].
Qed.
(* the remembered value is never used: whatever it is, the answer is the same *)
Theorem C67_memory_unused o h T P zs ws r : let s := run {| ob := o; cached := List_None; prop_cached := NoValue |} h in
  fst (call {| ob := ob s; cached := cached s; prop_cached := r |} T P zs ws) = fst (call s T P zs ws).
Proof.
  intros s. assert (H : listed (cached s)) by (apply run_listed; exact I). unfold call. cbn [ob cached prop_cached]. destruct (complete_zs_ws (ob s) zs ws) as [[z w]|]; [|reflexivity].
  assert (K : key_eqb (Tuple T P z w) (cached s) = false) by (destruct (cached s); [destruct H|reflexivity|reflexivity]). rewrite K.
  destruct (mixture_property (ob s) T P (Some z) (Some w)); reflexivity.
Qed.

(* --- findings --- *)
Definition const_pure (v : R) : pure := {| p_T := fun _ => Some v; p_TP := fun _ _ => Some v |}.
(* constant coefficients: a b c of the pairs (0,1), (0,2), (1,2), one term *)
Definition pair_coeffs (n : nat) (f : nat -> nat -> R) (N : nat) : corr :=
  {| c_coeffs := fun i j k t => if (i <? N)%nat && (j <? N)%nat && (k <? 1)%nat && (t <? n)%nat then Some (if (t =? 0)%nat then f i j else 0) else None; c_terms := 1; c_T := n |}.
Definition demo (ps : list R) (m : meth) (cs : list (nat * corr)) (skip : bool) : obj :=
  {| pures := map const_pure ps; P_dependent := false; correct_pressure := false; MWs := map (fun _ => 1) ps; corrs := cs;
     T_limits := fun _ => (Some 300, Some 400); P_limits := fun _ => (None, None); class_valid := None;
     property_min := -100; property_max := 100; skip_method := skip; skip_prop := false; raise_errors := false; method := m |}.
Lemma demo_pures ps m cs skip T P : pure_values (demo ps m cs skip) T P ps.
Proof.
  split; [cbn; rewrite map_length; reflexivity|]. intros i p. cbn [demo pures]. rewrite nth_error_map'. destruct (nth_error ps i) as [x|] eqn:E; [|discriminate]. intros H. injection H as <-.
  unfold pure_value. cbn. f_equal. symmetry. apply nth_error_nth. exact E.
Qed.
(* The validity of the method is tested only if the flag to skip that test is set: by default a value is returned outside the limits of the method, and with the flag it is not. *)
Theorem C67_validity_refuted : exists T P zs ws v,
  (forall skip, test_method_validity (demo [1; 2] LINEAR [] skip) T P zs ws LINEAR = Some false) /\
  mixture_property (demo [1; 2] LINEAR [] false) T P (Some zs) (Some ws) = Value v /\ mixture_property (demo [1; 2] LINEAR [] true) T P (Some zs) (Some ws) = NoValue.
Proof.
  exists 500, 1, [1 / 2; 1 / 2], [1 / 2; 1 / 2], (mean [1 / 2; 1 / 2] [1; 2]). split; [|split].
  - intros skip. unfold test_method_validity. cbn [demo class_valid T_limits P_limits below above fst snd]. rewrite Rltb_false by lra. rewrite Rltb_true by lra. reflexivity.
  - unfold mixture_property. cbn [complete_zs_ws]. cbn [demo skip_method negb method]. fold (demo [1; 2] LINEAR [] false).
    rewrite (proj1 (C67_linear (demo [1; 2] LINEAR [] false) 500 1 [1 / 2; 1 / 2] [1 / 2; 1 / 2] [1; 2] (demo_pures _ _ _ _ _ _) eq_refl)).
    unfold test_property_validity. cbn [demo skip_prop property_min property_max orb]. unfold mean. cbn [length rsum nth]. rewrite !Rltb_false by lra. reflexivity.
  - unfold mixture_property. cbn [complete_zs_ws]. cbn [demo skip_method negb method]. fold (demo [1; 2] LINEAR [] true). unfold test_method_validity. cbn [demo class_valid T_limits P_limits below above fst snd].
    rewrite Rltb_false by lra. rewrite Rltb_true by lra. reflexivity.
Qed.
Lemma pair_given n f N : given N (pair_coeffs n f N) (fun i j k t => if (t =? 0)%nat then f i j else 0).
Proof.
  intros i j k t Hi Hj Hk Ht. cbn [pair_coeffs c_coeffs c_terms c_T] in *. rewrite (proj2 (Nat.ltb_lt i N)), (proj2 (Nat.ltb_lt j N)), (proj2 (Nat.ltb_lt k 1)), (proj2 (Nat.ltb_lt t n)) by lia. reflexivity.
Qed.
(* The number of temperature terms is taken for the number of components: with two terms the interactions of a third component are left out, *)
Theorem C67_components_refuted : exists o T P zs ws v k c e, pure_values o T P v /\ length zs = length v /\ find_corr o k = Some c /\ given (length zs) c e /\ (c_T c = 2)%nat /\ (length zs = 3)%nat /\
  exists r, calculate o T P zs ws (Corr k) = Some r /\ r <> mean zs v + rk_sum (length zs) (c_terms c) (fun i j n => coefficient (e i j n) T (c_T c)) (fun i => nth i zs 0).
Proof.
  set (f := fun i j : nat => if (i =? 2)%nat || (j =? 2)%nat then if (i =? j)%nat then 0 else 9 else 0).
  set (c := pair_coeffs 2 f 3). exists (demo [1; 2; 3] (Corr 5) [(5%nat, c)] false), 300, 1, [1 / 3; 1 / 3; 1 / 3], [1 / 3; 1 / 3; 1 / 3], [1; 2; 3], 5%nat, c, (fun i j k t => if (t =? 0)%nat then f i j else 0).
  split; [apply demo_pures|]. split; [reflexivity|]. split; [reflexivity|]. split; [apply pair_given|]. split; [reflexivity|]. split; [reflexivity|].
  eexists. split; [apply (corr_value _ _ _ _ _ [1; 2; 3] 5%nat c (fun i j k t => if (t =? 0)%nat then f i j else 0) (demo_pures _ _ _ _ _ _)); [reflexivity|lra|reflexivity|apply (pair_given 2 f 3)|left; reflexivity|cbn; lia]|].
  unfold rk_sum. cbn [c pair_coeffs c_T c_terms length rsum nth coefficient Nat.eqb pow]. unfold f. cbn [Nat.eqb orb]. lra.
Qed.
(* and with three terms a binary mixture has no property at all. *)
Theorem C67_terms_refuted : exists o T P zs ws v k c e, pure_values o T P v /\ length zs = length v /\ find_corr o k = Some c /\ given (length zs) c e /\ (c_T c = 3)%nat /\ (length zs = 2)%nat /\
  method o = Corr k /\ T <> 0 /\ fractions zs /\ mixture_property o T P (Some zs) (Some ws) = NoValue.
Proof.
  set (f := fun i j : nat => if (i =? j)%nat then 0 else 1).
  set (c := pair_coeffs 3 f 2). exists (demo [1; 2] (Corr 5) [(5%nat, c)] false), 300, 1, [1 / 2; 1 / 2], [1 / 2; 1 / 2], [1; 2], 5%nat, c, (fun i j k t => if (t =? 0)%nat then f i j else 0).
  split; [apply demo_pures|]. split; [reflexivity|]. split; [reflexivity|]. split; [apply pair_given|]. split; [reflexivity|]. split; [reflexivity|]. split; [reflexivity|]. split; [lra|].
  split; [split; [intros [|[|i]] Hi; cbn in *; lra || lia|cbn; lra]|].
  unfold mixture_property. cbn [complete_zs_ws]. unfold calculate. rewrite (pures_all _ 300 1 [1; 2] (demo_pures _ _ _ _ _ _)).
  cbn [demo skip_method negb method]. change (find_corr _ 5) with (Some c). cbv beta iota zeta. rewrite (given_defined (length [1 / 2; 1 / 2]) c _ (pair_given 3 f 2)). reflexivity.
Qed.
(* Coefficients of a pair found by the names of its components are entered for the order of the mixture: the same mixture, listed in the other order, has another property. *)
Definition one_pair (d : pair_data) (i j : nat) : option pair_data := if (i =? j)%nat then None else Some d.
Theorem C67_order_refuted : exists d c v1 v2, json_corr 2 (one_pair d) = Some c /\
  calculate (demo [1; 1] (Corr 5) [(5%nat, c)] false) 300 1 [1 / 4; 3 / 4] [1 / 4; 3 / 4] (Corr 5) = Some v1 /\
  calculate (demo [1; 1] (Corr 5) [(5%nat, c)] false) 300 1 [3 / 4; 1 / 4] [3 / 4; 1 / 4] (Corr 5) = Some v2 /\ v1 <> v2.
Proof.
  set (d := {| d_T := 2; d_terms := 2; d_coeffs := [[0; 0]; [1; 0]] |}). exists d.
  assert (G : exists c, json_corr 2 (one_pair d) = Some c /\ c_T c = 2%nat /\ c_terms c = 2%nat /\
    given 2 c (fun i j k t => if (i =? j)%nat then 0 else if (t =? 0)%nat && (k =? 1)%nat then if (i <? j)%nat then 1 else -1 else 0)).
  { eexists. split; [reflexivity|]. split; [reflexivity|]. split; [reflexivity|]. intros i j k t Hi Hj Hk Ht. cbn [c_terms c_T] in *.
    assert (k < 2)%nat by exact Hk. assert (t < 2)%nat by exact Ht.
    destruct i as [|[|i]], j as [|[|j]], k as [|[|k]], t as [|[|t]]; try lia; cbn; rewrite ?Ropp_0; reflexivity. }
  destruct G as [c [G1 [G2 [G3 G4]]]]. exists c. do 2 eexists. split; [exact G1|].
  assert (V : forall x y, calculate (demo [1; 1] (Corr 5) [(5%nat, c)] false) 300 1 [x; y] [x; y] (Corr 5) = Some (mean [x; y] [1; 1] + rk_sum 2 2 (fun i j n => coefficient ((fun i j k t => if (i =? j)%nat then 0 else if (t =? 0)%nat && (k =? 1)%nat then if (i <? j)%nat then 1 else -1 else 0) i j n) 300 2) (fun i => nth i [x; y] 0))).
  { intros x y. rewrite (corr_value (demo [1; 1] (Corr 5) [(5%nat, c)] false) 300 1 [x; y] [x; y] [1; 1] 5%nat c _ (demo_pures _ _ _ _ _ _) eq_refl ltac:(lra) eq_refl G4); [rewrite G2, G3; reflexivity|left; exact G2|rewrite G2; cbn; lia]. }
  split; [apply V|]. split; [apply V|]. unfold mean, rk_sum. cbn [length rsum nth coefficient Nat.eqb Nat.ltb Nat.leb andb pow]. lra.
Qed.
(* and pairs with different numbers of terms cannot be combined: a mixture of three components, two pairs known, has no property. *)
Theorem C67_padding_refuted : exists d1 d2 c, json_corr 3 (fun i j => if (i + j =? 1)%nat then Some d1 else if (i + j =? 3)%nat then Some d2 else None) = Some c /\ c_T c = 3%nat /\
  mixture_property (demo [1; 2; 3] (Corr 5) [(5%nat, c)] false) 300 1 (Some [1 / 3; 1 / 3; 1 / 3]) (Some [1 / 3; 1 / 3; 1 / 3]) = NoValue.
Proof.
  set (d1 := {| d_T := 3; d_terms := 1; d_coeffs := [[1; 0; 0]] |}). set (d2 := {| d_T := 3; d_terms := 2; d_coeffs := [[1; 0; 0]; [1; 0; 0]] |}).
  exists d1, d2. eexists. split; [reflexivity|]. split; [reflexivity|]. match goal with |- mixture_property (demo _ _ [(_, ?x)] _) _ _ _ _ = _ => set (c := x) end.
  unfold mixture_property. cbn [complete_zs_ws]. unfold calculate. rewrite (pures_all _ 300 1 [1; 2; 3] (demo_pures _ _ _ _ _ _)).
  cbn [demo skip_method negb method]. change (find_corr _ 5) with (Some c). cbv beta iota zeta.
  assert (D : defined_below (length [1 / 3; 1 / 3; 1 / 3]) (length [1 / 3; 1 / 3; 1 / 3]) (c_terms c) (c_T c) (c_coeffs c) = false) by reflexivity. rewrite D. reflexivity.
Qed.
(* any method is accepted, also one there is not; the property is then missing *)
Theorem C67_method_refuted : exists o k T P zs, find_corr o k = None /\ fractions zs /\ (exists v, mixture_property (with_method o LINEAR) T P (Some zs) (Some zs) = Value v) /\
  (let s := exec {| ob := o; cached := List_None; prop_cached := NoValue |} (Set_method (Corr k)) in method (ob s) = Corr k /\ mixture_property (ob s) T P (Some zs) (Some zs) = NoValue).
Proof.
  exists (demo [1; 2] LINEAR [] false), 5%nat, 300, 1, [1 / 2; 1 / 2]. split; [reflexivity|]. split; [split; [intros [|[|i]] Hi; cbn in *; lra || lia|cbn; lra]|]. split.
  - exists (mean [1 / 2; 1 / 2] [1; 2]). unfold mixture_property. cbn [complete_zs_ws]. change (with_method (demo [1; 2] LINEAR [] false) LINEAR) with (demo [1; 2] LINEAR [] false).
    cbn [demo skip_method negb method]. fold (demo [1; 2] LINEAR [] false).
    rewrite (proj1 (C67_linear (demo [1; 2] LINEAR [] false) 300 1 [1 / 2; 1 / 2] [1 / 2; 1 / 2] [1; 2] (demo_pures _ _ _ _ _ _) eq_refl)).
    unfold test_property_validity. cbn [demo skip_prop property_min property_max orb]. unfold mean. cbn [length rsum nth]. rewrite !Rltb_false by lra. reflexivity.
  - cbv zeta. split; [reflexivity|]. cbn [exec ob]. change (with_method (demo [1; 2] LINEAR [] false) (Corr 5)) with (demo [1; 2] (Corr 5) [] false).
    unfold mixture_property. cbn [complete_zs_ws]. unfold calculate. rewrite (pures_all _ 300 1 [1; 2] (demo_pures _ _ _ _ _ _)). reflexivity.
Qed.

(* --- the hypotheses are met --- *)
Example C67_hypotheses_met : let o := demo [1; 4] LINEAR [(5%nat, pair_coeffs 2 (fun i j => if (i =? j)%nat then 0 else 2) 2)] false in
  pure_values o 300 1 [1; 4] /\ fractions [1 / 4; 3 / 4] /\ least [1; 4] 1 /\ greatest [1; 4] 4 /\ (forall i, (i < length [1; 4])%nat -> 0 < nth i [1; 4] 0) /\
  find_corr o 5 = Some (pair_coeffs 2 (fun i j => if (i =? j)%nat then 0 else 2) 2) /\ c_T (pair_coeffs 2 (fun i j => if (i =? j)%nat then 0 else 2) 2) = length [1; 4] /\
  (exists r, partial_property o 300 1 0 (Some [1 / 4; 3 / 4]) None = Some r).
Proof.
  intros o. split; [apply demo_pures|]. split; [split; [intros [|[|i]] Hi; cbn in *; lra || lia|cbn; lra]|]. split; [intros [|[|i]] Hi; cbn in *; lra || lia|].
  split; [intros [|[|i]] Hi; cbn in *; lra || lia|]. split; [intros [|[|i]] Hi; cbn in *; lra || lia|]. split; [reflexivity|]. split; [reflexivity|].
  assert (E : forall y, 0 < y < 1 -> exists r, prop_extensive o 300 1 [1 / 4; 3 / 4] 0 y = Some r).
  { intros y Hy. unfold prop_extensive. cbv zeta. change (replace_nth [1 / 4; 3 / 4] 0 y) with [y; 3 / 4]. assert (Tt : total_of [y; 3 / 4] = y + 3 / 4) by (unfold total_of; cbn; lra). rewrite Tt. cbn [map].
    unfold mixture_property. cbn [complete_zs_ws]. set (w := zs_to_ws _ _). change (negb (skip_method o)) with true. change (method o) with LINEAR. cbv iota.
    rewrite (proj1 (C67_linear o 300 1 [y / (y + 3 / 4); 3 / 4 / (y + 3 / 4)] w [1; 4] (demo_pures _ _ _ _ _ _) eq_refl)). cbn [length rsum nth].
    replace (skip_prop o) with false by reflexivity. cbn [orb]. unfold test_property_validity. change (property_min o) with (-100). change (property_max o) with 100.
    assert (B : 0 + y / (y + 3 / 4) * 1 + 3 / 4 / (y + 3 / 4) * 4 = (y + 3) / (y + 3 / 4)) by (field; lra). rewrite B.
    assert (B1 : 0 < (y + 3) / (y + 3 / 4)) by (apply Rdiv_lt_0_compat; lra).
    assert (B2 : (y + 3) / (y + 3 / 4) <= 100) by (apply Rmult_le_reg_r with (y + 3 / 4); [lra|]; unfold Rdiv; rewrite Rmult_assoc, Rinv_l by lra; lra).
    rewrite !Rltb_false by lra. eexists. reflexivity. }
  unfold partial_property. cbn [complete_zs_ws nth]. cbv zeta.
  destruct (E (1 / 4 - 1 / 1000000)) as [a ->]; [lra|]. destruct (E (1 / 4)) as [b ->]; [lra|]. destruct (E (1 / 4 + 1 / 1000000)) as [c ->]; [lra|]. eexists. reflexivity.
Qed.
