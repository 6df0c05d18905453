(* C53: Michelsen's stability iteration. *)
From Coq Require Import Reals Lra Lia List Bool Arith FunctionalExtensionality.
From Verif Require Import Base BaseFacts Model_ss Model_stability Spec_split SsFacts Prop_C52.
Import ListNotations.
Open Scope R_scope.

(* fugacity of component i in the test phase of composition w *)
Definition test_fugacity (P : R) (lnphi : comp -> comp) (w : comp) (i : nat) : R := P * w i * exp (lnphi w i).
(* how far W = S w is from a stationary point of the tangent plane distance: f_trial / (S f_test) *)
Definition stationarity (P : R) (lnphi : comp -> comp) (f_trial : comp) (S : R) (w : comp) (i : nat) : R := f_trial i / (S * test_fugacity P lnphi w i).
(* the reduced tangent plane distance of the test composition w from the trial phase, sum w (ln f_test - ln f_trial) *)
Definition tangent_plane_distance (N : nat) (P : R) (lnphi : comp -> comp) (f_trial : comp) (w : comp) : R :=
  rsum N (fun i => w i * (ln (test_fugacity P lnphi w i) - ln (f_trial i))).

Lemma correct_spec N ft f si Ks : let '(K1, err) := correct N ft f si Ks in
  (forall i, (i < N)%nat -> K1 i = if Req_EM_T (f i) 0 then Ks i else Ks i * (ft i / f i * si)) /\
  err = rsum N (fun i => if Req_EM_T (f i) 0 then 0 else Rsqr (ft i / f i * si - 1)).
Proof.
  set (body := fun i (st : vec * R) => let '(Ks, err) := st in if Reqb (f i) 0 then (Ks, err) else let ci := ft i / f i * si in (upd Ks i (Ks i * ci), err + (ci - 1) * (ci - 1))).
  assert (G : forall n, (fun st => (forall i, (i < n)%nat -> fst st i = if Req_EM_T (f i) 0 then Ks i else Ks i * (ft i / f i * si)) /\ (forall i, (n <= i)%nat -> fst st i = Ks i) /\
    snd st = rsum n (fun i => if Req_EM_T (f i) 0 then 0 else Rsqr (ft i / f i * si - 1))) (loop n body (Ks, 0))).
  { induction n as [|n IH]; [cbn; splits; auto; intros; lia|]. cbn [loop rsum]. destruct (loop n body (Ks, 0)) as [K e]. cbn [fst snd] in IH. destruct IH as [A [B C]].
    unfold body. unfold Reqb. destruct (Req_EM_T (f n) 0) as [Z|Z]; cbn [fst snd]; splits.
    - intros i I. destruct (Nat.eq_dec i n) as [->|]; [|apply A; lia]. destruct (Req_EM_T (f n) 0); [apply B; lia|contradiction].
    - intros; apply B; lia.
    - rewrite C. ring.
    - intros i I. unfold upd. destruct (Nat.eqb_spec i n) as [->|]; [|apply A; lia]. destruct (Req_EM_T (f n) 0); [contradiction|]. rewrite (B n) by lia. reflexivity.
    - intros i I. unfold upd. destruct (Nat.eqb_spec i n); [lia|]. apply B; lia.
    - rewrite C. unfold Rsqr. ring. }
  change (correct N ft f si Ks) with (loop N body (Ks, 0)). specialize (G N). destruct (loop N body (Ks, 0)) as [K e]. cbn [fst snd] in G. destruct G as [A [_ C]]. split; auto.
Qed.

(* the result of a call, as a relation to the last test composition: w sums to one, S w = K z before the last correction, and the last
   corrections, all close to one, give the K values returned *)
Definition converged_at (N : nat) (inner : comp -> comp -> option R -> option (R * comp * comp)) (P : R) (z f_trial : comp) (lnphi : comp -> comp) (xtol : R) (t : trial) : Prop :=
  let S := t_sum t in let w := t_zs_test t in let c := stationarity P lnphi f_trial S w in
  S <> 0 /\ rsum N w = 1 /\
  (forall i, (i < N)%nat -> z i <> 0 -> t_Ks t i * z i = (if Req_EM_T (test_fugacity P lnphi w i) 0 then S * w i else S * w i * c i)) /\
  (forall i, (i < N)%nat -> z i = 0 -> t_Ks t i = 0) /\
  rsum N (fun i => if Req_EM_T (test_fugacity P lnphi w i) 0 then 0 else Rsqr (c i - 1)) < xtol /\
  ((exists V x y, inner z (t_Ks t) None = Some (V, x, y) /\ t_V t = V /\ t_trial_zs t = x /\ t_appearing_zs t = y) \/
   (inner z (t_Ks t) None = None /\ t_V t = 0 /\ t_trial_zs t = z /\ t_appearing_zs t = z)).

Lemma finish_fields N inner zs Ks w lp s : let t := finish N inner zs Ks w lp s in
  t_sum t = s /\ t_Ks t = Ks /\ t_zs_test t = w /\
  ((exists V x y, inner zs Ks None = Some (V, x, y) /\ t_V t = V /\ t_trial_zs t = x /\ t_appearing_zs t = y) \/
   (inner zs Ks None = None /\ t_V t = 0 /\ t_trial_zs t = zs /\ t_appearing_zs t = zs)).
Proof.
  unfold finish. destruct (inner zs Ks None) as [[[V x] y]|] eqn:E; cbn; splits; auto.
  left. exists V, x, y. auto.
Qed.
Lemma stability_loop_spec N inner P zs ft lnphi xtol fuel : forall Ks w s t, s <> 0 -> rsum N w = 1 ->
  (forall i, (i < N)%nat -> zs i <> 0 -> Ks i * zs i = s * w i) -> (forall i, (i < N)%nat -> zs i = 0 -> Ks i = 0) ->
  stability_loop N inner fuel P zs ft lnphi xtol Ks w s (1 / s) = Some t ->
  converged_at N inner P zs ft lnphi xtol t \/ (t_sum t = 0 /\ forall i, (i < N)%nat -> t_zs_test t i = t_Ks t i * zs i).
Proof.
  induction fuel as [|fuel IH]; intros Ks w s t S0 W KZ K0 H; [discriminate|]. cbn [stability_loop] in H.
  pose proof (correct_spec N ft (fun i => P * w i * exp (lnphi w i)) (1 / s) Ks) as C.
  destruct (correct N ft (fun i => P * w i * exp (lnphi w i)) (1 / s) Ks) as [K1 err]. destruct C as [C1 C2].
  assert (CI : forall i, P * w i * exp (lnphi w i) <> 0 -> ft i / (P * w i * exp (lnphi w i)) * (1 / s) = stationarity P lnphi ft s w i).
  { intros i Z. unfold stationarity, test_fugacity. field. splits; auto.
    - apply Rgt_not_eq, exp_pos.
    - intro Q. apply Z. rewrite Q. ring.
    - intro Q. apply Z. rewrite Q. ring. }
  assert (K1Z : forall i, (i < N)%nat -> zs i <> 0 -> K1 i * zs i = if Req_EM_T (test_fugacity P lnphi w i) 0 then s * w i else s * w i * stationarity P lnphi ft s w i).
  { intros i I Z. rewrite (C1 i I). unfold test_fugacity. destruct (Req_EM_T (P * w i * exp (lnphi w i)) 0) as [F|F]; [apply KZ; auto|].
    rewrite (CI i F). rewrite <- (KZ i I Z). ring. }
  assert (K1O : forall i, (i < N)%nat -> zs i = 0 -> K1 i = 0).
  { intros i I Z. rewrite (C1 i I), (K0 i I Z). destruct (Req_EM_T _ 0); ring. }
  destruct (Rltb_spec err xtol) as [L|L].
  - left. injection H; intro; subst t. destruct (finish_fields N inner zs K1 w (lnphi w) s) as [F1 [F2 [F3 F4]]]. unfold converged_at. rewrite F1, F2, F3. cbv zeta. splits; auto.
    rewrite <- C2 in L || idtac. apply Rle_lt_trans with err; [|auto]. rewrite C2. apply Req_le. apply rsum_ext. intros i I. unfold test_fugacity.
    destruct (Req_EM_T (P * w i * exp (lnphi w i)) 0) as [F|F]; [auto|]. rewrite (CI i F). reflexivity.
  - rewrite loop_rsum in H. rewrite Rplus_0_l in H. unfold Reqb in H. destruct (Req_EM_T (rsum N (fun i => K1 i * zs i)) 0) as [Z|Z].
    + right. injection H; intro; subst t. destruct (finish_fields N inner zs K1 (fun i => K1 i * zs i) (lnphi w) (rsum N (fun i => K1 i * zs i))) as [F1 [F2 [F3 _]]]. rewrite F1, F2, F3. auto.
    + apply IH in H; auto.
      * rewrite rsum_scal_r. field. auto.
      * intros i I _. field. auto.
Qed.

(* ---- what a converged trial is ---- *)
(* zs_test must start as a composition; zero entries of the trial composition stay without the component *)
Theorem C53_converged : forall N inner P z f_trial w0 lnphi maxiter xtol t, rsum N w0 = 1 ->
  (forall i, (i < N)%nat -> z i <> 0) ->
  stability_iteration_Michelsen N inner P z f_trial w0 lnphi maxiter xtol = Some t ->
  converged_at N inner P z f_trial lnphi xtol t \/ (t_sum t = 0 /\ forall i, (i < N)%nat -> t_zs_test t i = t_Ks t i * z i).
Proof.
  intros N inner P z ft w0 lnphi maxiter xtol t W Z H. unfold stability_iteration_Michelsen in H.
  assert (E1 : 1 = 1 / 1) by field. match type of H with stability_loop _ _ _ _ _ _ _ _ ?K _ _ _ = _ => change (stability_loop N inner maxiter P z ft lnphi xtol K w0 1 1 = Some t) in H end.
  rewrite E1 in H at 2. apply (stability_loop_spec N inner P z ft lnphi xtol maxiter) in H; auto.
  - intros i I Hz. unfold Reqb. destruct (Req_EM_T (z i) 0); [contradiction|]. field. auto.
  - intros i I Hz. unfold Reqb. destruct (Req_EM_T (z i) 0); [auto|contradiction].
Qed.
(* every correction is within sqrt(xtol) of one *)
Lemma corrections_close N P lnphi ft S w xtol : rsum N (fun i => if Req_EM_T (test_fugacity P lnphi w i) 0 then 0 else Rsqr (stationarity P lnphi ft S w i - 1)) < xtol ->
  forall i, (i < N)%nat -> test_fugacity P lnphi w i <> 0 -> Rabs (stationarity P lnphi ft S w i - 1) < sqrt xtol.
Proof.
  intros H i I D. set (f := fun i => if Req_EM_T (test_fugacity P lnphi w i) 0 then 0 else Rsqr (stationarity P lnphi ft S w i - 1)) in *.
  assert (F0 : forall k, 0 <= f k) by (intro k; unfold f; destruct (Req_EM_T _ 0); [lra|apply Rle_0_sqr]).
  rewrite <- sqrt_Rsqr_abs. apply sqrt_lt_1; [apply Rle_0_sqr|pose proof (rsum_nonneg N f (fun k _ => F0 k)); lra|].
  apply Rle_lt_trans with (rsum N f); [|auto].
  assert (E : Rsqr (stationarity P lnphi ft S w i - 1) = rsum N (fun k => if Nat.eqb k i then f i else 0)).
  { rewrite (rsum_single N i); [rewrite Nat.eqb_refl; unfold f; destruct (Req_EM_T _ 0); [contradiction|auto]|auto|]. intros k K Dk. destruct (Nat.eqb_spec k i); [lia|auto]. }
  rewrite E. apply rsum_le. intros k K. cbv beta. destruct (Nat.eqb_spec k i); [subst; lra|apply F0].
Qed.
Lemma ln_close c e : 0 <= e <= / 2 -> Rabs (c - 1) <= e -> Rabs (ln c) <= 2 * e.
Proof.
  intros E H. assert (C : 1 - e <= c <= 1 + e) by (split; [destruct (Rcase_abs (c - 1)); [rewrite Rabs_left in H by auto; lra|lra]|pose proof (Rle_abs (c - 1)); lra]).
  assert (0 < c) by lra. assert (U : ln c <= c - 1). { pose proof (exp_ineq1_le (ln c)) as Q. rewrite exp_ln in Q by auto. lra. }
  assert (Lo : 1 - / c <= ln c). { pose proof (exp_ineq1_le (- ln c)) as Q. rewrite exp_Ropp, exp_ln in Q by auto. lra. }
  apply Rabs_le. split; [|lra]. apply Rle_trans with (1 - / c); [|auto].
  assert (/ c <= 1 + 2 * e). { apply Rmult_le_reg_l with c; [auto|]. rewrite Rinv_r by lra. nra. } lra.
Qed.

(* ---- the tangent plane distance of a converged trial is -ln(sum), within the tolerance ---- *)
Theorem C53_tangent_plane : forall N inner P z f_trial lnphi xtol t, 0 < P -> xtol <= / 4 ->
  (forall i, (i < N)%nat -> 0 < f_trial i) -> (forall i, (i < N)%nat -> 0 < t_zs_test t i) -> 0 < t_sum t ->
  converged_at N inner P z f_trial lnphi xtol t ->
  Rabs (tangent_plane_distance N P lnphi f_trial (t_zs_test t) + ln (t_sum t)) <= 2 * sqrt xtol.
Proof.
  intros N inner P z ft lnphi xtol t HP X F W S [S0 [SW [_ [_ [E _]]]]].
  set (w := t_zs_test t) in *. set (s := t_sum t) in *. set (c := stationarity P lnphi ft s w) in *.
  assert (TF : forall i, (i < N)%nat -> 0 < test_fugacity P lnphi w i).
  { intros i I. unfold test_fugacity. apply Rmult_lt_0_compat; [apply Rmult_lt_0_compat; auto|apply exp_pos]. }
  assert (XT : 0 <= xtol). { apply Rlt_le. apply Rle_lt_trans with (2 := E). apply rsum_nonneg. intros i _. destruct (Req_EM_T _ 0); [lra|apply Rle_0_sqr]. }
  assert (SQ : 0 <= sqrt xtol <= / 2). { split; [apply sqrt_pos|]. replace (/ 2) with (sqrt (/ 4)). apply sqrt_le_1; lra. replace (/ 4) with (Rsqr (/ 2)) by (unfold Rsqr; field). apply sqrt_Rsqr. lra. }
  assert (CC : forall i, (i < N)%nat -> 0 < c i /\ Rabs (ln (c i)) <= 2 * sqrt xtol).
  { intros i I. split. { unfold c, stationarity. apply Rdiv_lt_0_compat; [auto|apply Rmult_lt_0_compat; auto]. }
    apply ln_close; [auto|]. apply Rlt_le. apply (corrections_close N P lnphi ft s w xtol E i I). apply Rgt_not_eq, TF, I. }
  assert (Q : tangent_plane_distance N P lnphi ft w + ln s = - rsum N (fun i => w i * ln (c i))).
  { unfold tangent_plane_distance. replace (ln s) with (rsum N w * ln s) by (rewrite SW; ring). rewrite <- rsum_scal_r, <- rsum_plus, <- rsum_opp.
    apply rsum_ext. intros i I. unfold c, stationarity. unfold Rdiv. rewrite ln_mult, ln_Rinv, ln_mult; auto; [ring| |].
    - apply Rmult_lt_0_compat; auto.
    - apply Rinv_0_lt_compat, Rmult_lt_0_compat; auto. }
  rewrite Q, Rabs_Ropp. apply Rle_trans with (rsum N (fun i => w i * (2 * sqrt xtol))).
  - clear - CC W. assert (G : forall n, (n <= N)%nat -> Rabs (rsum n (fun i => w i * ln (c i))) <= rsum n (fun i => w i * (2 * sqrt xtol))).
    { induction n; intros Hn; cbn; [rewrite Rabs_R0; lra|]. eapply Rle_trans; [apply Rabs_triang|]. apply Rplus_le_compat; [apply IHn; lia|].
      rewrite Rabs_mult, (Rabs_right (w n)) by (apply Rle_ge, Rlt_le, W; lia). apply Rmult_le_compat_l; [apply Rlt_le, W; lia|]. apply CC. lia. }
    apply G. lia.
  - rewrite rsum_scal_r, SW. lra.
Qed.
(* exactly -ln(sum) at an exactly stationary point *)
Theorem C53_tangent_plane_exact : forall N P f_trial lnphi S w, 0 < P -> 0 < S -> rsum N w = 1 ->
  (forall i, (i < N)%nat -> 0 < f_trial i /\ 0 < w i /\ stationarity P lnphi f_trial S w i = 1) -> tangent_plane_distance N P lnphi f_trial w = - ln S.
Proof.
  intros N P ft lnphi s w HP S SW H. unfold tangent_plane_distance. replace (- ln s) with (rsum N w * - ln s) by (rewrite SW; ring). rewrite <- rsum_scal_r.
  apply rsum_ext. intros i I. destruct (H i I) as [F [W C]].
  assert (TF : 0 < test_fugacity P lnphi w i) by (unfold test_fugacity; apply Rmult_lt_0_compat; [apply Rmult_lt_0_compat; auto|apply exp_pos]).
  assert (Q : ft i = s * test_fugacity P lnphi w i).
  { unfold stationarity in C. apply Rmult_eq_reg_r with (/ (s * test_fugacity P lnphi w i)). unfold Rdiv in C. rewrite C. field. split; lra.
    apply Rinv_neq_0_compat. apply Rmult_integral_contrapositive_currified; lra. }
  rewrite Q, ln_mult by auto. ring.
Qed.

(* ---- a positive phase fraction of the trial means that the sum exceeds one: the trial phase is not stable ---- *)
Lemma cauchy N x y : (forall i, (i < N)%nat -> 0 < x i) -> rsum N x = 1 -> rsum N y = 1 -> 1 <= rsum N (fun i => y i * y i / x i).
Proof.
  intros X SX SY.
  assert (Q : 0 <= rsum N (fun i => (y i - x i) * (y i - x i) / x i)).
  { apply rsum_nonneg. intros i I. apply Rmult_le_pos; [apply Rle_0_sqr|]. apply Rlt_le, Rinv_0_lt_compat; auto. }
  assert (E : rsum N (fun i => (y i - x i) * (y i - x i) / x i) = rsum N (fun i => y i * y i / x i) - 2 * rsum N y + rsum N x).
  { rewrite <- rsum_scal_l, <- rsum_minus, <- rsum_plus. apply rsum_ext. intros i I. field. apply Rgt_not_eq, X, I. }
  rewrite SX, SY in E. lra.
Qed.
Theorem C53_fraction_means_unstable : forall N z K V x y, Rachford_Rice N z K V x y -> (forall i, (i < N)%nat -> 0 < x i) -> 0 <= V ->
  1 <= rsum N (fun i => K i * z i).
Proof.
  intros N z K V x y [B [E [SX SY]]] X HV.
  assert (Q : rsum N (fun i => K i * z i) = V * rsum N (fun i => y i * y i / x i) + (1 - V) * rsum N y).
  { rewrite <- !rsum_scal_l, <- rsum_plus. apply rsum_ext. intros i I. rewrite (B i I).
    assert (KE : K i = y i / x i) by (rewrite (E i I); field; apply Rgt_not_eq, X, I). rewrite KE. 
    assert (YE : V * (y i * y i / x i) + (1 - V) * y i = y i / x i * (V * y i + (1 - V) * x i)) by (field; apply Rgt_not_eq, X, I). rewrite YE. reflexivity. }
  rewrite Q, SY. pose proof (cauchy N x y X SX SY). nra.
Qed.
(* so a converged trial that reports a phase fraction in (0, 1] has its sum, and with it minus its tangent plane distance, above one (zero)
   up to the tolerance *)
Theorem C53_split_is_real : forall N inner P z f_trial lnphi xtol t, solves N inner -> 0 < P -> xtol <= / 4 ->
  (forall i, (i < N)%nat -> 0 < z i /\ 0 < f_trial i /\ 0 < t_zs_test t i /\ 0 < t_trial_zs t i) -> 0 < t_sum t ->
  converged_at N inner P z f_trial lnphi xtol t -> 0 < t_V t ->
  1 <= t_sum t * (1 + sqrt xtol) /\ tangent_plane_distance N P lnphi f_trial (t_zs_test t) <= 4 * sqrt xtol.
Proof.
  intros N inner P z ft lnphi xtol t Sol HP X Pos S C V. pose proof C as C'. destruct C' as [S0 [SW [KZ [_ [E In]]]]].
  destruct In as [[V' [x [y [I1 [I2 [I3 I4]]]]]]|[_ [I2 _]]]; [|lra].
  pose proof (C53_tangent_plane N inner P z ft lnphi xtol t HP X (fun i I => proj1 (proj2 (Pos i I))) (fun i I => proj1 (proj2 (proj2 (Pos i I)))) S C) as TP.
  pose proof (Sol _ _ _ _ _ _ I1) as RR.
  assert (G : 1 <= rsum N (fun i => t_Ks t i * z i)).
  { apply (C53_fraction_means_unstable N z _ V' x y RR); [|lra]. intros i I. rewrite <- I3. apply Pos, I. }
  assert (TF : forall i, (i < N)%nat -> test_fugacity P lnphi (t_zs_test t) i <> 0).
  { intros i I. apply Rgt_not_eq. unfold test_fugacity. apply Rmult_lt_0_compat; [apply Rmult_lt_0_compat; auto; apply Pos, I|apply exp_pos]. }
  assert (LE : rsum N (fun i => t_Ks t i * z i) <= t_sum t * (1 + sqrt xtol)).
  { replace (t_sum t * (1 + sqrt xtol)) with (rsum N (fun i => t_zs_test t i * (t_sum t * (1 + sqrt xtol)))) by (rewrite rsum_scal_r, SW; ring).
    apply rsum_le. intros i I. rewrite (KZ i I) by (apply Rgt_not_eq, Pos, I). destruct (Req_EM_T _ 0) as [Z|Z]; [exfalso; exact (TF i I Z)|].
    pose proof (corrections_close N P lnphi ft (t_sum t) (t_zs_test t) xtol E i I Z) as D. pose proof (Rle_abs (stationarity P lnphi ft (t_sum t) (t_zs_test t) i - 1)).
    assert (0 < t_zs_test t i) by apply Pos, I. replace (t_zs_test t i * (t_sum t * (1 + sqrt xtol))) with (t_sum t * t_zs_test t i * (1 + sqrt xtol)) by ring.
    apply Rmult_le_compat_l; [apply Rmult_le_pos; lra|lra]. }
  split; [lra|].
  assert (L : - ln (t_sum t) <= sqrt xtol).
  { assert (0 < 1 + sqrt xtol) by (pose proof (sqrt_pos xtol); lra).
    assert (/ (1 + sqrt xtol) <= t_sum t). { apply Rmult_le_reg_r with (1 + sqrt xtol); [auto|]. rewrite Rinv_l by lra. lra. }
    assert (Q : ln (/ (1 + sqrt xtol)) <= ln (t_sum t)).
    { destruct H0 as [H0|H0]; [apply Rlt_le, ln_increasing; [apply Rinv_0_lt_compat; auto|auto]|rewrite H0; lra]. }
    rewrite ln_Rinv in Q by auto. pose proof (exp_ineq1_le (ln (1 + sqrt xtol))) as R1. rewrite exp_ln in R1 by auto. lra. }
  pose proof (Rle_abs (tangent_plane_distance N P lnphi ft (t_zs_test t) + ln (t_sum t))). pose proof (sqrt_pos xtol). lra.
Qed.

(* ---- phases whose fugacity coefficients do not depend on the composition: one correction gives the exact K values ---- *)
Theorem C53_ideal_exact : forall N inner P z w0 a c maxiter xtol, 0 < P -> (2 <= maxiter)%nat -> 0 < xtol ->
  (forall i, (i < N)%nat -> 0 < z i /\ 0 < w0 i) -> (1 <= N)%nat ->
  let K := fun i => exp (a i - c i) in
  exists t, stability_iteration_Michelsen N inner P z (fun i => P * z i * exp (a i)) w0 (fun _ => c) maxiter xtol = Some t /\
    (forall i, (i < N)%nat -> t_Ks t i = K i) /\
    ((forall i, (i < N)%nat -> t_sum t = rsum N (fun j => K j * z j) /\ t_zs_test t i = K i * z i / t_sum t) \/
     (* the guess itself was stationary within the tolerance *)
     (t_sum t = 1 /\ t_zs_test t = w0 /\ rsum N (fun i => Rsqr (stationarity P (fun _ => c) (fun i => P * z i * exp (a i)) 1 w0 i - 1)) < xtol)).
Proof.
  intros N inner P z w0 a c maxiter xtol HP M X Pos HN K. set (ft := fun i => P * z i * exp (a i)).
  destruct maxiter as [|[|maxiter]]; [lia|lia|]. unfold stability_iteration_Michelsen. cbn [stability_loop].
  pose proof (correct_spec N ft (fun i => P * w0 i * exp (c i)) 1 (fun i => if Reqb (z i) 0 then 0 else w0 i / z i)) as C.
  destruct (correct N ft (fun i => P * w0 i * exp (c i)) 1 _) as [K1 err]. destruct C as [C1 C2].
  assert (NZ : forall w i, 0 < w i -> P * w i * exp (c i) <> 0) by (intros w i W; apply Rgt_not_eq; apply Rmult_lt_0_compat; [apply Rmult_lt_0_compat; auto|apply exp_pos]).
  assert (KE : forall i, K i = exp (a i) / exp (c i)) by (intro i; unfold K, Rminus; rewrite exp_plus, exp_Ropp; reflexivity).
  assert (B : forall i, (i < N)%nat -> K1 i = K i).
  { intros i I. destruct (Pos i I) as [Z W]. rewrite (C1 i I). destruct (Req_EM_T _ 0) as [Q|_]; [exfalso; exact (NZ w0 i W Q)|]. unfold Reqb. destruct (Req_EM_T (z i) 0); [lra|].
    rewrite KE. unfold ft. field. splits; try lra. apply Rgt_not_eq, exp_pos. }
  destruct (Rltb_spec err xtol) as [L|L].
  - eexists. split; [reflexivity|]. destruct (finish_fields N inner z K1 w0 c 1) as [F1 [F2 [F3 _]]]. rewrite F1, F2, F3. split; [auto|]. right. splits; auto.
    apply Rle_lt_trans with err; [|auto]. rewrite C2. apply Req_le, rsum_ext. intros i I. destruct (Pos i I) as [Z W]. destruct (Req_EM_T _ 0) as [Q|_]; [exfalso; exact (NZ w0 i W Q)|].
    unfold stationarity, test_fugacity. f_equal. field. splits; try lra. apply Rgt_not_eq, exp_pos.
  - rewrite loop_rsum, Rplus_0_l. set (S := rsum N (fun i => K1 i * z i)).
    assert (SE : S = rsum N (fun j => K j * z j)) by (unfold S; apply rsum_ext; intros i I; rewrite (B i I); auto).
    assert (SP : 0 < S). { rewrite SE. destruct N as [|n]; [lia|]. cbn [rsum]. apply Rplus_le_lt_0_compat; [apply rsum_nonneg; intros i I; apply Rlt_le, Rmult_lt_0_compat; [apply exp_pos|apply Pos; lia]|]. apply Rmult_lt_0_compat; [apply exp_pos|apply Pos; lia]. }
    unfold Reqb at 1. destruct (Req_EM_T S 0); [lra|].
    set (w := fun i => K1 i * z i * (1 / S)).
    change (fun i : nat => P * (K1 i * z i * (1 / S)) * exp (c i)) with (fun i => P * w i * exp (c i)).
    assert (WP : forall i, (i < N)%nat -> 0 < w i). { intros i I. unfold w. rewrite (B i I). apply Rmult_lt_0_compat; [apply Rmult_lt_0_compat; [apply exp_pos|apply Pos; auto]|]. apply Rdiv_lt_0_compat; lra. }
    assert (WE : forall i, (i < N)%nat -> w i = K i * z i / S) by (intros i I; unfold w; rewrite (B i I); field; lra). clearbody w.
    pose proof (correct_spec N ft (fun i => P * w i * exp (c i)) (1 / S) K1) as D.
    destruct (correct N ft (fun i => P * w i * exp (c i)) (1 / S) K1) as [K3 err2]. destruct D as [D1 D2].
    assert (ONE : forall i, (i < N)%nat -> ft i / (P * w i * exp (c i)) * (1 / S) = 1).
    { intros i I. destruct (Pos i I) as [Z _]. rewrite (WE i I), KE. unfold ft. field. splits; try lra; try (apply Rgt_not_eq, exp_pos). }
    assert (E0 : err2 = 0).
    { rewrite D2. apply rsum_eq_0. intros i I. destruct (Req_EM_T _ 0) as [Q|_]; [auto|]. rewrite (ONE i I). unfold Rsqr. ring. }
    rewrite E0. destruct (Rltb_spec 0 xtol); [|lra]. eexists. split; [reflexivity|]. destruct (finish_fields N inner z K3 w c S) as [F1 [F2 [F3 _]]]. rewrite F1, F2, F3. split.
    + intros i I. rewrite (D1 i I), (B i I). destruct (Req_EM_T _ 0); [auto|]. rewrite (ONE i I). ring.
    + left. intros i I. split; [auto|]. apply WE, I.
Qed.

(* ---- and not conversely: a trial far below the tangent plane can be dropped ---- *)
(* When every K is above one (W = S w exceeds z in every component) no phase split solves the Rachford-Rice equations; the trial then
   reports the feed itself and the fraction zero, which the stability test passes over, although the tangent plane distance is -ln S < 0. *)
Lemma all_K_above_one N z K : (forall i, (i < N)%nat -> 1 < K i) -> (1 <= N)%nat -> forall V x y, Rachford_Rice N z K V x y -> (forall i, (i < N)%nat -> 0 <= x i) -> False.
Proof.
  intros HK HN V x y [_ [E [SX SY]]] X.
  assert (L : rsum N x <= rsum N y). { apply rsum_le. intros i I. rewrite (E i I). specialize (HK i I). specialize (X i I). nra. }
  assert (D : rsum N (fun i => (K i - 1) * x i) = 0). { transitivity (rsum N y - rsum N x); [|lra]. rewrite <- rsum_minus. apply rsum_ext. intros i I. rewrite (E i I). ring. }
  assert (Z : forall i, (i < N)%nat -> x i = 0).
  { intros i I. assert (NN : forall k, (k < N)%nat -> 0 <= (K k - 1) * x k) by (intros k Hk; apply Rmult_le_pos; [specialize (HK k Hk); lra|auto]).
    assert (LE : (K i - 1) * x i <= rsum N (fun i => (K i - 1) * x i)).
    { assert (EE : (K i - 1) * x i = rsum N (fun k => if Nat.eqb k i then (K i - 1) * x i else 0)).
      { rewrite (rsum_single N i); [rewrite Nat.eqb_refl; auto|auto|]. intros k Hk Dk. destruct (Nat.eqb_spec k i); [lia|auto]. }
      rewrite EE. apply rsum_le. intros k Hk. cbv beta. destruct (Nat.eqb_spec k i); [subst; lra|auto]. }
    rewrite D in LE. specialize (HK i I). specialize (X i I). nra. }
  assert (rsum N x = 0) by (apply rsum_eq_0; auto). lra.
Qed.
Definition K_deep : comp := fun i => if Nat.eqb i 0 then 3 else 2.
Definition w_deep : comp := fun i => if Nat.eqb i 0 then 3 / 5 else 2 / 5.
(* ln phi of the test phase: at w_deep it is far below the trial phase (ln phi = 0), at the feed it is above *)
Definition lnphi_deep (w : comp) : comp := fun i => - ln (K_deep i) + 200 * Rsqr (w 0%nat - 3 / 5).
Theorem C53_deep_instability_dropped_refuted : forall inner maxiter xtol, (2 <= maxiter)%nat -> 0 < xtol <= 4 ->
  (forall z K guess V x y, inner z K guess = Some (V, x, y) -> Rachford_Rice 2 z K V x y /\ forall i, (i < 2)%nat -> 0 <= x i) ->
  let f_trial := fun i => 101325 * half i in
  (* at the feed the trial phase has the lower Gibbs energy *)
  rsum 2 (fun i => half i * lnphi_deep half i) > 0 /\
  exists t, stability_iteration_Michelsen 2 inner 101325 half f_trial w_deep lnphi_deep maxiter xtol = Some t /\
    (forall i, (i < 2)%nat -> t_zs_test t i = w_deep i /\ stationarity 101325 lnphi_deep f_trial (t_sum t) (t_zs_test t) i = 1) /\
    tangent_plane_distance 2 101325 lnphi_deep f_trial (t_zs_test t) = - ln (5 / 2) /\ t_V t = 0 /\ t_trial_zs t = half /\ t_appearing_zs t = half.
Proof.
  intros inner maxiter xtol M X Sol ft.
  assert (L3 : ln 3 < 3 / 2). { apply exp_lt_inv. rewrite exp_ln by lra. pose proof (exp_ineq1 (3 / 4) ltac:(lra)) as Q. replace (3 / 2) with (3 / 4 + 3 / 4) by field. rewrite exp_plus. nra. }
  assert (L2 : ln 2 < 1). { apply exp_lt_inv. rewrite exp_ln by lra. pose proof (exp_ineq1 1 ltac:(lra)). lra. }
  split. { cbn [rsum]. unfold half, lnphi_deep, K_deep. cbn [Nat.eqb]. unfold Rsqr. lra. }
  assert (PHI : forall w, w 0%nat = 3 / 5 -> forall i, exp (lnphi_deep w i) = / K_deep i).
  { intros w W i. unfold lnphi_deep. rewrite W. unfold Rminus. rewrite Rplus_opp_r. unfold Rsqr. replace (- ln (K_deep i) + 200 * (0 * 0)) with (- ln (K_deep i)) by ring.
    rewrite exp_Ropp, exp_ln; [reflexivity|]. unfold K_deep. destruct (Nat.eqb i 0); lra. }
  destruct maxiter as [|[|maxiter]]; [lia|lia|]. unfold stability_iteration_Michelsen. cbn [stability_loop].
  pose proof (correct_spec 2 ft (fun i => 101325 * w_deep i * exp (lnphi_deep w_deep i)) 1 (fun i => if Reqb (half i) 0 then 0 else w_deep i / half i)) as C.
  destruct (correct 2 ft (fun i => 101325 * w_deep i * exp (lnphi_deep w_deep i)) 1 _) as [K1 err]. destruct C as [C1 C2].
  assert (W0 : w_deep 0%nat = 3 / 5) by reflexivity. assert (W1 : w_deep 1%nat = 2 / 5) by reflexivity.
  pose proof (C1 0%nat ltac:(lia)) as A0. pose proof (C1 1%nat ltac:(lia)) as A1. cbv beta in A0, A1.
  rewrite (PHI w_deep W0) in A0, A1. rewrite W0 in A0. rewrite W1 in A1. unfold Reqb, ft, half, K_deep in A0, A1. cbn [Nat.eqb] in A0, A1.
  destruct (Req_EM_T (101325 * (3 / 5) * / 3) 0) in A0; [lra|]. destruct (Req_EM_T (101325 * (2 / 5) * / 2) 0) in A1; [lra|]. destruct (Req_EM_T (/ 2) 0) in A0, A1; [lra|].
  assert (B0 : K1 0%nat = 3) by (rewrite A0; field). assert (B1 : K1 1%nat = 2) by (rewrite A1; field). clear A0 A1.
  assert (ER : err = 9 / 2).
  { rewrite C2. cbn [rsum]. rewrite !(PHI w_deep W0), W0, W1. unfold ft, half, K_deep. cbn [Nat.eqb].
    destruct (Req_EM_T (101325 * (3 / 5) * / 3) 0); [lra|]. destruct (Req_EM_T (101325 * (2 / 5) * / 2) 0); [lra|]. unfold Rsqr. field. }
  rewrite ER. destruct (Rltb_spec (9 / 2) xtol); [lra|]. clear C1 C2 ER err.
  assert (S1 : loop 2 (fun i s => s + K1 i * half i) 0 = 5 / 2) by (cbn; rewrite B0, B1; unfold half; field). rewrite S1.
  unfold Reqb. destruct (Req_EM_T (5 / 2) 0); [lra|].
  set (w := fun i => K1 i * half i * (1 / (5 / 2))).
  change (fun i : nat => 101325 * (K1 i * half i * (1 / (5 / 2))) * exp (lnphi_deep w i)) with (fun i => 101325 * w i * exp (lnphi_deep w i)).
  assert (V0 : w 0%nat = 3 / 5) by (unfold w; rewrite B0; unfold half; field). assert (V1 : w 1%nat = 2 / 5) by (unfold w; rewrite B1; unfold half; field). clearbody w.
  pose proof (correct_spec 2 ft (fun i => 101325 * w i * exp (lnphi_deep w i)) (1 / (5 / 2)) K1) as C.
  destruct (correct 2 ft (fun i => 101325 * w i * exp (lnphi_deep w i)) (1 / (5 / 2)) K1) as [K err]. destruct C as [C1 C2].
  pose proof (C1 0%nat ltac:(lia)) as A0. pose proof (C1 1%nat ltac:(lia)) as A1. cbv beta in A0, A1.
  rewrite (PHI w V0) in A0, A1. rewrite V0 in A0. rewrite V1 in A1. unfold ft, half, K_deep in A0, A1. cbn [Nat.eqb] in A0, A1.
  destruct (Req_EM_T (101325 * (3 / 5) * / 3) 0) in A0; [lra|]. destruct (Req_EM_T (101325 * (2 / 5) * / 2) 0) in A1; [lra|].
  assert (D0 : K 0%nat = 3) by (rewrite A0, B0; field). assert (D1 : K 1%nat = 2) by (rewrite A1, B1; field).
  assert (ER : err = 0).
  { rewrite C2. cbn [rsum]. rewrite !(PHI w V0), V0, V1. unfold ft, half, K_deep. cbn [Nat.eqb].
    destruct (Req_EM_T (101325 * (3 / 5) * / 3) 0); [lra|]. destruct (Req_EM_T (101325 * (2 / 5) * / 2) 0); [lra|]. unfold Rsqr. field. }
  rewrite ER. destruct (Rltb_spec 0 xtol); [|lra].
  eexists. split; [reflexivity|]. destruct (finish_fields 2 inner half K w (lnphi_deep w) (5 / 2)) as [F1 [F2 [F3 F4]]]. rewrite F1, F3.
  destruct F4 as [[V [x [y [F4 _]]]]|[_ F4]].
  { exfalso. destruct (Sol _ _ _ _ _ _ F4) as [RR NN]. apply (all_K_above_one 2 half K) with (3 := RR); auto.
    intros [|[|i]] I; [rewrite D0; lra|rewrite D1; lra|lia]. }
  assert (STAT : forall i, (i < 2)%nat -> stationarity 101325 lnphi_deep ft (5 / 2) w i = 1).
  { intros [|[|i]] I; [| |lia]; unfold stationarity, test_fugacity, ft, half; rewrite (PHI w V0); unfold K_deep; cbn [Nat.eqb]; rewrite ?V0, ?V1; field. }
  split. { intros i I. split; [|auto]. destruct i as [|[|i]]; [rewrite V0; auto|rewrite V1; auto|lia]. }
  split; [|exact F4]. apply (C53_tangent_plane_exact 2 101325 ft lnphi_deep (5 / 2) w); try lra.
  - cbn. rewrite V0, V1. field.
  - intros i I. split; [unfold ft, half; lra|]. split; [|auto]. destruct i as [|[|i]]; [rewrite V0; lra|rewrite V1; lra|lia].
Qed.
