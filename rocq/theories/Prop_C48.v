(* C48: P_max_at_V is the largest pressure the EOS reaches at a volume, or None when there is no maximum. *)
From Coq Require Import Reals Lra Psatz.
From Coquelicot Require Import Coquelicot.
From Verif Require Import Base BaseFacts Spec_eos Gen_eosclass Prop_C09.
Open Scope R_scope.

(* what P_max_at_V has to answer for a pressure-temperature curve PV at fixed volume *)
Definition max_pressure (PV : R -> R) (answer : option R) : Prop :=
  match answer with
  | Some Pm => (forall T, 0 < T -> PV T <= Pm) /\ exists T, 0 < T /\ PV T = Pm
  | None => forall M, exists T, 0 < T /\ M < PV T
  end.

Section Quad.
Variables (D w a k q t Tc : R) (PV : R -> R).
Hypotheses (HD : 0 < D) (Hw : 0 < w) (Ha : 0 < a) (Hk : 0 <= k) (Hq : 0 < q) (HTc : 0 < Tc).
Hypotheses (Et : t = q * D - a * k * k * w).
Hypothesis (HPV : forall T, 0 < T -> PV T = q / w * (sqrt (T / Tc) * sqrt (T / Tc)) - a / D * ((1 + k * (1 - sqrt (T / Tc))) * (1 + k * (1 - sqrt (T / Tc))))).

Lemma PV_quad T : 0 < T -> PV T * (w * D) = t * sqrt (T / Tc) * sqrt (T / Tc) + 2 * (a * k * (1 + k) * w) * sqrt (T / Tc) - a * (1 + k) * (1 + k) * w.
Proof. intros HT. rewrite HPV by auto. rewrite Et. field. split; nz. Qed.

Lemma max_bounded : t < 0 -> max_pressure PV (Some (a * q * (1 + k) ^ 2 / - t)).
Proof.
  intros Ht. assert (Hk' : 0 < k). { destruct (Req_dec k 0) as [E|E]; [|lra]. rewrite E in Et. assert (0 < q * D) by (apply Rmult_lt_0_compat; auto). lra. }
  assert (HwD : 0 < w * D) by (apply Rmult_lt_0_compat; auto).
  set (be := a * k * (1 + k) * w). assert (Hbe : 0 < be) by (unfold be; repeat apply Rmult_lt_0_compat; lra).
  assert (EM : a * q * (1 + k) ^ 2 / - t * (w * D) * - t = be * be + t * (a * (1 + k) * (1 + k) * w)).
  { unfold be. transitivity (a * q * (1 + k) ^ 2 * (w * D)). field. lra. rewrite Et. ring. }
  split.
  - intros T HT. apply Rmult_le_reg_r with (w * D); auto. apply Rmult_le_reg_r with (- t); [lra|].
    rewrite EM, PV_quad by auto. fold be. set (z := sqrt (T / Tc)).
    assert (0 <= (t * z + be) * (t * z + be)) by apply Rle_0_sqr. lra.
  - set (z := be / - t). assert (Hz : 0 < z) by (apply Rdiv_lt_0_compat; lra).
    exists (Tc * (z * z)). assert (0 < Tc * (z * z)) by (apply Rmult_lt_0_compat; nra). split; auto.
    apply Rmult_eq_reg_r with (w * D); [|lra]. apply Rmult_eq_reg_r with (- t); [|lra].
    rewrite EM, PV_quad by auto. rewrite sqrt_scaled by lra. fold be. unfold z. field. lra.
Qed.

Lemma max_unbounded : 0 < t -> max_pressure PV None.
Proof.
  intros Ht M. assert (HwD : 0 < w * D) by (apply Rmult_lt_0_compat; auto).
  set (g := a * (1 + k) * (1 + k) * w). assert (0 < g) by (unfold g; repeat apply Rmult_lt_0_compat; lra).
  pose proof (Rabs_pos M). assert (M <= Rabs M) by apply Rle_abs.
  set (y := (g + w * D * (Rabs M + 1)) / t).
  assert (Hy : 0 < y). { unfold y. apply Rdiv_lt_0_compat; auto. assert (0 <= w * D * (Rabs M + 1)) by (apply Rmult_le_pos; lra). lra. }
  exists (Tc * y). split; [apply Rmult_lt_0_compat; auto|].
  apply Rmult_lt_reg_r with (w * D); auto. rewrite PV_quad by (apply Rmult_lt_0_compat; auto). fold g.
  replace (Tc * y / Tc) with y by (field; lra).
  assert (Z : sqrt y * sqrt y = y) by (apply sqrt_sqrt; lra). pose proof (sqrt_pos y).
  assert (0 <= a * k * (1 + k) * w * sqrt y) by (repeat apply Rmult_le_pos; lra).
  replace (t * sqrt y * sqrt y) with (t * y) by (rewrite <- Z at 1; ring).
  replace (t * y) with (g + w * D * (Rabs M + 1)) by (unfold y; field; lra).
  assert (M * (w * D) < w * D * (Rabs M + 1)).
  { rewrite Rmult_comm. apply Rmult_lt_compat_l; auto. lra. }
  lra.
Qed.
End Quad.

Theorem C48_PR V Tc a b kappa :
  0 < b < V -> 0 < Tc -> 0 < a -> 0 <= kappa ->
  Rgas * Tc * (V ^ 2 + 2 * b * V - b ^ 2) <> a * kappa ^ 2 * (V - b) ->
  max_pressure (fun T => PR_P Tc a b kappa T V) (PR_P_max_at_V V Tc a b kappa).
Proof.
  intros Hb HTc Ha Hk Hnd. pose proof Rgas_pos as HR.
  set (D := V * V + 2 * V * b - b * b). set (w := V - b). set (q := Rgas * Tc).
  assert (HD : 0 < D) by (unfold D; nra). assert (Hw : 0 < w) by (unfold w; lra).
  assert (Hq : 0 < q) by (unfold q; apply Rmult_lt_0_compat; auto).
  set (t := q * D - a * kappa * kappa * w).
  assert (Ht : t <> 0). { unfold t, q, D, w. intro Q. apply Hnd. lra. }
  assert (HPV : forall T, 0 < T -> PR_P Tc a b kappa T V =
     q / w * (sqrt (T / Tc) * sqrt (T / Tc)) - a / D * ((1 + kappa * (1 - sqrt (T / Tc))) * (1 + kappa * (1 - sqrt (T / Tc))))).
  { intros T HT. unfold PR_P, P_cubic. rewrite PR_thing_eq. fold D. rewrite sqrt_sqrt.
    2:{ left. apply Rdiv_lt_0_compat; auto. } fold w. unfold q. field. splits; nz. }
  assert (N : 0 < a * q * (1 + kappa) ^ 2) by (repeat apply Rmult_lt_0_compat; lra).
  unfold PR_P_max_at_V. cbv zeta.
  match goal with |- context [Rltb ?e 0] => replace e with (a * q * (1 + kappa) ^ 2 / - t) end.
  2:{ match goal with |- _ = ?n / ?d => replace d with t by (unfold t, q, D, w; ring); replace n with (- (a * q * (1 + kappa) ^ 2)) by (unfold q; ring) end.
      field. auto. }
  destruct (Rlt_or_le 0 t).
  - rewrite Rltb_true. { apply (max_unbounded D w a kappa q t Tc); auto. }
    unfold Rdiv. apply Ropp_lt_cancel. rewrite Ropp_0, Ropp_mult_distr_r, <- Rinv_opp, Ropp_involutive.
    apply Rmult_lt_0_compat; auto. apply Rinv_0_lt_compat; auto.
  - assert (t < 0) by lra. rewrite Rltb_false. { apply (max_bounded D w a kappa q t Tc); auto. }
    left. apply Rdiv_lt_0_compat; lra.
Qed.

Theorem C48_SRK V Tc a b m :
  0 < b < V -> 0 < Tc -> 0 < a -> 0 <= m ->
  Rgas * Tc * (V ^ 2 + b * V) <> a * m ^ 2 * (V - b) ->
  max_pressure (fun T => SRK_P Tc a b m T V) (SRK_P_max_at_V V Tc a m b).
Proof.
  intros Hb HTc Ha Hk Hnd. pose proof Rgas_pos as HR.
  set (D := V * V + V * b). set (w := V - b). set (q := Rgas * Tc).
  assert (HD : 0 < D) by (unfold D; nra). assert (Hw : 0 < w) by (unfold w; lra).
  assert (Hq : 0 < q) by (unfold q; apply Rmult_lt_0_compat; auto).
  set (t := q * D - a * m * m * w).
  assert (Ht : t <> 0). { unfold t, q, D, w. intro Q. apply Hnd. lra. }
  assert (HPV : forall T, 0 < T -> SRK_P Tc a b m T V =
     q / w * (sqrt (T / Tc) * sqrt (T / Tc)) - a / D * ((1 + m * (1 - sqrt (T / Tc))) * (1 + m * (1 - sqrt (T / Tc))))).
  { intros T HT. unfold SRK_P, P_cubic. replace (V ^ 2 + b * V + 0) with D by (unfold D; ring). rewrite sqrt_sqrt.
    2:{ left. apply Rdiv_lt_0_compat; auto. } fold w. unfold q. field. splits; nz. }
  assert (N : 0 < a * q * (1 + m) ^ 2) by (repeat apply Rmult_lt_0_compat; lra).
  unfold SRK_P_max_at_V. cbv zeta.
  match goal with |- context [Rltb ?e 0] => replace e with (a * q * (1 + m) ^ 2 / - t) end.
  2:{ match goal with |- _ = ?n / ?d => replace d with t by (unfold t, q, D, w; ring); replace n with (- (a * q * (1 + m) ^ 2)) by (unfold q; ring) end.
      field. auto. }
  destruct (Rlt_or_le 0 t).
  - rewrite Rltb_true. { apply (max_unbounded D w a m q t Tc); auto. }
    unfold Rdiv. apply Ropp_lt_cancel. rewrite Ropp_0, Ropp_mult_distr_r, <- Rinv_opp, Ropp_involutive.
    apply Rmult_lt_0_compat; auto. apply Rinv_0_lt_compat; auto.
  - assert (t < 0) by lra. rewrite Rltb_false. { apply (max_bounded D w a m q t Tc); auto. }
    left. apply Rdiv_lt_0_compat; lra.
Qed.

(* a state with a finite maximum: compressed volume *)
Example C48_hypotheses_met :
  let Tc := 500 in let a := 2 in let b := 1/10000 in let kappa := 2 in let V := 2/10000 in
  0 < b < V /\ 0 < Tc /\ 0 < a /\ 0 <= kappa /\ Rgas * Tc * (V ^ 2 + 2 * b * V - b ^ 2) < a * kappa ^ 2 * (V - b).
Proof. pose proof Rgas_val as HV. cbv zeta. rewrite HV. splits; lra. Qed.
