(* Lemmas about the cubic EOS formulas used by the property files. *)
From Coq Require Import Reals Lra Lia.
From Coquelicot Require Import Coquelicot.
From Verif Require Import Base BaseFacts Spec_eos Gen_eos.
Open Scope R_scope.

Lemma reg_locally_V b delta eps V : regular_V b delta eps V -> locally V (fun v => regular_V b delta eps v).
Proof.
  intros [H1 H2]. apply filter_and.
  - apply (open_neq b V); auto.
  - assert (C : continuous (fun v => v ^ 2 + delta * v + eps) V).
    { apply (ex_derive_continuous (K := R_AbsRing) (V := R_NormedModule)). auto_derive. auto. }
    apply (C (fun y => y <> 0)). apply (open_neq 0); auto.
Qed.

Lemma P_cubic_dV a b delta eps T V : regular_V b delta eps V ->
  is_derive (P_cubic a b delta eps T) V (- Rgas * T / (V - b) ^ 2 + a T * (2 * V + delta) / (V ^ 2 + delta * V + eps) ^ 2).
Proof.
  intros [H1 H2]. unfold P_cubic. auto_derive.
  - nz.
  - field. nz.
Qed.
Lemma P_cubic_dT a da b delta eps T V : regular_V b delta eps V -> is_derive a T (da T) ->
  is_derive (fun t => P_cubic a b delta eps t V) T (Rgas / (V - b) - da T / (V ^ 2 + delta * V + eps)).
Proof.
  intros [H1 H2] Ha. unfold P_cubic. auto_derive.
  - nz. exd.
  - dv Ha. field. nz.
Qed.

(* The integral of 1/(V^2 + delta V + eps) from V to infinity, as the code writes it *)
Definition Kf (delta eps V : R) : R :=
  2 * (1 / sqrt (delta * delta - 4 * eps)) * re_catanh (1 / sqrt (delta * delta - 4 * eps) * (2 * V + delta)).

Lemma sqrt_disc_pos delta eps : 0 < delta * delta - 4 * eps -> 0 < sqrt (delta * delta - 4 * eps).
Proof. apply sqrt_lt_R0. Qed.

Lemma disc_ne delta eps V (s : R) : s * s = delta * delta - 4 * eps -> 0 < s -> V ^ 2 + delta * V + eps <> 0 ->
  2 * V + delta - s <> 0 /\ 2 * V + delta + s <> 0.
Proof.
  intros Hs Sp H. assert (E : (2 * V + delta - s) * (2 * V + delta + s) = 4 * (V ^ 2 + delta * V + eps)).
  { replace ((2 * V + delta - s) * (2 * V + delta + s)) with ((2 * V + delta) * (2 * V + delta) - s * s) by ring. rewrite Hs. ring. }
  split; intro Q; rewrite Q in E; apply H; lra.
Qed.

Lemma Kf_derive delta eps V : 0 < delta * delta - 4 * eps -> V ^ 2 + delta * V + eps <> 0 ->
  is_derive (Kf delta eps) V (- / (V ^ 2 + delta * V + eps)).
Proof.
  intros HE HD. unfold Kf. pose proof (sqrt_disc_pos _ _ HE) as Hs.
  pose proof (sqrt_sqrt _ (Rlt_le _ _ HE)) as Hss.
  set (s := sqrt (delta * delta - 4 * eps)) in *.
  destruct (disc_ne delta eps V s Hss Hs HD) as [N1 N2].
  assert (U : 1 / s * (2 * V + delta) <> 1 /\ 1 / s * (2 * V + delta) <> -1).
  { split; intro Q; assert (Q2 : 2 * V + delta = s * (1 / s * (2 * V + delta))) by (field; lra); rewrite Q in Q2; lra. }
  destruct U as [U1 U2].
  pose proof (re_catanh_derive _ U1 U2) as DK.
  auto_derive.
  - eexists; exact DK.
  - dv DK.
    replace (V ^ 2 + delta * V + eps) with ((2 * V + delta - s) * (2 * V + delta + s) / 4).
    2:{ replace ((2 * V + delta - s) * (2 * V + delta + s)) with ((2 * V + delta) * (2 * V + delta) - s * s) by ring. rewrite Hss. field. }
    assert ((s - (2 * V + delta)) <> 0) by lra.
    assert (s * s - (2 * V + delta) * (2 * V + delta) <> 0).
    { replace (s * s - (2 * V + delta) * (2 * V + delta)) with (- ((2 * V + delta - s) * (2 * V + delta + s))) by ring. nz. }
    field. nz.
    all: try lra.
Qed.

Lemma lim_via_inv (f g : R -> R) (M : R) : (forall V, M < V -> f V = g (/ V)) -> ex_derive g 0 -> is_lim f p_infty (g 0).
Proof.
  intros E C.
  apply is_lim_ext_loc with (fun V => g (/ V)).
  { exists M. intros. symmetry. auto. }
  assert (CC : continuous g 0) by (apply (ex_derive_continuous (K := R_AbsRing) (V := R_NormedModule)); auto).
  intros P HP. unfold filtermap in *. unfold filterlim, filter_le, filtermap in *.
  specialize (CC P HP). destruct CC as [d Hd].
  exists (/ d). intros x Hx. apply Hd.
  assert (0 < / d) by (apply Rinv_0_lt_compat, cond_pos).
  change (Rabs (/ x - 0) < d). rewrite Rminus_0_r.
  rewrite Rabs_right by (apply Rle_ge, Rlt_le, Rinv_0_lt_compat; lra).
  rewrite <- (Rinv_inv d). apply Rinv_lt_contravar; auto. apply Rmult_lt_0_compat; lra.
Qed.

Lemma Kf_lim delta eps : 0 < delta * delta - 4 * eps -> is_lim (Kf delta eps) p_infty 0.
Proof.
  intros HE. pose proof (sqrt_disc_pos _ _ HE) as Hs.
  set (s := sqrt (delta * delta - 4 * eps)) in *.
  pose (g := fun w => 1 / s * ln ((2 + (delta + s) * w) / (2 + (delta - s) * w))).
  replace 0 with (g 0).
  2:{ unfold g. rewrite !Rmult_0_r, !Rplus_0_r. replace (2 / 2) with 1 by field. rewrite ln_1. ring. }
  apply (lim_via_inv _ g (Rabs delta + s)).
  - intros V HV.
    assert (0 < V) by (pose proof (Rabs_pos delta); lra).
    assert (HD: - V < delta < V) by (destruct (Rabs_def2 delta V); lra).
    unfold Kf, re_catanh, g. fold s.
    replace ((1 + 1 / s * (2 * V + delta)) / (1 - 1 / s * (2 * V + delta))) with (- ((2 + (delta + s) * / V) / (2 + (delta - s) * / V))).
    + rewrite Rabs_Ropp, Rabs_right. field. lra.
      apply Rle_ge, Rlt_le, Rdiv_lt_0_compat.
      * replace (2 + (delta + s) * / V) with ((2 * V + delta + s) / V) by (field; lra). apply Rdiv_lt_0_compat; lra.
      * replace (2 + (delta - s) * / V) with ((2 * V + delta - s) / V) by (field; lra). apply Rdiv_lt_0_compat; try lra.
        pose proof (Rle_abs delta). pose proof (Rle_abs (- delta)). rewrite Rabs_Ropp in *. lra.
    + pose proof (Rle_abs (- delta)). rewrite Rabs_Ropp in *. field. splits; lra.
  - unfold g. auto_derive. splits; try exact I; try lra. rewrite !Rmult_0_r, !Rplus_0_r. lra.
Qed.

(* ---- the tuple returned by main_derivatives_and_departures, in closed form ---- *)
Lemma main_H T P V b delta eps a da d2a : 0 < delta * delta - 4 * eps ->
  out_H (main_derivatives_and_departures T P V b delta eps a da d2a) = Kf delta eps V * (T * da - a) - Rgas * T + P * V.
Proof.
  intros HE. unfold main_derivatives_and_departures, Kf. cbv zeta. rewrite Rleb_false by lra. unfold out_H.
  replace (delta * delta - (eps + eps) - (eps + eps)) with (delta * delta - 4 * eps) by ring.
  replace (V + V + delta) with (2 * V + delta) by ring. ring.
Qed.
Lemma main_S T P V b delta eps a da d2a : 0 < delta * delta - 4 * eps ->
  out_S (main_derivatives_and_departures T P V b delta eps a da d2a) =
  - Rgas * ln (Rgas * T * (1 / (V - b)) / P) + da * Kf delta eps V.
Proof.
  intros HE. unfold main_derivatives_and_departures, Kf. cbv zeta. rewrite Rleb_false by lra. unfold out_S.
  replace (delta * delta - (eps + eps) - (eps + eps)) with (delta * delta - 4 * eps) by ring.
  replace (V + V + delta) with (2 * V + delta) by ring. reflexivity.
Qed.
Lemma Kf_ln delta eps V : 0 < delta * delta - 4 * eps -> sqrt (delta * delta - 4 * eps) < 2 * V + delta ->
  Kf delta eps V = 1 / sqrt (delta * delta - 4 * eps) *
    ln ((2 * V + delta + sqrt (delta * delta - 4 * eps)) / (2 * V + delta - sqrt (delta * delta - 4 * eps))).
Proof.
  intros HE HV. pose proof (sqrt_disc_pos _ _ HE) as Hs. unfold Kf, re_catanh.
  set (s := sqrt (delta * delta - 4 * eps)) in *.
  replace ((1 + 1 / s * (2 * V + delta)) / (1 - 1 / s * (2 * V + delta))) with (- ((2 * V + delta + s) / (2 * V + delta - s))) by (field; splits; lra).
  rewrite Rabs_Ropp, Rabs_right by (apply Rle_ge, Rlt_le, Rdiv_lt_0_compat; lra). field. lra.
Qed.
Lemma main_Cv T P V b delta eps a da d2a : 0 < delta * delta - 4 * eps -> sqrt (delta * delta - 4 * eps) < 2 * V + delta ->
  out_Cv (main_derivatives_and_departures T P V b delta eps a da d2a) = T * d2a * Kf delta eps V.
Proof.
  intros HE HV. rewrite Kf_ln by auto.
  unfold main_derivatives_and_departures. cbv zeta. rewrite Rleb_false by lra. unfold out_Cv.
  replace (delta * delta - (eps + eps) - (eps + eps)) with (delta * delta - 4 * eps) by ring.
  pose proof (sqrt_disc_pos _ _ HE) as Hs. pose proof (sqrt_sqrt _ (Rlt_le _ _ HE)) as Hss.
  set (s := sqrt (delta * delta - 4 * eps)) in *.
  assert (E18 : 1 / 2 * (1 / s) * (delta * delta) - (eps + eps) * (1 / s) = s / 2).
  { replace (1 / 2 * (1 / s) * (delta * delta) - (eps + eps) * (1 / s)) with ((delta * delta - 4 * eps) / (2 * s)) by (field; lra).
    rewrite <- Hss. field. lra. }
  rewrite E18.
  replace ((1 / 2 * (V + V + delta) + s / 2) / (1 / 2 * (V + V + delta) - s / 2)) with ((2 * V + delta + s) / (2 * V + delta - s)) by (field; splits; lra).
  ring.
Qed.
Lemma above_reg delta eps V : 0 < delta * delta - 4 * eps -> sqrt (delta * delta - 4 * eps) < 2 * V + delta -> 0 < V ^ 2 + delta * V + eps.
Proof.
  intros HE HV. pose proof (sqrt_disc_pos _ _ HE) as Hs. pose proof (sqrt_sqrt _ (Rlt_le _ _ HE)) as Hss.
  set (s := sqrt (delta * delta - 4 * eps)) in *.
  assert (0 < (2 * V + delta - s) * (2 * V + delta + s)) by (apply Rmult_lt_0_compat; lra).
  replace ((2 * V + delta - s) * (2 * V + delta + s)) with ((2 * V + delta) * (2 * V + delta) - s * s) in H by ring.
  rewrite Hss in H. nra.
Qed.
Lemma lim_via_inv_eq (f g : R -> R) (M l : R) : g 0 = l -> (forall V, M < V -> f V = g (/ V)) -> ex_derive g 0 -> is_lim f p_infty l.
Proof. intros <-. apply lim_via_inv. Qed.
