(* C02: departure functions are the thermodynamic residuals of the EOS. *)
From Coq Require Import Reals Lra.
From Coquelicot Require Import Coquelicot.
From Verif Require Import Base BaseFacts Spec_eos Gen_eos EosFacts.
Open Scope R_scope.

(* Enthalpy: zero at infinite volume, and dH = (T dP/dT + V dP/dV) dV at constant T, P being the EOS pressure at V. *)
Theorem C02_H_dep :
  forall (a da d2a : R -> R) (b delta eps T : R),
  0 < delta * delta - 4 * eps -> is_derive a T (da T) ->
  let Pf := P_cubic a b delta eps in
  let H v := out_H (main_derivatives_and_departures T (Pf T v) v b delta eps (a T) (da T) (d2a T)) in
  is_lim H p_infty 0 /\
  forall V, regular_V b delta eps V ->
    is_derive H V (T * Derive (fun t => Pf t V) T + V * Derive (fun v => Pf T v) V).
Proof.
  intros a da d2a b delta eps T HE Ha Pf H.
  assert (EH : forall v, H v = Kf delta eps v * (T * da T - a T) - Rgas * T + Pf T v * v) by (intros; unfold H; apply main_H; auto).
  split.
  - apply is_lim_ext with (fun v => Kf delta eps v * (T * da T - a T) + (Pf T v * v - Rgas * T)).
    { intros; rewrite EH; ring. }
    replace (Finite 0) with (Finite (0 * (T * da T - a T) + 0)) by (f_equal; ring).
    apply is_lim_plus'.
    + apply (is_lim_scal_r _ (T * da T - a T) p_infty 0). apply Kf_lim; auto.
    + pose (g := fun w => Rgas * T / (1 - b * w) - Rgas * T - a T * w / (1 + delta * w + eps * (w * w))).
      replace 0 with (g 0). 2:{ unfold g. field. }
      apply (lim_via_inv _ g (Rmax (Rmax 0 b) ((sqrt (delta * delta - 4 * eps) + Rabs delta)))).
      * intros V HV. assert (0 < V /\ b < V /\ sqrt (delta * delta - 4 * eps) < 2 * V + delta) as (A1 & A2 & A3).
        { pose proof (Rmax_l (Rmax 0 b) (sqrt (delta * delta - 4 * eps) + Rabs delta)).
          pose proof (Rmax_r (Rmax 0 b) (sqrt (delta * delta - 4 * eps) + Rabs delta)).
          pose proof (Rmax_l 0 b). pose proof (Rmax_r 0 b). pose proof (Rle_abs (-delta)). rewrite Rabs_Ropp in *.
          pose proof (sqrt_disc_pos _ _ HE). lra. }
        pose proof (Rgt_not_eq _ _ (above_reg _ _ _ HE A3)). unfold Pf, P_cubic, g. field.
        splits; try lra; try nz.
      * unfold g. auto_derive. splits; auto; lra.
  - intros V HV. apply is_derive_ext with (fun v => Kf delta eps v * (T * da T - a T) - Rgas * T + Pf T v * v).
    { intros; symmetry; auto. }
    pose proof (Kf_derive delta eps V HE (proj2 HV)) as DK.
    pose proof (P_cubic_dV a b delta eps T V HV) as DP.
    pose proof (P_cubic_dT a da b delta eps T V HV Ha) as DT.
    unfold Pf. dv DT.
    auto_derive. split; [exd|]. split; [exd|auto].
    dv DK. unfold P_cubic at 2. destruct HV. field. nz.
Qed.

(* Entropy: zero at infinite volume, dS = (dP/dT) dV minus the ideal-gas part -(R/P) dP. *)
Theorem C02_S_dep :
  forall (a da d2a : R -> R) (b delta eps T : R),
  0 < T -> 0 < delta * delta - 4 * eps -> is_derive a T (da T) ->
  let Pf := P_cubic a b delta eps in
  let S v := out_S (main_derivatives_and_departures T (Pf T v) v b delta eps (a T) (da T) (d2a T)) in
  is_lim S p_infty 0 /\
  forall V, regular_V b delta eps V -> b < V -> 0 < Pf T V ->
    is_derive S V (Derive (fun t => Pf t V) T + Rgas / Pf T V * Derive (fun v => Pf T v) V).
Proof.
  intros a da d2a b delta eps T HT HE Ha Pf S. pose proof Rgas_pos as HR.
  assert (EH : forall v, S v = - Rgas * ln (Rgas * T * (1 / (v - b)) / Pf T v) + da T * Kf delta eps v) by (intros; unfold S; apply main_S; auto).
  split.
  - apply is_lim_ext with (fun v => - Rgas * ln (Rgas * T * (1 / (v - b)) / Pf T v) + da T * Kf delta eps v).
    { intros; rewrite EH; ring. }
    replace (Finite 0) with (Finite (0 + da T * 0)) by (f_equal; ring).
    apply is_lim_plus'.
    2:{ apply (is_lim_scal_l _ (da T) p_infty 0). apply Kf_lim; auto. }
    pose (g := fun w => - Rgas * ln (Rgas * T / (Rgas * T - a T * w * (1 - b * w) / (1 + delta * w + eps * (w * w))))).
    assert (RT : 0 < Rgas * T) by (apply Rmult_lt_0_compat; auto).
    replace 0 with (g 0).
    2:{ unfold g. replace (Rgas * T / (Rgas * T - a T * 0 * (1 - b * 0) / (1 + delta * 0 + eps * (0 * 0)))) with 1 by (field; splits; lra). rewrite ln_1. ring. }
    apply (lim_via_inv _ g (Rmax (Rmax 0 b) ((sqrt (delta * delta - 4 * eps) + Rabs delta)))).
    + intros V HV. assert (0 < V /\ b < V /\ sqrt (delta * delta - 4 * eps) < 2 * V + delta) as (A1 & A2 & A3).
      { pose proof (Rmax_l (Rmax 0 b) (sqrt (delta * delta - 4 * eps) + Rabs delta)).
        pose proof (Rmax_r (Rmax 0 b) (sqrt (delta * delta - 4 * eps) + Rabs delta)).
        pose proof (Rmax_l 0 b). pose proof (Rmax_r 0 b). pose proof (Rle_abs (-delta)). rewrite Rabs_Ropp in *.
        pose proof (sqrt_disc_pos _ _ HE). lra. }
      pose proof (Rgt_not_eq _ _ (above_reg _ _ _ HE A3)) as HD.
      unfold g. f_equal. f_equal.
      set (X := a T * / V * (1 - b * / V) / (1 + delta * / V + eps * (/ V * / V))).
      replace (Pf T V) with ((Rgas * T - X) / (V - b)).
      2:{ unfold Pf, P_cubic, X. field. splits; try lra; try nz. }
      unfold Rdiv. rewrite Rinv_mult, Rinv_inv. set (k := / (Rgas * T - X)). field. lra.
    + unfold g. auto_derive. rewrite !Rmult_0_r, !Rmult_0_l, !Rplus_0_r.
      replace (Rgas * T + - (0 * / 1)) with (Rgas * T) by field.
      splits; try lra. apply Rmult_lt_0_compat; auto. apply Rinv_0_lt_compat; lra.
  - intros V HV Hb HP. apply is_derive_ext with (fun v => - Rgas * ln (Rgas * T * (1 / (v - b)) / Pf T v) + da T * Kf delta eps v).
    { intros; symmetry; auto. }
    pose proof (Kf_derive delta eps V HE (proj2 HV)) as DK.
    pose proof (P_cubic_dV a b delta eps T V HV) as DP.
    pose proof (P_cubic_dT a da b delta eps T V HV Ha) as DT.
    unfold Pf in *. dv DT.
    dv DP.
    assert (0 < Rgas * T * (1 * / (V + - b)) * / P_cubic a b delta eps T V).
    { repeat apply Rmult_lt_0_compat; auto; try lra; apply Rinv_0_lt_compat; lra. }
    auto_derive. splits; auto; try lra; try exd. 
    dv DK. dv DP. destruct HV. set (p := P_cubic a b delta eps T V) in *. field. splits; nz.
Qed.

(* Heat capacity: zero at infinite volume, dCv = T d2P/dT2 dV. *)
Theorem C02_Cv_dep :
  forall (a da d2a : R -> R) (b delta eps T P : R),
  0 < delta * delta - 4 * eps -> locally T (fun t => is_derive a t (da t)) -> is_derive da T (d2a T) ->
  let Pf := P_cubic a b delta eps in
  let Cv v := out_Cv (main_derivatives_and_departures T P v b delta eps (a T) (da T) (d2a T)) in
  is_lim Cv p_infty 0 /\
  forall V, above_poles b delta eps V ->
    is_derive Cv V (T * Derive (Derive (fun t => Pf t V)) T).
Proof.
  intros a da d2a b delta eps T P HE Ha Hda Pf Cv.
  assert (EH : forall v, sqrt (delta * delta - 4 * eps) < 2 * v + delta -> Cv v = T * d2a T * Kf delta eps v) by (intros; unfold Cv; apply main_Cv; auto).
  split.
  - apply is_lim_ext_loc with (fun v => T * d2a T * Kf delta eps v).
    { exists (sqrt (delta * delta - 4 * eps) + Rabs delta). intros. symmetry. apply EH.
      pose proof (Rle_abs (-delta)). rewrite Rabs_Ropp in *. pose proof (sqrt_disc_pos _ _ HE). pose proof (Rabs_pos delta). lra. }
    replace (Finite 0) with (Finite (T * d2a T * 0)) by (f_equal; ring).
    apply (is_lim_scal_l _ (T * d2a T) p_infty 0). apply Kf_lim; auto.
  - intros V [Hb HV]. pose proof (above_reg _ _ _ HE HV) as HD.
    assert (HVr : regular_V b delta eps V) by (split; lra).
    apply is_derive_ext_loc with (fun v => T * d2a T * Kf delta eps v).
    { apply filter_imp with (fun v => (sqrt (delta * delta - 4 * eps) - delta) / 2 < v).
      intros v Hv. symmetry. apply EH. lra. apply (open_gt ((sqrt (delta * delta - 4 * eps) - delta) / 2) V). lra. }
    pose proof (Kf_derive delta eps V HE (proj2 HVr)) as DK.
    assert (D2 : is_derive (Derive (fun t => Pf t V)) T (- d2a T / (V ^ 2 + delta * V + eps))).
    { apply is_derive_ext_loc with (fun t => Rgas / (V - b) - da t / (V ^ 2 + delta * V + eps)).
      - eapply filter_imp; [|exact Ha]. intros t Ht. symmetry. apply is_derive_unique. apply (P_cubic_dT a da); auto.
      - auto_derive. eexists; eauto. dv Hda. destruct HVr. field. nz. }
    dv D2.
    auto_derive. exd. dv DK. field. lra.
Qed.

(* ln(phi) as computed by eos_lnphi is the residual Gibbs energy over RT. *)
Theorem C02_lnphi :
  forall (b delta eps T P V a da d2a : R),
  0 < T -> 0 < P -> 0 < delta * delta - 4 * eps -> above_poles b delta eps V ->
  let m := main_derivatives_and_departures T P V b delta eps a da d2a in
  eos_lnphi T P V b delta eps a = (out_H m - T * out_S m) / (Rgas * T) /\
  eos_G_dep T P V b delta eps a = out_H m - T * out_S m.
Proof.
  intros b delta eps T P V a da d2a HT HP HE [Hb HV] m. pose proof Rgas_pos as HR.
  assert (K : eos_lnphi T P V b delta eps a = (out_H m - T * out_S m) / (Rgas * T)).
  { unfold m. rewrite main_H, main_S by auto. rewrite Kf_ln by auto. unfold eos_lnphi. cbv zeta.
    pose proof (sqrt_disc_pos _ _ HE) as Hs.
    set (s := sqrt (delta * delta - 4 * eps)) in *.
    set (u := 2 * V * (1 / s) + delta * (1 / s)).
    assert (Hu : u = (2 * V + delta) / s) by (unfold u; field; lra).
    assert (U1 : 1 < u). { rewrite Hu. apply Rmult_lt_reg_r with s; auto. replace ((2 * V + delta) / s * s) with (2 * V + delta) by (field; lra). lra. }
    replace (1 + 4 * u / ((1 - u) * (1 - u))) with (((1 + u) / (u - 1)) * ((1 + u) / (u - 1))) by (field; lra).
    assert (0 < (1 + u) / (u - 1)) by (apply Rdiv_lt_0_compat; lra).
    rewrite ln_mult by auto.
    replace ((2 * V + delta + s) / (2 * V + delta - s)) with ((1 + u) / (u - 1)).
    2:{ rewrite Hu. field. splits; try lra. }
    replace (Rgas * T * (1 / (V - b)) / P) with (Rgas * T / (P * (V - b))) by (field; lra).
    field. splits; lra. }
  split; auto. unfold eos_G_dep. rewrite K. field. lra.
Qed.

(* van der Waals path (a independent of T) *)
Theorem C02_departures_VDW :
  forall (a0 b T : R), 0 < T -> 
  let Pf := P_cubic (fun _ => a0) b 0 0 in
  let m v := main_derivatives_and_departures_VDW T (Pf T v) v b 0 0 a0 0 0 in
  (is_lim (fun v => out_H (m v)) p_infty 0 /\
   forall V, V <> b -> V <> 0 ->
     is_derive (fun v => out_H (m v)) V (T * Derive (fun t => Pf t V) T + V * Derive (fun v => Pf T v) V)) /\
  (is_lim (fun v => out_S (m v)) p_infty 0 /\
   forall V, 0 < V -> b < V -> 0 < Pf T V ->
     is_derive (fun v => out_S (m v)) V (Derive (fun t => Pf t V) T + Rgas / Pf T V * Derive (fun v => Pf T v) V)) /\
  forall V, out_Cv (m V) = 0.
Proof.
  intros a0 b T HT Pf m. pose proof Rgas_pos as HR.
  assert (A : forall t, is_derive (fun _ : R => a0) t 0) by (intros; apply (is_derive_const (K := R_AbsRing) (V := R_NormedModule))).
  assert (RT : 0 < Rgas * T) by (apply Rmult_lt_0_compat; auto).
  assert (RV : forall V, V <> b -> V <> 0 -> regular_V b 0 0 V).
  { intros V H1 H2. split; auto. intro Q. apply H2. nra. }
  splits.
  - unfold m, main_derivatives_and_departures_VDW, out_H. cbv zeta.
    pose (g := fun w => Rgas * T / (1 - b * w) - Rgas * T - 2 * a0 * w).
    apply (lim_via_inv_eq _ g (Rmax 0 b)).
    + unfold g. field.
    + intros V HV. pose proof (Rmax_l 0 b). pose proof (Rmax_r 0 b). unfold Pf, P_cubic, g. field. splits; try lra; try nz.
      all: try (intro Q; nra).
    + unfold g. auto_derive. splits; auto; lra.
  - intros V H1 H2. unfold m, main_derivatives_and_departures_VDW, out_H. cbv zeta.
    pose proof (P_cubic_dV (fun _ => a0) b 0 0 T V (RV V H1 H2)) as DP.
    pose proof (P_cubic_dT (fun _ => a0) (fun _ => 0) b 0 0 T V (RV V H1 H2) (A T)) as DT.
    unfold Pf. dv DT.
    auto_derive. splits; auto. exd. dv DP. unfold P_cubic. field. nz.
    all: try (intro Q; nra).
  - unfold m, main_derivatives_and_departures_VDW, out_S. cbv zeta.
    pose (g := fun w => Rgas * ln (1 - b * w) + Rgas * ln (1 / (1 - b * w) - a0 / (Rgas * T) * w)).
    apply (lim_via_inv_eq _ g (Rmax 0 b)).
    + unfold g. replace (1 - b * 0) with 1 by ring. replace (1 / 1 - a0 / (Rgas * T) * 0) with 1 by (field; splits; lra). rewrite ln_1. ring.
    + intros V HV. pose proof (Rmax_l 0 b). pose proof (Rmax_r 0 b). unfold g.
      assert (0 < 1 - b * / V). { replace (1 - b * / V) with ((V - b) / V) by (field; lra). apply Rdiv_lt_0_compat; lra. }
      replace (V - b) with (V * (1 - b * / V)) by (field; lra). rewrite ln_mult by lra.
      replace (Pf T V * V / (Rgas * T)) with (1 / (1 - b * / V) - a0 / (Rgas * T) * / V).
      ring. unfold Pf, P_cubic. field. splits; try lra; try nz.
      all: try (intro Q; nra).
    + unfold g. auto_derive. rewrite !Rmult_0_r. splits; auto; rewrite ?Rmult_0_r; try lra. replace (1 + - 0) with 1 by ring. lra.
  - intros V H0 H1 HP. assert (V <> b) by lra. assert (V <> 0) by lra. unfold m, main_derivatives_and_departures_VDW, out_S. cbv zeta.
    pose proof (P_cubic_dV (fun _ => a0) b 0 0 T V (RV V ltac:(lra) ltac:(lra))) as DP.
    pose proof (P_cubic_dT (fun _ => a0) (fun _ => 0) b 0 0 T V (RV V ltac:(lra) ltac:(lra)) (A T)) as DT.
    unfold Pf in *. dv DT. dv DP.
    assert (0 < P_cubic (fun _ : R => a0) b 0 0 T V * V * / (Rgas * T)).
    { repeat apply Rmult_lt_0_compat; auto. apply Rinv_0_lt_compat; auto. }
    auto_derive. splits; auto; try lra. exd. dv DP. set (p := P_cubic _ b 0 0 T V) in *.
    field. splits; try lra; try nz. all: try (intro Q; nra).
  - intros. reflexivity.
Qed.

(* hypotheses are met: a(T) = T^3, b = 1, delta = 2, eps = -1, T = 1/1000, V = 3: the EOS pressure is positive there *)
Example C02_hypotheses_met :
  0 < 1/1000 /\ 0 < 2 * 2 - 4 * (-1) /\ above_poles 1 2 (-1) 3 /\ regular_V 1 2 (-1) 3 /\
  0 < P_cubic (fun t => t ^ 3) 1 2 (-1) (1/1000) 3 /\ is_derive (fun t => t ^ 3) (1/1000) (3 * (1/1000) ^ 2).
Proof.
  splits; try lra.
  - split; [lra|]. replace (2 * 2 - 4 * -1) with 8 by ring.
    assert (sqrt 8 < 8). { pose proof (sqrt_sqrt 8 ltac:(lra)). pose proof (sqrt_pos 8). nra. } lra.
  - split; lra.
  - unfold P_cubic. rewrite Rgas_val. lra.
  - auto_derive; auto. field.
Qed.
