(* Departure functions and their derivatives along an arbitrary curve s |-> (T(s), P(s), V(s)). *)
From Coq Require Import Reals Lra Lia.
From Coquelicot Require Import Coquelicot.
From Verif Require Import Base BaseFacts Spec_eos Gen_eos EosFacts EosCurve.
Open Scope R_scope.

Section Dep.
Variables (a da d2a : R -> R) (b delta eps : R).
Notation K := (Kf delta eps).
Notation D := (Dn delta eps).
Definition cH T P V := K V * (T * da T - a T) - Rgas * T + P * V.
Definition cS T P V := - Rgas * ln (Rgas * T * (1 / (V - b)) / P) + da T * K V.

Hypothesis HE : 0 < delta * delta - 4 * eps.
Variables (Tf Pf Vf : R -> R) (s T' P' V' : R).
Hypothesis DT : is_derive Tf s T'.
Hypothesis DP : is_derive Pf s P'.
Hypothesis DV : is_derive Vf s V'.
Hypothesis Hda : is_derive da (Tf s) (d2a (Tf s)).
Hypothesis Reg : regular_V b delta eps (Vf s).

Lemma is_derive_mul (f g : R -> R) x f' g' : is_derive f x f' -> is_derive g x g' -> is_derive (fun t => f t * g t) x (f' * g x + f x * g').
Proof. intros. auto_derive. splits; try exd; auto. dv H. dv H0. ring. Qed.

Lemma curve_cH : is_derive a (Tf s) (da (Tf s)) -> is_derive (fun x => cH (Tf x) (Pf x) (Vf x)) s
  (- V' / D (Vf s) * (Tf s * da (Tf s) - a (Tf s)) + K (Vf s) * (Tf s * d2a (Tf s) * T') - Rgas * T' + (P' * Vf s + Pf s * V')).
Proof.
  intros Ha. pose proof (curve_K b delta eps Vf s V' DV Reg HE) as CK.
  set (k := fun x => K (Vf x)) in *.
  apply is_derive_ext with (fun x => k x * (Tf x * da (Tf x) - a (Tf x)) - Rgas * Tf x + Pf x * Vf x).
  { intros; reflexivity. }
  auto_derive. splits; try exd; auto.
  dv CK. dv DT. dv DP. dv DV. dv Hda. dv Ha. unfold k. unfold Dn in *. destruct Reg. field. nz.
Qed.

Lemma curve_cS : 0 < Tf s -> 0 < Pf s -> b < Vf s -> is_derive (fun x => cS (Tf x) (Pf x) (Vf x)) s
  (- Rgas * (T' / Tf s - V' / (Vf s - b) - P' / Pf s) + (d2a (Tf s) * T' * K (Vf s) - da (Tf s) * V' / D (Vf s))).
Proof.
  intros H1 H2 H3. pose proof (curve_K b delta eps Vf s V' DV Reg HE) as CK. pose proof Rgas_pos as HR.
  set (k := fun x => K (Vf x)) in *.
  apply is_derive_ext with (fun x => - Rgas * ln (Rgas * Tf x * (1 / (Vf x - b)) / Pf x) + da (Tf x) * k x).
  { intros; reflexivity. }
  auto_derive. splits; try exd; auto; try nz.
  { apply Rmult_lt_0_compat; [|apply Rinv_0_lt_compat; auto]. apply Rmult_lt_0_compat. nra.
    apply Rmult_lt_0_compat; [lra|]. apply Rinv_0_lt_compat. lra. }
  dv CK. dv DT. dv DP. dv DV. dv Hda. unfold k. unfold Dn in *. destruct Reg. field. splits; nz.
Qed.
End Dep.

(* the generated outputs in closed form *)
Definition Hcode (a da d2a : R -> R) b delta eps T P V := out_H (main_derivatives_and_departures T P V b delta eps (a T) (da T) (d2a T)).
Definition Scode (a da d2a : R -> R) b delta eps T P V := out_S (main_derivatives_and_departures T P V b delta eps (a T) (da T) (d2a T)).
Lemma Hcode_eq a da d2a b delta eps T P V : 0 < delta * delta - 4 * eps -> Hcode a da d2a b delta eps T P V = cH a da delta eps T P V.
Proof. intros. apply main_H. auto. Qed.
Lemma Scode_eq a da d2a b delta eps T P V : 0 < delta * delta - 4 * eps -> Scode a da d2a b delta eps T P V = cS da b delta eps T P V.
Proof. intros. apply main_S. auto. Qed.

(* rational pieces shared by the derivative properties *)
Lemma x_frac delta eps V c : 0 < delta * delta - 4 * eps -> V ^ 2 + delta * V + eps <> 0 ->
  4 * c * (1 / (delta * delta - 4 * eps)) / ((delta + V + V) * (delta + V + V) * (1 / (delta * delta - 4 * eps)) - 1) = c / Dn delta eps V.
Proof.
  intros HE HD. unfold Dn.
  assert (E : (delta + V + V) * (delta + V + V) * (1 / (delta * delta - 4 * eps)) - 1 = 4 * (V ^ 2 + delta * V + eps) / (delta * delta - 4 * eps)) by (field; lra).
  rewrite E. field. split; nz.
Qed.
Lemma re_K delta eps V : 2 * / sqrt (delta * delta - 4 * eps) * re_catanh (/ sqrt (delta * delta - 4 * eps) * (delta + V + V)) = Kf delta eps V.
Proof. unfold Kf. replace (delta + V + V) with (2 * V + delta) by ring. unfold Rdiv. rewrite !Rmult_1_l. reflexivity. Qed.
Lemma inv_sqrt_sq x : 0 < x -> / sqrt x * / sqrt x = 1 / x.
Proof. intros. rewrite <- Rinv_mult. rewrite sqrt_sqrt by lra. field. lra. Qed.

(* closed forms of the derivative properties of the departure functions *)
Ltac dep_closed :=
  match goal with
  | HE : 0 < ?d * ?d - 4 * ?e, HR : regular_V _ ?d ?e ?v |- _ =>
    let s := fresh "s" in let Hs := fresh "Hs" in let Hss := fresh "Hss" in let E := fresh "E" in
    let H1 := fresh "H1" in let H2 := fresh "H2" in let H3 := fresh "H3" in
    destruct HR as [H1 H2];
    rewrite ?Reqb_false by lra;
    pose proof (sqrt_disc_pos _ _ HE) as Hs; pose proof (sqrt_sqrt _ (Rlt_le _ _ HE)) as Hss;
    unfold Kf, Dn;
    set (s := sqrt (d * d - 4 * e)) in *; clearbody s;
    replace (v + v + d) with (2 * v + d) by ring;
    replace (d + v + v) with (2 * v + d) by ring;
    replace (d + 2 * v) with (2 * v + d) by ring;
    replace (d + (v + v)) with (2 * v + d) by ring;
    assert (H3 : (2 * v + d) * (2 * v + d) - s * s <> 0) by (intro; apply H2; lra);
    assert (E : e = (d * d - s * s) / 4) by lra;
    replace (1 / s * (2 * v + d)) with (/ s * (2 * v + d)) by (field; lra);
    try (let q := fresh "q" in set (q := re_catanh (/ s * (2 * v + d))); clearbody q);
    replace (d * d - 4 * e) with (s * s) in * by lra; subst e
  end.
Ltac dep_nz := splits; try nz; try (let Q := fresh in intro Q; match goal with H : ?x <> 0 |- _ => apply H; lra end).
Section Closed2.
Variables (b delta eps V : R).
Hypothesis HE : 0 < delta * delta - 4 * eps.
Hypothesis HR : regular_V b delta eps V.
Notation K := (Kf delta eps V).
Notation D := (Dn delta eps V).
Lemma dH_dT_l_eq dV a P T d2a da : eos_dH_dep_dT_l V dV a delta eps P T d2a da = P * dV - Rgas + T * K * d2a - dV * (T * da - a) / D.
Proof. unfold eos_dH_dep_dT_l; cbv zeta. dep_closed. field. dep_nz. Qed.
Lemma dH_dT_g_eq dV a P T d2a da H : V <= 10 ^ 50 -> eos_dH_dep_dT_g V dV a delta eps P T d2a da H = P * dV - Rgas + T * K * d2a - dV * (T * da - a) / D.
Proof. intros. unfold eos_dH_dep_dT_g; cbv zeta. rewrite Rltb_false by lra. dep_closed. field. dep_nz. Qed.
Lemma dH_dT_V_eq T dP d2a : eos_dH_dep_dT_V T delta eps V dP d2a = V * dP - Rgas + T * K * d2a.
Proof. unfold eos_dH_dep_dT_V; cbv zeta. dep_closed. field. dep_nz. Qed.
Lemma dH_dP_eq dV P T da a : eos_dH_dep_dP delta V eps dV P T da a = V + P * dV - dV * (T * da - a) / D.
Proof. unfold eos_dH_dep_dP; cbv zeta. dep_closed. field. dep_nz. Qed.
Lemma dH_dP_V_eq T da d2a dT : eos_dH_dep_dP_V T V delta eps da d2a dT = V - Rgas * dT + K * (T * d2a * dT).
Proof. unfold eos_dH_dep_dP_V; cbv zeta. dep_closed. field. dep_nz. Qed.
Lemma dS_dT_l_eq dV a T da d2a : V <> 0 -> T <> 0 -> eos_dS_dep_dT_l V dV a delta eps T da b d2a = - Rgas * (1 / T - dV / (V - b)) + d2a * K - da * dV / D.
Proof. intros. unfold eos_dS_dep_dT_l; cbv zeta. dep_closed. field. dep_nz. Qed.
Lemma dS_dT_g_eq dV a T da d2a Sd : V <> 0 -> T <> 0 -> V <= 10 ^ 50 -> eos_dS_dep_dT_g V dV a delta eps T da b d2a Sd = - Rgas * (1 / T - dV / (V - b)) + d2a * K - da * dV / D.
Proof. intros. unfold eos_dS_dep_dT_g; cbv zeta. rewrite Rltb_false by lra. dep_closed. field. dep_nz. Qed.
Lemma dS_dT_V_eq T P dP d2a : T <> 0 -> P <> 0 -> eos_dS_dep_dT_V T P delta eps V dP d2a = - Rgas * (1 / T - dP / P) + d2a * K.
Proof. intros. unfold eos_dS_dep_dT_V; cbv zeta. dep_closed. field. dep_nz. Qed.
Lemma dS_dP_l_eq dV da P : V <> 0 -> P <> 0 -> eos_dS_dep_dP_l V dV delta eps da b P = Rgas * (dV / (V - b) + 1 / P) - da * dV / D.
Proof. intros. unfold eos_dS_dep_dP_l; cbv zeta. dep_closed. field. dep_nz. Qed.
Lemma dS_dP_g_eq dV da P : V <> 0 -> P <> 0 -> eos_dS_dep_dP_g V dV delta eps da b P = Rgas * (dV / (V - b) + 1 / P) - da * dV / D.
Proof. intros. unfold eos_dS_dep_dP_g; cbv zeta. dep_closed. field. dep_nz. Qed.
Lemma dS_dP_V_eq T P d2a dT : T <> 0 -> P <> 0 -> eos_dS_dep_dP_V T P delta eps d2a V dT = - Rgas * (dT / T - 1 / P) + d2a * dT * K.
Proof. intros. unfold eos_dS_dep_dP_V; cbv zeta. dep_closed. field. dep_nz. Qed.
Lemma d2H_dT2_eq T P d2V a d2a dV da d3a : eos_d2H_dep_dT2 T P delta eps V d2V a d2a dV da d3a =
  P * d2V + K * (d2a + T * d3a) - 2 * dV * T * d2a / D - (d2V / D - dV ^ 2 * (2 * V + delta) / D ^ 2) * (T * da - a).
Proof. unfold eos_d2H_dep_dT2; cbv zeta. dep_closed. field. dep_nz. Qed.
Lemma d2H_dT2_V_eq T d2a d3a d2P : eos_d2H_dep_dT2_V V T delta eps d2a d3a d2P = V * d2P + K * (d2a + T * d3a).
Proof. unfold eos_d2H_dep_dT2_V; cbv zeta. dep_closed. field. dep_nz. Qed.
Lemma d2S_dT2_eq T P d2V dV a da d2a d3a : V <> 0 -> T <> 0 -> eos_d2S_dep_dT2 T P b delta eps V d2V dV a da d2a d3a =
  Rgas * (1 / T ^ 2 + d2V / (V - b) - dV ^ 2 / (V - b) ^ 2) + d3a * K - 2 * d2a * dV / D - da * (d2V / D - dV ^ 2 * (2 * V + delta) / D ^ 2).
Proof. intros. unfold eos_d2S_dep_dT2; cbv zeta. dep_closed. field. dep_nz. Qed.
Lemma d2S_dT2_V_eq T P d2a d3a dP d2P : T <> 0 -> P <> 0 -> eos_d2S_dep_dT2_V V T delta eps d2a d3a d2P P dP =
  Rgas * (1 / T ^ 2 + d2P / P - dP ^ 2 / P ^ 2) + d3a * K.
Proof. intros. unfold eos_d2S_dep_dT2_V; cbv zeta. dep_closed. field. dep_nz. Qed.
Lemma d2H_dTdP_eq T P dVT d2V dVP a d2a da : eos_d2H_dep_dTdP V T P delta eps dVT d2V dVP a d2a da =
  dVT + P * d2V - dVP * (T * d2a) / D - (d2V / D - dVP * dVT * (2 * V + delta) / D ^ 2) * (T * da - a).
Proof. unfold eos_d2H_dep_dTdP; cbv zeta. dep_closed. field. dep_nz. Qed.
Lemma d2S_dTdP_eq T P dVT d2V dVP a da d2a : V <> 0 -> T <> 0 -> P <> 0 -> eos_d2S_dep_dTdP V T P b delta eps dVT d2V dVP a da d2a =
  Rgas * (d2V / (V - b) - dVP * dVT / (V - b) ^ 2) - d2a * dVP / D - da * (d2V / D - dVP * dVT * (2 * V + delta) / D ^ 2).
Proof. intros. unfold eos_d2S_dep_dTdP; cbv zeta. dep_closed. field. dep_nz. Qed.
End Closed2.
