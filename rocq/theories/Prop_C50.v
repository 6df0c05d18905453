(* C50: the activity coefficient liquid: fugacity coefficients, caloric properties and their derivatives. *)
From Coq Require Import Reals Lra Lia Bool.
From Coquelicot Require Import Coquelicot.
From Verif Require Import Base BaseFacts Spec_phase PhaseFacts Spec_gex Gen_gex Model_gex GexFacts.
Open Scope R_scope.

Section Liquid.
Variable L : liquid.
Hypothesis HC : consistent L.
Notation N := (n_comp L). Notation z := (zs_ L).
Section State.
Variables (T P : R).
Hypothesis (PT : 0 < T) (PP : 0 < P).
Notation pd X Y Z d := (partial_derivative X Y Z T P d).
Notation D X a b := (differential X T P a b).
(* derivatives with respect to T at constant P and with respect to P at constant T *)
Lemma pd_T X a b d : D X a b -> a = d -> pd X temperature pressure d.
Proof. intros H E. eapply pd_intro; [exact H|apply D_T|apply D_V|lra|]. rewrite <- E. field. Qed.
Lemma pd_P X a b d : D X a b -> b = d -> pd X pressure temperature d.
Proof. intros H E. eapply pd_intro; [exact H|apply D_V|apply D_T|lra|]. rewrite <- E. field. Qed.

(* at the vapor pressure of a component its fugacity coefficient is activity coefficient times saturation fugacity coefficient *)
Theorem C50_saturation : forall i, (i < N)%nat -> P = psat L i T -> phis L T P i = gam L i T * phis_sat L T i.
Proof.
  intros i Hi E. rewrite (phi_eq L T P PT PP i Hi). unfold w. replace (vsat L i T * (P - psat L i T) / (Rgas * T)) with 0 by (rewrite E; field; pose proof Rgas_pos; lra).
  replace (if poynting L then 0 else 0) with 0 by (destruct (poynting L); reflexivity). rewrite exp_0, E. field. rewrite <- E. lra.
Qed.
(* the Poynting corrections, from V dP = RT dln(f) of the incompressible liquid *)
Theorem C50_poynting : forall i, (i < N)%nat -> poynting L = true ->
  Rgas * T * ln (Poyntings L T P i) = vsat L i T * (P - psat L i T) /\
  pd (fun T P => Poyntings L T P i) temperature pressure (dPoyntings_dT L T P i) /\ pd (fun T P => Poyntings L T P i) pressure temperature (dPoyntings_dP L T P i) /\
  pd (fun T P => dPoyntings_dT L T P i) temperature pressure (d2Poyntings_dT2 L T P i) /\ pd (fun T P => dPoyntings_dT L T P i) pressure temperature (d2Poyntings_dPdT L T P i) /\
  pd (fun T P => dPoyntings_dP L T P i) temperature pressure (d2Poyntings_dPdT L T P i).
Proof.
  intros i Hi E. pose proof Rgas_pos.
  assert (D1 : D (fun T P => Poyntings L T P i) (dPoyntings_dT L T P i) (dPoyntings_dP L T P i)).
  { apply (D_pos (fun T P => exp (w L i T P)) _ T P); [auto|auto|intros; symmetry; now apply Poy_eq|].
    rewrite (dPoy_eq L T P PT i Hi), (dPoyP_eq L T P PT i Hi). eapply D_eq; [apply (D_comp T P exp (exp (w L i T P)) (w L i)); [apply is_derive_exp|apply D_w; auto]|ring|ring]. }
  assert (D0 : D (fun T P => exp (w L i T P)) (exp (w L i T P) * wT L i T P) (exp (w L i T P) * wP L i T)) by (apply (D_comp T P exp (exp (w L i T P)) (w L i)); [apply is_derive_exp|apply D_w; auto]).
  assert (D2 : D (fun T P => dPoyntings_dT L T P i) (d2Poyntings_dT2 L T P i) (d2Poyntings_dPdT L T P i)).
  { apply (D_pos (fun T P => wT L i T P * exp (w L i T P)) _ T P); [auto|auto|intros; symmetry; now apply dPoy_eq|].
    rewrite (d2Poy_eq L T P PT i Hi), (d2PoyPT_eq L T P PT i Hi). eapply D_eq; [apply (D_mult T P (wT L i) (fun T P => exp (w L i T P))); [apply D_wT; auto|exact D0]|cbv beta; ring|cbv beta; ring]. }
  assert (DwP : D (fun T P => wP L i T) (wTP L i T) 0).
  { unfold wP, wTP. rewrite E. pose proof (D_fun T P _ _ (proj1 (c_vs L HC i T Hi PT))) as L2. eapply D_eq; [dif; cbv beta; apply Rgt_not_eq, Rmult_lt_0_compat; lra|cbv beta; field; lra|cbv beta; field; lra]. }
  assert (D3 : D (fun T P => dPoyntings_dP L T P i) (d2Poyntings_dPdT L T P i) (wP L i T * wP L i T * exp (w L i T P))).
  { apply (D_pos (fun T P => wP L i T * exp (w L i T P)) _ T P); [auto|auto|intros; symmetry; now apply dPoyP_eq|].
    rewrite (d2PoyPT_eq L T P PT i Hi). eapply D_eq; [apply (D_mult T P (fun T P => wP L i T) (fun T P => exp (w L i T P))); [exact DwP|exact D0]|cbv beta; ring|cbv beta; ring]. }
  splits.
  - rewrite (Poy_eq L T P PT i Hi), ln_exp. unfold w. rewrite E. field. lra.
  - now eapply pd_T; [exact D1|].
  - now eapply pd_P; [exact D1|].
  - now eapply pd_T; [exact D2|].
  - now eapply pd_P; [exact D2|].
  - now eapply pd_T; [exact D3|].
Qed.
Lemma phi_pos i : (i < N)%nat -> 0 < phis L T P i.
Proof.
  intros Hi. rewrite (phi_eq L T P PT PP i Hi). pose proof (proj1 (c_ps L HC i T Hi PT)). pose proof (proj1 (c_gm L HC i T Hi PT)). pose proof (f_pos L HC T PT i Hi). pose proof (exp_pos (w L i T P)).
  apply Rdiv_lt_0_compat; [|lra]. repeat apply Rmult_lt_0_compat; assumption.
Qed.
Lemma lnphi_eq i : (i < N)%nat -> ln (phis L T P i) = ln (gam L i T) + u L i T P - ln P.
Proof.
  intros Hi. rewrite (phi_eq L T P PT PP i Hi). pose proof (proj1 (c_ps L HC i T Hi PT)). pose proof (proj1 (c_gm L HC i T Hi PT)). pose proof (f_pos L HC T PT i Hi). pose proof (exp_pos (w L i T P)).
  unfold Rdiv. rewrite ln_mult, ln_Rinv, !ln_mult, ln_exp; auto; try (repeat apply Rmult_lt_0_compat; assumption); [unfold u; ring|now apply Rinv_0_lt_compat].
Qed.
End State.
Section Deriv.
Variables (T P : R).
Hypothesis (PT : 0 < T) (PP : 0 < P).
Notation pd X Y Z d := (partial_derivative X Y Z T P d).
Notation D X a b := (differential X T P a b).
Lemma D_lnphi i : (i < N)%nat -> D (fun T P => ln (phis L T P i)) (gam1 L i T / gam L i T + uT L i T P) (wP L i T - 1 / P).
Proof.
  intros Hi. apply (D_pos (fun T P => ln (gam L i T) + u L i T P - ln P) _ T P); [auto|auto|intros; symmetry; now apply lnphi_eq|].
  pose proof (D_fun T P _ _ (proj2 (c_gm L HC i T Hi PT))) as L1. pose proof (proj1 (c_gm L HC i T Hi PT)). pose proof (D_u L HC T P PT i Hi) as L2.
  eapply D_eq; [dif; cbv beta; auto|cbv beta; field; lra|cbv beta; field; lra].
Qed.
(* the derivatives of the fugacity coefficients and of their logarithms *)
Theorem C50_fugacity_derivatives : forall i, (i < N)%nat -> 0 < phis L T P i /\
  pd (fun T P => phis L T P i) temperature pressure (dphis_dT L T P i) /\
  pd (fun T P => ln (phis L T P i)) temperature pressure (dlnphis_dT L T P i) /\ pd (fun T P => ln (phis L T P i)) pressure temperature (dlnphis_dP L T P i).
Proof.
  intros i Hi. pose proof (phi_pos T P PT PP i Hi) as Pp. pose proof (D_lnphi i Hi) as D1.
  pose proof (proj1 (c_ps L HC i T Hi PT)). pose proof (proj1 (c_gm L HC i T Hi PT)). pose proof (f_pos L HC T PT i Hi). pose proof (exp_pos (w L i T P)).
  assert (Ep : dphis_dT L T P i = phis L T P i * (gam1 L i T / gam L i T + uT L i T P)).
  { rewrite (dphi_eq L T P PT PP i Hi), (phi_eq L T P PT PP i Hi). unfold uT. field. repeat split; lra. }
  splits; [exact Pp| | |].
  - assert (De : D (fun T P => exp (ln (phis L T P i))) (exp (ln (phis L T P i)) * (gam1 L i T / gam L i T + uT L i T P)) (exp (ln (phis L T P i)) * (wP L i T - 1 / P))).
    { apply (D_comp T P exp (exp (ln (phis L T P i))) (fun T P => ln (phis L T P i))); [apply is_derive_exp|exact D1]. }
    rewrite exp_ln in De by auto. eapply pd_T; [apply (D_pos (fun T P => exp (ln (phis L T P i))) _ T P); [auto|auto|intros; apply exp_ln, phi_pos; auto|exact De]|now rewrite Ep].
  - eapply pd_T; [exact D1|]. unfold dlnphis_dT, GX_dlnphis_dT. cbv zeta.
    change (GX_dphis_dT _ _ _ _ _ _ _ _ _ _ _ _ _) with (dphis_dT L T P). change (GX_phis _ _ _ _ _ _ _ _) with (phis L T P). rewrite Ep. field. lra.
  - eapply pd_P; [exact D1|]. unfold dlnphis_dP, GX_dlnphis_dP. cbv zeta. fold (Poyntings L T P) (dPoyntings_dP L T P).
    rewrite (Poy_eq L T P PT i Hi), (dPoyP_eq L T P PT i Hi). field. lra.
Qed.

(* the excess properties, from the activity coefficients *)
Lemma ge1_eq : ge1 L T = Rgas * rsum N (fun i => z i * ln (gam L i T)) + Rgas * T * rsum N (fun i => z i * (gam1 L i T / gam L i T)).
Proof.
  pose proof (proj1 (c_ge L HC T PT)) as Hg.
  assert (D1 : is_derive (fun t => Rgas * t * rsum N (fun i => z i * ln (gam L i t))) T (Rgas * rsum N (fun i => z i * ln (gam L i T)) + Rgas * T * rsum N (fun i => z i * (gam1 L i T / gam L i T)))).
  { eapply is_derive_eq; [apply (is_derive_mult (fun t => Rgas * t) (fun t => rsum N (fun i => z i * ln (gam L i t))) T Rgas (rsum N (fun i => z i * (gam1 L i T / gam L i T)))); [auto_derive; [auto|ring]| |intros; apply Rmult_comm]|].
    - apply (is_derive_rsum N (fun i t => z i * ln (gam L i t)) (fun i => z i * (gam1 L i T / gam L i T))). intros i Hi. destruct (c_gm L HC i T Hi PT) as [G1 G2].
      eapply is_derive_eq; [apply (is_derive_scal (fun t => ln (gam L i t)) T (z i)); apply (is_derive_comp ln (gam L i)); [apply is_derive_ln; exact G1|exact G2]|]. unfold scal; simpl; unfold mult; simpl. field. lra.
    - unfold plus, mult; simpl. ring. }
  assert (D2 : is_derive (ge L) T (Rgas * rsum N (fun i => z i * ln (gam L i T)) + Rgas * T * rsum N (fun i => z i * (gam1 L i T / gam L i T)))).
  { eapply is_derive_ext_loc; [|exact D1]. assert (L1 : locally T (fun t => 0 < t)) by now apply open_gt. revert L1. apply filter_imp. intros t Pt. symmetry. now apply (c_gamma L HC). }
  apply is_derive_unique in Hg. apply is_derive_unique in D2. rewrite <- Hg. exact D2.
Qed.
Lemma excess_flag (x : R) : (ideal L = true -> x = 0) -> (if ideal L then 0 else x) = x.
Proof. destruct (ideal L); intros H; [symmetry; auto|reflexivity]. Qed.
Lemma HE_flag : (if ideal L then 0 else HE L T) = - Rgas * T * T * rsum N (fun i => z i * (gam1 L i T / gam L i T)).
Proof. rewrite excess_flag; [unfold HE; rewrite ge1_eq, (c_gamma L HC T PT); ring|]. intros E. destruct (c_ideal L HC E T) as (A & B & _). unfold HE. rewrite A, B. ring. Qed.
Lemma SE_flag : (if ideal L then 0 else SE L T) = - Rgas * rsum N (fun i => z i * ln (gam L i T)) - Rgas * T * rsum N (fun i => z i * (gam1 L i T / gam L i T)).
Proof. rewrite excess_flag; [unfold SE; rewrite ge1_eq; ring|]. intros E. destruct (c_ideal L HC E T) as (_ & B & _). unfold SE. rewrite B. ring. Qed.
Lemma dlnphi_eq i : (i < N)%nat -> dlnphis_dT L T P i = gam1 L i T / gam L i T + uT L i T P.
Proof.
  intros Hi. destruct (C50_fugacity_derivatives i Hi) as (_ & _ & H & _).
  pose proof (pd_elim _ _ _ T P _ _ 1 0 0 1 _ H (D_lnphi i Hi) (D_T T P) (D_V T P) ltac:(lra)) as E. pose proof (proj1 (c_gm L HC i T Hi PT)). rewrite E. field. split; lra.
Qed.
Lemma sum_z (c : R) : c = rsum N (fun i => z i * c).
Proof. rewrite rsum_scal_r, (c_z L HC). ring. Qed.
(* enthalpy and entropy, and so the Gibbs energy, belong to the fugacity coefficients *)
Theorem C50_departure : hvap_caloric L = false ->
  lq_H L T P = H_ig L T P - Rgas * T * T * rsum N (fun i => z i * dlnphis_dT L T P i) /\
  lq_S L T P = S_ig L T P - Rgas * rsum N (fun i => z i * (ln (phis L T P i) + T * dlnphis_dT L T P i)) /\
  gibbs_energy (lq_H L) (lq_S L) T P = gibbs_energy (H_ig L) (S_ig L) T P + Rgas * T * rsum N (fun i => z i * ln (phis L T P i)).
Proof.
  intros E0.
  assert (EH : lq_H L T P = H_ig L T P - Rgas * T * T * rsum N (fun i => z i * dlnphis_dT L T P i)).
  { rewrite (H_eq L HC T P PT E0), HE_flag. unfold H_ig. rewrite <- !rsum_scal_l, <- rsum_plus, <- rsum_minus. apply rsum_ext. intros i Hi. rewrite (dlnphi_eq i Hi). ring. }
  assert (ES : lq_S L T P = S_ig L T P - Rgas * rsum N (fun i => z i * (ln (phis L T P i) + T * dlnphis_dT L T P i))).
  { rewrite (S_eq L HC T P PT PP E0), SE_flag. unfold S_ig.
    assert (Es : rsum N (fun i => z i * (ln (phis L T P i) + T * dlnphis_dT L T P i)) = rsum N (fun i => z i * ln (gam L i T)) + T * rsum N (fun i => z i * (gam1 L i T / gam L i T)) + rsum N (fun i => z i * (T * uT L i T P + u L i T P - ln P))).
    { rewrite <- rsum_scal_l, <- !rsum_plus. apply rsum_ext. intros i Hi. rewrite (dlnphi_eq i Hi), (lnphi_eq T P PT PP i Hi). ring. }
    assert (Et : rsum N (fun i => z i * (Rgas * (T * uT L i T P + u L i T P - ln P) - cpig_int_T L i T)) = Rgas * rsum N (fun i => z i * (T * uT L i T P + u L i T P - ln P)) - rsum N (fun i => z i * cpig_int_T L i T)).
    { rewrite <- rsum_scal_l, <- rsum_minus. apply rsum_ext. intros i Hi. ring. }
    rewrite Es, Et. ring. }
  splits; [exact EH|exact ES|]. unfold gibbs_energy. rewrite EH, ES.
  assert (Er : rsum N (fun i => z i * (ln (phis L T P i) + T * dlnphis_dT L T P i)) = rsum N (fun i => z i * ln (phis L T P i)) + T * rsum N (fun i => z i * dlnphis_dT L T P i)).
  { rewrite <- rsum_scal_l, <- rsum_plus. apply rsum_ext. intros; ring. }
  rewrite Er. ring.
Qed.
(* with enthalpies of vaporization, the enthalpy is the one of the gas less the enthalpy of vaporization, and the Gibbs energy
   is the one of the low pressure fugacity coefficients gamma Psat / P *)
Theorem C50_hvap : hvap_caloric L = true ->
  lq_H L T P = H_ig L T P - rsum N (fun i => z i * hvap L i T) + (ge L T - T * ge1 L T) /\
  gibbs_energy (lq_H L) (lq_S L) T P = gibbs_energy (H_ig L) (S_ig L) T P + Rgas * T * rsum N (fun i => z i * ln (gam L i T * psat L i T / P)).
Proof.
  intros E0. pose proof HE_flag as Eh. pose proof SE_flag as Es.
  assert (FH : (if ideal L then 0 else HE L T) = HE L T) by (apply excess_flag; intros E; destruct (c_ideal L HC E T) as (A & B & _); unfold HE; rewrite A, B; ring).
  assert (FS : (if ideal L then 0 else SE L T) = SE L T) by (apply excess_flag; intros E; destruct (c_ideal L HC E T) as (A & B & _); unfold SE; rewrite B; ring).
  assert (EH : lq_H L T P = H_ig L T P - rsum N (fun i => z i * hvap L i T) + HE L T).
  { unfold lq_H, GX_H, H_ig. rewrite E0. cbv zeta. rewrite loop_rsum, Rplus_0_l.
    rewrite <- rsum_minus. rewrite (rsum_ext N _ (fun i => z i * cpig_int L i T - z i * hvap L i T)) by (intros; ring). rewrite <- FH. destruct (ideal L); cbn [negb]; ring. }
  assert (ES : lq_S L T P = S_ig L T P - rsum N (fun i => z i * (Rgas * (ln (psat L i T) - ln P) + hvap L i T / T)) + SE L T).
  { unfold lq_S, GX_S, S_ig. rewrite E0. cbv zeta. rewrite !loop_rsub. replace (P * (1 / P_ref L)) with (P / P_ref L) by (field; pose proof (c_P L HC); lra).
    rewrite (rsum_ext N (fun i => z i * (Rgas * (lnPsats L T i + ln (1 / P)) - cpig_int_T L i T + hvap L i T * (1 / T))) (fun i => z i * (Rgas * (ln (psat L i T) - ln P) + hvap L i T / T) - z i * cpig_int_T L i T)).
    - rewrite rsum_minus, <- FS. destruct (ideal L); cbn [negb]; ring.
    - intros i Hi. unfold lnPsats. rewrite (lnP_inv P PP). field. lra. }
  split; [exact EH|]. unfold gibbs_energy. rewrite EH, ES. unfold HE, SE. rewrite (c_gamma L HC T PT).
  assert (E1 : rsum N (fun i => z i * ln (gam L i T * psat L i T / P)) = rsum N (fun i => z i * ln (gam L i T)) + rsum N (fun i => z i * (ln (psat L i T) - ln P))).
  { rewrite <- rsum_plus. apply rsum_ext. intros i Hi. pose proof (proj1 (c_ps L HC i T Hi PT)). pose proof (proj1 (c_gm L HC i T Hi PT)).
    unfold Rdiv. rewrite ln_mult, ln_mult, ln_Rinv; auto; [ring|now apply Rmult_lt_0_compat|now apply Rinv_0_lt_compat]. }
  assert (E2 : T * rsum N (fun i => z i * (Rgas * (ln (psat L i T) - ln P) + hvap L i T / T)) = Rgas * T * rsum N (fun i => z i * (ln (psat L i T) - ln P)) + rsum N (fun i => z i * hvap L i T)).
  { rewrite <- !rsum_scal_l, <- rsum_plus. apply rsum_ext. intros i Hi. field. lra. }
  rewrite E1. lra.
Qed.
Lemma D_HE : D (fun T P => if ideal L then 0 else HE L T) (if ideal L then 0 else CpE L T) 0.
Proof.
  destruct (ideal L); [apply D_const|]. unfold HE, CpE. destruct (c_ge L HC T PT) as [G1 G2].
  pose proof (D_fun T P _ _ G1) as L1. pose proof (D_fun T P _ _ G2) as L2. eapply D_eq; [dif|cbv beta; ring|cbv beta; ring].
Qed.
Lemma D_SE : D (fun T P => if ideal L then 0 else SE L T) (if ideal L then 0 else dSE_dT L T) 0.
Proof.
  destruct (ideal L); [apply D_const|]. unfold SE, dSE_dT. destruct (c_ge L HC T PT) as [G1 G2].
  pose proof (D_fun T P _ _ G2) as L2. eapply D_eq; [dif|cbv beta; ring|cbv beta; ring].
Qed.
Lemma D_H : hvap_caloric L = false -> D (lq_H L) (lq_Cp L T P) (lq_dH_dP L T P).
Proof.
  intros E0. apply (D_pos (fun T P => rsum N (fun i => z i * (cpig_int L i T - Rgas * T * T * uT L i T P)) + (if ideal L then 0 else HE L T)) _ T P); [auto|auto|intros; symmetry; now apply H_eq|].
  rewrite (Cp_eq L HC T P PT), (dH_dP_eq L HC T P PT).
  eapply D_eq; [apply (D_plus T P (fun T P => rsum N (fun i => z i * (cpig_int L i T - Rgas * T * T * uT L i T P)))); [|exact D_HE]| |apply Rplus_0_r].
  - apply (D_rsum T P N (fun i T P => z i * (cpig_int L i T - Rgas * T * T * uT L i T P)) (fun i => z i * (cpig L i T - Rgas * T * T * uTT L i T P - 2 * Rgas * T * uT L i T P)) (fun i => z i * (- Rgas * T * T * wTP L i T))).
    intros i Hi. pose proof (D_fun T P _ _ (proj1 (c_cp L HC i T Hi PT))) as L1. pose proof (D_uT L HC T P PT i Hi) as L2. eapply D_eq; [dif|cbv beta; ring|cbv beta; ring].
  - reflexivity.
Qed.
Lemma D_S : hvap_caloric L = false -> D (lq_S L) (lq_dS_dT L T P) (lq_dS_dP L T P).
Proof.
  intros E0. pose proof (c_P L HC) as Pr.
  apply (D_pos (fun T P => Rgas * (- rsum N (fun i => z i * log_z L i) - ln (P / P_ref L)) - rsum N (fun i => z i * (Rgas * (T * uT L i T P + u L i T P - ln P) - cpig_int_T L i T)) + (if ideal L then 0 else SE L T)) _ T P); [auto|auto|intros; symmetry; now apply S_eq|].
  rewrite (dS_dT_eq L HC T P PT), (dS_dP_eq L HC T P PT PP).
  assert (D1 : D (fun T P => Rgas * (- rsum N (fun i => z i * log_z L i) - ln (P / P_ref L))) 0 (- Rgas / P)).
  { eapply D_eq; [dif; cbv beta; try lra; try (now apply Rdiv_lt_0_compat)|cbv beta; field; lra|cbv beta; field; lra]. }
  assert (D2 : D (fun T P => rsum N (fun i => z i * (Rgas * (T * uT L i T P + u L i T P - ln P) - cpig_int_T L i T)))
    (rsum N (fun i => z i * (Rgas * (T * uTT L i T P + 2 * uT L i T P) - cpig L i T / T))) (rsum N (fun i => z i * (Rgas * (T * wTP L i T + wP L i T - 1 / P))))).
  { apply (D_rsum T P N (fun i T P => z i * (Rgas * (T * uT L i T P + u L i T P - ln P) - cpig_int_T L i T)) (fun i => z i * (Rgas * (T * uTT L i T P + 2 * uT L i T P) - cpig L i T / T)) (fun i => z i * (Rgas * (T * wTP L i T + wP L i T - 1 / P)))).
    intros i Hi. pose proof (D_fun T P _ _ (proj2 (c_cp L HC i T Hi PT))) as L1. pose proof (D_uT L HC T P PT i Hi) as L2. pose proof (D_u L HC T P PT i Hi) as L3.
    eapply D_eq; [dif; cbv beta; lra|cbv beta; field; lra|cbv beta; field; lra]. }
  pose proof D_SE as D3. eapply D_eq; [apply (D_plus T P (fun T P => Rgas * (- rsum N (fun i => z i * log_z L i) - ln (P / P_ref L)) - rsum N (fun i => z i * (Rgas * (T * uT L i T P + u L i T P - ln P) - cpig_int_T L i T)))); [apply (D_minus T P _ _ _ _ _ _ D1 D2)|exact D3]| |].
  - f_equal. rewrite Rminus_0_l, <- rsum_opp. apply rsum_ext. intros; ring.
  - rewrite Rplus_0_r. replace (- Rgas / P) with (- rsum N (fun i => z i * (Rgas / P))) by (rewrite <- (sum_z (Rgas / P)); field; lra).
    rewrite <- !rsum_opp, <- rsum_minus. apply rsum_ext. intros i Hi. field. lra.
Qed.
(* heat capacity and the derivatives of enthalpy and entropy *)
Theorem C50_caloric : hvap_caloric L = false ->
  pd (lq_H L) temperature pressure (lq_Cp L T P) /\ pd (lq_H L) pressure temperature (lq_dH_dP L T P) /\
  pd (lq_S L) temperature pressure (lq_dS_dT L T P) /\ pd (lq_S L) pressure temperature (lq_dS_dP L T P) /\ lq_Cp L T P = T * lq_dS_dT L T P.
Proof.
  intros E0. pose proof (D_H E0) as DH. pose proof (D_S E0) as DS. splits; try (now eapply pd_T; [eassumption|]); try (now eapply pd_P; [eassumption|]).
  rewrite (Cp_eq L HC T P PT), (dS_dT_eq L HC T P PT). rewrite Rmult_plus_distr_l, <- rsum_scal_l. f_equal.
  - apply rsum_ext. intros i Hi. field. lra.
  - unfold CpE, dSE_dT. destruct (ideal L); ring.
Qed.
Lemma V_eq (g : nat -> R) : GX_V N z g = rsum N (fun i => z i * g i).
Proof. unfold GX_V. cbv zeta. now rewrite loop_rsum, Rplus_0_l. Qed.
(* the volume is the mole fraction average of the liquid molar volumes; its derivatives *)
Theorem C50_volume : lq_V L T P = rsum N (fun i => z i * vsat L i T) /\ pd (lq_V L) temperature pressure (lq_dV_dT L T P) /\ pd (lq_V L) pressure temperature 0 /\
  pd (lq_dV_dT L) temperature pressure (lq_d2V_dT2 L T P).
Proof.
  assert (E1 : forall T P, lq_dV_dT L T P = rsum N (fun i => z i * vsat1 L i T)) by (intros; unfold lq_dV_dT, GX_dV_dT; cbv zeta; now rewrite loop_rsum, Rplus_0_l).
  assert (E2 : forall T P, lq_d2V_dT2 L T P = rsum N (fun i => z i * vsat2 L i T)) by (intros; unfold lq_d2V_dT2, GX_d2V_dT2; cbv zeta; now rewrite loop_rsum, Rplus_0_l).
  assert (D1 : D (lq_V L) (lq_dV_dT L T P) 0).
  { apply (D_ext T P (fun T P => rsum N (fun i => z i * vsat L i T))); [intros; symmetry; apply V_eq|]. rewrite E1.
    eapply D_eq; [apply (D_rsum T P N (fun i T P => z i * vsat L i T) (fun i => z i * vsat1 L i T) (fun i => 0))|reflexivity|apply rsum_0].
    intros i Hi. pose proof (D_fun T P _ _ (proj1 (c_vs L HC i T Hi PT))) as L1. eapply D_eq; [dif|cbv beta; ring|cbv beta; ring]. }
  assert (D2 : D (lq_dV_dT L) (lq_d2V_dT2 L T P) 0).
  { apply (D_ext T P (fun T P => rsum N (fun i => z i * vsat1 L i T))); [intros; symmetry; apply E1|]. rewrite E2.
    eapply D_eq; [apply (D_rsum T P N (fun i T P => z i * vsat1 L i T) (fun i => z i * vsat2 L i T) (fun i => 0))|reflexivity|apply rsum_0].
    intros i Hi. pose proof (D_fun T P _ _ (proj2 (c_vs L HC i T Hi PT))) as L1. eapply D_eq; [dif|cbv beta; ring|cbv beta; ring]. }
  splits; [apply V_eq|now eapply pd_T; [exact D1|]|now eapply pd_P; [exact D1|]|now eapply pd_T; [exact D2|]].
Qed.
(* with the Poynting correction the volume belongs to the fugacity coefficients too: dG = V dP - S dT *)
Theorem C50_maxwell : poynting L = true ->
  lq_V L T P = Rgas * T * rsum N (fun i => z i * (dlnphis_dP L T P i + 1 / P)) /\ lq_dS_dP L T P = - lq_dV_dT L T P /\ lq_dH_dP L T P = lq_V L T P + T * lq_dS_dP L T P.
Proof.
  intros E. pose proof Rgas_pos. unfold lq_V. rewrite V_eq.
  assert (E1 : lq_dV_dT L T P = rsum N (fun i => z i * vsat1 L i T)) by (unfold lq_dV_dT, GX_dV_dT; cbv zeta; now rewrite loop_rsum, Rplus_0_l).
  rewrite E1, (dS_dP_eq L HC T P PT PP), (dH_dP_eq L HC T P PT). splits.
  - rewrite <- rsum_scal_l. apply rsum_ext. intros i Hi. unfold dlnphis_dP, GX_dlnphis_dP. cbv zeta. fold (Poyntings L T P) (dPoyntings_dP L T P).
    rewrite (Poy_eq L T P PT i Hi), (dPoyP_eq L T P PT i Hi). pose proof (exp_pos (w L i T P)). unfold wP. rewrite E. field. repeat split; lra.
  - f_equal. apply rsum_ext. intros i Hi. unfold wP, wTP. rewrite E. field. lra.
  - rewrite <- rsum_opp, <- rsum_scal_l, <- rsum_plus. apply rsum_ext. intros i Hi. unfold wP, wTP. rewrite E. field. lra.
Qed.
(* without it neither depends on pressure *)
Theorem C50_no_poynting : poynting L = false -> lq_dH_dP L T P = 0 /\ lq_dS_dP L T P = 0.
Proof. intros E. unfold lq_dH_dP, lq_dS_dP, GX_dH_dP, GX_dS_dP. rewrite E. split; reflexivity. Qed.
End Deriv.
End Liquid.

(* a liquid of one component without activity coefficients *)
Definition one_liquid (b1 b2 b3 : bool) : liquid :=
  {| n_comp := 1; zs_ := fun _ => 1; log_z := fun _ => 0; psat := fun _ T => T; psat1 := fun _ _ => 1; psat2 := fun _ _ => 0; vsat := fun _ T => 1; vsat1 := fun _ _ => 0; vsat2 := fun _ _ => 0;
     fsat := fun _ _ => 1; fsat1 := fun _ _ => 0; fsat2 := fun _ _ => 0; gam := fun _ _ => 1; gam1 := fun _ _ => 0; cpig := fun _ _ => 1; cpig_int := fun _ T => T; cpig_int_T := fun _ T => ln T;
     ge := fun _ => 0; ge1 := fun _ => 0; ge2 := fun _ => 0; hvap := fun _ _ => 5; P_ref := 101325; poynting := b1; phi_sat := b2; hvap_caloric := b3; ideal := true |}.
Ltac dd := first [assumption|lra|(auto_derive; [auto|try ring; try (field; lra)])].
Lemma one_consistent b1 b2 b3 : consistent (one_liquid b1 b2 b3).
Proof.
  constructor; cbn; intros; splits; try lra; try dd.
  rewrite ln_1. ring.
Qed.
(* a liquid of two components with a regular solution: ge = 100 x1 x2, volumes linear in T, saturation fugacity coefficients that depend on T *)
Definition two_liquid (b1 b2 b3 : bool) : liquid :=
  {| n_comp := 2; zs_ := fun _ => 1 / 2; log_z := fun _ => ln (1 / 2); psat := fun i T => T * T; psat1 := fun _ T => 2 * T; psat2 := fun _ _ => 2;
     vsat := fun i T => (if Nat.eqb i 0 then 1 else 2) * T; vsat1 := fun i _ => (if Nat.eqb i 0 then 1 else 2); vsat2 := fun _ _ => 0;
     fsat := fun _ T => exp (- T); fsat1 := fun _ T => - exp (- T); fsat2 := fun _ T => exp (- T); gam := fun _ T => exp (25 / (Rgas * T)); gam1 := fun _ T => - (25 / (Rgas * T * T)) * exp (25 / (Rgas * T));
     cpig := fun _ T => 30; cpig_int := fun _ T => 30 * T; cpig_int_T := fun _ T => 30 * ln T;
     ge := fun _ => 25; ge1 := fun _ => 0; ge2 := fun _ => 0; hvap := fun _ T => 1000 - T; P_ref := 101325; poynting := b1; phi_sat := b2; hvap_caloric := b3; ideal := false |}.
Lemma two_consistent b1 b2 b3 : consistent (two_liquid b1 b2 b3).
Proof.
  pose proof Rgas_pos.
  constructor; cbn [n_comp zs_ log_z psat psat1 psat2 vsat vsat1 vsat2 fsat fsat1 fsat2 gam gam1 cpig cpig_int cpig_int_T ge ge1 ge2 hvap P_ref poynting phi_sat hvap_caloric ideal two_liquid]; intros; splits; try lra; try dd.
  all: try discriminate. all: try (now apply Rmult_lt_0_compat). all: try apply exp_pos.
  all: first [(cbn; lra)|(cbn; rewrite ln_exp; field; lra)|(apply Rgt_not_eq, Rmult_lt_0_compat; lra)|(fold (25 / (Rgas * T)); generalize (exp (25 / (Rgas * T))); intros e; field; lra)].
Qed.
Example C50_hypotheses_met : consistent (two_liquid true true false) /\ consistent (two_liquid true true true) /\ consistent (one_liquid false true false) /\
  poynting (two_liquid true true false) = true /\ hvap_caloric (two_liquid true true false) = false.
Proof. splits; try apply two_consistent; try apply one_consistent; reflexivity. Qed.

(* without the Poynting correction the derivatives do not belong to the volume *)
Theorem C50_no_poynting_refuted : exists L T P, consistent L /\ hvap_caloric L = false /\ 0 < T /\ 0 < P /\ lq_dH_dP L T P <> lq_V L T P + T * lq_dS_dP L T P.
Proof.
  exists (one_liquid false false false), 1, 1. splits; try lra; [apply one_consistent|reflexivity|].
  destruct (C50_no_poynting (one_liquid false false false) 1 1 eq_refl) as [A B]. rewrite A, B. unfold lq_V. rewrite V_eq. cbn. lra.
Qed.
(* with the enthalpy of vaporization the heat capacity is not the derivative of the enthalpy *)
Theorem C50_hvap_refuted : exists L T P, consistent L /\ hvap_caloric L = true /\ 0 < T /\ 0 < P /\ ~ partial_derivative (lq_H L) temperature pressure T P (lq_Cp L T P).
Proof.
  exists (one_liquid false false true), 1, 1. splits; try lra; [apply one_consistent|reflexivity|]. intros H.
  assert (D1 : differential (lq_H (one_liquid false false true)) 1 1 1 0).
  { apply (D_ext 1 1 (fun T P => T - 5)); [intros; unfold lq_H, GX_H; cbn; ring|]. eapply D_eq; [dif|ring|ring]. }
  pose proof (pd_elim _ _ _ 1 1 _ _ 1 0 0 1 _ H D1 (D_T 1 1) (D_V 1 1) ltac:(lra)) as E.
  rewrite (Cp_eq _ (one_consistent _ _ _) 1 1 ltac:(lra)) in E. unfold uTT, uT, wTT, wT, dphis_sat_dT, d2phis_sat_dT2, phis_sat in E. cbn in E.
  pose proof Rgas_pos. assert (E' : Rgas = 0) by (field_simplify in E; lra). lra.
Qed.
(* enthalpy, entropy and heat capacity depend on caloric_basis only in whether it is 'Hvap' *)
Theorem C50_caloric_basis : forall L eb c c' p f h, c <> Hvap -> c <> Other -> c' <> Hvap -> c' <> Other -> construct L eb (Some c) p f h = construct L eb (Some c') p f h.
Proof. intros L eb c c' p f h A B C D. unfold construct. destruct (equilibrium_flags eb p f) as [[b1 b2]|]; [|reflexivity]. destruct c, c'; try congruence; reflexivity. Qed.
(* so the enthalpy with caloric_basis = 'Psat' is not the documented one *)
Theorem C50_caloric_basis_refuted : exists L L' T P, consistent L' /\ construct L (Some Poynting) (Some Psat) false false false = Some L' /\ 0 < T /\ 0 < P /\
  lq_H L' T P <> rsum (n_comp L) (fun i => zs_ L i * (cpig_int L i T - Rgas * T ^ 2 * (psat1 L i T / psat L i T))) + (ge L T - T * ge1 L T).
Proof.
  exists (one_liquid true false false), (one_liquid true false false), 1, 1. splits; try lra; [apply one_consistent|reflexivity|].
  rewrite (H_eq _ (one_consistent _ _ _) 1 1 ltac:(lra) eq_refl). unfold uT, wT, dphis_sat_dT, phis_sat. cbn. pose proof Rgas_pos.
  intros E. assert (E' : Rgas * 1 * 1 * ((0 * (1 - 1) - 1 * 1) / (Rgas * 1) - 1 * (1 - 1) / (Rgas * 1 * 1)) = 0) by lra. field_simplify in E'; lra.
Qed.
(* other names leave the phase without the flags that its methods read *)
Theorem C50_basis_names : forall L eb cb p f h, construct L eb cb p f h = None <-> (eb = Some Hvap \/ eb = Some Other \/ cb = Some Other).
Proof.
  intros L eb cb p f h. unfold construct. split.
  - destruct eb as [[]|], cb as [[]|]; cbn; intros E; try discriminate; auto.
  - intros [E|[E|E]]; rewrite E; cbn; try reflexivity. destruct (equilibrium_flags eb p f) as [[? ?]|]; reflexivity.
Qed.
(* new phases from T and P have them; from T and V, or P and V, only the pressure or temperature that was solved for is set *)
Theorem C50_to : forall sP sT T P V, to_state sP sT (Some T) (Some P) V = Some (Some T, Some P) /\ to_TP_state T P = Some (Some T, Some P) /\
  to_state sP sT None (Some P) None = None /\ to_state sP sT None None V = None.
Proof. intros. splits; try reflexivity. Qed.
Theorem C50_to_refuted : forall sP sT T P V, to_state sP sT (Some T) None (Some V) = Some (None, Some (sP T V)) /\ to_state sP sT None (Some P) (Some V) = Some (Some (sT P V), None) /\
  to_state sP sT (Some T) None None = Some (None, None).
Proof. intros. splits; reflexivity. Qed.

(* the Tait volumes: the integral of V - T (dV/dT)_P over pressure, starting at the vapor pressure *)
Section Tait.
Variables (n : nat) (ps ps1 v v1 B B1 C C1 : nat -> R -> R) (T : R).
Notation Vt T P := (GX_Tait_Vs n P (fun i => ps i T) (fun i => v i T) (fun i => B i T) (fun i => C i T)).
Notation It P := (GX_dH_dP_integrals_Tait n T P (fun i => ps i T) (fun i => ps1 i T) (fun i => v i T) (fun i => v1 i T) (fun i => B i T) (fun i => C i T) (fun i => B1 i T) (fun i => C1 i T)).
Theorem C50_Tait : forall i, (i < n)%nat -> is_derive (ps i) T (ps1 i T) -> is_derive (v i) T (v1 i T) -> is_derive (B i) T (B1 i T) -> is_derive (C i) T (C1 i T) -> 0 < B i T + ps i T ->
  Vt T (ps i T) i = v i T /\ It (ps i T) i = 0 /\
  forall P, 0 < B i T + P -> exists dV, is_derive (fun T => Vt T P i) T dV /\ is_derive (fun P => It P i) P (Vt T P i - T * dV).
Proof.
  intros i Hi Dp Dv DB DC P0. splits.
  - unfold GX_Tait_Vs. cbv zeta. replace ((B i T + ps i T) / (B i T + ps i T)) with 1 by (field; lra). rewrite ln_1. ring.
  - unfold GX_dH_dP_integrals_Tait. cbv zeta. rewrite loop_upd_lt by auto. replace ((ps i T + B i T) * (1 / (B i T + ps i T))) with 1 by (field; lra). rewrite ln_1, (Rplus_comm (ps i T) (B i T)). ring.
  - intros P P1. exists (v1 i T * (1 - C i T * ln ((B i T + P) / (B i T + ps i T))) - v i T * (C1 i T * ln ((B i T + P) / (B i T + ps i T)) + C i T * (B1 i T / (B i T + P) - (B1 i T + ps1 i T) / (B i T + ps i T)))).
    split.
    + unfold GX_Tait_Vs. cbv zeta. auto_derive.
      * splits; try (eexists; eassumption); try lra. apply Rdiv_lt_0_compat; lra.
      * replace (Derive (fun x => ps i x) T) with (ps1 i T) by (symmetry; exact (is_derive_unique _ _ _ Dp)).
        replace (Derive (fun x => v i x) T) with (v1 i T) by (symmetry; exact (is_derive_unique _ _ _ Dv)).
        replace (Derive (fun x => B i x) T) with (B1 i T) by (symmetry; exact (is_derive_unique _ _ _ DB)).
        replace (Derive (fun x => C i x) T) with (C1 i T) by (symmetry; exact (is_derive_unique _ _ _ DC)).
        fold ((B i T + P) / (B i T + ps i T)). generalize (ln ((B i T + P) / (B i T + ps i T))). intros l. field. repeat split; lra.
    + apply (is_derive_ext (fun P => It P i)); [reflexivity|]. unfold GX_dH_dP_integrals_Tait, GX_Tait_Vs. cbv zeta.
      eapply is_derive_ext; [intros t; symmetry; rewrite loop_upd_lt by auto; reflexivity|]. cbv beta.
      auto_derive; [splits; try lra; apply Rmult_lt_0_compat; try lra; apply Rdiv_lt_0_compat; lra|].
      replace ((P + B i T) * (1 / (B i T + ps i T))) with ((B i T + P) / (B i T + ps i T)) by (field; lra).
      replace (ln ((B i T + P) / (B i T + ps i T))) with (ln (B i T + P) - ln (B i T + ps i T)) by (unfold Rdiv; rewrite ln_mult, ln_Rinv; try lra; now apply Rinv_0_lt_compat).
      generalize (ln (B i T + P)) (ln (B i T + ps i T)). intros l l'. field. repeat split; lra.
Qed.
End Tait.
