(* C49: phases given by a Helmholtz energy or by a Gibbs energy. *)
From Coq Require Import Reals Lra Lia.
From Coquelicot Require Import Coquelicot.
From Verif Require Import Base BaseFacts Spec_phase PhaseFacts Spec_helmholtz Gen_phase Gen_helmholtz.
Open Scope R_scope.
Ltac spu := unfold temperature, volume, density, internal_energy, gibbs_energy, helmholtz_energy, compressibility_factor, per_mass.
Ltac asR := match goal with |- @eq _ ?a ?b => change (@eq R a b) end.

Section Helmholtz.
Variables (Rg T_red rho_red : R) (a0 a1 a2 : R -> R) (r rt rd rtt rdt rdd rdtt rddt rddd : R -> R -> R).
Hypothesis (PR : 0 < Rg) (PTr : 0 < T_red) (Prr : 0 < rho_red) (SA : smooth1 a0 a1 a2) (SR : smooth2 r rt rd rtt rdt rdd rdtt rddt rddd).
Notation tau := (tau_of T_red). Notation delta := (delta_of rho_red).
Notation A := (he_A Rg T_red rho_red a0 r).
Notation A_ideal := (he_A_ideal Rg T_red rho_red a0).
(* the values of the phase at T and V: the attributes set by the constructors, and the functions of tau and delta *)
Notation at2 f T V := (f (tau T) (delta V)).
Notation A0_ T V := (ln (delta V) + a0 (tau T)).
Definition he_P : property := fun T V => 1 / V * Rg * T * (1 + delta V * at2 rd T V). (* the pressure belonging to T and V, as in iapws95_P *)
Definition he_S : property := fun T V => HE_S Rg (tau T) (A0_ T V) (a1 (tau T)) (at2 r T V) (at2 rt T V).
Definition he_H : property := fun T V => HE_H Rg T (tau T) (delta V) (a1 (tau T)) (at2 rd T V) (at2 rt T V).
Definition he_dP_dT : property := fun T V => HE_dP_dT Rg V (tau T) (delta V) (at2 rd T V) (at2 rdt T V).
Definition he_dP_dV : property := fun T V => HE_dP_dV Rg T (1 / V) (delta V) (at2 rd T V) (at2 rdd T V).
Definition he_lnphi : property := fun T V => HE_lnphis (delta V) (A0_ T V) (at2 r T V) (at2 rd T V).
Variables (T V : R).
Hypothesis (PT : 0 < T) (PV : 0 < V).
Notation D X a b := (differential X T V a b).
Notation pd X Y Z d := (partial_derivative X Y Z T V d).
Lemma tau_pos : 0 < tau T. Proof. now apply Rdiv_lt_0_compat. Qed.
Lemma delta_pos : 0 < delta V. Proof. unfold delta_of. apply Rdiv_lt_0_compat; auto. apply Rdiv_lt_0_compat; lra. Qed.
Lemma D_tau : D (fun T V => tau T) (- T_red / (T * T)) 0.
Proof. unfold tau_of. eapply D_eq; [dif; cbv beta; lra|cbv beta; field; lra|cbv beta; field; lra]. Qed.
Lemma D_delta : D (fun T V => delta V) 0 (- 1 / (V * V * rho_red)).
Proof. unfold delta_of. eapply D_eq; [dif; cbv beta; lra|cbv beta; field; lra|cbv beta; field; lra]. Qed.
Lemma D_at2 f ft fd : differential f (tau T) (delta V) ft fd -> D (fun T V => f (tau T) (delta V)) (ft * (- T_red / (T * T))) (fd * (- 1 / (V * V * rho_red))).
Proof.
  intros Hf t v s t' v' E1 E2 Ht Hv. pose proof (D_tau t v s t' v' E1 E2 Ht Hv) as K1. pose proof (D_delta t v s t' v' E1 E2 Ht Hv) as K2.
  eapply is_derive_eq; [apply (Hf (fun u => tau (t u)) (fun u => delta (v u)) s (- T_red / (T * T) * t' + 0 * v') (0 * t' + - 1 / (V * V * rho_red) * v')); [now rewrite E1|now rewrite E2|exact K1|exact K2]|]. asR. ring.
Qed.
Lemma D_a f f' : is_derive f (tau T) f' -> D (fun T V => f (tau T)) (f' * (- T_red / (T * T))) 0.
Proof. intros Hf. eapply D_eq; [apply (D_comp T V f f' (fun T V => tau T)); [exact Hf|apply D_tau]|reflexivity|ring]. Qed.
Ltac have :=
  pose proof tau_pos as PTau; pose proof delta_pos as PDe; pose proof D_tau as LT; pose proof D_delta as LD;
  pose proof (D_a a0 _ (proj1 (SA _ PTau))) as L0; pose proof (D_a a1 _ (proj2 (SA _ PTau))) as L1;
  pose proof (D_at2 r _ _ (s2_0 _ _ _ _ _ _ _ _ _ SR _ _ PTau PDe)) as Lr; pose proof (D_at2 rt _ _ (s2_t _ _ _ _ _ _ _ _ _ SR _ _ PTau PDe)) as Lrt; pose proof (D_at2 rd _ _ (s2_d _ _ _ _ _ _ _ _ _ SR _ _ PTau PDe)) as Lrd;
  pose proof (D_at2 rdt _ _ (s2_dt _ _ _ _ _ _ _ _ _ SR _ _ PTau PDe)) as Lrdt; pose proof (D_at2 rdd _ _ (s2_dd _ _ _ _ _ _ _ _ _ SR _ _ PTau PDe)) as Lrdd.
Ltac nz0 := cbv beta; first [assumption | lra | apply Rgt_not_eq; assumption | apply Rgt_not_eq, Rmult_lt_0_compat; assumption | idtac].
Ltac fld := cbv beta; generalize (at2 r T V) (at2 rt T V) (at2 rd T V) (at2 rtt T V) (at2 rdt T V) (at2 rdd T V) (at2 rdtt T V) (at2 rddt T V) (at2 rddd T V) (a0 (tau T)) (a1 (tau T)) (a2 (tau T)) (ln (delta V)); intros; unfold tau_of, delta_of; field; repeat split; lra.
(* S = - (dA/dT)_V and P = - (dA/dV)_T; H, S and P together give the Helmholtz energy *)
Lemma D_A : D A (- he_S T V) (- he_P T V).
Proof.
  have. unfold he_A, he_S, he_P, HE_S, HE_dA_dtau, HE_A. cbv zeta. eapply D_eq; [dif; nz0|fld|fld].
Qed.
Theorem C49_energy : pd A temperature volume (- he_S T V) /\ pd A volume temperature (- he_P T V) /\ he_H T V - he_P T V * V - T * he_S T V = A T V.
Proof.
  have. pose proof D_A as LA. splits.
  - spu. eapply pd_intro; [exact LA|dif|dif|lra|field; lra].
  - spu. eapply pd_intro; [exact LA|dif|dif|lra|field; lra].
  - unfold he_H, he_P, he_S, he_A, HE_H, HE_S, HE_dA_dtau, HE_dA_ddelta, HE_A. cbv zeta. fld.
Qed.
Notation d2P_dT2 := (HE_d2P_dT2 Rg T V T_red rho_red (delta V) (at2 rdtt T V)).
Notation d2P_dV2 := (HE_d2P_dV2 Rg T V rho_red (delta V) (at2 rd T V) (at2 rdd T V) (at2 rddd T V)).
Notation d2P_dTdV := (HE_d2P_dTdV Rg T V T_red rho_red (delta V) (at2 rd T V) (at2 rdd T V) (at2 rdt T V) (at2 rddt T V)).
Notation pT := (he_dP_dT T V). Notation pV := (he_dP_dV T V).
Ltac un := unfold HE_dA_dtau, HE_dA_ddelta, HE_A, HE_d2A_ddelta2, HE_d2A_ddeltadtau, HE_d2A_dtau2, HE_d3A_ddelta3, HE_d3A_ddelta2dtau, HE_d3A_ddeltadtau2; cbv zeta.
Lemma D_P : D he_P pT pV.
Proof. have. unfold he_P, he_dP_dT, he_dP_dV, HE_dP_dT, HE_dP_dV. un. eapply D_eq; [dif; nz0|fld|fld]. Qed.
Lemma D_dP_dT : D he_dP_dT d2P_dT2 d2P_dTdV.
Proof. have. unfold he_dP_dT, HE_dP_dT, HE_d2P_dT2, HE_d2P_dTdV. un. eapply D_eq; [dif; nz0|fld|fld]. Qed.
Lemma D_dP_dV : D he_dP_dV d2P_dTdV d2P_dV2.
Proof. have. unfold he_dP_dV, HE_dP_dV, HE_d2P_dV2, HE_d2P_dTdV. un. eapply D_eq; [dif; nz0|fld|fld]. Qed.
Theorem C49_pressure : pd he_P temperature volume pT /\ pd he_P volume temperature pV /\
  pd he_dP_dT temperature volume d2P_dT2 /\ pd he_dP_dT volume temperature d2P_dTdV /\ pd he_dP_dV temperature volume d2P_dTdV /\ pd he_dP_dV volume temperature d2P_dV2.
Proof.
  pose proof D_P. pose proof D_dP_dT. pose proof D_dP_dV.
  splits; spu; (eapply pd_intro; [eassumption|dif|dif|lra|field; lra]).
Qed.
Notation sT := (HE_dS_dT_V Rg T T_red (a2 (tau T)) (at2 rtt T V)).
Notation sV := (HE_dS_dV_T Rg T V T_red rho_red (delta V) (at2 rd T V) (at2 rdt T V)).
Lemma D_S : D he_S sT sV.
Proof. have. unfold he_S, HE_S, HE_dS_dT_V, HE_dS_dV_T. un. eapply D_eq; [dif; nz0|fld|fld]. Qed.
Notation hT := (HE_dH_dT_V Rg T V T_red rho_red (delta V) (a1 (tau T)) (a2 (tau T)) (at2 rd T V) (at2 rt T V) (at2 rtt T V) (at2 rdt T V)).
Notation hV := (HE_dH_dV_T Rg T V T_red rho_red (delta V) (at2 rd T V) (at2 rdd T V) (at2 rdt T V)).
Lemma D_H : D he_H hT hV.
Proof. have. unfold he_H, HE_H, HE_dH_dT_V, HE_dH_dV_T. un. eapply D_eq; [dif; nz0|fld|fld]. Qed.
(* the phase obeys the laws of thermodynamics, so that all the derived properties of C43 are right for it *)
Theorem C49_thermodynamic : thermodynamic T V pT pV hT hV sT sV.
Proof.
  have. unfold thermodynamic, he_dP_dT, he_dP_dV, HE_dH_dT_V, HE_dH_dV_T, HE_dS_dT_V, HE_dS_dV_T, HE_dP_dT, HE_dP_dV. un. splits; fld.
Qed.
Notation dV_dT := (Ph_dV_dT pT pV). Notation dT_dP := (Ph_dT_dP pT). Notation dT_dV := (Ph_dT_dV pT pV).
Notation Cp := (HE_Cp Rg (tau T) (delta V) (a2 (tau T)) (at2 rd T V) (at2 rdd T V) (at2 rtt T V) (at2 rdt T V)).
Notation Cv := (HE_Cv Rg (tau T) (a2 (tau T)) (at2 rtt T V)).
Notation rho := (1 / V). Notation rho_red_inv := (1 / rho_red).
Lemma Cv_eq : Cv = T * sT.
Proof. have. unfold HE_Cv, HE_dS_dT_V. un. fld. Qed.
Lemma Cp_eq : pV <> 0 -> Cp = hT - hV * pT / pV.
Proof.
  intros N. have. destruct C49_thermodynamic as (E1 & E2 & E3). rewrite E1, E2, E3.
  set (x0 := delta V * HE_dA_ddelta (delta V) (at2 rd T V) - delta V * tau T * HE_d2A_ddeltadtau (at2 rdt T V)).
  set (den := delta V * (HE_dA_ddelta (delta V) (at2 rd T V) + HE_dA_ddelta (delta V) (at2 rd T V) + delta V * HE_d2A_ddelta2 (delta V) (at2 rdd T V))).
  assert (F1 : pT = Rg / V * x0) by (unfold he_dP_dT, HE_dP_dT, x0; un; fld).
  assert (F2 : pV = - Rg * T / (V * V) * den) by (unfold he_dP_dV, HE_dP_dV, den; un; fld).
  assert (F3 : Cp = Cv + x0 * x0 / den * Rg) by (unfold HE_Cp, HE_Cv, x0, den; cbv zeta; ring).
  assert (N' : den <> 0) by (intros E; apply N; rewrite F2, E; ring).
  rewrite F3, Cv_eq, F1, F2. generalize sT x0 den N'. intros. field. repeat split; lra.
Qed.
Lemma D_U : D (internal_energy he_P he_H) (T * sT) (hV - V * pV - he_P T V).
Proof.
  destruct C49_thermodynamic as (E1 & _). pose proof D_P as LP. pose proof D_H as LH.
  eapply D_eq; [unfold internal_energy; dif|cbv beta; rewrite E1; ring|cbv beta; ring].
Qed.
Theorem C49_entropy : pd he_S temperature volume sT /\ pd he_S volume temperature sV /\
  (pV <> 0 -> pd he_S he_P temperature (HE_dS_dP_T Rg T V rho T_red rho_red (delta V) (at2 rd T V) (at2 rdd T V) (at2 rdt T V)) /\
    pd he_S temperature he_P (HE_dS_dT_P Rg T V rho T_red rho_red (tau T) (delta V) (a2 (tau T)) (at2 rd T V) (at2 rdd T V) (at2 rtt T V) (at2 rdt T V))) /\
  (pT <> 0 -> pd he_S he_P volume (HE_dS_dP_V Rg T V T_red (tau T) (delta V) (a2 (tau T)) (at2 rd T V) (at2 rtt T V) (at2 rdt T V))).
Proof.
  pose proof D_P as LP. pose proof D_S as LS. splits.
  1, 2: spu; (eapply pd_intro; [eassumption|dif|dif|lra|field; lra]).
  - intros N. split; (eapply pd_intro; [eassumption|first [eassumption|unfold temperature; dif]|first [eassumption|unfold temperature; dif]|lra|]).
    + unfold HE_dS_dP_T. fold pV. field. exact N.
    + unfold HE_dS_dT_P. cbv zeta. fold pV pT. field. exact N.
  - intros N. eapply pd_intro; [eassumption|eassumption|unfold volume; dif|lra|]. unfold HE_dS_dP_V. fold pT. field. exact N.
Qed.
Theorem C49_enthalpy : pd he_H temperature volume hT /\ pd he_H volume temperature hV /\ pd (internal_energy he_P he_H) temperature volume Cv /\
  (pV <> 0 -> pd he_H he_P temperature (HE_dH_dP_T Rg T V rho T_red rho_red (delta V) (at2 rd T V) (at2 rdd T V) (at2 rdt T V)) /\ pd he_H temperature he_P Cp) /\
  (pT <> 0 -> pd he_H he_P volume (HE_dH_dP_V Rg T V T_red rho_red (tau T) (delta V) (a1 (tau T)) (a2 (tau T)) (at2 rd T V) (at2 rt T V) (at2 rtt T V) (at2 rdt T V))) /\
  (pT <> 0 -> pV <> 0 -> pd he_H volume he_P (HE_dH_dV_P Rg (tau T) (delta V) (a2 (tau T)) (at2 rd T V) (at2 rdd T V) (at2 rtt T V) (at2 rdt T V) dV_dT)).
Proof.
  pose proof D_P as LP. pose proof D_H as LH. pose proof D_U as LU. splits.
  1, 2: spu; (eapply pd_intro; [eassumption|dif|dif|lra|field; lra]).
  - rewrite Cv_eq. eapply pd_intro; [exact LU|unfold temperature; dif|unfold volume; dif|lra|field].
  - intros N. split; (eapply pd_intro; [eassumption|first [eassumption|unfold temperature; dif]|first [eassumption|unfold temperature; dif]|lra|]).
    + unfold HE_dH_dP_T. fold pV. field. exact N.
    + rewrite (Cp_eq N). field. exact N.
  - intros N. eapply pd_intro; [eassumption|eassumption|unfold volume; dif|lra|]. unfold HE_dH_dP_V. fold pT. field. exact N.
  - intros N N'. eapply pd_intro; [eassumption|unfold volume; dif|eassumption|lra|]. unfold HE_dH_dV_P, Ph_dV_dT. rewrite (Cp_eq N'). cbv zeta. field. split; assumption.
Qed.
Notation x0 := (delta V * (at2 rd T V + 1 / delta V - 1 / delta V)).
Notation Z := (compressibility_factor he_P T V).
Lemma Z_eq : Rg = Rgas -> Z = 1 + delta V * at2 rd T V.
Proof. intros E. have. unfold compressibility_factor, he_P. rewrite <- E. field. repeat split; lra. Qed.
(* the Gibbs energy of the ideal gas at the temperature and the pressure of the phase *)
Definition G_ideal (T P : R) : R := A_ideal T (Rg * T / P) + Rg * T.
Theorem C49_fugacity : 0 < he_P T V -> he_lnphi T V = (A T V + he_P T V * V - G_ideal T (he_P T V)) / (Rg * T).
Proof.
  intros NP. have. assert (EZ : delta_of rho_red (Rg * T / he_P T V) = delta V * (1 + delta V * at2 rd T V)).
  { assert (F : he_P T V = 1 / V * Rg * T * (1 + delta V * at2 rd T V)) by reflexivity. set (z := 1 + delta V * at2 rd T V) in *. rewrite F in NP |- *.
    assert (NZ : z <> 0). { intros E. rewrite E in NP. lra. }
    unfold delta_of. field. repeat split; lra. }
  assert (PZ : 0 < 1 + delta V * at2 rd T V).
  { unfold he_P in NP. assert (0 < 1 / V * Rg * T) by (apply Rmult_lt_0_compat; [apply Rmult_lt_0_compat; [apply Rdiv_lt_0_compat; lra|lra]|lra]).
    apply (Rmult_lt_reg_l (1 / V * Rg * T)); [assumption|]. lra. }
  unfold he_lnphi, G_ideal, he_A_ideal, he_A, HE_lnphis. un. rewrite EZ, ln_mult by assumption.
  replace (delta V * (at2 rd T V + 1 / delta V - 1 / delta V) + 1) with (1 + delta V * at2 rd T V) by (field; lra).
  unfold he_P. set (lz := ln (1 + _)). clearbody lz. fld.
Qed.
Notation lV := (HE_dlnphis_dV_T V rho_red rho_red_inv (delta V) (at2 rd T V) (at2 rdd T V)).
Notation lT := (HE_dlnphis_dT_V T V T_red rho_red rho_red_inv (delta V) (a1 (tau T)) (at2 rd T V) (at2 rdd T V) (at2 rt T V) (at2 rdt T V)).
Lemma D_lnphi : 0 < he_P T V -> D he_lnphi lT lV.
Proof.
  intros NP. have.
  assert (PZ : 0 < 1 + delta V * at2 rd T V).
  { unfold he_P in NP. assert (0 < 1 / V * Rg * T) by (apply Rmult_lt_0_compat; [apply Rmult_lt_0_compat; [apply Rdiv_lt_0_compat; lra|lra]|lra]).
    apply (Rmult_lt_reg_l (1 / V * Rg * T)); [assumption|]. lra. }
  assert (W : 0 < V * rho_red + at2 rd T V).
  { replace (V * rho_red + at2 rd T V) with (V * rho_red * (1 + delta V * at2 rd T V)) by (unfold delta_of at 1; field; lra).
    apply Rmult_lt_0_compat; [apply Rmult_lt_0_compat; assumption|assumption]. }
  assert (W' : 0 < x0 + 1) by (replace (x0 + 1) with (1 + delta V * at2 rd T V) by (field; lra); assumption).
  unfold he_lnphi, HE_lnphis, HE_dlnphis_dT_V, HE_dlnphis_dV_T. un. eapply D_eq; [dif; nz0| |]; cbv beta;
  revert W; generalize (at2 r T V) (at2 rt T V) (at2 rd T V) (at2 rtt T V) (at2 rdt T V) (at2 rdd T V) (at2 rdtt T V) (at2 rddt T V) (at2 rddd T V) (a0 (tau T)) (a1 (tau T)) (a2 (tau T)) (ln (delta V)); intros; unfold tau_of, delta_of; field; repeat split; try lra.
Qed.
Theorem C49_fugacity_derivatives : 0 < he_P T V ->
  pd he_lnphi temperature volume lT /\ pd he_lnphi volume temperature lV /\
  (pT <> 0 -> pd he_lnphi he_P volume (HE_dlnphis_dP_V Rg T V T_red rho_red rho_red_inv (tau T) (delta V) (a1 (tau T)) (at2 rd T V) (at2 rdd T V) (at2 rt T V) (at2 rdt T V))) /\
  (pV <> 0 -> pd he_lnphi temperature he_P (HE_dlnphis_dT_P Rg T V rho T_red rho_red rho_red_inv (tau T) (delta V) (a1 (tau T)) (at2 rd T V) (at2 rdd T V) (at2 rt T V) (at2 rdt T V))) /\
  (pT <> 0 -> pV <> 0 -> pd he_lnphi volume he_P (HE_dlnphis_dV_P Rg T V rho T_red rho_red rho_red_inv (tau T) (delta V) (a1 (tau T)) (at2 rd T V) (at2 rdd T V) (at2 rt T V) (at2 rdt T V) dV_dT) /\
    pd he_lnphi he_P temperature (HE_dlnphis_dP_T Rg T V rho T_red rho_red rho_red_inv (tau T) (delta V) (a1 (tau T)) (at2 rd T V) (at2 rdd T V) (at2 rt T V) (at2 rdt T V) dV_dT dT_dP dT_dV)).
Proof.
  intros NP. pose proof D_P as LP. pose proof (D_lnphi NP) as LL. splits.
  1, 2: spu; (eapply pd_intro; [eassumption|dif|dif|lra|field; lra]).
  - intros N. eapply pd_intro; [eassumption|eassumption|unfold volume; dif|lra|]. unfold HE_dlnphis_dP_V. fold pT. field. exact N.
  - intros N. eapply pd_intro; [eassumption|unfold temperature; dif|eassumption|lra|]. unfold HE_dlnphis_dT_P. cbv zeta. fold pT pV. field. exact N.
  - intros N N'. split; (eapply pd_intro; [eassumption|first [eassumption|spu; dif]|first [eassumption|spu; dif]|lra|]);
      unfold HE_dlnphis_dP_T, HE_dlnphis_dV_P, HE_dlnphis_dT_P, HE_dlnphis_dP_V, Ph_dT_dV, Ph_dV_dT, Ph_dT_dP; cbv zeta; fold pT pV; field; split; assumption.
Qed.
(* departures from the ideal gas *)
Notation H_dep := (HE_H_dep Rg T (tau T) (delta V) (a1 (tau T)) (at2 rd T V) (at2 rt T V)).
Notation S_dep := (HE_S_dep Rg (tau T) (A0_ T V) (a1 (tau T)) (at2 r T V) (at2 rt T V)).
End Helmholtz.
(* the properties of the ideal gas are those of the same phase without the residual term *)
Definition zero2 : R -> R -> R := fun _ _ => 0.
Definition he_H_ideal (Rg T_red rho_red : R) (a1 : R -> R) : property := he_H Rg T_red rho_red a1 zero2 zero2.
Definition he_S_ideal (Rg T_red rho_red : R) (a0 a1 : R -> R) : property := he_S Rg T_red rho_red a0 a1 zero2 zero2.
Section Departure.
Variables (Rg T_red rho_red : R) (a0 a1 a2 : R -> R) (r rt rd rtt rdt rdd rdtt rddt rddd : R -> R -> R).
Hypothesis (PR : 0 < Rg) (PTr : 0 < T_red) (Prr : 0 < rho_red).
Notation tau := (tau_of T_red). Notation delta := (delta_of rho_red).
Notation at2 f T V := (f (tau T) (delta V)).
Notation A0_ T V := (ln (delta V) + a0 (tau T)).
Notation P := (he_P Rg T_red rho_red rd).
Variables (T V : R).
Hypothesis (PT : 0 < T) (PV : 0 < V) (PP : 0 < P T V).
Notation H_dep := (HE_H_dep Rg T (tau T) (delta V) (a1 (tau T)) (at2 rd T V) (at2 rt T V)).
Notation S_dep := (HE_S_dep Rg (tau T) (A0_ T V) (a1 (tau T)) (at2 r T V) (at2 rt T V)).
Notation V_ideal := (Rg * T / P T V).
(* H_dep is the departure from the ideal gas at T and P; S_dep is that from the ideal gas at T and V, and is therefore off by Rg ln Z *)
Theorem C49_departure :
  H_dep = he_H Rg T_red rho_red a1 rt rd T V - he_H_ideal Rg T_red rho_red a1 T V_ideal /\
  S_dep = he_S Rg T_red rho_red a0 a1 r rt T V - he_S_ideal Rg T_red rho_red a0 a1 T V /\
  S_dep = he_S Rg T_red rho_red a0 a1 r rt T V - he_S_ideal Rg T_red rho_red a0 a1 T V_ideal - Rg * ln (P T V * V / (Rg * T)).
Proof.
  pose proof (tau_pos T_red PTr T PT) as P1. pose proof (delta_pos rho_red Prr V PV) as P2.
  assert (PVi : 0 < V_ideal) by (apply Rdiv_lt_0_compat; [apply Rmult_lt_0_compat; assumption|assumption]).
  pose proof (delta_pos rho_red Prr _ PVi) as P3. splits.
  - unfold HE_H_dep, he_H_ideal, he_H, HE_H, zero2, HE_dA_dtau, HE_dA_ddelta. cbv zeta. field. split; apply Rgt_not_eq; assumption.
  - unfold HE_S_dep, he_S_ideal, he_S, HE_S, zero2, HE_dA_dtau, HE_A. cbv zeta. ring.
  - assert (E : ln (delta V_ideal) = ln (delta V) + ln (P T V * V / (Rg * T))).
    { rewrite <- ln_mult; [|assumption|apply Rdiv_lt_0_compat; apply Rmult_lt_0_compat; assumption]. f_equal. unfold delta_of. field. repeat split; apply Rgt_not_eq; assumption. }
    unfold HE_S_dep, he_S_ideal, he_S, HE_S, zero2, HE_dA_dtau, HE_A. cbv zeta. rewrite E. ring.
Qed.
(* A() gives the reduced energy A/(Rg T) *)
Theorem C49_reduced : HE_A (A0_ T V) (at2 r T V) = he_A Rg T_red rho_red a0 r T V / (Rg * T).
Proof. unfold HE_A, he_A. field. split; lra. Qed.
End Departure.
(* a phase that satisfies the hypotheses: a0(tau) = tau and ar(tau, delta) = tau delta *)
Section Example_phase.
Definition x_r : R -> R -> R := fun t d => t * d.
Definition x_one : R -> R -> R := fun _ _ => 1.
Definition x_t : R -> R -> R := fun t _ => t.
Definition x_d : R -> R -> R := fun _ d => d.
Lemma x_smooth : smooth1 (fun x => x) (fun _ => 1) (fun _ => 0) /\ smooth2 x_r x_d x_t zero2 x_one zero2 zero2 zero2 zero2.
Proof.
  split.
  - intros x _. split; auto_derive; auto; ring.
  - constructor; intros t d _ _; unfold x_r, x_d, x_t, zero2, x_one; (eapply D_eq; [dif|cbv beta; ring|cbv beta; ring]).
Qed.
Example C49_hypotheses_met : smooth1 (fun x => x) (fun _ => 1) (fun _ => 0) /\ smooth2 x_r x_d x_t zero2 x_one zero2 zero2 zero2 zero2 /\
  0 < he_P Rgas 300 20 x_t 600 2 /\ he_dP_dT Rgas 300 20 x_t x_one 600 2 <> 0 /\ he_dP_dV Rgas 300 20 x_t zero2 600 2 <> 0.
Proof.
  destruct x_smooth as [E1 E2]. split; [exact E1|]. split; [exact E2|].
  unfold he_P, he_dP_dT, he_dP_dV, HE_dP_dT, HE_dP_dV, HE_dA_ddelta, HE_d2A_ddelta2, HE_d2A_ddeltadtau, x_t, x_one, zero2, tau_of, delta_of. cbv zeta. rewrite Rgas_val.
  splits; lra.
Qed.
(* the entropy departure is not the one that belongs to the enthalpy departure and the fugacity coefficient, S(T, P) - S_ideal(T, P) *)
Theorem C49_entropy_departure_refuted : exists T V, 0 < T /\ 0 < V /\ 0 < he_P Rgas 1 1 x_t T V /\
  HE_S_dep Rgas (tau_of 1 T) (ln (delta_of 1 V) + tau_of 1 T) 1 (x_r (tau_of 1 T) (delta_of 1 V)) (x_d (tau_of 1 T) (delta_of 1 V)) <>
  he_S Rgas 1 1 (fun x => x) (fun _ => 1) x_r x_d T V - he_S_ideal Rgas 1 1 (fun x => x) (fun _ => 1) T (Rgas * T / he_P Rgas 1 1 x_t T V).
Proof.
  assert (PP : 0 < he_P Rgas 1 1 x_t 1 1) by (unfold he_P, x_t, tau_of, delta_of; rewrite Rgas_val; lra).
  exists 1, 1. split; [lra|]. split; [lra|]. split; [exact PP|].
  destruct (C49_departure Rgas 1 1 (fun x => x) (fun _ => 1) x_r x_d x_t ltac:(pose proof Rgas_pos; lra) ltac:(lra) ltac:(lra) 1 1 ltac:(lra) ltac:(lra) PP) as (_ & _ & E).
  rewrite E. replace (he_P Rgas 1 1 x_t 1 1 * 1 / (Rgas * 1)) with 2 by (unfold he_P, x_t, tau_of, delta_of; field; exact Rgas_neq).
  assert (0 < ln 2) by (rewrite <- ln_1; apply ln_increasing; lra). assert (0 < Rgas * ln 2) by (apply Rmult_lt_0_compat; [pose proof Rgas_pos; lra|assumption]). lra.
Qed.
(* what A() returns is not the Helmholtz energy U - T S *)
Theorem C49_energy_method_refuted : exists T V, 0 < T /\ 0 < V /\
  HE_A (ln (delta_of 1 V) + tau_of 1 T) (x_r (tau_of 1 T) (delta_of 1 V)) <>
  helmholtz_energy (he_P Rgas 1 1 x_t) (he_H Rgas 1 1 (fun _ => 1) x_d x_t) (he_S Rgas 1 1 (fun x => x) (fun _ => 1) x_r x_d) T V.
Proof.
  exists 1, 1. split; [lra|]. split; [lra|].
  unfold helmholtz_energy, internal_energy, he_P, he_H, he_S, HE_S, HE_H, HE_A, HE_dA_dtau, HE_dA_ddelta, x_r, x_d, x_t, tau_of, delta_of. cbv zeta.
  replace (1 / 1 / 1) with 1 by field. replace (1 / 1) with 1 by field. rewrite ln_1. pose proof Rgas_val; lra.
Qed.
End Example_phase.

Section Virial.
Variables (T_red rho_red : R) (rd : R -> R -> R) (b b1 b2 b3 c c1 c2 : R -> R).
Hypothesis (PTr : 0 < T_red) (Prr : 0 < rho_red).
Notation tau := (tau_of T_red).
(* the compressibility factor at temperature T and molar density rho *)
Definition Z_of (T rho : R) : R := 1 + rho / rho_red * rd (tau T) (rho / rho_red).
(* b and c are the first and second derivatives of ar with respect to delta at zero density, as functions of tau, with their own derivatives *)
Hypothesis (Hb : forall x, 0 < x -> rd x 0 = b x) (Hc : forall x, 0 < x -> is_derive (rd x) 0 (c x)).
Hypothesis (Hb1 : forall x, 0 < x -> is_derive b x (b1 x)) (Hb2 : forall x, 0 < x -> is_derive b1 x (b2 x)) (Hb3 : forall x, 0 < x -> is_derive b2 x (b3 x)).
Hypothesis (Hc1 : forall x, 0 < x -> is_derive c x (c1 x)) (Hc2 : forall x, 0 < x -> is_derive c1 x (c2 x)).
Definition B_of (T : R) : R := HE_B_virial rho_red (b (tau T)).
Definition dB_of (T : R) : R := HE_dB_virial_dT T_red rho_red (tau T) (b1 (tau T)).
Definition d2B_of (T : R) : R := HE_d2B_virial_dT2 T T_red rho_red (tau T) (b1 (tau T)) (b2 (tau T)).
Definition d3B_of (T : R) : R := HE_d3B_virial_dT3 T T_red rho_red (tau T) (b1 (tau T)) (b2 (tau T)) (b3 (tau T)).
Definition C_of (T : R) : R := HE_C_virial rho_red (c (tau T)).
Definition dC_of (T : R) : R := HE_dC_virial_dT T_red rho_red (tau T) (c1 (tau T)).
Definition d2C_of (T : R) : R := HE_d2C_virial_dT2 T T_red rho_red (tau T) (c1 (tau T)) (c2 (tau T)).
(* Z = 1 + B rho + C rho^2 + o(rho^2) *)
Theorem C49_virial T : 0 < T -> forall eps, 0 < eps -> exists d, 0 < d /\ forall rho, 0 < rho < d -> Rabs (Z_of T rho - (1 + B_of T * rho + C_of T * rho ^ 2)) <= eps * rho ^ 2.
Proof.
  intros PT eps Pe. assert (Pt : 0 < tau T) by now apply Rdiv_lt_0_compat.
  pose proof (Hc _ Pt) as H. apply is_derive_Reals in H.
  assert (Pe' : 0 < eps * (rho_red * rho_red)) by (apply Rmult_lt_0_compat; [assumption|now apply Rmult_lt_0_compat]).
  destruct (H _ Pe') as [d Hd]. exists (d * rho_red). split; [apply Rmult_lt_0_compat; [apply cond_pos|assumption]|].
  intros rho (P1 & P2). set (h := rho / rho_red). assert (Ph : 0 < h) by now apply Rdiv_lt_0_compat.
  assert (Eh : rho = h * rho_red) by (unfold h; field; lra).
  assert (Hh : Rabs h < d). { rewrite Rabs_pos_eq by lra. apply (Rmult_lt_reg_r rho_red); [assumption|]. rewrite <- Eh. exact P2. }
  specialize (Hd h ltac:(lra) Hh). rewrite Rplus_0_l, (Hb _ Pt) in Hd.
  unfold Z_of, B_of, C_of, HE_B_virial, HE_C_virial. cbv zeta. fold h.
  replace (1 + h * rd (tau T) h - (1 + b (tau T) / rho_red * rho + c (tau T) / (rho_red * rho_red) * rho ^ 2)) with (((rd (tau T) h - b (tau T)) / h - c (tau T)) * (h * h)) by (rewrite Eh; field; split; lra).
  rewrite Rabs_mult, (Rabs_pos_eq (h * h)) by (apply Rlt_le; now apply Rmult_lt_0_compat).
  replace (eps * rho ^ 2) with (eps * (rho_red * rho_red) * (h * h)) by (rewrite Eh; ring).
  apply Rmult_le_compat_r; [apply Rlt_le; now apply Rmult_lt_0_compat|]. apply Rlt_le. exact Hd.
Qed.
Lemma d_tau T : 0 < T -> is_derive tau T (- T_red / (T * T)).
Proof. intros PT. unfold tau_of. auto_derive; [lra|]. field. lra. Qed.
Lemma d_comp (f : R -> R) f' T : 0 < T -> is_derive f (tau T) f' -> is_derive (fun T => f (tau T)) T (f' * (- T_red / (T * T))).
Proof. intros PT Hf. eapply is_derive_eq; [apply (is_derive_comp f tau T f' _ Hf (d_tau T PT))|]. unfold scal. cbn. unfold mult. cbn. ring. Qed.
Theorem C49_virial_derivatives T : 0 < T ->
  is_derive B_of T (dB_of T) /\ is_derive dB_of T (d2B_of T) /\ is_derive d2B_of T (d3B_of T) /\ is_derive C_of T (dC_of T) /\ is_derive dC_of T (d2C_of T).
Proof.
  intros PT. assert (Pt : 0 < tau T) by now apply Rdiv_lt_0_compat.
  pose proof (d_comp b _ T PT (Hb1 _ Pt)) as K0. pose proof (d_comp b1 _ T PT (Hb2 _ Pt)) as K1. pose proof (d_comp b2 _ T PT (Hb3 _ Pt)) as K2.
  pose proof (d_comp c _ T PT (Hc1 _ Pt)) as J0. pose proof (d_comp c1 _ T PT (Hc2 _ Pt)) as J1. pose proof (d_tau T PT) as KT.
  assert (D_of : forall f f', is_derive f T f' -> differential (fun T V => f T) T 1 f' 0).
  { intros f f' Hf. eapply D_eq; [apply (D_comp T 1 f f' (fun T V => T)); [exact Hf|apply D_T]|ring|ring]. }
  assert (of_D : forall f f', differential (fun T V => f T) T 1 f' 0 -> is_derive f T f').
  { intros f f' Hf. eapply is_derive_eq; [apply (Hf (fun t => t) (fun _ => 1) T 1 0); [reflexivity|reflexivity|auto_derive; auto|auto_derive; auto]|asR; ring]. }
  apply D_of in K0, K1, K2, J0, J1, KT.
  splits; apply of_D; unfold B_of, dB_of, d2B_of, d3B_of, C_of, dC_of, d2C_of, HE_B_virial, HE_dB_virial_dT, HE_d2B_virial_dT2, HE_d3B_virial_dT3, HE_C_virial, HE_dC_virial_dT, HE_d2C_virial_dT2; cbv zeta;
    (eapply D_eq; [dif; cbv beta; try (apply Rgt_not_eq; repeat apply Rmult_lt_0_compat; assumption)|..]); cbv beta;
    generalize (b (tau T)) (b1 (tau T)) (b2 (tau T)) (b3 (tau T)) (c (tau T)) (c1 (tau T)) (c2 (tau T)); intros; unfold tau_of; field; repeat split; lra.
Qed.
End Virial.
Example C49_virial_hypotheses_met : let rd := fun t d => t + t * t * d in
  (forall x, 0 < x -> rd x 0 = x) /\ (forall x, 0 < x -> is_derive (rd x) 0 (x * x)) /\ (forall x, 0 < x -> is_derive (fun x => x) x 1) /\ (forall x, 0 < x -> is_derive (fun x => x * x) x (2 * x)).
Proof.
  cbv zeta. splits; intros x _; [ring|..]; auto_derive; auto; ring.
Qed.

(* a phase given by its Gibbs energy; a state is given here by the temperature and the pressure *)
Section Gibbs.
Variables (G GT GP GTT GTP GPP GTTT GTTP GTPP GPPP : property).
Hypothesis (H0 : forall T P, 0 < T -> 0 < P -> differential G T P (GT T P) (GP T P)).
Hypothesis (H1 : forall T P, 0 < T -> 0 < P -> differential GT T P (GTT T P) (GTP T P)).
Hypothesis (H2 : forall T P, 0 < T -> 0 < P -> differential GP T P (GTP T P) (GPP T P)).
Hypothesis (H3 : forall T P, 0 < T -> 0 < P -> differential GTT T P (GTTT T P) (GTTP T P)).
Hypothesis (H4 : forall T P, 0 < T -> 0 < P -> differential GTP T P (GTTP T P) (GTPP T P)).
Hypothesis (H5 : forall T P, 0 < T -> 0 < P -> differential GPP T P (GTPP T P) (GPPP T P)).
Definition pressure : property := fun T P => P.
Definition ge_V : property := fun T P => GE_V (GP T P).
Definition ge_S : property := fun T P => GE_S (GT T P).
Definition ge_H : property := fun T P => GE_H T (G T P) (GT T P).
Definition ge_U : property := fun T P => GE_U T P (G T P) (GT T P) (GP T P).
Definition ge_A : property := fun T P => GE_A P (G T P) (GP T P).
Definition ge_dV_dP : property := fun T P => GE_dV_dP (GPP T P).
Definition ge_dV_dT : property := fun T P => GE_dV_dT (GTP T P).
Definition ge_dS_dT : property := fun T P => GE_dS_dT (GTT T P).
Definition ge_dS_dP : property := fun T P => GE_dS_dP (GTP T P).
Variables (T P : R).
Hypothesis (PT : 0 < T) (PP : 0 < P).
Notation pd X Y Z d := (partial_derivative X Y Z T P d).
(* the relations between the energies, dG = V dP - S dT, and the heat capacity *)
Theorem C49_gibbs_energies : ge_H T P = G T P + T * ge_S T P /\ ge_U T P = ge_H T P - P * ge_V T P /\ ge_A T P = ge_U T P - T * ge_S T P /\
  pd G temperature pressure (- ge_S T P) /\ pd G pressure temperature (ge_V T P) /\ pd ge_H temperature pressure (GE_Cp T (GTT T P)).
Proof.
  pose proof (H0 _ _ PT PP) as L0. pose proof (H1 _ _ PT PP) as L1. splits.
  - unfold ge_H, ge_S, GE_H, GE_S. ring.
  - unfold ge_H, ge_U, ge_V, GE_H, GE_U, GE_V. ring.
  - unfold ge_A, ge_U, ge_S, GE_A, GE_U, GE_S. ring.
  - unfold temperature, pressure. eapply pd_intro; [exact L0|dif|dif|lra|unfold ge_S, GE_S; field].
  - unfold temperature, pressure. eapply pd_intro; [exact L0|dif|dif|lra|unfold ge_V, GE_V; field].
  - unfold temperature, pressure, ge_H, GE_H, GE_Cp. eapply pd_intro; [dif|dif|dif|lra|cbv beta; field].
Qed.
Theorem C49_gibbs_derivatives :
  pd ge_V temperature pressure (ge_dV_dT T P) /\ pd ge_V pressure temperature (ge_dV_dP T P) /\ pd ge_S temperature pressure (ge_dS_dT T P) /\ pd ge_S pressure temperature (ge_dS_dP T P) /\
  pd ge_dV_dT temperature pressure (GE_d2V_dT2 (GTTP T P)) /\ pd ge_dV_dT pressure temperature (GE_d2V_dTdP (GTPP T P)) /\ pd ge_dV_dP pressure temperature (GE_d2V_dP2 (GPPP T P)) /\
  pd ge_dS_dT temperature pressure (GE_d2S_dT2 (GTTT T P)) /\ pd ge_dS_dT pressure temperature (GE_d2S_dTdP (GTTP T P)) /\ pd ge_dS_dP pressure temperature (GE_d2S_dP2 (GTPP T P)).
Proof.
  pose proof (H1 _ _ PT PP) as L1. pose proof (H2 _ _ PT PP) as L2. pose proof (H3 _ _ PT PP) as L3. pose proof (H4 _ _ PT PP) as L4. pose proof (H5 _ _ PT PP) as L5.
  unfold temperature, pressure, ge_V, ge_S, ge_dV_dT, ge_dV_dP, ge_dS_dT, ge_dS_dP, GE_V, GE_S, GE_dV_dT, GE_dV_dP, GE_dS_dT, GE_dS_dP, GE_d2V_dT2, GE_d2V_dTdP, GE_d2V_dP2, GE_d2S_dT2, GE_d2S_dTdP, GE_d2S_dP2.
  splits; (eapply pd_intro; [dif|dif|dif|lra|cbv beta; field]).
Qed.
Theorem C49_gibbs_inverses : GPP T P <> 0 ->
  pd pressure ge_V temperature (GE_dP_dV (GPP T P)) /\ pd pressure temperature ge_V (GE_dP_dT (GPP T P) (GTP T P)) /\
  (GTP T P <> 0 -> pd temperature ge_V pressure (GE_dT_dV (GTP T P)) /\ pd temperature pressure ge_V (GE_dT_dP (GPP T P) (GTP T P))).
Proof.
  intros N. pose proof (H2 _ _ PT PP) as L2.
  unfold temperature, pressure, ge_V, GE_V, GE_dP_dV, GE_dP_dT, GE_dT_dV, GE_dT_dP, GE_dP_dT, GE_dV_dT, GE_dV_dP. splits.
  1, 2: eapply pd_intro; [dif|dif|dif|lra|cbv beta; field; assumption].
  intros N'. split; (eapply pd_intro; [dif|dif|dif|lra|cbv beta; field; try split; assumption]).
Qed.
End Gibbs.
Example C49_gibbs_hypotheses_met : exists G GT GP GTT GTP GPP : property,
  (forall T P, 0 < T -> 0 < P -> differential G T P (GT T P) (GP T P)) /\ (forall T P, 0 < T -> 0 < P -> differential GT T P (GTT T P) (GTP T P)) /\
  (forall T P, 0 < T -> 0 < P -> differential GP T P (GTP T P) (GPP T P)) /\ (forall T P, 0 < T -> 0 < P -> GPP T P <> 0 /\ GTP T P <> 0).
Proof.
  exists (fun T P => T * ln P), (fun T P => ln P), (fun T P => T / P), (fun _ _ => 0), (fun T P => 1 / P), (fun T P => - T / (P * P)). splits; intros T P PT PP.
  1, 2, 3: eapply D_eq; [dif; cbv beta; lra|cbv beta; field; lra|cbv beta; field; lra].
  split; apply Rmult_integral_contrapositive_currified; try lra; apply Rinv_neq_0_compat; nra.
Qed.
