(* C43: derived properties of a phase. *)
From Coq Require Import Reals Lra.
From Coquelicot Require Import Coquelicot.
From Verif Require Import Base BaseFacts Spec_mix MixDeriv NrtlFacts ActFacts Prop_C23 Model_pyerr Spec_phase PhaseFacts Gen_phase Model_phase.
Open Scope R_scope.
Ltac spu := unfold temperature, volume, density, internal_energy, gibbs_energy, helmholtz_energy, compressibility_factor, per_mass.
Ltac phu := unfold Ph_dA_dV_P, Ph_dA_dV_T, Ph_dA_dP_V, Ph_dA_dP, Ph_dA_dT_V, Ph_dA_dT, Ph_dU_dV_P, Ph_dU_dV_T, Ph_dU_dP_V, Ph_dU_dP, Ph_dU_dT_V, Ph_dU_dT, Ph_dG_dV_P, Ph_dG_dV_T, Ph_dG_dP_V, Ph_dG_dP, Ph_dG_dT_V, Ph_dG_dT, Ph_dS_dV_P, Ph_dS_dV_T, Ph_dS_dP_T, Ph_dZ_dT, Ph_dZ_dP, Ph_dZ_dV, Ph_drho_mass_dT, Ph_drho_mass_dP, Ph_rho_mass, Ph_d2rho_dPdT, Ph_d2T_dPdrho, Ph_d2P_dTdrho, Ph_d2rho_dT2, Ph_d2T_drho2, Ph_d2rho_dP2, Ph_d2P_drho2, Ph_drho_dT, Ph_drho_dP, Ph_dP_drho, Ph_dT_drho, Ph_drho_dV_T, Ph_drho_dT_V, Ph_rho, Ph_isobaric_expansion, Ph_kappa, Ph_dV_dP, Ph_dT_dV, Ph_dV_dT, Ph_dT_dP.
Ltac pdgo := spu; eapply pd_intro; [dif|dif|dif|cbv beta|cbv beta].

Section First.
Variables (Pf Hf Sf : property) (T V pT pV hT hV sT sV : R).
Hypothesis (DP : differential Pf T V pT pV) (DH : differential Hf T V hT hV) (DS : differential Sf T V sT sV).
Hypothesis (NT : T <> 0) (NV : V <> 0) (NpT : pT <> 0) (NpV : pV <> 0).
Variables (dP_dT dP_dV dH_dT dH_dP dH_dT_V dH_dP_V dH_dV_T dS_dT dS_dP dS_dT_V dS_dP_V : R).
Notation pd X Y Z d := (partial_derivative X Y Z T V d).
Hypothesis (EPT : pd Pf temperature volume dP_dT) (EPV : pd Pf volume temperature dP_dV).
Hypothesis (EHT : pd Hf temperature Pf dH_dT) (EHP : pd Hf Pf temperature dH_dP) (EHTV : pd Hf temperature volume dH_dT_V) (EHPV : pd Hf Pf volume dH_dP_V) (EHVT : pd Hf volume temperature dH_dV_T).
Hypothesis (EST : pd Sf temperature Pf dS_dT) (ESP : pd Sf Pf temperature dS_dP) (ESTV : pd Sf temperature volume dS_dT_V) (ESPV : pd Sf Pf volume dS_dP_V).
Notation P := (Pf T V).
Notation S_ := (Sf T V).

Ltac nzj := let K := fresh in intro K; first [apply NpT; lra | apply NpV; lra | lra].
Lemma vals : dP_dT = pT /\ dP_dV = pV /\ dH_dT = hT - hV * pT / pV /\ dH_dP = hV / pV /\ dH_dT_V = hT /\ dH_dP_V = hT / pT /\ dH_dV_T = hV /\
  dS_dT = sT - sV * pT / pV /\ dS_dP = sV / pV /\ dS_dT_V = sT /\ dS_dP_V = sT / pT.
Proof.
  splits; (etransitivity; [eapply pd_elim; [eassumption|spu; dif|spu; dif|spu; dif|nzj]|field; auto]).
  all: splits; auto; nzj.
Qed.
Ltac vs := destruct vals as (E1 & E2 & E3 & E4 & E5 & E6 & E7 & E8 & E9 & E10 & E11); rewrite ?E1, ?E2, ?E3, ?E4, ?E5, ?E6, ?E7, ?E8, ?E9, ?E10, ?E11.
Ltac nzd := repeat split; auto using Rgas_neq; try nzj.
Ltac tryJ X := match goal with |- ?a <> 0 => replace a with X by (field; auto); unfold Rdiv; repeat (first [assumption | apply Rmult_integral_contrapositive_currified | apply Ropp_neq_0_compat | apply Rinv_neq_0_compat | lra]) end.
Ltac nzr := first [nzj | tryJ (1 / (V * V)) | tryJ (pT / (V * V)) | tryJ (pV / (V * V)) | tryJ (- (1 / (V * V))) | tryJ (- (pT / (V * V))) | tryJ (- (pV / (V * V)))].
Ltac fd := field; nzd.
(* the volumetric derivatives *)
Theorem C43_PVT : pd temperature Pf volume (Ph_dT_dP dP_dT) /\ pd volume temperature Pf (Ph_dV_dT dP_dT dP_dV) /\ pd volume Pf temperature (Ph_dV_dP dP_dT dP_dV) /\
  pd temperature volume Pf (Ph_dT_dV dP_dT dP_dV).
Proof. vs. phu. splits; pdgo; try nzr; fd. Qed.
Theorem C43_density : pd density temperature Pf (Ph_drho_dT V dP_dT dP_dV) /\ pd density Pf temperature (Ph_drho_dP V dP_dT dP_dV) /\ pd Pf density temperature (Ph_dP_drho V dP_dV) /\
  pd temperature density Pf (Ph_dT_drho V dP_dT dP_dV) /\ pd density volume temperature (Ph_drho_dV_T V) /\ pd density temperature volume Ph_drho_dT_V /\ density T V = Ph_rho V.
Proof.
  vs. phu.
  splits; [pdgo; auto; try nzr; fd ..|reflexivity].
Qed.
Theorem C43_compressibility : pd (compressibility_factor Pf) temperature Pf (Ph_dZ_dT T P V dP_dT dP_dV) /\ pd (compressibility_factor Pf) Pf temperature (Ph_dZ_dP T P V dP_dT dP_dV) /\
  pd (compressibility_factor Pf) volume temperature (Ph_dZ_dV T P V dP_dV) /\ compressibility_factor Pf T V = Ph_Z T P V.
Proof.
  vs. assert (NR : Rgas <> 0) by apply Rgas_neq. assert (NRT : Rgas * T <> 0) by now apply Rmult_integral_contrapositive_currified.
  phu.
  splits; [pdgo; auto; try nzr; fd ..|reflexivity].
Qed.
(* the derivatives of the energies *)
Theorem C43_gibbs : gibbs_energy Hf Sf T V = Ph_G T (Hf T V) S_ /\
  pd (gibbs_energy Hf Sf) temperature Pf (Ph_dG_dT T S_ dH_dT dS_dT) /\ pd (gibbs_energy Hf Sf) temperature volume (Ph_dG_dT_V T S_ dH_dT_V dS_dT_V) /\
  pd (gibbs_energy Hf Sf) Pf temperature (Ph_dG_dP T dH_dP dS_dP) /\ pd (gibbs_energy Hf Sf) Pf volume (Ph_dG_dP_V T dP_dT S_ dH_dP_V dS_dP_V) /\
  pd (gibbs_energy Hf Sf) volume temperature (Ph_dG_dV_T T dP_dV dH_dP dS_dP) /\ pd (gibbs_energy Hf Sf) volume Pf (Ph_dG_dV_P T dP_dT dP_dV S_ dH_dT dS_dT).
Proof.
  vs. split; [unfold Ph_G, gibbs_energy; ring|]. phu.
  splits; pdgo; auto; try nzr; fd.
Qed.
Theorem C43_internal_energy : internal_energy Pf Hf T V = Ph_U P V (Hf T V) /\
  pd (internal_energy Pf Hf) temperature Pf (Ph_dU_dT P dP_dT dP_dV dH_dT) /\ pd (internal_energy Pf Hf) temperature volume (Ph_dU_dT_V V dP_dT dH_dT_V) /\
  pd (internal_energy Pf Hf) Pf temperature (Ph_dU_dP P V dP_dT dP_dV dH_dP) /\ pd (internal_energy Pf Hf) Pf volume (Ph_dU_dP_V V dH_dP_V) /\
  pd (internal_energy Pf Hf) volume temperature (Ph_dU_dV_T P V dP_dT dP_dV dH_dP) /\ pd (internal_energy Pf Hf) volume Pf (Ph_dU_dV_P P dP_dT dP_dV dH_dT).
Proof.
  vs. split; [unfold Ph_U, internal_energy; ring|]. phu.
  splits; pdgo; auto; try nzr; fd.
Qed.
Theorem C43_helmholtz : helmholtz_energy Pf Hf Sf T V = Ph_A T P V (Hf T V) S_ /\
  pd (helmholtz_energy Pf Hf Sf) temperature Pf (Ph_dA_dT T P dP_dT dP_dV S_ dH_dT dS_dT) /\ pd (helmholtz_energy Pf Hf Sf) temperature volume (Ph_dA_dT_V T V dP_dT S_ dH_dT_V dS_dT_V) /\
  pd (helmholtz_energy Pf Hf Sf) Pf temperature (Ph_dA_dP T P V dP_dT dP_dV dH_dP dS_dP) /\ pd (helmholtz_energy Pf Hf Sf) Pf volume (Ph_dA_dP_V T V dP_dT S_ dH_dP_V dS_dP_V) /\
  pd (helmholtz_energy Pf Hf Sf) volume temperature (Ph_dA_dV_T T P V dP_dT dP_dV dH_dP dS_dP) /\ pd (helmholtz_energy Pf Hf Sf) volume Pf (Ph_dA_dV_P T P dP_dT dP_dV S_ dH_dT dS_dT).
Proof.
  vs. split; [unfold Ph_A, helmholtz_energy; try ring; unfold Ph_U; ring|].
  phu.
  splits; pdgo; auto; try nzr; fd.
Qed.
Theorem C43_entropy : pd Sf volume temperature (Ph_dS_dV_T dP_dV dS_dP) /\ pd Sf volume Pf (Ph_dS_dV_P dP_dT dP_dV dS_dT).
Proof. vs. phu. splits; pdgo; auto; try nzr; fd. Qed.
(* the sixty derivatives of T, P, V and rho by each other at constant H, S, G, U or A *)
Definition var_property (a : var) : property := match a with vT => temperature | vP => Pf | vV => volume | vrho => density end.
Definition energy_property (c : energy) : property :=
  match c with eH => Hf | eS => Sf | eG => gibbs_energy Hf Sf | eU => internal_energy Pf Hf | eA => helmholtz_energy Pf Hf Sf end.
Lemma var_D a : differential (var_property a) T V (var_dT_V a pT) (var_dV_T a V pV).
Proof.
  destruct a; unfold var_property, var_dT_V, var_dV_T, Ph_dT_dT_V, Ph_dT_dV_T, Ph_dV_dT_V, Ph_dV_dV_T, Ph_drho_dT_V, Ph_drho_dV_T; spu; [apply D_T|exact DP|apply D_V|].
  eapply D_eq; [dif; auto|field; auto|field; auto].
Qed.
Lemma energy_D c : differential (energy_property c) T V (energy_dT_V c T V pT S_ hT sT) (energy_dV_T c T P V pT pV (hV / pV) hV (sV / pV)).
Proof.
  destruct c; unfold energy_property, energy_dT_V, energy_dV_T; spu; phu.
  1: exact DH. all: eapply D_eq; [dif|cbv beta; fd|cbv beta; fd].
Qed.
Theorem C43_jacobian (a b : var) (c : energy) : independent (var_property b) (energy_property c) T V ->
  pd (var_property a) (var_property b) (energy_property c) (jacobian a b c T P V dP_dT dP_dV S_ dH_dP dH_dT_V dH_dV_T dS_dP dS_dT_V).
Proof.
  vs. intros J. specialize (J _ _ _ _ (var_D b) (energy_D c)). unfold jacobian, Ph_derivs_jacobian.
  eapply pd_intro; [apply var_D|apply var_D|apply energy_D|exact J|]. revert J.
  generalize (energy_dT_V c T V pT S_ hT sT) (energy_dV_T c T P V pT pV (hV / pV) hV (sV / pV)). intros x y J. field. splits; auto.
  intro K. apply J. lra.
Qed.
(* the derivatives per mass *)
Theorem C43_mass (X Y Z : property) (MW d : R) : MW <> 0 -> pd X Y Z d -> pd (per_mass X MW) Y Z (mass_derivative d MW).
Proof.
  intros NM (e & H). unfold mass_derivative, Ph_MW_inv, per_mass. exists (e * 1000 / MW). intros t v s t' v' x y z E1 E2 Ht Hv Hx Hy Hz.
  assert (K : is_derive (fun u => X (t u) (v u)) s (x * MW / 1000)).
  { apply (is_derive_ext (fun u => (MW / 1000) * (X (t u) (v u) * 1000 / MW))); [intros u; simpl; field; auto|].
    eapply is_derive_eq; [apply (is_derive_scal _ s (MW / 1000) x Hx)|]. unfold scal. simpl. unfold mult. simpl. field. }
  specialize (H t v s t' v' _ y z E1 E2 Ht Hv K Hy Hz). apply (Rmult_eq_reg_r (MW / 1000)); [|unfold Rdiv; apply Rmult_integral_contrapositive_currified; auto; lra].
  transitivity (x * MW / 1000); [field|]. rewrite H. field. auto.
Qed.
(* per mass, density *)
Theorem C43_mass_density (MW : R) : MW <> 0 -> let rho_mass : property := fun T V => MW / 1000 * density T V in
  Ph_rho_mass V MW = rho_mass T V /\ pd rho_mass temperature Pf (Ph_drho_mass_dT V dP_dT dP_dV MW) /\ pd rho_mass Pf temperature (Ph_drho_mass_dP V dP_dT dP_dV MW).
Proof.
  intros NM rm. unfold rm. vs. phu. split; [unfold density; field; auto|].
  splits; pdgo; auto; try nzr; fd.
Qed.

(* with the first law and the Maxwell relation *)
Hypothesis TD : thermodynamic T V pT pV hT hV sT sV.
Notation Cv := (Ph_Cv T dP_dT dP_dV dH_dT).
Lemma Cv_val : Cv = T * sT.
Proof. vs. destruct TD as (-> & -> & ->). unfold Ph_Cv, ext_Cp_minus_Cv. field. nzd. Qed.
Lemma Cp_val : dH_dT = T * sT - T * pT * pT / pV.
Proof. vs. destruct TD as (-> & -> & ->). field. nzd. Qed.
Theorem C43_heat_capacity : pd (internal_energy Pf Hf) temperature volume Cv /\ (exists d, pd Sf temperature volume d /\ Cv = T * d) /\ (exists d, pd Sf temperature Pf d /\ dH_dT = T * d).
Proof.
  pose proof Cp_val as EC. rewrite Cv_val. destruct TD as (A1 & A2 & A3). splits.
  - pdgo; [nzr|]. rewrite A1. field.
  - exists sT. split; [|reflexivity]. pdgo; [nzr|field].
  - exists dS_dT. split; [exact EST|]. vs. rewrite E3 in EC. rewrite EC. rewrite A3. field. auto.
Qed.
Theorem C43_Cp_minus_Cv : dH_dT - Cv = T * V * (Ph_isobaric_expansion V dP_dT dP_dV * Ph_isobaric_expansion V dP_dT dP_dV) / Ph_kappa V dP_dT dP_dV.
Proof. unfold Ph_Cv, ext_Cp_minus_Cv. vs. phu. field. nzd. Qed.
Theorem C43_relations : pd (gibbs_energy Hf Sf) temperature Pf (- S_) /\ pd (gibbs_energy Hf Sf) Pf temperature V /\ pd (helmholtz_energy Pf Hf Sf) temperature volume (- S_) /\
  pd (helmholtz_energy Pf Hf Sf) volume temperature (- P) /\ pd (internal_energy Pf Hf) volume temperature (T * dP_dT - P) /\ Ph_dG_dT T S_ dH_dT dS_dT = - S_ /\ Ph_dG_dP T dH_dP dS_dP = V /\
  Ph_dA_dT_V T V dP_dT S_ dH_dT_V dS_dT_V = - S_ /\ Ph_dA_dV_T T P V dP_dT dP_dV dH_dP dS_dP = - P.
Proof.
  vs. destruct TD as (A1 & A2 & A3). splits; [pdgo; [nzr|rewrite A1, A2, A3; fd] ..| | | |];
  phu; rewrite ?A1, ?A2, ?A3; fd.
Qed.
Hypothesis NCp : dH_dT <> 0.
Theorem C43_Joule_Thomson : pd temperature Pf Hf (Ph_Joule_Thomson T V dP_dT dP_dV dH_dT).
Proof.
  unfold Ph_Joule_Thomson, ext_Joule_Thomson, Ph_dV_dT, Ph_dT_dP. destruct TD as (A1 & A2 & A3).
  assert (N : T * sT - T * pT * pT / pV <> 0) by (rewrite <- Cp_val; exact NCp). rewrite Cp_val.
  assert (EQ : hT * pV - hV * pT = (T * sT - T * pT * pT / pV) * pV) by (rewrite A1, A2, A3; field; auto).
  assert (J : pT * hV - pV * hT <> 0). { intro K. assert (K2 : (T * sT - T * pT * pT / pV) * pV = 0) by (rewrite <- EQ; lra). apply Rmult_integral in K2. tauto. }
  vs. pdgo; [exact J|]. replace (pT * hV - pV * hT) with (- ((T * sT - T * pT * pT / pV) * pV)) by (rewrite <- EQ; ring).
  rewrite A2, A3. assert (N2 : T * sT * pV - T * pT * pT <> 0). { intro K. apply N. apply (Rmult_eq_reg_r pV); auto. transitivity (T * sT * pV - T * pT * pT); [field; auto|]. rewrite K. ring. }
  field; splits; auto; intro K; apply N2; lra.
Qed.
Hypothesis NCv : Cv <> 0.
Lemma NsT : sT <> 0.
Proof. intro K. apply NCv. rewrite Cv_val, K. ring. Qed.
Theorem C43_isentropic_bulk d : pd Pf volume Sf d -> d = dP_dV * dH_dT / Cv.
Proof.
  pose proof NsT as N. intros H. eapply pd_elim in H; [|exact DP|apply D_V|exact DS|intro K; apply N; lra]. rewrite H, Cv_val, Cp_val. vs.
  destruct TD as (A1 & A2 & A3). rewrite A3. field; splits; auto; intro K; apply N; lra.
Qed.
Theorem C43_speed_of_sound d : pd Pf volume Sf d -> Ph_speed_of_sound T V dP_dT dP_dV dH_dT = sqrt (- (V * V) * d).
Proof. intros H. apply C43_isentropic_bulk in H. subst d. unfold Ph_speed_of_sound, ext_speed_of_sound. f_equal. field. exact NCv. Qed.
Theorem C43_isentropic_exponents d d' d'' : P <> 0 -> pd Pf volume Sf d -> pd temperature Pf Sf d' -> pd temperature volume Sf d'' ->
  Ph_isentropic_exponent_PV T P V dP_dT dP_dV dH_dT = - (V / P) * d /\ Ph_isentropic_exponent_PT P dP_dT dP_dV dH_dT = 1 / (1 - P / T * d') /\
  Ph_isentropic_exponent_TV T V dP_dT dP_dV dH_dT = 1 - V / T * d''.
Proof.
  intros NP H H' H''. pose proof NsT as N. apply C43_isentropic_bulk in H. destruct TD as (A1 & A2 & A3).
  assert (NN : T * sT - T * pT * pT / pV <> 0) by (rewrite <- Cp_val; exact NCp).
  assert (N2 : sT * pV - pT * pT <> 0). { intro K. apply NN. apply (Rmult_eq_reg_r pV); auto. transitivity (T * (sT * pV - pT * pT)); [field; auto|]. rewrite K. ring. }
  eapply pd_elim in H'; [|apply D_T|exact DP|exact DS|rewrite A3; intro K; apply N2; lra].
  eapply pd_elim in H''; [|apply D_T|apply D_V|exact DS|intro K; apply N; lra]. splits.
  - subst d. unfold Ph_isentropic_exponent_PV, ext_isentropic_exponent_PV. field. split; auto.
  - subst d'. unfold Ph_isentropic_exponent_PT, ext_isentropic_exponent_PT, Ph_dV_dT, Ph_dT_dP. do 2 f_equal. rewrite Cp_val, A3. vs. field; splits; auto; intro K; first [apply N2; lra | assert (K2 : T * (sT * pV - pT * pT) = 0) by lra; apply Rmult_integral in K2; tauto].
  - subst d''. unfold Ph_isentropic_exponent_TV, ext_isentropic_exponent_TV. rewrite Cv_val, A3. vs. field; splits; auto; intro K; apply N; lra.
Qed.
End First.

(* the second derivatives, as derivatives of the first ones *)
Section Second.
Variables (Pf Pt Pv : property) (T V pTT pTV pVV : R).
Hypothesis (DP : differential Pf T V (Pt T V) (Pv T V)) (DPt : differential Pt T V pTT pTV) (DPv : differential Pv T V pTV pVV).
Notation pT := (Pt T V).
Notation pV := (Pv T V).
Hypothesis (NT : T <> 0) (NV : V <> 0) (NpT : pT <> 0) (NpV : pV <> 0).
Variables (d2P_dT2 d2P_dV2 d2P_dTdV : R).
Notation pd X Y Z d := (partial_derivative X Y Z T V d).
Hypothesis (ETT : pd Pt temperature volume d2P_dT2) (EVV : pd Pv volume temperature d2P_dV2) (ETV : pd Pt volume temperature d2P_dTdV).
Ltac nzj := let K := fresh in intro K; first [apply NpT; lra | apply NpV; lra | lra].
Ltac tryJ X := match goal with |- ?a <> 0 => replace a with X by (field; auto); unfold Rdiv; repeat (first [assumption | apply Rmult_integral_contrapositive_currified | apply Ropp_neq_0_compat | apply Rinv_neq_0_compat | lra]) end.
Ltac nzr := first [nzj | tryJ (1 / (V * V)) | tryJ (pT / (V * V)) | tryJ (pV / (V * V)) | tryJ (- (1 / (V * V))) | tryJ (- (pT / (V * V))) | tryJ (- (pV / (V * V)))].
Ltac nzm := unfold Rdiv; repeat (first [assumption | apply Rmult_integral_contrapositive_currified | apply Ropp_neq_0_compat | apply Rinv_neq_0_compat | lra]).
Ltac nzd := repeat split; auto using Rgas_neq; try nzj.
Lemma vals2 : d2P_dT2 = pTT /\ d2P_dV2 = pVV /\ d2P_dTdV = pTV.
Proof. splits; (etransitivity; [eapply pd_elim; [eassumption|spu; dif|spu; dif|spu; dif|nzj]|field; auto]). Qed.
Ltac vs := destruct vals2 as (E1 & E2 & E3); rewrite ?E1, ?E2, ?E3.
Ltac sec := pdgo; [solve [nzm] ..|solve [nzr]|field; nzd].
Theorem C43_second_PVT : let at_ f := (fun T V => f (Pt T V) (Pv T V)) : property in
  pd (at_ Ph_dV_dP) Pf temperature (Ph_d2V_dP2 pV d2P_dV2) /\ pd (fun T V => Ph_dT_dP (Pt T V)) Pf volume (Ph_d2T_dP2 pT d2P_dT2) /\
  pd (at_ Ph_dT_dV) volume Pf (Ph_d2T_dV2 pT pV d2P_dT2 d2P_dV2 d2P_dTdV) /\ pd (at_ Ph_dV_dT) temperature Pf (Ph_d2V_dT2 pT pV d2P_dT2 d2P_dV2 d2P_dTdV) /\
  pd (at_ Ph_dV_dT) Pf temperature (Ph_d2V_dPdT pT pV d2P_dV2 d2P_dTdV) /\ pd (at_ Ph_dV_dP) temperature Pf (Ph_d2V_dPdT pT pV d2P_dV2 d2P_dTdV) /\
  pd (at_ Ph_dT_dV) Pf volume (Ph_d2T_dPdV pT pV d2P_dT2 d2P_dTdV) /\ pd (fun T V => Ph_dT_dP (Pt T V)) volume Pf (Ph_d2T_dPdV pT pV d2P_dT2 d2P_dTdV) /\
  pd Pv temperature volume (Ph_d2P_dVdT d2P_dTdV).
Proof.
  vs. unfold Ph_d2V_dP2, Ph_d2T_dP2, Ph_d2T_dV2, Ph_d2V_dT2, Ph_d2V_dPdT, Ph_d2T_dPdV, Ph_d2P_dVdT. phu. splits.
  all: sec.
Qed.
Theorem C43_second_density : let atV f := (fun T V => f V (Pt T V) (Pv T V)) : property in
  pd (fun T V => Ph_dP_drho V (Pv T V)) density temperature (Ph_d2P_drho2 V pV d2P_dV2) /\ pd (atV Ph_drho_dP) Pf temperature (Ph_d2rho_dP2 V pT pV d2P_dV2) /\
  pd (atV Ph_dT_drho) density Pf (Ph_d2T_drho2 V pT pV d2P_dT2 d2P_dV2 d2P_dTdV) /\ pd (atV Ph_drho_dT) temperature Pf (Ph_d2rho_dT2 V pT pV d2P_dT2 d2P_dV2 d2P_dTdV) /\
  pd (fun T V => Ph_dP_drho V (Pv T V)) temperature density (Ph_d2P_dTdrho V d2P_dTdV) /\ pd Pt density temperature (Ph_d2P_dTdrho V d2P_dTdV) /\
  pd (atV Ph_dT_drho) Pf density (Ph_d2T_dPdrho V pT pV d2P_dT2 d2P_dTdV) /\ pd (atV Ph_drho_dT) Pf temperature (Ph_d2rho_dPdT V pT pV d2P_dV2 d2P_dTdV).
Proof.
  vs. phu. unfold Ph_d2V_dP2, Ph_d2T_dP2, Ph_d2T_dV2, Ph_d2V_dT2, Ph_d2V_dPdT, Ph_d2T_dPdV, Ph_d2P_dVdT, Ph_dV_dP, Ph_dT_dV, Ph_dV_dT, Ph_dT_dP. splits.
  all: sec.
Qed.
Theorem C43_second_coefficients : let atV f := (fun T V => f V (Pt T V) (Pv T V)) : property in
  pd (atV Ph_kappa) temperature Pf (Ph_dkappa_dT V pT pV d2P_dV2 d2P_dTdV) /\ pd (atV Ph_isobaric_expansion) temperature Pf (Ph_disobaric_expansion_dT V pT pV d2P_dT2 d2P_dV2 d2P_dTdV) /\
  pd (atV Ph_isobaric_expansion) Pf temperature (Ph_disobaric_expansion_dP V pT pV d2P_dV2 d2P_dTdV).
Proof.
  vs. unfold Ph_dkappa_dT, Ph_disobaric_expansion_dT, Ph_disobaric_expansion_dP, Ph_kappa, Ph_isobaric_expansion, Ph_d2V_dP2, Ph_d2T_dP2, Ph_d2T_dV2, Ph_d2V_dT2, Ph_d2V_dPdT, Ph_d2T_dPdV, Ph_d2P_dVdT, Ph_dV_dP, Ph_dT_dV, Ph_dV_dT, Ph_dT_dP. splits.
  all: sec.
Qed.
(* heat capacity at constant volume and speed of sound, from the derivatives of dP_dT, dP_dV and Cp *)
Variables (Cpf : property) (cT cV d2H_dT2 d2H_dTdP d2P_dT2_PV d2P_dVdT_TP d2P_dTdP d2P_dVdP : R).
Hypothesis DC : differential Cpf T V cT cV.
Hypothesis (ECT : pd Cpf temperature Pf d2H_dT2) (ECP : pd Cpf Pf temperature d2H_dTdP).
Hypothesis (ETP : pd Pt temperature Pf d2P_dT2_PV) (EVP : pd Pv temperature Pf d2P_dVdT_TP) (ETP' : pd Pt Pf temperature d2P_dTdP) (EVP' : pd Pv Pf temperature d2P_dVdP).
Lemma vals3 : d2H_dT2 = cT - cV * pT / pV /\ d2H_dTdP = cV / pV /\ d2P_dT2_PV = pTT - pTV * pT / pV /\ d2P_dVdT_TP = pTV - pVV * pT / pV /\ d2P_dTdP = pTV / pV /\ d2P_dVdP = pVV / pV.
Proof. splits; (etransitivity; [eapply pd_elim; [eassumption|spu; dif|spu; dif|spu; dif|nzj]|field; auto; splits; auto; nzj]). Qed.
Ltac vs3 := destruct vals3 as (F1 & F2 & F3 & F4 & F5 & F6); rewrite ?F1, ?F2, ?F3, ?F4, ?F5, ?F6.
Notation Cv := (Ph_Cv T pT pV (Cpf T V)).
Theorem C43_second_Cv : let Cvf := (fun T V => Ph_Cv T (Pt T V) (Pv T V) (Cpf T V)) : property in
  pd Cvf temperature Pf (Ph_dCv_dT_P T pT pV d2H_dT2 d2P_dT2_PV d2P_dVdT_TP) /\ pd Cvf Pf temperature (Ph_dCv_dP_T T pT pV d2P_dV2 d2P_dTdV d2H_dTdP d2P_dTdP).
Proof.
  vs. vs3. unfold Ph_Cv, ext_Cp_minus_Cv, Ph_dCv_dT_P, Ph_dCv_dP_T, Ph_d2V_dPdT, Ph_dV_dT, Ph_dT_dP. splits; sec.
Qed.
Hypothesis (NCv : Cv <> 0) (PosC : 0 < - (V * V) * pV * Cpf T V / Cv).
Lemma sound_general (Y Z : property) dV dPv dCp dCv : pd volume Y Z dV -> pd Pv Y Z dPv -> pd Cpf Y Z dCp -> pd (fun T V => Ph_Cv T (Pt T V) (Pv T V) (Cpf T V)) Y Z dCv ->
  pd (fun T V => Ph_speed_of_sound T V (Pt T V) (Pv T V) (Cpf T V)) Y Z
    (sqrt (- V * V * (Cpf T V * pV / Cv)) * (Cpf T V * (1 / 2 * V) * dPv + pV * (1 / 2 * V) * dCp + Cpf T V * pV * dV - Cpf T V * pV / Cv * (1 / 2 * V) * dCv) / (Cpf T V * V * pV)).
Proof.
  intros H1 H2 H3 H4. set (Cvf := fun T V => Ph_Cv T (Pt T V) (Pv T V) (Cpf T V)) in *.
  assert (DCv : exists a b, differential Cvf T V a b) by (eexists; eexists; unfold Cvf, Ph_Cv, ext_Cp_minus_Cv; dif; auto). destruct DCv as (a & b & DCv).
  assert (NC : Cpf T V <> 0). { intro K. rewrite K in PosC. unfold Rdiv in PosC. rewrite Rmult_0_r, Rmult_0_l in PosC. lra. }
  assert (I : is_derive Rinv (Cvf T V) (- / (Cvf T V * Cvf T V))).
  { eapply is_derive_eq; [apply (is_derive_inv (fun x => x) (Cvf T V) 1 (is_derive_id _) NCv)|]. simpl. field. exact NCv. }
  pose proof (D_V T V) as DV. fold volume in DV.
  pose proof (D_comp T V Ropp (-1) _ _ _ ltac:(eapply is_derive_eq; [apply (is_derive_opp (fun x => x) _ 1 (is_derive_id _))|unfold opp; simpl; ring]) (D_mult T V volume volume _ _ _ _ DV DV)) as D1.
  pose proof (D_mult T V _ Pv _ _ _ _ D1 DPv) as D2. pose proof (D_mult T V _ Cpf _ _ _ _ D2 DC) as D3. pose proof (D_inv T V Cvf a b NCv DCv) as D4.
  pose proof (D_mult T V _ _ _ _ _ _ D3 D4) as D5.
  pose proof (pd_mult _ _ _ _ _ _ _ _ _ _ _ _ DV DV H1 H1) as G0.
  pose proof (pd_comp Ropp (-1) _ _ _ _ _ _ _ _ (D_mult T V volume volume _ _ _ _ DV DV) ltac:(eapply is_derive_eq; [apply (is_derive_opp (fun x => x) _ 1 (is_derive_id _))|unfold opp; simpl; ring]) G0) as G1.
  pose proof (pd_mult _ _ _ _ _ _ _ _ _ _ _ _ D1 DPv G1 H2) as G2. pose proof (pd_mult _ _ _ _ _ _ _ _ _ _ _ _ D2 DC G2 H3) as G3.
  pose proof (pd_comp Rinv _ _ _ _ _ _ _ _ _ DCv I H4) as G4. pose proof (pd_mult _ _ _ _ _ _ _ _ _ _ _ _ D3 D4 G3 G4) as G5.
  pose proof (pd_comp sqrt (/ (2 * sqrt (- (V * V) * pV * Cpf T V / Cv))) _ _ _ _ _ _ _ _ D5 ltac:(eapply is_derive_eq; [apply (is_derive_sqrt (fun x => x) _ 1 (is_derive_id _)); exact PosC|unfold volume, Cvf, Rdiv; rewrite Rmult_1_l; reflexivity]) G5) as G6.
  cbv beta in G6. unfold volume, Cvf in G6. unfold Ph_speed_of_sound, ext_speed_of_sound.
  replace (- V * V * (Cpf T V * pV / Cv)) with (- (V * V) * pV * Cpf T V / Cv) by (field; exact NCv).
  pose proof (sqrt_lt_R0 _ PosC) as SP. pose proof (sqrt_sqrt _ (Rlt_le _ _ PosC)) as SS. revert G6 SS SP. generalize (sqrt (- (V * V) * pV * Cpf T V / Cv)). intros sq G6 SS SP.
  match goal with |- partial_derivative _ _ _ _ _ ?d => match type of G6 with partial_derivative _ _ _ _ _ ?d' => replace d with d'; [exact G6|] end end.
  revert NCv SS. generalize Cv. intros c Nc SS. apply (Rmult_eq_reg_l sq); [|lra].
  transitivity ((sq * sq) * ((Cpf T V * (1 / 2 * V) * dPv + pV * (1 / 2 * V) * dCp + Cpf T V * pV * dV - Cpf T V * pV / c * (1 / 2 * V) * dCv) / (Cpf T V * V * pV))); [|field; auto].
  rewrite SS. field. splits; auto. lra.
Qed.
Theorem C43_second_sound : let c := (fun T V => Ph_speed_of_sound T V (Pt T V) (Pv T V) (Cpf T V)) : property in
  pd c temperature Pf (Ph_dspeed_of_sound_dT_P T V pT pV (Cpf T V) d2H_dT2 d2P_dT2_PV d2P_dVdT_TP) /\
  pd c Pf temperature (Ph_dspeed_of_sound_dP_T T V pT pV d2P_dV2 d2P_dTdV (Cpf T V) d2H_dTdP d2P_dTdP d2P_dVdP).
Proof.
  destruct C43_second_Cv as [V1 V2]. split.
  - unfold Ph_dspeed_of_sound_dT_P. apply sound_general; auto. unfold Ph_dV_dT, Ph_dT_dP. sec.
  - unfold Ph_dspeed_of_sound_dP_T. apply sound_general; auto. unfold Ph_dV_dP, Ph_dV_dT, Ph_dT_dP. sec.
Qed.
End Second.

Lemma IG_H_val N zs I h : IG_H N zs I h = h + rsum N (fun i => zs i * I i).
Proof. unfold IG_H. rewrite (loop_rsum N (fun i => zs i * I i) h). reflexivity. Qed.
Lemma IG_Cp_ideal_val N zs I : IG_Cp_ideal_gas N zs I = rsum N (fun i => zs i * I i).
Proof. unfold IG_Cp_ideal_gas. rewrite (loop_rsum N (fun i => zs i * I i) 0). ring. Qed.
Lemma IG_Cp_val N zs I h : IG_Cp N zs I h = rsum N (fun i => zs i * I i) + h.
Proof. unfold IG_Cp. rewrite (loop_rsum N (fun i => zs i * I i) 0). ring. Qed.
Lemma IG_S_val N P zs I lz pr s : IG_S N P zs I lz pr s = rsum N (fun i => zs i * I i) - Rgas * rsum N (fun i => zs i * lz i) - Rgas * ln (P * pr) + s.
Proof. unfold IG_S. rewrite (loop_rsum N (fun i => zs i * I i)). ring. Qed.
Lemma D_Tfun (f : R -> R) f' T V : is_derive f T f' -> differential (fun T V => f T) T V f' 0.
Proof. intros H. eapply D_eq; [apply (D_comp T V f f' (fun T V => T) 1 0 H (D_T T V))|ring|ring]. Qed.
Lemma D_sumT N (zs : nat -> R) (f : nat -> R -> R) f' T V : (forall i, (i < N)%nat -> is_derive (f i) T (f' i)) -> differential (fun T V => rsum N (fun i => zs i * f i T)) T V (rsum N (fun i => zs i * f' i)) 0.
Proof.
  intros H. eapply D_eq; [apply (D_rsum T V N (fun i T V => zs i * f i T) (fun i => zs i * f' i) (fun _ => 0))| |].
  - intros i Hi. eapply D_eq; [apply (D_mult T V (fun _ _ => zs i) (fun T V => f i T)); [apply D_const|apply D_Tfun, H, Hi]|ring|ring].
  - reflexivity.
  - rewrite (rsum_ext N (fun _ => 0) (fun _ => 0 * 0)) by (intros; ring). rewrite rsum_scal_l. ring.
Qed.

(* a phase that is an ideal gas plus departures *)
Section Departure.
Variables (N : nat) (zs log_zs : nat -> R) (integral integral_over_T Cpig dCpig : nat -> R -> R) (pref_inv : R).
Variables (Pf Hdep Sdep Cdep : property) (T V pT pV hT hV sT sV cT cV : R).
Hypothesis (DP : differential Pf T V pT pV) (DH : differential Hdep T V hT hV) (DS : differential Sdep T V sT sV) (DC : differential Cdep T V cT cV).
Hypothesis (NT : T <> 0) (NV : V <> 0) (NpT : pT <> 0) (NpV : pV <> 0) (PP : 0 < Pf T V) (PR : 0 < pref_inv).
Hypothesis integral_ok : forall i, (i < N)%nat -> is_derive (integral i) T (Cpig i T).
Hypothesis integral_over_T_ok : forall i, (i < N)%nat -> is_derive (integral_over_T i) T (Cpig i T / T).
Hypothesis Cpig_ok : forall i, (i < N)%nat -> is_derive (Cpig i) T (dCpig i T).
Notation pd X Y Z d := (partial_derivative X Y Z T V d).
Variables (dP_dT dP_dV Cp_dep dH_dep_dP_T dH_dep_dT_V dH_dep_dP_V dH_dep_dV_T dH_dep_dV_P dS_dep_dT dS_dep_dP_T dS_dep_dT_V dS_dep_dP_V d2H_dep_dT2 d2H_dep_dT2_V : R).
Hypothesis (EPT : pd Pf temperature volume dP_dT) (EPV : pd Pf volume temperature dP_dV).
Hypothesis (EHT : pd Hdep temperature Pf Cp_dep) (EHP : pd Hdep Pf temperature dH_dep_dP_T) (EHTV : pd Hdep temperature volume dH_dep_dT_V) (EHPV : pd Hdep Pf volume dH_dep_dP_V)
  (EHVT : pd Hdep volume temperature dH_dep_dV_T) (EHVP : pd Hdep volume Pf dH_dep_dV_P).
Hypothesis (EST : pd Sdep temperature Pf dS_dep_dT) (ESP : pd Sdep Pf temperature dS_dep_dP_T) (ESTV : pd Sdep temperature volume dS_dep_dT_V) (ESPV : pd Sdep Pf volume dS_dep_dP_V).
Hypothesis (ECT : pd Cdep temperature Pf d2H_dep_dT2) (ECTV : pd Cdep temperature volume d2H_dep_dT2_V).
Let Hf : property := fun T V => IG_H N zs (fun i => integral i T) (Hdep T V).
Let Sf : property := fun T V => IG_S N (Pf T V) zs (fun i => integral_over_T i T) log_zs pref_inv (Sdep T V).
Notation Cps := (fun i => Cpig i T).
Ltac nzj := let K := fresh in intro K; first [apply NpT; lra | apply NpV; lra | lra].
Lemma valsd : dP_dT = pT /\ dP_dV = pV /\ Cp_dep = hT - hV * pT / pV /\ dH_dep_dP_T = hV / pV /\ dH_dep_dT_V = hT /\ dH_dep_dP_V = hT / pT /\ dH_dep_dV_T = hV /\ dH_dep_dV_P = hV - hT * pV / pT /\
  dS_dep_dT = sT - sV * pT / pV /\ dS_dep_dP_T = sV / pV /\ dS_dep_dT_V = sT /\ dS_dep_dP_V = sT / pT /\ d2H_dep_dT2 = cT - cV * pT / pV /\ d2H_dep_dT2_V = cT.
Proof. splits; (etransitivity; [eapply pd_elim; [eassumption|spu; dif|spu; dif|spu; dif|nzj]|field; auto; splits; auto; nzj]). Qed.
Ltac vs := destruct valsd as (E1 & E2 & E3 & E4 & E5 & E6 & E7 & E8 & E9 & E10 & E11 & E12 & E13 & E14); rewrite ?E1, ?E2, ?E3, ?E4, ?E5, ?E6, ?E7, ?E8, ?E9, ?E10, ?E11, ?E12, ?E13, ?E14.
Notation C := (rsum N (fun i => zs i * Cpig i T)).
Lemma D_H : differential Hf T V (C + hT) hV.
Proof.
  apply (D_ext T V (fun T V => rsum N (fun i => zs i * integral i T) + Hdep T V)); [intros; unfold Hf; rewrite IG_H_val; ring|].
  eapply D_eq; [apply D_plus; [apply D_sumT, integral_ok|exact DH]|reflexivity|ring].
Qed.
Lemma D_S : differential Sf T V (C / T - Rgas * pT / Pf T V + sT) (- Rgas * pV / Pf T V + sV).
Proof.
  apply (D_ext T V (fun T V => rsum N (fun i => zs i * integral_over_T i T) - Rgas * rsum N (fun i => zs i * log_zs i) - Rgas * ln (Pf T V * pref_inv) + Sdep T V)); [intros; unfold Sf; now rewrite IG_S_val|].
  eapply D_eq; [apply D_plus; [apply D_minus; [apply D_minus; [apply D_sumT, integral_over_T_ok|apply D_const]|]|exact DS]| |].
  - dif. cbv beta. now apply Rmult_lt_0_compat.
  - cbv beta. rewrite (rsum_ext N (fun i => zs i * (Cpig i T / T)) (fun i => / T * (zs i * Cpig i T))) by (intros; field; auto). rewrite rsum_scal_l. field. splits; auto; lra.
  - cbv beta. field. splits; auto; lra.
Qed.
Ltac nzd := repeat split; auto using Rgas_neq; try nzj.
Ltac go L := spu; eapply pd_intro; [apply L|dif|dif|nzj|cbv beta; field; nzd].
Theorem C43_departure_H : pd Hf temperature Pf (IG_Cp N zs Cps Cp_dep) /\ pd Hf Pf temperature (IG_dH_dP dH_dep_dP_T) /\ pd Hf temperature volume (IG_dH_dT_V N zs Cps dH_dep_dT_V) /\
  pd Hf Pf volume (IG_dH_dP_V N zs Cps dP_dT dH_dep_dP_V) /\ pd Hf volume temperature (IG_dH_dV_T dH_dep_dV_T) /\ pd Hf volume Pf (IG_dH_dV_P N zs Cps dP_dT dP_dV dH_dep_dV_P).
Proof.
  rewrite IG_Cp_val. unfold IG_dH_dP, IG_dH_dT_V, IG_dH_dP_V, IG_dH_dV_T, IG_dH_dV_P, Ph_dT_dV, Ph_dV_dT, Ph_dT_dP. rewrite IG_Cp_ideal_val. vs. pose proof D_H as L. revert L. generalize C. intros c L.
  splits; go L.
Qed.
Theorem C43_departure_S : pd Sf temperature Pf (IG_dS_dT N T zs Cps dS_dep_dT) /\ pd Sf Pf temperature (IG_dS_dP (Pf T V) dS_dep_dP_T) /\
  pd Sf temperature volume (IG_dS_dT_V N T (Pf T V) zs Cps dP_dT dS_dep_dT_V) /\ pd Sf Pf volume (IG_dS_dP_V N T (Pf T V) zs Cps dP_dT dS_dep_dP_V).
Proof.
  unfold IG_dS_dT, IG_dS_dP, IG_dS_dT_V, IG_dS_dP_V, Ph_dT_dP. rewrite IG_Cp_ideal_val. vs. pose proof D_S as L. revert L. generalize C. intros c L.
  splits; go L.
Qed.
Theorem C43_departure_second : pd (fun T V => IG_Cp N zs (fun i => Cpig i T) (Cdep T V)) temperature Pf (IG_d2H_dT2 N zs (fun i => dCpig i T) d2H_dep_dT2) /\
  pd (fun T V => IG_Cp N zs (fun i => Cpig i T) (Cdep T V)) temperature volume (IG_d2H_dT2_V N zs (fun i => dCpig i T) d2H_dep_dT2_V).
Proof.
  assert (L : differential (fun T V => IG_Cp N zs (fun i => Cpig i T) (Cdep T V)) T V (rsum N (fun i => zs i * dCpig i T) + cT) cV).
  { apply (D_ext T V (fun T V => rsum N (fun i => zs i * Cpig i T) + Cdep T V)); [intros; now rewrite IG_Cp_val|].
    eapply D_eq; [apply D_plus; [apply D_sumT, Cpig_ok|exact DC]|reflexivity|ring]. }
  unfold IG_d2H_dT2, IG_d2H_dT2_V. rewrite (loop_rsum N (fun i => zs i * dCpig i T) 0). vs. revert L. generalize (rsum N (fun i => zs i * dCpig i T)). intros c L.
  splits; go L.
Qed.
End Departure.

(* the composition derivatives *)
Theorem C43_departure_composition N (zs integral integral_over_T : nat -> R) (P pref_inv : R) (Hdep Sdep : (nat -> R) -> R) (dH_dep_dzs dS_dep_dzs : nat -> R) i : (i < N)%nat -> (forall j, (j < N)%nat -> 0 < zs j) ->
  partial Hdep zs i (dH_dep_dzs i) -> partial Sdep zs i (dS_dep_dzs i) ->
  partial (fun z => IG_H N z integral (Hdep z)) zs i (IG_dH_dzs integral dH_dep_dzs i) /\
  partial (fun z => IG_S N P z integral_over_T (fun j => ln (z j)) pref_inv (Sdep z)) zs i (IG_dS_dzs integral_over_T (fun j => ln (zs j)) dS_dep_dzs i).
Proof.
  intros Hi Pos HH HS. unfold IG_dH_dzs, IG_dS_dzs. split.
  - apply (partial_ext (fun z => Hdep z + rsum N (fun j => z j * integral j))); [intros; now rewrite IG_H_val|]. apply partial_plus; [exact HH|now apply partial_lin].
  - apply (partial_ext (fun z => rsum N (fun j => z j * integral_over_T j) - Rgas * rsum N (fun j => z j * ln (z j)) - Rgas * ln (P * pref_inv) + Sdep z)); [intros; now rewrite IG_S_val|].
    assert (L : partial (fun z => rsum N (fun j => z j * ln (z j))) zs i (ln (zs i) + 1)).
    { eapply partial_val; [apply (partial_sum N (fun j z => z j * ln (z j)) zs i (fun j => dl i j * (ln (zs j) + 1)))|].
      - intros j Hj. eapply partial_val; [apply (partial_mult (fun y => y j) (fun y => ln (y j))); [apply partial_coord|apply partial_ln; [now apply Pos|apply partial_coord]]|]. cbv beta. pose proof (Pos j Hj). field. lra.
      - rewrite (rsum_single N i); [unfold dl; rewrite Nat.eqb_refl; ring|exact Hi|]. intros j Hj Ne. unfold dl. replace (j =? i)%nat with false by (symmetry; apply Nat.eqb_neq; auto). ring. }
    eapply partial_val; [apply partial_plus; [apply partial_minus; [apply partial_minus; [now apply (partial_lin N zs i integral_over_T)|apply (partial_scal Rgas _ _ _ _ L)]|apply partial_const]|exact HS]|]. ring.
Qed.

(* the speed of sound per mass: the code's 31.622776601683793 is the square root of 1000 to sixteen digits *)
Theorem C43_speed_of_sound_mass T V dP_dT dP_dV Cp MW : 0 < MW -> exists k, Rabs (k - sqrt 1000) <= / 10 ^ 14 /\
  Ph_speed_of_sound_mass T V dP_dT dP_dV Cp MW = k * Ph_speed_of_sound T V dP_dT dP_dV Cp / sqrt MW.
Proof.
  intros PM. exists (31622776601683793 / 1000000000000000). assert (S0 := sqrt_lt_R0 _ PM). split; [|unfold Ph_speed_of_sound_mass; field; lra].
  assert (L : 31622776601683793 / 1000000000000000 <= sqrt 1000) by (apply Rsqr_incr_0_var; [rewrite Rsqr_sqrt by lra; unfold Rsqr; lra|apply sqrt_pos]).
  assert (U : sqrt 1000 <= 31622776601683803 / 1000000000000000) by (apply Rsqr_incr_0_var; [rewrite Rsqr_sqrt by lra; unfold Rsqr; lra|lra]).
  rewrite Rabs_left1 by lra. replace (10 ^ 14) with 100000000000000 by ring. lra.
Qed.

(* where dP_dT is zero the derivative of volume by pressure exists, but computing it raises an exception *)
Theorem C43_dP_dT_zero_refuted : exists (Pf : property) T V pV, differential Pf T V 0 pV /\ pV <> 0 /\ 0 < T /\ 0 < V /\ 0 < Pf T V /\
  partial_derivative volume Pf temperature T V (1 / pV) /\ dV_dP_py 0 pV = None.
Proof.
  set (Pf := fun T V => (T - 277) * (T - 277) + 1 / V). assert (D : differential Pf 277 1 0 (-1)). { unfold Pf. eapply D_eq; [dif; lra|field|field]. }
  exists Pf, 277, 1, (-1). splits; auto; try lra.
  - unfold Pf. lra.
  - unfold volume, temperature. eapply pd_intro; [dif|exact D|dif|lra|lra].
  - unfold dV_dP_py, dT_dP_py, dV_dT_py, py_div. now rewrite (Reqb_true 0 0 eq_refl), (Reqb_false (-1) 0 ltac:(lra)).
Qed.
(* elsewhere no exception is raised *)
Theorem C43_dV_dP_total dP_dT dP_dV : dP_dT <> 0 -> dP_dV <> 0 -> dV_dP_py dP_dT dP_dV = Some (Ph_dV_dP dP_dT dP_dV).
Proof.
  intros A B. unfold dV_dP_py, dT_dP_py, dV_dT_py, py_div. rewrite (Reqb_false _ _ A), (Reqb_false _ _ B). unfold bindo, Ph_dV_dP, Ph_dV_dT, Ph_dT_dP. first [reflexivity | f_equal; field; auto].
Qed.

(* IdealGas: its own methods, for the pressure R T / V *)
Section IdealGas.
Variables (N : nat) (zs log_zs : nat -> R) (integral integral_over_T Cpig dCpig : nat -> R -> R) (pref_inv T P : R).
Hypothesis (PT : 0 < T) (PP : 0 < P) (PR : 0 < pref_inv).
Hypothesis integral_ok : forall i, (i < N)%nat -> is_derive (integral i) T (Cpig i T).
Hypothesis integral_over_T_ok : forall i, (i < N)%nat -> is_derive (integral_over_T i) T (Cpig i T / T).
Hypothesis Cpig_ok : forall i, (i < N)%nat -> is_derive (Cpig i) T (dCpig i T).
Notation V := (IDG_V T P).
Notation pd X Y Z d := (partial_derivative X Y Z T V d).
Definition ideal_gas_pressure : property := fun T V => Rgas * T / V.
Notation Pf := ideal_gas_pressure.
Let Hf : property := fun T V => IDG_H N zs (fun i => integral i T).
Let Sf : property := fun T V => IDG_S N (Pf T V) zs (fun i => integral_over_T i T) log_zs pref_inv.
Let Cpf : property := fun T V => IDG_Cp N zs (fun i => Cpig i T).
Notation Cps := (fun i => Cpig i T).
Lemma RP : 0 < Rgas. Proof. exact Rgas_pos. Qed.
Lemma PV : 0 < V. Proof. unfold IDG_V. apply Rdiv_lt_0_compat; auto. apply Rmult_lt_0_compat; auto. exact RP. Qed.
Lemma P_val : Pf T V = P. Proof. pose proof RP. unfold ideal_gas_pressure, IDG_V. field. splits; lra. Qed.
Lemma DPi : differential Pf T V (IDG_dP_dT T P) (IDG_dP_dV T P).
Proof. pose proof RP. pose proof PV. unfold ideal_gas_pressure. eapply D_eq; [dif; lra| |]; cbv beta; unfold IDG_dP_dT, IDG_dP_dV, IDG_V; field; splits; lra. Qed.
Lemma IDG_H_val I : IDG_H N zs I = rsum N (fun i => zs i * I i). Proof. unfold IDG_H. rewrite (loop_rsum N (fun i => zs i * I i) 0). ring. Qed.
Lemma IDG_Cp_val I : IDG_Cp N zs I = rsum N (fun i => zs i * I i). Proof. unfold IDG_Cp. rewrite (loop_rsum N (fun i => zs i * I i) 0). ring. Qed.
Lemma IDG_S_val p I : IDG_S N p zs I log_zs pref_inv = rsum N (fun i => zs i * I i) - Rgas * rsum N (fun i => zs i * log_zs i) - Rgas * ln (p * pref_inv).
Proof. unfold IDG_S. rewrite (loop_rsum N (fun i => zs i * I i)). ring. Qed.
Notation C := (rsum N (fun i => zs i * Cpig i T)).
Lemma DHi : differential Hf T V C 0.
Proof. apply (D_ext T V (fun T V => rsum N (fun i => zs i * integral i T))); [intros; unfold Hf; now rewrite IDG_H_val|]. apply D_sumT, integral_ok. Qed.
Lemma DCi : differential Cpf T V (rsum N (fun i => zs i * dCpig i T)) 0.
Proof. apply (D_ext T V (fun T V => rsum N (fun i => zs i * Cpig i T))); [intros; unfold Cpf; now rewrite IDG_Cp_val|]. apply D_sumT, Cpig_ok. Qed.
Lemma DSi : differential Sf T V (C / T - Rgas / T) (P / T).
Proof.
  pose proof RP. pose proof PV. apply (D_ext T V (fun T V => rsum N (fun i => zs i * integral_over_T i T) - Rgas * rsum N (fun i => zs i * log_zs i) - Rgas * ln (Pf T V * pref_inv))); [intros; unfold Sf; now rewrite IDG_S_val|].
  pose proof DPi as DP. eapply D_eq; [apply D_minus; [apply D_minus; [apply D_sumT, integral_over_T_ok|apply D_const]|]| |].
  - dif. cbv beta. rewrite P_val. now apply Rmult_lt_0_compat.
  - cbv beta. rewrite P_val. rewrite (rsum_ext N (fun i => zs i * (Cpig i T / T)) (fun i => / T * (zs i * Cpig i T))) by (intros; field; lra). rewrite rsum_scal_l. unfold IDG_dP_dT. field. splits; lra.
  - cbv beta. rewrite P_val. unfold IDG_dP_dV. field. splits; lra.
Qed.
Ltac nz0 := apply Rmult_integral_contrapositive_currified || apply Ropp_neq_0_compat || apply Rinv_neq_0_compat || lra.
Ltac jz := let K := fresh in intro K; field_simplify_eq in K; [|splits; lra ..]; first [lra | nra].
Lemma JT : IDG_dP_dT T P <> 0. Proof. unfold IDG_dP_dT. apply Rgt_not_eq, Rdiv_lt_0_compat; auto. Qed.
Lemma JV : IDG_dP_dV T P <> 0. Proof. pose proof RP. unfold IDG_dP_dV, Rdiv. repeat (first [lra|nz0]). Qed.
Ltac nzj := let K := fresh in intro K; first [apply JT; lra | apply JV; lra | lra].
Ltac go L := spu; eapply pd_intro; [apply L|first [exact DPi|dif]|first [exact DPi|dif]|nzj|cbv beta].
Theorem C43_ideal_gas_PVT : Pf T V = P /\ pd Pf temperature volume (IDG_dP_dT T P) /\ pd Pf volume temperature (IDG_dP_dV T P) /\ IDG_dV_dT P = Ph_dV_dT (IDG_dP_dT T P) (IDG_dP_dV T P) /\
  IDG_dV_dP T P = Ph_dV_dP (IDG_dP_dT T P) (IDG_dP_dV T P) /\ IDG_dT_dP T P = Ph_dT_dP (IDG_dP_dT T P) /\ IDG_dT_dV P = Ph_dT_dV (IDG_dP_dT T P) (IDG_dP_dV T P).
Proof.
  pose proof RP as HR. split; [exact P_val|]. split; [go DPi; field|]. split; [go DPi; field|].
  unfold IDG_dV_dT, IDG_dV_dP, IDG_dT_dP, IDG_dT_dV, Ph_dT_dV, Ph_dV_dP, Ph_dV_dT, Ph_dT_dP, IDG_dP_dT, IDG_dP_dV. splits; field; splits; lra.
Qed.
Theorem C43_ideal_gas_energies : pd Hf temperature Pf (IDG_Cp N zs Cps) /\ pd Hf temperature volume (IDG_Cp N zs Cps) /\ pd Hf Pf temperature IDG_dH_dP /\ pd Hf Pf volume (IDG_dH_dP_V N T P zs Cps) /\
  pd Hf volume temperature IDG_dH_dV_T /\ pd Hf volume Pf (IDG_dH_dV_P N P zs Cps) /\ pd Sf temperature Pf (IDG_dS_dT N T zs Cps) /\ pd Sf Pf temperature (IDG_dS_dP P) /\
  pd Sf temperature volume (IDG_dS_dT_V N T P zs Cps) /\ pd Sf Pf volume (IDG_dS_dP_V N T P zs Cps) /\ pd Cpf temperature Pf (IDG_d2H_dT2 N zs (fun i => dCpig i T)) /\ pd Cpf Pf temperature IDG_d2H_dTdP.
Proof.
  pose proof RP as HR. pose proof DHi as LH. pose proof DSi as LS. pose proof DCi as LC. unfold IDG_d2H_dT2. rewrite (loop_rsum N (fun i => zs i * dCpig i T) 0).
  unfold IDG_dH_dP_V, IDG_dH_dV_P, IDG_dS_dT, IDG_dS_dT_V, IDG_dS_dP_V. rewrite !IDG_Cp_val. revert LH LS LC. generalize C (rsum N (fun i => zs i * dCpig i T)). intros c c' LH LS LC.
  splits; [go LH|go LH|go LH|go LH|go LH|go LH|go LS|go LS|go LS|go LS|go LC|go LC]; unfold IDG_dH_dP, IDG_dT_dP, IDG_dT_dV, IDG_dS_dP, IDG_d2H_dTdP, IDG_dH_dV_T, IDG_dP_dT, IDG_dP_dV; field; splits; try lra.
Qed.
(* the ideal gas satisfies the first law and the Maxwell relation *)
Theorem C43_ideal_gas_consistent : thermodynamic T V (IDG_dP_dT T P) (IDG_dP_dV T P) C 0 (C / T - Rgas / T) (P / T).
Proof. pose proof RP. unfold thermodynamic, IDG_dP_dT, IDG_dP_dV, IDG_V. splits; field; splits; lra. Qed.
Let Pt : property := fun T V => IDG_dP_dT T (Pf T V).
Let Pv : property := fun T V => IDG_dP_dV T (Pf T V).
Lemma DPt : differential Pt T V 0 (- (P * P) / (Rgas * T * T)).
Proof.
  pose proof RP. pose proof PV. pose proof DPi as D. unfold Pt, IDG_dP_dT. eapply D_eq; [dif; cbv beta; try lra| |]; cbv beta; rewrite P_val; unfold IDG_dP_dT, IDG_dP_dV; field; splits; lra.
Qed.
Lemma DPv : differential Pv T V (- (P * P) / (Rgas * T * T)) (2 * P * P * P / (Rgas * Rgas * T * T)).
Proof.
  pose proof RP. pose proof PV. pose proof DPi as D. unfold Pv, IDG_dP_dV. assert (Rgas * T <> 0) by (apply Rgt_not_eq; now apply Rmult_lt_0_compat).
  eapply D_eq; [dif; cbv beta; auto| |]; cbv beta; rewrite P_val; unfold IDG_dP_dT, IDG_dP_dV; field; splits; lra.
Qed.
Ltac u2 := unfold IDG_d2P_dT2, IDG_d2P_dV2, IDG_d2P_dTdV, IDG_d2T_dV2, IDG_d2V_dT2, IDG_d2V_dP2, IDG_d2T_dP2, IDG_PIP, Ph_PIP, ext_phase_identification_parameter, Ph_d2T_dV2, Ph_d2V_dT2, Ph_d2V_dP2, Ph_d2T_dP2, IDG_V, IDG_dP_dT, IDG_dP_dV.
Theorem C43_ideal_gas_second : pd Pt temperature volume IDG_d2P_dT2 /\ pd Pv volume temperature (IDG_d2P_dV2 T P) /\ pd Pt volume temperature (IDG_d2P_dTdV T P) /\
  IDG_d2T_dV2 = Ph_d2T_dV2 (IDG_dP_dT T P) (IDG_dP_dV T P) IDG_d2P_dT2 (IDG_d2P_dV2 T P) (IDG_d2P_dTdV T P) /\
  IDG_d2V_dT2 = Ph_d2V_dT2 (IDG_dP_dT T P) (IDG_dP_dV T P) IDG_d2P_dT2 (IDG_d2P_dV2 T P) (IDG_d2P_dTdV T P) /\
  IDG_d2V_dP2 T P = Ph_d2V_dP2 (IDG_dP_dV T P) (IDG_d2P_dV2 T P) /\ IDG_d2T_dP2 = Ph_d2T_dP2 (IDG_dP_dT T P) IDG_d2P_dT2 /\
  IDG_PIP = Ph_PIP V (IDG_dP_dT T P) (IDG_dP_dV T P) (IDG_d2P_dV2 T P) (IDG_d2P_dTdV T P).
Proof. pose proof RP as HR. splits; [go DPt|go DPv|go DPt| | | | |]; u2; unfold Ph_dT_dP; field; splits; lra. Qed.
(* the four derivatives at constant pressure or along the pressure are not zero, as the methods say they are *)
Theorem C43_ideal_gas_mixed_refuted : pd Pt temperature Pf (- P / (T * T)) /\ pd Pv temperature Pf (P * P / (Rgas * T * T)) /\ pd Pt Pf temperature (1 / T) /\ pd Pv Pf temperature (- 2 * P / (Rgas * T)) /\
  ~ pd Pt temperature Pf IDG_d2P_dT2_PV /\ ~ pd Pv temperature Pf IDG_d2P_dVdT_TP /\ ~ pd Pt Pf temperature IDG_d2P_dTdP /\ ~ pd Pv Pf temperature IDG_d2P_dVdP.
Proof.
  pose proof RP as HR.
  assert (PQ : 0 < P * P) by (now apply Rmult_lt_0_compat). assert (TT : 0 < T * T) by (now apply Rmult_lt_0_compat). assert (RT : 0 < Rgas * T) by (now apply Rmult_lt_0_compat).
  assert (Uq : forall X Y Z xT xV yT yV zT zV d d', differential X T V xT xV -> differential Y T V yT yV -> differential Z T V zT zV -> yT * zV - yV * zT <> 0 -> pd X Y Z d -> pd X Y Z d' -> d = d').
  { intros X Y Z xT xV yT yV zT zV d d' DX DY DZ J A B. eapply pd_elim in A; [|exact DX|exact DY|exact DZ|exact J]. eapply pd_elim in B; [|exact DX|exact DY|exact DZ|exact J]. congruence. }
  assert (A1 : pd Pt temperature Pf (- P / (T * T))) by (go DPt; u2; field; splits; lra). assert (A2 : pd Pv temperature Pf (P * P / (Rgas * T * T))) by (go DPv; u2; field; splits; lra).
  assert (A3 : pd Pt Pf temperature (1 / T)) by (go DPt; u2; field; splits; lra). assert (A4 : pd Pv Pf temperature (- 2 * P / (Rgas * T))) by (go DPv; u2; field; splits; lra).
  assert (Q1 : 0 < P / (T * T)) by now apply Rdiv_lt_0_compat. assert (Q2 : 0 < P * P / (Rgas * T * T)) by (apply Rdiv_lt_0_compat; auto; now apply Rmult_lt_0_compat).
  assert (Q3 : 0 < 1 / T) by (apply Rdiv_lt_0_compat; lra). assert (Q4 : 0 < P / (Rgas * T)) by now apply Rdiv_lt_0_compat.
  splits; auto; unfold IDG_d2P_dT2_PV, IDG_d2P_dVdT_TP, IDG_d2P_dTdP, IDG_d2P_dVdP; intros B.
  - eapply Uq in A1; [|exact DPt|apply D_T|exact DPi|nzj|exact B]. unfold Rdiv in *. lra.
  - eapply Uq in A2; [|exact DPv|apply D_T|exact DPi|nzj|exact B]. lra.
  - eapply Uq in A3; [|exact DPt|exact DPi|apply D_T|nzj|exact B]. lra.
  - eapply Uq in A4; [|exact DPv|exact DPi|apply D_T|nzj|exact B]. unfold Rdiv in *. lra.
Qed.
Notation dCp := (IDG_d2H_dT2 N zs (fun i => dCpig i T)).
(* so the temperature derivative of Cv of an ideal gas, which is that of Cp, comes out R/T too low *)
Theorem C43_ideal_gas_Cv_refuted : pd (fun T V => Ph_Cv T (Pt T V) (Pv T V) (Cpf T V)) temperature Pf dCp /\
  Ph_dCv_dT_P T (IDG_dP_dT T P) (IDG_dP_dV T P) dCp IDG_d2P_dT2_PV IDG_d2P_dVdT_TP = dCp - Rgas / T /\ Rgas / T <> 0.
Proof.
  pose proof RP as HR. assert (0 < Rgas / T) by now apply Rdiv_lt_0_compat. splits; [| |lra].
  - unfold Ph_Cv, ext_Cp_minus_Cv. pose proof DPt as D1. pose proof DPv as D2. pose proof DCi as D3. pose proof DPi as D0. assert (EC : dCp = rsum N (fun i => zs i * dCpig i T)) by (unfold IDG_d2H_dT2; rewrite (loop_rsum N (fun i => zs i * dCpig i T) 0); ring).
    rewrite EC. assert (EP : Pt T V = P / T) by (unfold Pt; now rewrite P_val). assert (EV : Pv T V = - P * P / (Rgas * T)) by (unfold Pv; now rewrite P_val).
    spu. eapply pd_intro; [dif; cbv beta|dif|exact D0|nzj|cbv beta]; rewrite ?EP, ?EV.
    + pose proof JV as J. exact J.
    + u2. field. splits; lra.
  - unfold Ph_dCv_dT_P, IDG_d2P_dT2_PV, IDG_d2P_dVdT_TP. u2. field. splits; lra.
Qed.
(* and the temperature derivative of its speed of sound is wrong, by a factor above two for constant Cp *)
Theorem C43_ideal_gas_sound_refuted Cp : Rgas < Cp -> let c := fun T V => Ph_speed_of_sound T V (Pt T V) (Pv T V) Cp in
  pd c temperature Pf (c T V / (2 * T)) /\ Ph_dspeed_of_sound_dT_P T V (IDG_dP_dT T P) (IDG_dP_dV T P) Cp 0 IDG_d2P_dT2_PV IDG_d2P_dVdT_TP = c T V / (2 * T) * (2 + Rgas / (Cp - Rgas)) /\ 0 < c T V.
Proof.
  intros HC c. pose proof RP as HR. pose proof DPt as D1. pose proof DPv as D2. pose proof DPi as D0.
  assert (EP : Pt T V = IDG_dP_dT T P) by (unfold Pt; now rewrite P_val). assert (EV : Pv T V = IDG_dP_dV T P) by (unfold Pv; now rewrite P_val).
  assert (ECv : Ph_Cv T (IDG_dP_dT T P) (IDG_dP_dV T P) Cp = Cp - Rgas) by (unfold Ph_Cv, ext_Cp_minus_Cv; u2; field; splits; lra).
  assert (EQ : - (V * V) * IDG_dP_dV T P * Cp / (Cp - Rgas) = Rgas * T * Cp / (Cp - Rgas)) by (u2; field; splits; lra).
  assert (PQ : 0 < Rgas * T * Cp / (Cp - Rgas)) by (apply Rdiv_lt_0_compat; [repeat apply Rmult_lt_0_compat; lra|lra]).
  assert (Ec : c T V = sqrt (Rgas * T * Cp / (Cp - Rgas))) by (unfold c, Ph_speed_of_sound, ext_speed_of_sound; rewrite EP, EV, ECv, EQ; reflexivity).
  assert (J : Pv T V <> 0) by (rewrite EV; exact JV). splits.
  - assert (G : pd c temperature Pf (sqrt (- V * V * (Cp * Pv T V / (Cp - Rgas))) * (Cp * (1 / 2 * V) * (P * P / (Rgas * T * T)) + Pv T V * (1 / 2 * V) * 0 + Cp * Pv T V * (Rgas / P) - Cp * Pv T V / (Cp - Rgas) * (1 / 2 * V) * 0) / (Cp * V * Pv T V))).
    { rewrite <- ECv, <- EP, <- EV. pose proof (D_const T V Cp) as D3. unfold c.
      apply (sound_general Pt Pv T V _ _ _ D1 D2 (Rgt_not_eq _ _ PV) J (fun _ _ => Cp) 0 0 D3).
      - rewrite EP, EV, ECv. lra.
      - rewrite EP, EV, ECv, EQ. exact PQ.
      - go D_V. u2. field. splits; lra.
      - go D2. u2. field. splits; lra.
      - go D3. field. splits; exact JV.
      - unfold Ph_Cv, ext_Cp_minus_Cv. spu. eapply pd_intro; [dif; exact J|dif|exact D0|nzj|cbv beta]. rewrite EP, EV. u2. field. splits; lra. }
    match type of G with partial_derivative _ _ _ _ _ ?d => match goal with |- partial_derivative _ _ _ _ _ ?d' => replace d' with d; [exact G|] end end.
    rewrite EV. replace (- V * V * (Cp * IDG_dP_dV T P / (Cp - Rgas))) with (Rgas * T * Cp / (Cp - Rgas)) by (rewrite <- EQ; field; lra).
    rewrite Ec. generalize (sqrt (Rgas * T * Cp / (Cp - Rgas))). intros q. u2. field. splits; lra.
  - unfold Ph_dspeed_of_sound_dT_P. rewrite ECv. replace (- V * V * (Cp * IDG_dP_dV T P / (Cp - Rgas))) with (Rgas * T * Cp / (Cp - Rgas)) by (rewrite <- EQ; field; lra).
    rewrite Ec. generalize (sqrt (Rgas * T * Cp / (Cp - Rgas))). intros q. unfold Ph_dCv_dT_P, Ph_dV_dT, IDG_d2P_dT2_PV, IDG_d2P_dVdT_TP. u2. field. splits; lra.
  - rewrite Ec. now apply sqrt_lt_R0.
Qed.
End IdealGas.

(* the hypotheses of the theorems above are met, for instance by an ideal gas of one component with Cp = 7/2 R at 300 K and 1 bar *)
Example C43_hypotheses_met : let k := 7 / 2 * Rgas in let T := 300 in let P := 100000 in let V := IDG_V T P in let integral := fun (i : nat) t => k * t in let over := fun (i : nat) t => k * ln t in let one := fun _ : nat => 1 in
  let Hf : property := fun T V => IDG_H 1 one (fun i => integral i T) in let Sf : property := fun T V => IDG_S 1 (ideal_gas_pressure T V) one (fun i => over i T) (fun _ => 0) (/ 101325) in
  exists pT pV hT hV sT sV, differential ideal_gas_pressure T V pT pV /\ differential Hf T V hT hV /\ differential Sf T V sT sV /\ T <> 0 /\ V <> 0 /\ pT <> 0 /\ pV <> 0 /\ ideal_gas_pressure T V = P /\
    thermodynamic T V pT pV hT hV sT sV /\ partial_derivative Hf temperature ideal_gas_pressure T V k /\ Ph_Cv T pT pV k <> 0.
Proof.
  cbv zeta. assert (PT : 0 < 300) by lra. assert (PP : 0 < 100000) by lra. assert (PR : 0 < / 101325) by lra. pose proof Rgas_pos as B. set (k := 7 / 2 * Rgas).
  assert (I : forall i, (i < 1)%nat -> is_derive (fun t => k * t) 300 k) by (intros; eapply is_derive_eq; [apply (is_derive_scal (fun x => x) 300 k 1 (is_derive_id _))|unfold scal; simpl; unfold mult; simpl; ring]).
  assert (O : forall i, (i < 1)%nat -> is_derive (fun t => k * ln t) 300 (k / 300)) by (intros; eapply is_derive_eq; [apply (is_derive_scal ln 300 k (/ 300)); now apply is_derive_ln|unfold scal; simpl; unfold mult; simpl; field]).
  set (one := fun _ : nat => 1). pose proof (rsum_ext 1 (fun i => one i * k) (fun i => one i * (fun _ _ => k) i 300) ltac:(intros; reflexivity)) as _.
  exists (IDG_dP_dT 300 100000), (IDG_dP_dV 300 100000), (rsum 1 (fun i => one i * k)), 0, (rsum 1 (fun i => one i * k) / 300 - Rgas / 300), (100000 / 300). splits.
  - now apply DPi.
  - exact (DHi 1 one (fun i t => k * t) (fun i t => k) 300 100000 I).
  - exact (DSi 1 one (fun _ => 0) (fun i t => k * ln t) (fun i t => k) (/ 101325) 300 100000 PT PP PR O).
  - lra.
  - apply Rgt_not_eq. now apply PV.
  - now apply JT.
  - now apply JV.
  - now apply P_val.
  - exact (C43_ideal_gas_consistent 1 one (fun i t => k) 300 100000 PT PP).
  - spu. eapply pd_intro; [exact (DHi 1 one (fun i t => k * t) (fun i t => k) 300 100000 I)|apply D_T|now apply DPi| |].
    + pose proof (JV 300 100000 PT PP). intro K. apply H. lra.
    + pose proof (JV 300 100000 PT PP). unfold one. simpl. field. exact H.
  - unfold Ph_Cv, ext_Cp_minus_Cv. replace (k - - (300) * (IDG_dP_dT 300 100000 * IDG_dP_dT 300 100000) / IDG_dP_dV 300 100000) with (k - Rgas); [unfold k; lra|].
    pose proof Rgas_pos. unfold IDG_dP_dT, IDG_dP_dV. field. lra.
Qed.
