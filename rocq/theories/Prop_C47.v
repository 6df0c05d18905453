(* C47: properties derived from the volume and its derivatives (Z, density, beta, kappa, derivatives of
   the pressure derivatives along isobars and isotherms, energies, Cp). *)
From Coq Require Import Reals Lra.
From Coquelicot Require Import Coquelicot.
From Verif Require Import Base BaseFacts Spec_eos Gen_eos EosFacts EosCurve EosDep Prop_C04 Prop_C03.
Open Scope R_scope.

Ltac dsolve := auto_derive; [splits; try exd; auto; try nz |].

(* along an isobar: V = Vf(T) with first derivative V1 and second derivative V2 *)
Theorem C47_isobar :
  forall (Vf V1 : R -> R) (T P V2 : R),
  locally T (fun t => is_derive Vf t (V1 t)) -> is_derive V1 T V2 -> T <> 0 -> Vf T <> 0 ->
  is_derive (fun t => P * Vf t / (Rgas * t)) T (eos_dZ_dT T P (V1 T) (Vf T)) /\
  is_derive (fun t => / Vf t) T (eos_drho_dT (V1 T) (Vf T)) /\
  is_derive (Derive (fun t => / Vf t)) T (eos_d2rho_dT2 V2 (Vf T) (V1 T)) /\
  eos_beta (V1 T) (Vf T) = Derive Vf T / Vf T /\
  is_derive (fun t => eos_beta (V1 t) (Vf t)) T (eos_dbeta_dT (Vf T) (V1 T) V2).
Proof.
  intros Vf V1 T P V2 L D2 HT HV. pose proof (locally_singleton _ _ L) as D1. cbv beta in D1. pose proof Rgas_neq as HR.
  assert (Nl := ne0_along Vf T (ex_intro _ _ D1) HV).
  splits.
  - dsolve. dv D1. unfold eos_dZ_dT. field. nz.
  - dsolve. dv D1. unfold eos_drho_dT. field. nz.
  - apply is_derive_ext_loc with (fun t => - V1 t / (Vf t) ^ 2).
    { generalize (filter_and _ _ L Nl). apply filter_imp. intros t [A1 A2]. symmetry. apply is_derive_unique. dsolve. dv A1. field. auto. }
    dsolve. dv D1. dv D2. unfold eos_d2rho_dT2. field. nz.
  - unfold eos_beta. dv D1. reflexivity.
  - unfold eos_beta. dsolve. dv D1. dv D2. unfold eos_dbeta_dT. field. nz.
Qed.

(* along an isotherm: V = Vg(P) *)
Theorem C47_isotherm :
  forall (Vg V1 : R -> R) (T P V2 : R),
  locally P (fun p => is_derive Vg p (V1 p)) -> is_derive V1 P V2 -> T <> 0 -> Vg P <> 0 ->
  is_derive (fun p => p * Vg p / (Rgas * T)) P (eos_dZ_dP (Vg P) P (V1 P) T) /\
  is_derive (fun p => / Vg p) P (eos_drho_dP (V1 P) (Vg P)) /\
  is_derive (Derive (fun p => / Vg p)) P (eos_d2rho_dP2 V2 (Vg P) (V1 P)) /\
  eos_kappa (V1 P) (Vg P) = - Derive Vg P / Vg P.
Proof.
  intros Vf V1 T P V2 L D2 HT HV. pose proof (locally_singleton _ _ L) as D1. cbv beta in D1. pose proof Rgas_neq as HR.
  assert (Nl := ne0_along Vf P (ex_intro _ _ D1) HV).
  splits.
  - dsolve. dv D1. unfold eos_dZ_dP. field. nz.
  - dsolve. dv D1. unfold eos_drho_dP. field. nz.
  - apply is_derive_ext_loc with (fun t => - V1 t / (Vf t) ^ 2).
    { generalize (filter_and _ _ L Nl). apply filter_imp. intros t [A1 A2]. symmetry. apply is_derive_unique. dsolve. dv A1. field. auto. }
    dsolve. dv D1. dv D2. unfold eos_d2rho_dP2. field. nz.
  - unfold eos_kappa. dv D1. reflexivity.
Qed.

(* a quantity Y (P or T) as a function of the density rho = 1/V, given its V-derivatives *)
Theorem C47_density_variable :
  forall (Y Y1 : R -> R) (V Y2 : R),
  locally V (fun v => is_derive Y v (Y1 v)) -> is_derive Y1 V Y2 -> V <> 0 ->
  is_derive (fun rho => Y (/ rho)) (/ V) (eos_dP_drho V (Y1 V)) /\
  is_derive (fun rho => Y (/ rho)) (/ V) (eos_dT_drho V (Y1 V)) /\
  is_derive (Derive (fun rho => Y (/ rho))) (/ V) (eos_d2P_drho2 V Y2 (Y1 V)) /\
  is_derive (Derive (fun rho => Y (/ rho))) (/ V) (eos_d2T_drho2 V Y2 (Y1 V)).
Proof.
  intros Y Y1 V Y2 L D2 HV. pose proof (locally_singleton _ _ L) as D1. cbv beta in D1.
  assert (HI : / V <> 0) by (apply Rinv_neq_0_compat; auto).
  assert (EI : / / V = V) by (apply Rinv_inv).
  assert (C : continuous (fun r => / r) (/ V)).
  { apply (ex_derive_continuous (K := R_AbsRing) (V := R_NormedModule)). auto_derive. auto. }
  assert (L' : locally (/ V) (fun r => is_derive Y (/ r) (Y1 (/ r)))).
  { apply (C (fun v => is_derive Y v (Y1 v))). rewrite EI. exact L. }
  assert (Nl : locally (/ V) (fun r => r <> 0)) by (apply (open_neq 0); auto).
  assert (G : locally (/ V) (fun r => is_derive (fun r => Y (/ r)) r (- (/ r) * (/ r) * Y1 (/ r)))).
  { generalize (filter_and _ _ L' Nl). apply filter_imp. intros r [A1 A2].
    dsolve. dv A1. field. auto. }
  assert (G2 : is_derive (Derive (fun rho => Y (/ rho))) (/ V) (- (V ^ 2) * (- (V ^ 2) * Y2 - 2 * V * Y1 V))).
  { apply is_derive_ext_loc with (fun r => - (/ r) * (/ r) * Y1 (/ r)).
    { eapply filter_imp; [|exact G]. intros r A. symmetry. apply is_derive_unique. exact A. }
    rewrite <- EI in D2. auto_derive. { splits; try exd; auto. }
    dv D2. rewrite EI. field. auto. }
  pose proof (locally_singleton _ _ G) as G1. cbv beta in G1. rewrite EI in G1.
  splits; unfold eos_dP_drho, eos_dT_drho, eos_d2P_drho2, eos_d2T_drho2; auto.
Qed.

(* mixed derivatives involving density *)
Theorem C47_density_mixed :
  forall (W WT : R -> R -> R) (T P WP WTP : R),
  locally P (fun p => is_derive (fun t => W t p) T (WT T p)) ->
  is_derive (fun p => W T p) P WP -> is_derive (fun p => WT T p) P WTP -> W T P <> 0 ->
  is_derive (fun p => Derive (fun t => / W t p) T) P (eos_d2rho_dPdT WTP (W T P) (WT T P) WP) /\
  is_derive (fun p => eos_beta (WT T p) (W T p)) P (eos_dbeta_dP (W T P) (WT T P) WP WTP).
Proof.
  intros W WT T P WP WTP L D1 D2 HV.
  assert (Nl := ne0_along (fun p => W T p) P (ex_intro _ _ D1) HV).
  set (w := fun p => W T p) in *. set (wt := fun p => WT T p) in *.
  split.
  - apply is_derive_ext_loc with (fun p => - wt p / (w p) ^ 2).
    { generalize (filter_and _ _ L Nl). apply filter_imp. intros p [A1 A2]. symmetry. apply is_derive_unique.
      unfold w, wt in *. set (f := fun t => W t p) in *. change (is_derive (fun t => / f t) T (- WT T p / (f T) ^ 2)).
      assert (f T <> 0) by exact A2. dsolve. dv A1. field. auto. }
    change (is_derive (fun p => - wt p / w p ^ 2) P (eos_d2rho_dPdT WTP (w P) (wt P) WP)).
    assert (w P <> 0) by exact HV. dsolve. dv D1. dv D2. unfold eos_d2rho_dPdT. field. auto.
  - change (is_derive (fun p => eos_beta (wt p) (w p)) P (eos_dbeta_dP (w P) (wt P) WP WTP)).
    assert (w P <> 0) by exact HV. unfold eos_beta. dsolve. dv D1. dv D2. unfold eos_dbeta_dP. field. auto.
Qed.
(* F(V) = dP/dT or dT/dP with V-derivative F1: its density derivative. *)
Theorem C47_density_cross :
  forall (F : R -> R) (V F1 : R), is_derive F V F1 -> V <> 0 ->
  is_derive (fun rho => F (/ rho)) (/ V) (eos_d2P_dTdrho V F1) /\
  is_derive (fun rho => F (/ rho)) (/ V) (eos_d2T_dPdrho V F1).
Proof.
  intros F V F1 D HV. assert (HI : / V <> 0) by (apply Rinv_neq_0_compat; auto).
  assert (EI : / / V = V) by (apply Rinv_inv). rewrite <- EI in D at 1.
  assert (G : is_derive (fun rho => F (/ rho)) (/ V) (- (V * V) * F1)).
  { dsolve. dv D. rewrite <- EI at 2 3. field. auto. }
  split; exact G.
Qed.

(* derivatives of dP_dV and dP_dT as reported, taken along the equation of state *)
Theorem C47_pressure_derivatives_along :
  forall (a da d2a : R -> R) (b delta eps T P V' Vp : R) (Vf Vg : R -> R),
  is_derive a T (da T) -> is_derive da T (d2a T) ->
  (regular_V b delta eps (Vf T) -> is_derive Vf T V' ->
   is_derive (fun t => Derive (fun v => P_cubic a b delta eps t v) (Vf t)) T (eos_d2P_dVdT_TP T b delta eps (Vf T) V' (a T) (da T)) /\
   (locally T (fun t => is_derive a t (da t)) ->
    is_derive (fun t => Derive (fun x => P_cubic a b delta eps x (Vf t)) t) T (eos_d2P_dT2_PV_g T b delta eps (Vf T) V' (a T) (da T) (d2a T)) /\
    is_derive (fun t => Derive (fun x => P_cubic a b delta eps x (Vf t)) t) T (eos_d2P_dT2_PV_l T b delta eps (Vf T) V' (a T) (da T) (d2a T)))) /\
  (regular_V b delta eps (Vg P) -> is_derive Vg P Vp ->
   is_derive (fun p => Derive (fun v => P_cubic a b delta eps T v) (Vg p)) P (eos_d2P_dVdP_g T P b delta eps (Vg P) (a T) Vp) /\
   is_derive (fun p => Derive (fun v => P_cubic a b delta eps T v) (Vg p)) P (eos_d2P_dVdP_l T b delta eps (Vg P) (a T) Vp) /\
   is_derive (fun p => Derive (fun x => P_cubic a b delta eps x (Vg p)) T) P (eos_d2P_dTdP (Vg P) Vp T b delta eps (da T))).
Proof.
  intros a da d2a b delta eps T P V' Vp Vf Vg Ha Hda. split.
  - intros Hr DV. assert (Rl := reg_along b delta eps Vf T (ex_intro _ _ DV) Hr). split.
    + apply is_derive_ext_loc with (fun t => cPV a b delta eps t (Vf t)).
      { eapply filter_imp; [|exact Rl]. intros t A. symmetry. apply is_derive_unique. apply P_cubic_dV; auto. }
      eapply is_derive_eq. apply (curve_PV a da b delta eps (fun t => t) Vf T 1 _ (is_derive_id T) DV Ha Hr).
      destruct Hr. unfold eos_d2P_dVdT_TP, cPTV, cPVV, Dn. cbv zeta. field. splits; nz.
    + intros Sa.
      assert (G : is_derive (fun t => Derive (fun x => P_cubic a b delta eps x (Vf t)) t) T (cPTT d2a delta eps T (Vf T) * 1 + cPTV da b delta eps T (Vf T) * V')).
      { apply is_derive_ext_loc with (fun t => cPT da b delta eps t (Vf t)).
        { generalize (filter_and _ _ Rl Sa). apply filter_imp. intros t [A1 A2]. symmetry. apply is_derive_unique. apply P_cubic_dT; auto. }
        apply (curve_PT da d2a b delta eps (fun t => t) Vf T 1 _ (is_derive_id T) DV Hr Hda). }
      destruct Hr. split; (eapply is_derive_eq; [exact G|]);
      unfold eos_d2P_dT2_PV_g, eos_d2P_dT2_PV_l, cPTT, cPTV, Dn; cbv zeta; field; splits; nz.
  - intros Hr DV. assert (Rl := reg_along b delta eps Vg P (ex_intro _ _ DV) Hr).
    assert (G : is_derive (fun p => Derive (fun v => P_cubic a b delta eps T v) (Vg p)) P (cPTV da b delta eps T (Vg P) * 0 + cPVV a b delta eps T (Vg P) * Vp)).
    { apply is_derive_ext_loc with (fun p => cPV a b delta eps T (Vg p)).
      { eapply filter_imp; [|exact Rl]. intros t A. symmetry. apply is_derive_unique. apply P_cubic_dV; auto. }
      apply (curve_PV a da b delta eps (fun _ => T) Vg P 0 _ (is_derive_cst T P) DV Ha Hr). }
    destruct Hr as [H1 H2] eqn:EH. splits.
    + eapply is_derive_eq. exact G. unfold eos_d2P_dVdP_g, cPTV, cPVV, Dn. cbv zeta. field. splits; nz.
    + eapply is_derive_eq. exact G. unfold eos_d2P_dVdP_l, cPTV, cPVV, Dn. cbv zeta. field. splits; nz.
    + apply is_derive_ext_loc with (fun p => cPT da b delta eps T (Vg p)).
      { eapply filter_imp; [|exact Rl]. intros t A. symmetry. apply is_derive_unique. apply P_cubic_dT; auto. }
      eapply is_derive_eq. apply (curve_PT da d2a b delta eps (fun _ => T) Vg P 0 _ (is_derive_cst T P) DV Hr Hda).
      unfold eos_d2P_dTdP, cPTT, cPTV, Dn. cbv zeta. field. splits; nz.
Qed.

(* thermo/eos.py, lines 1446-1448: Z, Cp_dep, G_dep in GCEOS.set_properties_from_solution *)
Definition set_Z (P V T : R) : R := P * V * (1 / Rgas) / T.
Definition set_Cp_dep (T dP_dT dV_dT Cv_dep : R) : R := T * dP_dT * dV_dT + Cv_dep - Rgas.
Definition set_G_dep (H S T : R) : R := H - T * S.

(* Cp_dep stored on the object is the isobaric temperature derivative of the stored H_dep,
   Cv_dep that of U_dep at constant volume, and Cp_minus_Cv is consistent with both. *)
Theorem C47_heat_capacities :
  forall (a da d2a d3a : R -> R) (b delta eps T P : R) (Vf : R -> R),
  0 < delta * delta - 4 * eps -> smooth3 a da d2a d3a T ->
  above_poles b delta eps (Vf T) ->
  locally T (fun t => ex_derive Vf t /\ P_cubic a b delta eps t (Vf t) = P) ->
  Derive (fun v => P_cubic a b delta eps T v) (Vf T) <> 0 ->
  let o := dd a da d2a b delta eps T P (Vf T) in
  let Cv := out_Cv (main_derivatives_and_departures T P (Vf T) b delta eps (a T) (da T) (d2a T)) in
  let Cp := set_Cp_dep T (dP_dT o) (dV_dT o) Cv in
  is_derive (fun t => H_dep a da d2a b delta eps t P (Vf t)) T Cp /\
  (0 < P -> is_derive (fun t => let p := P_cubic a b delta eps t (Vf T) in eos_U_dep (H_dep a da d2a b delta eps t p (Vf T)) p (Vf T) t) T Cv) /\
  eos_Cp_minus_Cv T (dP_dT o) (dV_dP o) = Cp - Cv + Rgas.
Proof.
  intros a da d2a d3a b delta eps T P Vf HE Sm HA L Hne o Cv Cp.
  destruct HA as [HVb HV]. pose proof (above_reg _ _ _ HE HV) as HD.
  assert (Hr : regular_V b delta eps (Vf T)) by (split; [nz | nz]).
  destruct (C03_H_isobar a da d2a d3a b delta eps T P Vf HE Sm Hr L Hne) as (DH & _ & _). fold o in DH.
  rewrite (dH_dT_l_eq b) in DH by auto.
  pose proof (P_cubic_dV a b delta eps T (Vf T) Hr) as DP.
  assert (N : cPV a b delta eps T (Vf T) <> 0).
  { intro Q. apply Hne. erewrite is_derive_unique by exact DP. exact Q. }
  pose proof (locally_singleton _ _ L) as [_ EP]. cbv beta in EP.
  assert (ECv : Cv = T * d2a T * Kf delta eps (Vf T)) by (unfold Cv; apply main_Cv; auto).
  assert (Eo : dP_dT o = cPT da b delta eps T (Vf T) /\ dV_dP o = 1 / cPV a b delta eps T (Vf T) /\ dV_dT o = - cPT da b delta eps T (Vf T) * (1 / cPV a b delta eps T (Vf T))) by (unfold o; rewrite dd_eq by auto; splits; reflexivity).
  destruct Eo as (E1 & E2 & E3).
  destruct Hr as [N1 N2].
  splits.
  - eapply is_derive_eq. exact DH. unfold Cp, set_Cp_dep. rewrite E1, ECv.
    assert (P * dV_dT o = (Rgas * T / (Vf T - b) - a T / Dn delta eps (Vf T)) * dV_dT o) by (rewrite <- EP at 1; reflexivity).
    rewrite H. unfold cPT, Dn. field. splits; nz.
  - intros HP0.
    destruct (C03_HS_isochore_T a da d2a d3a b delta eps T (Vf T) HE Sm (conj N1 N2)) as (DV & _ & _).
    rewrite EP in DV. fold o in DV. rewrite (dH_dT_V_eq b) in DV by (auto; split; auto).
    destruct Sm as (Sa & _ & _). pose proof (locally_singleton _ _ Sa) as Ha. cbv beta in Ha.
    pose proof (P_cubic_dT a da b delta eps T (Vf T) (conj N1 N2) Ha) as DPT.
    set (pf := fun t => P_cubic a b delta eps t (Vf T)) in *.
    set (h := fun t => H_dep a da d2a b delta eps t (pf t) (Vf T)) in *.
    assert (Pl := ne0_along pf T (ex_intro _ _ DPT)).
    assert (P0 : pf T <> 0) by (unfold pf; rewrite EP; lra). specialize (Pl P0).
    apply is_derive_ext_loc with (fun t => h t - pf t * Vf T + Rgas * t).
    { eapply filter_imp; [|exact Pl]. intros t Ht. unfold eos_U_dep. change (h t - pf t * Vf T + Rgas * t = h t - pf t * (Vf T - t * Rgas / pf t)). field. auto. }
    auto_derive. { splits; try exd; auto. }
    dv DV. dv DPT. rewrite ECv, E1. unfold cPT, Dn. field. splits; nz.
  - unfold eos_Cp_minus_Cv, Cp, set_Cp_dep. rewrite E1, E2, E3. field. auto.
Qed.

(* U_dep, A_dep, G_dep are mutually consistent Legendre transforms; lnphi is G_dep/(RT) *)
Theorem C47_energies :
  forall h s T P V : R, T <> 0 -> P <> 0 ->
  let u := eos_U_dep h P V T in let A := eos_A_dep h P V T s in let g := set_G_dep h s T in
  A = u - T * s /\ g = A + P * V - Rgas * T /\ h = u + P * V - Rgas * T /\
  u = h - P * eos_V_dep V T P /\ set_Z P V T = P * V / (Rgas * T) /\
  exp (eos_lnphi_l g T) = eos_phi g T /\ eos_lnphi_g (eos_phi g T) = eos_lnphi_l g T /\ eos_fugacity g T P = P * eos_phi g T.
Proof.
  intros h s T P V HT HP u A g. pose proof Rgas_neq. unfold u, A, g, eos_U_dep, eos_A_dep, set_G_dep, eos_V_dep, set_Z, eos_lnphi_l, eos_lnphi_g, eos_phi, eos_fugacity. cbv zeta.
  splits; try (field; nz); auto. apply ln_exp.
Qed.
Example C47_hypotheses_met :
  locally 2 (fun t => is_derive (fun t => t ^ 3) t (3 * t ^ 2)) /\ is_derive (fun t => 3 * t ^ 2) 2 12 /\ 2 ^ 3 <> 0 /\
  above_poles 1 (-1) 0 3 /\ 0 < (-1) * (-1) - 4 * 0.
Proof.
  splits; try lra.
  - apply filter_forall. intros. auto_derive; auto. ring.
  - auto_derive; auto. ring.
  - split; [lra|]. replace (-1 * -1 - 4 * 0) with 1 by ring. rewrite sqrt_1. lra.
Qed.
