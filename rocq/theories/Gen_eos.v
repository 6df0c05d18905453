(* Pure-component cubic equations of state (thermo/eos.py)
   Generated by tools/py2v.py from the text of /repo; do not edit by hand. *)
From Coq Require Import Reals Lra Lia Arith Bool.
From Verif Require Import Base.
Open Scope R_scope.
Open Scope bool_scope.

(* thermo/eos.py, lines 306-354: main_derivatives_and_departures. math.sqrt raises on a negative argument and 1/0 raises: both go to the except branch. *)
Definition main_derivatives_and_departures (T : R) (P : R) (V : R) (b : R) (delta : R) (epsilon_ : R) (a_alpha : R) (da_alpha_dT : R) (d2a_alpha_dT2 : R) :=
  let epsilon2 := (epsilon_ + epsilon_) in
  let x0 := (1 / (V - b)) in
  let x1 := (1 / ((V * (V + delta)) + epsilon_)) in
  let x3 := (Rgas * T) in
  let x4 := (x0 * x0) in
  let x5 := ((V + V) + delta) in
  let x6 := (x1 * x1) in
  let x7 := (a_alpha * x6) in
  let x8 := (P * V) in
  let x9 := (delta * delta) in
  let x10 := ((x9 - epsilon2) - epsilon2) in
  let x11 :=
    if (Rleb x10 0) then
    let x11 := 0 in
    x11
    else
    let x11 := (1 / (sqrt x10)) in
    x11
  in
  let x11_half := ((1 / 2) * x11) in
  let hard_input := (x11 * x5) in
  let hard_term := (re_catanh hard_input) in
  let x12 := ((2 * x11) * hard_term) in
  let x14 := ((1 / 2) * x5) in
  let x15 := (epsilon2 * x11) in
  let x16 := (x11_half * x9) in
  let x17 := (x5 * x6) in
  let dP_dT := ((Rgas * x0) - (da_alpha_dT * x1)) in
  let dP_dV := ((x5 * x7) - (x3 * x4)) in
  let d2P_dT2 := ((- d2a_alpha_dT2) * x1) in
  let d2P_dV2 := ((x7 + ((x3 * x4) * x0)) - (((a_alpha * x5) * x17) * x1)) in
  let d2P_dV2 := (d2P_dV2 + d2P_dV2) in
  let d2P_dTdV := ((da_alpha_dT * x17) - (Rgas * x4)) in
  let H_dep := (((x12 * ((T * da_alpha_dT) - a_alpha)) - x3) + x8) in
  let t1 := ((x3 * x0) / P) in
  let S_dep := (((- Rgas) * (ln t1)) + (da_alpha_dT * x12)) in
  let x18 := (x16 - x15) in
  let x19 := ((x14 + x18) / (x14 - x18)) in
  let Cv_dep := (((T * d2a_alpha_dT2) * x11) * (ln x19)) in
  (dP_dT, dP_dV, d2P_dT2, d2P_dV2, d2P_dTdV, H_dep, S_dep, Cv_dep).

(* thermo/eos.py, lines 357-394: main_derivatives_and_departures_VDW. *)
Definition main_derivatives_and_departures_VDW (T : R) (P : R) (V : R) (b : R) (delta : R) (epsilon_ : R) (a_alpha : R) (da_alpha_dT : R) (d2a_alpha_dT2 : R) :=
  let V_inv := (1 / V) in
  let V_inv2 := (V_inv * V_inv) in
  let Vmb := (V - b) in
  let Vmb_inv := (1 / Vmb) in
  let dP_dT := (Rgas * Vmb_inv) in
  let dP_dV := (((((- Rgas) * T) * Vmb_inv) * Vmb_inv) + (((2 * a_alpha) * V_inv) * V_inv2)) in
  let d2P_dT2 := 0 in
  let d2P_dV2 := (2 * (((((Rgas * T) * Vmb_inv) * Vmb_inv) * Vmb_inv) - (((3 * a_alpha) * V_inv2) * V_inv2))) in
  let d2P_dTdV := (((- Rgas) * Vmb_inv) * Vmb_inv) in
  let H_dep := (((P * V) - (Rgas * T)) - (a_alpha * V_inv)) in
  let S_dep := ((Rgas * ((- (ln V)) + (ln Vmb))) + (Rgas * (ln ((P * V) / (Rgas * T))))) in
  let Cv_dep := 0 in
  (dP_dT, dP_dV, d2P_dT2, d2P_dV2, d2P_dTdV, H_dep, S_dep, Cv_dep).

(* thermo/eos.py, lines 397-446: eos_lnphi. *)
Definition eos_lnphi (T : R) (P : R) (V : R) (b : R) (delta : R) (epsilon_ : R) (a_alpha : R) :=
  let RT := (Rgas * T) in
  let RT_inv := (1 / RT) in
  let x0 := (1 / (sqrt ((delta * delta) - (4 * epsilon_)))) in
  let arg := (((2 * V) * x0) + (delta * x0)) in
  let fancy := ((1 / 4) * (ln (1 + ((4 * arg) / ((1 - arg) * (1 - arg)))))) in
  (((((P * V) * RT_inv) + (ln (RT / (P * (V - b))))) - 1) - ((((2 * a_alpha) * fancy) * RT_inv) * x0)).

(* thermo/eos.py, lines 448-450: eos_G_dep. *)
Definition eos_G_dep (T : R) (P : R) (V : R) (b : R) (delta : R) (epsilon_ : R) (a_alpha : R) :=
  let lnphi := (eos_lnphi T P V b delta epsilon_ a_alpha) in
  ((lnphi * Rgas) * T).

(* thermo/eos.py, lines 2671-2707: GCEOS.derivatives_and_departures. 1.0/dP_dV == 1/0 goes to an infinity in the code; here the theorems assume dP_dV <> 0. *)
Definition derivatives_and_departures (T : R) (P : R) (V : R) (b : R) (delta : R) (epsilon_ : R) (a_alpha : R) (da_alpha_dT : R) (d2a_alpha_dT2 : R) :=
  let '(dP_dT, dP_dV, d2P_dT2, d2P_dV2, d2P_dTdV, H_dep, S_dep, Cv_dep) := (main_derivatives_and_departures T P V b delta epsilon_ a_alpha da_alpha_dT d2a_alpha_dT2) in
  let dV_dP := (1 / dP_dV) in
  let dT_dP := (1 / dP_dT) in
  let dV_dT := ((- dP_dT) * dV_dP) in
  let dT_dV := (1 / dV_dT) in
  let dV_dP2 := (dV_dP * dV_dP) in
  let dV_dP3 := (dV_dP * dV_dP2) in
  let inverse_dP_dT2 := (dT_dP * dT_dP) in
  let inverse_dP_dT3 := (inverse_dP_dT2 * dT_dP) in
  let d2V_dP2 := ((- d2P_dV2) * dV_dP3) in
  let d2T_dP2 := ((- d2P_dT2) * inverse_dP_dT3) in
  let d2T_dV2 := (((- ((d2P_dV2 * dP_dT) - (dP_dV * d2P_dTdV))) * inverse_dP_dT2) + ((((d2P_dTdV * dP_dT) - (dP_dV * d2P_dT2)) * inverse_dP_dT3) * dP_dV)) in
  let d2V_dT2 := (((- ((d2P_dT2 * dP_dV) - (dP_dT * d2P_dTdV))) * dV_dP2) + ((((d2P_dTdV * dP_dV) - (dP_dT * d2P_dV2)) * dV_dP3) * dP_dT)) in
  let d2V_dPdT := ((- ((d2P_dTdV * dP_dV) - (dP_dT * d2P_dV2))) * dV_dP3) in
  let d2T_dPdV := ((- ((d2P_dTdV * dP_dT) - (dP_dV * d2P_dT2))) * inverse_dP_dT3) in
  (dP_dT, dP_dV, dV_dT, dV_dP, dT_dV, dT_dP, d2P_dT2, d2P_dV2, d2V_dT2, d2V_dP2, d2T_dV2, d2T_dP2, d2V_dPdT, d2P_dTdV, d2T_dPdV, H_dep, S_dep, Cv_dep).

(* thermo/eos.py, lines 889-891: GCEOS.Jaubert_r1. *)
Definition eos_Jaubert_r1 (delta : R) (epsilon_ : R) (b : R) :=
  ((- ((delta / 2) - ((sqrt ((delta ^ 2) - (4 * epsilon_))) / 2))) / b).

(* thermo/eos.py, lines 893-895: GCEOS.Jaubert_r2. *)
Definition eos_Jaubert_r2 (delta : R) (epsilon_ : R) (b : R) :=
  ((- ((delta / 2) + ((sqrt ((delta ^ 2) - (4 * epsilon_))) / 2))) / b).

(* thermo/eos.py, lines 4618-4628: GCEOS.fugacity_l. fugacity_g (lines 4631-4641) has the same text up to the phase suffix. *)
Definition eos_fugacity (G_dep : R) (T : R) (P : R) :=
  let arg := ((G_dep * (1 / Rgas)) / T) in
  (P * (exp arg)).

(* thermo/eos.py, lines 4644-4654: GCEOS.phi_l. phi_g (lines 4657-4667) has the same text up to the phase suffix. *)
Definition eos_phi (G_dep : R) (T : R) :=
  let arg := ((G_dep * (1 / Rgas)) / T) in
  (exp arg).

(* thermo/eos.py, lines 4670-4677: GCEOS.Cp_minus_Cv_l. Cp_minus_Cv_g (lines 4680-4687) has the same text up to the phase suffix. *)
Definition eos_Cp_minus_Cv (T : R) (dP_dT : R) (dV_dP : R) :=
  ((((- T) * dP_dT) * dP_dT) * dV_dP).

(* thermo/eos.py, lines 4690-4697: GCEOS.beta_l. beta_g (lines 4700-4707) has the same text up to the phase suffix. *)
Definition eos_beta (dV_dT : R) (V : R) :=
  (dV_dT / V).

(* thermo/eos.py, lines 4710-4717: GCEOS.kappa_l. kappa_g (lines 4720-4727) has the same text up to the phase suffix. *)
Definition eos_kappa (dV_dP : R) (V : R) :=
  ((- dV_dP) / V).

(* thermo/eos.py, lines 4730-4737: GCEOS.V_dep_l. V_dep_g (lines 4740-4747) has the same text up to the phase suffix. *)
Definition eos_V_dep (V : R) (T : R) (P : R) :=
  (V - ((T * Rgas) / P)).

(* thermo/eos.py, lines 4750-4757: GCEOS.U_dep_l. U_dep_g (lines 4760-4767) has the same text up to the phase suffix. *)
Definition eos_U_dep (H_dep : R) (P : R) (V : R) (T : R) :=
  (H_dep - (P * (V - ((T * Rgas) / P)))).

(* thermo/eos.py, lines 4770-4777: GCEOS.A_dep_l. A_dep_g (lines 4780-4787) has the same text up to the phase suffix. *)
Definition eos_A_dep (H_dep : R) (P : R) (V : R) (T : R) (S_dep : R) :=
  ((H_dep - (P * (V - ((T * Rgas) / P)))) - (T * S_dep)).

(* thermo/eos.py, lines 4790-4807: GCEOS.d2T_dPdV_l. d2T_dPdV_g (lines 4810-4827) has the same text up to the phase suffix. *)
Definition eos_d2T_dPdV (dT_dP : R) (d2P_dTdV : R) (dP_dT : R) (dP_dV : R) (d2P_dT2 : R) :=
  let inverse_dP_dT2 := (dT_dP * dT_dP) in
  let inverse_dP_dT3 := (inverse_dP_dT2 * dT_dP) in
  let d2T_dPdV := ((- ((d2P_dTdV * dP_dT) - (dP_dV * d2P_dT2))) * inverse_dP_dT3) in
  d2T_dPdV.

(* thermo/eos.py, lines 4830-4844: GCEOS.d2V_dPdT_l. d2V_dPdT_g (lines 4847-4861) has the same text up to the phase suffix. *)
Definition eos_d2V_dPdT (dV_dP : R) (d2P_dTdV : R) (dP_dV : R) (dP_dT : R) (d2P_dV2 : R) :=
  let dV_dP := dV_dP in
  ((((- ((d2P_dTdV * dP_dV) - (dP_dT * d2P_dV2))) * dV_dP) * dV_dP) * dV_dP).

(* thermo/eos.py, lines 4864-4875: GCEOS.d2T_dP2_l. d2T_dP2_g (lines 4878-4889) has the same text up to the phase suffix. *)
Definition eos_d2T_dP2 (dT_dP : R) (d2P_dT2 : R) :=
  let dT_dP := dT_dP in
  ((((- d2P_dT2) * dT_dP) * dT_dP) * dT_dP).

(* thermo/eos.py, lines 4892-4903: GCEOS.d2V_dP2_l. d2V_dP2_g (lines 4906-4917) has the same text up to the phase suffix. *)
Definition eos_d2V_dP2 (dV_dP : R) (d2P_dV2 : R) :=
  let dV_dP := dV_dP in
  ((((- d2P_dV2) * dV_dP) * dV_dP) * dV_dP).

(* thermo/eos.py, lines 4920-4943: GCEOS.d2T_dV2_l. d2T_dV2_g (lines 4946-4969) has the same text up to the phase suffix. *)
Definition eos_d2T_dV2 (dT_dP : R) (d2P_dV2 : R) (dP_dT : R) (dP_dV : R) (d2P_dTdV : R) (d2P_dT2 : R) :=
  let dT_dP := dT_dP in
  let dT_dP2 := (dT_dP * dT_dP) in
  let d2T_dV2 := (dT_dP2 * ((- ((d2P_dV2 * dP_dT) - (dP_dV * d2P_dTdV))) + ((((d2P_dTdV * dP_dT) - (dP_dV * d2P_dT2)) * dT_dP) * dP_dV))) in
  d2T_dV2.

(* thermo/eos.py, lines 4973-4998: GCEOS.d2V_dT2_l. d2V_dT2_g (lines 5002-5027) has the same text up to the phase suffix. *)
Definition eos_d2V_dT2 (dV_dP : R) (dP_dV : R) (d2P_dTdV : R) (dP_dT : R) (d2P_dT2 : R) (d2P_dV2 : R) :=
  let dV_dP := dV_dP in
  let dP_dV := dP_dV in
  let d2P_dTdV := d2P_dTdV in
  let dP_dT := dP_dT in
  let d2V_dT2 := ((dV_dP * dV_dP) * ((- ((d2P_dT2 * dP_dV) - (dP_dT * d2P_dTdV))) + ((((d2P_dTdV * dP_dV) - (dP_dT * d2P_dV2)) * dV_dP) * dP_dT))) in
  d2V_dT2.

(* thermo/eos.py, lines 5030-5037: GCEOS.Vc. *)
Definition eos_Vc (Zc : R) (Tc : R) (Pc : R) :=
  (((Zc * Rgas) * Tc) / Pc).

(* thermo/eos.py, lines 5040-5047: GCEOS.rho_l. rho_g (lines 5050-5057) has the same text up to the phase suffix. *)
Definition eos_rho (V : R) :=
  (1 / V).

(* thermo/eos.py, lines 5061-5072: GCEOS.dZ_dT_l. dZ_dT_g (lines 5075-5086) has the same text up to the phase suffix. *)
Definition eos_dZ_dT (T : R) (P : R) (dV_dT : R) (V : R) :=
  let T_inv := (1 / T) in
  (((P * (1 / Rgas)) * T_inv) * (dV_dT - (V * T_inv))).

(* thermo/eos.py, lines 5089-5099: GCEOS.dZ_dP_l. dZ_dP_g (lines 5102-5112) has the same text up to the phase suffix. *)
Definition eos_dZ_dP (V : R) (P : R) (dV_dP : R) (T : R) :=
  ((V + (P * dV_dP)) / (T * Rgas)).

(* thermo/eos.py, lines 5120-5122: GCEOS.d2P_dVdT_l. d2P_dVdT_g (lines 5125-5127) has the same text up to the phase suffix. *)
Definition eos_d2P_dVdT (d2P_dTdV : R) :=
  d2P_dTdV.

(* thermo/eos.py, lines 5130-5137: GCEOS.dP_drho_l. dP_drho_g (lines 5140-5147) has the same text up to the phase suffix. *)
Definition eos_dP_drho (V : R) (dP_dV : R) :=
  (((- V) * V) * dP_dV).

(* thermo/eos.py, lines 5150-5157: GCEOS.drho_dP_l. drho_dP_g (lines 5160-5167) has the same text up to the phase suffix. *)
Definition eos_drho_dP (dV_dP : R) (V : R) :=
  ((- dV_dP) / (V * V)).

(* thermo/eos.py, lines 5170-5179: GCEOS.d2P_drho2_l. d2P_drho2_g (lines 5182-5191) has the same text up to the phase suffix. *)
Definition eos_d2P_drho2 (V : R) (d2P_dV2 : R) (dP_dV : R) :=
  ((- (V ^ 2)) * (((- (V ^ 2)) * d2P_dV2) - ((2 * V) * dP_dV))).

(* thermo/eos.py, lines 5194-5203: GCEOS.d2rho_dP2_l. d2rho_dP2_g (lines 5206-5215) has the same text up to the phase suffix. *)
Definition eos_d2rho_dP2 (d2V_dP2 : R) (V : R) (dV_dP : R) :=
  (((- d2V_dP2) / (V ^ 2)) + ((2 * (dV_dP ^ 2)) / (V ^ 3))).

(* thermo/eos.py, lines 5219-5226: GCEOS.dT_drho_l. dT_drho_g (lines 5229-5236) has the same text up to the phase suffix. *)
Definition eos_dT_drho (V : R) (dT_dV : R) :=
  (((- V) * V) * dT_dV).

(* thermo/eos.py, lines 5239-5247: GCEOS.d2T_drho2_l. d2T_drho2_g (lines 5250-5258) has the same text up to the phase suffix. *)
Definition eos_d2T_drho2 (V : R) (d2T_dV2 : R) (dT_dV : R) :=
  ((- (V ^ 2)) * (((- (V ^ 2)) * d2T_dV2) - ((2 * V) * dT_dV))).

(* thermo/eos.py, lines 5262-5270: GCEOS.drho_dT_l. drho_dT_g (lines 5273-5281) has the same text up to the phase suffix. *)
Definition eos_drho_dT (dV_dT : R) (V : R) :=
  ((- dV_dT) / (V * V)).

(* thermo/eos.py, lines 5284-5293: GCEOS.d2rho_dT2_l. d2rho_dT2_g (lines 5296-5305) has the same text up to the phase suffix. *)
Definition eos_d2rho_dT2 (d2V_dT2 : R) (V : R) (dV_dT : R) :=
  (((- d2V_dT2) / (V ^ 2)) + ((2 * (dV_dT ^ 2)) / (V ^ 3))).

(* thermo/eos.py, lines 5308-5316: GCEOS.d2P_dTdrho_l. d2P_dTdrho_g (lines 5319-5327) has the same text up to the phase suffix. *)
Definition eos_d2P_dTdrho (V : R) (d2P_dTdV : R) :=
  ((- (V * V)) * d2P_dTdV).

(* thermo/eos.py, lines 5330-5338: GCEOS.d2T_dPdrho_l. d2T_dPdrho_g (lines 5341-5349) has the same text up to the phase suffix. *)
Definition eos_d2T_dPdrho (V : R) (d2T_dPdV : R) :=
  ((- (V * V)) * d2T_dPdV).

(* thermo/eos.py, lines 5352-5363: GCEOS.d2rho_dPdT_l. d2rho_dPdT_g (lines 5366-5377) has the same text up to the phase suffix. *)
Definition eos_d2rho_dPdT (d2V_dPdT : R) (V : R) (dV_dT : R) (dV_dP : R) :=
  (((- d2V_dPdT) / (V ^ 2)) + (((2 * dV_dT) * dV_dP) / (V ^ 3))).

(* thermo/eos.py, lines 5380-5407: GCEOS.dH_dep_dT_l. *)
Definition eos_dH_dep_dT_l (V : R) (dV_dT : R) (a_alpha : R) (delta : R) (epsilon_ : R) (P : R) (T : R) (d2a_alpha_dT2 : R) (da_alpha_dT : R) :=
  let x0 := V in
  let x1 := dV_dT in
  let x2 := a_alpha in
  let x3 := ((delta * delta) - (4 * epsilon_)) in
  let x3 :=
    if (Reqb x3 0) then
    let x3 := (1 / 10000000000000000000000000000000000000000000000000000000000000000000000000000000000000000000000000000) in
    x3
    else
    x3
  in
  let x4 := (/ (sqrt x3)) in
  let x5 := ((delta + x0) + x0) in
  let x6 := (1 / x3) in
  ((((P * x1) - Rgas) + ((((2 * T) * x4) * (re_catanh (x4 * x5))) * d2a_alpha_dT2)) - ((((4 * x1) * x6) * ((T * da_alpha_dT) - x2)) / (((x5 * x5) * x6) - 1))).

(* thermo/eos.py, lines 5410-5439: GCEOS.dH_dep_dT_g. *)
Definition eos_dH_dep_dT_g (V : R) (dV_dT : R) (a_alpha : R) (delta : R) (epsilon_ : R) (P : R) (T : R) (d2a_alpha_dT2 : R) (da_alpha_dT : R) (H_dep : R) :=
  let x0 := V in
  let x1 := dV_dT in
  if (Rltb 100000000000000000000000000000000000000000000000000 x0) then
    if ((Reqb H_dep 0)) then
      0
    else
      let x2 := a_alpha in
      let x3 := ((delta * delta) - (4 * epsilon_)) in
      let x3 :=
        if (Reqb x3 0) then
        let x3 := (1 / 10000000000000000000000000000000000000000000000000000000000000000000000000000000000000000000000000000) in
        x3
        else
        x3
      in
      let x4 := (/ (sqrt x3)) in
      let x5 := ((delta + x0) + x0) in
      let x6 := (1 / x3) in
      ((((P * x1) - Rgas) + ((((2 * T) * x4) * (re_catanh (x4 * x5))) * d2a_alpha_dT2)) - ((((4 * x1) * x6) * ((T * da_alpha_dT) - x2)) / (((x5 * x5) * x6) - 1)))
  else
    let x2 := a_alpha in
    let x3 := ((delta * delta) - (4 * epsilon_)) in
    let x3 :=
      if (Reqb x3 0) then
      let x3 := (1 / 10000000000000000000000000000000000000000000000000000000000000000000000000000000000000000000000000000) in
      x3
      else
      x3
    in
    let x4 := (/ (sqrt x3)) in
    let x5 := ((delta + x0) + x0) in
    let x6 := (1 / x3) in
    ((((P * x1) - Rgas) + ((((2 * T) * x4) * (re_catanh (x4 * x5))) * d2a_alpha_dT2)) - ((((4 * x1) * x6) * ((T * da_alpha_dT) - x2)) / (((x5 * x5) * x6) - 1))).

(* thermo/eos.py, lines 5442-5462: GCEOS.dH_dep_dT_l_V. dH_dep_dT_g_V (lines 5465-5485) has the same text up to the phase suffix. *)
Definition eos_dH_dep_dT_V (T : R) (delta : R) (epsilon_ : R) (V : R) (dP_dT : R) (d2a_alpha_dT2 : R) :=
  let T := T in
  let delta := delta in
  let epsilon_ := epsilon_ in
  let V := V in
  let dP_dT := dP_dT in
  let x0 :=
    if (Reqb (delta * delta - 4 * epsilon_) 0) then
    let x0 := 10000000000000000000000000000000000000000000000000000000000000000000000000000000000000000000000000000 in
    x0
    else
    let x0 := (/ (sqrt ((delta * delta) - (4 * epsilon_)))) in
    x0
  in
  (((- Rgas) + ((((2 * T) * x0) * (re_catanh (x0 * ((V + V) + delta)))) * d2a_alpha_dT2)) + (V * dP_dT)).

(* thermo/eos.py, lines 5488-5506: GCEOS.dH_dep_dP_l. dH_dep_dP_g (lines 5509-5530) has the same text up to the phase suffix. *)
Definition eos_dH_dep_dP (delta : R) (V : R) (epsilon_ : R) (dV_dP : R) (P : R) (T : R) (da_alpha_dT : R) (a_alpha : R) :=
  let delta := delta in
  let x0 := V in
  let x2 := ((delta * delta) - (4 * epsilon_)) in
  let x4 := ((delta + x0) + x0) in
  (x0 + (dV_dP * (P - ((4 * ((T * da_alpha_dT) - a_alpha)) / ((x4 * x4) - x2))))).

(* thermo/eos.py, lines 5533-5562: GCEOS.dH_dep_dP_l_V. dH_dep_dP_g_V (lines 5565-5594) has the same text up to the phase suffix. *)
Definition eos_dH_dep_dP_V (T : R) (V : R) (delta : R) (epsilon_ : R) (da_alpha_dT : R) (d2a_alpha_dT2 : R) (dT_dP : R) :=
  let T := T in
  let V := V in
  let delta := delta in
  let epsilon_ := epsilon_ in
  let da_alpha_dT := da_alpha_dT in
  let d2a_alpha_dT2 := d2a_alpha_dT2 in
  let dT_dP := dT_dP in
  let d2a_alpha_dTdP_V := (d2a_alpha_dT2 * dT_dP) in
  let da_alpha_dP_V := (da_alpha_dT * dT_dP) in
  let x0 :=
    if (Reqb (delta * delta - 4 * epsilon_) 0) then
    let x0 := 10000000000000000000000000000000000000000000000000000000000000000000000000000000000000000000000000000 in
    x0
    else
    let x0 := (/ (sqrt ((delta * delta) - (4 * epsilon_)))) in
    x0
  in
  ((((- Rgas) * dT_dP) + V) + (((2 * x0) * (((T * d2a_alpha_dTdP_V) + (dT_dP * da_alpha_dT)) - da_alpha_dP_V)) * (re_catanh (x0 * ((V + V) + delta))))).

(* thermo/eos.py, lines 5597-5606: GCEOS.dH_dep_dV_g_T. dH_dep_dV_l_T (lines 5609-5618) has the same text up to the phase suffix. *)
Definition eos_dH_dep_dV_T (dH_dep_dP : R) (dP_dV : R) :=
  (dH_dep_dP * dP_dV).

(* thermo/eos.py, lines 5621-5630: GCEOS.dH_dep_dV_g_P. dH_dep_dV_l_P (lines 5633-5642) has the same text up to the phase suffix. *)
Definition eos_dH_dep_dV_P (dH_dep_dT : R) (dT_dV : R) :=
  (dH_dep_dT * dT_dV).

(* thermo/eos.py, lines 5645-5677: GCEOS.dS_dep_dT_l. *)
Definition eos_dS_dep_dT_l (V : R) (dV_dT : R) (a_alpha : R) (delta : R) (epsilon_ : R) (T : R) (da_alpha_dT : R) (b : R) (d2a_alpha_dT2 : R) :=
  let x0 := V in
  let x1 := (1 / x0) in
  let x2 := dV_dT in
  let x3 := (Rgas * x2) in
  let x4 := a_alpha in
  let x5 := ((delta * delta) - (4 * epsilon_)) in
  let x5 :=
    if (Reqb x5 0) then
    let x5 := (1 / 10000000000000000000000000000000000000000000000000000000000000000000000000000000000000000000000000000) in
    x5
    else
    x5
  in
  let x6 := (/ (sqrt x5)) in
  let x7 := (delta + (2 * x0)) in
  let x8 := (1 / x5) in
  ((((((Rgas * x1) * (x2 - (x0 / T))) - (x1 * x3)) - ((((4 * x2) * x8) * da_alpha_dT) / (((x7 * x7) * x8) - 1))) - (x3 / (b - x0))) + (((2 * x6) * (re_catanh (x6 * x7))) * d2a_alpha_dT2)).

(* thermo/eos.py, lines 5680-5718: GCEOS.dS_dep_dT_g. *)
Definition eos_dS_dep_dT_g (V : R) (dV_dT : R) (a_alpha : R) (delta : R) (epsilon_ : R) (T : R) (da_alpha_dT : R) (b : R) (d2a_alpha_dT2 : R) (S_dep : R) :=
  let x0 := V in
  if (Rltb 100000000000000000000000000000000000000000000000000 x0) then
    if (Reqb S_dep 0) then
      0
    else
      let x1 := (1 / x0) in
      let x2 := dV_dT in
      let x3 := (Rgas * x2) in
      let x4 := a_alpha in
      let x5 := ((delta * delta) - (4 * epsilon_)) in
      let x5 :=
        if (Reqb x5 0) then
        let x5 := (1 / 10000000000000000000000000000000000000000000000000000000000000000000000000000000000000000000000000000) in
        x5
        else
        x5
      in
      let x6 := (/ (sqrt x5)) in
      let x7 := (delta + (2 * x0)) in
      let x8 := (1 / x5) in
      ((((((Rgas * x1) * (x2 - (x0 / T))) - (x1 * x3)) - ((((4 * x2) * x8) * da_alpha_dT) / (((x7 * x7) * x8) - 1))) - (x3 / (b - x0))) + (((2 * x6) * (re_catanh (x6 * x7))) * d2a_alpha_dT2))
  else
    let x1 := (1 / x0) in
    let x2 := dV_dT in
    let x3 := (Rgas * x2) in
    let x4 := a_alpha in
    let x5 := ((delta * delta) - (4 * epsilon_)) in
    let x5 :=
      if (Reqb x5 0) then
      let x5 := (1 / 10000000000000000000000000000000000000000000000000000000000000000000000000000000000000000000000000000) in
      x5
      else
      x5
    in
    let x6 := (/ (sqrt x5)) in
    let x7 := (delta + (2 * x0)) in
    let x8 := (1 / x5) in
    ((((((Rgas * x1) * (x2 - (x0 / T))) - (x1 * x3)) - ((((4 * x2) * x8) * da_alpha_dT) / (((x7 * x7) * x8) - 1))) - (x3 / (b - x0))) + (((2 * x6) * (re_catanh (x6 * x7))) * d2a_alpha_dT2)).

(* thermo/eos.py, lines 5721-5742: GCEOS.dS_dep_dT_l_V. dS_dep_dT_g_V (lines 5745-5766) has the same text up to the phase suffix. *)
Definition eos_dS_dep_dT_V (T : R) (P : R) (delta : R) (epsilon_ : R) (V : R) (dP_dT : R) (d2a_alpha_dT2 : R) :=
  let T := T in
  let P := P in
  let delta := delta in
  let epsilon_ := epsilon_ in
  let V := V in
  let dP_dT := dP_dT in
  let x1 :=
    if (Reqb (delta * delta - 4 * epsilon_) 0) then
    let x1 := 10000000000000000000000000000000000000000000000000000000000000000000000000000000000000000000000000000 in
    x1
    else
    let x1 := (/ (sqrt ((delta * delta) - (4 * epsilon_)))) in
    x1
  in
  ((Rgas * ((dP_dT / P) - (1 / T))) + (((2 * x1) * (re_catanh (x1 * ((V + V) + delta)))) * d2a_alpha_dT2)).

(* thermo/eos.py, lines 5769-5793: GCEOS.dS_dep_dP_l. *)
Definition eos_dS_dep_dP_l (V : R) (dV_dP : R) (delta : R) (epsilon_ : R) (da_alpha_dT : R) (b : R) (P : R) :=
  let x0 := V in
  let x1 := (1 / x0) in
  let x2 := dV_dP in
  let x3 := (Rgas * x2) in
  let x4 :=
    if (Reqb (delta * delta - 4 * epsilon_) 0) then
    let x4 := 100000000000000000000000000000000000000000000000000 in
    x4
    else
    let x4 := (1 / ((delta * delta) - (4 * epsilon_))) in
    x4
  in
  (((((- x1) * x3) - ((((4 * x2) * x4) * da_alpha_dT) / ((x4 * ((delta + (2 * x0)) ^ 2)) - 1))) - (x3 / (b - x0))) + (((Rgas * x1) * ((P * x2) + x0)) / P)).

(* thermo/eos.py, lines 5796-5821: GCEOS.dS_dep_dP_g. *)
Definition eos_dS_dep_dP_g (V : R) (dV_dP : R) (delta : R) (epsilon_ : R) (da_alpha_dT : R) (b : R) (P : R) :=
  let x0 := V in
  let x1 := (1 / x0) in
  let x2 := dV_dP in
  let x3 := (Rgas * x2) in
  let x4 :=
    if (Reqb (delta * delta - 4 * epsilon_) 0) then
    let x4 := 100000000000000000000000000000000000000000000000000000000000000000000000000000000000000000000000000000000000000000000000000000000000000000000000000000000000000000000000000000000000000000000000000000000 in
    x4
    else
    let x4 := (1 / ((delta * delta) - (4 * epsilon_))) in
    x4
  in
  let ans := (((((- x1) * x3) - ((((4 * x2) * x4) * da_alpha_dT) / ((x4 * ((delta + (2 * x0)) ^ 2)) - 1))) - (x3 / (b - x0))) + (((Rgas * x1) * ((P * x2) + x0)) / P)) in
  ans.

(* thermo/eos.py, lines 5824-5847: GCEOS.dS_dep_dP_g_V. dS_dep_dP_l_V (lines 5850-5873) has the same text up to the phase suffix. *)
Definition eos_dS_dep_dP_V (T : R) (P : R) (delta : R) (epsilon_ : R) (d2a_alpha_dT2 : R) (V : R) (dT_dP : R) :=
  let T := T in
  let P := P in
  let delta := delta in
  let epsilon_ := epsilon_ in
  let d2a_alpha_dT2 := d2a_alpha_dT2 in
  let V := V in
  let dT_dP := dT_dP in
  let d2a_alpha_dTdP_V := (d2a_alpha_dT2 * dT_dP) in
  let x0 :=
    if (Reqb (delta * delta - 4 * epsilon_) 0) then
    let x0 := 10000000000000000000000000000000000000000000000000000000000000000000000000000000000000000000000000000 in
    x0
    else
    let x0 := (/ (sqrt ((delta * delta) - (4 * epsilon_)))) in
    x0
  in
  ((((2 * x0) * (re_catanh (x0 * ((V + V) + delta)))) * d2a_alpha_dTdP_V) - ((Rgas * (((P * dT_dP) / T) - 1)) / P)).

(* thermo/eos.py, lines 5876-5885: GCEOS.dS_dep_dV_g_T. dS_dep_dV_l_T (lines 5888-5897) has the same text up to the phase suffix. *)
Definition eos_dS_dep_dV_T (dS_dep_dP : R) (dP_dV : R) :=
  (dS_dep_dP * dP_dV).

(* thermo/eos.py, lines 5900-5909: GCEOS.dS_dep_dV_g_P. dS_dep_dV_l_P (lines 5912-5921) has the same text up to the phase suffix. *)
Definition eos_dS_dep_dV_P (dS_dep_dT : R) (dT_dV : R) :=
  (dS_dep_dT * dT_dV).

(* thermo/eos.py, lines 5924-5972: GCEOS.d2H_dep_dT2_g. d2H_dep_dT2_l (lines 5977-6025) has the same text up to the phase suffix. *)
Definition eos_d2H_dep_dT2 (T : R) (P : R) (delta : R) (epsilon_ : R) (V : R) (d2V_dT2 : R) (a_alpha : R) (d2a_alpha_dT2 : R) (dV_dT : R) (da_alpha_dT : R) (d3a_alpha_dT3 : R) :=
  let T := T in
  let P := P in
  let delta := delta in
  let epsilon_ := epsilon_ in
  let x0 := V in
  let x1 := d2V_dT2 in
  let x2 := a_alpha in
  let x3 := d2a_alpha_dT2 in
  let x4 := ((delta * delta) - (4 * epsilon_)) in
  let x5 :=
    if (Reqb x4 0) then
    let x5 := 10000000000000000000000000000000000000000000000000000000000000000000000000000000000000000000000000000 in
    x5
    else
    let x5 := (/ (sqrt x4)) in
    x5
  in
  let x6 := ((delta + x0) + x0) in
  let x7 := ((2 * x5) * (re_catanh (x5 * x6))) in
  let x8 := dV_dT in
  let x9 := (x5 * x5) in
  let x10 := (((x6 * x6) * x9) - 1) in
  let x11 := (x9 / x10) in
  let x12 := ((T * da_alpha_dT) - x2) in
  let x50 := d3a_alpha_dT3 in
  ((((((P * x1) + (x3 * x7)) + ((T * x7) * x50)) - (((4 * x1) * x11) * x12)) - ((((8 * T) * x11) * x3) * x8)) + ((((((16 * x12) * x6) * x8) * x8) * x11) * x11)).

(* thermo/eos.py, lines 6030-6098: GCEOS.d2S_dep_dT2_g. d2S_dep_dT2_l (lines 6101-6169) has the same text up to the phase suffix. *)
Definition eos_d2S_dep_dT2 (T : R) (P : R) (b : R) (delta : R) (epsilon_ : R) (V : R) (d2V_dT2 : R) (dV_dT : R) (a_alpha : R) (da_alpha_dT : R) (d2a_alpha_dT2 : R) (d3a_alpha_dT3 : R) :=
  let T := T in
  let P := P in
  let b := b in
  let delta := delta in
  let epsilon_ := epsilon_ in
  let x0 := V in
  let V := x0 in
  let V_inv := (1 / V) in
  let x1 := d2V_dT2 in
  let x2 := (Rgas * V_inv) in
  let x3 := (V_inv * V_inv) in
  let x4 := dV_dT in
  let x5 := (x4 * x4) in
  let x6 := (Rgas * x5) in
  let x7 := (b - x0) in
  let x8 := (1 / T) in
  let x9 := (((- x0) * x8) + x4) in
  let x10 := (x0 + x0) in
  let x11 := a_alpha in
  let x12 := ((delta * delta) - (4 * epsilon_)) in
  let x13 :=
    if (Reqb x12 0) then
    let x13 := 10000000000000000000000000000000000000000000000000000000000000000000000000000000000000000000000000000 in
    x13
    else
    let x13 := (/ (sqrt x12)) in
    x13
  in
  let x14 := (delta + x10) in
  let x15 := (x13 * x13) in
  let x16 := (((x14 * x14) * x15) - 1) in
  let x51 := (1 / x16) in
  let x17 := (x15 * x51) in
  let x18 := da_alpha_dT in
  let x50 := (1 / x7) in
  let d2a_alpha_dT2 := d2a_alpha_dT2 in
  let d3a_alpha_dT3 := d3a_alpha_dT3 in
  (((((((((((((- Rgas) * x1) * x50) - (((Rgas * x3) * x4) * x9)) - (((4 * x1) * x17) * x18)) - (x1 * x2)) + (((2 * x13) * (re_catanh (x13 * x14))) * d3a_alpha_dT3)) - (((8 * x17) * x4) * d2a_alpha_dT2)) + ((x2 * x8) * x9)) + (x2 * ((x1 - ((2 * x4) * x8)) + ((x10 * x8) * x8)))) + (x3 * x6)) - ((x6 * x50) * x50)) + (((((((16 * x14) * x18) * x5) * x51) * x51) * x15) * x15)).

(* thermo/eos.py, lines 6172-6197: GCEOS.d2H_dep_dT2_g_V. d2H_dep_dT2_l_V (lines 6200-6225) has the same text up to the phase suffix. *)
Definition eos_d2H_dep_dT2_V (V : R) (T : R) (delta : R) (epsilon_ : R) (d2a_alpha_dT2 : R) (d3a_alpha_dT3 : R) (d2P_dT2 : R) :=
  let V := V in
  let T := T in
  let delta := delta in
  let epsilon_ := epsilon_ in
  let x51 := ((delta * delta) - (4 * epsilon_)) in
  let d2a_alpha_dT2 := d2a_alpha_dT2 in
  let d3a_alpha_dT3 := d3a_alpha_dT3 in
  let d2P_dT2 := d2P_dT2 in
  let x1 :=
    if (Reqb x51 0) then
    let x1 := 10000000000000000000000000000000000000000000000000000000000000000000000000000000000000000000000000000 in
    x1
    else
    let x1 := (/ (sqrt x51)) in
    x1
  in
  let x2 := ((2 * x1) * (re_catanh (x1 * ((V + V) + delta)))) in
  ((((T * x2) * d3a_alpha_dT3) + (V * d2P_dT2)) + (x2 * d2a_alpha_dT2)).

(* thermo/eos.py, lines 6228-6264: GCEOS.d2S_dep_dT2_g_V. d2S_dep_dT2_l_V (lines 6267-6302) has the same text up to the phase suffix. *)
Definition eos_d2S_dep_dT2_V (V : R) (T : R) (delta : R) (epsilon_ : R) (d2a_alpha_dT2 : R) (d3a_alpha_dT3 : R) (d2P_dT2 : R) (P : R) (dP_dT : R) :=
  let V := V in
  let T := T in
  let delta := delta in
  let epsilon_ := epsilon_ in
  let d2a_alpha_dT2 := d2a_alpha_dT2 in
  let d3a_alpha_dT3 := d3a_alpha_dT3 in
  let d2P_dT2 := d2P_dT2 in
  let x0 := (1 / T) in
  let x1 := P in
  let P_inv := (1 / x1) in
  let x2 := dP_dT in
  let x3 := (((- x0) * x1) + x2) in
  let x4 := (Rgas * P_inv) in
  let x5 :=
    if (Reqb (delta * delta - 4 * epsilon_) 0) then
    let x5 := 10000000000000000000000000000000000000000000000000000000000000000000000000000000000000000000000000000 in
    x5
    else
    let x5 := (/ (sqrt ((delta * delta) - (4 * epsilon_)))) in
    x5
  in
  ((((((((- Rgas) * x2) * x3) * P_inv) * P_inv) + ((x0 * x3) * x4)) + (x4 * ((d2P_dT2 - ((2 * x0) * x2)) + (((2 * x1) * x0) * x0)))) + (((2 * x5) * (re_catanh (x5 * ((V + V) + delta)))) * d3a_alpha_dT3)).

(* thermo/eos.py, lines 6305-6349: GCEOS.d2H_dep_dTdP_g. d2H_dep_dTdP_l (lines 6352-6396) has the same text up to the phase suffix. *)
Definition eos_d2H_dep_dTdP (V : R) (T : R) (P : R) (delta : R) (epsilon_ : R) (dV_dT : R) (d2V_dTdP : R) (dV_dP : R) (a_alpha : R) (d2a_alpha_dT2 : R) (da_alpha_dT : R) :=
  let V := V in
  let T := T in
  let P := P in
  let delta := delta in
  let epsilon_ := epsilon_ in
  let dV_dT := dV_dT in
  let d2V_dTdP := d2V_dTdP in
  let dV_dP := dV_dP in
  let a_alpha := a_alpha in
  let d2a_alpha_dT2 := d2a_alpha_dT2 in
  let x5 := ((delta * delta) - (4 * epsilon_)) in
  let x6 :=
    if (Reqb x5 0) then
    let x6 := 10000000000000000000000000000000000000000000000000000000000000000000000000000000000000000000000000000 in
    x6
    else
    let x6 := (1 / x5) in
    x6
  in
  let x7 := ((delta + V) + V) in
  let x8 := (((x6 * x7) * x7) - 1) in
  let x8_inv := (1 / x8) in
  let x9 := ((4 * x6) * x8_inv) in
  let x10 := ((T * da_alpha_dT) - a_alpha) in
  (((((P * d2V_dTdP) - (((T * dV_dP) * x9) * d2a_alpha_dT2)) + ((((((((16 * dV_dT) * x10) * dV_dP) * x7) * x6) * x6) * x8_inv) * x8_inv)) + dV_dT) - ((x10 * d2V_dTdP) * x9)).

(* thermo/eos.py, lines 6399-6472: GCEOS.d2S_dep_dTdP_g. d2S_dep_dTdP_l (lines 6475-6548) has the same text up to the phase suffix. *)
Definition eos_d2S_dep_dTdP (V : R) (T : R) (P : R) (b : R) (delta : R) (epsilon_ : R) (dV_dT : R) (d2V_dTdP : R) (dV_dP : R) (a_alpha : R) (da_alpha_dT : R) (d2a_alpha_dT2 : R) :=
  let V := V in
  let T := T in
  let P := P in
  let b := b in
  let delta := delta in
  let epsilon_ := epsilon_ in
  let dV_dT := dV_dT in
  let d2V_dTdP := d2V_dTdP in
  let dV_dP := dV_dP in
  let x0 := V in
  let V_inv := (1 / V) in
  let x2 := d2V_dTdP in
  let x3 := (Rgas * x2) in
  let x4 := dV_dT in
  let x5 := ((x4 * V_inv) * V_inv) in
  let x6 := dV_dP in
  let x7 := (Rgas * x6) in
  let x8 := (b - V) in
  let x8_inv := (1 / x8) in
  let x9 := (1 / T) in
  let x10 := (P * x6) in
  let x11 := (V + x10) in
  let x12 := (Rgas / P) in
  let x13 := (V_inv * x12) in
  let x14 := a_alpha in
  let x15 := ((delta * delta) - (4 * epsilon_)) in
  let x16 :=
    if (Reqb x15 0) then
    let x16 := 10000000000000000000000000000000000000000000000000000000000000000000000000000000000000000000000000000 in
    x16
    else
    let x16 := (1 / x15) in
    x16
  in
  let x17 := ((delta + V) + V) in
  let x18 := (((x16 * x17) * x17) - 1) in
  let x50 := (1 / x18) in
  let x19 := ((4 * x16) * x50) in
  let x20 := da_alpha_dT in
  (((((((((((- V_inv) * x3) - ((x11 * x12) * x5)) + ((x11 * x13) * x9)) + (x13 * ((((P * x2) - (V * x9)) - (x10 * x9)) + x4))) - ((x19 * x2) * x20)) - ((x19 * x6) * d2a_alpha_dT2)) - (x3 * x8_inv)) - (((x4 * x7) * x8_inv) * x8_inv)) + (x5 * x7)) + ((((((((16 * x17) * x20) * x4) * x6) * x16) * x16) * x50) * x50)).

(* thermo/eos.py, lines 6551-6571: GCEOS.dfugacity_dT_l. dfugacity_dT_g (lines 6574-6594) has the same text up to the phase suffix. *)
Definition eos_dfugacity_dT (T : R) (P : R) (S_dep : R) (H_dep : R) (dH_dep_dT : R) (dS_dep_dT : R) :=
  let T := T in
  let P := P in
  let T_inv := (1 / T) in
  let S_dep_l := S_dep in
  let x4 := ((1 / Rgas) * (H_dep - (T * S_dep_l))) in
  ((P * (((T_inv * (1 / Rgas)) * ((dH_dep_dT - (T * dS_dep_dT)) - S_dep_l)) - ((x4 * T_inv) * T_inv))) * (exp (T_inv * x4))).

(* thermo/eos.py, lines 6597-6614: GCEOS.dfugacity_dP_l. *)
Definition eos_dfugacity_dP_l (T : R) (P : R) (dS_dep_dP : R) (dH_dep_dP : R) (S_dep : R) (H_dep : R) :=
  let T := T in
  let P := P in
  let x0 := (1 / (Rgas * T)) in
  ((1 - ((P * x0) * ((T * dS_dep_dP) - dH_dep_dP))) * (exp ((- x0) * ((T * S_dep) - H_dep)))).

(* thermo/eos.py, lines 6617-6644: GCEOS.dfugacity_dP_g. *)
Definition eos_dfugacity_dP_g (T : R) (P : R) (dS_dep_dP : R) (dH_dep_dP : R) (S_dep : R) (H_dep : R) :=
  let T := T in
  let P := P in
  let x0 := (1 / (Rgas * T)) in
  let ans := ((1 - ((P * x0) * ((T * dS_dep_dP) - dH_dep_dP))) * (exp ((- x0) * ((T * S_dep) - H_dep)))) in
  ans.

(* thermo/eos.py, lines 6647-6665: GCEOS.dphi_dT_l. dphi_dT_g (lines 6668-6686) has the same text up to the phase suffix. *)
Definition eos_dphi_dT (T : R) (P : R) (S_dep : R) (H_dep : R) (dS_dep_dT : R) (dH_dep_dT : R) :=
  let T := T in
  let P := P in
  let T_inv := (1 / T) in
  let x4 := (T_inv * ((T * S_dep) - H_dep)) in
  ((((- (1 / Rgas)) * T_inv) * ((((T * dS_dep_dT) + S_dep) - x4) - dH_dep_dT)) * (exp ((- (1 / Rgas)) * x4))).

(* thermo/eos.py, lines 6689-6704: GCEOS.dphi_dP_l. dphi_dP_g (lines 6707-6722) has the same text up to the phase suffix. *)
Definition eos_dphi_dP (T : R) (S_dep : R) (H_dep : R) (dS_dep_dP : R) (dH_dep_dP : R) :=
  let T := T in
  let x0 := S_dep in
  let x1 := H_dep in
  let x2 := (1 / (Rgas * T)) in
  (((- x2) * ((T * dS_dep_dP) - dH_dep_dP)) * (exp ((- x2) * ((T * x0) - x1)))).

(* thermo/eos.py, lines 6725-6737: GCEOS.dbeta_dT_g. dbeta_dT_l (lines 6740-6752) has the same text up to the phase suffix. *)
Definition eos_dbeta_dT (V : R) (dV_dT : R) (d2V_dT2 : R) :=
  let V_inv := (1 / V) in
  let dV_dT := dV_dT in
  (V_inv * (d2V_dT2 - ((dV_dT * dV_dT) * V_inv))).

(* thermo/eos.py, lines 6755-6769: GCEOS.dbeta_dP_g. dbeta_dP_l (lines 6772-6786) has the same text up to the phase suffix. *)
Definition eos_dbeta_dP (V : R) (dV_dT : R) (dV_dP : R) (d2V_dTdP : R) :=
  let V_inv := (1 / V) in
  let dV_dT := dV_dT in
  let dV_dP := dV_dP in
  (V_inv * (d2V_dTdP - ((dV_dT * dV_dP) * V_inv))).

(* thermo/eos.py, lines 6789-6799: GCEOS.da_alpha_dP_g_V. da_alpha_dP_l_V (lines 6802-6812) has the same text up to the phase suffix. *)
Definition eos_da_alpha_dP_V (da_alpha_dT : R) (dT_dP : R) :=
  (da_alpha_dT * dT_dP).

(* thermo/eos.py, lines 6815-6826: GCEOS.d2a_alpha_dTdP_g_V. d2a_alpha_dTdP_l_V (lines 6829-6840) has the same text up to the phase suffix. *)
Definition eos_d2a_alpha_dTdP_V (d2a_alpha_dT2 : R) (dT_dP : R) :=
  (d2a_alpha_dT2 * dT_dP).

(* thermo/eos.py, lines 6843-6879: GCEOS.d2P_dVdP_g. *)
Definition eos_d2P_dVdP_g (T : R) (P : R) (b : R) (delta : R) (epsilon_ : R) (V : R) (a_alpha : R) (dV_dP : R) :=
  let T := T in
  let P := P in
  let b := b in
  let delta := delta in
  let epsilon_ := epsilon_ in
  let x0 := V in
  let x1 := a_alpha in
  let x2 := (((delta * x0) + epsilon_) + (x0 * x0)) in
  let x50 := dV_dP in
  let x51 := ((x0 + x0) + delta) in
  let x52 := (1 / (b - x0)) in
  let x2_inv := (1 / x2) in
  ((2 * ((((((- Rgas) * T) * x52) * x52) * x52) + (((x1 * x2_inv) * x2_inv) * (1 - ((x51 * x51) * x2_inv))))) * x50).

(* thermo/eos.py, lines 6882-6907: GCEOS.d2P_dVdP_l. *)
Definition eos_d2P_dVdP_l (T : R) (b : R) (delta : R) (epsilon_ : R) (V : R) (a_alpha : R) (dV_dP : R) :=
  let T := T in
  let b := b in
  let delta := delta in
  let epsilon_ := epsilon_ in
  let x0 := V in
  let x1 := a_alpha in
  let x2 := (((delta * x0) + epsilon_) + (x0 * x0)) in
  let x50 := dV_dP in
  let x51 := ((x0 + x0) + delta) in
  let x52 := (1 / (b - x0)) in
  let x2_inv := (1 / x2) in
  ((2 * ((((((- Rgas) * T) * x52) * x52) * x52) + (((x1 * x2_inv) * x2_inv) * (1 - ((x51 * x51) * x2_inv))))) * x50).

(* thermo/eos.py, lines 6910-6943: GCEOS.d2P_dVdT_TP_g. d2P_dVdT_TP_l (lines 6946-6979) has the same text up to the phase suffix. *)
Definition eos_d2P_dVdT_TP (T : R) (b : R) (delta : R) (epsilon_ : R) (V : R) (dV_dT : R) (a_alpha : R) (da_alpha_dT : R) :=
  let T := T in
  let b := b in
  let delta := delta in
  let epsilon_ := epsilon_ in
  let x0 := V in
  let x2 := (2 * dV_dT) in
  let x1 := (b - x0) in
  let x1_inv := (1 / x1) in
  let x3 := (((delta * x0) + epsilon_) + (x0 * x0)) in
  let x3_inv := (1 / x3) in
  let x4 := (x3_inv * x3_inv) in
  let x5 := a_alpha in
  let x6 := (x2 * x5) in
  let x7 := ((delta + x0) + x0) in
  ((((((- x1_inv) * x1_inv) * Rgas) * (((T * x2) * x1_inv) + 1)) + (x4 * x6)) + ((x4 * x7) * (da_alpha_dT - ((x6 * x7) * x3_inv)))).

(* thermo/eos.py, lines 6982-7008: GCEOS.d2P_dT2_PV_g. *)
Definition eos_d2P_dT2_PV_g (T : R) (b : R) (delta : R) (epsilon_ : R) (V : R) (dV_dT : R) (a_alpha : R) (da_alpha_dT : R) (d2a_alpha_dT2 : R) :=
  let T := T in
  let b := b in
  let delta := delta in
  let epsilon_ := epsilon_ in
  let V := V in
  let dV_dT := dV_dT in
  let x2 := a_alpha in
  let x0 := V in
  let x1 := dV_dT in
  let x3 := (((delta * x0) + epsilon_) + (x0 * x0)) in
  let x3_inv := (1 / x3) in
  let x50 := (1 / (b - x0)) in
  ((((((- Rgas) * x1) * x50) * x50) + ((((x1 * ((delta + x0) + x0)) * da_alpha_dT) * x3_inv) * x3_inv)) - (d2a_alpha_dT2 * x3_inv)).

(* thermo/eos.py, lines 7011-7037: GCEOS.d2P_dT2_PV_l. *)
Definition eos_d2P_dT2_PV_l (T : R) (b : R) (delta : R) (epsilon_ : R) (V : R) (dV_dT : R) (a_alpha : R) (da_alpha_dT : R) (d2a_alpha_dT2 : R) :=
  let T := T in
  let b := b in
  let delta := delta in
  let epsilon_ := epsilon_ in
  let V := V in
  let dV_dT := dV_dT in
  let x0 := V in
  let x1 := dV_dT in
  let x2 := a_alpha in
  let x3 := (((delta * x0) + epsilon_) + (x0 * x0)) in
  let x3_inv := (1 / x3) in
  let x50 := (1 / (b - x0)) in
  ((((((- Rgas) * x1) * x50) * x50) + ((((x1 * ((delta + x0) + x0)) * da_alpha_dT) * x3_inv) * x3_inv)) - (d2a_alpha_dT2 * x3_inv)).

(* thermo/eos.py, lines 7040-7060: GCEOS.d2P_dTdP_g. d2P_dTdP_l (lines 7064-7084) has the same text up to the phase suffix. *)
Definition eos_d2P_dTdP (V : R) (dV_dP : R) (T : R) (b : R) (delta : R) (epsilon_ : R) (da_alpha_dT : R) :=
  let V := V in
  let dV_dP := dV_dP in
  let T := T in
  let b := b in
  let delta := delta in
  let epsilon_ := epsilon_ in
  let da_alpha_dT := da_alpha_dT in
  let x0 := (V - b) in
  let x1 := (((delta * V) + epsilon_) + (V * V)) in
  ((((- Rgas) * dV_dP) / (x0 * x0)) - (((((- delta) * dV_dP) - ((2 * V) * dV_dP)) * da_alpha_dT) / (x1 * x1))).

(* thermo/eos.py, lines 7087-7091: GCEOS.lnphi_l. *)
Definition eos_lnphi_l (G_dep : R) (T : R) :=
  ((G_dep * (1 / Rgas)) / T).

(* thermo/eos.py, lines 7094-7098: GCEOS.lnphi_g. *)
Definition eos_lnphi_g (phi : R) :=
  (ln phi).
