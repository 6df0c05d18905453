(* Phases given by a Helmholtz energy or a Gibbs energy (thermo/phases/helmholtz_eos.py, thermo/phases/gibbs_eos.py)
   Generated by tools/py2v.py from the text of /repo; do not edit by hand. *)
From Coq Require Import Reals Lra Lia Arith Bool.
From Verif Require Import Base.
Open Scope R_scope.
Open Scope bool_scope.

(* thermo/phases/helmholtz_eos.py, lines 71-72: HelmholtzEOS.A. (without the cache; list path) *)
Definition HE_A (A0 : R) (Ar : R) : R :=
  let A := (A0 + Ar) in
  A.

(* thermo/phases/helmholtz_eos.py, lines 79-81: HelmholtzEOS.dA_ddelta. (without the cache; list path) *)
Definition HE_dA_ddelta (delta : R) (dAr_ddelta : R) : R :=
  let delta := delta in
  let dA_ddelta := (dAr_ddelta + (1 / delta)) in
  dA_ddelta.

(* thermo/phases/helmholtz_eos.py, lines 88-90: HelmholtzEOS.d2A_ddelta2. (without the cache; list path) *)
Definition HE_d2A_ddelta2 (delta : R) (d2Ar_ddelta2 : R) : R :=
  let delta := delta in
  let d2A_ddelta2 := (d2Ar_ddelta2 - (1 / (delta * delta))) in
  d2A_ddelta2.

(* thermo/phases/helmholtz_eos.py, lines 98-100: HelmholtzEOS.d3A_ddelta3. (without the cache; list path) *)
Definition HE_d3A_ddelta3 (delta : R) (d3Ar_ddelta3 : R) : R :=
  let delta := delta in
  let d3A_ddelta3 := (d3Ar_ddelta3 + (2 / ((delta * delta) * delta))) in
  d3A_ddelta3.

(* thermo/phases/helmholtz_eos.py, lines 107-108: HelmholtzEOS.dA_dtau. (without the cache; list path) *)
Definition HE_dA_dtau (dA0_dtau : R) (dAr_dtau : R) : R :=
  let dA_dtau := (dAr_dtau + dA0_dtau) in
  dA_dtau.

(* thermo/phases/helmholtz_eos.py, lines 115-116: HelmholtzEOS.d2A_dtau2. (without the cache; list path) *)
Definition HE_d2A_dtau2 (d2A0_dtau2 : R) (d2Ar_dtau2 : R) : R :=
  let d2A_dtau2 := (d2Ar_dtau2 + d2A0_dtau2) in
  d2A_dtau2.

(* thermo/phases/helmholtz_eos.py, lines 123-124: HelmholtzEOS.d2A_ddeltadtau. (without the cache; list path) *)
Definition HE_d2A_ddeltadtau (d2Ar_ddeltadtau : R) : R :=
  let d2A_ddeltadtau := d2Ar_ddeltadtau in
  d2A_ddeltadtau.

(* thermo/phases/helmholtz_eos.py, lines 131-132: HelmholtzEOS.d3A_ddelta2dtau. (without the cache; list path) *)
Definition HE_d3A_ddelta2dtau (d3Ar_ddelta2dtau : R) : R :=
  let d3A_ddelta2dtau := d3Ar_ddelta2dtau in
  d3A_ddelta2dtau.

(* thermo/phases/helmholtz_eos.py, lines 139-140: HelmholtzEOS.d3A_ddeltadtau2. (without the cache; list path) *)
Definition HE_d3A_ddeltadtau2 (d3Ar_ddeltadtau2 : R) : R :=
  let d3A_ddeltadtau2 := d3Ar_ddeltadtau2 in
  d3A_ddeltadtau2.

(* thermo/phases/helmholtz_eos.py, lines 450-456: HelmholtzEOS.dP_dT. (without the cache; list path) *)
Definition HE_dP_dT (Rg : R) (V : R) (tau : R) (delta : R) (dAr_ddelta : R) (d2Ar_ddeltadtau : R) : R :=
  let dA_ddelta := (HE_dA_ddelta delta dAr_ddelta) in
  let d2A_ddeltadtau := (HE_d2A_ddeltadtau d2Ar_ddeltadtau) in
  let dP_dT := (((Rg / V) * delta) * (dA_ddelta - (tau * d2A_ddeltadtau))) in
  dP_dT.

(* thermo/phases/helmholtz_eos.py, lines 466-475: HelmholtzEOS.dP_dV. (without the cache; list path) *)
Definition HE_dP_dV (Rg : R) (T : R) (rho : R) (delta : R) (dAr_ddelta : R) (d2Ar_ddelta2 : R) : R :=
  let dA_ddelta := (HE_dA_ddelta delta dAr_ddelta) in
  let d2A_ddelta2 := (HE_d2A_ddelta2 delta d2Ar_ddelta2) in
  let delta := delta in
  let rho := rho in
  let dP_dV := ((((((- Rg) * rho) * rho) * T) * delta) * ((2 * dA_ddelta) + (delta * d2A_ddelta2))) in
  dP_dV.

(* thermo/phases/helmholtz_eos.py, lines 485-488: HelmholtzEOS.d2P_dT2. (without the cache; list path) *)
Definition HE_d2P_dT2 (Rg : R) (T : R) (V : R) (T_red : R) (rho_red : R) (delta : R) (d3Ar_ddeltadtau2 : R) : R :=
  let d3A_ddeltadtau2 := (HE_d3A_ddeltadtau2 d3Ar_ddeltadtau2) in
  let T := T in
  let T_red := T_red in
  let delta := delta in
  let V := V in
  let rho_red := rho_red in
  let R_ := Rg in
  let d2P_dT2 := ((((R_ * T_red) * T_red) * d3A_ddeltadtau2) / (((((T * T) * T) * V) * V) * rho_red)) in
  d2P_dT2.

(* thermo/phases/helmholtz_eos.py, lines 498-526: HelmholtzEOS.d2P_dV2. (without the cache; list path) *)
Definition HE_d2P_dV2 (Rg : R) (T : R) (V : R) (rho_red : R) (delta : R) (dAr_ddelta : R) (d2Ar_ddelta2 : R) (d3Ar_ddelta3 : R) : R :=
  let dA_ddelta := (HE_dA_ddelta delta dAr_ddelta) in
  let d2A_ddelta2 := (HE_d2A_ddelta2 delta d2Ar_ddelta2) in
  let d3A_ddelta3 := (HE_d3A_ddelta3 delta d3Ar_ddelta3) in
  let R_ := Rg in
  let T := T in
  let V := V in
  let rho_red := rho_red in
  let d2P_dV2 := (((R_ * T) * (((6 * dA_ddelta) + (((2 * d2A_ddelta2) + (d3A_ddelta3 / (V * rho_red))) / (V * rho_red))) + ((4 * d2A_ddelta2) / (V * rho_red)))) / ((V ^ 4) * rho_red)) in
  d2P_dV2.

(* thermo/phases/helmholtz_eos.py, lines 536-550: HelmholtzEOS.d2P_dTdV. (without the cache; list path) *)
Definition HE_d2P_dTdV (Rg : R) (T : R) (V : R) (T_red : R) (rho_red : R) (delta : R) (dAr_ddelta : R) (d2Ar_ddelta2 : R) (d2Ar_ddeltadtau : R) (d3Ar_ddelta2dtau : R) : R :=
  let dA_ddelta := (HE_dA_ddelta delta dAr_ddelta) in
  let d2A_ddelta2 := (HE_d2A_ddelta2 delta d2Ar_ddelta2) in
  let d2A_ddeltadtau := (HE_d2A_ddeltadtau d2Ar_ddeltadtau) in
  let d3A_ddelta2dtau := (HE_d3A_ddelta2dtau d3Ar_ddelta2dtau) in
  let R_ := Rg in
  let T := T in
  let T_red := T_red in
  let V := V in
  let rho_red := rho_red in
  let d2P_dTdV := ((R_ * (((((- 2) * dA_ddelta) - (d2A_ddelta2 / (V * rho_red))) + (((2 * T_red) * d2A_ddeltadtau) / T)) + ((T_red * d3A_ddelta2dtau) / ((T * V) * rho_red)))) / (((V * V) * V) * rho_red)) in
  d2P_dTdV.

(* thermo/phases/helmholtz_eos.py, lines 238-244: HelmholtzEOS.S. (without the cache; list path) *)
Definition HE_S (Rg : R) (tau : R) (A0 : R) (dA0_dtau : R) (Ar : R) (dAr_dtau : R) : R :=
  let dA_dtau := (HE_dA_dtau dA0_dtau dAr_dtau) in
  let A := (HE_A A0 Ar) in
  let S_ := (((tau * dA_dtau) - A) * Rg) in
  S_.

(* thermo/phases/helmholtz_eos.py, lines 247-248: HelmholtzEOS.S_dep. (without the cache; list path) *)
Definition HE_S_dep (Rg : R) (tau : R) (A0 : R) (dA0_dtau : R) (Ar : R) (dAr_dtau : R) : R :=
  let S_ideal := (((tau * dA0_dtau) - A0) * Rg) in
  ((HE_S Rg tau A0 dA0_dtau Ar dAr_dtau) - S_ideal).

(* thermo/phases/helmholtz_eos.py, lines 259-263: HelmholtzEOS.dS_dT_V. (without the cache; list path) *)
Definition HE_dS_dT_V (Rg : R) (T : R) (T_red : R) (d2A0_dtau2 : R) (d2Ar_dtau2 : R) : R :=
  let d2A_dtau2 := (HE_d2A_dtau2 d2A0_dtau2 d2Ar_dtau2) in
  let T := T in
  let T_red := T_red in
  let dS_dT_V := (((((- T_red) * T_red) * d2A_dtau2) * Rg) / ((T * T) * T)) in
  dS_dT_V.

(* thermo/phases/helmholtz_eos.py, lines 273-282: HelmholtzEOS.dS_dV_T. (without the cache; list path) *)
Definition HE_dS_dV_T (Rg : R) (T : R) (V : R) (T_red : R) (rho_red : R) (delta : R) (dAr_ddelta : R) (d2Ar_ddeltadtau : R) : R :=
  let dA_ddelta := (HE_dA_ddelta delta dAr_ddelta) in
  let d2A_ddeltadtau := (HE_d2A_ddeltadtau d2Ar_ddeltadtau) in
  let R_ := Rg in
  let T := T in
  let V := V in
  let rho_red := rho_red in
  let T_red := T_red in
  let dS_dV_T := ((R_ * (dA_ddelta - ((T_red * d2A_ddeltadtau) / T))) / ((V * V) * rho_red)) in
  dS_dV_T.

(* thermo/phases/helmholtz_eos.py, lines 286-286: HelmholtzEOS.dS_dP_T. (without the cache; list path) *)
Definition HE_dS_dP_T (Rg : R) (T : R) (V : R) (rho : R) (T_red : R) (rho_red : R) (delta : R) (dAr_ddelta : R) (d2Ar_ddelta2 : R) (d2Ar_ddeltadtau : R) : R :=
  ((HE_dS_dV_T Rg T V T_red rho_red delta dAr_ddelta d2Ar_ddeltadtau) / (HE_dP_dV Rg T rho delta dAr_ddelta d2Ar_ddelta2)).

(* thermo/phases/helmholtz_eos.py, lines 296-297: HelmholtzEOS.dS_dT_P. (without the cache; list path) *)
Definition HE_dS_dT_P (Rg : R) (T : R) (V : R) (rho : R) (T_red : R) (rho_red : R) (tau : R) (delta : R) (d2A0_dtau2 : R) (dAr_ddelta : R) (d2Ar_ddelta2 : R) (d2Ar_dtau2 : R) (d2Ar_ddeltadtau : R) : R :=
  let dS_dT_P := ((HE_dS_dT_V Rg T T_red d2A0_dtau2 d2Ar_dtau2) - (((HE_dS_dV_T Rg T V T_red rho_red delta dAr_ddelta d2Ar_ddeltadtau) * (HE_dP_dT Rg V tau delta dAr_ddelta d2Ar_ddeltadtau)) / (HE_dP_dV Rg T rho delta dAr_ddelta d2Ar_ddelta2))) in
  dS_dT_P.

(* thermo/phases/helmholtz_eos.py, lines 301-301: HelmholtzEOS.dS_dP_V. (without the cache; list path) *)
Definition HE_dS_dP_V (Rg : R) (T : R) (V : R) (T_red : R) (tau : R) (delta : R) (d2A0_dtau2 : R) (dAr_ddelta : R) (d2Ar_dtau2 : R) (d2Ar_ddeltadtau : R) : R :=
  ((HE_dS_dT_V Rg T T_red d2A0_dtau2 d2Ar_dtau2) / (HE_dP_dT Rg V tau delta dAr_ddelta d2Ar_ddeltadtau)).

(* thermo/phases/helmholtz_eos.py, lines 311-317: HelmholtzEOS.H. (without the cache; list path) *)
Definition HE_H (Rg : R) (T : R) (tau : R) (delta : R) (dA0_dtau : R) (dAr_ddelta : R) (dAr_dtau : R) : R :=
  let dA_dtau := (HE_dA_dtau dA0_dtau dAr_dtau) in
  let dA_ddelta := (HE_dA_ddelta delta dAr_ddelta) in
  let H := ((((tau * dA_dtau) + (dA_ddelta * delta)) * T) * Rg) in
  H.

(* thermo/phases/helmholtz_eos.py, lines 325-331: HelmholtzEOS.H_dep. (without the cache; list path) *)
Definition HE_H_dep (Rg : R) (T : R) (tau : R) (delta : R) (dA0_dtau : R) (dAr_ddelta : R) (dAr_dtau : R) : R :=
  let H := (HE_H Rg T tau delta dA0_dtau dAr_ddelta dAr_dtau) in
  let dA_dtau := dA0_dtau in
  let dA_ddelta := (1 / delta) in
  let H_ideal := ((((tau * dA_dtau) + (dA_ddelta * delta)) * T) * Rg) in
  let L_H_dep := (H - H_ideal) in
  L_H_dep.

(* thermo/phases/helmholtz_eos.py, lines 341-360: HelmholtzEOS.dH_dT_V. (without the cache; list path) *)
Definition HE_dH_dT_V (Rg : R) (T : R) (V : R) (T_red : R) (rho_red : R) (delta : R) (dA0_dtau : R) (d2A0_dtau2 : R) (dAr_ddelta : R) (dAr_dtau : R) (d2Ar_dtau2 : R) (d2Ar_ddeltadtau : R) : R :=
  let dA_dtau := (HE_dA_dtau dA0_dtau dAr_dtau) in
  let dA_ddelta := (HE_dA_ddelta delta dAr_ddelta) in
  let d2A_ddeltadtau := (HE_d2A_ddeltadtau d2Ar_ddeltadtau) in
  let d2A_dtau2 := (HE_d2A_dtau2 d2A0_dtau2 d2Ar_dtau2) in
  let T := T in
  let T_red := T_red in
  let V := V in
  let R_ := Rg in
  let rho_red := rho_red in
  let T_inv := (1 / T) in
  let dH_dT_V := (((R_ * T) * ((((((- T_red) * dA_dtau) * T_inv) * T_inv) - ((((T_inv * T_inv) * T_red) * d2A_ddeltadtau) / (V * rho_red))) - (((((T_red * T_red) * T_inv) * T_inv) * T_inv) * d2A_dtau2))) + (R_ * ((dA_ddelta / (V * rho_red)) + ((T_red * dA_dtau) / T)))) in
  dH_dT_V.

(* thermo/phases/helmholtz_eos.py, lines 370-383: HelmholtzEOS.dH_dV_T. (without the cache; list path) *)
Definition HE_dH_dV_T (Rg : R) (T : R) (V : R) (T_red : R) (rho_red : R) (delta : R) (dAr_ddelta : R) (d2Ar_ddelta2 : R) (d2Ar_ddeltadtau : R) : R :=
  let dA_ddelta := (HE_dA_ddelta delta dAr_ddelta) in
  let d2A_ddeltadtau := (HE_d2A_ddeltadtau d2Ar_ddeltadtau) in
  let d2A_ddelta2 := (HE_d2A_ddelta2 delta d2Ar_ddelta2) in
  let T := T in
  let T_red := T_red in
  let V := V in
  let R_ := Rg in
  let rho_red := rho_red in
  let dH_dV_T := ((R_ * T) * ((((- dA_ddelta) / ((V * V) * rho_red)) - (d2A_ddelta2 / ((((V * V) * V) * rho_red) * rho_red))) - ((T_red * d2A_ddeltadtau) / (((T * V) * V) * rho_red)))) in
  dH_dV_T.

(* thermo/phases/helmholtz_eos.py, lines 386-386: HelmholtzEOS.dH_dP_V. (without the cache; list path) *)
Definition HE_dH_dP_V (Rg : R) (T : R) (V : R) (T_red : R) (rho_red : R) (tau : R) (delta : R) (dA0_dtau : R) (d2A0_dtau2 : R) (dAr_ddelta : R) (dAr_dtau : R) (d2Ar_dtau2 : R) (d2Ar_ddeltadtau : R) : R :=
  ((HE_dH_dT_V Rg T V T_red rho_red delta dA0_dtau d2A0_dtau2 dAr_ddelta dAr_dtau d2Ar_dtau2 d2Ar_ddeltadtau) / (HE_dP_dT Rg V tau delta dAr_ddelta d2Ar_ddeltadtau)).

(* thermo/phases/helmholtz_eos.py, lines 390-390: HelmholtzEOS.dH_dP_T. (without the cache; list path) *)
Definition HE_dH_dP_T (Rg : R) (T : R) (V : R) (rho : R) (T_red : R) (rho_red : R) (delta : R) (dAr_ddelta : R) (d2Ar_ddelta2 : R) (d2Ar_ddeltadtau : R) : R :=
  ((HE_dH_dV_T Rg T V T_red rho_red delta dAr_ddelta d2Ar_ddelta2 d2Ar_ddeltadtau) / (HE_dP_dV Rg T rho delta dAr_ddelta d2Ar_ddelta2)).

(* thermo/phases/helmholtz_eos.py, lines 406-409: HelmholtzEOS.Cv. (without the cache; list path) *)
Definition HE_Cv (Rg : R) (tau : R) (d2A0_dtau2 : R) (d2Ar_dtau2 : R) : R :=
  let d2A_dtau2 := (HE_d2A_dtau2 d2A0_dtau2 d2Ar_dtau2) in
  let tau := tau in
  let Cv := ((((- tau) * tau) * d2A_dtau2) * Rg) in
  Cv.

(* thermo/phases/helmholtz_eos.py, lines 416-437: HelmholtzEOS.Cp. (without the cache; list path) *)
Definition HE_Cp (Rg : R) (tau : R) (delta : R) (d2A0_dtau2 : R) (dAr_ddelta : R) (d2Ar_ddelta2 : R) (d2Ar_dtau2 : R) (d2Ar_ddeltadtau : R) : R :=
  let tau := tau in
  let delta := delta in
  let d2A_dtau2 := (HE_d2A_dtau2 d2A0_dtau2 d2Ar_dtau2) in
  let dA_ddelta := (HE_dA_ddelta delta dAr_ddelta) in
  let d2A_ddelta2 := (HE_d2A_ddelta2 delta d2Ar_ddelta2) in
  let d2A_ddeltadtau := (HE_d2A_ddeltadtau d2Ar_ddeltadtau) in
  let x0 := ((delta * dA_ddelta) - ((delta * tau) * d2A_ddeltadtau)) in
  let den := (delta * ((dA_ddelta + dA_ddelta) + (delta * d2A_ddelta2))) in
  let Cp := (((((- tau) * tau) * d2A_dtau2) + ((x0 * x0) / den)) * Rg) in
  Cp.

(* thermo/phases/helmholtz_eos.py, lines 394-394: HelmholtzEOS.dH_dV_P. (without the cache; list path) *)
Definition HE_dH_dV_P (Rg : R) (tau : R) (delta : R) (d2A0_dtau2 : R) (dAr_ddelta : R) (d2Ar_ddelta2 : R) (d2Ar_dtau2 : R) (d2Ar_ddeltadtau : R) (dV_dT : R) : R :=
  ((HE_Cp Rg tau delta d2A0_dtau2 dAr_ddelta d2Ar_ddelta2 d2Ar_dtau2 d2Ar_ddeltadtau) / dV_dT).

(* thermo/phases/helmholtz_eos.py, lines 143-155: HelmholtzEOS.lnphis. (without the cache; the list of one value is written as the value) *)
Definition HE_lnphis (delta : R) (A0 : R) (Ar : R) (dAr_ddelta : R) : R :=
  let delta := delta in
  let dA_ddelta := (HE_dA_ddelta delta dAr_ddelta) in
  let A := (HE_A A0 Ar) in
  let x0 := (delta * (dA_ddelta - (1 / delta))) in
  let lnphi := (((A - A0) + x0) - (ln (x0 + 1))) in
  lnphi.

(* thermo/phases/helmholtz_eos.py, lines 161-177: HelmholtzEOS.dlnphis_dV_T. (without the cache; the list of one value is written as the value) *)
Definition HE_dlnphis_dV_T (V : R) (rho_red : R) (rho_red_inv : R) (delta : R) (dAr_ddelta : R) (d2Ar_ddelta2 : R) : R :=
  let dA_ddelta := (HE_dA_ddelta delta dAr_ddelta) in
  let d2A_ddelta2 := (HE_d2A_ddelta2 delta d2Ar_ddelta2) in
  let delta := delta in
  let rho := (1 / V) in
  let rho_red := rho_red in
  let x0 := rho_red_inv in
  let rho_inv := (1 / rho) in
  let x1 := ((- rho_red) * rho_inv) in
  let x2 := (rho * ((d2A_ddelta2 * x0) + ((rho_red * rho_inv) * rho_inv))) in
  let x3 := (dA_ddelta + x1) in
  let dlnphi_dV_T := (x0 * (((((2 * dA_ddelta) + x1) + x2) - ((x2 + x3) / (((rho * x0) * x3) + 1))) - (1 / delta))) in
  let dlnphi_dV_T := (dlnphi_dV_T * ((- 1) / (V * V))) in
  dlnphi_dV_T.

(* thermo/phases/helmholtz_eos.py, lines 183-207: HelmholtzEOS.dlnphis_dT_V. (without the cache; the list of one value is written as the value) *)
Definition HE_dlnphis_dT_V (T : R) (V : R) (T_red : R) (rho_red : R) (rho_red_inv : R) (delta : R) (dA0_dtau : R) (dAr_ddelta : R) (d2Ar_ddelta2 : R) (dAr_dtau : R) (d2Ar_ddeltadtau : R) : R :=
  let dA_ddelta := (HE_dA_ddelta delta dAr_ddelta) in
  let d2A_ddelta2 := (HE_d2A_ddelta2 delta d2Ar_ddelta2) in
  let d2A_ddeltadtau := (HE_d2A_ddeltadtau d2Ar_ddeltadtau) in
  let dA_dtau := (HE_dA_dtau dA0_dtau dAr_dtau) in
  let rho := (1 / V) in
  let rho_red_inv := rho_red_inv in
  let rho_red := rho_red in
  let T_red := T_red in
  let T := T in
  let dlnphi_dT_V := ((T_red / (T * T)) * (((((rho_red_inv * rho) * d2A_ddeltadtau) * ((- 1) + (1 / (((rho * (dA_ddelta - (rho_red / rho))) * rho_red_inv) + 1)))) - dA_dtau) + dA0_dtau)) in
  dlnphi_dT_V.

(* thermo/phases/helmholtz_eos.py, lines 215-216: HelmholtzEOS.dlnphis_dT_P. (without the cache; the list of one value is written as the value) *)
Definition HE_dlnphis_dT_P (Rg : R) (T : R) (V : R) (rho : R) (T_red : R) (rho_red : R) (rho_red_inv : R) (tau : R) (delta : R) (dA0_dtau : R) (dAr_ddelta : R) (d2Ar_ddelta2 : R) (dAr_dtau : R) (d2Ar_ddeltadtau : R) : R :=
  let dlnphis_dT_P := ((HE_dlnphis_dT_V T V T_red rho_red rho_red_inv delta dA0_dtau dAr_ddelta d2Ar_ddelta2 dAr_dtau d2Ar_ddeltadtau) - (((HE_dlnphis_dV_T V rho_red rho_red_inv delta dAr_ddelta d2Ar_ddelta2) * (HE_dP_dT Rg V tau delta dAr_ddelta d2Ar_ddeltadtau)) / (HE_dP_dV Rg T rho delta dAr_ddelta d2Ar_ddelta2))) in
  dlnphis_dT_P.

(* thermo/phases/helmholtz_eos.py, lines 220-220: HelmholtzEOS.dlnphis_dP_V. (without the cache; the list of one value is written as the value) *)
Definition HE_dlnphis_dP_V (Rg : R) (T : R) (V : R) (T_red : R) (rho_red : R) (rho_red_inv : R) (tau : R) (delta : R) (dA0_dtau : R) (dAr_ddelta : R) (d2Ar_ddelta2 : R) (dAr_dtau : R) (d2Ar_ddeltadtau : R) : R :=
  ((HE_dlnphis_dT_V T V T_red rho_red rho_red_inv delta dA0_dtau dAr_ddelta d2Ar_ddelta2 dAr_dtau d2Ar_ddeltadtau) / (HE_dP_dT Rg V tau delta dAr_ddelta d2Ar_ddeltadtau)).

(* thermo/phases/helmholtz_eos.py, lines 223-223: HelmholtzEOS.dlnphis_dV_P. (without the cache; the list of one value is written as the value) *)
Definition HE_dlnphis_dV_P (Rg : R) (T : R) (V : R) (rho : R) (T_red : R) (rho_red : R) (rho_red_inv : R) (tau : R) (delta : R) (dA0_dtau : R) (dAr_ddelta : R) (d2Ar_ddelta2 : R) (dAr_dtau : R) (d2Ar_ddeltadtau : R) (dV_dT : R) : R :=
  ((HE_dlnphis_dT_P Rg T V rho T_red rho_red rho_red_inv tau delta dA0_dtau dAr_ddelta d2Ar_ddelta2 dAr_dtau d2Ar_ddeltadtau) / dV_dT).

(* thermo/phases/helmholtz_eos.py, lines 226-226: HelmholtzEOS.dlnphis_dP_T. (without the cache; the list of one value is written as the value) *)
Definition HE_dlnphis_dP_T (Rg : R) (T : R) (V : R) (rho : R) (T_red : R) (rho_red : R) (rho_red_inv : R) (tau : R) (delta : R) (dA0_dtau : R) (dAr_ddelta : R) (d2Ar_ddelta2 : R) (dAr_dtau : R) (d2Ar_ddeltadtau : R) (dV_dT : R) (dT_dP : R) (dT_dV : R) : R :=
  ((HE_dlnphis_dP_V Rg T V T_red rho_red rho_red_inv tau delta dA0_dtau dAr_ddelta d2Ar_ddelta2 dAr_dtau d2Ar_ddeltadtau) - (((HE_dlnphis_dV_P Rg T V rho T_red rho_red rho_red_inv tau delta dA0_dtau dAr_ddelta d2Ar_ddelta2 dAr_dtau d2Ar_ddeltadtau dV_dT) * dT_dP) / dT_dV)).

(* thermo/phases/helmholtz_eos.py, lines 554-557: HelmholtzEOS.B_virial. (without the cache; functions that raise or give nan at zero density, and are then called at 1e-20, are not modelled) *)
Definition HE_B_virial (rho_red : R) (dAr_ddelta_0 : R) : R :=
  let f0 := dAr_ddelta_0 in
  (f0 / rho_red).

(* thermo/phases/helmholtz_eos.py, lines 560-568: HelmholtzEOS.dB_virial_dT. (without the cache; functions that raise or give nan at zero density, and are then called at 1e-20, are not modelled) *)
Definition HE_dB_virial_dT (T_red : R) (rho_red : R) (tau : R) (d2Ar_ddeltadtau_0 : R) : R :=
  let tau := tau in
  let f0 := d2Ar_ddeltadtau_0 in
  ((((- tau) * tau) * f0) / (rho_red * T_red)).

(* thermo/phases/helmholtz_eos.py, lines 571-587: HelmholtzEOS.d2B_virial_dT2. (without the cache; functions that raise or give nan at zero density, and are then called at 1e-20, are not modelled) *)
Definition HE_d2B_virial_dT2 (T : R) (T_red : R) (rho_red : R) (tau : R) (d2Ar_ddeltadtau_0 : R) (d3Ar_ddeltadtau2_0 : R) : R :=
  let T := T in
  let T_red := T_red in
  let tau := tau in
  let f0 := d2Ar_ddeltadtau_0 in
  let f1 := d3Ar_ddeltadtau2_0 in
  ((T_red * ((2 * f0) + (tau * f1))) / (((T * T) * T) * rho_red)).

(* thermo/phases/helmholtz_eos.py, lines 590-616: HelmholtzEOS.d3B_virial_dT3. (without the cache; functions that raise or give nan at zero density, and are then called at 1e-20, are not modelled) *)
Definition HE_d3B_virial_dT3 (T : R) (T_red : R) (rho_red : R) (tau : R) (d2Ar_ddeltadtau_0 : R) (d3Ar_ddeltadtau2_0 : R) (d4Ar_ddeltadtau3_0 : R) : R :=
  let T := T in
  let T_red := T_red in
  let tau := tau in
  let f0 := d2Ar_ddeltadtau_0 in
  let f1 := d3Ar_ddeltadtau2_0 in
  let f2 := d4Ar_ddeltadtau3_0 in
  (((- T_red) * (((6 * f0) + ((6 * tau) * f1)) + ((tau * tau) * f2))) / ((((T * T) * T) * T) * rho_red)).

(* thermo/phases/helmholtz_eos.py, lines 621-626: HelmholtzEOS.C_virial. (without the cache; functions that raise or give nan at zero density, and are then called at 1e-20, are not modelled) *)
Definition HE_C_virial (rho_red : R) (d2Ar_ddelta2_0 : R) : R :=
  let f0 := d2Ar_ddelta2_0 in
  (f0 / (rho_red * rho_red)).

(* thermo/phases/helmholtz_eos.py, lines 629-637: HelmholtzEOS.dC_virial_dT. (without the cache; functions that raise or give nan at zero density, and are then called at 1e-20, are not modelled) *)
Definition HE_dC_virial_dT (T_red : R) (rho_red : R) (tau : R) (d3Ar_ddelta2dtau_0 : R) : R :=
  let tau := tau in
  let f0 := d3Ar_ddelta2dtau_0 in
  ((((- tau) * tau) * f0) / ((rho_red * rho_red) * T_red)).

(* thermo/phases/helmholtz_eos.py, lines 640-656: HelmholtzEOS.d2C_virial_dT2. (without the cache; functions that raise or give nan at zero density, and are then called at 1e-20, are not modelled) *)
Definition HE_d2C_virial_dT2 (T : R) (T_red : R) (rho_red : R) (tau : R) (d3Ar_ddelta2dtau_0 : R) (d4Ar_ddelta2dtau2_0 : R) : R :=
  let T := T in
  let T_red := T_red in
  let tau := tau in
  let f0 := d3Ar_ddelta2dtau_0 in
  let f1 := d4Ar_ddelta2dtau2_0 in
  ((T_red * ((2 * f0) + (tau * f1))) / ((((T * T) * T) * rho_red) * rho_red)).

(* thermo/phases/gibbs_eos.py, lines 31-31: GibbsEOS.V. (without the cache; list path) *)
Definition GE_V (dG_dP : R) : R :=
  dG_dP.

(* thermo/phases/gibbs_eos.py, lines 42-42: GibbsEOS.dV_dP. (without the cache; list path) *)
Definition GE_dV_dP (d2G_dP2 : R) : R :=
  d2G_dP2.

(* thermo/phases/gibbs_eos.py, lines 47-47: GibbsEOS.dP_dV. (without the cache; list path) *)
Definition GE_dP_dV (d2G_dP2 : R) : R :=
  (1 / d2G_dP2).

(* thermo/phases/gibbs_eos.py, lines 52-52: GibbsEOS.d2V_dP2. (without the cache; list path) *)
Definition GE_d2V_dP2 (d3G_dP3 : R) : R :=
  d3G_dP3.

(* thermo/phases/gibbs_eos.py, lines 55-55: GibbsEOS.dV_dT. (without the cache; list path) *)
Definition GE_dV_dT (d2G_dTdP : R) : R :=
  d2G_dTdP.

(* thermo/phases/gibbs_eos.py, lines 58-58: GibbsEOS.dT_dV. (without the cache; list path) *)
Definition GE_dT_dV (d2G_dTdP : R) : R :=
  (1 / d2G_dTdP).

(* thermo/phases/gibbs_eos.py, lines 63-63: GibbsEOS.d2V_dT2. (without the cache; list path) *)
Definition GE_d2V_dT2 (d3G_dT2dP : R) : R :=
  d3G_dT2dP.

(* thermo/phases/gibbs_eos.py, lines 66-66: GibbsEOS.d2V_dTdP. (without the cache; list path) *)
Definition GE_d2V_dTdP (d3G_dTdP2 : R) : R :=
  d3G_dTdP2.

(* thermo/phases/gibbs_eos.py, lines 70-70: GibbsEOS.dP_dT. (without the cache; list path) *)
Definition GE_dP_dT (d2G_dP2 : R) (d2G_dTdP : R) : R :=
  ((- (GE_dV_dT d2G_dTdP)) / (GE_dV_dP d2G_dP2)).

(* thermo/phases/gibbs_eos.py, lines 75-75: GibbsEOS.dT_dP. (without the cache; list path) *)
Definition GE_dT_dP (d2G_dP2 : R) (d2G_dTdP : R) : R :=
  (1 / (GE_dP_dT d2G_dP2 d2G_dTdP)).

(* thermo/phases/gibbs_eos.py, lines 81-81: GibbsEOS.H. (without the cache; list path) *)
Definition GE_H (T : R) (G : R) (dG_dT : R) : R :=
  (G - (T * dG_dT)).

(* thermo/phases/gibbs_eos.py, lines 84-84: GibbsEOS.S. (without the cache; list path) *)
Definition GE_S (dG_dT : R) : R :=
  (- dG_dT).

(* thermo/phases/gibbs_eos.py, lines 87-87: GibbsEOS.Cp. (without the cache; list path) *)
Definition GE_Cp (T : R) (d2G_dT2 : R) : R :=
  ((- T) * d2G_dT2).

(* thermo/phases/gibbs_eos.py, lines 90-90: GibbsEOS.U. (without the cache; list path) *)
Definition GE_U (T : R) (P : R) (G : R) (dG_dT : R) (dG_dP : R) : R :=
  ((G - (T * dG_dT)) - (P * dG_dP)).

(* thermo/phases/gibbs_eos.py, lines 93-93: GibbsEOS.A. (without the cache; list path) *)
Definition GE_A (P : R) (G : R) (dG_dP : R) : R :=
  (G - (P * dG_dP)).

(* thermo/phases/gibbs_eos.py, lines 96-96: GibbsEOS.dS_dT. (without the cache; list path) *)
Definition GE_dS_dT (d2G_dT2 : R) : R :=
  (- d2G_dT2).

(* thermo/phases/gibbs_eos.py, lines 100-100: GibbsEOS.d2S_dT2. (without the cache; list path) *)
Definition GE_d2S_dT2 (d3G_dT3 : R) : R :=
  (- d3G_dT3).

(* thermo/phases/gibbs_eos.py, lines 104-104: GibbsEOS.dS_dP. (without the cache; list path) *)
Definition GE_dS_dP (d2G_dTdP : R) : R :=
  (- d2G_dTdP).

(* thermo/phases/gibbs_eos.py, lines 109-109: GibbsEOS.d2S_dP2. (without the cache; list path) *)
Definition GE_d2S_dP2 (d3G_dTdP2 : R) : R :=
  (- d3G_dTdP2).

(* thermo/phases/gibbs_eos.py, lines 112-112: GibbsEOS.d2S_dTdP. (without the cache; list path) *)
Definition GE_d2S_dTdP (d3G_dT2dP : R) : R :=
  (- d3G_dT2dP).
