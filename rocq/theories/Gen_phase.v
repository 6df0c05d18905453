(* Derived properties of a phase (thermo/phases/phase.py)
   Generated by tools/py2v.py from the text of /repo; do not edit by hand. *)
From Coq Require Import Reals Lra Lia Arith Bool.
From Verif Require Import Base.
Open Scope R_scope.
Open Scope bool_scope.

(* External formulas of the chemicals package, as documented there (chemicals.utils and chemicals.virial) *)
Definition ext_Cp_minus_Cv (T dP_dT dP_dV : R) : R := - T * (dP_dT * dP_dT) / dP_dV.
Definition ext_isentropic_exponent_PV (Cp Cv Vm P dP_dV_T : R) : R := - Vm * Cp * dP_dV_T / (P * Cv).
Definition ext_isentropic_exponent_PT (Cp P dV_dT_P : R) : R := 1 / (1 - P * dV_dT_P / Cp).
Definition ext_isentropic_exponent_TV (Cv Vm dP_dT_V : R) : R := 1 + Vm * dP_dT_V / Cv.
(* Joule_Thomson(T, V, Cp, dV_dT, beta) uses dV_dT when it is given *)
Definition ext_Joule_Thomson (T V Cp dV_dT beta : R) : R := (T * dV_dT - V) / Cp.
Definition ext_speed_of_sound (V dP_dV Cp Cv : R) : R := sqrt (- (V * V) * dP_dV * Cp / Cv).
Definition ext_phase_identification_parameter (V dP_dT dP_dV d2P_dV2 d2P_dTdV : R) : R := V * (d2P_dTdV / dP_dT - d2P_dV2 / dP_dV).
Definition ext_B_from_Z (Z T P : R) : R := (Z - 1) * Rgas * T / P.
Definition ext_c_ideal_gas (T k MW : R) : R := sqrt (k * (Rgas * 1000 / MW) * T).
Definition ext_property_molar_to_mass (A MW : R) : R := A * 1000 / MW.
(* chemicals.utils: mole number derivatives of an intensive property, and of n times it *)
Definition ext_dxs_to_dns (N : nat) (dxs xs : nat -> R) : nat -> R := fun i => dxs i - rsum N (fun j => xs j * dxs j).
Definition ext_dns_to_dn_partials (dns : nat -> R) (F : R) : nat -> R := fun i => dns i + F.
Definition ext_dxs_to_dn_partials (N : nat) (dxs xs : nat -> R) (F : R) : nat -> R := fun i => dxs i - rsum N (fun j => xs j * dxs j) + F.

(* thermo/phases/phase.py, lines 2720-2720: Phase.dT_dP. (without the cache; list path) *)
Definition Ph_dT_dP (dP_dT : R) : R :=
  (1 / dP_dT).

(* thermo/phases/phase.py, lines 2743-2744: Phase.dV_dT. (without the cache; list path) *)
Definition Ph_dV_dT (dP_dT : R) (dP_dV : R) : R :=
  let dV_dT := ((- dP_dT) / dP_dV) in
  dV_dT.

(* thermo/phases/phase.py, lines 2763-2763: Phase.dV_dP. (without the cache; list path) *)
Definition Ph_dV_dP (dP_dT : R) (dP_dV : R) : R :=
  ((- (Ph_dV_dT dP_dT dP_dV)) * (Ph_dT_dP dP_dT)).

(* thermo/phases/phase.py, lines 2782-2782: Phase.dT_dV. (without the cache; list path) *)
Definition Ph_dT_dV (dP_dT : R) (dP_dV : R) : R :=
  (1 / (Ph_dV_dT dP_dT dP_dV)).

(* thermo/phases/phase.py, lines 2801-2803: Phase.d2V_dP2. (without the cache; list path) *)
Definition Ph_d2V_dP2 (dP_dV : R) (d2P_dV2 : R) : R :=
  let inverse_dP_dV := (1 / dP_dV) in
  let inverse_dP_dV3 := ((inverse_dP_dV * inverse_dP_dV) * inverse_dP_dV) in
  ((- d2P_dV2) * inverse_dP_dV3).

(* thermo/phases/phase.py, lines 2822-2825: Phase.d2T_dP2. (without the cache; list path) *)
Definition Ph_d2T_dP2 (dP_dT : R) (d2P_dT2 : R) : R :=
  let dT_dP := (Ph_dT_dP dP_dT) in
  let inverse_dP_dT2 := (dT_dP * dT_dP) in
  let inverse_dP_dT3 := (inverse_dP_dT2 * dT_dP) in
  ((- d2P_dT2) * inverse_dP_dT3).

(* thermo/phases/phase.py, lines 2854-2863: Phase.d2T_dV2. (without the cache; list path) *)
Definition Ph_d2T_dV2 (dP_dT : R) (dP_dV : R) (d2P_dT2 : R) (d2P_dV2 : R) (d2P_dTdV : R) : R :=
  let dP_dT := dP_dT in
  let dP_dV := dP_dV in
  let d2P_dTdV := d2P_dTdV in
  let d2P_dT2 := d2P_dT2 in
  let dT_dP := (Ph_dT_dP dP_dT) in
  let inverse_dP_dT2 := (dT_dP * dT_dP) in
  let inverse_dP_dT3 := (inverse_dP_dT2 * dT_dP) in
  (((- ((d2P_dV2 * dP_dT) - (dP_dV * d2P_dTdV))) * inverse_dP_dT2) + ((((d2P_dTdV * dP_dT) - (dP_dV * d2P_dT2)) * inverse_dP_dT3) * dP_dV)).

(* thermo/phases/phase.py, lines 2892-2903: Phase.d2V_dT2. (without the cache; list path) *)
Definition Ph_d2V_dT2 (dP_dT : R) (dP_dV : R) (d2P_dT2 : R) (d2P_dV2 : R) (d2P_dTdV : R) : R :=
  let dP_dT := dP_dT in
  let dP_dV := dP_dV in
  let d2P_dTdV := d2P_dTdV in
  let d2P_dT2 := d2P_dT2 in
  let d2P_dV2 := d2P_dV2 in
  let inverse_dP_dV := (1 / dP_dV) in
  let inverse_dP_dV2 := (inverse_dP_dV * inverse_dP_dV) in
  let inverse_dP_dV3 := (inverse_dP_dV * inverse_dP_dV2) in
  (((- ((d2P_dT2 * dP_dV) - (dP_dT * d2P_dTdV))) * inverse_dP_dV2) + ((((d2P_dTdV * dP_dV) - (dP_dT * d2P_dV2)) * inverse_dP_dV3) * dP_dT)).

(* thermo/phases/phase.py, lines 2926-2935: Phase.d2V_dPdT. (without the cache; list path) *)
Definition Ph_d2V_dPdT (dP_dT : R) (dP_dV : R) (d2P_dV2 : R) (d2P_dTdV : R) : R :=
  let dP_dT := dP_dT in
  let dP_dV := dP_dV in
  let d2P_dTdV := d2P_dTdV in
  let d2P_dV2 := d2P_dV2 in
  let inverse_dP_dV := (1 / dP_dV) in
  let inverse_dP_dV2 := (inverse_dP_dV * inverse_dP_dV) in
  let inverse_dP_dV3 := (inverse_dP_dV * inverse_dP_dV2) in
  ((- ((d2P_dTdV * dP_dV) - (dP_dT * d2P_dV2))) * inverse_dP_dV3).

(* thermo/phases/phase.py, lines 2959-2967: Phase.d2T_dPdV. (without the cache; list path) *)
Definition Ph_d2T_dPdV (dP_dT : R) (dP_dV : R) (d2P_dT2 : R) (d2P_dTdV : R) : R :=
  let dT_dP := (Ph_dT_dP dP_dT) in
  let inverse_dP_dT2 := (dT_dP * dT_dP) in
  let inverse_dP_dT3 := (inverse_dP_dT2 * dT_dP) in
  let d2P_dTdV := d2P_dTdV in
  let dP_dT := dP_dT in
  let dP_dV := dP_dV in
  let d2P_dT2 := d2P_dT2 in
  ((- ((d2P_dTdV * dP_dT) - (dP_dV * d2P_dT2))) * inverse_dP_dT3).

(* thermo/phases/phase.py, lines 2983-2983: Phase.d2P_dVdT. (without the cache; list path) *)
Definition Ph_d2P_dVdT (d2P_dTdV : R) : R :=
  d2P_dTdV.

(* thermo/phases/phase.py, lines 1450-1452: Phase.G. (without the cache; list path) *)
Definition Ph_G (T : R) (H : R) (S_ : R) : R :=
  let G := (H - (T * S_)) in
  G.

(* thermo/phases/phase.py, lines 1470-1471: Phase.U. (without the cache; list path) *)
Definition Ph_U (P : R) (V : R) (H : R) : R :=
  let U := (H - (P * V)) in
  U.

(* thermo/phases/phase.py, lines 1487-1488: Phase.A. (without the cache; list path) *)
Definition Ph_A (T : R) (P : R) (V : R) (H : R) (S_ : R) : R :=
  let A := ((Ph_U P V H) - (T * S_)) in
  A.

(* thermo/phases/phase.py, lines 1550-1550: Phase.dG_dT. (without the cache; list path) *)
Definition Ph_dG_dT (T : R) (S_ : R) (dH_dT : R) (dS_dT : R) : R :=
  ((((- T) * dS_dT) - S_) + dH_dT).

(* thermo/phases/phase.py, lines 1572-1572: Phase.dG_dT_V. (without the cache; list path) *)
Definition Ph_dG_dT_V (T : R) (S_ : R) (dH_dT_V : R) (dS_dT_V : R) : R :=
  ((((- T) * dS_dT_V) - S_) + dH_dT_V).

(* thermo/phases/phase.py, lines 1592-1592: Phase.dG_dP. (without the cache; list path) *)
Definition Ph_dG_dP (T : R) (dH_dP : R) (dS_dP : R) : R :=
  (((- T) * dS_dP) + dH_dP).

(* thermo/phases/phase.py, lines 1615-1615: Phase.dG_dP_V. (without the cache; list path) *)
Definition Ph_dG_dP_V (T : R) (dP_dT : R) (S_ : R) (dH_dP_V : R) (dS_dP_V : R) : R :=
  ((((- T) * dS_dP_V) - ((Ph_dT_dP dP_dT) * S_)) + dH_dP_V).

(* thermo/phases/phase.py, lines 1635-1635: Phase.dG_dV_T. (without the cache; list path) *)
Definition Ph_dG_dV_T (T : R) (dP_dV : R) (dH_dP : R) (dS_dP : R) : R :=
  ((Ph_dG_dP T dH_dP dS_dP) * dP_dV).

(* thermo/phases/phase.py, lines 1655-1655: Phase.dG_dV_P. (without the cache; list path) *)
Definition Ph_dG_dV_P (T : R) (dP_dT : R) (dP_dV : R) (S_ : R) (dH_dT : R) (dS_dT : R) : R :=
  ((Ph_dG_dT T S_ dH_dT dS_dT) * (Ph_dT_dV dP_dT dP_dV)).

(* thermo/phases/phase.py, lines 1676-1676: Phase.dU_dT. (without the cache; list path) *)
Definition Ph_dU_dT (P : R) (dP_dT : R) (dP_dV : R) (dH_dT : R) : R :=
  (((- P) * (Ph_dV_dT dP_dT dP_dV)) + dH_dT).

(* thermo/phases/phase.py, lines 1698-1698: Phase.dU_dT_V. (without the cache; list path) *)
Definition Ph_dU_dT_V (V : R) (dP_dT : R) (dH_dT_V : R) : R :=
  (dH_dT_V - (V * dP_dT)).

(* thermo/phases/phase.py, lines 1718-1718: Phase.dU_dP. (without the cache; list path) *)
Definition Ph_dU_dP (P : R) (V : R) (dP_dT : R) (dP_dV : R) (dH_dP : R) : R :=
  ((((- P) * (Ph_dV_dP dP_dT dP_dV)) - V) + dH_dP).

(* thermo/phases/phase.py, lines 1740-1740: Phase.dU_dP_V. (without the cache; list path) *)
Definition Ph_dU_dP_V (V : R) (dH_dP_V : R) : R :=
  (dH_dP_V - V).

(* thermo/phases/phase.py, lines 1760-1760: Phase.dU_dV_T. (without the cache; list path) *)
Definition Ph_dU_dV_T (P : R) (V : R) (dP_dT : R) (dP_dV : R) (dH_dP : R) : R :=
  ((Ph_dU_dP P V dP_dT dP_dV dH_dP) * dP_dV).

(* thermo/phases/phase.py, lines 1780-1780: Phase.dU_dV_P. (without the cache; list path) *)
Definition Ph_dU_dV_P (P : R) (dP_dT : R) (dP_dV : R) (dH_dT : R) : R :=
  ((Ph_dU_dT P dP_dT dP_dV dH_dT) * (Ph_dT_dV dP_dT dP_dV)).

(* thermo/phases/phase.py, lines 1800-1800: Phase.dA_dT. (without the cache; list path) *)
Definition Ph_dA_dT (T : R) (P : R) (dP_dT : R) (dP_dV : R) (S_ : R) (dH_dT : R) (dS_dT : R) : R :=
  ((((- T) * dS_dT) - S_) + (Ph_dU_dT P dP_dT dP_dV dH_dT)).

(* thermo/phases/phase.py, lines 1824-1825: Phase.dA_dT_V. (without the cache; list path) *)
Definition Ph_dA_dT_V (T : R) (V : R) (dP_dT : R) (S_ : R) (dH_dT_V : R) (dS_dT_V : R) : R :=
  (((dH_dT_V - (V * dP_dT)) - (T * dS_dT_V)) - S_).

(* thermo/phases/phase.py, lines 1845-1845: Phase.dA_dP. (without the cache; list path) *)
Definition Ph_dA_dP (T : R) (P : R) (V : R) (dP_dT : R) (dP_dV : R) (dH_dP : R) (dS_dP : R) : R :=
  (((- T) * dS_dP) + (Ph_dU_dP P V dP_dT dP_dV dH_dP)).

(* thermo/phases/phase.py, lines 1868-1869: Phase.dA_dP_V. (without the cache; list path) *)
Definition Ph_dA_dP_V (T : R) (V : R) (dP_dT : R) (S_ : R) (dH_dP_V : R) (dS_dP_V : R) : R :=
  (((dH_dP_V - V) - ((Ph_dT_dP dP_dT) * S_)) - (T * dS_dP_V)).

(* thermo/phases/phase.py, lines 1889-1889: Phase.dA_dV_T. (without the cache; list path) *)
Definition Ph_dA_dV_T (T : R) (P : R) (V : R) (dP_dT : R) (dP_dV : R) (dH_dP : R) (dS_dP : R) : R :=
  ((Ph_dA_dP T P V dP_dT dP_dV dH_dP dS_dP) * dP_dV).

(* thermo/phases/phase.py, lines 1909-1909: Phase.dA_dV_P. (without the cache; list path) *)
Definition Ph_dA_dV_P (T : R) (P : R) (dP_dT : R) (dP_dV : R) (S_ : R) (dH_dT : R) (dS_dT : R) : R :=
  ((Ph_dA_dT T P dP_dT dP_dV S_ dH_dT dS_dT) * (Ph_dT_dV dP_dT dP_dV)).

(* thermo/phases/phase.py, lines 4266-4266: Phase.dS_dP_T. (without the cache; list path) *)
Definition Ph_dS_dP_T (dS_dP : R) : R :=
  dS_dP.

(* thermo/phases/phase.py, lines 4277-4277: Phase.dS_dV_T. (without the cache; list path) *)
Definition Ph_dS_dV_T (dP_dV : R) (dS_dP : R) : R :=
  ((Ph_dS_dP_T dS_dP) * dP_dV).

(* thermo/phases/phase.py, lines 4288-4288: Phase.dS_dV_P. (without the cache; list path) *)
Definition Ph_dS_dV_P (dP_dT : R) (dP_dV : R) (dS_dT : R) : R :=
  (dS_dT * (Ph_dT_dV dP_dT dP_dV)).

(* thermo/phases/phase.py, lines 4244-4244: Phase.dH_dT_P. (without the cache; list path) *)
Definition Ph_dH_dT_P (dH_dT : R) : R :=
  dH_dT.

(* thermo/phases/phase.py, lines 4255-4255: Phase.dH_dP_T. (without the cache; list path) *)
Definition Ph_dH_dP_T (dH_dP : R) : R :=
  dH_dP.

(* thermo/phases/phase.py, lines 2371-2374: Phase.Cv. (without the cache; list path) *)
Definition Ph_Cv (T : R) (dP_dT : R) (dP_dV : R) (Cp : R) : R :=
  let Cp_m_Cv := (ext_Cp_minus_Cv T dP_dT dP_dV) in
  let Cp := Cp in
  let Cv := (Cp - Cp_m_Cv) in
  Cv.

(* thermo/phases/phase.py, lines 2400-2409: Phase.dCv_dT_P. (without the cache; list path) *)
Definition Ph_dCv_dT_P (T : R) (dP_dT : R) (dP_dV : R) (d2H_dT2 : R) (d2P_dT2_PV : R) (d2P_dVdT_TP : R) : R :=
  let T := T in
  let x0 := dP_dT in
  let x1 := (x0 * x0) in
  let x2 := dP_dV in
  let x3 := (1 / x2) in
  let x50 := d2P_dT2_PV in
  let x51 := d2P_dVdT_TP in
  let x52 := d2H_dT2 in
  (((((((2 * T) * x0) * x3) * x50) - ((((T * x1) * x51) * x3) * x3)) + (x1 * x3)) + x52).

(* thermo/phases/phase.py, lines 2432-2438: Phase.dCv_dP_T. (without the cache; list path) *)
Definition Ph_dCv_dP_T (T : R) (dP_dT : R) (dP_dV : R) (d2P_dV2 : R) (d2P_dTdV : R) (d2H_dTdP : R) (d2P_dTdP : R) : R :=
  let T := T in
  let dP_dT_V := dP_dT in
  let d2V_dTdP := (Ph_d2V_dPdT dP_dT dP_dV d2P_dV2 d2P_dTdV) in
  let dV_dT_P := (Ph_dV_dT dP_dT dP_dV) in
  let d2P_dTdP := d2P_dTdP in
  let d2H_dep_dTdP := d2H_dTdP in
  (((((- T) * dP_dT_V) * d2V_dTdP) - ((T * dV_dT_P) * d2P_dTdP)) + d2H_dep_dTdP).

(* thermo/phases/phase.py, lines 2593-2593: Phase.Cp_Cv_ratio. (without the cache; list path) *)
Definition Ph_Cp_Cv_ratio (T : R) (dP_dT : R) (dP_dV : R) (Cp : R) : R :=
  (Cp / (Ph_Cv T dP_dT dP_dV Cp)).

(* thermo/phases/phase.py, lines 2612-2612: Phase.isentropic_exponent_PV. (without the cache; list path) *)
Definition Ph_isentropic_exponent_PV (T : R) (P : R) (V : R) (dP_dT : R) (dP_dV : R) (Cp : R) : R :=
  (ext_isentropic_exponent_PV Cp (Ph_Cv T dP_dT dP_dV Cp) V P dP_dV).

(* thermo/phases/phase.py, lines 2632-2632: Phase.isentropic_exponent_PT. (without the cache; list path) *)
Definition Ph_isentropic_exponent_PT (P : R) (dP_dT : R) (dP_dV : R) (Cp : R) : R :=
  (ext_isentropic_exponent_PT Cp P (Ph_dV_dT dP_dT dP_dV)).

(* thermo/phases/phase.py, lines 2650-2650: Phase.isentropic_exponent_TV. (without the cache; list path) *)
Definition Ph_isentropic_exponent_TV (T : R) (V : R) (dP_dT : R) (dP_dV : R) (Cp : R) : R :=
  (ext_isentropic_exponent_TV (Ph_Cv T dP_dT dP_dV Cp) V dP_dT).

(* thermo/phases/phase.py, lines 2685-2685: Phase.Z. (without the cache; list path) *)
Definition Ph_Z (T : R) (P : R) (V : R) : R :=
  ((P * V) / (Rgas * T)).

(* thermo/phases/phase.py, lines 2702-2702: Phase.rho. (without the cache; list path) *)
Definition Ph_rho (V : R) : R :=
  (1 / V).

(* thermo/phases/phase.py, lines 3094-3095: Phase.PIP. (without the cache; list path) *)
Definition Ph_PIP (V : R) (dP_dT : R) (dP_dV : R) (d2P_dV2 : R) (d2P_dTdV : R) : R :=
  (ext_phase_identification_parameter V dP_dT dP_dV d2P_dV2 d2P_dTdV).

(* thermo/phases/phase.py, lines 3109-3109: Phase.kappa. (without the cache; list path) *)
Definition Ph_kappa (V : R) (dP_dT : R) (dP_dV : R) : R :=
  (((- 1) / V) * (Ph_dV_dP dP_dT dP_dV)).

(* thermo/phases/phase.py, lines 3126-3127: Phase.dkappa_dT. (without the cache; list path) *)
Definition Ph_dkappa_dT (V : R) (dP_dT : R) (dP_dV : R) (d2P_dV2 : R) (d2P_dTdV : R) : R :=
  let V := V in
  let dV_dP := (Ph_dV_dP dP_dT dP_dV) in
  let dV_dT := (Ph_dV_dT dP_dT dP_dV) in
  let d2V_dTdP := (Ph_d2V_dPdT dP_dT dP_dV d2P_dV2 d2P_dTdV) in
  (((- d2V_dTdP) / V) + ((dV_dP * dV_dT) / (V * V))).

(* thermo/phases/phase.py, lines 3143-3143: Phase.isothermal_bulk_modulus. (without the cache; list path) *)
Definition Ph_isothermal_bulk_modulus (V : R) (dP_dT : R) (dP_dV : R) : R :=
  (1 / (Ph_kappa V dP_dT dP_dV)).

(* thermo/phases/phase.py, lines 3157-3157: Phase.isobaric_expansion. (without the cache; list path) *)
Definition Ph_isobaric_expansion (V : R) (dP_dT : R) (dP_dV : R) : R :=
  ((Ph_dV_dT dP_dT dP_dV) / V).

(* thermo/phases/phase.py, lines 3184-3186: Phase.disobaric_expansion_dT. (without the cache; list path) *)
Definition Ph_disobaric_expansion_dT (V : R) (dP_dT : R) (dP_dV : R) (d2P_dT2 : R) (d2P_dV2 : R) (d2P_dTdV : R) : R :=
  let V_inv := (1 / V) in
  let dV_dT := (Ph_dV_dT dP_dT dP_dV) in
  (V_inv * ((Ph_d2V_dT2 dP_dT dP_dV d2P_dT2 d2P_dV2 d2P_dTdV) - ((dV_dT * dV_dT) * V_inv))).

(* thermo/phases/phase.py, lines 3214-3217: Phase.disobaric_expansion_dP. (without the cache; list path) *)
Definition Ph_disobaric_expansion_dP (V : R) (dP_dT : R) (dP_dV : R) (d2P_dV2 : R) (d2P_dTdV : R) : R :=
  let V_inv := (1 / V) in
  let dV_dT := (Ph_dV_dT dP_dT dP_dV) in
  let dV_dP := (Ph_dV_dP dP_dT dP_dV) in
  (V_inv * ((Ph_d2V_dPdT dP_dT dP_dV d2P_dV2 d2P_dTdV) - ((dV_dT * dV_dP) * V_inv))).

(* thermo/phases/phase.py, lines 3233-3233: Phase.Joule_Thomson. (without the cache; list path) *)
Definition Ph_Joule_Thomson (T : R) (V : R) (dP_dT : R) (dP_dV : R) (Cp : R) : R :=
  (ext_Joule_Thomson T V Cp (Ph_dV_dT dP_dT dP_dV) (Ph_isobaric_expansion V dP_dT dP_dV)).

(* thermo/phases/phase.py, lines 3255-3255: Phase.speed_of_sound. (without the cache; list path) *)
Definition Ph_speed_of_sound (T : R) (V : R) (dP_dT : R) (dP_dV : R) (Cp : R) : R :=
  (ext_speed_of_sound V dP_dV Cp (Ph_Cv T dP_dT dP_dV Cp)).

(* thermo/phases/phase.py, lines 3308-3309: Phase.dZ_dT. (without the cache; list path) *)
Definition Ph_dZ_dT (T : R) (P : R) (V : R) (dP_dT : R) (dP_dV : R) : R :=
  let T_inv := (1 / T) in
  (((P * (1 / Rgas)) * T_inv) * ((Ph_dV_dT dP_dT dP_dV) - (V * T_inv))).

(* thermo/phases/phase.py, lines 3324-3324: Phase.dZ_dP. (without the cache; list path) *)
Definition Ph_dZ_dP (T : R) (P : R) (V : R) (dP_dT : R) (dP_dV : R) : R :=
  ((1 / (T * Rgas)) * (V + (P * (Ph_dV_dP dP_dT dP_dV)))).

(* thermo/phases/phase.py, lines 3370-3371: Phase.dP_drho. (without the cache; list path) *)
Definition Ph_dP_drho (V : R) (dP_dV : R) : R :=
  let V := V in
  (((- V) * V) * dP_dV).

(* thermo/phases/phase.py, lines 3386-3387: Phase.drho_dP. (without the cache; list path) *)
Definition Ph_drho_dP (V : R) (dP_dT : R) (dP_dV : R) : R :=
  let V := V in
  ((- (Ph_dV_dP dP_dT dP_dV)) / (V * V)).

(* thermo/phases/phase.py, lines 3404-3405: Phase.d2P_drho2. (without the cache; list path) *)
Definition Ph_d2P_drho2 (V : R) (dP_dV : R) (d2P_dV2 : R) : R :=
  let V := V in
  (((V * V) * V) * ((V * d2P_dV2) + (2 * dP_dV))).

(* thermo/phases/phase.py, lines 3421-3422: Phase.d2rho_dP2. (without the cache; list path) *)
Definition Ph_d2rho_dP2 (V : R) (dP_dT : R) (dP_dV : R) (d2P_dV2 : R) : R :=
  let V := V in
  (((- (Ph_d2V_dP2 dP_dV d2P_dV2)) / (V ^ 2)) + ((2 * ((Ph_dV_dP dP_dT dP_dV) ^ 2)) / (V ^ 3))).

(* thermo/phases/phase.py, lines 3437-3438: Phase.dT_drho. (without the cache; list path) *)
Definition Ph_dT_drho (V : R) (dP_dT : R) (dP_dV : R) : R :=
  let V := V in
  (((- V) * V) * (Ph_dT_dV dP_dT dP_dV)).

(* thermo/phases/phase.py, lines 3455-3456: Phase.d2T_drho2. (without the cache; list path) *)
Definition Ph_d2T_drho2 (V : R) (dP_dT : R) (dP_dV : R) (d2P_dT2 : R) (d2P_dV2 : R) (d2P_dTdV : R) : R :=
  let V := V in
  (((V * V) * V) * ((V * (Ph_d2T_dV2 dP_dT dP_dV d2P_dT2 d2P_dV2 d2P_dTdV)) + (2 * (Ph_dT_dV dP_dT dP_dV)))).

(* thermo/phases/phase.py, lines 3471-3472: Phase.drho_dT. (without the cache; list path) *)
Definition Ph_drho_dT (V : R) (dP_dT : R) (dP_dV : R) : R :=
  let V := V in
  ((- (Ph_dV_dT dP_dT dP_dV)) / (V * V)).

(* thermo/phases/phase.py, lines 3488-3491: Phase.d2rho_dT2. (without the cache; list path) *)
Definition Ph_d2rho_dT2 (V : R) (dP_dT : R) (dP_dV : R) (d2P_dT2 : R) (d2P_dV2 : R) (d2P_dTdV : R) : R :=
  let d2V_dT2 := (Ph_d2V_dT2 dP_dT dP_dV d2P_dT2 d2P_dV2 d2P_dTdV) in
  let V := V in
  let dV_dT := (Ph_dV_dT dP_dT dP_dV) in
  (((- d2V_dT2) / (V ^ 2)) + ((2 * (dV_dT ^ 2)) / (V ^ 3))).

(* thermo/phases/phase.py, lines 3507-3509: Phase.d2P_dTdrho. (without the cache; list path) *)
Definition Ph_d2P_dTdrho (V : R) (d2P_dTdV : R) : R :=
  let V := V in
  let d2P_dTdV := d2P_dTdV in
  ((- (V * V)) * d2P_dTdV).

(* thermo/phases/phase.py, lines 3525-3527: Phase.d2T_dPdrho. (without the cache; list path) *)
Definition Ph_d2T_dPdrho (V : R) (dP_dT : R) (dP_dV : R) (d2P_dT2 : R) (d2P_dTdV : R) : R :=
  let V := V in
  let d2T_dPdV := (Ph_d2T_dPdV dP_dT dP_dV d2P_dT2 d2P_dTdV) in
  ((- (V * V)) * d2T_dPdV).

(* thermo/phases/phase.py, lines 3545-3549: Phase.d2rho_dPdT. (without the cache; list path) *)
Definition Ph_d2rho_dPdT (V : R) (dP_dT : R) (dP_dV : R) (d2P_dV2 : R) (d2P_dTdV : R) : R :=
  let d2V_dPdT := (Ph_d2V_dPdT dP_dT dP_dV d2P_dV2 d2P_dTdV) in
  let dV_dT := (Ph_dV_dT dP_dT dP_dV) in
  let dV_dP := (Ph_dV_dP dP_dT dP_dV) in
  let V := V in
  (((- d2V_dPdT) / (V ^ 2)) + (((2 * dV_dT) * dV_dP) / (V ^ 3))).

(* thermo/phases/phase.py, lines 3563-3564: Phase.drho_dV_T. (without the cache; list path) *)
Definition Ph_drho_dV_T (V : R) : R :=
  let V := V in
  ((- 1) / (V * V)).

(* thermo/phases/phase.py, lines 3579-3579: Phase.drho_dT_V. (without the cache; list path) *)
Definition Ph_drho_dT_V  : R :=
  0.

(* thermo/phases/phase.py, lines 3339-3339: Phase.dZ_dV. (without the cache; list path) *)
Definition Ph_dZ_dV (T : R) (P : R) (V : R) (dP_dV : R) : R :=
  ((P - ((Ph_rho V) * (Ph_dP_drho V dP_dV))) / (Rgas * T)).

(* thermo/phases/phase.py, lines 3354-3354: Phase.Bvirial. (without the cache; list path) *)
Definition Ph_Bvirial (T : R) (P : R) (V : R) : R :=
  (ext_B_from_Z (Ph_Z T P V) T P).

(* thermo/phases/phase.py, lines 4299-4299: Phase.dP_dT_P. (without the cache; list path) *)
Definition Ph_dP_dT_P  : R :=
  0.

(* thermo/phases/phase.py, lines 4311-4311: Phase.dP_dV_P. (without the cache; list path) *)
Definition Ph_dP_dV_P  : R :=
  0.

(* thermo/phases/phase.py, lines 4323-4323: Phase.dT_dP_T. (without the cache; list path) *)
Definition Ph_dT_dP_T  : R :=
  0.

(* thermo/phases/phase.py, lines 4335-4335: Phase.dT_dV_T. (without the cache; list path) *)
Definition Ph_dT_dV_T  : R :=
  0.

(* thermo/phases/phase.py, lines 4347-4347: Phase.dV_dT_V. (without the cache; list path) *)
Definition Ph_dV_dT_V  : R :=
  0.

(* thermo/phases/phase.py, lines 4359-4359: Phase.dV_dP_V. (without the cache; list path) *)
Definition Ph_dV_dP_V  : R :=
  0.

(* thermo/phases/phase.py, lines 4371-4371: Phase.dP_dP_T. (without the cache; list path) *)
Definition Ph_dP_dP_T  : R :=
  1.

(* thermo/phases/phase.py, lines 4383-4383: Phase.dP_dP_V. (without the cache; list path) *)
Definition Ph_dP_dP_V  : R :=
  1.

(* thermo/phases/phase.py, lines 4395-4395: Phase.dT_dT_P. (without the cache; list path) *)
Definition Ph_dT_dT_P  : R :=
  1.

(* thermo/phases/phase.py, lines 4407-4407: Phase.dT_dT_V. (without the cache; list path) *)
Definition Ph_dT_dT_V  : R :=
  1.

(* thermo/phases/phase.py, lines 4419-4419: Phase.dV_dV_T. (without the cache; list path) *)
Definition Ph_dV_dV_T  : R :=
  1.

(* thermo/phases/phase.py, lines 4431-4431: Phase.dV_dV_P. (without the cache; list path) *)
Definition Ph_dV_dV_P  : R :=
  1.

(* thermo/phases/phase.py, lines 3773-3773: Phase.V_ideal_gas. (without the cache; list path) *)
Definition Ph_V_ideal_gas (T : R) (P : R) : R :=
  ((Rgas * T) / P).

(* thermo/phases/phase.py, lines 3894-3895: Phase.Cv_ideal_gas. (without the cache; list path) *)
Definition Ph_Cv_ideal_gas (Cp_ideal_gas : R) : R :=
  let Cp := Cp_ideal_gas in
  (Cp - Rgas).

(* thermo/phases/phase.py, lines 3269-3270: Phase.speed_of_sound_ideal_gas_mass. (without the cache; list path) *)
Definition Ph_speed_of_sound_ideal_gas_mass (T : R) (Cp_ideal_gas : R) (MW : R) : R :=
  let k := (Cp_ideal_gas / (Ph_Cv_ideal_gas Cp_ideal_gas)) in
  (ext_c_ideal_gas T k MW).

(* thermo/phases/phase.py, lines 3290-3292: Phase.speed_of_sound_ideal_gas. (without the cache; list path) *)
Definition Ph_speed_of_sound_ideal_gas (T : R) (P : R) (Cp_ideal_gas : R) : R :=
  let V := ((Rgas * T) / P) in
  let dP_dV := (((- P) * P) / (Rgas * T)) in
  (ext_speed_of_sound V dP_dV Cp_ideal_gas (Ph_Cv_ideal_gas Cp_ideal_gas)).

(* thermo/phases/phase.py, lines 3910-3910: Phase.Cv_dep. (without the cache; list path) *)
Definition Ph_Cv_dep (T : R) (dP_dT : R) (dP_dV : R) (Cp : R) (Cp_ideal_gas : R) : R :=
  ((Ph_Cv T dP_dT dP_dV Cp) - (Ph_Cv_ideal_gas Cp_ideal_gas)).

(* thermo/phases/phase.py, lines 3925-3925: Phase.Cp_dep. (without the cache; list path) *)
Definition Ph_Cp_dep (Cp : R) (Cp_ideal_gas : R) : R :=
  (Cp - Cp_ideal_gas).

(* thermo/phases/phase.py, lines 3939-3939: Phase.Cp_Cv_ratio_ideal_gas. (without the cache; list path) *)
Definition Ph_Cp_Cv_ratio_ideal_gas (Cp_ideal_gas : R) : R :=
  (Cp_ideal_gas / (Ph_Cv_ideal_gas Cp_ideal_gas)).

(* thermo/phases/phase.py, lines 3953-3954: Phase.G_ideal_gas. (without the cache; list path) *)
Definition Ph_G_ideal_gas (T : R) (H_ideal_gas : R) (S_ideal_gas : R) : R :=
  let G_ideal_gas := (H_ideal_gas - (T * S_ideal_gas)) in
  G_ideal_gas.

(* thermo/phases/phase.py, lines 3968-3969: Phase.U_ideal_gas. (without the cache; list path) *)
Definition Ph_U_ideal_gas (T : R) (P : R) (H_ideal_gas : R) : R :=
  let U_ideal_gas := (H_ideal_gas - (P * (Ph_V_ideal_gas T P))) in
  U_ideal_gas.

(* thermo/phases/phase.py, lines 3983-3984: Phase.A_ideal_gas. (without the cache; list path) *)
Definition Ph_A_ideal_gas (T : R) (P : R) (H_ideal_gas : R) (S_ideal_gas : R) : R :=
  let A_ideal_gas := ((Ph_U_ideal_gas T P H_ideal_gas) - (T * S_ideal_gas)) in
  A_ideal_gas.

(* thermo/phases/phase.py, lines 1926-1927: Phase.G_dep. (without the cache; list path) *)
Definition Ph_G_dep (T : R) (H_dep : R) (S_dep : R) : R :=
  let G_dep := (H_dep - (T * S_dep)) in
  G_dep.

(* thermo/phases/phase.py, lines 1944-1945: Phase.V_dep. (without the cache; list path) *)
Definition Ph_V_dep (T : R) (P : R) (V : R) : R :=
  let V_dep := (V - ((Rgas * T) / P)) in
  V_dep.

(* thermo/phases/phase.py, lines 1962-1962: Phase.U_dep. (without the cache; list path) *)
Definition Ph_U_dep (T : R) (P : R) (V : R) (H_dep : R) : R :=
  (H_dep - (P * (Ph_V_dep T P V))).

(* thermo/phases/phase.py, lines 1979-1979: Phase.A_dep. (without the cache; list path) *)
Definition Ph_A_dep (T : R) (P : R) (V : R) (H_dep : R) (S_dep : R) : R :=
  ((Ph_U_dep T P V H_dep) - (T * S_dep)).

(* thermo/phases/phase.py, lines 4535-4536: Phase.MW_inv. (without the cache; list path) *)
Definition Ph_MW_inv (MW : R) : R :=
  let MW_inv := (1 / MW) in
  MW_inv.

(* thermo/phases/phase.py, lines 4552-4552: Phase.speed_of_sound_mass. (without the cache; list path) *)
Definition Ph_speed_of_sound_mass (T : R) (V : R) (dP_dT : R) (dP_dV : R) (Cp : R) (MW : R) : R :=
  (((31622776601683793 / 1000000000000000) / (sqrt MW)) * (Ph_speed_of_sound T V dP_dT dP_dV Cp)).

(* thermo/phases/phase.py, lines 4569-4570: Phase.rho_mass. (without the cache; list path) *)
Definition Ph_rho_mass (V : R) (MW : R) : R :=
  let rho_mass := (MW / (1000 * V)) in
  rho_mass.

(* thermo/phases/phase.py, lines 4605-4609: Phase.drho_mass_dT. (without the cache; list path) *)
Definition Ph_drho_mass_dT (V : R) (dP_dT : R) (dP_dV : R) (MW : R) : R :=
  let MW := MW in
  let V := V in
  let dV_dT := (Ph_dV_dT dP_dT dP_dV) in
  let drho_mass_dT := (((- MW) * dV_dT) / ((1000 * V) * V)) in
  drho_mass_dT.

(* thermo/phases/phase.py, lines 4644-4648: Phase.drho_mass_dP. (without the cache; list path) *)
Definition Ph_drho_mass_dP (V : R) (dP_dT : R) (dP_dV : R) (MW : R) : R :=
  let MW := MW in
  let V := V in
  let dV_dP := (Ph_dV_dP dP_dT dP_dV) in
  let drho_mass_dP := (((- MW) * dV_dP) / ((1000 * V) * V)) in
  drho_mass_dP.

(* thermo/phases/phase.py, lines 5020-5033: Phase.dspeed_of_sound_dT_P. (without the cache; list path) *)
Definition Ph_dspeed_of_sound_dT_P (T : R) (V : R) (dP_dT : R) (dP_dV : R) (Cp : R) (d2H_dT2 : R) (d2P_dT2_PV : R) (d2P_dVdT_TP : R) : R :=
  let x0 := Cp in
  let x1 := V in
  let x2 := dP_dV in
  let x3 := (Ph_Cv T dP_dT dP_dV Cp) in
  let x4 := (x0 * x2) in
  let x5 := (x4 / x3) in
  let x6 := ((1 / 2) * x1) in
  let x50 := d2P_dVdT_TP in
  let x51 := d2H_dT2 in
  let x52 := (Ph_dV_dT dP_dT dP_dV) in
  let x53 := (Ph_dCv_dT_P T dP_dT dP_dV d2H_dT2 d2P_dT2_PV d2P_dVdT_TP) in
  (((sqrt (((- x1) * x1) * x5)) * (((((x0 * x6) * x50) + ((x2 * x6) * x51)) + (x4 * x52)) - ((x5 * x6) * x53))) / ((x0 * x1) * x2)).

(* thermo/phases/phase.py, lines 5074-5087: Phase.dspeed_of_sound_dP_T. (without the cache; list path) *)
Definition Ph_dspeed_of_sound_dP_T (T : R) (V : R) (dP_dT : R) (dP_dV : R) (d2P_dV2 : R) (d2P_dTdV : R) (Cp : R) (d2H_dTdP : R) (d2P_dTdP : R) (d2P_dVdP : R) : R :=
  let x0 := Cp in
  let x1 := V in
  let x2 := dP_dV in
  let x3 := (Ph_Cv T dP_dT dP_dV Cp) in
  let x4 := (x0 * x2) in
  let x5 := (x4 / x3) in
  let x6 := ((1 / 2) * x1) in
  let x50 := d2P_dVdP in
  let x51 := d2H_dTdP in
  let x52 := (Ph_dV_dP dP_dT dP_dV) in
  let x53 := (Ph_dCv_dP_T T dP_dT dP_dV d2P_dV2 d2P_dTdV d2H_dTdP d2P_dTdP) in
  (((sqrt (((- x1) * x1) * x5)) * (((((x0 * x6) * x50) + ((x2 * x6) * x51)) + (x4 * x52)) - ((x5 * x6) * x53))) / ((x0 * x1) * x2)).

(* thermo/phases/phase.py, lines 5914-5919: Phase.dG_dep_dT. (without the cache; list path) *)
Definition Ph_dG_dep_dT (T : R) (S_dep : R) (dH_dep_dT : R) (dS_dep_dT : R) : R :=
  let T := T in
  let L_dG_dep_dT := ((dH_dep_dT - S_dep) - (T * dS_dep_dT)) in
  L_dG_dep_dT.

(* thermo/phases/phase.py, lines 4476-4488: Phase._derivs_jacobian. (the values found by getattr enter as parameters: a_x is d{a}_d{x}_{y}, and so on) *)
Definition Ph_derivs_jacobian (a_x : R) (c_y : R) (a_y : R) (c_x : R) (b_x : R) (b_y : R) : R :=
  let n0 := a_x in
  let n1 := c_y in
  let n2 := a_y in
  let n3 := c_x in
  let d0 := b_x in
  let d1 := c_y in
  let d2 := b_y in
  let d3 := c_x in
  (((n0 * n1) - (n2 * n3)) / ((d0 * d1) - (d2 * d3))).

(* thermo/phases/phase.py, lines 3848-3856: Phase.Cp_ideal_gas. (without the cache; list path) *)
Definition IG_Cp_ideal_gas (N_ : nat) (zs : nat -> R) (Cpigs_pure : nat -> R) : R :=
  let Cpigs_pure := Cpigs_pure in
  let Cp := 0 in
  let zs := zs in
  let Cp :=
    loop N_ (fun i Cp =>
      let Cp := (Cp + ((zs i) * (Cpigs_pure i))) in
      Cp
    ) Cp in
  Cp.

(* thermo/phases/phase.py, lines 3775-3797: Phase.H_ideal_gas. (without the cache; list path) *)
Definition IG_H_ideal_gas (N_ : nat) (zs : nat -> R) (Cpig_integrals_pure : nat -> R) : R :=
  let H := 0 in
  let H :=
    loop N_ (fun i H =>
      let H := (H + ((zs i) * (Cpig_integrals_pure i))) in
      H
    ) H in
  H.

(* thermo/phases/phase.py, lines 3799-3830: Phase.S_ideal_gas. (without the cache; list path) *)
Definition IG_S_ideal_gas (N_ : nat) (P : R) (zs : nat -> R) (Cpig_integrals_over_T_pure : nat -> R) (log_zs : nat -> R) (P_REF_IG_INV : R) : R :=
  let Cpig_integrals_over_T_pure := Cpig_integrals_over_T_pure in
  let log_zs := log_zs in
  let P := P in
  let zs := zs in
  let P_REF_IG_INV := P_REF_IG_INV in
  let S_ := 0 in
  let S_ := (S_ - (Rgas * (ln (P * P_REF_IG_INV)))) in
  let S_ := (S_ - (Rgas * (rsum N_ (fun i => ((zs i) * (log_zs i)))))) in
  let S_ :=
    loop N_ (fun i S_ =>
      let S_ := (S_ + ((zs i) * (Cpig_integrals_over_T_pure i))) in
      S_
    ) S_ in
  S_.

(* thermo/phases/phase.py, lines 5924-5937: IdealGasDeparturePhase.H. (without the cache; list path) *)
Definition IG_H (N_ : nat) (zs : nat -> R) (Cpig_integrals_pure : nat -> R) (H_dep : R) : R :=
  let H := H_dep in
  let H :=
    loop N_ (fun i H =>
      let H := (H + ((zs i) * (Cpig_integrals_pure i))) in
      H
    ) H in
  H.

(* thermo/phases/phase.py, lines 5939-5961: IdealGasDeparturePhase.S. (without the cache; list path) *)
Definition IG_S (N_ : nat) (P : R) (zs : nat -> R) (Cpig_integrals_over_T_pure : nat -> R) (log_zs : nat -> R) (P_REF_IG_INV : R) (S_dep : R) : R :=
  let Cpig_integrals_over_T_pure := Cpig_integrals_over_T_pure in
  let log_zs := log_zs in
  let P := P in
  let zs := zs in
  let P_REF_IG_INV := P_REF_IG_INV in
  let S_ := 0 in
  let S_ := (S_ - (Rgas * (rsum N_ (fun i => ((zs i) * (log_zs i)))))) in
  let S_ :=
    loop N_ (fun i S_ =>
      let S_ := (S_ + ((zs i) * (Cpig_integrals_over_T_pure i))) in
      S_
    ) S_ in
  let S_ := (S_ - (Rgas * (ln (P * P_REF_IG_INV)))) in
  let S_ := (S_ + S_dep) in
  S_.

(* thermo/phases/phase.py, lines 5968-5977: IdealGasDeparturePhase.Cp. (without the cache; list path) *)
Definition IG_Cp (N_ : nat) (zs : nat -> R) (Cpigs_pure : nat -> R) (Cp_dep : R) : R :=
  let Cpigs_pure := Cpigs_pure in
  let Cp := 0 in
  let zs := zs in
  let Cp :=
    loop N_ (fun i Cp =>
      let Cp := (Cp + ((zs i) * (Cpigs_pure i))) in
      Cp
    ) Cp in
  let Cp := (Cp + Cp_dep) in
  Cp.

(* thermo/phases/phase.py, lines 5986-5987: IdealGasDeparturePhase.dH_dP. (without the cache; list path) *)
Definition IG_dH_dP (dH_dep_dP_T : R) : R :=
  let dH_dP := dH_dep_dP_T in
  dH_dP.

(* thermo/phases/phase.py, lines 5992-5994: IdealGasDeparturePhase.dH_dT_V. (without the cache; list path) *)
Definition IG_dH_dT_V (N_ : nat) (zs : nat -> R) (Cpigs_pure : nat -> R) (dH_dep_dT_V : R) : R :=
  let dH_dT_V := (IG_Cp_ideal_gas N_ zs Cpigs_pure) in
  let dH_dT_V := (dH_dT_V + dH_dep_dT_V) in
  dH_dT_V.

(* thermo/phases/phase.py, lines 5997-5999: IdealGasDeparturePhase.dH_dP_V. (without the cache; list path) *)
Definition IG_dH_dP_V (N_ : nat) (zs : nat -> R) (Cpigs_pure : nat -> R) (dP_dT : R) (dH_dep_dP_V : R) : R :=
  let dH_dP_V := ((IG_Cp_ideal_gas N_ zs Cpigs_pure) * (Ph_dT_dP dP_dT)) in
  let dH_dP_V := (dH_dP_V + dH_dep_dP_V) in
  dH_dP_V.

(* thermo/phases/phase.py, lines 6002-6002: IdealGasDeparturePhase.dH_dV_T. (without the cache; list path) *)
Definition IG_dH_dV_T (dH_dep_dV_T : R) : R :=
  dH_dep_dV_T.

(* thermo/phases/phase.py, lines 6005-6007: IdealGasDeparturePhase.dH_dV_P. (without the cache; list path) *)
Definition IG_dH_dV_P (N_ : nat) (zs : nat -> R) (Cpigs_pure : nat -> R) (dP_dT : R) (dP_dV : R) (dH_dep_dV_P : R) : R :=
  let dH_dV_P := ((Ph_dT_dV dP_dT dP_dV) * (IG_Cp_ideal_gas N_ zs Cpigs_pure)) in
  let dH_dV_P := (dH_dV_P + dH_dep_dV_P) in
  dH_dV_P.

(* thermo/phases/phase.py, lines 6014-6023: IdealGasDeparturePhase.d2H_dT2. (without the cache; list path) *)
Definition IG_d2H_dT2 (N_ : nat) (zs : nat -> R) (dCpigs_dT_pure : nat -> R) (d2H_dep_dT2 : R) : R :=
  let dCpigs_pure := dCpigs_dT_pure in
  let dCp := 0 in
  let zs := zs in
  let dCp :=
    loop N_ (fun i dCp =>
      let dCp := (dCp + ((zs i) * (dCpigs_pure i))) in
      dCp
    ) dCp in
  let dCp := (dCp + d2H_dep_dT2) in
  dCp.

(* thermo/phases/phase.py, lines 6026-6033: IdealGasDeparturePhase.d2H_dT2_V. (without the cache; list path) *)
Definition IG_d2H_dT2_V (N_ : nat) (zs : nat -> R) (dCpigs_dT_pure : nat -> R) (d2H_dep_dT2_V : R) : R :=
  let dCpigs_pure := dCpigs_dT_pure in
  let dCp := 0 in
  let zs := zs in
  let dCp :=
    loop N_ (fun i dCp =>
      let dCp := (dCp + ((zs i) * (dCpigs_pure i))) in
      dCp
    ) dCp in
  (dCp + d2H_dep_dT2_V).

(* thermo/phases/phase.py, lines 6049-6051: IdealGasDeparturePhase.dS_dT. (without the cache; list path) *)
Definition IG_dS_dT (N_ : nat) (T : R) (zs : nat -> R) (Cpigs_pure : nat -> R) (dS_dep_dT : R) : R :=
  let dS_dT := ((IG_Cp_ideal_gas N_ zs Cpigs_pure) / T) in
  let dS_dT := (dS_dT + dS_dep_dT) in
  dS_dT.

(* thermo/phases/phase.py, lines 6054-6058: IdealGasDeparturePhase.dS_dP. (without the cache; list path) *)
Definition IG_dS_dP (P : R) (dS_dep_dP_T : R) : R :=
  let dS := 0 in
  let P := P in
  let dS := (dS - (Rgas / P)) in
  let dS := (dS + dS_dep_dP_T) in
  dS.

(* thermo/phases/phase.py, lines 6093-6095: IdealGasDeparturePhase.dS_dP_V. (without the cache; list path) *)
Definition IG_dS_dP_V (N_ : nat) (T : R) (P : R) (zs : nat -> R) (Cpigs_pure : nat -> R) (dP_dT : R) (dS_dep_dP_V : R) : R :=
  let dS_dP_V := (((- Rgas) / P) + (((IG_Cp_ideal_gas N_ zs Cpigs_pure) / T) * (Ph_dT_dP dP_dT))) in
  let dS_dP_V := (dS_dP_V + dS_dep_dP_V) in
  dS_dP_V.

(* thermo/phases/phase.py, lines 6098-6100: IdealGasDeparturePhase.d2S_dP2. (without the cache; list path) *)
Definition IG_d2S_dP2 (P : R) (d2S_dep_dP2 : R) : R :=
  let P := P in
  let d2S := (Rgas / (P * P)) in
  (d2S + d2S_dep_dP2).

(* thermo/phases/phase.py, lines 6087-6089: IdealGasDeparturePhase.dS_dT_V. (without the cache; list path) *)
Definition IG_dS_dT_V (N_ : nat) (T : R) (P : R) (zs : nat -> R) (Cpigs_pure : nat -> R) (dP_dT : R) (dS_dep_dT_V : R) : R :=
  let dS_dT_V := (((IG_Cp_ideal_gas N_ zs Cpigs_pure) / T) - ((Rgas / P) * dP_dT)) in
  let dS_dT_V := (dS_dT_V + dS_dep_dT_V) in
  dS_dT_V.

(* thermo/phases/phase.py, lines 6040-6046: IdealGasDeparturePhase.dH_dzs. (without the cache; list path) *)
Definition IG_dH_dzs (Cpig_integrals_pure : nat -> R) (dH_dep_dzs : nat -> R) : nat -> R :=
  let dH_dep_dzs := dH_dep_dzs in
  let Cpig_integrals_pure := Cpig_integrals_pure in
  let L_dH_dzs := (fun i => ((dH_dep_dzs i) + (Cpig_integrals_pure i))) in
  L_dH_dzs.

(* thermo/phases/phase.py, lines 6102-6117: IdealGasDeparturePhase.dS_dzs. (without the cache; list path) *)
Definition IG_dS_dzs (Cpig_integrals_over_T_pure : nat -> R) (log_zs : nat -> R) (dS_dep_dzs : nat -> R) : nat -> R :=
  let log_zs := log_zs in
  let integrals := Cpig_integrals_over_T_pure in
  let dS_dep_dzs := dS_dep_dzs in
  let L_dS_dzs := (fun i => (((integrals i) - (Rgas * ((log_zs i) + 1))) + (dS_dep_dzs i))) in
  L_dS_dzs.

(* thermo/phases/ideal_gas.py, lines 324-324: IdealGas.V. (without the cache; list path) *)
Definition IDG_V (T : R) (P : R) : R :=
  ((Rgas * T) / P).

(* thermo/phases/ideal_gas.py, lines 338-338: IdealGas.dP_dT. (without the cache; list path) *)
Definition IDG_dP_dT (T : R) (P : R) : R :=
  (P / T).

(* thermo/phases/ideal_gas.py, lines 353-353: IdealGas.dP_dV. (without the cache; list path) *)
Definition IDG_dP_dV (T : R) (P : R) : R :=
  (((- P) * P) / (Rgas * T)).

(* thermo/phases/ideal_gas.py, lines 369-369: IdealGas.d2P_dT2. (without the cache; list path) *)
Definition IDG_d2P_dT2  : R :=
  0.

(* thermo/phases/ideal_gas.py, lines 384-385: IdealGas.d2P_dV2. (without the cache; list path) *)
Definition IDG_d2P_dV2 (T : R) (P : R) : R :=
  let P := P in
  let T := T in
  ((((2 * P) * P) * P) / (((Rgas * Rgas) * T) * T)).

(* thermo/phases/ideal_gas.py, lines 401-402: IdealGas.d2P_dTdV. (without the cache; list path) *)
Definition IDG_d2P_dTdV (T : R) (P : R) : R :=
  let P := P in
  let T := T in
  (((- P) * P) / ((Rgas * T) * T)).

(* thermo/phases/ideal_gas.py, lines 405-405: IdealGas.d2T_dV2. (without the cache; list path) *)
Definition IDG_d2T_dV2  : R :=
  0.

(* thermo/phases/ideal_gas.py, lines 408-408: IdealGas.d2V_dT2. (without the cache; list path) *)
Definition IDG_d2V_dT2  : R :=
  0.

(* thermo/phases/ideal_gas.py, lines 411-411: IdealGas.dV_dT. (without the cache; list path) *)
Definition IDG_dV_dT (P : R) : R :=
  (Rgas / P).

(* thermo/phases/ideal_gas.py, lines 414-414: IdealGas.PIP. (without the cache; list path) *)
Definition IDG_PIP  : R :=
  1.

(* thermo/phases/ideal_gas.py, lines 417-418: IdealGas.d2V_dP2. (without the cache; list path) *)
Definition IDG_d2V_dP2 (T : R) (P : R) : R :=
  let P := P in
  let T := T in
  (((2 * Rgas) * T) / ((P * P) * P)).

(* thermo/phases/ideal_gas.py, lines 421-421: IdealGas.d2T_dP2. (without the cache; list path) *)
Definition IDG_d2T_dP2  : R :=
  0.

(* thermo/phases/ideal_gas.py, lines 424-425: IdealGas.dV_dP. (without the cache; list path) *)
Definition IDG_dV_dP (T : R) (P : R) : R :=
  let P := P in
  let T := T in
  (((- Rgas) * T) / (P * P)).

(* thermo/phases/ideal_gas.py, lines 428-428: IdealGas.dT_dP. (without the cache; list path) *)
Definition IDG_dT_dP (T : R) (P : R) : R :=
  (T / P).

(* thermo/phases/ideal_gas.py, lines 431-431: IdealGas.dT_dV. (without the cache; list path) *)
Definition IDG_dT_dV (P : R) : R :=
  (P * (1 / Rgas)).

(* thermo/phases/ideal_gas.py, lines 463-472: IdealGas.H. (without the cache; list path) *)
Definition IDG_H (N_ : nat) (zs : nat -> R) (Cpig_integrals_pure : nat -> R) : R :=
  let zs := zs in
  let Cpig_integrals_pure := Cpig_integrals_pure in
  let H := 0 in
  let H :=
    loop N_ (fun i H =>
      let H := (H + ((zs i) * (Cpig_integrals_pure i))) in
      H
    ) H in
  H.

(* thermo/phases/ideal_gas.py, lines 474-501: IdealGas.S. (without the cache; list path) *)
Definition IDG_S (N_ : nat) (P : R) (zs : nat -> R) (Cpig_integrals_over_T_pure : nat -> R) (log_zs : nat -> R) (P_REF_IG_INV : R) : R :=
  let Cpig_integrals_over_T_pure := Cpig_integrals_over_T_pure in
  let log_zs := log_zs in
  let P := P in
  let zs := zs in
  let P_REF_IG_INV := P_REF_IG_INV in
  let S_ := 0 in
  let S_ := (S_ - (Rgas * (rsum N_ (fun i => ((zs i) * (log_zs i)))))) in
  let S_ := (S_ - (Rgas * (ln (P * P_REF_IG_INV)))) in
  let S_ :=
    loop N_ (fun i S_ =>
      let S_ := (S_ + ((zs i) * (Cpig_integrals_over_T_pure i))) in
      S_
    ) S_ in
  S_.

(* thermo/phases/ideal_gas.py, lines 519-524: IdealGas.Cp. (without the cache; list path) *)
Definition IDG_Cp (N_ : nat) (zs : nat -> R) (Cpigs_pure : nat -> R) : R :=
  let Cpigs_pure := Cpigs_pure in
  let Cp := 0 in
  let zs := zs in
  let Cp :=
    loop N_ (fun i Cp =>
      let Cp := (Cp + ((zs i) * (Cpigs_pure i))) in
      Cp
    ) Cp in
  Cp.

(* thermo/phases/ideal_gas.py, lines 541-541: IdealGas.dH_dP. (without the cache; list path) *)
Definition IDG_dH_dP  : R :=
  0.

(* thermo/phases/ideal_gas.py, lines 560-565: IdealGas.d2H_dT2. (without the cache; list path) *)
Definition IDG_d2H_dT2 (N_ : nat) (zs : nat -> R) (dCpigs_dT_pure : nat -> R) : R :=
  let dCpigs_pure := dCpigs_dT_pure in
  let dCp := 0 in
  let zs := zs in
  let dCp :=
    loop N_ (fun i dCp =>
      let dCp := (dCp + ((zs i) * (dCpigs_pure i))) in
      dCp
    ) dCp in
  dCp.

(* thermo/phases/ideal_gas.py, lines 579-579: IdealGas.d2H_dP2. (without the cache; list path) *)
Definition IDG_d2H_dP2  : R :=
  0.

(* thermo/phases/ideal_gas.py, lines 593-593: IdealGas.d2H_dTdP. (without the cache; list path) *)
Definition IDG_d2H_dTdP  : R :=
  0.

(* thermo/phases/ideal_gas.py, lines 609-610: IdealGas.dH_dP_V. (without the cache; list path) *)
Definition IDG_dH_dP_V (N_ : nat) (T : R) (P : R) (zs : nat -> R) (Cpigs_pure : nat -> R) : R :=
  let dH_dP_V := ((IDG_Cp N_ zs Cpigs_pure) * (IDG_dT_dP T P)) in
  dH_dP_V.

(* thermo/phases/ideal_gas.py, lines 625-625: IdealGas.dH_dV_T. (without the cache; list path) *)
Definition IDG_dH_dV_T  : R :=
  0.

(* thermo/phases/ideal_gas.py, lines 641-642: IdealGas.dH_dV_P. (without the cache; list path) *)
Definition IDG_dH_dV_P (N_ : nat) (P : R) (zs : nat -> R) (Cpigs_pure : nat -> R) : R :=
  let dH_dV_P := ((IDG_dT_dV P) * (IDG_Cp N_ zs Cpigs_pure)) in
  dH_dV_P.

(* thermo/phases/ideal_gas.py, lines 659-660: IdealGas.dS_dT. (without the cache; list path) *)
Definition IDG_dS_dT (N_ : nat) (T : R) (zs : nat -> R) (Cpigs_pure : nat -> R) : R :=
  let dS_dT := ((IDG_Cp N_ zs Cpigs_pure) / T) in
  dS_dT.

(* thermo/phases/ideal_gas.py, lines 675-675: IdealGas.dS_dP. (without the cache; list path) *)
Definition IDG_dS_dP (P : R) : R :=
  ((- Rgas) / P).

(* thermo/phases/ideal_gas.py, lines 689-690: IdealGas.d2S_dP2. (without the cache; list path) *)
Definition IDG_d2S_dP2 (P : R) : R :=
  let P := P in
  (Rgas / (P * P)).

(* thermo/phases/ideal_gas.py, lines 706-707: IdealGas.dS_dT_V. (without the cache; list path) *)
Definition IDG_dS_dT_V (N_ : nat) (T : R) (P : R) (zs : nat -> R) (Cpigs_pure : nat -> R) : R :=
  let dS_dT_V := (((IDG_Cp N_ zs Cpigs_pure) / T) - ((Rgas / P) * (IDG_dP_dT T P))) in
  dS_dT_V.

(* thermo/phases/ideal_gas.py, lines 723-724: IdealGas.dS_dP_V. (without the cache; list path) *)
Definition IDG_dS_dP_V (N_ : nat) (T : R) (P : R) (zs : nat -> R) (Cpigs_pure : nat -> R) : R :=
  let dS_dP_V := (((- Rgas) / P) + (((IDG_Cp N_ zs Cpigs_pure) / T) * (IDG_dT_dP T P))) in
  dS_dP_V.

(* thermo/phases/ideal_gas.py, lines 727-727: IdealGas.d2P_dTdP. (without the cache; list path) *)
Definition IDG_d2P_dTdP  : R :=
  0.

(* thermo/phases/ideal_gas.py, lines 730-730: IdealGas.d2P_dVdP. (without the cache; list path) *)
Definition IDG_d2P_dVdP  : R :=
  0.

(* thermo/phases/ideal_gas.py, lines 733-733: IdealGas.d2P_dVdT_TP. (without the cache; list path) *)
Definition IDG_d2P_dVdT_TP  : R :=
  0.

(* thermo/phases/ideal_gas.py, lines 736-736: IdealGas.d2P_dT2_PV. (without the cache; list path) *)
Definition IDG_d2P_dT2_PV  : R :=
  0.

(* thermo/phases/ideal_gas.py, lines 739-739: IdealGas.H_dep. (without the cache; list path) *)
Definition IDG_H_dep  : R :=
  0.

(* thermo/phases/ideal_gas.py, lines 743-753: IdealGas.dS_dzs. (without the cache; list path) *)
Definition IDG_dS_dzs (Cpig_integrals_over_T_pure : nat -> R) (log_zs : nat -> R) : nat -> R :=
  let log_zs := log_zs in
  let integrals := Cpig_integrals_over_T_pure in
  let L_dS_dzs := (fun i => ((integrals i) - (Rgas * ((log_zs i) + 1)))) in
  L_dS_dzs.
