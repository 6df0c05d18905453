(* Derivatives at constant H, S, G, U or A (thermo/phases/phase.py, lines 4444-4488 and 6133-6159) and per mass (6184-6220). *)
From Coq Require Import Reals.
From Verif Require Import Base Gen_phase Model_pyerr.
Open Scope R_scope.

(* thermo/phases/phase.py, lines 6135-6138: the letters a, b and c in the name d{a}_d{b}_{c} *)
Inductive var := vT | vP | vV | vrho.
Inductive energy := eH | eS | eG | eU | eA.
(* lines 4476-4488: getattr(self, f'd{a}_dV_T')(), for a variable (T: dT_dV_T, P: dP_dV_T, V: dV_dV_T, rho: drho_dV_T) *)
Definition var_dV_T (a : var) (V dP_dV : R) : R :=
  match a with vT => Ph_dT_dV_T | vP => dP_dV | vV => Ph_dV_dV_T | vrho => Ph_drho_dV_T V end.
(* lines 4476-4488: getattr(self, f'd{a}_dT_V')() *)
Definition var_dT_V (a : var) (dP_dT : R) : R :=
  match a with vT => Ph_dT_dT_V | vP => dP_dT | vV => Ph_dV_dT_V | vrho => Ph_drho_dT_V end.
(* lines 4476-4488: getattr(self, f'd{c}_dV_T')() *)
Definition energy_dV_T (c : energy) (T P V dP_dT dP_dV dH_dP dH_dV_T dS_dP : R) : R :=
  match c with eH => dH_dV_T | eS => Ph_dS_dV_T dP_dV dS_dP | eG => Ph_dG_dV_T T dP_dV dH_dP dS_dP
  | eU => Ph_dU_dV_T P V dP_dT dP_dV dH_dP | eA => Ph_dA_dV_T T P V dP_dT dP_dV dH_dP dS_dP end.
(* lines 4476-4488: getattr(self, f'd{c}_dT_V')() *)
Definition energy_dT_V (c : energy) (T V dP_dT S dH_dT_V dS_dT_V : R) : R :=
  match c with eH => dH_dT_V | eS => dS_dT_V | eG => Ph_dG_dT_V T S dH_dT_V dS_dT_V
  | eU => Ph_dU_dT_V V dP_dT dH_dT_V | eA => Ph_dA_dT_V T V dP_dT S dH_dT_V dS_dT_V end.
(* lines 6139-6144: _der(self) of the name d{a}_d{b}_{c}; x is 'V' and y is 'T' (lines 4444-4445) *)
Definition jacobian (a b : var) (c : energy) (T P V dP_dT dP_dV S dH_dP dH_dT_V dH_dV_T dS_dP dS_dT_V : R) : R :=
  let c_x := energy_dV_T c T P V dP_dT dP_dV dH_dP dH_dV_T dS_dP in
  let c_y := energy_dT_V c T V dP_dT S dH_dT_V dS_dT_V in
  Ph_derivs_jacobian (var_dV_T a V dP_dV) c_y (var_dT_V a dP_dT) c_x (var_dV_T b V dP_dV) (var_dT_V b dP_dT).
(* lines 6184-6186: _der(self) of a name with _mass, from the value of the molar derivative *)
Definition mass_derivative (d MW : R) : R := d * 1000 * Ph_MW_inv MW.

(* thermo/phases/phase.py, Phase.dV_dP = -dV_dT()*dT_dP(), with dV_dT = -dP_dT()/dP_dV() and dT_dP = 1.0/dP_dT(), statement by statement
   with the exception of / (the lines are those of Ph_dV_dT, Ph_dV_dP and Ph_dT_dP in Gen_phase.v) *)
Definition dV_dT_py (dP_dT dP_dV : R) : option R := py_div (- dP_dT) dP_dV.
Definition dT_dP_py (dP_dT : R) : option R := py_div 1 dP_dT.
Definition dV_dP_py (dP_dT dP_dV : R) : option R := bindo (dV_dT_py dP_dT dP_dV) (fun a => bindo (dT_dP_py dP_dT) (fun b => Some (- a * b))).
