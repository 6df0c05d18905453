(* The virial gas phase (thermo/phases/virial_phase.py)
   Generated by tools/py2v.py from the text of /repo; do not edit by hand. *)
From Coq Require Import Reals Lra Lia Arith Bool.
From Verif Require Import Base.
Open Scope R_scope.
Open Scope bool_scope.

(* chemicals.virial: dV_dzs_virial and dBVirial_mixture_dzs, BVirial_mixture, mixing_simple, as documented there *)
Definition ext_dV_dzs_virial (B C V : R) (dB_dzs dC_dzs : nat -> R) : nat -> R := fun i => V * (V * dB_dzs i + dC_dzs i) / (2 * V * B + V * V + 3 * C).
Definition ext_BVirial_mixture (N : nat) (zs : nat -> R) (Bijs : nat -> nat -> R) : R := rsum N (fun i => rsum N (fun j => zs i * zs j * Bijs i j)).
Definition ext_dBVirial_mixture_dzs (N : nat) (zs : nat -> R) (Bijs : nat -> nat -> R) : nat -> R := fun i => rsum N (fun j => zs j * (Bijs i j + Bijs j i)).
Definition ext_mixing_simple (N : nat) (zs Bs : nat -> R) : R := rsum N (fun i => zs i * Bs i).

(* thermo/phases/virial_phase.py, lines 1266-1268: VirialGas.dP_dT. (without the cache; list path) *)
Definition Vir_dP_dT (T : R) (V : R) (B : R) (C_ : R) (dB_dT : R) (dC_dT : R) : R :=
  let T := T in
  let V := V in
  let dP_dT := ((Rgas * (((T * ((V * dB_dT) + dC_dT)) + (V * (V + B))) + C_)) / ((V * V) * V)) in
  dP_dT.

(* thermo/phases/virial_phase.py, lines 1289-1291: VirialGas.dP_dV. (without the cache; list path) *)
Definition Vir_dP_dV (T : R) (V : R) (B : R) (C_ : R) : R :=
  let T := T in
  let V := V in
  let dP_dV := ((((- Rgas) * T) * (((V * V) + ((2 * V) * B)) + (3 * C_))) / (((V * V) * V) * V)) in
  dP_dV.

(* thermo/phases/virial_phase.py, lines 1313-1318: VirialGas.d2P_dTdV. (without the cache; list path) *)
Definition Vir_d2P_dTdV (T : R) (V : R) (B : R) (C_ : R) (dB_dT : R) (dC_dT : R) : R :=
  let T := T in
  let V := V in
  let V2 := (V * V) in
  let d2P_dTdV := (((- Rgas) * (((((((2 * T) * V) * dB_dT) + ((3 * T) * dC_dT)) + V2) + ((2 * V) * B)) + (3 * C_))) / (V2 * V2)) in
  d2P_dTdV.

(* thermo/phases/virial_phase.py, lines 1339-1342: VirialGas.d2P_dV2. (without the cache; list path) *)
Definition Vir_d2P_dV2 (T : R) (V : R) (B : R) (C_ : R) : R :=
  let T := T in
  let V := V in
  let V2 := (V * V) in
  let d2P_dV2 := ((((2 * Rgas) * T) * ((V2 + ((3 * V) * B)) + (6 * C_))) / ((V2 * V2) * V)) in
  d2P_dV2.

(* thermo/phases/virial_phase.py, lines 1364-1368: VirialGas.d2P_dT2. (without the cache; list path) *)
Definition Vir_d2P_dT2 (T : R) (V : R) (dB_dT : R) (dC_dT : R) (d2B_dT2 : R) (d2C_dT2 : R) : R :=
  let T := T in
  let V := V in
  let V2 := (V * V) in
  let d2P_dT2 := ((Rgas * (((T * ((V * d2B_dT2) + d2C_dT2)) + ((2 * V) * dB_dT)) + (2 * dC_dT))) / ((V * V) * V)) in
  d2P_dT2.

(* thermo/phases/virial_phase.py, lines 1405-1410: VirialGas.H_dep. (without the cache; list path) *)
Definition Vir_H_dep (T : R) (V : R) (B : R) (C_ : R) (dB_dT : R) (dC_dT : R) : R :=
  let T := T in
  let V := V in
  let V2 := (V * V) in
  let RT := (Rgas * T) in
  let H_dep := ((- RT) * (((T * (((2 * V) * dB_dT) + dC_dT)) / (2 * V2)) - ((- 1) + (((V2 + (V * B)) + C_) / V2)))) in
  H_dep.

(* thermo/phases/virial_phase.py, lines 1432-1440: VirialGas.dH_dep_dT. (without the cache; list path) *)
Definition Vir_dH_dep_dT (T : R) (V : R) (B : R) (C_ : R) (dB_dT : R) (d2B_dT2 : R) (d2C_dT2 : R) : R :=
  let T := T in
  let V := V in
  let B := B in
  let C_ := C_ in
  let dB_dT := dB_dT in
  let d2B_dT2 := d2B_dT2 in
  let d2C_dT2 := d2C_dT2 in
  let dH_dep_dT := (- ((Rgas * ((((((((2 * T) * T) * V) * d2B_dT2) + ((T * T) * d2C_dT2)) + (((2 * T) * V) * dB_dT)) - ((2 * V) * B)) - (2 * C_))) / ((2 * V) * V))) in
  dH_dep_dT.

(* thermo/phases/virial_phase.py, lines 1807-1811: VirialGas.S_dep. (without the cache; list path) *)
Definition Vir_S_dep (T : R) (V : R) (B : R) (C_ : R) (dB_dT : R) (dC_dT : R) : R :=
  let T := T in
  let V := V in
  let V2 := (V * V) in
  let S_dep := ((Rgas * (((((- T) * dC_dT) + ((2 * V2) * (ln (((V2 + (V * B)) + C_) / (V ^ 2))))) - ((2 * V) * ((T * dB_dT) + B))) - C_)) / (2 * V2)) in
  S_dep.

(* thermo/phases/virial_phase.py, lines 1837-1842: VirialGas.dS_dep_dT. (without the cache; list path) *)
Definition Vir_dS_dep_dT (T : R) (V : R) (B : R) (C_ : R) (dB_dT : R) (dC_dT : R) (d2B_dT2 : R) (d2C_dT2 : R) : R :=
  let T := T in
  let V := V in
  let V2 := (V * V) in
  let dS_dep_dT := ((Rgas * (((2 * V2) * ((V * dB_dT) + dC_dT)) - (((V2 + (V * B)) + C_) * (((T * d2C_dT2) + ((2 * V) * ((T * d2B_dT2) + (2 * dB_dT)))) + (2 * dC_dT))))) / ((2 * V2) * ((V2 + (V * B)) + C_))) in
  dS_dep_dT.

(* thermo/phases/virial_phase.py, lines 2681-2681: VirialGas.dB_dP_V. (without the cache; list path) *)
Definition Vir_dB_dP_V (dB_dT : R) (dP_dT : R) : R :=
  (dB_dT / dP_dT).

(* thermo/phases/virial_phase.py, lines 2684-2684: VirialGas.dC_dP_V. (without the cache; list path) *)
Definition Vir_dC_dP_V (dC_dT : R) (dP_dT : R) : R :=
  (dC_dT / dP_dT).

(* thermo/phases/virial_phase.py, lines 2687-2687: VirialGas.d2B_dTdP_V. (without the cache; list path) *)
Definition Vir_d2B_dTdP_V (d2B_dT2 : R) (dP_dT : R) : R :=
  (d2B_dT2 / dP_dT).

(* thermo/phases/virial_phase.py, lines 2690-2690: VirialGas.d2C_dTdP_V. (without the cache; list path) *)
Definition Vir_d2C_dTdP_V (d2C_dT2 : R) (dP_dT : R) : R :=
  (d2C_dT2 / dP_dT).

(* thermo/phases/virial_phase.py, lines 2693-2693: VirialGas.d3B_dT2dP_V. (without the cache; list path) *)
Definition Vir_d3B_dT2dP_V (d3B_dT3 : R) (dP_dT : R) : R :=
  (d3B_dT3 / dP_dT).

(* thermo/phases/virial_phase.py, lines 2696-2696: VirialGas.d3C_dT2dP_V. (without the cache; list path) *)
Definition Vir_d3C_dT2dP_V (d3C_dT3 : R) (dP_dT : R) : R :=
  (d3C_dT3 / dP_dT).

(* thermo/phases/virial_phase.py, lines 2699-2699: VirialGas.dB_dV_P. (without the cache; list path) *)
Definition Vir_dB_dV_P (dB_dT : R) (dT_dV : R) : R :=
  (dB_dT * dT_dV).

(* thermo/phases/virial_phase.py, lines 2702-2702: VirialGas.dC_dV_P. (without the cache; list path) *)
Definition Vir_dC_dV_P (dC_dT : R) (dT_dV : R) : R :=
  (dC_dT * dT_dV).

(* thermo/phases/virial_phase.py, lines 2705-2705: VirialGas.d2B_dTdV_P. (without the cache; list path) *)
Definition Vir_d2B_dTdV_P (d2B_dT2 : R) (dT_dV : R) : R :=
  (d2B_dT2 * dT_dV).

(* thermo/phases/virial_phase.py, lines 2708-2708: VirialGas.d2C_dTdV_P. (without the cache; list path) *)
Definition Vir_d2C_dTdV_P (d2C_dT2 : R) (dT_dV : R) : R :=
  (d2C_dT2 * dT_dV).

(* thermo/phases/virial_phase.py, lines 2711-2711: VirialGas.d3B_dT2dV_P. (without the cache; list path) *)
Definition Vir_d3B_dT2dV_P (d3B_dT3 : R) (dT_dV : R) : R :=
  (d3B_dT3 * dT_dV).

(* thermo/phases/virial_phase.py, lines 2714-2714: VirialGas.d3C_dT2dV_P. (without the cache; list path) *)
Definition Vir_d3C_dT2dV_P (d3C_dT3 : R) (dT_dV : R) : R :=
  (d3C_dT3 * dT_dV).

(* thermo/phases/virial_phase.py, lines 1474-1491: VirialGas.dH_dep_dP_V. (without the cache; list path) *)
Definition Vir_dH_dep_dP_V (T : R) (V : R) (B : R) (C_ : R) (dB_dT : R) (dC_dT : R) (d2B_dT2 : R) (d2C_dT2 : R) (dP_dT : R) (dT_dP_V : R) : R :=
  let T := T in
  let V := V in
  let B := B in
  let C_ := C_ in
  let dB_dT := dB_dT in
  let dC_dT := dC_dT in
  let dB_dP_V := (Vir_dB_dP_V dB_dT dP_dT) in
  let dC_dP_V := (Vir_dC_dP_V dC_dT dP_dT) in
  let d2B_dTdP_V := (Vir_d2B_dTdP_V d2B_dT2 dP_dT) in
  let d2C_dTdP_V := (Vir_d2C_dTdP_V d2C_dT2 dP_dT) in
  let dT_dP_V := dT_dP_V in
  let V2 := (V * V) in
  let dH_dep_dP_V := (- ((((((- Rgas) * ((- 1) + (((V2 + (V * B)) + C_) / V2))) * dT_dP_V) - ((((Rgas * ((((- 2) * V) * dB_dT) - dC_dT)) * T) * dT_dP_V) / V2)) - (((Rgas * ((V * dB_dP_V) + dC_dP_V)) * T) / V2)) - ((((Rgas * ((((- 2) * V) * d2B_dTdP_V) - d2C_dTdP_V)) * T) * T) / (2 * V2)))) in
  dH_dep_dP_V.

(* thermo/phases/virial_phase.py, lines 1516-1532: VirialGas.dS_dep_dP_V. (without the cache; list path) *)
Definition Vir_dS_dep_dP_V (T : R) (V : R) (B : R) (C_ : R) (dB_dT : R) (dC_dT : R) (d2B_dT2 : R) (d2C_dT2 : R) (dP_dT : R) (dT_dP_V : R) : R :=
  let T := T in
  let V := V in
  let B := B in
  let C_ := C_ in
  let dB_dT := dB_dT in
  let dC_dT := dC_dT in
  let dB_dP_V := (Vir_dB_dP_V dB_dT dP_dT) in
  let dC_dP_V := (Vir_dC_dP_V dC_dT dP_dT) in
  let d2B_dTdP_V := (Vir_d2B_dTdP_V d2B_dT2 dP_dT) in
  let d2C_dTdP_V := (Vir_d2C_dTdP_V d2C_dT2 dP_dT) in
  let dT_dP_V := dT_dP_V in
  let dS_dep_dP_V := (((Rgas * ((V * dB_dP_V) + dC_dP_V)) / (((V ^ 2) + (V * B)) + C_)) + (((((((- Rgas) * T) * d2C_dTdP_V) - ((Rgas * dC_dT) * dT_dP_V)) - (Rgas * dC_dP_V)) + (V * ((((((-2) * Rgas) * T) * d2B_dTdP_V) - (((2 * Rgas) * dB_dT) * dT_dP_V)) - ((2 * Rgas) * dB_dP_V)))) / (2 * (V ^ 2)))) in
  dS_dep_dP_V.

(* thermo/phases/virial_phase.py, lines 1563-1571: VirialGas.dH_dep_dP_T. (without the cache; list path) *)
Definition Vir_dH_dep_dP_T (T : R) (V : R) (B : R) (C_ : R) (dB_dT : R) (dC_dT : R) (dV_dP : R) : R :=
  let T := T in
  let V := V in
  let B := B in
  let C_ := C_ in
  let dB_dT := dB_dT in
  let dC_dT := dC_dT in
  let dV_dP := dV_dP in
  let dH_dep_dP_T := (- ((((((Rgas * (T ^ 2)) * dB_dT) * dV_dP) / (V ^ 2)) + ((((Rgas * (T ^ 2)) * ((((-2) * dB_dT) * V) - dC_dT)) * dV_dP) / (V ^ 3))) - ((Rgas * T) * ((((B * dV_dP) + ((2 * V) * dV_dP)) / (V ^ 2)) - (((2 * (((B * V) + C_) + (V ^ 2))) * dV_dP) / (V ^ 3)))))) in
  dH_dep_dP_T.

(* thermo/phases/virial_phase.py, lines 1604-1613: VirialGas.dS_dep_dP_T. (without the cache; list path) *)
Definition Vir_dS_dep_dP_T (T : R) (V : R) (B : R) (C_ : R) (dB_dT : R) (dC_dT : R) (dV_dP : R) : R :=
  let T := T in
  let V := V in
  let B := B in
  let C_ := C_ in
  let dB_dT := dB_dT in
  let dC_dT := dC_dT in
  let dV_dP := dV_dP in
  let dS_dep_dP_T := (((((Rgas * ((((B * dV_dP) + ((2 * V) * dV_dP)) / (V ^ 2)) - (((2 * (((B * V) + C_) + (V ^ 2))) * dV_dP) / (V ^ 3)))) * (V ^ 2)) / (((B * V) + C_) + (V ^ 2))) + ((((((-2) * B) * Rgas) - (((2 * Rgas) * T) * dB_dT)) * dV_dP) / (2 * (V ^ 2)))) - ((((((- C_) * Rgas) - ((Rgas * T) * dC_dT)) + (((((-2) * B) * Rgas) - (((2 * Rgas) * T) * dB_dT)) * V)) * dV_dP) / (V ^ 3))) in
  dS_dep_dP_T.

(* thermo/phases/virial_phase.py, lines 1639-1644: VirialGas.dH_dep_dV_T. (without the cache; list path) *)
Definition Vir_dH_dep_dV_T (T : R) (V : R) (B : R) (C_ : R) (dB_dT : R) (dC_dT : R) : R :=
  let T := T in
  let V := V in
  let B := B in
  let C_ := C_ in
  let dB_dT := dB_dT in
  let dC_dT := dC_dT in
  (- (((((Rgas * (T ^ 2)) * dB_dT) / (V ^ 2)) + (((Rgas * (T ^ 2)) * ((((-2) * V) * dB_dT) - dC_dT)) / (V ^ 3))) - ((Rgas * T) * (((B + (2 * V)) / (V ^ 2)) - ((2 * (((B * V) + C_) + (V ^ 2))) / (V ^ 3)))))).

(* thermo/phases/virial_phase.py, lines 1672-1678: VirialGas.dS_dep_dV_T. (without the cache; list path) *)
Definition Vir_dS_dep_dV_T (T : R) (V : R) (B : R) (C_ : R) (dB_dT : R) (dC_dT : R) : R :=
  let T := T in
  let V := V in
  let B := B in
  let C_ := C_ in
  let dB_dT := dB_dT in
  let dC_dT := dC_dT in
  (((((Rgas * (V ^ 2)) * (((B + (2 * V)) / (V ^ 2)) - ((2 * (((B * V) + C_) + (V ^ 2))) / (V ^ 3)))) / (((B * V) + C_) + (V ^ 2))) + (((((-2) * B) * Rgas) - (((2 * Rgas) * T) * dB_dT)) / (2 * (V ^ 2)))) - (((((- C_) * Rgas) - ((Rgas * T) * dC_dT)) + (V * ((((-2) * B) * Rgas) - (((2 * Rgas) * T) * dB_dT)))) / (V ^ 3))).

(* thermo/phases/virial_phase.py, lines 1715-1727: VirialGas.dH_dep_dV_P. (without the cache; list path) *)
Definition Vir_dH_dep_dV_P (T : R) (V : R) (B : R) (C_ : R) (dB_dT : R) (dC_dT : R) (d2B_dT2 : R) (d2C_dT2 : R) (dT_dV : R) : R :=
  let T := T in
  let V := V in
  let B := B in
  let C_ := C_ in
  let dT_dV := dT_dV in
  let dB_dT := dB_dT in
  let dC_dT := dC_dT in
  let dB_dV_P := (Vir_dB_dV_P dB_dT dT_dV) in
  let dC_dV_P := (Vir_dC_dV_P dC_dT dT_dV) in
  let d2B_dTdV_P := (Vir_d2B_dTdV_P d2B_dT2 dT_dV) in
  let d2C_dTdV_P := (Vir_d2C_dTdV_P d2C_dT2 dT_dV) in
  (- (((((((- Rgas) * ((-1) + ((((V ^ 2) + (V * B)) + C_) / (V ^ 2)))) * dT_dV) - ((Rgas * ((((((V * dB_dV_P) + (2 * V)) + B) + dC_dV_P) / (V ^ 2)) - ((2 * (((V ^ 2) + (V * B)) + C_)) / (V ^ 3)))) * T)) - ((((Rgas * ((((-2) * V) * dB_dT) - dC_dT)) * T) * dT_dV) / (V ^ 2))) - (((Rgas * (((((-2) * V) * d2B_dTdV_P) - (2 * dB_dT)) - d2C_dTdV_P)) * (T ^ 2)) / (2 * (V ^ 2)))) + (((Rgas * ((((-2) * V) * dB_dT) - dC_dT)) * (T ^ 2)) / (V ^ 3)))).

(* thermo/phases/virial_phase.py, lines 1766-1776: VirialGas.dS_dep_dV_P. (without the cache; list path) *)
Definition Vir_dS_dep_dV_P (T : R) (V : R) (B : R) (C_ : R) (dB_dT : R) (dC_dT : R) (d2B_dT2 : R) (d2C_dT2 : R) (dT_dV : R) : R :=
  let T := T in
  let V := V in
  let B := B in
  let C_ := C_ in
  let dT_dV := dT_dV in
  let dB_dT := dB_dT in
  let dC_dT := dC_dT in
  let dB_dV_P := (Vir_dB_dV_P dB_dT dT_dV) in
  let dC_dV_P := (Vir_dC_dV_P dC_dT dT_dV) in
  let d2B_dTdV_P := (Vir_d2B_dTdV_P d2B_dT2 dT_dV) in
  let d2C_dTdV_P := (Vir_d2C_dTdV_P d2C_dT2 dT_dV) in
  (((((Rgas * (V ^ 2)) * ((((((V * dB_dV_P) + (2 * V)) + B) + dC_dV_P) / (V ^ 2)) - ((2 * (((V ^ 2) + (V * B)) + C_)) / (V ^ 3)))) / (((V ^ 2) + (V * B)) + C_)) + (((((((((-2) * Rgas) * B) - (((2 * Rgas) * T) * dB_dT)) - ((Rgas * T) * d2C_dTdV_P)) - ((Rgas * dC_dT) * dT_dV)) - (Rgas * dC_dV_P)) + (V * ((((((-2) * Rgas) * T) * d2B_dTdV_P) - (((2 * Rgas) * dB_dT) * dT_dV)) - ((2 * Rgas) * dB_dV_P)))) / (2 * (V ^ 2)))) - (((((- Rgas) * C_) - ((Rgas * T) * dC_dT)) + (V * ((((-2) * Rgas) * B) - (((2 * Rgas) * T) * dB_dT)))) / (V ^ 3))).

(* thermo/phases/virial_phase.py, lines 1219-1219: VirialGas.lnphi. (without the cache; list path) *)
Definition Vir_lnphi (T : R) (G_dep : R) : R :=
  (G_dep / (Rgas * T)).

(* thermo/phases/virial_phase.py, lines 1159-1187: VirialGas.dG_dep_dzs. (without the cache; list path) *)
Definition Vir_dG_dep_dzs (N_ : nat) (T : R) (V : R) (B : R) (C_ : R) (dB_dzs : nat -> R) (dC_dzs : nat -> R) (dV_dzs : nat -> R) : nat -> R :=
  let T := T in
  let dB_dzs := dB_dzs in
  let dC_dzs := dC_dzs in
  let dV_dzs := dV_dzs in
  let B := B in
  let C_ := C_ in
  let V := V in
  let N_ := N_ in
  let dG_dep_dzs := (fun _ => 0) in
  let dG_dep_dzs :=
    loop N_ (fun i dG_dep_dzs =>
      let x0 := V in
      let x1 := (x0 * x0) in
      let x2 := (1 / x1) in
      let x3 := C_ in
      let x4 := (dC_dzs i) in
      let x5 := B in
      let x6 := (dV_dzs i) in
      let x7 := (x5 * x6) in
      let x8 := (x0 * (dB_dzs i)) in
      let x9 := (x0 * x5) in
      let x10 := ((x1 + x3) + x9) in
      let x11 := (ln (x10 * x2)) in
      let x12 := ((2 * x0) * x6) in
      let x13 := (1 / x0) in
      let dG_dep_dzs := upd dG_dep_dzs i (((Rgas * T) * x2) * (((((((x1 * (((((((2 * x10) * x13) * x6) - x12) - x4) - x7) - x8)) / x10) - (x11 * x12)) - ((x13 * x6) * (((((-2) * x1) * x11) + (3 * x3)) + (4 * x9)))) + ((3 * x4) / 2)) + (2 * x7)) + (2 * x8))) in
      dG_dep_dzs
    ) dG_dep_dzs in
  dG_dep_dzs.
