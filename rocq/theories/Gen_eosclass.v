(* Per-class attraction parameters and temperature solvers (thermo/eos.py)
   Generated by tools/py2v.py from the text of /repo; do not edit by hand. *)
From Coq Require Import Reals Lra Lia Arith Bool.
From Verif Require Import Base.
Open Scope R_scope.
Open Scope bool_scope.

(* thermo/eos.py, lines 7496-7528: PR.a_alpha_pure. *)
Definition PR_a_alpha_pure (T : R) (kappa : R) (Tc : R) (a : R) :=
  let x0 := (1 + (kappa * (1 - (sqrt (T / Tc))))) in
  ((a * x0) * x0).

(* thermo/eos.py, lines 7530-7593: PR.a_alpha_and_derivatives_pure. *)
Definition PR_a_alpha_and_derivatives_pure (T : R) (Tc : R) (kappa : R) (a : R) :=
  let Tc := Tc in
  let kappa := kappa in
  let a := a in
  let x0 := (sqrt T) in
  let x1 := (1 / (sqrt Tc)) in
  let x2 := ((kappa * ((x0 * x1) - 1)) - 1) in
  let x3 := (a * kappa) in
  let x4 := ((x1 * x2) / x0) in
  let a_alpha := ((a * x2) * x2) in
  let da_alpha_dT := (x4 * x3) in
  let d2a_alpha_dT2 := ((((1 / 2) * x3) * (((kappa * x1) * x1) - x4)) / T) in
  (a_alpha, da_alpha_dT, d2a_alpha_dT2).

(* thermo/eos.py, lines 8777-8811: PRSV.a_alpha_pure. *)
Definition PRSV_a_alpha_pure (T : R) (Tc : R) (a : R) (kappa0 : R) (kappa1 : R) :=
  let Tc := Tc in
  let a := a in
  let kappa0 := kappa0 in
  let kappa1 := kappa1 in
  let Tr := (T / Tc) in
  let sqrtTr := (sqrt Tr) in
  let v := (((kappa0 + ((kappa1 * (sqrtTr + 1)) * ((- Tr) + (7 / 10)))) * ((- sqrtTr) + 1)) + 1) in
  ((a * v) * v).

(* thermo/eos.py, lines 8706-8775: PRSV.a_alpha_and_derivatives_pure. *)
Definition PRSV_a_alpha_and_derivatives_pure (T : R) (Tc : R) (a : R) (kappa0 : R) (kappa1 : R) :=
  let Tc := Tc in
  let a := a in
  let kappa0 := kappa0 in
  let kappa1 := kappa1 in
  let x1 := (T / Tc) in
  let T_inv := (1 / T) in
  let x2 := (sqrt x1) in
  let x3 := (x2 - 1) in
  let x4 := ((10 * x1) - 7) in
  let x5 := (x2 + 1) in
  let x6 := ((10 * kappa0) - ((kappa1 * x4) * x5)) in
  let x7 := (x3 * x6) in
  let x8 := ((x7 * (1 / 10)) - 1) in
  let x10 := (x6 * T_inv) in
  let x11 := (kappa1 * x3) in
  let x12 := (x4 * T_inv) in
  let x13 := (((20 / Tc) * x5) + (x12 * x2)) in
  let x14 := (((- x10) * x2) + (x11 * x13)) in
  let a_alpha := ((a * x8) * x8) in
  let da_alpha_dT := ((((- a) * x14) * x8) * (1 / 10)) in
  let d2a_alpha_dT2 := ((a * ((x14 * x14) - (((x2 * T_inv) * (x7 - 10)) * ((((2 * kappa1) * x13) + x10) + (x11 * (((40 * x1) * T_inv) - x12)))))) * (1 / 200)) in
  (a_alpha, da_alpha_dT, d2a_alpha_dT2).

(* thermo/eos.py, lines 9049-9081: PRSV2.a_alpha_pure. *)
Definition PRSV2_a_alpha_pure (T : R) (Tc : R) (a : R) (kappa0 : R) (kappa1 : R) (kappa2 : R) (kappa3 : R) :=
  let Tc := Tc in
  let a := a in
  let kappa0 := kappa0 in
  let kappa1 := kappa1 in
  let kappa2 := kappa2 in
  let kappa3 := kappa3 in
  let Tr := (T / Tc) in
  let sqrtTr := (sqrt Tr) in
  let kappa := (kappa0 + (((kappa1 + ((kappa2 * (kappa3 - Tr)) * (1 - sqrtTr))) * (1 + sqrtTr)) * ((7 / 10) - Tr))) in
  let x0 := (1 + (kappa * (1 - sqrtTr))) in
  ((a * x0) * x0).

(* thermo/eos.py, lines 8969-9047: PRSV2.a_alpha_and_derivatives_pure. *)
Definition PRSV2_a_alpha_and_derivatives_pure (T : R) (Tc : R) (a : R) (kappa0 : R) (kappa1 : R) (kappa2 : R) (kappa3 : R) :=
  let Tc := Tc in
  let a := a in
  let kappa0 := kappa0 in
  let kappa1 := kappa1 in
  let kappa2 := kappa2 in
  let kappa3 := kappa3 in
  let Tc_inv := (1 / Tc) in
  let T_inv := (1 / T) in
  let x1 := (T * Tc_inv) in
  let x2 := (sqrt x1) in
  let x3 := (x2 - 1) in
  let x4 := (x2 + 1) in
  let x5 := ((10 * x1) - 7) in
  let x6 := ((- kappa3) + x1) in
  let x7 := (kappa1 + ((kappa2 * x3) * x6)) in
  let x8 := (x5 * x7) in
  let x9 := ((10 * kappa0) - (x4 * x8)) in
  let x10 := (x3 * x9) in
  let x11 := ((x10 * (1 / 10)) - 1) in
  let x13 := (x2 * T_inv) in
  let x14 := (x7 * Tc_inv) in
  let x15 := ((kappa2 * x4) * x5) in
  let x16 := (((2 * ((- x2) + 1)) * Tc_inv) + (x13 * (kappa3 - x1))) in
  let x17 := ((((- x13) * x8) - (x14 * ((20 * x2) + 20))) + (x15 * x16)) in
  let x18 := ((x13 * x9) + (x17 * x3)) in
  let x19 := ((x2 * T_inv) * T_inv) in
  let x20 := ((2 * x2) * T_inv) in
  let a_alpha := ((a * x11) * x11) in
  let da_alpha_dT := (((a * x11) * x18) * (1 / 10)) in
  let d2a_alpha_dT2 := ((a * ((x18 * x18) + ((x10 - 10) * (((x17 * x20) - (x19 * x9)) + (x3 * ((((((((40 * kappa2) * Tc_inv) * x16) * x4) + (((kappa2 * x16) * x20) * x5)) - (((40 * T_inv) * x14) * x2)) - (((x15 * T_inv) * x2) * ((4 * Tc_inv) - (x6 * T_inv)))) + (x19 * x8))))))) * (1 / 200)) in
  (a_alpha, da_alpha_dT, d2a_alpha_dT2).

(* thermo/eos.py, lines 9229-9245: VDW.a_alpha_pure. *)
Definition VDW_a_alpha_pure (T : R) (a : R) :=
  a.

(* thermo/eos.py, lines 9198-9227: VDW.a_alpha_and_derivatives_pure. *)
Definition VDW_a_alpha_and_derivatives_pure (T : R) (a : R) :=
  (a, 0, 0).

(* thermo/eos.py, lines 9547-9566: RK.a_alpha_pure. *)
Definition RK_a_alpha_pure (T : R) (Tc : R) (a : R) :=
  let Tc := Tc in
  let sqrt_Tr_inv := (sqrt (Tc / T)) in
  (a * sqrt_Tr_inv).

(* thermo/eos.py, lines 9510-9545: RK.a_alpha_and_derivatives_pure. *)
Definition RK_a_alpha_and_derivatives_pure (T : R) (Tc : R) (a : R) :=
  let Tc := Tc in
  let sqrt_Tr_inv := (/ (sqrt (T / Tc))) in
  let a_alpha := (a * sqrt_Tr_inv) in
  let T_inv := (1 / T) in
  let da_alpha_dT := ((((- (1 / 2)) * a) * T_inv) * sqrt_Tr_inv) in
  let d2a_alpha_dT2 := (((((3 / 4) * a) * T_inv) * T_inv) * sqrt_Tr_inv) in
  (a_alpha, da_alpha_dT, d2a_alpha_dT2).

(* thermo/eos.py, lines 9881-9902: SRK.a_alpha_pure. *)
Definition SRK_a_alpha_pure (T : R) (a : R) (Tc : R) (m : R) :=
  let a := a in
  let Tc := Tc in
  let m := m in
  let sqTr := (sqrt (T / Tc)) in
  let x0 := ((m * (1 - sqTr)) + 1) in
  ((a * x0) * x0).

(* thermo/eos.py, lines 9842-9879: SRK.a_alpha_and_derivatives_pure. *)
Definition SRK_a_alpha_and_derivatives_pure (T : R) (a : R) (Tc : R) (m : R) :=
  let a := a in
  let Tc := Tc in
  let m := m in
  let sqTr := (sqrt (T / Tc)) in
  let a_alpha := (a * (((m * (1 - sqTr)) + 1) ^ 2)) in
  let da_alpha_dT := (((((- a) * m) * sqTr) * ((m * ((- sqTr) + 1)) + 1)) / T) in
  let d2a_alpha_dT2 := ((((a * m) * sqTr) * (m + 1)) / ((2 * T) * T)) in
  (a_alpha, da_alpha_dT, d2a_alpha_dT2).

(* thermo/eos.py, lines 10667-10669: APISRK.a_alpha_pure. *)
Definition APISRK_a_alpha_pure (T : R) (a : R) (Tc : R) (S1 : R) (S2 : R) :=
  let a := a in
  let Tc := Tc in
  let S1 := S1 in
  let S2 := S2 in
  (a * ((((S1 * ((- (sqrt (T / Tc))) + 1)) + ((S2 * ((- (sqrt (T / Tc))) + 1)) * (/ (sqrt (T / Tc))))) + 1) ^ 2)).

(* thermo/eos.py, lines 10622-10665: APISRK.a_alpha_and_derivatives_pure. *)
Definition APISRK_a_alpha_and_derivatives_pure (T : R) (a : R) (Tc : R) (S1 : R) (S2 : R) :=
  let a := a in
  let Tc := Tc in
  let S1 := S1 in
  let S2 := S2 in
  let x0 := (sqrt (T / Tc)) in
  let x1 := (x0 - 1) in
  let x2 := (x1 / x0) in
  let x3 := (S2 * x2) in
  let x4 := (((S1 * x1) + x3) - 1) in
  let x5 := (S1 * x0) in
  let x6 := ((S2 - x3) + x5) in
  let x7 := (3 * S2) in
  let a_alpha := ((a * x4) * x4) in
  let da_alpha_dT := (((a * x4) * x6) / T) in
  let d2a_alpha_dT2 := ((a * (((- x4) * ((((- x2) * x7) + x5) + x7)) + (x6 * x6))) / ((2 * T) * T)) in
  (a_alpha, da_alpha_dT, d2a_alpha_dT2).

(* thermo/eos.py, lines 7251-7265: IG.a_alpha_pure. *)
Definition IG_a_alpha_pure (T : R) :=
  0.

(* thermo/eos.py, lines 7228-7249: IG.a_alpha_and_derivatives_pure. *)
Definition IG_a_alpha_and_derivatives_pure (T : R) :=
  (0, 0, 0).

(* thermo/eos.py, lines 7595-7633: PR.d3a_alpha_dT3_pure. *)
Definition PR_d3a_alpha_dT3_pure (T : R) (kappa : R) (Tc : R) (a : R) :=
  let kappa := kappa in
  let x0 := (1 / Tc) in
  let T_inv := (1 / T) in
  let x1 := (sqrt (T * x0)) in
  ((((((- a) * (3 / 4)) * kappa) * ((kappa * x0) - ((x1 * ((kappa * (x1 - 1)) - 1)) * T_inv))) * T_inv) * T_inv).

(* thermo/eos.py, lines 7635-7680: PR.P_max_at_V. (the except branch only serves mixtures with a single component) *)
Definition PR_P_max_at_V (V : R) (Tc : R) (a : R) (b : R) (kappa : R) :=
  let Tc := Tc in
  let a := a in
  let b := b in
  let kappa := kappa in
  let P_max := (((((- Rgas) * Tc) * a) * (((kappa ^ 2) + (2 * kappa)) + 1)) / ((((((Rgas * Tc) * (V ^ 2)) + ((((2 * Rgas) * Tc) * V) * b)) - ((Rgas * Tc) * (b ^ 2))) - ((V * a) * (kappa ^ 2))) + ((a * b) * (kappa ^ 2)))) in
  if (Rltb P_max 0) then
    None
  else
    Some P_max.

(* thermo/eos.py, lines 9904-9951: SRK.P_max_at_V. (the except branch only serves mixtures with a single component) *)
Definition SRK_P_max_at_V (V : R) (Tc : R) (a : R) (m : R) (b : R) :=
  let Tc := Tc in
  let a := a in
  let m := m in
  let b := b in
  let P_max := (((((- Rgas) * Tc) * a) * (((m ^ 2) + (2 * m)) + 1)) / (((((Rgas * Tc) * (V ^ 2)) + (((Rgas * Tc) * V) * b)) - ((V * a) * (m ^ 2))) + ((a * b) * (m ^ 2)))) in
  if (Rltb P_max 0) then
    None
  else
    Some P_max.

(* thermo/eos.py, lines 7267-7292: IG.solve_T. *)
Definition IG_solve_T (P : R) (V : R) :=
  ((P * V) * (1 / Rgas)).

(* thermo/eos.py, lines 9247-9272: VDW.solve_T. *)
Definition VDW_solve_T (P : R) (V : R) (b : R) (a : R) :=
  (((((P * (V ^ 2)) * (V - b)) + (V * a)) - (a * b)) / (Rgas * (V ^ 2))).

(* thermo/eos.py, lines 7686-7886: PR.solve_T. (solution=None or 'l'; the numerical fallback GCEOS.solve_T is the parameter fallback) *)
Definition PR_solve_T (P : R) (V : R) (Tc : R) (a : R) (b : R) (kappa : R) (fallback : R) :=
  let Tc := Tc in
  let a := a in
  let b := b in
  let kappa := kappa in
  let x0 := (V * V) in
  let x1 := (Rgas * Tc) in
  let x2 := (x0 * x1) in
  let x3 := (kappa * kappa) in
  let x4 := (a * x3) in
  let x5 := (b * x4) in
  let x6 := ((2 * V) * b) in
  let x7 := (x1 * x6) in
  let x8 := (b * b) in
  let x9 := (x1 * x8) in
  let x10 := (V * x4) in
  let thing := ((((x2 - x10) + x5) + x7) - x9) in
  let x11 := (thing * thing) in
  let x12 := (x0 * x0) in
  let x13 := (Rgas * Rgas) in
  let x14 := (Tc * Tc) in
  let x15 := (x13 * x14) in
  let x16 := (x8 * x8) in
  let x17 := (a * a) in
  let x18 := (x3 * x3) in
  let x19 := (x17 * x18) in
  let x20 := (x0 * V) in
  let x21 := ((((2 * Rgas) * Tc) * a) * x3) in
  let x22 := (x8 * b) in
  let x23 := ((4 * V) * x22) in
  let x24 := ((4 * b) * x20) in
  let x25 := (a * x1) in
  let x26 := (x25 * x8) in
  let x27 := (x26 * x3) in
  let x28 := (x0 * x25) in
  let x29 := (x28 * x3) in
  let x30 := (2 * x8) in
  let x31 := (((((((((((((6 * V) * x27) - ((2 * b) * x29)) + (((x0 * x13) * x14) * x30)) + (x0 * x19)) + (x12 * x15)) + (x15 * x16)) - (x15 * x23)) + (x15 * x24)) - (x19 * x6)) + (x19 * x8)) - (x20 * x21)) - (x21 * x22)) in
  let V_m_b := (V - b) in
  let x33 := (2 * (((Rgas * Tc) * a) * kappa)) in
  let x34 := (P * x2) in
  let x35 := (P * x5) in
  let x36 := (x25 * x3) in
  let x37 := (P * x10) in
  let x38 := ((P * Rgas) * Tc) in
  let x39 := (V * x17) in
  let x40 := ((2 * kappa) * x3) in
  let x41 := (b * x17) in
  let x42 := ((P * a) * x3) in
  let root_term := (sqrt (((V_m_b ^ 3) * ((x0 + x6) - x8)) * ((((((((P * x7) - (P * x9)) + x25) + x33) + x34) + x35) + x36) - x37))) in
  let x100 := ((((2 * a) * kappa) * x11) * (root_term * (kappa + 1))) in
  let x101 := ((x31 * V_m_b) * (((((((((((((((((((((((((4 * V) * ((((Rgas * Tc) * a) * b) * kappa)) + (x0 * x33)) - (x0 * x35)) + (x12 * x38)) + (x16 * x38)) + (x18 * x39)) - (x18 * x41)) - (x20 * x42)) - (x22 * x42)) - (x23 * x38)) + (x24 * x38)) + (x25 * x6)) - x26) - x27) + x28) + x29) + (x3 * x39)) - (x3 * x41)) + (x30 * x34)) - (x33 * x8)) + (x36 * x6)) + ((3 * x37) * x8)) + (x39 * x40)) - (x40 * x41))) in
  let x102 := ((- Tc) / (x11 * x31)) in
  let T_calc := (x102 * (x100 - x101)) in
  if (Rltb T_calc 0) then
    fallback
  else
    let Tc_inv := (1 / Tc) in
    let T_calc_high := (x102 * ((- x100) - x101)) in
    let c1 := (Rgas / V_m_b) in
    let c2 := (a / ((V * (V + b)) + (b * V_m_b))) in
    let rt := (sqrt (T_calc * Tc_inv)) in
    let alpha_root := (1 + (kappa * (1 - rt))) in
    let err := (((c1 * T_calc) - ((alpha_root * alpha_root) * c2)) - P) in
    if (Rltb (1 / 100) (Rabs (err / P))) then
      fallback
    else
      let derr := (c1 + ((((c2 * kappa) * rt) * ((kappa * (1 - rt)) + 1)) / T_calc)) in
      if (Reqb derr 0) then
        T_calc
      else
        let T_calc := (T_calc - (err / derr)) in
        let rt := (sqrt (T_calc * Tc_inv)) in
        let alpha_root := (1 + (kappa * (1 - rt))) in
        let err := (((c1 * T_calc) - ((alpha_root * alpha_root) * c2)) - P) in
        let derr := (c1 + ((((c2 * kappa) * rt) * ((kappa * (1 - rt)) + 1)) / T_calc)) in
        let T_calc := (T_calc - (err / derr)) in
        T_calc.

(* thermo/eos.py, lines 9954-10050: SRK.solve_T. *)
Definition SRK_solve_T (P : R) (V : R) (a : R) (b : R) (Tc : R) (m : R) :=
  let a := a in
  let b := b in
  let Tc := Tc in
  let m := m in
  let x0 := (Rgas * Tc) in
  let x1 := (V * b) in
  let x2 := (x0 * x1) in
  let x3 := (V * V) in
  let x4 := (x0 * x3) in
  let x5 := (m * m) in
  let x6 := (a * x5) in
  let x7 := (b * x6) in
  let x8 := (V * x6) in
  let x9 := ((((x2 + x4) + x7) - x8) ^ 2) in
  let x10 := (x3 * x3) in
  let x11 := (((Rgas * Rgas) * Tc) * Tc) in
  let x12 := (a * a) in
  let x13 := (x5 * x5) in
  let x14 := (x12 * x13) in
  let x15 := (b * b) in
  let x16 := (x3 * V) in
  let x17 := (a * x0) in
  let x18 := (x17 * x5) in
  let x19 := ((2 * b) * x16) in
  let x20 := (((((((((((- 2) * V) * b) * x14) + (((2 * V) * x15) * x18)) + (x10 * x11)) + ((x11 * x15) * x3)) + (x11 * x19)) + (x14 * x15)) + (x14 * x3)) - ((2 * x16) * x18)) in
  let x21 := (V - b) in
  let x22 := ((2 * m) * x17) in
  let x23 := (P * x4) in
  let x24 := (P * x8) in
  let x25 := (x1 * x17) in
  let x26 := ((P * Rgas) * Tc) in
  let x27 := (x17 * x3) in
  let x28 := (V * x12) in
  let x29 := (((2 * m) * m) * m) in
  let x30 := (b * x12) in
  let T_calc := (((- Tc) * ((((((2 * a) * m) * x9) * (sqrt (((((V * x21) * x21) * x21) * (V + b)) * (((((((P * x2) + (P * x7)) + x17) + x18) + x22) + x23) - x24)))) * (m + 1)) - ((x20 * x21) * (((((((((((((((((((- P) * x16) * x6) + (x1 * x22)) + (x10 * x26)) + (x13 * x28)) - (x13 * x30)) + (x15 * x23)) + (x15 * x24)) + (x19 * x26)) + (x22 * x3)) + (x25 * x5)) + x25) + (x27 * x5)) + x27) + (x28 * x29)) + (x28 * x5)) - (x29 * x30)) - (x30 * x5))))) / (x20 * x9)) in
  T_calc.

(* thermo/eos.py, lines 8682-8697: PRSV.solve_T. The function to_solve handed to the secant solver. *)
Definition PRSV_T_residual (P : R) (V : R) (Tc : R) (a : R) (b : R) (kappa0 : R) (kappa1 : R) (T : R) :=
  let Tc := Tc in
  let a := a in
  let b := b in
  let kappa0 := kappa0 in
  let kappa1 := kappa1 in
  let x0 := (V - b) in
  let R_x0 := (Rgas / x0) in
  let x3_inv := (1 / (100 * ((V * (V + b)) + (b * x0)))) in
  let x4 := (10 * kappa0) in
  let kappa110 := (kappa1 * 10) in
  let kappa17 := (kappa1 * 7) in
  let Tc_inv := (1 / Tc) in
  let x51 := (x3_inv * a) in
  let x1 := (T * Tc_inv) in
  let x2 := (sqrt x1) in
  let x10 := (((x4 - (((kappa110 * x1) - kappa17) * (x2 + 1))) * (x2 - 1)) - 10) in
  let x11 := ((T * R_x0) - P) in
  (x11 - ((x10 * x10) * x51)).

(* thermo/eos.py, lines 8948-8960: PRSV2.solve_T. The function to_solve handed to the secant solver. *)
Definition PRSV2_T_residual (P : R) (V : R) (Tc : R) (a : R) (b : R) (kappa0 : R) (kappa1 : R) (kappa2 : R) (kappa3 : R) (T : R) :=
  let Tc := Tc in
  let a := a in
  let b := b in
  let kappa0 := kappa0 in
  let kappa1 := kappa1 in
  let kappa2 := kappa2 in
  let kappa3 := kappa3 in
  let x0 := (V - b) in
  let R_x0 := (Rgas / x0) in
  let x5_inv := (1 / (100 * ((V * (V + b)) + (b * x0)))) in
  let x4 := (10 * kappa0) in
  let x1 := (T / Tc) in
  let x2 := (sqrt x1) in
  let x3 := (x2 - 1) in
  let x100 := ((x3 * (x4 - (((kappa1 + ((kappa2 * x3) * ((- kappa3) + x1))) * ((10 * x1) - 7)) * (x2 + 1)))) - 10) in
  (((R_x0 * T) - (((a * x100) * x100) * x5_inv)) - P).

(* thermo/eos.py, lines 10698-10712: APISRK.solve_T. The function to_solve handed to the secant solver when S2 <> 0. *)
Definition APISRK_T_residual (P : R) (V : R) (Tc : R) (a : R) (b : R) (S1 : R) (S2 : R) (T : R) :=
  let Tc := Tc in
  let a := a in
  let b := b in
  let S1 := S1 in
  let S2 := S2 in
  let x2 := (Rgas / (V - b)) in
  let x3 := (V * (V + b)) in
  let x0 := (sqrt (T / Tc)) in
  let x1 := (x0 - 1) in
  (((x2 * T) - ((a * ((((S1 * x1) + ((S2 * x1) / x0)) - 1) ^ 2)) / x3)) - P).

(* thermo/eos.py, lines 3506-3545: GCEOS.a_alpha_for_V. *)
Definition eos_a_alpha_for_V (T : R) (P : R) (V : R) (b : R) (delta : R) (epsilon_ : R) :=
  let b := b in
  let delta := delta in
  let epsilon_ := epsilon_ in
  let x0 := (P * b) in
  let x1 := (Rgas * T) in
  let x2 := (V * delta) in
  let x3 := (V * V) in
  let x4 := (x3 * V) in
  (((((((((((- P) * x4) - ((P * V) * epsilon_)) - ((P * delta) * x3)) + (epsilon_ * x0)) + (epsilon_ * x1)) + (x0 * x2)) + (x0 * x3)) + (x1 * x2)) + (x1 * x3)) / (V - b)).
