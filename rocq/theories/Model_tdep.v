(* A temperature dependent property and its extrapolation: thermo/utils/t_dependent_property.py, class TDependentProperty.
   Real arithmetic instead of floats. An exception is None. *)
From Coq Require Import Reals Arith List Bool String.
From Verif Require Import Base Model_pyerr.
Import ListNotations.
Open Scope R_scope.
Open Scope string_scope.

(* The names of the extrapolations, as the strings compared in _get_extrapolation_coeffs (lines 4466-4523) and extrapolate (4612-4647) *)
Inductive ext := LINEAR | LOG_LINEAR | ARRHENIUS | CONSTANT | NOLIMIT | ANTOINE_AB | DIPPR101_ABC | WATSON | EXP_POLY_LN_TAU2 | EXP_POLY_LN_TAU3 | DIPPR106_AB | DIPPR106_ABC | UNKNOWN.
Definition kind_of (s : string) : ext :=
  if String.eqb s "linear" then LINEAR else if String.eqb s "log(linear)" then LOG_LINEAR else if String.eqb s "Arrhenius" then ARRHENIUS
  else if String.eqb s "constant" then CONSTANT else if String.eqb s "nolimit" then NOLIMIT else if String.eqb s "AntoineAB" then ANTOINE_AB
  else if String.eqb s "DIPPR101_ABC" then DIPPR101_ABC else if String.eqb s "Watson" then WATSON else if String.eqb s "EXP_POLY_LN_TAU2" then EXP_POLY_LN_TAU2
  else if String.eqb s "EXP_POLY_LN_TAU3" then EXP_POLY_LN_TAU3 else if String.eqb s "DIPPR106_AB" then DIPPR106_AB else if String.eqb s "DIPPR106_ABC" then DIPPR106_ABC else UNKNOWN.

(* Functions of the chemicals and fluids libraries, which are not part of the repository: written from their documented equations.
   vapor_pressure.Antoine with base e, its derivatives, and Antoine_AB_coeffs_from_point *)
Definition ext_Antoine (T A B C : R) : R := exp (A - B / (T + C)).
Definition ext_dAntoine (T A B C : R) : R := B / (T + C) ^ 2 * exp (A - B / (T + C)).
Definition ext_d2Antoine (T A B C : R) : R := B * (B / (T + C) - 2) / (T + C) ^ 3 * exp (A - B / (T + C)).
Definition ext_Antoine_AB (T P dP : R) : list R := let B := T ^ 2 * dP / P in [ln P + B / T; B].
(* vapor_pressure.Arrhenius_parameters: ln(P) linear in 1/T with the value and slope given; Arrhenius_extrapolation and its derivatives *)
Definition ext_Arrhenius_parameters (T P dP : R) : list R := [T; P; - (T ^ 2) * dP / P].
Definition ext_Arrhenius (T T_ref P_ref slope : R) : R := P_ref * exp (slope * (1 / T - 1 / T_ref)).
Definition ext_dArrhenius (T T_ref P_ref slope : R) : R := - slope / T ^ 2 * ext_Arrhenius T T_ref P_ref slope.
Definition ext_d2Arrhenius (T T_ref P_ref slope : R) : R := slope * (2 * T + slope) / T ^ 4 * ext_Arrhenius T T_ref P_ref slope.
Definition ext_d3Arrhenius (T T_ref P_ref slope : R) : R := - slope * (6 * T ^ 2 + 6 * slope * T + slope ^ 2) / T ^ 6 * ext_Arrhenius T T_ref P_ref slope.
(* dippr.EQ101 with D = 0 and its derivatives; vapor_pressure.DIPPR101_ABC_coeffs_from_point *)
Definition ext_EQ101 (T A B C : R) : R := exp (A + B / T + C * ln T).
Definition ext_EQ101_1 (T A B C : R) : R := (- B / T ^ 2 + C / T) * ext_EQ101 T A B C.
Definition ext_EQ101_2 (T A B C : R) : R := ((- B / T ^ 2 + C / T) ^ 2 + 2 * B / T ^ 3 - C / T ^ 2) * ext_EQ101 T A B C.
Definition ext_EQ101_3 (T A B C : R) : R := let l1 := - B / T ^ 2 + C / T in let l2 := 2 * B / T ^ 3 - C / T ^ 2 in (l1 ^ 3 + 3 * l1 * l2 - 6 * B / T ^ 4 + 2 * C / T ^ 3) * ext_EQ101 T A B C.
Definition ext_DIPPR101 (T P d d2 : R) : list R :=
  let B := T ^ 2 * (T * P * d2 - T * d ^ 2 + P * d) / P ^ 2 in
  let C := T * (T * P * d2 - T * d ^ 2 + 2 * P * d) / P ^ 2 in
  [ln P - B / T - C * ln T; B; C].
(* dippr.EQ106 with D = E = 0 and its derivatives; EQ106_AB and EQ106_ABC *)
Definition ext_EQ106 (T Tc A B C : R) : R := A * Rpower (1 - T / Tc) (B + C * (T / Tc)).
Definition ext_EQ106_l1 (T Tc B C : R) : R := C / Tc * ln (1 - T / Tc) - (B + C * (T / Tc)) / (Tc - T).
Definition ext_EQ106_l2 (T Tc B C : R) : R := - 2 * C / (Tc * (Tc - T)) - (B + C * (T / Tc)) / (Tc - T) ^ 2.
Definition ext_EQ106_l3 (T Tc B C : R) : R := - 3 * C / (Tc * (Tc - T) ^ 2) - 2 * (B + C * (T / Tc)) / (Tc - T) ^ 3.
Definition ext_EQ106_1 (T Tc A B C : R) : R := ext_EQ106_l1 T Tc B C * ext_EQ106 T Tc A B C.
Definition ext_EQ106_2 (T Tc A B C : R) : R := (ext_EQ106_l1 T Tc B C ^ 2 + ext_EQ106_l2 T Tc B C) * ext_EQ106 T Tc A B C.
Definition ext_EQ106_3 (T Tc A B C : R) : R := (ext_EQ106_l1 T Tc B C ^ 3 + 3 * ext_EQ106_l1 T Tc B C * ext_EQ106_l2 T Tc B C + ext_EQ106_l3 T Tc B C) * ext_EQ106 T Tc A B C.
Definition ext_EQ106_AB (T Tc v d : R) : list R := let B := - (d * (Tc - T)) / v in [v * Rpower (1 - T / Tc) (- B); B].
Definition ext_EQ106_ABC (T Tc v d d2 : R) : list R :=
  let l1 := d / v in let l2 := d2 / v - (d / v) ^ 2 in
  let C := Tc * (l1 - l2 * (Tc - T)) / (2 + ln (1 - T / Tc)) in
  let e := (Tc - T) * (C / Tc * ln (1 - T / Tc) - l1) in
  [v * Rpower (1 - T / Tc) (- e); e - C * (T / Tc); C].
(* phase_change.Watson and Watson_n *)
Definition ext_Watson (T Hvap_ref T_ref Tc n : R) : R := Hvap_ref * Rpower ((1 - T / Tc) / (1 - T_ref / Tc)) n.
Definition ext_Watson_n (T1 T2 H1 H2 Tc : R) : R := ln (H1 / H2) / ln ((Tc - T1) / (Tc - T2)).
(* fluids.numerics.exp_horner_backwards_ln_tau and its derivatives (coefficients from the highest power down), exp_poly_ln_tau_coeffs2 and 3 *)
Fixpoint horner_from (acc : R) (cs : list R) (x : R) : R := match cs with [] => acc | c :: cs' => horner_from (acc * x + c) cs' x end.
Definition ext_horner (cs : list R) (x : R) : R := horner_from 0 cs x.
Fixpoint ext_der (cs : list R) : list R := match cs with [] => [] | [c] => [] | c :: cs' => INR (List.length cs') * c :: ext_der cs' end.
Definition ext_exp_ln_tau (T Tc : R) (cs : list R) : R := exp (ext_horner cs (ln (1 - T / Tc))).
Definition ext_exp_ln_tau_1 (T Tc : R) (cs : list R) : R := - ext_horner (ext_der cs) (ln (1 - T / Tc)) / (Tc - T) * ext_exp_ln_tau T Tc cs.
Definition ext_exp_ln_tau_2 (T Tc : R) (cs : list R) : R :=
  let x := ln (1 - T / Tc) in let p1 := ext_horner (ext_der cs) x in let p2 := ext_horner (ext_der (ext_der cs)) x in
  (p1 ^ 2 + p2 - p1) / (Tc - T) ^ 2 * ext_exp_ln_tau T Tc cs.
Definition ext_exp_poly2 (T Tc v d : R) : list R := let c := - (d * (Tc - T)) / v in [c; ln v - c * ln (1 - T / Tc)].
Definition ext_exp_poly3 (T Tc v d d2 : R) : list R :=
  let x := ln (1 - T / Tc) in let l1 := d / v in let l2 := d2 / v - (d / v) ^ 2 in
  let a := (l2 * (Tc - T) ^ 2 - l1 * (Tc - T)) / 2 in let b := - l1 * (Tc - T) - 2 * a * x in
  [a; b; ln v - a * x ^ 2 - b * x].

(* What the object does for one method: calculate, calculate_derivative of each order, _calculate_derivative_transformed with the logarithm,
   calculate_integral, calculate_integral_over_T, and T_limits (the high one may be infinite, None) *)
Record method := { calc : R -> option R; cder : nat -> R -> option R; clogder : R -> option R; cint : R -> R -> option R; cintT : R -> R -> option R; m_lo : R; m_hi : option R }.
(* T <= limit, T >= limit *)
Definition le_hi (T : R) (h : option R) : bool := match h with None => true | Some h => Rleb T h end.
Definition ge_hi (T : R) (h : option R) : bool := match h with None => false | Some h => Rleb h T end.
Definition bind2 (a b : option R) (f : R -> R -> option (list R)) : option (list R) := match a, b with Some x, Some y => f x y | _, _ => None end.
Definition bind3 (a b c : option R) (f : R -> R -> R -> option (list R)) : option (list R) := match a, b, c with Some x, Some y, Some z => f x y z | _, _, _ => None end.

(* lines 4466-4523: _get_extrapolation_coeffs. Divisions by zero and logarithms of numbers that are not positive inside the library functions are
   not singled out, except the logarithm of line 4476 *)
Definition get_coeffs (M : method) (Tc : R) (k : ext) (low : bool) : option (list R) :=
  match (if low then Some (m_lo M) else m_hi M) with None => None | Some T =>
  match k with
  | LINEAR => bind2 (calc M T) (cder M 1 T) (fun v d => Some [v; d])
  | LOG_LINEAR => bind2 (match calc M T with Some v => py_log v | None => None end) (clogder M T) (fun v d => Some [v; d])
  | ARRHENIUS => bind2 (calc M T) (cder M 1 T) (fun v d => Some (ext_Arrhenius_parameters T v d))
  | CONSTANT => match calc M T with Some v => Some [v] | None => None end
  | NOLIMIT => Some []
  | ANTOINE_AB => bind2 (calc M T) (cder M 1 T) (fun v d => Some (ext_Antoine_AB T v d))
  | DIPPR101_ABC => bind3 (calc M T) (cder M 1 T) (cder M 2 T) (fun v d d2 => Some (ext_DIPPR101 T v d d2))
  | WATSON => match m_hi M with None => None | Some Tmax =>
      let delta := (Tmax - m_lo M) * / 10000 in let dT := if low then delta else - delta in
      bind2 (calc M T) (calc M (T + dT)) (fun v0 v1 => Some [v0; ext_Watson_n T (T + dT) v0 v1 Tc]) end
  | EXP_POLY_LN_TAU2 => bind2 (calc M T) (cder M 1 T) (fun v d => Some (ext_exp_poly2 T Tc v d))
  | EXP_POLY_LN_TAU3 => bind3 (calc M T) (cder M 1 T) (cder M 2 T) (fun v d d2 => Some (ext_exp_poly3 T Tc v d d2))
  | DIPPR106_AB => bind2 (calc M T) (cder M 1 T) (fun v d => Some (ext_EQ106_AB T Tc v d))
  | DIPPR106_ABC => bind3 (calc M T) (cder M 1 T) (cder M 2 T) (fun v d d2 => Some (ext_EQ106_ABC T Tc v d d2))
  | UNKNOWN => None
  end end.

(* lines 4612-4647: the value of an extrapolation with its coefficients *)
Definition limit_T (M : method) (low : bool) : option R := if low then Some (m_lo M) else m_hi M.
Definition extrapolated (M : method) (Tc : R) (k : ext) (low : bool) (cs : list R) (T : R) : option R :=
  match k, cs with
  | LINEAR, [v; d] => match limit_T M low with Some T_lim => Some (v + d * (T - T_lim)) | None => None end
  | LOG_LINEAR, [v; d] => match limit_T M low with Some T_lim => Some (exp (v + d * (T - T_lim))) | None => None end
  | ARRHENIUS, [T_ref; P_ref; slope] => Some (ext_Arrhenius T T_ref P_ref slope)
  | CONSTANT, [v] => Some v
  | ANTOINE_AB, [A; B] => Some (ext_Antoine T A B 0)
  | NOLIMIT, _ => calc M T
  | DIPPR101_ABC, [A; B; C] => Some (ext_EQ101 T A B C)
  | DIPPR106_AB, [A; B] => Some (ext_EQ106 T Tc A B 0)
  | DIPPR106_ABC, [A; B; C] => Some (ext_EQ106 T Tc A B C)
  | WATSON, [v0; n] => match limit_T M low with Some T_lim => Some (ext_Watson T v0 T_lim Tc n) | None => None end
  | EXP_POLY_LN_TAU2, _ => Some (ext_exp_ln_tau T Tc cs)
  | EXP_POLY_LN_TAU3, _ => Some (ext_exp_ln_tau T Tc cs)
  | _, _ => None
  end.
(* lines 4649-4653 *)
Definition clamp (lo hi : option R) (val : R) : R :=
  match lo with
  | Some m => if Rltb val m then m else match hi with Some M => if Rltb M val then M else val | None => val end
  | None => match hi with Some M => if Rltb M val then M else val | None => val end
  end.
(* the attributes that extrapolate reads besides the method: Tc, _extrapolation_low, _extrapolation_high, _extrapolation_min, _extrapolation_max *)
Record options := { Tc : R; e_low : ext; e_high : ext; e_min : option R; e_max : option R }.
Inductive in_range := IR_error | IR_low | IR_high | IR_nearest.
(* lines 4578-4604: the side that is extrapolated *)
Definition side (M : method) (ir : in_range) (T : R) : option bool :=
  if Rltb T 0 then None
  else if Rleb T (m_lo M) then Some true
  else if ge_hi T (m_hi M) then Some false
  else match ir with
  | IR_low => Some true
  | IR_high => Some false
  | IR_nearest => match m_hi M with None => Some true | Some h => if Rltb (Rabs (T - m_lo M)) (Rabs (h - T)) then Some true else Some false end
  | IR_error => None
  end.
(* lines 4556-4653: extrapolate, without the dictionary the coefficients are kept in *)
Definition extrapolate (O : options) (M : method) (ir : in_range) (T : R) : option R :=
  match side M ir T with None => None | Some low =>
  let k := if low then e_low O else e_high O in
  match get_coeffs M (Tc O) k low with None => None | Some cs =>
  match extrapolated M (Tc O) k low cs T with None => None | Some val => Some (clamp (e_min O) (e_max O) val) end end end.
(* lines 2594-2617: test_property_validity, of a class with property_min and property_max *)
Definition valid (pmin pmax v : R) : bool := if Rltb v pmin then false else if Rltb pmax v then false else true.
(* lines 3067-3116: T_dependent_property of the selected method, for RAISE_PROPERTY_CALCULATION_ERROR = False (with True the None is an exception).
   extrapolating: the attribute _extrapolation is not None *)
Definition inside (M : method) (T : R) : bool := Rleb (m_lo M) T && le_hi T (m_hi M).
Definition T_dependent_property (pmin pmax : R) (extrapolating : bool) (O : options) (M : method) (T : R) : option R :=
  if inside M T then match calc M T with Some v => if valid pmin pmax v then Some v else None | None => None end
  else if extrapolating then extrapolate O M IR_error T else None.

(* lines 4656-4747: extrapolate_derivative; numder is fluids.numerics.derivative of extrapolate with in_range 'nearest' *)
Definition extrapolate_derivative (numder : (R -> option R) -> nat -> R -> option R) (O : options) (M : method) (order : nat) (T : R) : option R :=
  if Rltb T 0 then None else
  match (if Rltb T (m_lo M) then Some true else if ge_hi T (m_hi M) then Some false else None) with None => None | Some low =>
  let k := if low then e_low O else e_high O in
  let numerical := numder (extrapolate O M IR_nearest) order T in
  let coeffs := get_coeffs M (Tc O) k low in
  match k with
  | CONSTANT => Some 0
  | NOLIMIT => cder M order T
  | LINEAR => match coeffs with Some cs => match order with 1%nat => Some (nth 1 cs 0) | O => numerical | _ => Some 0 end | None => None end
  | ARRHENIUS => match coeffs with Some [T_ref; P_ref; slope] => match order with 1%nat => Some (ext_dArrhenius T T_ref P_ref slope) | 2%nat => Some (ext_d2Arrhenius T T_ref P_ref slope) | 3%nat => Some (ext_d3Arrhenius T T_ref P_ref slope) | _ => numerical end | _ => None end
  | DIPPR101_ABC => match coeffs with Some [A; B; C] => match order with 0%nat => Some (ext_EQ101 T A B C) | 1%nat => Some (ext_EQ101_1 T A B C) | 2%nat => Some (ext_EQ101_2 T A B C) | 3%nat => Some (ext_EQ101_3 T A B C) | _ => numerical end | _ => None end
  | ANTOINE_AB => match coeffs with Some [A; B] => match order with 1%nat => Some (ext_dAntoine T A B 0) | 2%nat => Some (ext_d2Antoine T A B 0) | _ => numerical end | _ => None end
  | DIPPR106_AB => match coeffs with Some [A; B] => match order with 0%nat => Some (ext_EQ106 T (Tc O) A B 0) | 1%nat => Some (ext_EQ106_1 T (Tc O) A B 0) | 2%nat => Some (ext_EQ106_2 T (Tc O) A B 0) | 3%nat => Some (ext_EQ106_3 T (Tc O) A B 0) | _ => numerical end | _ => None end
  | DIPPR106_ABC => match coeffs with Some [A; B; C] => match order with 0%nat => Some (ext_EQ106 T (Tc O) A B C) | 1%nat => Some (ext_EQ106_1 T (Tc O) A B C) | 2%nat => Some (ext_EQ106_2 T (Tc O) A B C) | 3%nat => Some (ext_EQ106_3 T (Tc O) A B C) | _ => numerical end | _ => None end
  | EXP_POLY_LN_TAU2 | EXP_POLY_LN_TAU3 => match coeffs with Some cs => match order with 1%nat => Some (ext_exp_ln_tau_1 T (Tc O) cs) | 2%nat => Some (ext_exp_ln_tau_2 T (Tc O) cs) | _ => numerical end | None => None end
  | _ => numerical
  end end.
(* lines 4085-4138: T_dependent_property_derivative for a method with limits *)
Definition T_dependent_property_derivative (numder : (R -> option R) -> nat -> R -> option R) (extrapolating : bool) (O : options) (M : method) (order : nat) (T : R) : option R :=
  if inside M T then cder M order T else if extrapolating then extrapolate_derivative numder O M order T else None.

(* lines 3140-3233: extrapolate_transform, the closed forms; None: the general code after them *)
Inductive transform := T_LOG | T_LOG_DERIVATIVE | T_SECOND_LOG_DERIVATIVE | T_DERIVATIVE_RATIO | T_SECOND_DERIVATIVE_RATIO.
Definition transform_closed (k : ext) (t : transform) (cs : list R) (T : R) : option R :=
  match t, k, cs with
  | T_LOG, ANTOINE_AB, [A; B] => Some (A - B / T)
  | T_LOG, DIPPR101_ABC, [A; B; C] => Some (A + B / T + C * ln T)
  | T_LOG_DERIVATIVE, DIPPR101_ABC, [A; B; C] => Some ((- B / T + C) / T)
  | T_LOG_DERIVATIVE, ANTOINE_AB, [A; B] => Some (B / (T * T))
  | T_SECOND_LOG_DERIVATIVE, DIPPR101_ABC, [A; B; C] => Some (let T_inv := 1 / T in (2 * B * T_inv - C) * T_inv * T_inv)
  | T_SECOND_LOG_DERIVATIVE, ANTOINE_AB, [A; B] => Some (- 2 * B / (T * T * T))
  | T_DERIVATIVE_RATIO, DIPPR101_ABC, [A; B; C] => Some ((- B + C * T) / (T * T))
  | T_DERIVATIVE_RATIO, ANTOINE_AB, [A; B] => Some (B / (T * T))
  | T_SECOND_DERIVATIVE_RATIO, DIPPR101_ABC, [A; B; C] => Some (let T2 := T * T in let t0 := B - C * T in (2 * B * T - C * T2 + t0 * t0) / (T2 * T2))
  | T_SECOND_DERIVATIVE_RATIO, ANTOINE_AB, [A; B] => Some (let T2 := T * T in B * (B - 2 * T) / (T2 * T2))
  | _, _, _ => None
  end.

(* lines 4749-4811 and 4813-4875: extrapolate_integral and extrapolate_integral_over_T; plain: interpolation_T and interpolation_property are None;
   quad is scipy's quadrature of the function between the bounds *)
Definition int_side (M : method) (T1 T2 : R) : option bool :=
  if Rltb T1 0 then None else if Rleb T2 (m_lo M) then Some true else if ge_hi T1 (m_hi M) then Some false else None.
Definition extrapolate_integral (quad : (R -> option R) -> R -> R -> option R) (plain : bool) (O : options) (M : method) (T1 T2 : R) : option R :=
  match int_side M T1 T2 with None => None | Some low =>
  let k := if low then e_low O else e_high O in
  let other := quad (extrapolate O M IR_error) T1 T2 in
  match k with
  | CONSTANT => match get_coeffs M (Tc O) k low with Some [v] => Some (v * (T2 - T1)) | _ => None end
  | LINEAR => if plain then match get_coeffs M (Tc O) k low, limit_T M low with Some [v; d], Some c => Some ((v - c * d) * (T2 - T1) + / 2 * d * (T2 * T2 - T1 * T1)) | _, _ => None end else other
  | _ => other
  end end.
Definition extrapolate_integral_over_T (quad : (R -> option R) -> R -> R -> option R) (plain : bool) (O : options) (M : method) (T1 T2 : R) : option R :=
  match int_side M T1 T2 with None => None | Some low =>
  let k := if low then e_low O else e_high O in
  let other := quad (fun T => match extrapolate O M IR_error T with Some v => Some (v / T) | None => None end) T1 T2 in
  match k with
  | CONSTANT => match get_coeffs M (Tc O) k low with Some [v] => Some (v * ln (T2 / T1)) | _ => None end
  | LINEAR => if plain then match get_coeffs M (Tc O) k low, limit_T M low with Some [v; d], Some c => Some (d * (T2 - T1) + (v - c * d) * ln (T2 / T1)) | _, _ => None end else other
  | _ => other
  end end.
(* lines 4211-4300 and 4376-4464: the two integrals; base is calculate_integral or calculate_integral_over_T of the method, outer the extrapolated one *)
Definition integral_up (extrapolating : bool) (M : method) (base outer : R -> R -> option R) (T1 T2 : R) : option R :=
  let low := if Rltb T1 (m_lo M) then
       if extrapolating then (if Rleb (m_lo M) T2 then match outer T1 (m_lo M) with Some i => Some (inl (i, m_lo M)) | None => None end else match outer T1 T2 with Some i => Some (inr i) | None => None end) else None
     else Some (inl (0, T1)) in
  match low with
  | None => None
  | Some (inr i) => Some i
  | Some (inl (integral, T1)) =>
    let high := if le_hi T2 (m_hi M) then Some (inl (integral, T2)) else
       if extrapolating then match m_hi M with None => None | Some h =>
         if Rleb T1 h then match outer h T2 with Some i => Some (inl (integral + i, h)) | None => None end else match outer T1 T2 with Some i => Some (inr i) | None => None end end else None in
    match high with
    | None => None
    | Some (inr i) => Some i
    | Some (inl (integral, T2)) => match base T1 T2 with Some i => Some (integral + i) | None => None end
    end
  end.
Definition integral_of (extrapolating : bool) (M : method) (base outer : R -> R -> option R) (T1 T2 : R) : option R :=
  if Rltb T2 T1 then match integral_up extrapolating M base outer T2 T1 with Some i => Some (- i) | None => None end else integral_up extrapolating M base outer T1 T2.
Definition T_dependent_property_integral quad plain extrapolating O M := integral_of extrapolating M (cint M) (extrapolate_integral quad plain O M).
Definition T_dependent_property_integral_over_T quad plain extrapolating O M := integral_of extrapolating M (cintT M) (extrapolate_integral_over_T quad plain O M).

(* lines 3026-3031: calculate of a piecewise method with the functions fs and the upper bounds Ts of their ranges; fs is not empty *)
Fixpoint piecewise_calc {A} (pieces : list ((R -> A) * R)) (last : R -> A) (T : R) : A :=
  match pieces with [] => last T | (f, Tmax) :: rest => if Rleb T Tmax then f T else piecewise_calc rest last T end.
(* lines 4194-4208 and 4354-4368: the integral of a piecewise method; Is are the integrals of the functions *)
Fixpoint piecewise_integral_up (pieces : list ((R -> R -> R) * R)) (last : R -> R -> R) (integral Ta T2 : R) : R :=
  match pieces with
  | [] => integral + last Ta T2
  | (J, Tmax) :: rest =>
    if Rleb T2 Tmax then integral + J Ta T2
    else if Rltb Ta Tmax then piecewise_integral_up rest last (integral + J Ta Tmax) Tmax T2
    else piecewise_integral_up rest last integral Ta T2
  end.
Definition piecewise_integral (pieces : list ((R -> R -> R) * R)) (last : R -> R -> R) (T1 T2 : R) : R :=
  if Rltb T2 T1 then - piecewise_integral_up pieces last 0 T2 T1 else piecewise_integral_up pieces last 0 T1 T2.
