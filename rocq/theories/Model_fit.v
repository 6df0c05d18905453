(* The twelve polynomial fit forms of temperature dependent properties: values, derivatives and integrals.
   thermo/utils/t_dependent_property.py, class TDependentProperty; floats are reals, trunc_log is ln and trunc_exp is exp. *)
From Coq Require Import Reals Arith List Bool.
From Verif Require Import Base Model_tdep.
Import ListNotations.
Open Scope R_scope.

(* Functions of fluids.numerics, which is not part of the repository, written from their documentation: their results are a value and its derivatives. T is below Tc for the forms in ln(1 - T/Tc) *)
Record jet := { j0 : R; j1 : R; j2 : R; j3 : R }.
(* horner_and_der, _der2, _der3; coefficients from the highest power down *)
Definition ext_poly (cs : list R) (x : R) : jet := {| j0 := ext_horner cs x; j1 := ext_horner (ext_der cs) x; j2 := ext_horner (ext_der (ext_der cs)) x; j3 := ext_horner (ext_der (ext_der (ext_der cs))) x |}.
(* horner_stable_and_der, _der2, _der3: the polynomial of offset + scale*x *)
Definition ext_stable (cs : list R) (offset scale x : R) : jet := let y := offset + scale * x in
  {| j0 := ext_horner cs y; j1 := scale * ext_horner (ext_der cs) y; j2 := scale ^ 2 * ext_horner (ext_der (ext_der cs)) y; j3 := scale ^ 3 * ext_horner (ext_der (ext_der (ext_der cs))) y |}.
Definition ext_stable_4 (cs : list R) (offset scale x : R) : R := scale ^ 4 * ext_horner (ext_der (ext_der (ext_der (ext_der cs)))) (offset + scale * x).
(* chebval: sum of the coefficients, lowest first, times Chebyshev polynomials of offset + scale*x *)
Fixpoint chebT (n : nat) (x : R) : R := match n with O => 1 | S m => match m with O => x | S k => 2 * x * chebT m x - chebT k x end end.
Fixpoint chebsum (k : nat) (cs : list R) (y : R) : R := match cs with [] => 0 | c :: cs' => c * chebT k y + chebsum (S k) cs' y end.
Definition ext_chebval (x : R) (cs : list R) (offset scale : R) : R := chebsum 0 cs (offset + scale * x).
(* chebder(c, m=1, scl): d[k-1] = d[k+1] + 2*k*c[k], with half of that for k = 1, times scl *)
Fixpoint chebder_from (k : nat) (cs : list R) : list R := match cs with [] => [] | c :: cs' => let t := chebder_from (S k) cs' in (2 * INR k * c + nth 1 t 0) :: t end.
Definition ext_chebder (cs : list R) (scl : R) : list R := match cs with [] => [] | _ :: cs' => match chebder_from 1 cs' with [] => [0] | d :: t => map (Rmult scl) (d / 2 :: t) end end.
(* exp_..._and_der...: the exponential of a function with the derivatives given *)
Definition ext_exp (j : jet) : jet := let e := exp (j0 j) in {| j0 := e; j1 := j1 j * e; j2 := (j1 j ^ 2 + j2 j) * e; j3 := (j1 j ^ 3 + 3 * j1 j * j2 j + j3 j) * e |}.
(* ..._ln_tau_and_der...: a function of x = ln(1 - T/Tc) with the derivatives given, by T *)
Definition ext_ln_tau (T Tc : R) (g : R -> jet) : jet := let j := g (ln (1 - T / Tc)) in let r := / (Tc - T) in
  {| j0 := j0 j; j1 := - j1 j * r; j2 := (j2 j - j1 j) * r ^ 2; j3 := (- j3 j + 3 * j2 j - 2 * j1 j) * r ^ 3 |}.
(* polynomial_offset_scale: the map of [xmin, xmax] to [-1, 1] *)
Definition ext_offset (xmin xmax : R) : R := (- xmax - xmin) / (xmax - xmin).
Definition ext_scale (xmin xmax : R) : R := 2 / (xmax - xmin).
(* polyint, and polyint_over_x with its coefficient of the logarithm *)
Fixpoint int_terms (cs : list R) : list R := match cs with [] => [] | c :: cs' => c / INR (S (List.length cs')) :: int_terms cs' end.
Definition ext_polyint (cs : list R) : list R := int_terms cs ++ [0].
Definition ext_polyint_over_x (cs : list R) : list R * R := (int_terms (removelast cs) ++ [0], last cs 0).
(* polyint_stable: coefficients of the integral of the polynomial of offset + scale*x, in the same variable (up to the constant) *)
Definition ext_polyint_stable (cs : list R) (xmin xmax : R) : list R := map (fun c => c / ext_scale xmin xmax) (ext_polyint cs).
(* polynomials with the lowest power first; the polynomial in x of the polynomial p of a + b*x *)
Fixpoint padd (p q : list R) : list R := match p, q with [], q => q | p, [] => p | x :: p', y :: q' => x + y :: padd p' q' end.
Fixpoint pcompose (p : list R) (a b : R) : list R := match p with [] => [] | c :: p' => let q := pcompose p' a b in padd [c] (padd (map (Rmult a) q) (0 :: map (Rmult b) q)) end.
(* poly_convert(coeffs, xmin, xmax), of coefficients from the lowest power up: the same polynomial in the variable offset + scale*x *)
Definition ext_poly_convert (p : list R) (xmin xmax : R) : list R := pcompose p (- ext_offset xmin xmax / ext_scale xmin xmax) (/ ext_scale xmin xmax).
(* polyint_over_x_stable: the coefficients of the integral of the polynomial over x, in x, and the coefficient of the logarithm *)
Definition ext_polyint_over_x_stable (cs : list R) (xmin xmax : R) : list R * R := ext_polyint_over_x (rev (pcompose (rev cs) (ext_offset xmin xmax) (ext_scale xmin xmax))).
(* horner_log and horner_stable_log *)
Definition ext_horner_log (cs : list R) (log_coeff x : R) : R := log_coeff * ln x + ext_horner cs x.
Definition ext_horner_stable_log (x : R) (cs : list R) (offset scale log_coeff : R) : R := j0 (ext_stable cs offset scale x) + log_coeff * ln x.
(* fit_integral_linear_extrapolation and fit_integral_over_T_linear_extrapolation: int_f is the antiderivative inside [Tmin, Tmax]; outside, the lines through the values with the slopes given *)
Definition ext_fit_integral (line : R -> R -> R -> R) (int_f : R -> R) (T1 T2 Tmin Tmax vmin vmax smin smax : R) : R :=
  let ordered T1 T2 :=
    let low := if Rltb T1 Tmin then let T2_low := if Rltb T2 Tmin then T2 else Tmin in let x1 := vmin - smin * Tmin in line smin x1 T2_low - line smin x1 T1 else 0 in
    let mid := if (Rleb Tmin T1 && Rleb T1 Tmax) || (Rleb Tmin T2 && Rleb T2 Tmax) || (Rleb T1 Tmin && Rleb Tmax T2)
      then let T1_mid := if Rltb Tmin T1 then T1 else Tmin in let T2_mid := if Rltb T2 Tmax then T2 else Tmax in int_f T2_mid - int_f T1_mid else 0 in
    let high := if Rltb Tmax T2 then let T1_high := if Rltb Tmax T1 then T1 else Tmax in let x1 := vmax - smax * Tmax in line smax x1 T2 - line smax x1 T1_high else 0 in
    low + mid + high in
  if Rltb T2 T1 then - ordered T2 T1 else ordered T1 T2.
Definition line_int (slope x1 T : R) : R := T * (/ 2 * slope * T + x1).
Definition line_int_over_T (slope x1 T : R) : R := slope * T + x1 * ln T.

(* POLY_FIT, EXP_POLY_FIT, POLY_FIT_LN_TAU, EXP_POLY_FIT_LN_TAU, STABLEPOLY_FIT ... ; as correlations: polynomial, exp_polynomial, polynomial_ln_tau, exp_polynomial_ln_tau, stable_polynomial, ... *)
Inductive form := POLY | EXP_POLY | POLY_LN_TAU | EXP_POLY_LN_TAU | STABLEPOLY | EXP_STABLEPOLY | STABLEPOLY_LN_TAU | EXP_STABLEPOLY_LN_TAU | CHEB | EXP_CHEB | CHEB_LN_TAU | EXP_CHEB_LN_TAU.
(* what the user supplies; Tc is used by the _LN_TAU forms only *)
Record params := { Tmin : R; Tmax : R; pTc : R; coeffs : list R }.
(* what is computed from it when the fit is added *)
Record attrs := { offset : R; scale : R; d1 : list R; d2 : list R; d3 : list R; d4 : list R }.
Definition with_cheb (cs : list R) (o s : R) : attrs := let a := ext_chebder cs s in let b := ext_chebder a s in let c := ext_chebder b s in {| offset := o; scale := s; d1 := a; d2 := b; d3 := c; d4 := ext_chebder c s |}.
Definition no_cheb (o s : R) : attrs := {| offset := o; scale := s; d1 := []; d2 := []; d3 := []; d4 := [] |}.

(* lines 2622-2911: the constructor arguments, _set_cheb_fit, _set_exp_cheb_fit, _set_cheb_fit_ln_tau, ..., _set_poly_fit. Parameters that are None or nan are refused there; Tmin = Tmax divides by zero there *)
Definition set_fit (m : form) (p : params) : attrs :=
  let o := ext_offset (Tmin p) (Tmax p) in let s := ext_scale (Tmin p) (Tmax p) in
  let xmin := ln (1 - Tmin p / pTc p) in let xmax := ln (1 - Tmax p / pTc p) in
  match m with
  | POLY | EXP_POLY | POLY_LN_TAU | EXP_POLY_LN_TAU => no_cheb 0 1
  | STABLEPOLY | EXP_STABLEPOLY => no_cheb o s
  | STABLEPOLY_LN_TAU | EXP_STABLEPOLY_LN_TAU => no_cheb (ext_offset xmin xmax) (ext_scale xmin xmax)
  | CHEB | EXP_CHEB => with_cheb (coeffs p) o s
  | CHEB_LN_TAU | EXP_CHEB_LN_TAU => with_cheb (coeffs p) (ext_offset xmin xmax) (ext_scale xmin xmax)
  end.
(* lines 3482-3587: _optimize_added_correlation *)
Definition add_fit (m : form) (p : params) : attrs :=
  let o := ext_offset (Tmin p) (Tmax p) in let s := ext_scale (Tmin p) (Tmax p) in
  let x1 := ln (1 - Tmin p / pTc p) in let x2 := ln (1 - Tmax p / pTc p) in let xmin := Rmin x1 x2 in let xmax := Rmax x1 x2 in
  match m with
  | POLY | EXP_POLY | POLY_LN_TAU | EXP_POLY_LN_TAU => no_cheb 0 1
  | STABLEPOLY | EXP_STABLEPOLY => no_cheb o s
  | STABLEPOLY_LN_TAU | EXP_STABLEPOLY_LN_TAU => no_cheb (ext_offset xmin xmax) (ext_scale xmin xmax)
  | CHEB | EXP_CHEB => with_cheb (coeffs p) o s
  | CHEB_LN_TAU | EXP_CHEB_LN_TAU => with_cheb (coeffs p) (ext_offset xmin xmax) (ext_scale xmin xmax)
  end.

(* lines 2964-3018: _base_calculate, the same for correlations and for constructor arguments *)
Definition fit_value (m : form) (p : params) (a : attrs) (T : R) : R :=
  match m with
  | POLY => ext_horner (coeffs p) T
  | EXP_POLY => exp (ext_horner (coeffs p) T)
  | POLY_LN_TAU => ext_horner (coeffs p) (ln (1 - T / pTc p))
  | EXP_POLY_LN_TAU => exp (ext_horner (coeffs p) (ln (1 - T / pTc p)))
  | STABLEPOLY => ext_horner (coeffs p) (offset a + scale a * T)
  | EXP_STABLEPOLY => exp (ext_horner (coeffs p) (offset a + scale a * T))
  | STABLEPOLY_LN_TAU => ext_horner (coeffs p) (offset a + scale a * ln (1 - T / pTc p))
  | EXP_STABLEPOLY_LN_TAU => exp (ext_horner (coeffs p) (offset a + scale a * ln (1 - T / pTc p)))
  | CHEB => ext_chebval T (coeffs p) (offset a) (scale a)
  | EXP_CHEB => exp (ext_chebval T (coeffs p) (offset a) (scale a))
  | CHEB_LN_TAU => ext_chebval (ln (1 - T / pTc p)) (coeffs p) (offset a) (scale a)
  | EXP_CHEB_LN_TAU => exp (ext_chebval (ln (1 - T / pTc p)) (coeffs p) (offset a) (scale a))
  end.
(* chebval with coefficients of derivatives, as exp_cheb_and_der... and chebval_ln_tau_and_der... take them *)
Definition ext_cheb (cs c1 c2 c3 : list R) (o s x : R) : jet := {| j0 := ext_chebval x cs o s; j1 := ext_chebval x c1 o s; j2 := ext_chebval x c2 o s; j3 := ext_chebval x c3 o s |}.

(* calculate_derivative: an analytical result, a numerical derivative of the value, or an exception *)
Inductive result := Analytical (v : R) | Numerical | Raises.
(* lines 3998-4083: the constructor fits *)
Definition fit_derivative (m : form) (p : params) (a : attrs) (order : nat) (T : R) : result :=
  let cs := coeffs p in let Tc := pTc p in let o := offset a in let s := scale a in
  match m, order with
  | EXP_POLY_LN_TAU, 1%nat => Analytical (j1 (ext_exp (ext_ln_tau T Tc (ext_poly cs))))
  | EXP_POLY_LN_TAU, 2%nat => Analytical (j2 (ext_exp (ext_ln_tau T Tc (ext_poly cs))))
  | EXP_POLY, 1%nat => Analytical (j1 (ext_exp (ext_poly cs T)))
  | EXP_POLY, 2%nat => Analytical (j2 (ext_exp (ext_poly cs T)))
  | EXP_POLY, 3%nat => Analytical (j3 (ext_exp (ext_poly cs T)))
  | POLY, 1%nat => Analytical (j1 (ext_poly cs T))
  | POLY, 2%nat => Analytical (j2 (ext_poly cs T))
  | POLY, 3%nat => Analytical (j3 (ext_poly cs T))
  | POLY_LN_TAU, 1%nat => Analytical (j1 (ext_ln_tau T Tc (ext_poly cs)))
  | POLY_LN_TAU, 2%nat => Analytical (j2 (ext_ln_tau T Tc (ext_poly cs)))
  | POLY_LN_TAU, 3%nat => Analytical (j3 (ext_ln_tau T Tc (ext_poly cs)))
  | STABLEPOLY, 1%nat => Analytical (j1 (ext_stable cs o s T))
  | STABLEPOLY, 2%nat => Analytical (j2 (ext_stable cs o s T))
  | STABLEPOLY, 3%nat => Analytical (j3 (ext_stable cs o s T))
  | STABLEPOLY, 4%nat => Analytical (ext_stable_4 cs o s T)
  | EXP_STABLEPOLY, 1%nat => Analytical (j1 (ext_exp (ext_stable cs o s T)))
  | EXP_STABLEPOLY, 2%nat => Analytical (j2 (ext_exp (ext_stable cs o s T)))
  | EXP_STABLEPOLY, 3%nat => Analytical (j3 (ext_exp (ext_stable cs o s T)))
  | STABLEPOLY_LN_TAU, 1%nat => Analytical (j1 (ext_ln_tau T Tc (ext_stable cs o s)))
  | STABLEPOLY_LN_TAU, 2%nat => Analytical (j2 (ext_ln_tau T Tc (ext_stable cs o s)))
  | STABLEPOLY_LN_TAU, 3%nat => Analytical (j3 (ext_ln_tau T Tc (ext_stable cs o s)))
  | EXP_STABLEPOLY_LN_TAU, 1%nat => Analytical (j1 (ext_exp (ext_ln_tau T Tc (ext_stable cs o s))))
  | EXP_STABLEPOLY_LN_TAU, 2%nat => Analytical (j2 (ext_exp (ext_ln_tau T Tc (ext_stable cs o s))))
  | CHEB, 1%nat => Analytical (ext_chebval T (d1 a) o s)
  | CHEB, 2%nat => Analytical (ext_chebval T (d2 a) o s)
  | CHEB, 3%nat => Analytical (ext_chebval T (d3 a) o s)
  | CHEB, 4%nat => Analytical (ext_chebval T (d4 a) o s)
  | EXP_CHEB, 1%nat => Analytical (j1 (ext_exp (ext_cheb cs (d1 a) [] [] o s T)))
  | EXP_CHEB, 2%nat => Analytical (j2 (ext_exp (ext_cheb cs (d1 a) (d2 a) [] o s T)))
  | EXP_CHEB, 3%nat => Analytical (j3 (ext_exp (ext_cheb cs (d1 a) (d2 a) (d3 a) o s T)))
  | CHEB_LN_TAU, 1%nat => Analytical (j1 (ext_ln_tau T Tc (ext_cheb cs (d1 a) [] [] o s)))
  | CHEB_LN_TAU, 2%nat => Analytical (j2 (ext_ln_tau T Tc (ext_cheb cs (d1 a) (d2 a) [] o s)))
  | CHEB_LN_TAU, 3%nat => Analytical (j3 (ext_ln_tau T Tc (ext_cheb cs (d1 a) (d2 a) (d3 a) o s)))
  | EXP_CHEB_LN_TAU, 1%nat => Analytical (j1 (ext_exp (ext_ln_tau T Tc (ext_cheb cs (d1 a) [] [] o s))))
  | EXP_CHEB_LN_TAU, 2%nat => Analytical (j2 (ext_exp (ext_ln_tau T Tc (ext_cheb cs (d1 a) (d2 a) [] o s))))
  | _, _ => Numerical
  end.
(* lines 3913-3985: correlations. For 'polynomial', lines 971-973 pass the temperature to horner_and_der, _der2, _der3 as keyword T; their parameters are (coeffs, x), so it raises *)
Definition corr_derivative (m : form) (p : params) (a : attrs) (order : nat) (T : R) : result :=
  let cs := coeffs p in let Tc := pTc p in let o := offset a in let s := scale a in
  match m, order with
  | STABLEPOLY, 1%nat => Analytical (j1 (ext_stable cs o s T))
  | STABLEPOLY, 2%nat => Analytical (j2 (ext_stable cs o s T))
  | STABLEPOLY, 3%nat => Analytical (j3 (ext_stable cs o s T))
  | STABLEPOLY, 4%nat => Analytical (ext_stable_4 cs o s T)
  | EXP_STABLEPOLY, 1%nat => Analytical (j1 (ext_exp (ext_stable cs o s T)))
  | EXP_STABLEPOLY, 2%nat => Analytical (j2 (ext_exp (ext_stable cs o s T)))
  | EXP_STABLEPOLY, 3%nat => Analytical (j3 (ext_exp (ext_stable cs o s T)))
  | STABLEPOLY_LN_TAU, 1%nat => Analytical (j1 (ext_ln_tau T Tc (ext_stable cs o s)))
  | STABLEPOLY_LN_TAU, 2%nat => Analytical (j2 (ext_ln_tau T Tc (ext_stable cs o s)))
  | STABLEPOLY_LN_TAU, 3%nat => Analytical (j3 (ext_ln_tau T Tc (ext_stable cs o s)))
  | EXP_STABLEPOLY_LN_TAU, 1%nat => Analytical (j1 (ext_exp (ext_ln_tau T Tc (ext_stable cs o s))))
  | EXP_STABLEPOLY_LN_TAU, 2%nat => Analytical (j2 (ext_exp (ext_ln_tau T Tc (ext_stable cs o s))))
  | CHEB, 1%nat => Analytical (ext_chebval T (d1 a) o s)
  | CHEB, 2%nat => Analytical (ext_chebval T (d2 a) o s)
  | CHEB, 3%nat => Analytical (ext_chebval T (d3 a) o s)
  | EXP_CHEB, 1%nat => Analytical (j1 (ext_exp (ext_cheb cs (d1 a) [] [] o s T)))
  | EXP_CHEB, 2%nat => Analytical (j2 (ext_exp (ext_cheb cs (d1 a) (d2 a) [] o s T)))
  | EXP_CHEB, 3%nat => Analytical (j3 (ext_exp (ext_cheb cs (d1 a) (d2 a) (d3 a) o s T)))
  | CHEB_LN_TAU, 1%nat => Analytical (j1 (ext_ln_tau T Tc (ext_cheb cs (d1 a) [] [] o s)))
  | CHEB_LN_TAU, 2%nat => Analytical (j2 (ext_ln_tau T Tc (ext_cheb cs (d1 a) (d2 a) [] o s)))
  | CHEB_LN_TAU, 3%nat => Analytical (j3 (ext_ln_tau T Tc (ext_cheb cs (d1 a) (d2 a) (d3 a) o s)))
  | EXP_CHEB_LN_TAU, 1%nat => Analytical (j1 (ext_exp (ext_ln_tau T Tc (ext_cheb cs (d1 a) [] [] o s))))
  | EXP_CHEB_LN_TAU, 2%nat => Analytical (j2 (ext_exp (ext_ln_tau T Tc (ext_cheb cs (d1 a) (d2 a) [] o s))))
  (* lines 970-1002: f_der, f_der2, f_der3 of correlation_models *)
  | POLY, 1%nat | POLY, 2%nat | POLY, 3%nat => Raises
  | EXP_POLY, 1%nat => Analytical (j1 (ext_exp (ext_poly cs T)))
  | EXP_POLY, 2%nat => Analytical (j2 (ext_exp (ext_poly cs T)))
  | EXP_POLY, 3%nat => Analytical (j3 (ext_exp (ext_poly cs T)))
  | POLY_LN_TAU, 1%nat => Analytical (j1 (ext_ln_tau T Tc (ext_poly cs)))
  | POLY_LN_TAU, 2%nat => Analytical (j2 (ext_ln_tau T Tc (ext_poly cs)))
  | POLY_LN_TAU, 3%nat => Analytical (j3 (ext_ln_tau T Tc (ext_poly cs)))
  | EXP_POLY_LN_TAU, 1%nat => Analytical (j1 (ext_exp (ext_ln_tau T Tc (ext_poly cs))))
  | EXP_POLY_LN_TAU, 2%nat => Analytical (j2 (ext_exp (ext_ln_tau T Tc (ext_poly cs))))
  | _, _ => Numerical
  end.

Section Integrals.
Variable quad : (R -> R) -> R -> R -> R.
(* values and slopes at the limits: lines 2902-2906 (constructor) and 3498-3504 (correlation) *)
Definition poly_integral (p : params) (T1 T2 : R) : R :=
  ext_fit_integral line_int (ext_horner (ext_polyint (coeffs p))) T1 T2 (Tmin p) (Tmax p) (ext_horner (coeffs p) (Tmin p)) (ext_horner (coeffs p) (Tmax p)) (j1 (ext_poly (coeffs p) (Tmin p))) (j1 (ext_poly (coeffs p) (Tmax p))).
Definition poly_integral_over_T (p : params) (T1 T2 : R) : R :=
  let c := ext_polyint_over_x (coeffs p) in
  ext_fit_integral line_int_over_T (ext_horner_log (fst c) (snd c)) T1 T2 (Tmin p) (Tmax p) (ext_horner (coeffs p) (Tmin p)) (ext_horner (coeffs p) (Tmax p)) (j1 (ext_poly (coeffs p) (Tmin p))) (j1 (ext_poly (coeffs p) (Tmax p))).
(* lines 4166-4171 and 4209, 4327-4334 and 4374: calculate_integral and calculate_integral_over_T of the constructor fits *)
Definition fit_integral (m : form) (p : params) (a : attrs) (T1 T2 : R) : option R := match m with POLY => Some (poly_integral p T1 T2) | _ => Some (quad (fit_value m p a) T1 T2) end.
Definition fit_integral_over_T (m : form) (p : params) (a : attrs) (T1 T2 : R) : option R := match m with POLY => Some (poly_integral_over_T p T1 T2) | _ => Some (quad (fun T => fit_value m p a T / T) T1 T2) end.
(* lines 4172-4190 and 4209, 4335-4351 and 4374: of the correlations; is_Cp: the units of the property are J/mol/K. The coefficients of integrals are computed for these only (lines 3493-3496, 3541-3557),
   and the dictionary extra has no entry for them otherwise: a KeyError for 'polynomial'. int_T_coeffs and int_T_log_coeff are not supplied by the user *)
Definition corr_integral (is_Cp : bool) (m : form) (p : params) (a : attrs) (T1 T2 : R) : option R :=
  match m with
  | POLY => if is_Cp then Some (poly_integral p T1 T2) else None
  | STABLEPOLY => if is_Cp then let ic := ext_polyint_stable (coeffs p) (Tmin p) (Tmax p) in Some (j0 (ext_stable ic (offset a) (scale a) T2) - j0 (ext_stable ic (offset a) (scale a) T1)) else Some (quad (fit_value m p a) T1 T2)
  | _ => Some (quad (fit_value m p a) T1 T2)
  end.
Definition corr_integral_over_T (is_Cp : bool) (m : form) (p : params) (a : attrs) (T1 T2 : R) : option R :=
  match m with
  | POLY => if is_Cp then Some (poly_integral_over_T p T1 T2) else None
  | STABLEPOLY => if is_Cp then let c := ext_polyint_over_x_stable (coeffs p) (Tmin p) (Tmax p) in let ic := rev (ext_poly_convert (rev (fst c)) (Tmin p) (Tmax p)) in
      Some (ext_horner_stable_log T2 ic (offset a) (scale a) (snd c) - ext_horner_stable_log T1 ic (offset a) (scale a) (snd c)) else Some (quad (fun T => fit_value m p a T / T) T1 T2)
  | _ => Some (quad (fun T => fit_value m p a T / T) T1 T2)
  end.
(* lines 2919-2921, 3998-4083, 4166-4209, 4327-4374: a fit as a method of the object, seen through calculate, calculate_derivative, calculate_integral and calculate_integral_over_T, with its limits.
   numder is the numerical derivative of the value, logder that of its logarithm, of which nothing is assumed *)
Definition fit_method (numder : (R -> R) -> nat -> R -> option R) (logder : (R -> R) -> R -> option R) (m : form) (p : params) : method :=
  let a := set_fit m p in
  {| calc := fun T => Some (fit_value m p a T); cder := fun n T => match fit_derivative m p a n T with Analytical v => Some v | Numerical => numder (fit_value m p a) n T | Raises => None end;
     clogder := logder (fit_value m p a); cint := fit_integral m p a; cintT := fit_integral_over_T m p a; m_lo := Tmin p; m_hi := Some (Tmax p) |}.
Definition corr_method (numder : (R -> R) -> nat -> R -> option R) (logder : (R -> R) -> R -> option R) (is_Cp : bool) (m : form) (p : params) : method :=
  let a := add_fit m p in
  {| calc := fun T => Some (fit_value m p a T); cder := fun n T => match corr_derivative m p a n T with Analytical v => Some v | Numerical => numder (fit_value m p a) n T | Raises => None end;
     clogder := logder (fit_value m p a); cint := corr_integral is_Cp m p a; cintT := corr_integral_over_T is_Cp m p a; m_lo := Tmin p; m_hi := Some (Tmax p) |}.
End Integrals.
