(* What the fit forms of temperature dependent properties mean: a series in powers or Chebyshev polynomials, of the temperature or of ln(1 - T/Tc), scaled or not, possibly of the logarithm of the property. *)
From Coq Require Import Reals List Bool.
From Verif Require Import Base Model_fit.
Open Scope R_scope.

(* c0*y^(n-1) + ... + c(n-1) *)
Definition power_series (cs : list R) (y : R) : R := rsum (length cs) (fun i => nth i cs 0 * y ^ (length cs - 1 - i)).
(* c0 + c1*T1(y) + ..., where Tn(cos t) = cos(n t) *)
Definition cosine_series (cs : list R) (y : R) : R := rsum (length cs) (fun i => nth i cs 0 * cos (INR i * acos y)).
Definition uses_tau (m : form) : bool := match m with POLY_LN_TAU | EXP_POLY_LN_TAU | STABLEPOLY_LN_TAU | EXP_STABLEPOLY_LN_TAU | CHEB_LN_TAU | EXP_CHEB_LN_TAU => true | _ => false end.
Definition of_log (m : form) : bool := match m with EXP_POLY | EXP_POLY_LN_TAU | EXP_STABLEPOLY | EXP_STABLEPOLY_LN_TAU | EXP_CHEB | EXP_CHEB_LN_TAU => true | _ => false end.
Definition is_scaled (m : form) : bool := match m with POLY | EXP_POLY | POLY_LN_TAU | EXP_POLY_LN_TAU => false | _ => true end.
Definition is_cheb (m : form) : bool := match m with CHEB | EXP_CHEB | CHEB_LN_TAU | EXP_CHEB_LN_TAU => true | _ => false end.
Definition variable (m : form) (p : params) (T : R) : R := if uses_tau m then ln (1 - T / pTc p) else T.
(* the straight line through (lo, -1) and (hi, 1) *)
Definition to_unit (lo hi x : R) : R := -1 + 2 * (x - lo) / (hi - lo).
Definition reduced (m : form) (p : params) (T : R) : R :=
  let x := variable m p T in let a := variable m p (Tmin p) in let b := variable m p (Tmax p) in
  if is_scaled m then to_unit (Rmin a b) (Rmax a b) x else x.
Definition series (m : form) (p : params) (y : R) : R := let s := if is_cheb m then cosine_series (coeffs p) y else power_series (coeffs p) y in if of_log m then exp s else s.
Definition documented (m : form) (p : params) (T : R) : R := series m p (reduced m p T).
(* inside [Tmin, Tmax] the function, beyond its tangents at the limits *)
Definition with_tangents (f f' : R -> R) (lo hi T : R) : R := if Rltb T lo then f lo + f' lo * (T - lo) else if Rltb hi T then f hi + f' hi * (T - hi) else f T.
