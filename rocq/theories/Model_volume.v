(* Model of thermo/eos_volume.py: cubic volume solvers. Floats and double-double numbers are exact reals; complex numbers are Coquelicot's C. *)
From Coq Require Import Reals Lra List.
From Coquelicot Require Import Coquelicot.
From Verif Require Import Base.
Import ListNotations.
Open Scope R_scope.

(* thermo/eos_volume.py, lines 1142-1151 (volume_solutions_Cardano); the same eight lines open volume_solutions_a1 (1201-1210),
   volume_solutions_a2 (1250-1259), volume_solutions_numpy (1308-1317), volume_solutions_halley (863-872) and high_alpha_one_root (1590-1601).
   R_inv is 1/R. Result: the coefficients (b, c, d) of Z^3 + b Z^2 + c Z + d. *)
Definition cubic_coeffs (T P b delta epsilon a_alpha : R) : R * R * R :=
  let RT_inv := / Rgas / T in
  let P_RT_inv := P * RT_inv in
  let B := b * P_RT_inv in let etas := B in
  let deltas := delta * P_RT_inv in
  let thetas := a_alpha * P_RT_inv * RT_inv in
  let epsilons := epsilon * P_RT_inv * P_RT_inv in
  let b := deltas - B - 1 in
  let c := thetas + epsilons - deltas * (B + 1) in
  let d := - (epsilons * (B + 1) + thetas * etas) in
  (b, c, d).

(* thermo/eos_volume.py, lines 1097-1154: volume_solutions_Cardano (also a1, a2, numpy, which differ in the root finder only).
   roots_cubic is fluids.numerics code, here a parameter: b, c, d -> list of complex roots *)
Definition volume_solutions_Cardano (roots_cubic : R -> R -> R -> list C) (T P b delta epsilon a_alpha : R) : list C :=
  let '(b, c, d) := cubic_coeffs T P b delta epsilon a_alpha in
  let RT_P := Rgas * T / P in
  map (fun V => Cmult V (RtoC RT_P)) (roots_cubic b c d).

(* thermo/eos_volume.py, lines 997-1094: volume_solutions_fast. csqrt and the complex cube root `(...)**third` are parameters;
   the decimal constants 1.732...j and 0.433...j are modelled as sqrt(3) i and sqrt(3)/4 i, third and sixth as 1/3 and 1/6.
   None: division by x19 = 0 (ZeroDivisionError). *)
Definition Ceq_dec (x y : C) : {x = y} + {x <> y}.
Proof. destruct x as [a b], y as [c d]. destruct (Req_EM_T a c); [destruct (Req_EM_T b d)|]; [left|right|right]; congruence. Defined.
Definition volume_solutions_fast (csqrt ccbrt : C -> C) (T P b delta epsilon a_alpha : R) : option (C * C * C) :=
  let x24 := (1, sqrt 3) : C in
  let x24_inv := (1 / 4, - (sqrt 3 / 4)) : C in
  let x26 := (1, - sqrt 3) : C in
  let x26_inv := (1 / 4, sqrt 3 / 4) : C in
  let x0 := 1 / P in
  let x1 := P * b in
  let x2 := Rgas * T in
  let x3 := P * delta in
  let x4 := x1 + x2 - x3 in
  let x5 := x0 * x4 in
  let x6 := a_alpha * b in
  let x7 := epsilon * x1 in
  let x8 := epsilon * x2 in
  let x9 := x0 * x0 in
  let x10 := P * epsilon in
  let x11 := delta * x1 in
  let x12 := delta * x2 in
  let x17 := - x4 in
  let x17_2 := x17 * x17 in
  let x18 := x0 * x17_2 in
  let tm1 := x12 - a_alpha + (x11 - x10) in
  let t0 := x6 + x7 + x8 in
  let t1 := 3 * tm1 + x18 in
  let t2 := 9 * x0 * x17 * tm1 + 2 * x17_2 * x17 * x9 - 27 * t0 in
  let x4x9 := x4 * x9 in
  let x19 := ccbrt (RtoC (- (27 / 2) * x0 * t0 - 9 / 2 * x4x9 * tm1 - x4 * x4x9 * x5)
                    + RtoC (1 / 2) * csqrt (RtoC (x9 * (- 4 * x0 * t1 * t1 * t1 + t2 * t2))))%C in
  if Ceq_dec x19 (RtoC 0) then None else
  let x20 := (RtoC (- t1) / x19)%C in
  let x22 := x5 + x5 in
  let x25 := (RtoC (4 * x0) * x20)%C in
  Some (((RtoC x0 * x20 - x19 + RtoC x5) * RtoC (1 / 3))%C,
   ((x19 * x24 + RtoC x22 - x25 * x24_inv) * RtoC (1 / 6))%C,
   ((x19 * x26 + RtoC x22 - x25 * x26_inv) * RtoC (1 / 6))%C).

(* one Halley update of thermo/eos_volume.py, lines 772-795 (volume_solution_polish), 880-910 (volume_solutions_halley, before bracketing)
   and 958-993: (fval, fder, fder2) *)
Definition halley_terms (V T P b delta epsilon a_alpha : R) : R * R * R :=
  let RT := Rgas * T in
  let RT_2 := RT + RT in
  let a_alpha_2 := a_alpha + a_alpha in
  let x0_inv := 1 / (V - b) in
  let x1_inv := 1 / (V * (V + delta) + epsilon) in
  let x2 := V + V + delta in
  let fval := RT * x0_inv - P - a_alpha * x1_inv in
  let x0_inv2 := x0_inv * x0_inv in
  let x1_inv2 := x1_inv * x1_inv in
  let x3 := a_alpha * x1_inv2 in
  let fder := x2 * x3 - RT * x0_inv2 in
  let fder2 := RT_2 * x0_inv2 * x0_inv - a_alpha_2 * x2 * x2 * x1_inv2 * x1_inv + x3 + x3 in
  (fval, fder, fder2).

(* thermo/eos_volume.py, lines 762-802: volume_solution_polish; n is the number of passes left of range(50), j the pass number *)
Fixpoint polish_loop (n j : nat) (fval_oldold fval_old V T P b delta epsilon a_alpha : R) : R :=
  match n with
  | O => V
  | S n =>
    if Reqb (V * (V + delta) + epsilon) 0 then V
    else
      let '(fval, fder, fder2) := halley_terms V T P b delta epsilon a_alpha in
      if Reqb fder 0 then V
      else
        let fder_inv := 1 / fder in
        let step := fval * fder_inv in
        let rel_err := Rabs (fval * (1 / P)) in
        let step_den := 1 - 1 / 2 * step * fder2 * fder_inv in
        if Reqb step_den 0 then polish_loop n (S j) fval_oldold fval_old V T P b delta epsilon a_alpha
        else
          let V := V - step / step_den in
          if (Rltb rel_err (3 / 1000000000000000) || Reqb fval_old fval || Reqb fval fval_oldold || (Nat.ltb 10 j && Rltb rel_err (1 / 1000000000000)))%bool then V
          else polish_loop n (S j) fval_old fval V T P b delta epsilon a_alpha
  end.
Definition volume_solution_polish (V T P b delta epsilon a_alpha : R) : R := polish_loop 50 0 1 0 V T P b delta epsilon a_alpha.

(* one Newton update, thermo/eos_volume.py, lines 578-587 (volume_solutions_NR; also 710-719 with damping 1) *)
Definition newton_step (V T P b delta epsilon a_alpha : R) : R :=
  let RT := Rgas * T in
  let denom1 := 1 / (V * (V + delta) + epsilon) in
  let denom0 := 1 / (V - b) in
  let w0 := RT * denom0 in
  let w1 := a_alpha * denom1 in
  let err := w0 - w1 - P in
  let derr_dV := (V + V + delta) * w1 * denom1 - w0 * denom0 in
  V - err / derr_dV.

(* real cube root, x**third for either sign as written in lines 1625-1633 and 1537-1541 *)
Definition Rcbrt (x : R) : R := if Rle_dec 0 x then (if Req_EM_T x 0 then 0 else Rpower x (1 / 3)) else - Rpower (- x) (1 / 3).

(* thermo/eos_volume.py, lines 1603-1637: closed-form real root in high_alpha_one_root before the Newton refinement *)
Definition high_alpha_x1 (b c d : R) : R :=
  let b_a2 := b * b in
  let bb := b * b in
  let f := c - b_a2 * (1 / 3) in
  let g := (2 * (bb * b) - 9 * b * c + 27 * d) * (1 / 27) in
  let h := 1 / 4 * (g * g) + f * f * f * (1 / 27) in
  let root_h := sqrt h in
  let R_poly := - (1 / 2) * g + root_h in
  let S := Rcbrt R_poly in
  let T := - (1 / 2 * g) - root_h in
  let U := Rcbrt T in
  let SU := S + U in
  SU - b * (1 / 3).

(* thermo/eos_volume.py, lines 1479-1555: the one-root branch (hr > 0) of volume_solutions_doubledouble_float, as exact real arithmetic;
   None is the other branch. cbrt_dd is taken to be the real cube root; line 1518 adds (-3b)(-3c). *)
Definition volume_solutions_doubledouble_float (T P b delta epsilon a_alpha : R) : option R :=
  let RT_inv := / Rgas / T in
  let P_RT_inv := P * RT_inv in
  let B := b * P_RT_inv in
  let Bp1 := B + 1 in
  let deltas := delta * P_RT_inv in
  let thetas := a_alpha * P_RT_inv * RT_inv in
  let epsilons := epsilon * P_RT_inv * P_RT_inv in
  let b := deltas - B - 1 in
  let c := thetas + epsilons - deltas * Bp1 in
  let d := - (epsilons * Bp1 + thetas * B) in
  let bb := b * b in
  let f := c - 1 / 3 * (b * b) in
  let g := ((bb + bb) * b + (-3 * b) * (-3 * c) + 27 * d) / 27 in
  let h := 1 / 4 * (g * g) + f * (f * f) / 27 in
  if Rltb 0 h then
    let root_h := sqrt h in
    let S := Rcbrt (- (1 / 2) * g + root_h) in
    let U := Rcbrt (- (1 / 2) * g + - root_h) in
    let x1 := S + U + - (1 / 3) * b in
    Some (x1 * (1 / P_RT_inv))
  else None.

(* thermo/eos_volume.py, line 1355: volume_solutions_ideal (first entry; the others are 0.0 placeholders) *)
Definition volume_solutions_ideal (T P : R) : R := Rgas * T / P.
