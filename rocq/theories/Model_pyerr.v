(* Arithmetic that raises in Python: division by zero (ZeroDivisionError) and log of a number that is not positive (ValueError). *)
From Coq Require Import Reals List Arith Bool.
From Verif Require Import Base.
Open Scope R_scope.
Definition py_div (a b : R) : option R := if Reqb b 0 then None else Some (a / b).
Definition py_log (a : R) : option R := if Rltb 0 a then Some (ln a) else None.
Definition bindo {A B} (o : option A) (f : A -> option B) : option B := match o with Some a => f a | None => None end.
(* thermo/uniquac.py lines 155-165, uniquac_GE, statement by statement, with the exceptions of / and log *)
Definition uniquac_GE_py (T : R) (n : nat) (z : R) (xs qs phis thetas thetaj_taus_jis : nat -> R) : option R :=
  let z_2 := 1 / 2 * z in
  bindo (loop n (fun i st =>
    bindo st (fun gE =>
    bindo (py_div (phis i) (xs i)) (fun a => bindo (py_log a) (fun la =>
    let gE := gE + xs i * la in
    bindo (py_div (thetas i) (phis i)) (fun b => bindo (py_log b) (fun lb =>
    let gE := gE + z_2 * qs i * xs i * lb in
    bindo (py_log (thetaj_taus_jis i)) (fun lc =>
    Some (gE - qs i * xs i * lc)))))))) (Some 0))
  (fun gE => Some (gE * (Rgas * T))).
(* thermo/activity.py lines 1224-1381: IdealSolution returns zeros, and ones for the activity coefficients *)
Definition Ideal_GE (T : R) (xs : nat -> R) : R := 0.
Definition Ideal_dGE_dT (T : R) (xs : nat -> R) : R := 0.
Definition Ideal_d2GE_dT2 (T : R) (xs : nat -> R) : R := 0.
Definition Ideal_d3GE_dT3 (T : R) (xs : nat -> R) : R := 0.
Definition Ideal_d2GE_dTdxs (N : nat) (T : R) (xs : nat -> R) : nat -> R := fun _ => 0.
Definition Ideal_dGE_dxs (N : nat) (T : R) (xs : nat -> R) : nat -> R := fun _ => 0.
Definition Ideal_d2GE_dxixjs (N : nat) (T : R) (xs : nat -> R) : nat -> nat -> R := fun _ _ => 0.
Definition Ideal_gammas (N : nat) (T : R) (xs : nat -> R) : nat -> R := fun _ => 1.
