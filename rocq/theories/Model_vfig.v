(* thermo/flash/flash_utils.py 3463-3576: the vapour fraction flashes at T and at P for an ideal gas and a liquid whose fugacity
   coefficients do not depend on composition; thermo/flash/flash_vl.py 367-372, 443-449: their callers. Compositions are functions on the
   component numbers below N. The root finders of fluids.numerics (newton, brenth) are parameters: given the objective and where to
   start they give the value they return and the point they evaluated last, or fail. *)
From Coq Require Import Reals List Bool Arith.
From Verif Require Import Base.
Open Scope R_scope.

Definition vec := nat -> R.
Inductive exn := VaporFractionRange | SolverError.
Inductive res (A : Type) := Ret (a : A) | Exn (e : exn).
Arguments Ret {A} a.
Arguments Exn {A} e.

(* lines 3488-3495 and 3546-3553: the loop over the components; phis and the derivatives of phis in, err and derr out *)
Definition residual (N : nat) (VF : R) (zs phis dphis : vec) : R * R :=
  loop N (fun i '(err, derr) =>
            let x1 := phis i - 1 in
            let x2 := VF * x1 in
            let x3 := 1 / (x2 + 1) in
            let x4 := x3 * zs i in
            (err + x1 * x4, derr + x4 * (1 - x2 * x3) * dphis i)) (0, 0).

(* lines 3524-3527 and 3571-3574 *)
Definition xs_of (VF : R) (zs Ks : vec) : vec := fun i => zs i / (1 + VF * (Ks i - 1)).
Definition ys_of (Ks xs : vec) : vec := fun i => Ks i * xs i.

Section At_T.
  (* the liquid at the given T: fugacity coefficients and their pressure derivatives, for a pressure; use_Poynting *)
  Variables (N : nat) (phis dphis_dP : R -> vec) (use_Poynting : bool).
  (* newton(f, start, xtol, fprime=True) *)
  Variable newton : (R -> R * R) -> R -> option (R * R).

  (* lines 3479-3496; the derivative is multiplied with P *)
  Definition objective_T (VF : R) (zs : vec) (lnP : R) : R * R :=
    let P := exp lnP in
    let r := residual N VF zs (phis P) (dphis_dP P) in
    (fst r, P * snd r).

  Definition P_base : R := 100000. (* 3500 *)
  (* lines 3502-3508 *)
  Definition bubble_estimate (zs : vec) : R := loop N (fun i s => s + phis P_base i * zs i) 0 * P_base.
  Definition dew_estimate (zs : vec) : R := 1 / loop N (fun i s => s + zs i / (phis P_base i * P_base)) 0.
  Definition P_guess (VF : R) (zs : vec) : R := VF * dew_estimate zs + (1 - VF) * bubble_estimate zs. (* 3509 *)

  (* lines 3463-3528: P, xs, ys, err. Simplified: the number of iterations is not returned *)
  Definition solve_T_VF (VF : R) (zs : vec) : res (R * vec * vec * R) :=
    let finish (P : R) (Ks : vec) (err : R) := let xs := xs_of VF zs Ks in Ret (P, xs, ys_of Ks xs, err) in
    if use_Poynting || (Rltb 0 VF && Rltb VF 1) then
      match newton (objective_T VF zs) (ln (P_guess VF zs)) with
      | Some (lnP, last) => finish (exp lnP) (phis (exp last)) (fst (objective_T VF zs last))
      | None => Exn SolverError
      end
    else if Reqb VF 0 then finish (bubble_estimate zs) (phis (bubble_estimate zs)) 0
    else if Reqb VF 1 then finish (dew_estimate zs) (phis (dew_estimate zs)) 0
    else Exn VaporFractionRange.

  (* flash_vl.py 367-372: the pressure, the liquid composition and the gas composition of the two phases made at that T and P *)
  Definition flash_TVF (VF : R) (zs : vec) : res (R * vec * vec) :=
    match solve_T_VF VF zs with Ret (P, xs, ys, _) => Ret (P, xs, ys) | Exn e => Exn e end.
End At_T.

Section At_P.
  (* the liquid at the given P: fugacity coefficients and their temperature derivatives, for a temperature *)
  Variables (N : nat) (phis dphis_dT : R -> vec).
  (* newton from 300 with damping and bisection, brenth between 300 and 1000, newton from 400 (3561-3569) *)
  Variables (newton_damped newton : (R -> R * R) -> R -> option (R * R)) (brenth : (R -> R) -> R -> R -> option (R * R)).

  (* lines 3536-3554 *)
  Definition objective_P (VF : R) (zs : vec) (T : R) : R * R := residual N VF zs (phis T) (dphis_dT T).

  (* lines 3530-3576 *)
  Definition solve_P_VF (VF : R) (zs : vec) : res (R * vec * vec * R) :=
    let found :=
      match newton_damped (objective_P VF zs) 300 with
      | Some r => Some r
      | None => match brenth (fun T => fst (objective_P VF zs T)) 300 1000 with
                | Some r => Some r
                | None => newton (objective_P VF zs) 400
                end
      end in
    match found with
    | Some (T, last) => let Ks := phis last in let xs := xs_of VF zs Ks in Ret (T, xs, ys_of Ks xs, fst (objective_P VF zs last))
    | None => Exn SolverError
    end.

  (* flash_vl.py 443-449 *)
  Definition flash_PVF (VF : R) (zs : vec) : res (R * vec * vec) :=
    match solve_P_VF VF zs with Ret (T, xs, ys, _) => Ret (T, xs, ys) | Exn e => Exn e end.
End At_P.
