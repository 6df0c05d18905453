(* Model of the accelerated successive substitution flashes of thermo/flash/flash_utils.py: sequential_substitution_Mehra_2P (503-596) and
   sequential_substitution_GDEM3_2P (600-674).
   Simplifications: numbers are reals; ln(phi) of the liquid and of the gas at T and P are functions of composition; flash_inner_loop and
   gdem (of the chemicals and fluids libraries) are parameters, None being an error of the former; fugacities are P x exp(ln(phi)). *)
From Coq Require Import Reals List Bool Arith.
From Verif Require Import Base.
Import ListNotations.
Open Scope R_scope.

Section Substitution.
Variables (n : nat) (z : nat -> R) (lnphis_l lnphis_g : (nat -> R) -> nat -> R) (P : R)
  (inner : (nat -> R) -> (nat -> R) -> R -> option (R * (nat -> R) * (nat -> R)))
  (gdem : (nat -> R) -> (nat -> R) -> (nat -> R) -> (nat -> R) -> nat -> R).

(* the variables that pass from one iteration to the next; past: gs (Mehra) or all_lnKs (GDEM3), latest first *)
Record vars := { xs : nat -> R; ys : nat -> R; VF : R; Ks : nat -> R; past : list (nat -> R) }.

(* the ways to end: flash_utils.py 591-596, 670-674, and the IndexError of gs[-1] or all_lnKs[-3] *)
Inductive ending := Returned (V_over_F : R) (x y l_zs g_zs : nat -> R) (iteration : nat) (err : R) | TrivialSolution | Unconverged | IndexErr | InnerErr.

(* any negative entry: the loops in 568-577 and 646-655 *)
Fixpoint any_negative (k : nat) (x : nat -> R) : bool := match k with O => false | S j => any_negative j x || Rltb (x j) 0 end.
(* absolute values over their sum, only if an entry is negative: 568-577, 646-655 *)
Definition repaired (x : nat -> R) : nat -> R :=
  if any_negative n x then (let s := rsum n (fun i => Rabs (x i)) in fun i => Rabs (x i) / s) else x.

(* K values of an iteration and what is stored; None is the IndexError *)
(* GDEM3: flash_utils.py 616-641; acc_frequency and acc_delay are arguments that are not used *)
Definition GDEM3_K (acc_frequency acc_delay : nat) (iteration : nat) (v : vars) : option ((nat -> R) * list (nat -> R)) :=
  let lnKs := fun i => lnphis_l (xs v) i - lnphis_g (ys v) i in
  if Nat.eqb (Nat.modulo iteration 5) 0 && Nat.ltb 4 iteration then
    match past v with
    | a :: b :: c :: _ => let d := gdem lnKs a b c in let lnKs := fun i => lnKs i + d i in Some ((fun i => exp (lnKs i)), lnKs :: past v)
    | _ => None
    end
  else Some ((fun i => exp (lnKs i)), lnKs :: past v).

(* Mehra: flash_utils.py 525-561; acc_frequency is positive *)
Definition Mehra_K (acc_frequency acc_delay : nat) (lambda_max lambda_min : R) (iteration : nat) (v : vars) : option ((nat -> R) * list (nat -> R)) :=
  let fugacities_g := fun i => P * ys v i * exp (lnphis_g (ys v) i) in
  let fugacities_l := fun i => P * xs v i * exp (lnphis_l (xs v) i) in
  let phis_g := fun i => exp (lnphis_g (ys v) i) in
  let phis_l := fun i => exp (lnphis_l (xs v) i) in
  let gis := fun i => ln (fugacities_g i) - ln (fugacities_l i) in
  if Nat.eqb (Nat.modulo iteration acc_frequency) 0 && Nat.ltb acc_delay iteration then
    match past v with
    | gis_old :: _ =>
        let lambdas := fun i => Rmin (Rmax (Rabs (gis i * gis i / (gis_old i * (gis i - gis_old i)))) lambda_min) lambda_max in
        Some ((fun i => Ks v i * Rpower (phis_l i / phis_g i / Ks v i) (lambdas i)), gis :: past v)
    | [] => None
    end
  else Some ((fun i => Ks v i * fugacities_l i / fugacities_g i), gis :: past v).

(* the loop, the same in both functions: flash_utils.py 524-596 and 617-674 *)
Fixpoint iterate (newK : nat -> vars -> option ((nat -> R) * list (nat -> R))) (tol trivial_solution_tol : R) (left iteration : nat) (v : vars) : ending :=
  match left with
  | O => Unconverged
  | S left' =>
      match newK iteration v with
      | None => IndexErr
      | Some (K, past') =>
          match inner z K (VF v) with
          | None => InnerErr
          | Some (V_over_F, xs_new, ys_new) =>
          let xs_new := repaired xs_new in
          let ys_new := repaired ys_new in
          let err := rsum n (fun i => (K i * xs v i / ys v i - 1) * (K i * xs v i / ys v i - 1)) in
          let comp_difference := rsum n (fun i => Rabs (xs_new i - ys_new i)) in
          if Rltb comp_difference trivial_solution_tol then TrivialSolution
          else if Rltb err tol then Returned V_over_F xs_new ys_new (xs v) (ys v) iteration err
          else iterate newK tol trivial_solution_tol left' (S iteration) {| xs := xs_new; ys := ys_new; VF := V_over_F; Ks := K; past := past' |}
          end
      end
  end.

(* the start: flash_utils.py 510-522 and 606-615; GDEM3 has no K values at first, the field is not read *)
Definition start (xs_guess ys_guess : nat -> R) (V_over_F_guess : option R) : vars :=
  {| xs := xs_guess; ys := ys_guess; VF := match V_over_F_guess with Some v => v | None => 1 / 2 end; Ks := fun i => ys_guess i / xs_guess i; past := [] |}.

Definition GDEM3_2P (maxiter : nat) (tol trivial_solution_tol : R) (acc_frequency acc_delay : nat) (xg yg : nat -> R) (Vg : option R) : ending :=
  iterate (GDEM3_K acc_frequency acc_delay) tol trivial_solution_tol maxiter 0 (start xg yg Vg).
Definition Mehra_2P (maxiter : nat) (tol trivial_solution_tol : R) (acc_frequency acc_delay : nat) (lambda_max lambda_min : R) (xg yg : nat -> R) (Vg : option R) : ending :=
  iterate (Mehra_K acc_frequency acc_delay lambda_max lambda_min) tol trivial_solution_tol maxiter 0 (start xg yg Vg).
End Substitution.
