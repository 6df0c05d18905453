(* Specification vocabulary for activity coefficient models: compositions, derivatives in T and in the amounts. *)
From Coq Require Import Reals Arith.
From Coquelicot Require Import Coquelicot.
From Verif Require Import Base Spec_mix.
Open Scope R_scope.

(* non-negative amounts of n components, not all zero; mole fractions are the case of total 1 *)
Definition amounts (n : nat) (x : nat -> R) : Prop := (forall i, (i < n)%nat -> 0 <= x i) /\ 0 < rsum n x.

(* P holds at every vector whose first n entries are close enough to those of x *)
Definition near (n : nat) (x : nat -> R) (P : (nat -> R) -> Prop) : Prop :=
  exists eps, 0 < eps /\ forall y, (forall i, (i < n)%nat -> Rabs (y i - x i) < eps) -> P y.

(* v is the second partial derivative of f at x: derivative in x_j of the partial derivative in x_i taken around x *)
Definition second_partial (n : nat) (f : (nat -> R) -> R) (x : nat -> R) (i j : nat) (v : R) : Prop :=
  exists g, near n x (fun y => partial f y i (g y)) /\ partial g x j v.
(* v is the mixed derivative: derivative in T of the partial derivative in x_i of f(T, x) *)
Definition mixed_partial (f : R -> (nat -> R) -> R) (T : R) (x : nat -> R) (i : nat) (v : R) : Prop :=
  exists g, locally T (fun t => partial (f t) x i (g t)) /\ is_derive g T v.
(* v is the derivative in T of df, and df is the derivative of f around T *)
Definition second_derive (f : R -> R) (T v : R) : Prop :=
  exists g, locally T (fun t => is_derive f t (g t)) /\ is_derive g T v.
Definition third_derive (f : R -> R) (T v : R) : Prop :=
  exists g h, locally T (fun t => is_derive f t (g t)) /\ locally T (fun t => is_derive g t (h t)) /\ is_derive h T v.

(* the excess Gibbs energy of an amount ns of mixture, from the molar GE as a function of mole fractions *)
Definition total_GE (n : nat) (GE : (nat -> R) -> R) (ns : nat -> R) : R := rsum n ns * GE (fractions n ns).

(* ln(gamma_i) is the partial molar excess Gibbs energy over RT *)
Definition is_ln_gamma (n : nat) (GE : (nat -> R) -> R) (RT : R) (x : nat -> R) (i : nat) (lng : R) : Prop :=
  partial (total_GE n GE) x i (RT * lng).

(* NRTL (Renon and Prausnitz 1968) with the parameter forms of the documentation of thermo.nrtl.NRTL *)
Definition nrtl_tau_form (a b e f g h T : R) : R := a + b / T + e * ln T + f * T + g / T ^ 2 + h * T ^ 2.
Definition nrtl_G_form (c d tau T : R) : R := exp (- (c + d * T) * tau).
Definition nrtl_GE_form (n : nat) (x : nat -> R) (G tau : nat -> nat -> R) (RT : R) : R :=
  RT * rsum n (fun i => x i * (rsum n (fun j => tau j i * G j i * x j) / rsum n (fun j => G j i * x j))).

(* third derivatives in the amounts *)
Definition third_partial (n : nat) (f : (nat -> R) -> R) (x : nat -> R) (i j k : nat) (v : R) : Prop :=
  exists g h, near n x (fun y => partial f y i (g y)) /\ near n x (fun y => partial g y j (h y)) /\ partial h x k v.

(* Wilson (1964) with the parameter form of the documentation of thermo.wilson.Wilson *)
Definition wilson_lambda_form (a b c d e f T : R) : R := exp (a + b / T + c * ln T + d * T + e / T ^ 2 + f * T ^ 2).
Definition wilson_GE_form (n : nat) (x : nat -> R) (L : nat -> nat -> R) (RT : R) : R :=
  - RT * rsum n (fun i => x i * ln (rsum n (fun j => x j * L i j))).

(* UNIQUAC (Abrams and Prausnitz 1975) with coordination number 10; its interaction parameters have the form of Wilson's *)
Definition uniquac_GE_form (n : nat) (x r q : nat -> R) (tau : nat -> nat -> R) (RT : R) : R :=
  let Phi i := x i * r i / rsum n (fun j => x j * r j) in
  let theta i := x i * q i / rsum n (fun j => x j * q j) in
  RT * (rsum n (fun i => x i * ln (Phi i / x i)) + 10 / 2 * rsum n (fun i => q i * x i * ln (theta i / Phi i)) - rsum n (fun i => q i * x i * ln (rsum n (fun j => theta j * tau j i)))).
Definition positive (n : nat) (x : nat -> R) : Prop := forall i, (i < n)%nat -> 0 < x i.

(* Regular solution, Flory-Huggins and Hansen models: the excess Gibbs energies documented in thermo/regular_solution.py *)
Definition regular_A (delta : nat -> R) (l : nat -> nat -> R) (i j : nat) : R := 1 / 2 * (delta i - delta j) ^ 2 + l i j * delta i * delta j.
Definition hansen_A (dd dp dh : nat -> R) (alpha : R) (i j : nat) : R := 1 / 2 * alpha * ((dd i - dd j) ^ 2 + 1 / 4 * (dp i - dp j) ^ 2 + 1 / 4 * (dh i - dh j) ^ 2).
Definition regular_GE_form (n : nat) (x V : nat -> R) (A : nat -> nat -> R) : R :=
  rsum n (fun i => rsum n (fun j => x i * x j * V i * V j * A i j)) / rsum n (fun i => x i * V i).
Definition flory_huggins_GE_form (n : nat) (x V : nat -> R) (A : nat -> nat -> R) (RT : R) : R :=
  RT * rsum n (fun i => x i * ln (V i / rsum n (fun j => x j * V j))) + regular_GE_form n x V A.
