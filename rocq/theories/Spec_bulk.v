(* What the bulk properties of a state of several phases mean, independent of how thermo computes them. *)
From Coq Require Import Reals List Arith.
Import ListNotations.
Open Scope R_scope.

(* the amount-weighted sum  w1 x1 + w2 x2 + ... *)
Fixpoint weighted (ws xs : list R) : R := match ws, xs with w :: ws', x :: xs' => w * x + weighted ws' xs' | _, _ => 0 end.
Fixpoint total (l : list R) : R := match l with [] => 0 | x :: l' => x + total l' end.
(* a list of fractions: none negative, adding up to one *)
Definition is_fractions (l : list R) : Prop := Forall (fun b => 0 <= b) l /\ total l = 1.
(* the share of each item in the total of  w1 x1 + w2 x2 + ... *)
Fixpoint products (ws xs : list R) : list R := match ws, xs with w :: ws', x :: xs' => w * x :: products ws' xs' | _, _ => [] end.
Definition shares (ws xs : list R) : list R := map (fun p => p / weighted ws xs) (products ws xs).
(* every value of the list lies between m and M *)
Definition between (m M : R) (xs : list R) : Prop := Forall (fun x => m <= x <= M) xs.
(* the phases with mole fractions zss, in the molar amounts betas, add up to the overall composition zs of n components *)
Definition material_balance (n : nat) (betas : list R) (zss : list (nat -> R)) (zs : nat -> R) : Prop :=
  forall i, (i < n)%nat -> zs i = weighted betas (map (fun z => z i) zss).
(* the entropy of mixing at constant pressure over R, with the sign of  sum z ln z *)
Fixpoint sum_z_ln_z (n : nat) (zs : nat -> R) : R := match n with O => 0 | S k => sum_z_ln_z k zs + zs k * ln (zs k) end.

(* the number of atoms of an element in a formula given as a list of (element, count) *)
From Coq Require Import String.
Fixpoint count_atoms (k : string) (atoms : list (string * R)) : R := match atoms with [] => 0 | (k', v) :: l => (if String.eqb k' k then v else 0) + count_atoms k l end.
(* moles of an element per mole of a mixture of the formulas, the i-th (counting from m) with mole fraction zs i *)
Fixpoint element_amount (k : string) (zs : nat -> R) (m : nat) (formulas : list (list (string * R))) : R := match formulas with [] => 0 | f :: l => zs m * count_atoms k f + element_amount k zs (S m) l end.
