(* Specification for C77: how far two phases are from equal fugacities, without the loops. *)
From Coq Require Import Reals.
From Verif Require Import Base.
Open Scope R_scope.

(* sum of squares of f_l / f_g - 1, with f = P x phi *)
Definition fugacity_error (n : nat) (lnphi_l lnphi_g : (nat -> R) -> nat -> R) (P : R) (x y : nat -> R) : R :=
  rsum n (fun i => (P * x i * exp (lnphi_l x i) / (P * y i * exp (lnphi_g y i)) - 1) ^ 2).

(* a split of the feed by K values into two phases with positive mole fractions *)
Definition positive_split (n : nat) (z K : nat -> R) (VF : R) (x y : nat -> R) : Prop :=
  rsum n x = 1 /\ rsum n y = 1 /\ forall i, (i < n)%nat -> 0 < x i /\ 0 < y i /\ y i = K i * x i /\ z i = (1 - VF) * x i + VF * y i.
