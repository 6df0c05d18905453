(* Specification for C75: vapour-liquid equilibrium with given K values. *)
From Coq Require Import Reals.
From Verif Require Import Base.
Open Scope R_scope.

(* a composition of n components *)
Definition composition (n : nat) (z : nat -> R) : Prop := (forall i, (i < n)%nat -> 0 <= z i) /\ rsum n z = 1.

(* two phases in equilibrium that make up the feed: y = K x and z = (1 - VF) x + VF y *)
Definition split_of (n : nat) (z K : nat -> R) (VF : R) (x y : nat -> R) : Prop :=
  composition n x /\ composition n y /\ (forall i, (i < n)%nat -> y i = K i * x i /\ z i = (1 - VF) * x i + VF * y i).

(* the feed as liquid is at or below its bubble point, the feed as gas at or above its dew point *)
Definition liquid_stable (n : nat) (z K : nat -> R) : Prop := rsum n (fun i => z i * K i) <= 1.
Definition gas_stable (n : nat) (z K : nat -> R) : Prop := rsum n (fun i => z i / K i) <= 1.
