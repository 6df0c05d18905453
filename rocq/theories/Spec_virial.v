(* The virial equation of state, explicit in pressure: P = R T/V (1 + B/V + C/V^2). *)
From Coq Require Import Reals.
From Coquelicot Require Import Coquelicot.
From Verif Require Import Base.
Open Scope R_scope.

Definition virial_pressure (B C T V : R) : R := Rgas * T / V * (1 + B / V + C / (V * V)).
(* X vanishes in the limit of the ideal gas *)
Definition vanishes (X : R -> R -> R) (T : R) : Prop := is_lim (fun V => X T V) p_infty 0.
(* the function f of temperature with its first and second derivatives *)
Definition smooth_T (f f1 f2 : R -> R) : Prop := forall T, 0 < T -> is_derive f T (f1 T) /\ is_derive f1 T (f2 T).
(* the lists l 0, l 1, l 2, l 3: a function of temperature and its first, second and third derivatives *)
Definition derivative_lists (l : nat -> R -> R) : Prop := forall d T, (d < 3)%nat -> 0 < T -> is_derive (l d) T (l (S d) T).
