(* What it means for a computation that may fail, p : R -> option R, to be continuous, to have a derivative, and to have an integral. *)
From Coq Require Import Reals.
From Coquelicot Require Import Coquelicot.
Open Scope R_scope.

(* around T the computation succeeds, with values that are continuous at T *)
Definition continuous_at (p : R -> option R) (T : R) : Prop := exists g : R -> R, locally T (fun t => p t = Some (g t)) /\ continuous g T.
(* around T the computation succeeds, with values that have the derivative d at T *)
Definition has_derivative (p : R -> option R) (T d : R) : Prop := exists g : R -> R, locally T (fun t => p t = Some (g t)) /\ is_derive g T d.
(* the computation succeeds between a and b, and I is the integral of its values from a to b *)
Definition has_integral (p : R -> option R) (a b I : R) : Prop := exists g : R -> R, (forall t, Rmin a b <= t <= Rmax a b -> p t = Some (g t)) /\ is_RInt g a b I.
