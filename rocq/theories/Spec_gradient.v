(* Specification vocabulary: gradients of functions of the composition, and what mole-number derivatives are. *)
From Coq Require Import Reals Arith.
From Coquelicot Require Import Coquelicot.
From Verif Require Import Base Spec_mix Spec_activity.
Open Scope R_scope.

(* c is a curve of compositions that passes through x at parameter t with velocity dc *)
Definition curve_through (n : nat) (c : nat -> R -> R) (t : R) (x dc : nat -> R) : Prop :=
  forall i, (i < n)%nat -> c i t = x i /\ is_derive (c i) t (dc i).
(* g is the gradient of f at x: along every differentiable curve through x, f changes at the rate sum_i g_i dx_i/dt *)
Definition has_gradient (n : nat) (f : (nat -> R) -> R) (x g : nat -> R) : Prop :=
  forall c t dc, curve_through n c t x dc -> is_derive (fun s => f (fun i => c i s)) t (rsum n (fun i => g i * dc i)).
(* mole fractions: non-negative and summing to one *)
Definition mole_fractions (n : nat) (x : nat -> R) : Prop := (forall i, (i < n)%nat -> 0 <= x i) /\ rsum n x = 1.
(* an intensive property f of the mole fractions, as a function of the mole numbers *)
Definition intensive (n : nat) (f : (nat -> R) -> R) (ns : nat -> R) : R := f (fractions n ns).
(* the extensive property n f(x), as a function of the mole numbers *)
Definition extensive (n : nat) (f : (nat -> R) -> R) (ns : nat -> R) : R := rsum n ns * f (fractions n ns).
(* the Gibbs-Duhem relation at x and constant temperature and pressure: along every path of mole fractions through x, sum_i x_i d(ln gamma_i) = 0 *)
Definition gibbs_duhem (n : nat) (lng : (nat -> R) -> nat -> R) (x : nat -> R) : Prop :=
  forall c t dc, curve_through n c t x dc -> locally t (fun s => rsum n (fun i => c i s) = 1) ->
  exists L, (forall i, (i < n)%nat -> is_derive (fun s => lng (fun j => c j s) i) t (L i)) /\ rsum n (fun i => x i * L i) = 0.
(* the composition of pure component i *)
Definition pure (i : nat) : nat -> R := fun j => if Nat.eqb j i then 1 else 0.
