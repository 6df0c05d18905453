(* Specification vocabulary for mixtures: van der Waals mixing rules, composition derivatives. *)
From Coq Require Import Reals Arith.
From Coquelicot Require Import Coquelicot.
From Verif Require Import Base.
Open Scope R_scope.

(* the van der Waals one-fluid combining rule: sqrt(a_i a_j) (1 - k_ij), and the quadratic mixing rule *)
Definition pair_a (a : nat -> R) (omk : nat -> nat -> R) (i j : nat) : R := sqrt (a i * a j) * omk i j.
Definition quad_mix (n : nat) (zs : nat -> R) (aij : nat -> nat -> R) : R :=
  rsum n (fun i => rsum n (fun j => zs i * zs j * aij i j)).
(* linear mixing rule *)
Definition lin_mix (n : nat) (zs : nat -> R) (b : nat -> R) : R := rsum n (fun i => zs i * b i).

Definition sym (n : nat) (m : nat -> nat -> R) : Prop := forall i j, (i < n)%nat -> (j < n)%nat -> m i j = m j i.

(* functions of temperature for every component: values, first derivatives near T, second derivative at T *)
Definition smooth2_at (n : nat) (a da : nat -> R -> R) (T : R) (d2 : nat -> R) : Prop :=
  forall i, (i < n)%nat -> locally T (fun t => is_derive (a i) t (da i t)) /\ is_derive (da i) T (d2 i).

(* mole numbers to mole fractions *)
Definition fractions (n : nat) (ns : nat -> R) : nat -> R := fun i => ns i / rsum n ns.

(* v is the partial derivative of f with respect to its i-th argument at x *)
Definition partial (f : (nat -> R) -> R) (x : nat -> R) (i : nat) (v : R) : Prop :=
  is_derive (fun t => f (upd x i t)) (x i) v.
(* g is the i-th partial derivative of f at every mole-number vector with non-zero total *)
Definition partial_fun (n : nat) (f : (nat -> R) -> R) (i : nat) (g : (nat -> R) -> R) : Prop :=
  forall x, rsum n x <> 0 -> partial f x i (g x).
(* second and third partial derivatives, as iterated partial derivatives *)
Definition partial2 (n : nat) (f : (nat -> R) -> R) (x : nat -> R) (i j : nat) (v : R) : Prop :=
  exists g, partial_fun n f i g /\ partial g x j v.
Definition partial3 (n : nat) (f : (nat -> R) -> R) (x : nat -> R) (i j k : nat) (v : R) : Prop :=
  exists g h, partial_fun n f i g /\ partial_fun n g j h /\ partial h x k v.
(* the same in mole fractions, without restriction on the total *)
Definition partialz2 (f : (nat -> R) -> R) (x : nat -> R) (i j : nat) (v : R) : Prop :=
  exists g, (forall y, partial f y i (g y)) /\ partial g x j v.

(* The lists dz, d2z (mole-fraction derivatives, unconstrained) and dn, d2n, d3n (mole-number derivatives) are the
   composition derivatives at zs of a mixture parameter f given as a function of the mole fractions. *)
Definition composition_derivatives (n : nat) (f : (nat -> R) -> R) (zs : nat -> R)
    (dz : nat -> R) (d2z : nat -> nat -> R) (dn : nat -> R) (d2n : nat -> nat -> R) (d3n : nat -> nat -> nat -> R) : Prop :=
  forall i j k, (i < n)%nat -> (j < n)%nat -> (k < n)%nat ->
    partial f zs i (dz i) /\ partialz2 f zs i j (d2z i j) /\
    partial (fun ns => f (fractions n ns)) zs i (dn i) /\
    partial2 n (fun ns => f (fractions n ns)) zs i j (d2n i j) /\
    partial3 n (fun ns => f (fractions n ns)) zs i j k (d3n i j k).
