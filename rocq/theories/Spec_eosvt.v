(* Specification for C69: a cubic equation of state written for an arbitrary amount of mixture, and partial
   derivatives with respect to the amounts of the components. *)
From Coq Require Import Reals.
From Coquelicot Require Import Coquelicot.
From Verif Require Import Base.
Open Scope R_scope.

(* s more moles of component i *)
Definition more (n : nat -> R) (i : nat) (s : R) : nat -> R := fun k => if Nat.eqb k i then n k + s else n k.
(* partial derivative of a function of the amounts with respect to the amount of component i *)
Definition Dn (f : (nat -> R) -> R) (i : nat) : (nat -> R) -> R := fun n => Derive (fun s => f (more n i s)) 0.

(* f can be differentiated with respect to the amounts once, twice or three times, at every composition with a positive total amount *)
Definition diff1 (N : nat) (f : (nat -> R) -> R) : Prop :=
  forall n i, 0 < rsum N n -> (i < N)%nat -> ex_derive (fun s => f (more n i s)) 0.
Definition diff2 (N : nat) (f : (nat -> R) -> R) : Prop := diff1 N f /\ forall i, (i < N)%nat -> diff1 N (Dn f i).
Definition diff3 (N : nat) (f : (nat -> R) -> R) : Prop := diff1 N f /\ forall i, (i < N)%nat -> diff2 N (Dn f i).

(* the value g is the partial derivative of f at the amounts n, which exists *)
Definition has_Dn (f : (nat -> R) -> R) (i : nat) (n : nat -> R) (g : R) : Prop := is_derive (fun s => f (more n i s)) 0 g.

(* P = R T / (V - b) - a / (V^2 + delta V + epsilon) *)
Definition cubicP (T V b delta epsilon_ a : R) : R := Rgas * T / (V - b) - a / (V * V + delta * V + epsilon_).
(* departure of the molar Helmholtz energy from the ideal gas at the same temperature and pressure *)
Definition cubicAdep (T P V b delta epsilon_ a : R) : R :=
  - (Rgas * T * ln (P * (V - b) / (Rgas * T)))
  - 2 * a / sqrt (delta * delta - 4 * epsilon_) * re_catanh ((2 * V + delta) / sqrt (delta * delta - 4 * epsilon_)).
(* departure of the molar enthalpy *)
Definition cubicHdep (T P V delta epsilon_ a da_dT : R) : R :=
  P * V - Rgas * T
  + 2 * (T * da_dT - a) / sqrt (delta * delta - 4 * epsilon_) * re_catanh ((2 * V + delta) / sqrt (delta * delta - 4 * epsilon_)).
(* molar Helmholtz energy of mixing ideal gases whose pressure is P, relative to a pressure of one *)
Definition Amixing (N : nat) (T P : R) (n : nat -> R) : R :=
  Rgas * T * rsum N (fun k => n k / rsum N n * ln (n k / rsum N n)) + Rgas * T * ln P.

Section Mixture.
Variable N : nat.
Variables (T Vt : R).
Variables b delta epsilon_ a : (nat -> R) -> R.
(* the pressure of the amounts n in the total volume Vt *)
Definition Ptotal (n : nat -> R) : R := cubicP T (Vt / rsum N n) (b n) (delta n) (epsilon_ n) (a n).
(* the molar Helmholtz departure of the amounts n in the total volume Vt *)
Definition Adep_total (n : nat -> R) : R := cubicAdep T (Ptotal n) (Vt / rsum N n) (b n) (delta n) (epsilon_ n) (a n).
End Mixture.

(* lists of first, second and third partial derivatives of a mixture parameter at the composition zs *)
Definition derivs1 (N : nat) (f : (nat -> R) -> R) (zs : nat -> R) (d1 : nat -> R) : Prop :=
  diff1 N f /\ forall i, (i < N)%nat -> Dn f i zs = d1 i.
Definition derivs2 (N : nat) (f : (nat -> R) -> R) (zs : nat -> R) (d1 : nat -> R) (d2 : nat -> nat -> R) : Prop :=
  diff2 N f /\ (forall i, (i < N)%nat -> Dn f i zs = d1 i) /\ (forall i j, (i < N)%nat -> (j < N)%nat -> Dn (Dn f i) j zs = d2 i j).
Definition derivs3 (N : nat) (f : (nat -> R) -> R) (zs : nat -> R) (d1 : nat -> R) (d2 : nat -> nat -> R) (d3 : nat -> nat -> nat -> R) : Prop :=
  diff3 N f /\ (forall i, (i < N)%nat -> Dn f i zs = d1 i) /\ (forall i j, (i < N)%nat -> (j < N)%nat -> Dn (Dn f i) j zs = d2 i j) /\
  (forall i j k, (i < N)%nat -> (j < N)%nat -> (k < N)%nat -> Dn (Dn (Dn f i) j) k zs = d3 i j k).
