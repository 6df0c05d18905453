(* Thermodynamic derivatives of a phase of fixed composition. A state is a pair (T, V); a property is a function of the state. *)
From Coq Require Import Reals.
From Coquelicot Require Import Coquelicot.
From Verif Require Import Base.
Open Scope R_scope.

Definition property := R -> R -> R.
(* X varies smoothly around the state (T, V): along every curve of states through it that has a velocity (t', v'), X has the
   derivative xT * t' + xV * v' *)
Definition differential (X : property) (T V xT xV : R) : Prop :=
  forall (t v : R -> R) (s t' v' : R), t s = T -> v s = V -> is_derive t s t' -> is_derive v s v' -> is_derive (fun u => X (t u) (v u)) s (xT * t' + xV * v').
(* (dX/dY)_Z = d at the state: for some e, dX = d dY + e dZ along every curve of states through it *)
Definition partial_derivative (X Y Z : property) (T V d : R) : Prop := exists e, forall (t v : R -> R) (s t' v' x y z : R), t s = T -> v s = V ->
  is_derive t s t' -> is_derive v s v' -> is_derive (fun u => X (t u) (v u)) s x -> is_derive (fun u => Y (t u) (v u)) s y -> is_derive (fun u => Z (t u) (v u)) s z ->
  x = d * y + e * z.

Definition temperature : property := fun T V => T.
Definition volume : property := fun T V => V.
Definition density : property := fun T V => 1 / V.
(* the energies, from pressure, enthalpy and entropy *)
Definition internal_energy (P H : property) : property := fun T V => H T V - P T V * V.
Definition gibbs_energy (H S : property) : property := fun T V => H T V - T * S T V.
Definition helmholtz_energy (P H S : property) : property := fun T V => H T V - P T V * V - T * S T V.
Definition compressibility_factor (P : property) : property := fun T V => P T V * V / (Rgas * T).
(* the first law for reversible changes dU = T dS - P dV (as dH = T dS + V dP) and the Maxwell relation (dS/dV)_T = (dP/dT)_V,
   for the differentials (xT, xV) of P, H and S *)
Definition thermodynamic (T V pT pV hT hV sT sV : R) : Prop := hT = T * sT + V * pT /\ hV = T * sV + V * pV /\ sV = pT.
(* Y and Z can be used together as coordinates around the state *)
Definition independent (Y Z : property) (T V : R) : Prop :=
  forall yT yV zT zV, differential Y T V yT yV -> differential Z T V zT zV -> yT * zV - yV * zT <> 0.
(* a property of the phase, per kilogram, from its value per mole and the molar mass in g/mol *)
Definition per_mass (X : property) (MW : R) : property := fun T V => X T V * 1000 / MW.
