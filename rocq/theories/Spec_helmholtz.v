(* The thermodynamics of a phase given by a Helmholtz energy A(T, V) = Rg T (ln delta + a0(tau) + ar(tau, delta)) with tau = T_red/T and delta = 1/(V rho_red),
   and of a phase given by a Gibbs energy G(T, P). *)
From Coq Require Import Reals.
From Coquelicot Require Import Coquelicot.
From Verif Require Import Base Spec_phase.
Open Scope R_scope.

(* a function of one variable with its first two derivatives *)
Definition smooth1 (a a1 a2 : R -> R) : Prop := forall x, 0 < x -> is_derive a x (a1 x) /\ is_derive a1 x (a2 x).
(* a function of tau and delta with its partial derivatives: rt is with respect to tau, rd with respect to delta, and so on *)
Record smooth2 (r rt rd rtt rdt rdd rdtt rddt rddd : R -> R -> R) : Prop := {
  s2_0 : forall tau delta, 0 < tau -> 0 < delta -> differential r tau delta (rt tau delta) (rd tau delta);
  s2_t : forall tau delta, 0 < tau -> 0 < delta -> differential rt tau delta (rtt tau delta) (rdt tau delta);
  s2_d : forall tau delta, 0 < tau -> 0 < delta -> differential rd tau delta (rdt tau delta) (rdd tau delta);
  s2_dt : forall tau delta, 0 < tau -> 0 < delta -> differential rdt tau delta (rdtt tau delta) (rddt tau delta);
  s2_dd : forall tau delta, 0 < tau -> 0 < delta -> differential rdd tau delta (rddt tau delta) (rddd tau delta) }.
Section Energy.
Variables (Rg T_red rho_red : R) (a0 : R -> R) (r : R -> R -> R).
Definition tau_of (T : R) : R := T_red / T.
Definition delta_of (V : R) : R := 1 / V / rho_red.
(* the Helmholtz energy, and that of the ideal gas at the same temperature and volume *)
Definition he_A : property := fun T V => Rg * T * (ln (delta_of V) + a0 (tau_of T) + r (tau_of T) (delta_of V)).
Definition he_A_ideal : property := fun T V => Rg * T * (ln (delta_of V) + a0 (tau_of T)).
End Energy.
