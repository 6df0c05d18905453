(* Specification vocabulary for cubic equations of state (independent of the code's helpers). *)
From Coq Require Import Reals.
From Coquelicot Require Import Coquelicot.
From Verif Require Import Base.
Open Scope R_scope.

(* The pressure-explicit cubic EOS of the documentation (thermo/eos.py, module docstring and GCEOS class docstring):
   P = R T/(V-b) - a(T)/(V^2 + delta V + epsilon) *)
Definition P_cubic (a : R -> R) (b delta eps T V : R) : R :=
  Rgas * T / (V - b) - a T / (V ^ 2 + delta * V + eps).

(* V lies outside the poles of the EOS. *)
Definition regular_V (b delta eps V : R) : Prop := V <> b /\ V ^ 2 + delta * V + eps <> 0.

(* a function of T with its first derivatives, everywhere near the point considered *)
Definition smooth3 (a da d2a d3a : R -> R) (T : R) : Prop :=
  locally T (fun t => is_derive a t (da t)) /\
  locally T (fun t => is_derive da t (d2a t)) /\
  locally T (fun t => is_derive d2a t (d3a t)).

(* V is larger than b and than every real root of V^2 + delta V + eps: the physical branch. *)
Definition above_poles (b delta eps V : R) : Prop := b < V /\ sqrt (delta * delta - 4 * eps) < 2 * V + delta.

(* components of the tuple (dP_dT, dP_dV, d2P_dT2, d2P_dV2, d2P_dTdV, H_dep, S_dep, Cv_dep) *)
Definition out_H (m : R * R * R * R * R * R * R * R) : R := let '(_, _, _, _, _, h, _, _) := m in h.
Definition out_S (m : R * R * R * R * R * R * R * R) : R := let '(_, _, _, _, _, _, s, _) := m in s.
Definition out_Cv (m : R * R * R * R * R * R * R * R) : R := let '(_, _, _, _, _, _, _, c) := m in c.
