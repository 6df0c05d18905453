(* The data of an activity coefficient liquid as functions of temperature, and the thermodynamics that its properties must obey.
   A state is given by the temperature and the pressure. *)
From Coq Require Import Reals.
From Coquelicot Require Import Coquelicot.
From Verif Require Import Base Spec_phase.
Open Scope R_scope.

Record liquid := {
  n_comp : nat; zs_ : nat -> R;                               (* components and mole fractions *)
  log_z : nat -> R;                                           (* logarithms of the mole fractions *)
  psat : nat -> R -> R; psat1 : nat -> R -> R; psat2 : nat -> R -> R;        (* vapor pressure and its derivatives with respect to T *)
  vsat : nat -> R -> R; vsat1 : nat -> R -> R; vsat2 : nat -> R -> R;        (* liquid molar volume and its derivatives *)
  fsat : nat -> R -> R; fsat1 : nat -> R -> R; fsat2 : nat -> R -> R;        (* saturation fugacity coefficient and its derivatives *)
  gam : nat -> R -> R; gam1 : nat -> R -> R;                                 (* activity coefficient and its derivative *)
  cpig : nat -> R -> R; cpig_int : nat -> R -> R; cpig_int_T : nat -> R -> R; (* ideal gas heat capacity, its integral and the integral of Cp/T *)
  ge : R -> R; ge1 : R -> R; ge2 : R -> R;                                   (* molar excess Gibbs energy and its derivatives *)
  hvap : nat -> R -> R;                                                      (* enthalpy of vaporization *)
  P_ref : R;
  poynting : bool; phi_sat : bool; hvap_caloric : bool; ideal : bool }.

(* the data are positive where they must be and the derivatives are the derivatives *)
Record consistent (L : liquid) : Prop := {
  c_z : rsum (n_comp L) (zs_ L) = 1; c_P : 0 < P_ref L;
  c_ps : forall i T, (i < n_comp L)%nat -> 0 < T -> 0 < psat L i T /\ is_derive (psat L i) T (psat1 L i T) /\ is_derive (psat1 L i) T (psat2 L i T);
  c_vs : forall i T, (i < n_comp L)%nat -> 0 < T -> is_derive (vsat L i) T (vsat1 L i T) /\ is_derive (vsat1 L i) T (vsat2 L i T);
  c_fs : forall i T, (i < n_comp L)%nat -> 0 < T -> 0 < fsat L i T /\ is_derive (fsat L i) T (fsat1 L i T) /\ is_derive (fsat1 L i) T (fsat2 L i T);
  c_gm : forall i T, (i < n_comp L)%nat -> 0 < T -> 0 < gam L i T /\ is_derive (gam L i) T (gam1 L i T);
  c_cp : forall i T, (i < n_comp L)%nat -> 0 < T -> is_derive (cpig_int L i) T (cpig L i T) /\ is_derive (cpig_int_T L i) T (cpig L i T / T);
  c_ge : forall T, 0 < T -> is_derive (ge L) T (ge1 L T) /\ is_derive (ge1 L) T (ge2 L T);
  (* the excess Gibbs energy belongs to the activity coefficients; it is zero for an ideal solution *)
  c_gamma : forall T, 0 < T -> ge L T = Rgas * T * rsum (n_comp L) (fun i => zs_ L i * ln (gam L i T));
  c_ideal : ideal L = true -> forall T, ge L T = 0 /\ ge1 L T = 0 /\ ge2 L T = 0 }.

Definition pressure : property := fun T P => P.
(* the ideal gas mixture at T and P *)
Definition H_ig (L : liquid) : property := fun T P => rsum (n_comp L) (fun i => zs_ L i * cpig_int L i T).
Definition S_ig (L : liquid) : property := fun T P =>
  rsum (n_comp L) (fun i => zs_ L i * cpig_int_T L i T) - Rgas * rsum (n_comp L) (fun i => zs_ L i * log_z L i) - Rgas * ln (P / P_ref L).
