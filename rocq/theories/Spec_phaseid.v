(* Specification vocabulary for phase identification and sorting (C35). *)
From Coq Require Import Reals List Bool Arith Sorted.
From Verif Require Import Base Model_phaseid.
Import ListNotations.
Open Scope R_scope.

(* the phases of a result in the documented order: gas, liquids, solids *)
Definition output (gas : option phase) (liquids solids : list phase) : list phase := match gas with Some g => [g] | None => [] end ++ liquids ++ solids.
(* force_phase is None, 'l', 's' or 'g' *)
Definition known_force (A : attributes) (p : phase) : Prop := a_force A p <> Some Force_other.
(* the temperature used for the scores: that of the first phase without a forced state *)
Definition score_T (A : attributes) (phases : list phase) (T : R) : Prop := forall p l, filter (fun p => match a_force A p with None => true | _ => false end) phases = p :: l -> T = a_T A p.
(* what each phase should be *)
Definition must_be_solid (A : attributes) (skip_solids : bool) (p : phase) : Prop := a_force A p = Some Force_s \/ (a_force A p = None /\ skip_solids = false /\ 0 <= a_S A p).
Definition may_be_gas (A : attributes) (skip_solids : bool) (T : R) (p : phase) : Prop := a_force A p = Some Force_g \/ (a_force A p = None /\ ~ must_be_solid A skip_solids p /\ 0 <= a_VL A T p).
(* the property the phases are ordered by; mass density in kg/m^3 from V in m^3/mol and molar masses in g/mol *)
Definition order_property (A : attributes) (C : constants) (prop : sort_prop) (p : phase) : R :=
  match prop with
  | DENSITY_MASS => rsum (k_N C) (fun i => a_zs A p i * k_MWs C i) / 1000 / a_V A p
  | DENSITY => a_rho A p
  | ISOTHERMAL_COMPRESSIBILITY => a_isobaric_expansion A p
  | HEAT_CAPACITY => a_Cp A p
  end.
Definition in_order (higher_first : bool) (key : phase -> R) (l : list phase) : Prop := StronglySorted (fun p q => if higher_first then key q <= key p else key p <= key q) l.
(* the water rich phase: more water than 1e-4 and no other liquid has more *)
Definition water_rich (A : attributes) (wi : nat) (l : list phase) (w : phase) : Prop := In w l /\ 1 / 10000 < a_zs A w wi /\ forall p, In p l -> a_zs A p wi <= a_zs A w wi.
