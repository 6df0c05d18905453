(* Specification vocabulary for flash specifications (C34). *)
From Coq Require Import Reals List Bool Arith.
From Verif Require Import Base Model_flash.
Import ListNotations.
Open Scope R_scope.

Definition arg (v : var) (o : option R) : list (var * R) := match o with Some x => [(v, x)] | None => [] end.
(* molar mass of the mixture in kg/mol *)
Definition molar_mass (f : flasher) (zs : list R) : R := rsum (length zs) (fun i => nth i zs 0 * f_MWs f i) / 1000.
(* every specification given by the caller, each expressed as a molar quantity: the molar density and mass density as molar volumes, the
   mass based energies times the molar mass, and the reactive enthalpy less the enthalpies of formation *)
Definition arguments (f : flasher) (zs : list R) (a : flash_args) : list (var * R) :=
  let M := molar_mass f zs in
  arg vT (a_T a) ++ arg vP (a_P a)
  ++ (arg vV (a_V a) ++ arg vV (option_map (fun r => / r) (a_rho a)) ++ arg vV (option_map (fun r => M / r) (a_rho_mass a)))
  ++ (arg vH (a_H a) ++ arg vH (option_map (fun h => h * M) (a_H_mass a)) ++ arg vH (option_map (fun h => h - rsum (f_N f) (fun i => nth i zs 0 * f_Hfgs f i)) (a_H_reactive a)))
  ++ (arg vS (a_S a) ++ arg vS (option_map (fun h => h * M) (a_S_mass a)))
  ++ (arg vU (a_U a) ++ arg vU (option_map (fun h => h * M) (a_U_mass a)))
  ++ (arg vG (a_G a) ++ arg vG (option_map (fun h => h * M) (a_G_mass a)))
  ++ (arg vA (a_A a) ++ arg vA (option_map (fun h => h * M) (a_A_mass a)))
  ++ arg vVF (a_VF a) ++ arg vSF (a_SF a).
(* the supported pairs: two of T, P, V; T or P with a vapor or a solid fraction; a vapor fraction with an energy or the entropy;
   T, P or V with H, S or U *)
Definition supported (u v : var) : bool :=
  let one u v := match u, v with
    | vT, vP | vT, vV | vP, vV => true
    | (vT | vP), (vVF | vSF) => true
    | (vH | vS | vU | vG | vA), vVF => true
    | (vT | vP | vV), (vH | vS | vU) => true
    | _, _ => false end in one u v || one v u.
(* physically acceptable values *)
Definition acceptable (f : flasher) (p : var * R) : Prop :=
  match p with
  | (vT, x) => f_Tmin f <= x
  | (vP, x) | (vV, x) => 0 < x
  | (vVF, x) => 0 <= x <= 1 /\ f_VF_ok f = true
  | (vSF, x) => 0 <= x <= 1 /\ f_SF_ok f = true
  | _ => True
  end.
(* the specifications an algorithm is asked to satisfy, and its composition *)
Definition enforces (c : call) : list (var * R) :=
  match c with
  | Call_TPV T P V _ => arg vT T ++ arg vP P ++ arg vV V
  | Call_TVF T VF _ => [(vT, T); (vVF, VF)]
  | Call_PVF P VF _ => [(vP, P); (vVF, VF)]
  | Call_TSF T SF _ => [(vT, T); (vSF, SF)]
  | Call_PSF P SF _ => [(vP, P); (vSF, SF)]
  | Call_VF_HSGUA VF x v _ => [(v, x); (vVF, VF)]
  | Call_TPV_HSGUA x y u v _ _ => [(u, x); (v, y)]
  end.
Definition call_zs (c : call) : list R :=
  match c with Call_TPV _ _ _ zs | Call_TVF _ _ zs | Call_PVF _ _ zs | Call_TSF _ _ zs | Call_PSF _ _ zs | Call_VF_HSGUA _ _ _ zs | Call_TPV_HSGUA _ _ _ _ _ zs => zs end.
