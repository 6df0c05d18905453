(* Specification vocabulary for ion balances (C42). *)
From Coq Require Import Reals List Bool Arith.
From Verif Require Import Base Model_ions.
Import ListNotations.
Open Scope R_scope.

(* total charge of a list of ions with given mole fractions, and of a solution *)
Fixpoint charge_of (ions : list ion) (zs : list R) : R := match ions, zs with i :: ions, z :: zs => i_charge i * z + charge_of ions zs | _, _ => 0 end.
Definition net_charge (anions cations : list ion) (az cz : list R) : R := charge_of anions az + charge_of cations cz.
Fixpoint total (zs : list R) : R := match zs with [] => 0 | z :: zs => z + total zs end.
(* a well formed measured composition: as many fractions as ions, anions negative, cations positive, no negative fraction *)
Definition measured (anions cations : list ion) (az cz : list R) : Prop :=
  length az = length anions /\ length cz = length cations /\ (forall i, In i anions -> i_charge i < 0) /\ (forall i, In i cations -> 0 < i_charge i) /\ (forall z, In z az -> 0 <= z) /\ (forall z, In z cz -> 0 <= z).
(* the lists agree except at the positions satisfying P *)
Definition same_except (P : nat -> Prop) (l l' : list R) : Prop := length l' = length l /\ forall k, ~ P k -> nth k l' 0 = nth k l 0.
(* all entries multiplied by one factor *)
Definition scaled_by (m : R) (l l' : list R) : Prop := l' = map (fun z => z * m) l.
(* mole fraction of an ion, zero when it is not listed *)
Fixpoint fraction_of (x : ion) (ions : list ion) (zs : list R) : R := match ions, zs with i :: ions, z :: zs => if (i_id i =? i_id x)%nat then z else fraction_of x ions zs | _, _ => 0 end.
(* moles per litre of solution: ions from concentrations in mg/L, water from the remaining mass (density in kg/m^3, that is g/L) *)
Definition ion_moles (ions : list ion) (concs : list R) : list R := map (fun p => snd p / 1000 / i_MW (fst p)) (combine ions concs).
Definition water_moles (anion_concs cation_concs : list R) (rho : R) : R := (rho - total anion_concs / 1000 - total cation_concs / 1000) / 18.01528.
