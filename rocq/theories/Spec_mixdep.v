(* Specification vocabulary for the departure functions of cubic mixtures: the functions of the composition a mixture stands for. *)
From Coq Require Import Reals Arith.
From Coquelicot Require Import Coquelicot.
From Verif Require Import Base Spec_eos Spec_mix Spec_activity Spec_gradient Spec_eosvt Model_mixdep.
Open Scope R_scope.

(* The parameters of the equation of state, and the molar volume at constant temperature and pressure, as functions of the mole fractions *)
Record mixing := { fb : (nat -> R) -> R; fdelta : (nat -> R) -> R; feps : (nat -> R) -> R; fa : (nat -> R) -> R; fda : (nat -> R) -> R; fV : (nat -> R) -> R }.

Section Departures.
Variables (Tm Pr : R) (f : mixing).
(* departures from the ideal gas at the same temperature and pressure, per mole *)
Definition fA_dep (x : nat -> R) : R := cubicAdep Tm Pr (fV f x) (fb f x) (fdelta f x) (feps f x) (fa f x).
Definition fG_dep (x : nat -> R) : R := fA_dep x + (Pr * fV f x - Rgas * Tm).
Definition fH_dep (x : nat -> R) : R := cubicHdep Tm Pr (fV f x) (fdelta f x) (feps f x) (fa f x) (fda f x).
Definition fS_dep (x : nat -> R) : R := (fH_dep x - fG_dep x) / Tm.
Definition fU_dep (x : nat -> R) : R := fH_dep x - (Pr * fV f x - Rgas * Tm).
(* logarithm of the fugacity coefficient of the mixture, and its compressibility *)
Definition flnphi (x : nat -> R) : R := fG_dep x / (Rgas * Tm).
Definition fZ (x : nat -> R) : R := Pr * fV f x / (Rgas * Tm).

(* the volume follows a root of the equation of state along every path of compositions through x *)
Definition follows_root (n : nat) (x : nat -> R) : Prop :=
  forall c t dc, curve_through n c t x dc -> let y s := fun i => c i s in
  ex_derive (fun s => fV f (y s)) t /\
  locally t (fun s => P_cubic (fun _ => fa f (y s)) (fb f (y s)) (fdelta f (y s)) (feps f (y s)) Tm (fV f (y s)) = Pr).
(* the root is a physical one where the pressure changes with volume *)
Definition regular (x : nat -> R) : Prop :=
  0 < fdelta f x * fdelta f x - 4 * feps f x /\ above_poles (fb f x) (fdelta f x) (feps f x) (fV f x) /\
  Derive (fun v => P_cubic (fun _ => fa f x) (fb f x) (fdelta f x) (feps f x) Tm v) (fV f x) <> 0.
End Departures.

(* the object m has the parameters of f at its mole fractions, and their derivatives; Z is the compressibility of the root *)
Definition describes (m : mixture) (f : mixing) (Z : R) : Prop :=
  0 < T m /\ 0 < P m /\ rsum (N m) (zs m) = 1 /\
  b m = fb f (zs m) /\ delta m = fdelta f (zs m) /\ epsilon_ m = feps f (zs m) /\ a_alpha m = fa f (zs m) /\ da_alpha_dT m = fda f (zs m) /\
  Z = fZ (T m) (P m) f (zs m) /\
  has_gradient (N m) (fb f) (zs m) (db_dzs m) /\ has_gradient (N m) (fdelta f) (zs m) (ddelta_dzs m) /\ has_gradient (N m) (feps f) (zs m) (depsilon_dzs m) /\
  has_gradient (N m) (fa f) (zs m) (da_alpha_dzs m) /\ has_gradient (N m) (fda f) (zs m) (da_alpha_dT_dzs m) /\
  (forall i, (i < N m)%nat -> partial (intensive (N m) (fb f)) (zs m) i (db_dns m i) /\ partial (intensive (N m) (fdelta f)) (zs m) i (ddelta_dns m i) /\
     partial (intensive (N m) (feps f)) (zs m) i (depsilon_dns m i) /\ partial (intensive (N m) (fa f)) (zs m) i (da_alpha_dns m i)) /\
  regular (T m) f (zs m) /\ follows_root (T m) (P m) f (N m) (zs m).
