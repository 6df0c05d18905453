(* Departure functions of cubic mixtures and their composition derivatives (thermo/eos_mix.py): the methods that combine the routines of
   Gen_mix.v, Gen_eosvt.v and Gen_d2comp.v. Lists are functions of the index; numpy arrays are not modelled. *)
From Coq Require Import Reals.
From Verif Require Import Base Gen_mix Gen_uniquac Gen_activity Gen_eosvt Gen_d2comp.
Open Scope R_scope.

(* The attributes of a mixture the methods below read. An attribute of a phase that is not there (AttributeError) is None *)
Record mixture := {
  T : R; P : R; N : nat; zs : nat -> R;
  b : R; delta : R; epsilon_ : R; a_alpha : R; da_alpha_dT : R;
  db_dzs : nat -> R; ddelta_dzs : nat -> R; depsilon_dzs : nat -> R; da_alpha_dzs : nat -> R; da_alpha_dT_dzs : nat -> R;
  db_dns : nat -> R; ddelta_dns : nat -> R; depsilon_dns : nat -> R; da_alpha_dns : nat -> R;
  d2b_dzizjs : nat -> nat -> R; d2delta_dzizjs : nat -> nat -> R; d2epsilon_dzizjs : nat -> nat -> R; d2a_alpha_dzizjs : nat -> nat -> R;
  Z_l : option R; H_dep_l : option R; G_dep_l : option R; phi_l : option R;
  H_dep_g : option R; G_dep_g : option R; phi_g : option R }.

Definition zeros : nat -> R := fun _ => 0.

(* thermo/eos_mix.py 3306-3310: dV_dzs *)
Definition dV_dzs (m : mixture) (Z : R) : nat -> R :=
  eos_mix_dV_dzs (T m) (P m) Z (b m) (delta m) (epsilon_ m) (a_alpha m) (db_dzs m) (ddelta_dzs m) (depsilon_dzs m) (da_alpha_dzs m) (N m) zeros.
(* 3333-3335: dV_dns *)
Definition dV_dns (m : mixture) (Z : R) : nat -> R := ext_dxs_to_dns (N m) (dV_dzs m Z) (zs m).
(* 3360-3362: dnV_dns *)
Definition dnV_dns (m : mixture) (Z : R) : nat -> R := let V := Z * Rgas * T m / P m in ext_dxs_to_dn_partials (N m) (dV_dzs m Z) (zs m) V.
(* 3553-3555: dZ_dzs *)
Definition dZ_dzs (m : mixture) (Z : R) : nat -> R := let factor := P m / (T m * Rgas) in fun i => dV_dzs m Z i * factor.
(* 3578-3579: dZ_dns *)
Definition dZ_dns (m : mixture) (Z : R) : nat -> R := ext_dxs_to_dns (N m) (dZ_dzs m Z) (zs m).
(* 3604-3605: dnZ_dns *)
Definition dnZ_dns (m : mixture) (Z : R) : nat -> R := ext_dxs_to_dn_partials (N m) (dZ_dzs m Z) (zs m) Z.
(* 3665-3703: dH_dep_dzs *)
Definition dH_dep_dzs (m : mixture) (Z : R) : nat -> R :=
  GCEOSMIX_dH_dep_dzs Z (P m) (T m) (N m) (ddelta_dzs m) (depsilon_dzs m) (da_alpha_dzs m) (da_alpha_dT_dzs m) (dV_dzs m Z) (delta m) (epsilon_ m) (a_alpha m) (da_alpha_dT m).
(* 3998-3999: dH_dep_dns *)
Definition dH_dep_dns (m : mixture) (Z : R) : nat -> R := ext_dxs_to_dns (N m) (dH_dep_dzs m Z) (zs m).
(* 4022-4028, 4218-4224, 4260-4266: the value of the liquid if Z is its root, of the gas otherwise or if the liquid has none *)
Definition stored (m : mixture) (Z : R) (l g : option R) : option R :=
  match Z_l m with
  | Some z => if Reqb Z z then match l with Some v => Some v | None => g end else g
  | None => g
  end.
(* 4022-4030: dnH_dep_dns *)
Definition dnH_dep_dns (m : mixture) (Z : R) : option (nat -> R) :=
  match stored m Z (H_dep_l m) (H_dep_g m) with None => None | Some F => Some (ext_dxs_to_dn_partials (N m) (dH_dep_dzs m Z) (zs m) F) end.
(* 4062-4064: dlnphi_dzs, and with true 4165-4167: dG_dep_dzs *)
Definition dlnphi_or_G_dzs (G : bool) (m : mixture) (Z : R) : nat -> R :=
  G_dep_lnphi_d_helper (T m) (P m) (b m) (delta m) (epsilon_ m) (a_alpha m) (N m) Z (db_dzs m) (depsilon_dzs m) (ddelta_dzs m) (dV_dzs m Z) (da_alpha_dzs m) G zeros.
Definition dlnphi_dzs := dlnphi_or_G_dzs false.
Definition dG_dep_dzs := dlnphi_or_G_dzs true.
(* 4091-4093: dlnphi_dns, and with true 4193-4195: dG_dep_dns *)
Definition dlnphi_or_G_dns (G : bool) (m : mixture) (Z : R) : nat -> R :=
  G_dep_lnphi_d_helper (T m) (P m) (b m) (delta m) (epsilon_ m) (a_alpha m) (N m) Z (db_dns m) (depsilon_dns m) (ddelta_dns m) (dV_dns m Z) (da_alpha_dns m) G zeros.
Definition dlnphi_dns := dlnphi_or_G_dns false.
Definition dG_dep_dns := dlnphi_or_G_dns true.
(* 4218-4227: dnG_dep_dns *)
Definition dnG_dep_dns (m : mixture) (Z : R) : option (nat -> R) :=
  match stored m Z (G_dep_l m) (G_dep_g m) with None => None | Some F => Some (ext_dns_to_dn_partials (dG_dep_dns m Z) F) end.
(* 4259-4274: fugacity_coefficients, which returns their logarithms; log of a number that is not positive raises *)
Definition fugacity_coefficients (m : mixture) (Z : R) : option (nat -> R) :=
  match stored m Z (phi_l m) (phi_g m) with
  | None => None
  | Some F => let logF := if Rltb 0 F then ln F else - 6907755278982137 / 10000000000000 in Some (ext_dns_to_dn_partials (dlnphi_dns m Z) logF)
  end.
(* 3734-3739: dS_dep_dzs *)
Definition dS_dep_dzs (m : mixture) (Z : R) : nat -> R := let T_inv := 1 / T m in fun i => T_inv * (dH_dep_dzs m Z i - dG_dep_dzs m Z i).
(* 3762-3763: dS_dep_dns *)
Definition dS_dep_dns (m : mixture) (Z : R) : nat -> R := ext_dxs_to_dns (N m) (dS_dep_dzs m Z) (zs m).

(* 5373-5393: set_dnzs_derivatives_and_departures, the departures of one phase: V, G, H, U, S, A *)
Record departures := { dV_dep : nat -> R; dG_dep : nat -> R; dH_dep : nat -> R; dU_dep : nat -> R; dS_dep : nat -> R; dA_dep : nat -> R }.
Definition dnzs_departures (n : bool) (m : mixture) (Z : R) : departures :=
  let dV := if n then dV_dns m Z else dV_dzs m Z in
  let dG := if n then dG_dep_dns m Z else dG_dep_dzs m Z in
  let dH := if n then dH_dep_dns m Z else dH_dep_dzs m Z in
  let dU := fun i => dH i - P m * dV i in
  let dS := fun i => (dG i - dH i) / - T m in
  let dA := fun i => dU i - T m * dS i in
  {| dV_dep := dV; dG_dep := dG; dH_dep := dH; dU_dep := dU; dS_dep := dS; dA_dep := dA |}.

(* 3469-3487: d2V_dzizjs *)
Definition d2V_dzizjs (m : mixture) (Z : R) : nat -> nat -> R :=
  let V := Z * T m * Rgas / P m in
  GCEOSMIX_d2V_dij_wrapper V (dV_dzs m Z) (db_dzs m) (d2b_dzizjs m) (depsilon_dzs m) (d2epsilon_dzizjs m) (ddelta_dzs m) (d2delta_dzizjs m) (da_alpha_dzs m) (d2a_alpha_dzizjs m)
    (T m) (b m) (epsilon_ m) (delta m) (a_alpha m) (N m).
(* 4370-4388: d2lnphi_dzizjs *)
Definition d2lnphi_dzizjs (m : mixture) (Z : R) : nat -> nat -> R :=
  let V := Z * T m * Rgas / P m in
  GCEOSMIX_d2_G_dep_lnphi_d2_helper V (dV_dzs m Z) (d2V_dzizjs m Z) (db_dzs m) (d2b_dzizjs m) (depsilon_dzs m) (d2epsilon_dzizjs m) (ddelta_dzs m) (d2delta_dzizjs m)
    (da_alpha_dzs m) (d2a_alpha_dzizjs m) false (T m) (P m) (N m) (b m) (delta m) (epsilon_ m) (a_alpha m).
(* 5692-5694: dlnphis_dzs *)
Definition dlnphis_dzs (m : mixture) (Z : R) : nat -> nat -> R := ext_d2xs_to_dxdn_partials (N m) (d2lnphi_dzizjs m Z) (zs m).
