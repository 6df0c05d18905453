(* Mixture equations of state: derivatives of the fugacity coefficients with temperature and pressure, derivatives of the volumetric derivatives with amounts (thermo/eos_mix.py)
   Generated by tools/py2v.py from the text of /repo; do not edit by hand. *)
From Coq Require Import Reals Lra Lia Arith Bool.
From Verif Require Import Base.
Open Scope R_scope.
Open Scope bool_scope.
From Verif Require Import Gen_mix.

(* thermo/eos_mix.py, lines 7115-7203: PRMIX.dlnphis_dT. *)
Definition PRMIX_dlnphis_dT (phase : R) (zs : nat -> R) (Z : R) (dZ_dT : R) (bs : nat -> R) (b : R) (N_ : nat) (T : R) (a_alpha : R) (P : R) (da_alpha_dT : R) (u_a_alpha_j_rows : nat -> R) (u_da_alpha_dT_j_rows : nat -> R) : nat -> R :=
  let zs := zs in
  let Z := Z in
  let dZ_dT := dZ_dT in
  let bs := bs in
  let b := b in
  let N_ := N_ in
  let T_inv := (1 / T) in
  let A := ((((a_alpha * P) * (1 / (Rgas * Rgas))) * T_inv) * T_inv) in
  let B := (((b * P) * (1 / Rgas)) * T_inv) in
  let x2 := (T_inv * T_inv) in
  let x3 := (1 / Rgas) in
  let x4 := ((P * b) * x3) in
  let x5 := (x2 * x4) in
  let x8 := (x4 * T_inv) in
  let x10 := a_alpha in
  let x11 := (1 / a_alpha) in
  let x12 := da_alpha_dT in
  let x13 := (sqrt 2) in
  let x14 := (1 / b) in
  let x15 := (x13 + 1) in
  let x16 := (Z + (x15 * x8)) in
  let x17 := (x13 - 1) in
  let x18 := (x16 / ((x17 * x8) - Z)) in
  let x19 := (ln (- x18)) in
  let x13x14 := (x13 * x14) in
  let x10x13x14_4 := (((1 / 4) * x10) * x13x14) in
  let x19x3 := (x19 * x3) in
  let x24 := ((x10x13x14_4 * x19x3) * x2) in
  let x25 := (((((1 / 4) * x12) * x13x14) * x19x3) * T_inv) in
  let x26 := ((((x10x13x14_4 * x3) * T_inv) * (((- dZ_dT) + (x15 * x5)) - (x18 * (dZ_dT + (x17 * x5))))) / x16) in
  let x50 := ((((- (1 / 2)) * x13x14) * x19x3) * T_inv) in
  let x51 := ((- x11) * x12) in
  let x52 := ((dZ_dT + x5) / (x8 - Z)) in
  let x53 := (2 * x11) in
  let x54 := (x52 / x50) in
  let x55 := ((x24 - x25) + x26) in
  let x56 := (dZ_dT / x55) in
  let x57 := (x53 * x55) in
  let x58 := (x14 * (dZ_dT - x55)) in
  let x59 := ((x57 / x50) + x51) in
  let a_alpha_j_rows := u_a_alpha_j_rows in
  let da_alpha_dT_j_rows := u_da_alpha_dT_j_rows in
  let d_lnphis_dTs := (fun _ => 0) in
  let d_lnphis_dTs :=
    loop N_ (fun i d_lnphis_dTs =>
      let d_lnphis_dTs := upd d_lnphis_dTs i ((x52 + ((bs i) * x58)) + (x50 * ((x59 * (a_alpha_j_rows i)) + (da_alpha_dT_j_rows i)))) in
      d_lnphis_dTs
    ) d_lnphis_dTs in
  d_lnphis_dTs.

(* thermo/eos_mix.py, lines 7205-7259: PRMIX.dlnphis_dP. *)
Definition PRMIX_dlnphis_dP (phase : R) (zs : nat -> R) (Z : R) (dZ_dP : R) (a_alpha : R) (bs : nat -> R) (b : R) (T : R) (P : R) (u_a_alpha_j_rows : nat -> R) (N_ : nat) : nat -> R :=
  let zs := zs in
  let Z := Z in
  let dZ_dP := dZ_dP in
  let a_alpha := a_alpha in
  let bs := bs in
  let b := b in
  let T_inv := (1 / T) in
  let x2 := (1 / b) in
  let x6 := ((b * (1 / Rgas)) * T_inv) in
  let x8 := (P * x6) in
  let x9 := ((dZ_dP - x6) / (x8 - Z)) in
  let x13 := (Z + ((sqrt 2 + 1) * x8)) in
  let x15 := ((((((a_alpha * (sqrt 2)) * x2) * (1 / Rgas)) * T_inv) * ((dZ_dP + ((sqrt 2 + 1) * x6)) + ((x13 * (dZ_dP - ((sqrt 2 - 1) * x6))) / (((sqrt 2 - 1) * x8) - Z)))) / (4 * x13)) in
  let x16 := (dZ_dP + x15) in
  let a_alpha_j_rows := u_a_alpha_j_rows in
  let x50 := ((- 2) / a_alpha) in
  let N_ := N_ in
  let d_lnphi_dPs := (fun _ => 0) in
  let d_lnphi_dPs :=
    loop N_ (fun i d_lnphi_dPs =>
      let x3 := ((bs i) * x2) in
      let x10 := (x50 * (a_alpha_j_rows i)) in
      let d_lnphi_dP := (((x16 * x3) + (x15 * x10)) + x9) in
      let d_lnphi_dPs := upd d_lnphi_dPs i d_lnphi_dP in
      d_lnphi_dPs
    ) d_lnphi_dPs in
  d_lnphi_dPs.

(* thermo/eos_mix.py, lines 8809-8883: SRKMIX.dlnphis_dT. *)
Definition SRKMIX_dlnphis_dT (phase : R) (zs : nat -> R) (Z : R) (dZ_dT : R) (u_da_alpha_dT_j_rows : nat -> R) (N_ : nat) (P : R) (bs : nat -> R) (b : R) (T : R) (a_alpha : R) (da_alpha_dT : R) (a_alpha_j_rows : nat -> R) : nat -> R :=
  let zs := zs in
  let Z := Z in
  let dZ_dT := dZ_dT in
  let da_alpha_dT_j_rows := u_da_alpha_dT_j_rows in
  let N_ := N_ in
  let P := P in
  let bs := bs in
  let b := b in
  let T_inv := (1 / T) in
  let A := ((((a_alpha * P) * (1 / (Rgas * Rgas))) * T_inv) * T_inv) in
  let B := (((b * P) * (1 / Rgas)) * T_inv) in
  let x2 := (T_inv * T_inv) in
  let x4 := ((P * b) * (1 / Rgas)) in
  let x6 := (x4 * T_inv) in
  let x8 := a_alpha in
  let x9 := (1 / x8) in
  let x10 := da_alpha_dT in
  let x11 := (1 / b) in
  let x12 := (1 / Z) in
  let x13 := ((x12 * x6) + 1) in
  let x14 := (ln x13) in
  let x19 := ((((x11 * x14) * x2) * (1 / Rgas)) * x8) in
  let x20 := ((((x10 * x11) * x14) * (1 / Rgas)) * T_inv) in
  let x21 := (((((P * x12) * x2) * x8) * ((dZ_dT * x12) + T_inv)) / ((Rgas * Rgas) * x13)) in
  let x50 := ((((- x11) * x14) * (1 / Rgas)) * T_inv) in
  let x51 := ((- 2) * x10) in
  let x52 := ((dZ_dT + (x2 * x4)) / (x6 - Z)) in
  let d_lnphis_dTs := (fun _ => 0) in
  let a_alpha_j_rows := a_alpha_j_rows in
  let d_lnphis_dTs :=
    loop N_ (fun i d_lnphis_dTs =>
      let x7 := (a_alpha_j_rows i) in
      let x15 := ((x50 * (((x51 * x7) * x9) + (2 * (da_alpha_dT_j_rows i)))) + x52) in
      let x16 := ((bs i) * x11) in
      let x18 := ((- x16) + ((2 * x7) * x9)) in
      let d_lhphi_dT := (((dZ_dT * x16) + x15) + (x18 * ((x19 - x20) + x21))) in
      let d_lnphis_dTs := upd d_lnphis_dTs i d_lhphi_dT in
      d_lnphis_dTs
    ) d_lnphis_dTs in
  d_lnphis_dTs.

(* thermo/eos_mix.py, lines 8885-8939: SRKMIX.dlnphis_dP. *)
Definition SRKMIX_dlnphis_dP (phase : R) (zs : nat -> R) (Z : R) (dZ_dP : R) (a_alpha : R) (N_ : nat) (bs : nat -> R) (b : R) (T : R) (u_a_alpha_j_rows : nat -> R) (P : R) : nat -> R :=
  let zs := zs in
  let Z := Z in
  let dZ_dP := dZ_dP in
  let a_alpha := a_alpha in
  let N_ := N_ in
  let bs := bs in
  let b := b in
  let T_inv := (1 / T) in
  let a_alpha_j_rows := u_a_alpha_j_rows in
  let RT_inv := (T_inv * (1 / Rgas)) in
  let x0 := Z in
  let x1 := dZ_dP in
  let x2 := (1 / b) in
  let x4 := (b * RT_inv) in
  let x5 := (P * x4) in
  let x6 := ((dZ_dP - x4) / (x5 - Z)) in
  let x7 := a_alpha in
  let x9 := (1 / Z) in
  let x10 := (((((a_alpha * x9) * (((P * dZ_dP) * x9) - 1)) * RT_inv) * RT_inv) / ((x5 * x9) + 1)) in
  let x50 := (2 / a_alpha) in
  let d_lnphi_dPs := (fun _ => 0) in
  let d_lnphi_dPs :=
    loop N_ (fun i d_lnphi_dPs =>
      let x8 := (x50 * (a_alpha_j_rows i)) in
      let x3 := ((bs i) * x2) in
      let d_lnphi_dP := (((dZ_dP * x3) + (x10 * (x8 - x3))) + x6) in
      let d_lnphi_dPs := upd d_lnphi_dPs i d_lnphi_dP in
      d_lnphi_dPs
    ) d_lnphi_dPs in
  d_lnphi_dPs.

(* thermo/eos_mix.py, lines 10230-10289: VDWMIX.dlnphis_dT. *)
Definition VDWMIX_dlnphis_dT (phase : R) (zs : nat -> R) (Z : R) (dZ_dT : R) (N_ : nat) (T : R) (P : R) (ais : nat -> R) (bs : nat -> R) (b : R) (a_alpha : R) (da_alpha_dT : R) : nat -> R :=
  let zs := zs in
  let Z := Z in
  let dZ_dT := dZ_dT in
  let N_ := N_ in
  let T := T in
  let P := P in
  let ais := ais in
  let bs := bs in
  let b := b in
  let T_inv := (1 / T) in
  let T_inv2 := (T_inv * T_inv) in
  let A := (((a_alpha * P) * (1 / (Rgas * Rgas))) * T_inv2) in
  let B := (((b * P) * (1 / Rgas)) * T_inv) in
  let x0 := a_alpha in
  let x4 := (1 / Z) in
  let x5 := (((((4 * P) * (1 / (Rgas * Rgas))) * x4) * T_inv2) * T_inv) in
  let x8 := (((((2 * P) * (1 / (Rgas * Rgas))) * T_inv2) * dZ_dT) / (Z ^ 2)) in
  let x9 := (((((P * (1 / (Rgas * Rgas))) * x4) * T_inv2) * da_alpha_dT) / x0) in
  let x10 := (1 / P) in
  let x11 := (((Rgas * x10) * ((T * dZ_dT) + Z)) / ((((((- Rgas) * T) * x10) * Z) + b) ^ 2)) in
  let x13 := ((b * T_inv) * (1 / Rgas)) in
  let x14 := (((P * x13) * x4) - 1) in
  let x15 := ((x4 * (((P * x13) * (T_inv + (x4 * dZ_dT))) - (x14 * dZ_dT))) / x14) in
  let d_lnphis_dTs := (fun _ => 0) in
  let d_lnphis_dTs :=
    loop N_ (fun i d_lnphis_dTs =>
      let x1 := (sqrt ((ais i) * x0)) in
      let d_lhphi_dT := ((((((- (bs i)) * x11) + (x1 * x5)) + (x1 * x8)) - (x1 * x9)) + x15) in
      let d_lnphis_dTs := upd d_lnphis_dTs i d_lhphi_dT in
      d_lnphis_dTs
    ) d_lnphis_dTs in
  d_lnphis_dTs.

(* thermo/eos_mix.py, lines 10291-10345: VDWMIX.dlnphis_dP. *)
Definition VDWMIX_dlnphis_dP (phase : R) (zs : nat -> R) (Z : R) (dZ_dP : R) (a_alpha : R) (N_ : nat) (T : R) (P : R) (bs : nat -> R) (b : R) (ais : nat -> R) : nat -> R :=
  let zs := zs in
  let Z := Z in
  let dZ_dP := dZ_dP in
  let a_alpha := a_alpha in
  let N_ := N_ in
  let T := T in
  let P := P in
  let bs := bs in
  let b := b in
  let ais := ais in
  let T_inv := (1 / T) in
  let RT_inv := (T_inv * (1 / Rgas)) in
  let x3 := (T_inv * T_inv) in
  let x5 := (1 / Z) in
  let x6 := (((2 * (1 / (Rgas * Rgas))) * x3) * x5) in
  let x8 := ((((((2 * P) * (1 / (Rgas * Rgas))) * x3) * dZ_dP) * x5) * x5) in
  let x9 := (1 / P) in
  let x10 := (Z * x9) in
  let x11 := ((((Rgas * T) * x9) * ((- x10) + dZ_dP)) / (((((- Rgas) * T) * x10) + b) ^ 2)) in
  let x12 := (P * x5) in
  let x13 := (b * RT_inv) in
  let x14 := ((x12 * x13) - 1) in
  let x15 := (((- x5) * (((- x13) * ((x12 * dZ_dP) - 1)) + (x14 * dZ_dP))) / x14) in
  let d_lnphi_dPs := (fun _ => 0) in
  let d_lnphi_dPs :=
    loop N_ (fun i d_lnphi_dPs =>
      let x1 := (sqrt ((ais i) * a_alpha)) in
      let d_lnphi_dP := (((((- (bs i)) * x11) - (x1 * x6)) + (x1 * x8)) + x15) in
      let d_lnphi_dPs := upd d_lnphi_dPs i d_lnphi_dP in
      d_lnphi_dPs
    ) d_lnphi_dPs in
  d_lnphi_dPs.

(* thermo/eos_mix.py, lines 5544-5666: GCEOSMIX.dlnphis_dT. *)
Definition GCEOSMIX_dlnphis_dT (phase : R) (T : R) (P : R) (zs : nat -> R) (N_ : nat) (V : R) (Z : R) (dV_dT : R) (dS_dep_dT : R) (S_dep : R) (dH_dep_dT : R) (H_dep : R) (d2V_dTdns : nat -> R) (dV_dns : nat -> R) (db_dns : nat -> R) (da_alpha_dns : nat -> R) (da_alpha_dT_dns : nat -> R) (ddelta_dns : nat -> R) (depsilon_dns : nat -> R) (b : R) (a_alpha : R) (delta : R) (epsilon_ : R) (da_alpha_dT : R) : nat -> R :=
  let T := T in
  let P := P in
  let zs := zs in
  let N_ := N_ in
  let V := V in
  let Z := Z in
  let dV_dT := dV_dT in
  let dG_dep_dT := (((((- T) * dS_dep_dT) - S_dep) + dH_dep_dT) / (Rgas * T)) in
  let dG_dep_dT := (dG_dep_dT - ((((- T) * S_dep) + H_dep) / ((Rgas * T) * T))) in
  let d2V_dTdns := d2V_dTdns in
  let dV_dns := dV_dns in
  let db_dns := db_dns in
  let da_alpha_dns := da_alpha_dns in
  let da_alpha_dT_dns := da_alpha_dT_dns in
  let ddelta_dns := ddelta_dns in
  let depsilon_dns := depsilon_dns in
  let x0 := V in
  let x1 := (1 / x0) in
  let x4 := (/ (T ^ 2)) in
  let x5 := (1 / Rgas) in
  let x6 := (P * x5) in
  let x7 := (1 / T) in
  let x9 := dV_dT in
  let x11 := b in
  let x12 := (x0 - x11) in
  let x13 := a_alpha in
  let x15 := delta in
  let x16 := epsilon_ in
  let x17 := ((x15 * x15) - (4 * x16)) in
  let x17 :=
    if (Reqb x17 0) then
    let x17 := (1 / 10000000000000000000000000000000000000000000000000000000000000000000000000000000000000000000000000000) in
    x17
    else
    x17
  in
  let x18 := (1 / (sqrt x17)) in
  let x19 := (2 * x0) in
  let x20 := (x15 + x19) in
  let x21 := (2 * x5) in
  let x22 := (x21 * (re_catanh (x18 * x20))) in
  let x23 := (x18 * x22) in
  let x24 := (1 / x17) in
  let x25 := (((x20 ^ 2) * x24) - 1) in
  let x26 := (1 / x25) in
  let x27 := (x24 * x26) in
  let x28 := ((4 * x27) * x5) in
  let x29 := (x7 * x9) in
  let x30 := (x13 * x4) in
  let x34 := (x7 * da_alpha_dT) in
  let x35 := ((((8 * x13) * x29) * x5) / (x17 ^ 2)) in
  let dlnphis_dTs := (fun _ => 0) in
  let dlnphis_dTs :=
    loop N_ (fun i dlnphis_dTs =>
      let x2 := (d2V_dTdns i) in
      let x8 := (x2 * x7) in
      let x3 := (dV_dns i) in
      let x10 := (x3 / (x0 ^ 2)) in
      let x14 := (da_alpha_dns i) in
      let x31 := (ddelta_dns i) in
      let x32 := ((x15 * x31) - (2 * (depsilon_dns i))) in
      let x33 := ((x22 * x32) / (Rpower x17 (3 / 2))) in
      let x36 := (x24 * x32) in
      let x37 := (((((- x15) * x36) - (x19 * x36)) + (2 * x3)) + x31) in
      let x38 := ((x21 * x27) * x37) in
      let dlnphi_dT := ((((((((((((((((((x1 * x2) - (x1 * (x2 - (x3 * x7)))) - (x10 * x9)) + (x10 * (((- x0) * x7) + x9))) + ((x13 * x28) * x8)) + ((x14 * x23) * x4)) + ((x14 * x28) * x29)) - (((x20 * x35) * x37) / (x25 ^ 2))) - ((x23 * x7) * (da_alpha_dT_dns i))) - ((x26 * x32) * x35)) - ((x3 * x4) * x6)) - (x30 * x33)) - (x30 * x38)) + (x33 * x34)) + (x34 * x38)) + (x6 * x8)) - (x2 / x12)) + ((x9 * (x3 - (db_dns i))) / (x12 ^ 2))) in
      let dlnphis_dTs := upd dlnphis_dTs i (dlnphi_dT + dG_dep_dT) in
      dlnphis_dTs
    ) dlnphis_dTs in
  dlnphis_dTs.

(* thermo/eos_mix.py, lines 5432-5541: GCEOSMIX.dlnphis_dP. *)
Definition GCEOSMIX_dlnphis_dP (phase : R) (V : R) (Z : R) (dV_dP : R) (dH_dep_dP : R) (T : R) (dS_dep_dP : R) (P : R) (dV_dns : nat -> R) (ddelta_dns : nat -> R) (depsilon_dns : nat -> R) (da_alpha_dns : nat -> R) (db_dns : nat -> R) (d2V_dPdns : nat -> R) (b : R) (delta : R) (epsilon_ : R) (a_alpha : R) (N_ : nat) : nat -> R :=
  let V := V in
  let Z := Z in
  let dV_dP := dV_dP in
  let dG_dep_dP := ((dH_dep_dP - (T * dS_dep_dP)) / (Rgas * T)) in
  let T := T in
  let P := P in
  let dV_dns := dV_dns in
  let ddelta_dns := ddelta_dns in
  let depsilon_dns := depsilon_dns in
  let da_alpha_dns := da_alpha_dns in
  let db_dns := db_dns in
  let d2V_dPdns := d2V_dPdns in
  let x0 := V in
  let x2 := (1 / (Rgas * T)) in
  let x3 := (1 / x0) in
  let x6 := dV_dP in
  let x8 := b in
  let x9 := (x0 - x8) in
  let x10 := (1 / P) in
  let x11 := delta in
  let x12 := (2 * x0) in
  let x13 := (x11 + x12) in
  let x14 := epsilon_ in
  let x15 := ((x11 ^ 2) - (4 * x14)) in
  let x16 := (1 / x15) in
  let x17 := (((x13 ^ 2) * x16) - 1) in
  let x18 := (1 / x17) in
  let x19 := a_alpha in
  let x20 := (4 * x16) in
  let x21 := (x2 * x6) in
  let x22 := (x18 * x21) in
  let x25 := (((8 * x19) * x16) * x16) in
  let t50 := (1 / (x0 * x0)) in
  let N_ := N_ in
  let dlnphis_dPs := (fun _ => 0) in
  let dlnphis_dPs :=
    loop N_ (fun i dlnphis_dPs =>
      let x1 := (dV_dns i) in
      let x7 := (x1 * t50) in
      let x4 := (d2V_dPdns i) in
      let x5 := (P * x4) in
      let x23 := (ddelta_dns i) in
      let x24 := ((x11 * x23) - (2 * (depsilon_dns i))) in
      let x26 := (x16 * x24) in
      let dlnphi_dP := ((((((((((((x1 * x2) - ((x10 * x3) * (x1 + x5))) + ((x10 * x7) * ((P * x6) + x0))) - ((((x13 * x21) * x25) * ((((2 * x1) - (x11 * x26)) - (x12 * x26)) + x23)) / (x17 ^ 2))) + ((((x18 * x19) * x2) * x20) * x4)) + (x2 * x5)) + ((x20 * x22) * (da_alpha_dns i))) - ((x22 * x24) * x25)) + (x3 * x4)) - (x4 / x9)) - (x6 * x7)) + ((x6 * (x1 - (db_dns i))) / (x9 ^ 2))) in
      let dlnphis_dPs := upd dlnphis_dPs i (dlnphi_dP + dG_dep_dP) in
      dlnphis_dPs
    ) dlnphis_dPs in
  dlnphis_dPs.

(* thermo/eos_mix.py, lines 5065-5130: GCEOSMIX._d_main_derivatives_and_departures_dnx. *)
Definition GCEOSMIX_dmain_dnx (V : R) (db_dns : nat -> R) (ddelta_dns : nat -> R) (depsilon_dns : nat -> R) (da_alpha_dns : nat -> R) (da_alpha_dT_dns : nat -> R) (d2a_alpha_dT2_dns : nat -> R) (dV_dns : nat -> R) (T : R) (P : R) (a_alpha : R) (epsilon_ : R) (delta : R) (b : R) (da_alpha_dT : R) (N_ : nat) (d2a_alpha_dT2 : R) :=
  let T := T in
  let Z := ((P * V) / (Rgas * T)) in
  let x0 := a_alpha in
  let x2 := epsilon_ in
  let x3 := V in
  let x4 := delta in
  let x5 := ((x2 + (x3 ^ 2)) + (x3 * x4)) in
  let x6 := (1 / x5) in
  let x7 := b in
  let x8 := (x3 - x7) in
  let x14 := (/ (x5 ^ 2)) in
  let x15 := da_alpha_dT in
  let x16 := (x14 * x15) in
  let x18 := ((2 * x3) + x4) in
  let x23 := (/ (x5 ^ 3)) in
  let x24 := (2 * x23) in
  let x27 := (x18 ^ 2) in
  let x28 := (x18 * x24) in
  let dndP_dT_dsn := (fun k_ => match k_ with | _ => 0 end) in
  let dndP_dV_dns := (fun k_ => match k_ with | _ => 0 end) in
  let dnd2P_dT2_dns := (fun k_ => match k_ with | _ => 0 end) in
  let dnd2P_dV2_dns := (fun k_ => match k_ with | _ => 0 end) in
  let dnd2P_dTdV_dns := (fun k_ => match k_ with | _ => 0 end) in
  let '(dndP_dT_dsn, dndP_dV_dns, dnd2P_dT2_dns, dnd2P_dV2_dns, dnd2P_dTdV_dns) :=
    loop N_ (fun i st_ =>
      let '(dndP_dT_dsn, dndP_dV_dns, dnd2P_dT2_dns, dnd2P_dV2_dns, dnd2P_dTdV_dns) := st_ in
      let x1 := (da_alpha_dT_dns i) in
      let x9 := (dV_dns i) in
      let x10 := (Rgas * (x9 - (db_dns i))) in
      let x17 := ((2 * x10) / (x8 ^ 3)) in
      let x12 := (2 * x9) in
      let x11 := (ddelta_dns i) in
      let x21 := (x11 + x12) in
      let x22 := (x0 * x21) in
      let x13 := ((((x11 * x3) + (x12 * x3)) + (x4 * x9)) + (depsilon_dns i)) in
      let x25 := (x0 * x13) in
      let x26 := (x24 * x25) in
      let x19 := (da_alpha_dns i) in
      let x20 := (x14 * x19) in
      let dndP_dT := ((((- x1) * x6) - (x10 / (x8 ^ 2))) + (x13 * x16)) in
      let dndP_dT_dsn := upd dndP_dT_dsn i dndP_dT in
      let dndP_dV := ((((T * x17) + (x14 * x22)) + (x18 * x20)) - (x18 * x26)) in
      let dndP_dV_dns := upd dndP_dV_dns i dndP_dV in
      let d2a_alpha_dT2_dn := (d2a_alpha_dT2_dns i) in
      let dnd2P_dT2 := (x6 * (((x13 * x6) * d2a_alpha_dT2) - d2a_alpha_dT2_dn)) in
      let dnd2P_dT2_dns := upd dnd2P_dT2_dns i dnd2P_dT2 in
      let dnd2P_dV2 := (((((((((-6) * T) * x10) / (x8 ^ 4)) - (((2 * x19) * x23) * x27)) + (2 * x20)) - ((2 * x22) * x28)) + (((6 * x25) * x27) / (x5 ^ 4))) - (2 * x26)) in
      let dnd2P_dV2_dns := upd dnd2P_dV2_dns i dnd2P_dV2 in
      let dnd2P_dTdV := (((((x1 * x14) * x18) - ((x13 * x15) * x28)) + (x16 * x21)) + x17) in
      let dnd2P_dTdV_dns := upd dnd2P_dTdV_dns i dnd2P_dTdV in
      (dndP_dT_dsn, dndP_dV_dns, dnd2P_dT2_dns, dnd2P_dV2_dns, dnd2P_dTdV_dns)
    ) (dndP_dT_dsn, dndP_dV_dns, dnd2P_dT2_dns, dnd2P_dV2_dns, dnd2P_dTdV_dns) in
  (dndP_dT_dsn, dndP_dV_dns, dnd2P_dT2_dns, dnd2P_dV2_dns, dnd2P_dTdV_dns).

(* thermo/eos_mix.py, lines 5193-5306: GCEOSMIX._dnz_derivatives_and_departures. (from line 5193 on: the derivatives of the pressure with amounts, computed by the function above, and the stored derivatives of the chosen phase are arguments) *)
Definition GCEOSMIX_dnz (V : R) (n : bool) (N_ : nat) (d2P_dTdns : nat -> R) (d2P_dVdns : nat -> R) (d3P_dT2dns : nat -> R) (d3P_dV2dns : nat -> R) (d3P_dTdVdns : nat -> R) (dP_dT : R) (dP_dV : R) (dV_dT : R) (d2P_dT2 : R) (d2P_dV2 : R) (d2P_dTdV : R) :=
  let d2V_dTdns := (fun k_ => match k_ with | _ => 0 end) in
  let d2V_dPdns := (fun k_ => match k_ with | _ => 0 end) in
  let d2T_dVdns := (fun k_ => match k_ with | _ => 0 end) in
  let d2T_dPdns := (fun k_ => match k_ with | _ => 0 end) in
  let d3T_dP2dns := (fun k_ => match k_ with | _ => 0 end) in
  let d3V_dP2dns := (fun k_ => match k_ with | _ => 0 end) in
  let d3T_dV2dns := (fun k_ => match k_ with | _ => 0 end) in
  let d3V_dT2dns := (fun k_ => match k_ with | _ => 0 end) in
  let d3T_dPdVdns := (fun k_ => match k_ with | _ => 0 end) in
  let d3V_dPdTdns := (fun k_ => match k_ with | _ => 0 end) in
  let '(d2V_dTdns, d2V_dPdns, d2T_dVdns, d2T_dPdns, d3T_dP2dns, d3V_dP2dns, d3T_dV2dns, d3V_dT2dns, d3T_dPdVdns, d3V_dPdTdns) :=
    loop N_ (fun i st_ =>
      let '(d2V_dTdns, d2V_dPdns, d2T_dVdns, d2T_dPdns, d3T_dP2dns, d3V_dP2dns, d3T_dV2dns, d3V_dT2dns, d3T_dPdVdns, d3V_dPdTdns) := st_ in
      let d2P_dTdn := (d2P_dTdns i) in
      let d2P_dVdn := (d2P_dVdns i) in
      let d3P_dT2dn := (d3P_dT2dns i) in
      let d3P_dV2dn := (d3P_dV2dns i) in
      let d3P_dTdVdn := (d3P_dTdVdns i) in
      let d2V_dTdn := (((dP_dT * d2P_dVdn) / (dP_dV ^ 2)) - (d2P_dTdn / dP_dV)) in
      let d2V_dTdns := upd d2V_dTdns i d2V_dTdn in
      let d2V_dPdn := (((dV_dT * d2P_dTdn) / (dP_dT ^ 2)) - (d2V_dTdn / dP_dT)) in
      let d2V_dPdns := upd d2V_dPdns i d2V_dPdn in
      let d2T_dVdn := ((- d2V_dTdn) / (dV_dT ^ 2)) in
      let d2T_dVdns := upd d2T_dVdns i d2T_dVdn in
      let d2T_dPdn := ((- d2P_dTdn) / (dP_dT ^ 2)) in
      let d2T_dPdns := upd d2T_dPdns i d2T_dPdn in
      let f := d2P_dT2 in
      let df := d3P_dT2dn in
      let g := dP_dT in
      let dg := d2P_dTdn in
      let d3T_dP2dn := ((((3 * f) * dg) / (g ^ 4)) - (df / (g ^ 3))) in
      let d3T_dP2dns := upd d3T_dP2dns i d3T_dP2dn in
      let f := d2P_dV2 in
      let df := d3P_dV2dn in
      let g := dP_dV in
      let dg := d2P_dVdn in
      let d3V_dP2dn := ((((3 * f) * dg) / (g ^ 4)) - (df / (g ^ 3))) in
      let d3V_dP2dns := upd d3V_dP2dns i d3V_dP2dn in
      let f := d2P_dV2 in
      let df := d3P_dV2dn in
      let g := dP_dT in
      let dg := d2P_dTdn in
      let h := dP_dV in
      let dh := d2P_dVdn in
      let k := d2P_dTdV in
      let dk := d3P_dTdVdn in
      let j := d2P_dT2 in
      let dj := d3P_dT2dn in
      let d3T_dV2dn := ((((((((((f * (g ^ 2)) * dg) - ((g ^ 3) * df)) + (((2 * (g ^ 2)) * h) * dk)) + (((2 * (g ^ 2)) * k) * dh)) - ((g * (h ^ 2)) * dj)) - ((((4 * g) * h) * k) * dg)) - ((((2 * g) * h) * j) * dh)) + (((3 * (h ^ 2)) * j) * dg)) / (g ^ 4)) in
      let d3T_dV2dns := upd d3T_dV2dns i d3T_dV2dn in
      let f := d2P_dT2 in
      let df := d3P_dT2dn in
      let g := dP_dV in
      let dg := d2P_dVdn in
      let h := dP_dT in
      let dh := d2P_dTdn in
      let k := d2P_dTdV in
      let dk := d3P_dTdVdn in
      let j := d2P_dV2 in
      let dj := d3P_dV2dn in
      let d3V_dT2dn := ((((((((((f * (g ^ 2)) * dg) - ((g ^ 3) * df)) + (((2 * (g ^ 2)) * h) * dk)) + (((2 * (g ^ 2)) * k) * dh)) - ((g * (h ^ 2)) * dj)) - ((((4 * g) * h) * k) * dg)) - ((((2 * g) * h) * j) * dh)) + (((3 * (h ^ 2)) * j) * dg)) / (g ^ 4)) in
      let d3V_dT2dns := upd d3V_dT2dns i d3V_dT2dn in
      let f := d2P_dTdV in
      let df := d3P_dTdVdn in
      let g := dP_dT in
      let dg := d2P_dTdn in
      let h := dP_dV in
      let dh := d2P_dVdn in
      let k := d2P_dT2 in
      let dk := d3P_dT2dn in
      let j := dP_dT in
      let dj := d2P_dTdn in
      let d3T_dPdVdn := ((((3 * ((f * g) - (h * k))) * dj) / (j ^ 4)) - (((((f * dg) + (g * df)) - (h * dk)) - (k * dh)) / (j ^ 3))) in
      let d3T_dPdVdns := upd d3T_dPdVdns i d3T_dPdVdn in
      let f := d2P_dTdV in
      let df := d3P_dTdVdn in
      let g := dP_dV in
      let dg := d2P_dVdn in
      let h := dP_dT in
      let dh := d2P_dTdn in
      let k := d2P_dV2 in
      let dk := d3P_dV2dn in
      let j := dP_dV in
      let dj := d2P_dVdn in
      let d3V_dPdTdn := ((((3 * ((f * g) - (h * k))) * dj) / (j ^ 4)) - (((((f * dg) + (g * df)) - (h * dk)) - (k * dh)) / (j ^ 3))) in
      let d3V_dPdTdns := upd d3V_dPdTdns i d3V_dPdTdn in
      (d2V_dTdns, d2V_dPdns, d2T_dVdns, d2T_dPdns, d3T_dP2dns, d3V_dP2dns, d3T_dV2dns, d3V_dT2dns, d3T_dPdVdns, d3V_dPdTdns)
    ) (d2V_dTdns, d2V_dPdns, d2T_dVdns, d2T_dPdns, d3T_dP2dns, d3V_dP2dns, d3T_dV2dns, d3V_dT2dns, d3T_dPdVdns, d3V_dPdTdns) in
  (d2P_dTdns, d2P_dVdns, d2V_dTdns, d2V_dPdns, d2T_dVdns, d2T_dPdns, d3P_dT2dns, d3P_dV2dns, d3V_dT2dns, d3V_dP2dns, d3T_dV2dns, d3T_dP2dns, d3V_dPdTdns, d3P_dTdVdns, d3T_dPdVdns).
