(* The activity coefficient liquid phase (thermo/phases/gibbs_excess.py)
   Generated by tools/py2v.py from the text of /repo; do not edit by hand. *)
From Coq Require Import Reals Lra Lia Arith Bool.
From Verif Require Import Base.
Open Scope R_scope.
Open Scope bool_scope.

(* thermo/phases/gibbs_excess.py, lines 1486-1529: GibbsExcessLiquid.Poyntings. (without the cache; list path; trunc_exp is exp) *)
Definition GX_Poyntings (N_ : nat) (use_Poynting : bool) (T : R) (P : R) (Psats : nat -> R) (Vms_sat : nat -> R) : nat -> R :=
  let N_ := N_ in
  if (negb use_Poynting) then
    let L_Poyntings := (fun _ => 1) in
    L_Poyntings
  else
    let T := T in
    let P := P in
    let Psats := Psats in
    let Vms_sat := Vms_sat in
    let RT_inv := (1 / (Rgas * T)) in
    let L_Poyntings := (fun i => (exp (((Vms_sat i) * (P - (Psats i))) * RT_inv))) in
    L_Poyntings.

(* thermo/phases/gibbs_excess.py, lines 1532-1561: GibbsExcessLiquid.dPoyntings_dT. (without the cache; list path; trunc_exp is exp) *)
Definition GX_dPoyntings_dT (N_ : nat) (use_Poynting : bool) (T : R) (P : R) (Psats : nat -> R) (dPsats_dT : nat -> R) (Vms_sat : nat -> R) (dVms_sat_dT : nat -> R) : nat -> R :=
  let N_ := N_ in
  if (negb use_Poynting) then
    let L_dPoyntings_dT := (fun _ => 0) in
    L_dPoyntings_dT
  else
    let T := T in
    let P := P in
    let Psats := Psats in
    let dPsats_dT := dPsats_dT in
    let Vms := Vms_sat in
    let dVms_sat_dT := dVms_sat_dT in
    let x0 := (1 / Rgas) in
    let x1 := (1 / T) in
    let RT_inv := (x0 * x1) in
    let dPoyntings_dT := (fun k_ => match k_ with | _ => 0 end) in
    let dPoyntings_dT :=
      loop N_ (fun i dPoyntings_dT =>
        let x2 := (Vms i) in
        let x3 := (Psats i) in
        let x4 := (P - x3) in
        let x5 := ((x1 * x2) * x4) in
        let dPoyntings_dTi := (((- RT_inv) * (((x2 * (dPsats_dT i)) - (x4 * (dVms_sat_dT i))) + x5)) * (exp (x0 * x5))) in
        let dPoyntings_dT := upd dPoyntings_dT i dPoyntings_dTi in
        dPoyntings_dT
      ) dPoyntings_dT in
    dPoyntings_dT.

(* thermo/phases/gibbs_excess.py, lines 1589-1637: GibbsExcessLiquid.d2Poyntings_dT2. (without the cache; list path; trunc_exp is exp) *)
Definition GX_d2Poyntings_dT2 (N_ : nat) (use_Poynting : bool) (T : R) (P : R) (Psats : nat -> R) (dPsats_dT : nat -> R) (d2Psats_dT2 : nat -> R) (Vms_sat : nat -> R) (dVms_sat_dT : nat -> R) (d2Vms_sat_dT2 : nat -> R) : nat -> R :=
  let N_ := N_ in
  if (negb use_Poynting) then
    let L_d2Poyntings_dT2 := (fun _ => 0) in
    L_d2Poyntings_dT2
  else
    let T := T in
    let P := P in
    let Psats := Psats in
    let dPsats_dT := dPsats_dT in
    let d2Psats_dT2 := d2Psats_dT2 in
    let Vms := Vms_sat in
    let dVms_sat_dT := dVms_sat_dT in
    let d2Vms_sat_dT2 := d2Vms_sat_dT2 in
    let x6 := (1 / T) in
    let x7 := (x6 + x6) in
    let x11 := (1 / Rgas) in
    let x12 := (x11 * x6) in
    let c0 := ((2 * x6) * x6) in
    let d2Poyntings_dT2 := (fun k_ => match k_ with | _ => 0 end) in
    let d2Poyntings_dT2 :=
      loop N_ (fun i d2Poyntings_dT2 =>
        let x0 := (Vms i) in
        let x1 := (Psats i) in
        let x2 := (P - x1) in
        let x3 := (x0 * x2) in
        let x4 := (dPsats_dT i) in
        let x5 := (x0 * x4) in
        let x8 := (dVms_sat_dT i) in
        let x9 := (x2 * x8) in
        let x10 := (x3 * x6) in
        let x50 := ((x10 + x5) - x9) in
        let d2Poyntings_dT2i := ((x12 * ((((((((- x0) * (d2Psats_dT2 i)) + ((x12 * x50) * x50)) + (x2 * (d2Vms_sat_dT2 i))) - ((2 * x4) * x8)) + (x5 * x7)) - (x7 * x9)) + (x3 * c0))) * (exp (x10 * x11))) in
        let d2Poyntings_dT2 := upd d2Poyntings_dT2 i d2Poyntings_dT2i in
        d2Poyntings_dT2
      ) d2Poyntings_dT2 in
    d2Poyntings_dT2.

(* thermo/phases/gibbs_excess.py, lines 1639-1661: GibbsExcessLiquid.dPoyntings_dP. (without the cache; list path; trunc_exp is exp) *)
Definition GX_dPoyntings_dP (N_ : nat) (use_Poynting : bool) (T : R) (P : R) (Psats : nat -> R) (Vms_sat : nat -> R) : nat -> R :=
  let N_ := N_ in
  if (negb use_Poynting) then
    let L_dPoyntings_dP := (fun _ => 0) in
    L_dPoyntings_dP
  else
    let T := T in
    let P := P in
    let Psats := Psats in
    let Vms := Vms_sat in
    let dPoyntings_dPs := (fun k_ => match k_ with | _ => 0 end) in
    let dPoyntings_dPs :=
      loop N_ (fun i dPoyntings_dPs =>
        let x0 := ((Vms i) / (Rgas * T)) in
        let dPoyntings_dPs := upd dPoyntings_dPs i (x0 * (exp (x0 * (P - (Psats i))))) in
        dPoyntings_dPs
      ) dPoyntings_dPs in
    dPoyntings_dPs.

(* thermo/phases/gibbs_excess.py, lines 1663-1715: GibbsExcessLiquid.d2Poyntings_dPdT. (without the cache; list path; trunc_exp is exp) *)
Definition GX_d2Poyntings_dPdT (N_ : nat) (use_Poynting : bool) (T : R) (P : R) (Psats : nat -> R) (dPsats_dT : nat -> R) (Vms_sat : nat -> R) (dVms_sat_dT : nat -> R) : nat -> R :=
  let N_ := N_ in
  if (negb use_Poynting) then
    let L_d2Poyntings_dPdT := (fun _ => 0) in
    L_d2Poyntings_dPdT
  else
    let Psats := Psats in
    let dPsats_dT := dPsats_dT in
    let Vms := Vms_sat in
    let dVms_sat_dT := dVms_sat_dT in
    let Poyntings := (GX_Poyntings N_ use_Poynting T P Psats Vms_sat) in
    let x0 := (/ Rgas) in
    let x1 := (1 / T) in
    let P := P in
    let nRT_inv := ((- x0) * x1) in
    let d2Poyntings_dPdT := (fun k_ => match k_ with | _ => 0 end) in
    let d2Poyntings_dPdT :=
      loop N_ (fun i d2Poyntings_dPdT =>
        let x2 := (Vms i) in
        let x3 := (x1 * x2) in
        let x4 := (dVms_sat_dT i) in
        let x5 := (Psats i) in
        let x6 := (P - x5) in
        let v := (((Poyntings i) * nRT_inv) * ((((x0 * x3) * (((x2 * (dPsats_dT i)) + (x3 * x6)) - (x4 * x6))) + x3) - x4)) in
        let d2Poyntings_dPdT := upd d2Poyntings_dPdT i v in
        d2Poyntings_dPdT
      ) d2Poyntings_dPdT in
    d2Poyntings_dPdT.

(* thermo/phases/gibbs_excess.py, lines 1850-1899: GibbsExcessLiquid.phis. (without the cache; list path; trunc_exp is exp) *)
Definition GX_phis (N_ : nat) (use_Poynting : bool) (T : R) (P : R) (Psats : nat -> R) (Vms_sat : nat -> R) (phis_sat : nat -> R) (gammas : nat -> R) : nat -> R :=
  let N_ := N_ in
  let P := P in
  let gammas := gammas in
  let Psats := Psats in
  let phis_sat := phis_sat in
  let Poyntings := (GX_Poyntings N_ use_Poynting T P Psats Vms_sat) in
  let P_inv := (1 / P) in
  let L_phis := (fun i => (((((gammas i) * (Psats i)) * (Poyntings i)) * (phis_sat i)) * P_inv)) in
  L_phis.

(* thermo/phases/gibbs_excess.py, lines 1955-1994: GibbsExcessLiquid.dphis_dT. (without the cache; list path; trunc_exp is exp) *)
Definition GX_dphis_dT (N_ : nat) (use_Poynting : bool) (use_phis_sat : bool) (T : R) (P : R) (Psats : nat -> R) (dPsats_dT : nat -> R) (Vms_sat : nat -> R) (dVms_sat_dT : nat -> R) (phis_sat : nat -> R) (dphis_sat_dT : nat -> R) (gammas : nat -> R) (dgammas_dT : nat -> R) : nat -> R :=
  let N_ := N_ in
  let P := P in
  let Psats := Psats in
  let gammas := gammas in
  let dPoyntings_dT := (if use_Poynting then (GX_dPoyntings_dT N_ use_Poynting T P Psats dPsats_dT Vms_sat dVms_sat_dT) else (fun _ => 0)) in
  let Poyntings := (if use_Poynting then (GX_Poyntings N_ use_Poynting T P Psats Vms_sat) else (fun _ => 1)) in
  let dPsats_dT := dPsats_dT in
  let dgammas_dT := dgammas_dT in
  let dphis_sat_dT := (if use_phis_sat then dphis_sat_dT else (fun _ => 0)) in
  let phis_sat := (if use_phis_sat then phis_sat else (fun _ => 1)) in
  let dphis_dTl := (fun k_ => match k_ with | _ => 0 end) in
  let dphis_dTl :=
    loop N_ (fun i dphis_dTl =>
      let x0 := (gammas i) in
      let x1 := (phis_sat i) in
      let x2 := (Psats i) in
      let x3 := (Poyntings i) in
      let x4 := (x2 * x3) in
      let x5 := (x0 * x1) in
      let v := ((((((x0 * x4) * (dphis_sat_dT i)) + ((x1 * x4) * (dgammas_dT i))) + ((x2 * x5) * (dPoyntings_dT i))) + ((x3 * x5) * (dPsats_dT i))) / P) in
      let dphis_dTl := upd dphis_dTl i v in
      dphis_dTl
    ) dphis_dTl in
  dphis_dTl.

(* thermo/phases/gibbs_excess.py, lines 2036-2044: GibbsExcessLiquid.dlnphis_dT. (without the cache; list path; trunc_exp is exp) *)
Definition GX_dlnphis_dT (N_ : nat) (use_Poynting : bool) (use_phis_sat : bool) (T : R) (P : R) (Psats : nat -> R) (dPsats_dT : nat -> R) (Vms_sat : nat -> R) (dVms_sat_dT : nat -> R) (phis_sat : nat -> R) (dphis_sat_dT : nat -> R) (gammas : nat -> R) (dgammas_dT : nat -> R) : nat -> R :=
  let N_ := N_ in
  let dphis_dT := (GX_dphis_dT N_ use_Poynting use_phis_sat T P Psats dPsats_dT Vms_sat dVms_sat_dT phis_sat dphis_sat_dT gammas dgammas_dT) in
  let phis := (GX_phis N_ use_Poynting T P Psats Vms_sat phis_sat gammas) in
  let L_dlnphis_dT := (fun i => ((dphis_dT i) / (phis i))) in
  L_dlnphis_dT.

(* thermo/phases/gibbs_excess.py, lines 2046-2086: GibbsExcessLiquid.dlnphis_dP. (without the cache; list path; trunc_exp is exp) *)
Definition GX_dlnphis_dP (N_ : nat) (use_Poynting : bool) (T : R) (P : R) (Psats : nat -> R) (Vms_sat : nat -> R) : nat -> R :=
  let N_ := N_ in
  let Poyntings := (GX_Poyntings N_ use_Poynting T P Psats Vms_sat) in
  let dPoyntings_dP := (GX_dPoyntings_dP N_ use_Poynting T P Psats Vms_sat) in
  let P_inv := (1 / P) in
  let L_dlnphis_dP := (fun i => (((dPoyntings_dP i) / (Poyntings i)) - P_inv)) in
  L_dlnphis_dP.

(* thermo/phases/gibbs_excess.py, lines 2253-2367: GibbsExcessLiquid.H. (without the cache; list path; trunc_exp is exp) *)
Definition GX_H (N_ : nat) (use_Poynting : bool) (use_phis_sat : bool) (use_Hvap_caloric : bool) (composition_independent : bool) (T : R) (P : R) (zs : nat -> R) (Psats : nat -> R) (dPsats_dT : nat -> R) (dPsats_dT_over_Psats : nat -> R) (Vms_sat : nat -> R) (dVms_sat_dT : nat -> R) (phis_sat : nat -> R) (dphis_sat_dT : nat -> R) (Cpig_integrals_pure : nat -> R) (Hvaps : nat -> R) (HE : R) : R :=
  let N_ := N_ in
  let H := 0 in
  let T := T in
  let nRT2 := (((- Rgas) * T) * T) in
  let zs := zs in
  let Cpig_integrals_pure := Cpig_integrals_pure in
  let H :=
    if use_Hvap_caloric then
    let Hvaps := Hvaps in
    let H :=
      loop N_ (fun i H =>
        let H := (H + ((zs i) * ((Cpig_integrals_pure i) - (Hvaps i)))) in
        H
      ) H in
    H
    else
    let dPsats_dT_over_Psats := dPsats_dT_over_Psats in
    let use_Poynting := use_Poynting in
    let use_phis_sat := use_phis_sat in
    let Poyntings := (GX_Poyntings N_ use_Poynting T P Psats Vms_sat) in
    let dPoyntings_dT := (GX_dPoyntings_dT N_ use_Poynting T P Psats dPsats_dT Vms_sat dVms_sat_dT) in
    let dphis_sat_dT := dphis_sat_dT in
    let phis_sat := phis_sat in
    let H :=
      if (use_Poynting && use_phis_sat) then
      let H :=
        loop N_ (fun i H =>
          let H := (H + ((zs i) * ((nRT2 * ((((dphis_sat_dT i) / (phis_sat i)) + (dPsats_dT_over_Psats i)) + ((dPoyntings_dT i) / (Poyntings i)))) + (Cpig_integrals_pure i)))) in
          H
        ) H in
      H
      else
      let H :=
        if use_Poynting then
        let H :=
          loop N_ (fun i H =>
            let H := (H + ((zs i) * ((nRT2 * ((dPsats_dT_over_Psats i) + ((dPoyntings_dT i) / (Poyntings i)))) + (Cpig_integrals_pure i)))) in
            H
          ) H in
        H
        else
        let H :=
          if use_phis_sat then
          let H :=
            loop N_ (fun i H =>
              let H := (H + ((zs i) * ((nRT2 * ((dPsats_dT_over_Psats i) + ((dphis_sat_dT i) / (phis_sat i)))) + (Cpig_integrals_pure i)))) in
              H
            ) H in
          H
          else
          let H :=
            loop N_ (fun i H =>
              let H := (H + ((zs i) * ((nRT2 * (dPsats_dT_over_Psats i)) + (Cpig_integrals_pure i)))) in
              H
            ) H in
          H
        in
        H
      in
      H
    in
    H
  in
  let H :=
    if (negb composition_independent) then
    let H := (H + HE) in
    H
    else
    H
  in
  H.

(* thermo/phases/gibbs_excess.py, lines 2522-2663: GibbsExcessLiquid.S. (without the cache; list path; trunc_exp is exp) *)
Definition GX_S (N_ : nat) (use_Poynting : bool) (use_phis_sat : bool) (use_Hvap_caloric : bool) (composition_independent : bool) (T : R) (P : R) (P_REF_IG_INV : R) (zs : nat -> R) (log_zs : nat -> R) (Psats : nat -> R) (dPsats_dT : nat -> R) (lnPsats : nat -> R) (dPsats_dT_over_Psats : nat -> R) (Vms_sat : nat -> R) (dVms_sat_dT : nat -> R) (phis_sat : nat -> R) (dphis_sat_dT : nat -> R) (Cpig_integrals_over_T_pure : nat -> R) (Hvaps : nat -> R) (SE : R) : R :=
  let N_ := N_ in
  let T := T in
  let P := P in
  let P_inv := (1 / P) in
  let zs := zs in
  let log_zs := log_zs in
  let S_comp := 0 in
  let S_comp :=
    loop N_ (fun i S_comp =>
      let S_comp := (S_comp - ((zs i) * (log_zs i))) in
      S_comp
    ) S_comp in
  let S_ := (S_comp - (ln (P * P_REF_IG_INV))) in
  let S_ := (S_ * Rgas) in
  let Cpig_integrals_over_T_pure := Cpig_integrals_over_T_pure in
  let lnPsats := lnPsats in
  let use_Poynting := use_Poynting in
  let use_phis_sat := use_phis_sat in
  let use_Hvap_caloric := use_Hvap_caloric in
  let S_ :=
    if use_Hvap_caloric then
    let Hvaps := Hvaps in
    let T_inv := (1 / T) in
    let logP_inv := (ln P_inv) in
    let S_ :=
      loop N_ (fun i S_ =>
        let S_ := (S_ - ((zs i) * (((Rgas * ((lnPsats i) + logP_inv)) - (Cpig_integrals_over_T_pure i)) + ((Hvaps i) * T_inv)))) in
        S_
      ) S_ in
    S_
    else
    let dPsats_dT_over_Psats := dPsats_dT_over_Psats in
    let Poyntings := (GX_Poyntings N_ use_Poynting T P Psats Vms_sat) in
    let dPoyntings_dT := (GX_dPoyntings_dT N_ use_Poynting T P Psats dPsats_dT Vms_sat dVms_sat_dT) in
    let dphis_sat_dT := dphis_sat_dT in
    let phis_sat := phis_sat in
    let S_ :=
      if (use_Poynting && use_phis_sat) then
      let S_ :=
        loop N_ (fun i S_ =>
          let S_ := (S_ - ((zs i) * ((Rgas * (((T * ((((dphis_sat_dT i) / (phis_sat i)) + (dPsats_dT_over_Psats i)) + ((dPoyntings_dT i) / (Poyntings i)))) + (lnPsats i)) + (ln (((Poyntings i) * (phis_sat i)) * P_inv)))) - (Cpig_integrals_over_T_pure i)))) in
          S_
        ) S_ in
      S_
      else
      let S_ :=
        if use_Poynting then
        let S_ :=
          loop N_ (fun i S_ =>
            let S_ := (S_ - ((zs i) * ((Rgas * (((T * ((dPsats_dT_over_Psats i) + ((dPoyntings_dT i) / (Poyntings i)))) + (lnPsats i)) + (ln ((Poyntings i) * P_inv)))) - (Cpig_integrals_over_T_pure i)))) in
            S_
          ) S_ in
        S_
        else
        let S_ :=
          if use_phis_sat then
          let S_ :=
            loop N_ (fun i S_ =>
              let S_ := (S_ - ((zs i) * ((Rgas * (((T * (((dphis_sat_dT i) / (phis_sat i)) + (dPsats_dT_over_Psats i))) + (lnPsats i)) + (ln ((phis_sat i) * P_inv)))) - (Cpig_integrals_over_T_pure i)))) in
              S_
            ) S_ in
          S_
          else
          let logP_inv := (ln P_inv) in
          let S_ :=
            loop N_ (fun i S_ =>
              let S_ := (S_ - ((zs i) * ((Rgas * (((T * (dPsats_dT_over_Psats i)) + (lnPsats i)) + logP_inv)) - (Cpig_integrals_over_T_pure i)))) in
              S_
            ) S_ in
          S_
        in
        S_
      in
      S_
    in
    S_
  in
  let S_ :=
    if (negb composition_independent) then
    let S_ := (S_ + SE) in
    S_
    else
    S_
  in
  S_.

(* thermo/phases/gibbs_excess.py, lines 2772-2853: GibbsExcessLiquid.Cp. (without the cache; list path; trunc_exp is exp) *)
Definition GX_Cp (N_ : nat) (use_Poynting : bool) (use_phis_sat : bool) (composition_independent : bool) (T : R) (P : R) (zs : nat -> R) (Psats : nat -> R) (dPsats_dT : nat -> R) (d2Psats_dT2 : nat -> R) (dPsats_dT_over_Psats : nat -> R) (d2Psats_dT2_over_Psats : nat -> R) (Vms_sat : nat -> R) (dVms_sat_dT : nat -> R) (d2Vms_sat_dT2 : nat -> R) (phis_sat : nat -> R) (dphis_sat_dT : nat -> R) (d2phis_sat_dT2 : nat -> R) (Cpigs_pure : nat -> R) (CpE : R) : R :=
  let N_ := N_ in
  let T := T in
  let zs := zs in
  let Cpigs_pure := Cpigs_pure in
  let use_Poynting := use_Poynting in
  let use_phis_sat := use_phis_sat in
  let d2Poyntings_dT2 := (GX_d2Poyntings_dT2 N_ use_Poynting T P Psats dPsats_dT d2Psats_dT2 Vms_sat dVms_sat_dT d2Vms_sat_dT2) in
  let dPoyntings_dT := (GX_dPoyntings_dT N_ use_Poynting T P Psats dPsats_dT Vms_sat dVms_sat_dT) in
  let Poyntings := (GX_Poyntings N_ use_Poynting T P Psats Vms_sat) in
  let d2phis_sat_dT2 := d2phis_sat_dT2 in
  let dphis_sat_dT := dphis_sat_dT in
  let phis_sat := phis_sat in
  let dPsats_dT_over_Psats := dPsats_dT_over_Psats in
  let d2Psats_dT2_over_Psats := d2Psats_dT2_over_Psats in
  let RT := (Rgas * T) in
  let RT2 := (RT * T) in
  let RT2_2 := (RT + RT) in
  let Cp := 0 in
  let Cp :=
    if (use_Poynting && use_phis_sat) then
    let Cp :=
      loop N_ (fun i Cp =>
        let Poy_inv := (1 / (Poyntings i)) in
        let phi_inv := (1 / (phis_sat i)) in
        let dPoy_ratio := ((dPoyntings_dT i) * Poy_inv) in
        let dphi_ratio := ((dphis_sat_dT i) * phi_inv) in
        let a := (((((((d2phis_sat_dT2 i) * phi_inv) - (dphi_ratio * dphi_ratio)) + (d2Psats_dT2_over_Psats i)) - ((dPsats_dT_over_Psats i) * (dPsats_dT_over_Psats i))) + ((d2Poyntings_dT2 i) * Poy_inv)) - (dPoy_ratio * dPoy_ratio)) in
        let b := ((dphi_ratio + (dPsats_dT_over_Psats i)) + dPoy_ratio) in
        let Cp := (Cp - ((zs i) * (((RT2 * a) + (RT2_2 * b)) - (Cpigs_pure i)))) in
        Cp
      ) Cp in
    Cp
    else
    let Cp :=
      if use_Poynting then
      let Cp :=
        loop N_ (fun i Cp =>
          let Poy_inv := (1 / (Poyntings i)) in
          let dPoy_ratio := ((dPoyntings_dT i) * Poy_inv) in
          let a := ((((d2Psats_dT2_over_Psats i) - ((dPsats_dT_over_Psats i) * (dPsats_dT_over_Psats i))) + ((d2Poyntings_dT2 i) * Poy_inv)) - (dPoy_ratio * dPoy_ratio)) in
          let b := ((dPsats_dT_over_Psats i) + dPoy_ratio) in
          let Cp := (Cp - ((zs i) * (((RT2 * a) + (RT2_2 * b)) - (Cpigs_pure i)))) in
          Cp
        ) Cp in
      Cp
      else
      let Cp :=
        if use_phis_sat then
        let Cp :=
          loop N_ (fun i Cp =>
            let phi_inv := (1 / (phis_sat i)) in
            let dphi_ratio := ((dphis_sat_dT i) * phi_inv) in
            let a := (((((d2phis_sat_dT2 i) * phi_inv) - (dphi_ratio * dphi_ratio)) + (d2Psats_dT2_over_Psats i)) - ((dPsats_dT_over_Psats i) * (dPsats_dT_over_Psats i))) in
            let b := (dphi_ratio + (dPsats_dT_over_Psats i)) in
            let Cp := (Cp - ((zs i) * (((RT2 * a) + (RT2_2 * b)) - (Cpigs_pure i)))) in
            Cp
          ) Cp in
        Cp
        else
        let Cp :=
          loop N_ (fun i Cp =>
            let a := ((d2Psats_dT2_over_Psats i) - ((dPsats_dT_over_Psats i) * (dPsats_dT_over_Psats i))) in
            let b := (dPsats_dT_over_Psats i) in
            let Cp := (Cp - ((zs i) * (((RT2 * a) + (RT2_2 * b)) - (Cpigs_pure i)))) in
            Cp
          ) Cp in
        Cp
      in
      Cp
    in
    Cp
  in
  let Cp :=
    if (negb composition_independent) then
    let Cp := (Cp + CpE) in
    Cp
    else
    Cp
  in
  Cp.

(* thermo/phases/gibbs_excess.py, lines 2948-3030: GibbsExcessLiquid.dS_dT. (without the cache; list path; trunc_exp is exp) *)
Definition GX_dS_dT (N_ : nat) (use_Poynting : bool) (use_phis_sat : bool) (composition_independent : bool) (T : R) (P : R) (zs : nat -> R) (Psats : nat -> R) (dPsats_dT : nat -> R) (d2Psats_dT2 : nat -> R) (dPsats_dT_over_Psats : nat -> R) (d2Psats_dT2_over_Psats : nat -> R) (Vms_sat : nat -> R) (dVms_sat_dT : nat -> R) (d2Vms_sat_dT2 : nat -> R) (phis_sat : nat -> R) (dphis_sat_dT : nat -> R) (d2phis_sat_dT2 : nat -> R) (Cpigs_pure : nat -> R) (dSE_dT : R) : R :=
  let N_ := N_ in
  let T := T in
  let zs := zs in
  let use_Poynting := use_Poynting in
  let use_phis_sat := use_phis_sat in
  let d2Poyntings_dT2 := (GX_d2Poyntings_dT2 N_ use_Poynting T P Psats dPsats_dT d2Psats_dT2 Vms_sat dVms_sat_dT d2Vms_sat_dT2) in
  let dPoyntings_dT := (GX_dPoyntings_dT N_ use_Poynting T P Psats dPsats_dT Vms_sat dVms_sat_dT) in
  let Poyntings := (GX_Poyntings N_ use_Poynting T P Psats Vms_sat) in
  let d2phis_sat_dT2 := d2phis_sat_dT2 in
  let dphis_sat_dT := dphis_sat_dT in
  let phis_sat := phis_sat in
  let dPsats_dT_over_Psats := dPsats_dT_over_Psats in
  let d2Psats_dT2_over_Psats := d2Psats_dT2_over_Psats in
  let Cpigs_pure := Cpigs_pure in
  let T_inv := (1 / T) in
  let RT := (Rgas * T) in
  let R_2 := (Rgas + Rgas) in
  let dS_dT := 0 in
  let dS_dT :=
    if (use_Poynting && use_phis_sat) then
    let dS_dT :=
      loop N_ (fun i dS_dT =>
        let Poy_inv := (1 / (Poyntings i)) in
        let phi_inv := (1 / (phis_sat i)) in
        let dPoy_ratio := ((dPoyntings_dT i) * Poy_inv) in
        let dphi_ratio := ((dphis_sat_dT i) * phi_inv) in
        let a := (((((((d2phis_sat_dT2 i) * phi_inv) - (dphi_ratio * dphi_ratio)) + (d2Psats_dT2_over_Psats i)) - ((dPsats_dT_over_Psats i) * (dPsats_dT_over_Psats i))) + ((d2Poyntings_dT2 i) * Poy_inv)) - (dPoy_ratio * dPoy_ratio)) in
        let b := ((dphi_ratio + (dPsats_dT_over_Psats i)) + dPoy_ratio) in
        let dS_dT := (dS_dT - ((zs i) * (((RT * a) + (b * R_2)) - ((Cpigs_pure i) * T_inv)))) in
        dS_dT
      ) dS_dT in
    dS_dT
    else
    let dS_dT :=
      if use_Poynting then
      let dS_dT :=
        loop N_ (fun i dS_dT =>
          let Poy_inv := (1 / (Poyntings i)) in
          let dPoy_ratio := ((dPoyntings_dT i) * Poy_inv) in
          let a := ((((d2Psats_dT2_over_Psats i) - ((dPsats_dT_over_Psats i) * (dPsats_dT_over_Psats i))) + ((d2Poyntings_dT2 i) * Poy_inv)) - (dPoy_ratio * dPoy_ratio)) in
          let b := ((dPsats_dT_over_Psats i) + dPoy_ratio) in
          let dS_dT := (dS_dT - ((zs i) * (((RT * a) + (b * R_2)) - ((Cpigs_pure i) * T_inv)))) in
          dS_dT
        ) dS_dT in
      dS_dT
      else
      let dS_dT :=
        if use_phis_sat then
        let dS_dT :=
          loop N_ (fun i dS_dT =>
            let phi_inv := (1 / (phis_sat i)) in
            let dphi_ratio := ((dphis_sat_dT i) * phi_inv) in
            let a := (((((d2phis_sat_dT2 i) * phi_inv) - (dphi_ratio * dphi_ratio)) + (d2Psats_dT2_over_Psats i)) - ((dPsats_dT_over_Psats i) * (dPsats_dT_over_Psats i))) in
            let b := (dphi_ratio + (dPsats_dT_over_Psats i)) in
            let dS_dT := (dS_dT - ((zs i) * (((RT * a) + (b * R_2)) - ((Cpigs_pure i) * T_inv)))) in
            dS_dT
          ) dS_dT in
        dS_dT
        else
        let dS_dT :=
          loop N_ (fun i dS_dT =>
            let a := ((d2Psats_dT2_over_Psats i) - ((dPsats_dT_over_Psats i) * (dPsats_dT_over_Psats i))) in
            let b := (dPsats_dT_over_Psats i) in
            let dS_dT := (dS_dT - ((zs i) * (((RT * a) + (b * R_2)) - ((Cpigs_pure i) * T_inv)))) in
            dS_dT
          ) dS_dT in
        dS_dT
      in
      dS_dT
    in
    dS_dT
  in
  let dS_dT :=
    if (negb composition_independent) then
    let dS_dT := (dS_dT + dSE_dT) in
    dS_dT
    else
    dS_dT
  in
  dS_dT.

(* thermo/phases/gibbs_excess.py, lines 3032-3059: GibbsExcessLiquid.dH_dP. (without the cache; list path; trunc_exp is exp) *)
Definition GX_dH_dP (N_ : nat) (use_Poynting : bool) (T : R) (P : R) (zs : nat -> R) (Psats : nat -> R) (dPsats_dT : nat -> R) (Vms_sat : nat -> R) (dVms_sat_dT : nat -> R) : R :=
  let N_ := N_ in
  let T := T in
  let zs := zs in
  let dH_dP := 0 in
  let dH_dP :=
    if use_Poynting then
    let nRT2 := (((- Rgas) * T) * T) in
    let Poyntings := (GX_Poyntings N_ use_Poynting T P Psats Vms_sat) in
    let dPoyntings_dP := (GX_dPoyntings_dP N_ use_Poynting T P Psats Vms_sat) in
    let dPoyntings_dT := (GX_dPoyntings_dT N_ use_Poynting T P Psats dPsats_dT Vms_sat dVms_sat_dT) in
    let d2Poyntings_dPdT := (GX_d2Poyntings_dPdT N_ use_Poynting T P Psats dPsats_dT Vms_sat dVms_sat_dT) in
    let dH_dP :=
      loop N_ (fun i dH_dP =>
        let Poy_inv := (1 / (Poyntings i)) in
        let dH_dP := (dH_dP + (((nRT2 * (zs i)) * Poy_inv) * ((d2Poyntings_dPdT i) - (((dPoyntings_dP i) * (dPoyntings_dT i)) * Poy_inv)))) in
        dH_dP
      ) dH_dP in
    dH_dP
    else
    dH_dP
  in
  dH_dP.

(* thermo/phases/gibbs_excess.py, lines 3062-3091: GibbsExcessLiquid.dS_dP. (without the cache; list path; trunc_exp is exp) *)
Definition GX_dS_dP (N_ : nat) (use_Poynting : bool) (T : R) (P : R) (zs : nat -> R) (Psats : nat -> R) (dPsats_dT : nat -> R) (Vms_sat : nat -> R) (dVms_sat_dT : nat -> R) : R :=
  let N_ := N_ in
  let T := T in
  let P := P in
  let P_inv := (1 / P) in
  let zs := zs in
  let dS_dP :=
    if use_Poynting then
    let dS_dP := ((- Rgas) * P_inv) in
    let Poyntings := (GX_Poyntings N_ use_Poynting T P Psats Vms_sat) in
    let dPoyntings_dP := (GX_dPoyntings_dP N_ use_Poynting T P Psats Vms_sat) in
    let dPoyntings_dT := (GX_dPoyntings_dT N_ use_Poynting T P Psats dPsats_dT Vms_sat dVms_sat_dT) in
    let d2Poyntings_dPdT := (GX_d2Poyntings_dPdT N_ use_Poynting T P Psats dPsats_dT Vms_sat dVms_sat_dT) in
    let dS_dP :=
      loop N_ (fun i dS_dP =>
        let Poy_inv := (1 / (Poyntings i)) in
        let dS_dP := (dS_dP - ((((zs i) * Rgas) * Poy_inv) * (((dPoyntings_dP i) - ((Poyntings i) * P_inv)) + (T * ((d2Poyntings_dPdT i) - (((dPoyntings_dP i) * (dPoyntings_dT i)) * Poy_inv)))))) in
        dS_dP
      ) dS_dP in
    dS_dP
    else
    let dS_dP := 0 in
    dS_dP
  in
  dS_dP.

(* thermo/phases/gibbs_excess.py, lines 3103-3118: GibbsExcessLiquid.V. (without the cache; list path; trunc_exp is exp) *)
Definition GX_V (N_ : nat) (zs : nat -> R) (Vms_sat : nat -> R) : R :=
  let N_ := N_ in
  let zs := zs in
  let Vms := Vms_sat in
  let V := 0 in
  let V :=
    loop N_ (fun i V =>
      let V := (V + ((zs i) * (Vms i))) in
      V
    ) V in
  V.

(* thermo/phases/gibbs_excess.py, lines 3120-3131: GibbsExcessLiquid.dV_dT. (without the cache; list path; trunc_exp is exp) *)
Definition GX_dV_dT (N_ : nat) (zs : nat -> R) (dVms_sat_dT : nat -> R) : R :=
  let N_ := N_ in
  let zs := zs in
  let dVms_sat_dT := dVms_sat_dT in
  let dV_dT := 0 in
  let dV_dT :=
    loop N_ (fun i dV_dT =>
      let dV_dT := (dV_dT + ((zs i) * (dVms_sat_dT i))) in
      dV_dT
    ) dV_dT in
  dV_dT.

(* thermo/phases/gibbs_excess.py, lines 3133-3144: GibbsExcessLiquid.d2V_dT2. (without the cache; list path; trunc_exp is exp) *)
Definition GX_d2V_dT2 (N_ : nat) (zs : nat -> R) (d2Vms_sat_dT2 : nat -> R) : R :=
  let N_ := N_ in
  let zs := zs in
  let d2Vms_sat_dT2 := d2Vms_sat_dT2 in
  let d2V_dT2 := 0 in
  let d2V_dT2 :=
    loop N_ (fun i d2V_dT2 =>
      let d2V_dT2 := (d2V_dT2 + ((zs i) * (d2Vms_sat_dT2 i))) in
      d2V_dT2
    ) d2V_dT2 in
  d2V_dT2.

(* thermo/phases/gibbs_excess.py, lines 3271-3278: GibbsExcessLiquid.Tait_Vs. (without the cache; list path; trunc_exp is exp) *)
Definition GX_Tait_Vs (N_ : nat) (P : R) (Psats : nat -> R) (Vms_sat : nat -> R) (Tait_Bs : nat -> R) (Tait_Cs : nat -> R) : nat -> R :=
  let N_ := N_ in
  let Vms_sat := Vms_sat in
  let Psats := Psats in
  let Tait_Bs := Tait_Bs in
  let Tait_Cs := Tait_Cs in
  let P := P in
  (fun i => ((Vms_sat i) * (1 - ((Tait_Cs i) * (ln (((Tait_Bs i) + P) / ((Tait_Bs i) + (Psats i)))))))).

(* thermo/phases/gibbs_excess.py, lines 3281-3354: GibbsExcessLiquid.dH_dP_integrals_Tait. (without the cache; list path; trunc_exp is exp) *)
Definition GX_dH_dP_integrals_Tait (N_ : nat) (T : R) (P : R) (Psats : nat -> R) (dPsats_dT : nat -> R) (Vms_sat : nat -> R) (dVms_sat_dT : nat -> R) (Tait_Bs : nat -> R) (Tait_Cs : nat -> R) (dTait_B_dTs : nat -> R) (dTait_C_dTs : nat -> R) : nat -> R :=
  let N_ := N_ in
  let Psats := Psats in
  let Vms_sat := Vms_sat in
  let dVms_sat_dT := dVms_sat_dT in
  let dPsats_dT := dPsats_dT in
  let Tait_Bs := Tait_Bs in
  let Tait_Cs := Tait_Cs in
  let dTait_C_dTs := dTait_C_dTs in
  let dTait_B_dTs := dTait_B_dTs in
  let T := T in
  let P := P in
  let dH_dP_integrals_Tait := (fun k_ => match k_ with | _ => 0 end) in
  let dH_dP_integrals_Tait :=
    loop N_ (fun i dH_dP_integrals_Tait =>
      let x0 := (Tait_Bs i) in
      let x1 := (P + x0) in
      let x2 := (Psats i) in
      let x3 := (x0 + x2) in
      let x4 := (1 / x3) in
      let x5 := (Tait_Cs i) in
      let x6 := (Vms_sat i) in
      let x7 := (x5 * x6) in
      let x8 := (T * (dVms_sat_dT i)) in
      let x9 := (x5 * x8) in
      let x10 := (T * (dTait_C_dTs i)) in
      let x11 := (x0 * x6) in
      let x12 := (T * x7) in
      let x13 := (((((- x0) * x7) + (x0 * x9)) + (x10 * x11)) + (x12 * (dTait_B_dTs i))) in
      let x14 := (x2 * x6) in
      let x15 := (x4 * (((((((((x0 * x8) + (x10 * x14)) - x11) + (x12 * (dPsats_dT i))) + x13) - x14) - (x2 * x7)) + (x2 * x8)) + (x2 * x9))) in
      let val := ((((((- P) * x15) + ((P * (((x10 * x6) - x7) + x9)) * (ln (x1 * x4)))) + (x13 * (ln x1))) - (x13 * (ln x3))) + (x15 * x2)) in
      let dH_dP_integrals_Tait := upd dH_dP_integrals_Tait i val in
      dH_dP_integrals_Tait
    ) dH_dP_integrals_Tait in
  dH_dP_integrals_Tait.
