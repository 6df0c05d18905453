(* Mixture equations of state: derivatives with respect to mole numbers at fixed total volume, second derivatives of volume and departures (thermo/eos_mix.py)
   Generated by tools/py2v.py from the text of /repo; do not edit by hand. *)
From Coq Require Import Reals Lra Lia Arith Bool.
From Verif Require Import Base.
Open Scope R_scope.
Open Scope bool_scope.
From Verif Require Import Gen_mix.

(* thermo/eos_mix.py, lines 3765-3806: GCEOSMIX.dP_dns_Vt. *)
Definition GCEOSMIX_dP_dns_Vt (phase : R) (V : R) (T : R) (b : R) (N_ : nat) (a_alpha : R) (epsilon_ : R) (delta : R) (depsilon_dns : nat -> R) (ddelta_dns : nat -> R) (db_dns : nat -> R) (da_alpha_dns : nat -> R) : nat -> R :=
  let Vt := V in
  let T := T in
  let b := b in
  let N_ := N_ in
  let a_alpha := a_alpha in
  let epsilon_ := epsilon_ in
  let Vt2 := (Vt * Vt) in
  let delta := delta in
  let x9 := ((Vt2 + (Vt * delta)) + epsilon_) in
  let depsilon_dns := depsilon_dns in
  let ddelta_dns := ddelta_dns in
  let db_dns := db_dns in
  let da_alpha_dns := da_alpha_dns in
  let t1 := (((Rgas * T) * 1) / ((Vt - b) * (Vt - b))) in
  let t2 := (1 / x9) in
  let t3 := ((a_alpha * t2) * t2) in
  let t4 := ((t1 * Vt) - (t3 * (((Vt * delta) + Vt2) + Vt2))) in
  let dP_dns_Vt := (fun _ => 0) in
  let dP_dns_Vt :=
    loop N_ (fun i dP_dns_Vt =>
      let v := (((t4 + (t1 * (db_dns i))) + (t3 * ((Vt * (ddelta_dns i)) + (depsilon_dns i)))) - (t2 * (da_alpha_dns i))) in
      let dP_dns_Vt := upd dP_dns_Vt i v in
      dP_dns_Vt
    ) dP_dns_Vt in
  dP_dns_Vt.

(* thermo/eos_mix.py, lines 3809-3878: GCEOSMIX.d2P_dninjs_Vt. *)
Definition GCEOSMIX_d2P_dninjs_Vt (phase : R) (V : R) (T : R) (N_ : nat) (b : R) (a_alpha : R) (epsilon_ : R) (depsilon_dns : nat -> R) (ddelta_dns : nat -> R) (db_dns : nat -> R) (da_alpha_dns : nat -> R) (d2delta_dninjs : nat -> nat -> R) (d2epsilon_dninjs : nat -> nat -> R) (d2b_dninjs : nat -> nat -> R) (d2a_alpha_dninjs : nat -> nat -> R) (delta : R) : nat -> nat -> R :=
  let Vt := V in
  let T := T in
  let N_ := N_ in
  let b := b in
  let a_alpha := a_alpha in
  let epsilon_ := epsilon_ in
  let depsilon_dns := depsilon_dns in
  let ddelta_dns := ddelta_dns in
  let db_dns := db_dns in
  let da_alpha_dns := da_alpha_dns in
  let d2delta_dninjs := d2delta_dninjs in
  let d2epsilon_dninjs := d2epsilon_dninjs in
  let d2bs := d2b_dninjs in
  let d2a_alpha_dninjs := d2a_alpha_dninjs in
  let x0 := a_alpha in
  let x1 := epsilon_ in
  let x2 := (Vt * Vt) in
  let x5 := delta in
  let x7 := ((x1 + x2) + (x5 * Vt)) in
  let x7_inv := (1 / x7) in
  let x8 := b in
  let x9 := (Vt - x8) in
  let x11 := (Vt + Vt) in
  let x12 := (Rgas * T) in
  let x13 := Vt in
  let x14 := (x7_inv * x7_inv) in
  let x16 := ((x2 + x2) + (x13 * x5)) in
  let t1 := (x0 * x14) in
  let x9_inv := (1 / x9) in
  let x9_inv2 := (x9_inv * x9_inv) in
  let x9_inv3 := (x9_inv * x9_inv2) in
  let t2 := ((t1 * ((x11 * x5) + (6 * x2))) - ((x12 * x11) * x9_inv2)) in
  let t3 := (x12 * x9_inv2) in
  let t4 := ((2 * x12) * x9_inv3) in
  let t5 := ((((2 * x0) * x7_inv) * x7_inv) * x7_inv) in
  let hess := (fun u_ => (fun _ => 0)) in
  let hess :=
    loop N_ (fun i hess =>
      let x15 := (ddelta_dns i) in
      let x17 := ((((- x15) * Vt) + x16) - (depsilon_dns i)) in
      let t50 := ((- x13) * x15) in
      let t51 := (t5 * x17) in
      let t52 := (t4 * (x13 + (db_dns i))) in
      let t53 := (x14 * x17) in
      let t54 := (x14 * (da_alpha_dns i)) in
      let t55 := (t51 + t54) in
      let iadd := (((t1 * t50) + (t52 * x13)) - (x16 * t55)) in
      let hess :=
        loop (i + 1%nat)%nat (fun j hess =>
          let x18 := (ddelta_dns j) in
          let x19 := ((x18 * Vt) + (depsilon_dns j)) in
          let v := (((((((t2 + iadd) + (t1 * (((Vt * (d2delta_dninjs i j)) + (d2epsilon_dninjs i j)) - (x13 * x18)))) + (t52 * (db_dns j))) - (t53 * (da_alpha_dns j))) + (t55 * x19)) + (t3 * (d2bs i j))) - (x7_inv * (d2a_alpha_dninjs i j))) in
          let hess := updm hess j i v in
          let hess := updm hess i j v in
          hess
        ) hess in
      hess
    ) hess in
  hess.

(* thermo/eos_mix.py, lines 3880-3970: GCEOSMIX.d3P_dninjnks_Vt. *)
Definition GCEOSMIX_d3P_dninjnks_Vt (phase : R) (V : R) (T : R) (N_ : nat) (b : R) (a_alpha : R) (epsilon_ : R) (depsilon_dns : nat -> R) (ddelta_dns : nat -> R) (db_dns : nat -> R) (da_alpha_dns : nat -> R) (d2delta_dninjs : nat -> nat -> R) (d2epsilon_dninjs : nat -> nat -> R) (d2b_dninjs : nat -> nat -> R) (d2a_alpha_dninjs : nat -> nat -> R) (d3epsilon_dninjnks : nat -> nat -> nat -> R) (d3delta_dninjnks : nat -> nat -> nat -> R) (d3a_alpha_dninjnks : nat -> nat -> nat -> R) (d3b_dninjnks : nat -> nat -> nat -> R) (delta : R) : nat -> nat -> nat -> R :=
  let Vt := V in
  let T := T in
  let N_ := N_ in
  let b := b in
  let a_alpha := a_alpha in
  let epsilon_ := epsilon_ in
  let depsilon_dns := depsilon_dns in
  let ddelta_dns := ddelta_dns in
  let db_dns := db_dns in
  let da_alpha_dns := da_alpha_dns in
  let d2delta_dninjs := d2delta_dninjs in
  let d2epsilon_dninjs := d2epsilon_dninjs in
  let d2bs := d2b_dninjs in
  let d2a_alpha_dninjs := d2a_alpha_dninjs in
  let d3epsilon_dninjnks := d3epsilon_dninjnks in
  let d3delta_dninjnks := d3delta_dninjnks in
  let d3a_alpha_dninjnks := d3a_alpha_dninjnks in
  let d3b_dninjnks := d3b_dninjnks in
  let mat := (fun u_ => (fun u_ => (fun _ => 0))) in
  let mat :=
    loop N_ (fun i mat =>
      let mat :=
        loop N_ (fun j mat =>
          let mat :=
            loop N_ (fun k mat =>
              let x0 := b in
              let x1 := 1 in
              let x2 := (Vt / x1) in
              let x3 := ((- x0) + x2) in
              let x4 := (6 / (x1 ^ 4)) in
              let x5 := (Vt * x4) in
              let x6 := (Rgas * T) in
              let x7 := a_alpha in
              let x8 := epsilon_ in
              let x9 := (Vt ^ 2) in
              let x10 := (/ (x1 ^ 2)) in
              let x11 := delta in
              let x12 := (((x10 * x9) + (x11 * x2)) + x8) in
              let x13 := (2 / (x1 ^ 3)) in
              let x14 := (Vt * x13) in
              let x15 := (Vt * x10) in
              let x16 := (x6 * (x15 + (db_dns k))) in
              let x17 := (2 / (x3 ^ 3)) in
              let x18 := (x15 + (db_dns j)) in
              let x19 := (x17 * x6) in
              let x20 := (x15 + (db_dns i)) in
              let x21 := (/ (x12 ^ 2)) in
              let x22 := (ddelta_dns i) in
              let x23 := ((x11 * x15) + (x13 * x9)) in
              let x24 := ((((- x2) * x22) + x23) - (depsilon_dns i)) in
              let x25 := (ddelta_dns j) in
              let x26 := ((((- x2) * x25) + x23) - (depsilon_dns j)) in
              let x27 := (ddelta_dns k) in
              let x28 := ((((- x2) * x27) + x23) - (depsilon_dns j)) in
              let x29 := (da_alpha_dns k) in
              let x30 := (d2delta_dninjs i j) in
              let x31 := ((- x15) * x25) in
              let x32 := (x4 * x9) in
              let x33 := (x11 * x14) in
              let x34 := ((((- x15) * x22) + x32) + x33) in
              let x35 := ((((x2 * x30) + x31) + x34) + (d2epsilon_dninjs i j)) in
              let x36 := (da_alpha_dns j) in
              let x37 := (d2delta_dninjs i k) in
              let x38 := ((- x15) * x27) in
              let x39 := ((((x2 * x37) + x34) + x38) + (d2epsilon_dninjs i k)) in
              let x40 := (da_alpha_dns i) in
              let x41 := (d2delta_dninjs j k) in
              let x42 := ((((((x2 * x41) + x31) + x32) + x33) + x38) + (d2epsilon_dninjs j k)) in
              let x43 := (2 / (x12 ^ 3)) in
              let x44 := (x24 * x26) in
              let x45 := (x28 * x43) in
              let x46 := (x43 * x7) in
              let v := ((((((((((((((((((((((- x16) * x17) * (x14 - (d2bs i j))) + ((((6 * x16) * x18) * x20) / (x3 ^ 4))) - ((x18 * x19) * (x14 - (d2bs i k)))) - ((x19 * x20) * (x14 - (d2bs j k)))) - ((x21 * x24) * (d2a_alpha_dninjs j k))) - ((x21 * x26) * (d2a_alpha_dninjs i k))) - ((x21 * x28) * (d2a_alpha_dninjs i j))) + ((x21 * x29) * x35)) + ((x21 * x36) * x39)) + ((x21 * x40) * x42)) - ((x21 * x7) * ((((((((((x11 * x5) - (x14 * x22)) - (x14 * x25)) - (x14 * x27)) + (x15 * x30)) + (x15 * x37)) + (x15 * x41)) - (x2 * (d3delta_dninjnks i j k))) - (d3epsilon_dninjnks i j k)) + ((24 * x9) / (x1 ^ 5))))) - ((x24 * x36) * x45)) + ((x24 * x42) * x46)) + ((x26 * x39) * x46)) - ((x26 * x40) * x45)) - ((x29 * x43) * x44)) + ((x35 * x45) * x7)) + ((x6 * (x5 + (d3b_dninjnks i j k))) / (x3 ^ 2))) - ((d3a_alpha_dninjnks i j k) / x12)) - ((((6 * x28) * x44) * x7) / (x12 ^ 4))) in
              let mat := updt mat i j k v in
              mat
            ) mat in
          mat
        ) mat in
      mat
    ) mat in
  mat.

(* thermo/eos_mix.py, lines 3364-3435: GCEOSMIX._d2V_dij_wrapper. *)
Definition GCEOSMIX_d2V_dij_wrapper (V : R) (d_Vs : nat -> R) (dbs : nat -> R) (d2bs : nat -> nat -> R) (d_epsilons : nat -> R) (d2_epsilons : nat -> nat -> R) (d_deltas : nat -> R) (d2_deltas : nat -> nat -> R) (da_alphas : nat -> R) (d2a_alphas : nat -> nat -> R) (T : R) (b : R) (epsilon_ : R) (delta : R) (a_alpha : R) (N_ : nat) : nat -> nat -> R :=
  let T := T in
  let x0 := V in
  let x3 := b in
  let x4 := (x0 - x3) in
  let x5 := epsilon_ in
  let x6 := (x0 * x0) in
  let x7 := delta in
  let x8 := (x0 * x7) in
  let x9 := ((x5 + x6) + x8) in
  let x10 := a_alpha in
  let x11 := ((x10 * x4) * x4) in
  let x12 := (x0 + x0) in
  let x13 := (x9 * x9) in
  let x14 := (Rgas * T) in
  let x17 := ((x4 * x4) * x4) in
  let x18 := (x10 * x17) in
  let x19 := (2 * x18) in
  let x22 := (4 * x18) in
  let x27 := (x12 * x18) in
  let x33 := ((x14 * x13) * x9) in
  let x34 := (x33 + x33) in
  let x37 := (x19 * x8) in
  let x38 := (x17 * x9) in
  let x39 := (x10 * x38) in
  let N_ := N_ in
  let hessian := (fun u_ => (fun _ => 0)) in
  let hessian :=
    loop N_ (fun i hessian =>
      let hessian :=
        loop N_ (fun j hessian =>
          let x15 := (d_epsilons i) in
          let x16 := (d_epsilons j) in
          let x20 := (x16 * x19) in
          let x21 := (d_Vs i) in
          let x24 := (d_Vs j) in
          let x23 := (x21 * x22) in
          let x25 := (x15 * x24) in
          let x26 := (d_deltas i) in
          let x28 := (d_deltas j) in
          let x29 := (x21 * x24) in
          let x30 := ((8 * x18) * x29) in
          let x31 := (x28 * x6) in
          let x32 := (x24 * x26) in
          let x35 := (x34 * (dbs j)) in
          let x36 := (dbs i) in
          let x40 := (x38 * (da_alphas i)) in
          let x41 := (x38 * (da_alphas j)) in
          let x42 := (x21 * x41) in
          let x43 := (x24 * x40) in
          let x44 := (x21 * x39) in
          let d1 := (d2_deltas i j) in
          let d2 := (d2a_alphas i j) in
          let d3 := (d2bs i j) in
          let d4 := (d2_epsilons i j) in
          let v := ((((((((((((((((((((((((((((((((((((x0 * x16) * x23) + ((x0 * x22) * x25)) - ((x0 * x26) * x41)) - ((x0 * x28) * x40)) - ((x0 * x39) * d1)) - (x12 * x42)) - (x12 * x43)) + ((x13 * x17) * d2)) + (x15 * x20)) + ((x15 * x27) * x28)) - (x15 * x41)) + ((x16 * x26) * x27)) - (x16 * x40)) + ((x19 * x25) * x7)) + ((x19 * x26) * x31)) + ((x19 * x29) * (x7 ^ 2))) + ((x20 * x21) * x7)) + ((x21 * x28) * x37)) + (x21 * x35)) + ((x22 * x32) * x6)) + (x23 * x31)) + ((x24 * x34) * x36)) - ((2 * x24) * x44)) - (x28 * x44)) - (x29 * x34)) + (x30 * x6)) + (x30 * x8)) + (x32 * x37)) - (x32 * x39)) - ((x33 * x4) * d3)) - (x35 * x36)) - (x39 * d4)) - (x42 * x7)) - (x43 * x7)) / ((x4 * x9) * (((x11 * x12) + (x11 * x7)) - (x13 * x14)))) in
          let hessian := updm hessian i j v in
          hessian
        ) hessian in
      hessian
    ) hessian in
  hessian.

(* thermo/eos_mix.py, lines 3607-3703: GCEOSMIX.dH_dep_dzs. *)
Definition GCEOSMIX_dH_dep_dzs (Z : R) (P : R) (T : R) (N_ : nat) (ddelta_dzs : nat -> R) (depsilon_dzs : nat -> R) (da_alpha_dzs : nat -> R) (da_alpha_dT_dzs : nat -> R) (dV_dzs : nat -> R) (delta : R) (epsilon_ : R) (a_alpha : R) (da_alpha_dT : R) : nat -> R :=
  let P := P in
  let T := T in
  let N_ := N_ in
  let ddelta_dzs := ddelta_dzs in
  let depsilon_dzs := depsilon_dzs in
  let da_alpha_dzs := da_alpha_dzs in
  let da_alpha_dT_dzs := da_alpha_dT_dzs in
  let dV_dzs := dV_dzs in
  let V := (((Z * Rgas) * T) / P) in
  let x0 := V in
  let x2 := delta in
  let x3 := ((x0 + x0) + x2) in
  let x4 := epsilon_ in
  let x5 := ((x2 * x2) - (4 * x4)) in
  let x6 := (/ (sqrt x5)) in
  let x7 := (2 * (re_catanh (x3 * x6))) in
  let x9 := a_alpha in
  let x8 := x9 in
  let x10 := ((T * da_alpha_dT) - x8) in
  let x13 := (x6 * x6) in
  let t0 := (x6 * x7) in
  let t1 := ((x10 * t0) * x13) in
  let t2 := (((2 * x10) * x13) / (((x13 * x3) * x3) - 1)) in
  let x3_x13 := (x3 * x13) in
  let dH_dzs := (fun _ => 0) in
  let dH_dzs :=
    loop N_ (fun i dH_dzs =>
      let x1 := (dV_dzs i) in
      let x11 := (ddelta_dzs i) in
      let x12 := ((x11 * x2) - (2 * (depsilon_dzs i))) in
      let value := ((((P * x1) - (x12 * t1)) + (t2 * ((((x12 * x3_x13) - x1) - x1) - x11))) + (t0 * ((T * (da_alpha_dT_dzs i)) - (da_alpha_dzs i)))) in
      let dH_dzs := upd dH_dzs i value in
      dH_dzs
    ) dH_dzs in
  dH_dzs.

(* thermo/eos_mix.py, lines 4676-4751: GCEOSMIX._d2_A_dep_d2_helper. *)
Definition GCEOSMIX_d2_A_dep_d2_helper (V : R) (d_Vs : nat -> R) (d2Vs : nat -> nat -> R) (dbs : nat -> R) (d2bs : nat -> nat -> R) (d_epsilons : nat -> R) (d2_epsilons : nat -> nat -> R) (d_deltas : nat -> R) (d2_deltas : nat -> nat -> R) (da_alphas : nat -> R) (d2a_alphas : nat -> nat -> R) (T : R) (P : R) (b : R) (N_ : nat) (delta : R) (epsilon_ : R) (a_alpha : R) : nat -> nat -> R :=
  let T := T in
  let P := P in
  let b := b in
  let N_ := N_ in
  let RT := (T * Rgas) in
  let hess := (fun u_ => (fun _ => 0)) in
  let hess :=
    loop N_ (fun i hess =>
      let hess :=
        loop N_ (fun j hess =>
          let x0 := V in
          let x3 := b in
          let x4 := (x0 - x3) in
          let x5 := (d2Vs i j) in
          let x6 := (Rgas * T) in
          let x7 := (d_Vs i) in
          let x8 := (d_Vs j) in
          let x9 := delta in
          let x10 := epsilon_ in
          let x11 := (((-4) * x10) + (x9 ^ 2)) in
          let x12 := (1 / (sqrt x11)) in
          let x13 := a_alpha in
          let x14 := (2 * x0) in
          let x15 := (x14 + x9) in
          let x16 := (re_catanh (x12 * x15)) in
          let x17 := (2 * x16) in
          let x18 := (d_deltas i) in
          let x19 := ((x18 * x9) - (2 * (d_epsilons i))) in
          let x20 := (da_alphas j) in
          let x21 := (x17 / (Rpower x11 (3 / 2))) in
          let x22 := (d_deltas j) in
          let x23 := ((x22 * x9) - (2 * (d_epsilons j))) in
          let x24 := (da_alphas i) in
          let x25 := (d2_deltas i j) in
          let x26 := (((x18 * x22) + (x25 * x9)) - (2 * (d2_epsilons i j))) in
          let x27 := (x13 * x23) in
          let x28 := (2 * x7) in
          let x29 := (1 / x11) in
          let x30 := (x29 * x9) in
          let x31 := (x19 * x29) in
          let x32 := ((((x14 * x31) - x18) + (x19 * x30)) - x28) in
          let x33 := (((x15 ^ 2) * x29) - 1) in
          let x34 := (2 / x33) in
          let x35 := (x29 * x34) in
          let x36 := (2 * x8) in
          let x37 := (x23 * x29) in
          let x38 := ((((x14 * x37) - x22) + (x23 * x30)) - x36) in
          let x39 := (/ (x11 ^ 2)) in
          let x40 := (x19 * x39) in
          let x41 := (x13 * x38) in
          let x42 := (x32 * x39) in
          let x43 := (x23 * x40) in
          let v := (((((((((((((((- x12) * x17) * (d2a_alphas i j)) + ((x13 * x21) * x26)) - ((x13 * x35) * ((((((((((((-6) * x0) * x43) + ((x14 * x26) * x29)) + (x18 * x37)) + (x22 * x31)) - x25) + (x26 * x30)) + (x28 * x37)) + (x31 * x36)) - ((3 * x43) * x9)) - (2 * x5)))) - ((((4 * x15) * x41) * x42) / (x33 ^ 2))) + ((x19 * x20) * x21)) - ((x20 * x32) * x35)) + ((x21 * x23) * x24)) - ((x24 * x35) * x38)) + ((x27 * x34) * x42)) + ((x34 * x40) * x41)) - ((x6 * (x5 - (d2bs i j))) / x4)) + (((x6 * (x7 - (dbs i))) * (x8 - (dbs j))) / (x4 ^ 2))) - ((((6 * x16) * x19) * x27) / (Rpower x11 (5 / 2)))) in
          let hess := updm hess i j v in
          hess
        ) hess in
      hess
    ) hess in
  hess.

(* thermo/eos_mix.py, lines 4775-4845: GCEOSMIX.dA_dep_dns_Vt. *)
Definition GCEOSMIX_dA_dep_dns_Vt (phase : R) (V : R) (T : R) (N_ : nat) (b : R) (a_alpha : R) (epsilon_ : R) (depsilon_dns : nat -> R) (ddelta_dns : nat -> R) (db_dns : nat -> R) (da_alpha_dns : nat -> R) (dP_dns_Vt : nat -> R) (P : R) (delta : R) : nat -> R :=
  let Vt := V in
  let T := T in
  let N_ := N_ in
  let b := b in
  let a_alpha := a_alpha in
  let epsilon_ := epsilon_ in
  let depsilon_dns := depsilon_dns in
  let ddelta_dns := ddelta_dns in
  let db_dns := db_dns in
  let da_alpha_dns := da_alpha_dns in
  let dP_dns_Vt := dP_dns_Vt in
  let x0 := P in
  let x1 := Vt in
  let x2 := b in
  let x3 := (x1 - x2) in
  let x4 := delta in
  let x5 := (x4 ^ 2) in
  let x6 := epsilon_ in
  let x7 := (4 * x6) in
  let x8 := (x5 - x7) in
  let x9 := (Rpower x8 (7 / 2)) in
  let x10 := (2 * x1) in
  let x11 := (x10 + x4) in
  let x12 := (((x11 ^ 2) - x5) + x7) in
  let x13 := (Vt * x0) in
  let x14 := (x12 * x3) in
  let x15 := ((Rgas * T) * x9) in
  let x16 := (x14 * x15) in
  let x17 := a_alpha in
  let x18 := (x0 * x10) in
  let x19 := (x14 * (re_catanh (x11 * (/ (sqrt x8))))) in
  let jac := (fun _ => 0) in
  let jac :=
    loop N_ (fun i jac =>
      let x20 := (ddelta_dns i) in
      let x21 := ((x20 * x4) - (2 * (depsilon_dns i))) in
      let x22 := (x17 * x18) in
      let v := ((- ((((((((((- x0) * x1) * x12) * x15) * (Vt + (db_dns i))) + (x13 * x16)) - (x16 * (((- x1) * (dP_dns_Vt i)) + x13))) + (((x18 * x19) * (x8 ^ 3)) * (da_alpha_dns i))) - (((x19 * x21) * x22) * (x8 ^ 2))) + (((x22 * x3) * (Rpower x8 (5 / 2))) * ((x11 * x21) + (x8 * ((2 * Vt) - x20)))))) / ((((x0 * x1) * x12) * x3) * x9)) in
      let jac := upd jac i v in
      jac
    ) jac in
  jac.

(* thermo/eos_mix.py, lines 4849-4931: GCEOSMIX.d2A_dep_dninjs_Vt. *)
Definition GCEOSMIX_d2A_dep_dninjs_Vt (phase : R) (V : R) (T : R) (N_ : nat) (b : R) (a_alpha : R) (epsilon_ : R) (depsilon_dns : nat -> R) (ddelta_dns : nat -> R) (db_dns : nat -> R) (da_alpha_dns : nat -> R) (d2delta_dninjs : nat -> nat -> R) (d2epsilon_dninjs : nat -> nat -> R) (d2b_dninjs : nat -> nat -> R) (d2a_alpha_dninjs : nat -> nat -> R) (dP_dns_Vt : nat -> R) (d2P_dninjs_Vt : nat -> nat -> R) (P : R) (delta : R) : nat -> nat -> R :=
  let Vt := V in
  let T := T in
  let N_ := N_ in
  let b := b in
  let a_alpha := a_alpha in
  let epsilon_ := epsilon_ in
  let depsilon_dns := depsilon_dns in
  let ddelta_dns := ddelta_dns in
  let db_dns := db_dns in
  let da_alpha_dns := da_alpha_dns in
  let d2delta_dninjs := d2delta_dninjs in
  let d2epsilon_dninjs := d2epsilon_dninjs in
  let d2bs := d2b_dninjs in
  let d2a_alpha_dninjs := d2a_alpha_dninjs in
  let dP_dns_Vt := dP_dns_Vt in
  let d2P_dninjs_Vt := d2P_dninjs_Vt in
  let hess := (fun i => (fun _ => 0)) in
  let hess :=
    loop N_ (fun i hess =>
      let hess :=
        loop (i + 1%nat)%nat (fun j hess =>
          let x0 := P in
          let x1 := (x0 ^ 2) in
          let x2 := Vt in
          let x3 := (x2 ^ 2) in
          let x4 := b in
          let x5 := (x2 - x4) in
          let x6 := (x5 ^ 2) in
          let x7 := delta in
          let x8 := (x7 ^ 2) in
          let x9 := epsilon_ in
          let x10 := (4 * x9) in
          let x11 := ((- x10) + x8) in
          let x12 := (Rpower x11 (25 / 2)) in
          let x13 := (2 * x2) in
          let x14 := (x13 + x7) in
          let x15 := ((x10 + (x14 ^ 2)) - x8) in
          let x16 := (x15 ^ 2) in
          let x17 := (x1 * x6) in
          let x18 := (((Rgas * T) * x12) * x16) in
          let x19 := (x17 * x18) in
          let x20 := ((x1 * x18) * x3) in
          let x21 := (Vt * x0) in
          let x22 := (dP_dns_Vt i) in
          let x23 := (((- x2) * x22) + x21) in
          let x24 := (2 * Vt) in
          let x25 := (dP_dns_Vt j) in
          let x26 := ((x18 * x2) * x6) in
          let x27 := a_alpha in
          let x28 := (x17 * x3) in
          let x29 := (2 * x28) in
          let x30 := (x16 * (re_catanh (x14 / (sqrt x11)))) in
          let x31 := (x29 * x30) in
          let x32 := (ddelta_dns i) in
          let x33 := ((x32 * x7) - (2 * (depsilon_dns i))) in
          let x34 := (ddelta_dns j) in
          let x35 := ((x34 * x7) - (2 * (depsilon_dns j))) in
          let x36 := (x33 * x35) in
          let x37 := (da_alpha_dns j) in
          let x38 := (da_alpha_dns i) in
          let x39 := (d2delta_dninjs i j) in
          let x40 := (((x32 * x34) + (x39 * x7)) - (2 * (d2epsilon_dninjs i j))) in
          let x41 := (((x11 * (x24 - x32)) + (x13 * x33)) + (x33 * x7)) in
          let x42 := (((x11 * (x24 - x34)) + (x13 * x35)) + (x35 * x7)) in
          let x43 := ((Rpower x11 (21 / 2)) * x27) in
          let x44 := (x15 * x29) in
          let x45 := (x43 * x44) in
          let v := ((- (((((((((((((((Vt ^ 2) * x19) - ((Vt * x13) * x19)) + ((x0 * x26) * (((((- Vt) * x22) - (Vt * x25)) + (x0 * x24)) + (x2 * (d2P_dninjs_Vt i j))))) + (((Rpower x11 (23 / 2)) * x44) * ((x37 * x41) + (x38 * x42)))) + (((x11 ^ 12) * x31) * (d2a_alpha_dninjs i j))) - (((x11 ^ 11) * x31) * (((x27 * x40) + (x33 * x37)) + (x35 * x38)))) + (((((6 * (x11 ^ 10)) * x27) * x28) * x30) * x36)) + (((((4 * x14) * x28) * x41) * x42) * x43)) - (((x18 * x21) * x23) * x6)) + ((x20 * x5) * (x24 - (d2bs i j)))) - ((x20 * (Vt + (db_dns i))) * (Vt + (db_dns j)))) + ((x23 * x25) * x26)) - (x45 * ((x33 * x42) + (x35 * x41)))) - (x45 * ((((x11 ^ 2) * ((4 * Vt) + x39)) - (x11 * ((((((x13 * x40) - (x24 * x33)) - (x24 * x35)) + (x32 * x35)) + (x33 * x34)) + (x40 * x7)))) + ((3 * x14) * x36))))) / ((((x1 * x12) * x16) * x3) * x6)) in
          let hess := updm hess j i v in
          let hess := updm hess i j v in
          hess
        ) hess in
      hess
    ) hess in
  hess.

(* thermo/eos_mix.py, lines 4976-4991: GCEOSMIX.dScomp_dns. *)
Definition GCEOSMIX_dScomp_dns (phase : R) (dP_dns_Vt : nat -> R) (T : R) (zs : nat -> R) (N_ : nat) (P : R) : nat -> R :=
  let dP_dns_Vt := dP_dns_Vt in
  let mRT := ((- Rgas) * T) in
  let zs := zs in
  let N_ := N_ in
  let logzs := (fun k0_ => let zi := zs k0_ in (ln zi)) in
  let tot := 0 in
  let tot :=
    loop N_ (fun i tot =>
      let tot := (tot + ((zs i) * (logzs i))) in
      tot
    ) tot in
  let const := ((Rgas * T) / P) in
  let out := (fun _ => 0) in
  let out :=
    loop N_ (fun i out =>
      let out := upd out i ((mRT * (tot - (logzs i))) + (const * (dP_dns_Vt i))) in
      out
    ) out in
  out.

(* thermo/eos_mix.py, lines 4993-5030: GCEOSMIX.d2Scomp_dninjs. *)
Definition GCEOSMIX_d2Scomp_dninjs (phase : R) (dP_dns_Vt : nat -> R) (d2P_dninjs_Vt : nat -> nat -> R) (P : R) (T : R) (zs : nat -> R) (N_ : nat) : nat -> nat -> R :=
  let dP_dns_Vt := dP_dns_Vt in
  let d2P_dninjs_Vt := d2P_dninjs_Vt in
  let P := P in
  let RT := (Rgas * T) in
  let const := (RT / P) in
  let zs := zs in
  let N_ := N_ in
  let logzs := (fun k0_ => let zi := zs k0_ in (ln zi)) in
  let hess := (fun u_ => (fun _ => 0)) in
  let hess :=
    loop N_ (fun i hess =>
      let hess :=
        loop N_ (fun j hess =>
          let t := (rsum N_ (fun i => (((2 * (zs i)) * (logzs i)) + (3 * (zs i))))) in
          let v :=
            if (negb (i =? j)%nat) then
            let v := (RT * (((t - (logzs i)) - (logzs j)) - 4)) in
            v
            else
            let v := (RT * (((t - (2 * (logzs i))) - 3) - (((zs i) - 1) / (zs i)))) in
            v
          in
          let v := (v + (const * ((d2P_dninjs_Vt i j) - (((dP_dns_Vt i) * (dP_dns_Vt j)) / P)))) in
          let hess := updm hess i j v in
          hess
        ) hess in
      hess
    ) hess in
  hess.
