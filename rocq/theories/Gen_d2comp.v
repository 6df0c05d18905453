(* Mixture equations of state: second derivatives of the volume and of the Gibbs departure energy with composition (thermo/eos_mix.py)
   Generated by tools/py2v.py from the text of /repo; do not edit by hand. *)
From Coq Require Import Reals Lra Lia Arith Bool.
From Verif Require Import Base.
Open Scope R_scope.
Open Scope bool_scope.
From Verif Require Import Gen_mix.

(* thermo/eos_mix.py, lines 3364-3435: GCEOSMIX._d2V_dij_wrapper. *)
Definition GCEOSMIX_d2V_dij_wrapper (V : R) (d_Vs : nat -> R) (dbs : nat -> R) (d2bs : nat -> nat -> R) (d_epsilons : nat -> R) (d2_epsilons : nat -> nat -> R) (d_deltas : nat -> R) (d2_deltas : nat -> nat -> R) (da_alphas : nat -> R) (d2a_alphas : nat -> nat -> R) (T : R) (b : R) (epsilon_ : R) (delta : R) (a_alpha : R) (N_ : nat) : nat -> nat -> R :=
  let T := T in
  let x0 := V in
  let x3 := b in
  let x4 := (x0 - x3) in
  let x5 := epsilon_ in
  let x6 := (x0 * x0) in
  let x7 := delta in
  let x8 := (x0 * x7) in
  let x9 := ((x5 + x6) + x8) in
  let x10 := a_alpha in
  let x11 := ((x10 * x4) * x4) in
  let x12 := (x0 + x0) in
  let x13 := (x9 * x9) in
  let x14 := (Rgas * T) in
  let x17 := ((x4 * x4) * x4) in
  let x18 := (x10 * x17) in
  let x19 := (2 * x18) in
  let x22 := (4 * x18) in
  let x27 := (x12 * x18) in
  let x33 := ((x14 * x13) * x9) in
  let x34 := (x33 + x33) in
  let x37 := (x19 * x8) in
  let x38 := (x17 * x9) in
  let x39 := (x10 * x38) in
  let N_ := N_ in
  let hessian := (fun u_ => (fun _ => 0)) in
  let hessian :=
    loop N_ (fun i hessian =>
      let hessian :=
        loop N_ (fun j hessian =>
          let x15 := (d_epsilons i) in
          let x16 := (d_epsilons j) in
          let x20 := (x16 * x19) in
          let x21 := (d_Vs i) in
          let x24 := (d_Vs j) in
          let x23 := (x21 * x22) in
          let x25 := (x15 * x24) in
          let x26 := (d_deltas i) in
          let x28 := (d_deltas j) in
          let x29 := (x21 * x24) in
          let x30 := ((8 * x18) * x29) in
          let x31 := (x28 * x6) in
          let x32 := (x24 * x26) in
          let x35 := (x34 * (dbs j)) in
          let x36 := (dbs i) in
          let x40 := (x38 * (da_alphas i)) in
          let x41 := (x38 * (da_alphas j)) in
          let x42 := (x21 * x41) in
          let x43 := (x24 * x40) in
          let x44 := (x21 * x39) in
          let d1 := (d2_deltas i j) in
          let d2 := (d2a_alphas i j) in
          let d3 := (d2bs i j) in
          let d4 := (d2_epsilons i j) in
          let v := ((((((((((((((((((((((((((((((((((((x0 * x16) * x23) + ((x0 * x22) * x25)) - ((x0 * x26) * x41)) - ((x0 * x28) * x40)) - ((x0 * x39) * d1)) - (x12 * x42)) - (x12 * x43)) + ((x13 * x17) * d2)) + (x15 * x20)) + ((x15 * x27) * x28)) - (x15 * x41)) + ((x16 * x26) * x27)) - (x16 * x40)) + ((x19 * x25) * x7)) + ((x19 * x26) * x31)) + ((x19 * x29) * (x7 ^ 2))) + ((x20 * x21) * x7)) + ((x21 * x28) * x37)) + (x21 * x35)) + ((x22 * x32) * x6)) + (x23 * x31)) + ((x24 * x34) * x36)) - ((2 * x24) * x44)) - (x28 * x44)) - (x29 * x34)) + (x30 * x6)) + (x30 * x8)) + (x32 * x37)) - (x32 * x39)) - ((x33 * x4) * d3)) - (x35 * x36)) - (x39 * d4)) - (x42 * x7)) - (x43 * x7)) / ((x4 * x9) * (((x11 * x12) + (x11 * x7)) - (x13 * x14)))) in
          let hessian := updm hessian i j v in
          hessian
        ) hessian in
      hessian
    ) hessian in
  hessian.

(* thermo/eos_mix.py, lines 4277-4343: GCEOSMIX._d2_G_dep_lnphi_d2_helper. *)
Definition GCEOSMIX_d2_G_dep_lnphi_d2_helper (V : R) (d_Vs : nat -> R) (d2Vs : nat -> nat -> R) (dbs : nat -> R) (d2bs : nat -> nat -> R) (d_epsilons : nat -> R) (d2_epsilons : nat -> nat -> R) (d_deltas : nat -> R) (d2_deltas : nat -> nat -> R) (da_alphas : nat -> R) (d2a_alphas : nat -> nat -> R) (G : bool) (T : R) (P : R) (N_ : nat) (b : R) (delta : R) (epsilon_ : R) (a_alpha : R) : nat -> nat -> R :=
  let T := T in
  let P := P in
  let N_ := N_ in
  let RT := (T * Rgas) in
  let RT_inv := (1 / RT) in
  let hess := (fun u_ => (fun _ => 0)) in
  let hess :=
    loop N_ (fun i hess =>
      let hess :=
        loop N_ (fun j hess =>
          let x0 := V in
          let x3 := (d2Vs i j) in
          let x4 := b in
          let x5 := (x0 - x4) in
          let x6 := (Rgas * T) in
          let x7 := (d_Vs i) in
          let x8 := (d_Vs j) in
          let x9 := delta in
          let x10 := epsilon_ in
          let x11 := (((-4) * x10) + (x9 ^ 2)) in
          let x11 :=
            if (Reqb x11 0) then
            let x11 := (1 / 10000000000000000000000000000000000000000000000000000000000000000000000000000000000000000000000000000) in
            x11
            else
            x11
          in
          let x12 := (1 / (sqrt x11)) in
          let x13 := a_alpha in
          let x14 := (2 * x0) in
          let x15 := (x14 + x9) in
          let x16 := (re_catanh (x12 * x15)) in
          let x17 := (2 * x16) in
          let x18 := (d_deltas i) in
          let x19 := ((x18 * x9) - (2 * (d_epsilons i))) in
          let x20 := (da_alphas j) in
          let x21 := (x17 / (Rpower x11 (3 / 2))) in
          let x22 := (d_deltas j) in
          let x23 := ((x22 * x9) - (2 * (d_epsilons j))) in
          let x24 := (da_alphas i) in
          let x25 := (d2_deltas i j) in
          let x26 := (((x18 * x22) + (x25 * x9)) - (2 * (d2_epsilons i j))) in
          let x27 := (x13 * x23) in
          let x28 := (2 * x7) in
          let x29 := (1 / x11) in
          let x30 := (x29 * x9) in
          let x31 := (x19 * x29) in
          let x32 := ((((x14 * x31) - x18) + (x19 * x30)) - x28) in
          let x33 := (((x15 ^ 2) * x29) - 1) in
          let x34 := (2 / x33) in
          let x35 := (x29 * x34) in
          let x36 := (2 * x8) in
          let x37 := (x23 * x29) in
          let x38 := ((((x14 * x37) - x22) + (x23 * x30)) - x36) in
          let x39 := (/ (x11 ^ 2)) in
          let x40 := (x19 * x39) in
          let x41 := (x13 * x38) in
          let x42 := (x32 * x39) in
          let x43 := (x23 * x40) in
          let v := ((((((((((((((P * x3) - ((x12 * x17) * (d2a_alphas i j))) + ((x13 * x21) * x26)) - ((x13 * x35) * ((((((((((((-6) * x0) * x43) + ((x14 * x26) * x29)) + (x18 * x37)) + (x22 * x31)) - x25) + (x26 * x30)) + (x28 * x37)) - (2 * x3)) + (x31 * x36)) - ((3 * x43) * x9)))) - ((((4 * x15) * x41) * x42) / (x33 ^ 2))) + ((x19 * x20) * x21)) - ((x20 * x32) * x35)) + ((x21 * x23) * x24)) - ((x24 * x35) * x38)) + ((x27 * x34) * x42)) + ((x34 * x40) * x41)) - ((x6 * (x3 - (d2bs i j))) / x5)) + (((x6 * (x7 - (dbs i))) * (x8 - (dbs j))) / (x5 ^ 2))) - ((((6 * x16) * x19) * x27) / (Rpower x11 (5 / 2)))) in
          let v :=
            if (negb G) then
            let v := (v * RT_inv) in
            v
            else
            v
          in
          let hess := updm hess i j v in
          hess
        ) hess in
      hess
    ) hess in
  hess.

(* thermo/eos_mix.py, lines 4619-4629: GCEOSMIX.dfugacities_dns. (from line 4619 on: the fugacity coefficients of the phase and their derivatives are arguments) *)
Definition GCEOSMIX_dfugacities_dns (phase : R) (P : R) (N_ : nat) (phis : nat -> R) (zs : nat -> R) (dlnphis_dns : nat -> nat -> R) : nat -> nat -> R :=
  let P := P in
  let N_ := N_ in
  let matrix := (fun i => (fun _ => 0)) in
  let matrix :=
    loop N_ (fun i matrix =>
      let phi_P := (P * (phis i)) in
      let ziPphi := (phi_P * (zs i)) in
      let r := (dlnphis_dns i) in
      let matrix :=
        loop N_ (fun j matrix =>
          let matrix := updm matrix i j (ziPphi * ((dlnphis_dns j i) - 1)) in
          matrix
        ) matrix in
      let matrix := updm matrix i i ((matrix i i) + phi_P) in
      matrix
    ) matrix in
  matrix.
