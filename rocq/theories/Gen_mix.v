(* Mixing rules (thermo/eos_mix_methods.py)
   Generated by tools/py2v.py from the text of /repo; do not edit by hand. *)
From Coq Require Import Reals Lra Lia Arith Bool.
From Verif Require Import Base.
Open Scope R_scope.
Open Scope bool_scope.

(* thermo/eos_mix_methods.py, lines 116-197: a_alpha_aijs_composition_independent. (the three buffers are parameters; None means all-zero buffers; the division raises exactly when term = 0) *)
Definition a_alpha_aijs_composition_independent (a_alphas : nat -> R) (one_minus_kijs : nat -> nat -> R) (a_alpha_ijs : nat -> nat -> R) (a_alpha_roots : nat -> R) (a_alpha_ij_roots_inv : nat -> nat -> R) (N_ : nat) :=
  let N_ := N_ in
  let a_alpha_roots :=
    loop N_ (fun i a_alpha_roots =>
      let a_alpha_roots := upd a_alpha_roots i (sqrt (a_alphas i)) in
      a_alpha_roots
    ) a_alpha_roots in
  let '(a_alpha_ij_roots_inv, a_alpha_ijs) :=
    loop N_ (fun i st_ =>
      let '(a_alpha_ij_roots_inv, a_alpha_ijs) := st_ in
      let one_minus_kijs_i := (one_minus_kijs i) in
      let a_alpha_i_root_i := (a_alpha_roots i) in
      let '(a_alpha_ij_roots_inv, a_alpha_ijs) :=
        loop (N_ - i)%nat (fun k_j st_ =>
          let '(a_alpha_ij_roots_inv, a_alpha_ijs) := st_ in
          let j := (i + k_j)%nat in
          let term := (a_alpha_i_root_i * (a_alpha_roots j)) in
          let a_alpha_ij_roots_inv :=
            if (Reqb term 0) then
            let a_alpha_ij_roots_inv := updm a_alpha_ij_roots_inv i j 10000000000000000000000000000000000000000000000000000000000000000000000000000000000000000000000000000 in
            a_alpha_ij_roots_inv
            else
            let a_alpha_ij_roots_inv := updm a_alpha_ij_roots_inv j i (1 / term) in
            let a_alpha_ij_roots_inv := updm a_alpha_ij_roots_inv i j (1 / term) in
            a_alpha_ij_roots_inv
          in
          let a_alpha_ijs := updm a_alpha_ijs j i ((one_minus_kijs_i j) * term) in
          let a_alpha_ijs := updm a_alpha_ijs i j ((one_minus_kijs_i j) * term) in
          (a_alpha_ij_roots_inv, a_alpha_ijs)
        ) (a_alpha_ij_roots_inv, a_alpha_ijs) in
      (a_alpha_ij_roots_inv, a_alpha_ijs)
    ) (a_alpha_ij_roots_inv, a_alpha_ijs) in
  (a_alpha_ijs, a_alpha_roots, a_alpha_ij_roots_inv).

(* thermo/eos_mix_methods.py, lines 202-221: a_alpha_and_derivatives. (with the precomputed matrices given; the second component of the result is None) *)
Definition a_alpha_and_derivatives (a_alphas : nat -> R) (T : R) (zs : nat -> R) (one_minus_kijs : nat -> nat -> R) (a_alpha_ijs : nat -> nat -> R) (a_alpha_roots : nat -> R) (a_alpha_ij_roots_inv : nat -> nat -> R) (N_ : nat) :=
  let N_ := N_ in
  let da_alpha_dT := 0 in
  let d2a_alpha_dT2 := 0 in
  let a_alpha := 0 in
  let a_alpha :=
    loop N_ (fun i a_alpha =>
      let a_alpha_ijs_i := (a_alpha_ijs i) in
      let zi := (zs i) in
      let a_alpha :=
        if (Rltb 0 zi) then
        let a_alpha :=
          loop (N_ - (i + 1%nat)%nat)%nat (fun k_j a_alpha =>
            let j := ((i + 1%nat)%nat + k_j)%nat in
            let term := (((a_alpha_ijs_i j) * zi) * (zs j)) in
            let a_alpha := (a_alpha + (term + term)) in
            a_alpha
          ) a_alpha in
        let a_alpha := (a_alpha + (((a_alpha_ijs_i i) * zi) * zi)) in
        a_alpha
        else
        a_alpha
      in
      a_alpha
    ) a_alpha in
  (a_alpha, a_alpha_ijs).

(* thermo/eos_mix_methods.py, lines 224-427: a_alpha_and_derivatives_full. (with the precomputed matrices given) *)
Definition a_alpha_and_derivatives_full (a_alphas : nat -> R) (da_alpha_dTs : nat -> R) (d2a_alpha_dT2s : nat -> R) (T : R) (zs : nat -> R) (one_minus_kijs : nat -> nat -> R) (a_alpha_ijs : nat -> nat -> R) (a_alpha_roots : nat -> R) (a_alpha_ij_roots_inv : nat -> nat -> R) (N_ : nat) :=
  let N_ := N_ in
  let da_alpha_dT := 0 in
  let d2a_alpha_dT2 := 0 in
  let z_products := (fun i => (fun j => ((zs i) * (zs j)))) in
  let a_alpha := 0 in
  let a_alpha :=
    loop N_ (fun i a_alpha =>
      let a_alpha_ijs_i := (a_alpha_ijs i) in
      let z_products_i := (z_products i) in
      let a_alpha :=
        loop i (fun j a_alpha =>
          let term := ((a_alpha_ijs_i j) * (z_products_i j)) in
          let a_alpha := (a_alpha + (term + term)) in
          a_alpha
        ) a_alpha in
      let a_alpha := (a_alpha + ((a_alpha_ijs_i i) * (z_products_i i))) in
      a_alpha
    ) a_alpha in
  let da_alpha_dT_ijs := (fun u_ => (fun _ => 0)) in
  let d2a_alpha_dT2_ijs := (fun u_ => (fun _ => 0)) in
  let d2a_alpha_dT2_ij := 0 in
  let '(da_alpha_dT_ijs, d2a_alpha_dT2_ij, d2a_alpha_dT2_ijs, da_alpha_dT, d2a_alpha_dT2) :=
    loop N_ (fun i st_ =>
      let '(da_alpha_dT_ijs, d2a_alpha_dT2_ij, d2a_alpha_dT2_ijs, da_alpha_dT, d2a_alpha_dT2) := st_ in
      let one_minus_kijs_i := (one_minus_kijs i) in
      let a_alphai := (a_alphas i) in
      let z_products_i := (z_products i) in
      let da_alpha_dT_i := (da_alpha_dTs i) in
      let d2a_alpha_dT2_i := (d2a_alpha_dT2s i) in
      let a_alpha_ij_roots_inv_i := (a_alpha_ij_roots_inv i) in
      if (Rltb 0 (zs i)) then
        let '(da_alpha_dT_ijs, d2a_alpha_dT2_ij, d2a_alpha_dT2_ijs, da_alpha_dT, d2a_alpha_dT2) :=
          loop N_ (fun j st_ =>
            let '(da_alpha_dT_ijs, d2a_alpha_dT2_ij, d2a_alpha_dT2_ijs, da_alpha_dT, d2a_alpha_dT2) := st_ in
            if (j <? i)%nat then
            (da_alpha_dT_ijs, d2a_alpha_dT2_ij, d2a_alpha_dT2_ijs, da_alpha_dT, d2a_alpha_dT2)
            else
              let a_alphaj := (a_alphas j) in
              let x0_05_inv := (a_alpha_ij_roots_inv_i j) in
              let zi_zj := (z_products_i j) in
              let da_alpha_dT_j := (da_alpha_dTs j) in
              let x1 := (a_alphai * da_alpha_dT_j) in
              let x2 := (a_alphaj * da_alpha_dT_i) in
              let x1_x2 := (x1 + x2) in
              let x3 := (x1_x2 + x1_x2) in
              let kij_m1 := (- (one_minus_kijs_i j)) in
              let da_alpha_dT_ij := ((((- (1 / 2)) * kij_m1) * x1_x2) * x0_05_inv) in
              let da_alpha_dT_ijs := updm da_alpha_dT_ijs j i da_alpha_dT_ij in
              let da_alpha_dT_ijs := updm da_alpha_dT_ijs i j da_alpha_dT_ij in
              let da_alpha_dT_ij := (da_alpha_dT_ij * zi_zj) in
              let x0 := (a_alphai * a_alphaj) in
              let d2a_alpha_dT2_ij := (kij_m1 * (((x0 * (((- (1 / 2)) * ((a_alphai * (d2a_alpha_dT2s j)) + (a_alphaj * d2a_alpha_dT2_i))) - (da_alpha_dT_i * da_alpha_dT_j))) + (((1 / 4) * x1_x2) * x1_x2)) / ((x0_05_inv * x0) * x0))) in
              let d2a_alpha_dT2_ijs := updm d2a_alpha_dT2_ijs j i d2a_alpha_dT2_ij in
              let d2a_alpha_dT2_ijs := updm d2a_alpha_dT2_ijs i j d2a_alpha_dT2_ij in
              let d2a_alpha_dT2_ij := (d2a_alpha_dT2_ij * zi_zj) in
              let '(da_alpha_dT, d2a_alpha_dT2) :=
                if (negb (i =? j)%nat) then
                let da_alpha_dT := (da_alpha_dT + (da_alpha_dT_ij + da_alpha_dT_ij)) in
                let d2a_alpha_dT2 := (d2a_alpha_dT2 + (d2a_alpha_dT2_ij + d2a_alpha_dT2_ij)) in
                (da_alpha_dT, d2a_alpha_dT2)
                else
                let da_alpha_dT := (da_alpha_dT + da_alpha_dT_ij) in
                let d2a_alpha_dT2 := (d2a_alpha_dT2 + d2a_alpha_dT2_ij) in
                (da_alpha_dT, d2a_alpha_dT2)
              in
            (da_alpha_dT_ijs, d2a_alpha_dT2_ij, d2a_alpha_dT2_ijs, da_alpha_dT, d2a_alpha_dT2)
          ) (da_alpha_dT_ijs, d2a_alpha_dT2_ij, d2a_alpha_dT2_ijs, da_alpha_dT, d2a_alpha_dT2) in
      (da_alpha_dT_ijs, d2a_alpha_dT2_ij, d2a_alpha_dT2_ijs, da_alpha_dT, d2a_alpha_dT2)
      else
      (da_alpha_dT_ijs, d2a_alpha_dT2_ij, d2a_alpha_dT2_ijs, da_alpha_dT, d2a_alpha_dT2)
    ) (da_alpha_dT_ijs, d2a_alpha_dT2_ij, d2a_alpha_dT2_ijs, da_alpha_dT, d2a_alpha_dT2) in
  (a_alpha, da_alpha_dT, d2a_alpha_dT2, a_alpha_ijs, da_alpha_dT_ijs, d2a_alpha_dT2_ijs).

(* thermo/eos_mix_methods.py, lines 490-520: a_alpha_quadratic_terms. (while loops with a counter written as for loops) *)
Definition a_alpha_quadratic_terms (a_alphas : nat -> R) (a_alpha_roots : nat -> R) (T : R) (zs : nat -> R) (one_minus_kijs : nat -> nat -> R) (a_alpha_j_rows : nat -> R) (vec0 : nat -> R) (N_ : nat) :=
  let N_ := N_ in
  let a_alpha_j_rows :=
    loop N_ (fun i a_alpha_j_rows =>
      let a_alpha_j_rows := upd a_alpha_j_rows i 0 in
      a_alpha_j_rows
    ) a_alpha_j_rows in
  let vec0 :=
    loop N_ (fun i vec0 =>
      let vec0 := upd vec0 i ((a_alpha_roots i) * (zs i)) in
      vec0
    ) vec0 in
  let a_alpha := 0 in
  let a_alpha_j_rows :=
    loop N_ (fun i a_alpha_j_rows =>
      let one_minus_kijs_i := (one_minus_kijs i) in
      let a_alpha_j_rows :=
        loop i (fun j a_alpha_j_rows =>
          let a_alpha_j_rows := upd a_alpha_j_rows j ((a_alpha_j_rows j) + ((one_minus_kijs_i j) * (vec0 i))) in
          let a_alpha_j_rows := upd a_alpha_j_rows i ((a_alpha_j_rows i) + ((one_minus_kijs_i j) * (vec0 j))) in
          a_alpha_j_rows
        ) a_alpha_j_rows in
      a_alpha_j_rows
    ) a_alpha_j_rows in
  let '(a_alpha_j_rows, a_alpha) :=
    loop N_ (fun i st_ =>
      let '(a_alpha_j_rows, a_alpha) := st_ in
      let a_alpha_j_rows := upd a_alpha_j_rows i ((a_alpha_j_rows i) * (a_alpha_roots i)) in
      let a_alpha_j_rows := upd a_alpha_j_rows i ((a_alpha_j_rows i) + (((one_minus_kijs i i) * (a_alphas i)) * (zs i))) in
      let a_alpha := (a_alpha + ((a_alpha_j_rows i) * (zs i))) in
      (a_alpha_j_rows, a_alpha)
    ) (a_alpha_j_rows, a_alpha) in
  (a_alpha, a_alpha_j_rows).

(* thermo/eos_mix_methods.py, lines 545-739: a_alpha_and_derivatives_quadratic_terms. *)
Definition a_alpha_and_derivatives_quadratic_terms (a_alphas : nat -> R) (a_alpha_roots : nat -> R) (da_alpha_dTs : nat -> R) (d2a_alpha_dT2s : nat -> R) (T : R) (zs : nat -> R) (one_minus_kijs : nat -> nat -> R) (a_alpha_j_rows : nat -> R) (da_alpha_dT_j_rows : nat -> R) (N_ : nat) :=
  let N_ := N_ in
  let d2a_alpha_dT2 := 0 in
  let da_alpha_dT := d2a_alpha_dT2 in
  let a_alpha := da_alpha_dT in
  let '(a_alpha_j_rows, a_alpha, da_alpha_dT_j_rows, da_alpha_dT, d2a_alpha_dT2) :=
    loop N_ (fun i st_ =>
      let '(a_alpha_j_rows, a_alpha, da_alpha_dT_j_rows, da_alpha_dT, d2a_alpha_dT2) := st_ in
      let one_minus_kijs_i := (one_minus_kijs i) in
      let a_alpha_i_root_i := (a_alpha_roots i) in
      let a_alphai := (a_alphas i) in
      let da_alpha_dT_i := (da_alpha_dTs i) in
      let d2a_alpha_dT2_i := (d2a_alpha_dT2s i) in
      let workings2 := 0 in
      let workingd1 := workings2 in
      if ((Reqb a_alphai 0) || (Reqb (zs i) 0)) then
      (a_alpha_j_rows, a_alpha, da_alpha_dT_j_rows, da_alpha_dT, d2a_alpha_dT2)
      else
        let '(a_alpha_j_rows, a_alpha, da_alpha_dT_j_rows, workingd1, workings2) :=
          loop i (fun j st_ =>
            let '(a_alpha_j_rows, a_alpha, da_alpha_dT_j_rows, workingd1, workings2) := st_ in
            let v0 := (a_alpha_i_root_i * (a_alpha_roots j)) in
            let a_alpha_ijs_ij := ((one_minus_kijs_i j) * v0) in
            let t200 := (a_alpha_ijs_ij * (zs i)) in
            let a_alpha_j_rows := upd a_alpha_j_rows j ((a_alpha_j_rows j) + t200) in
            let a_alpha_j_rows := upd a_alpha_j_rows i ((a_alpha_j_rows i) + ((zs j) * a_alpha_ijs_ij)) in
            let t200 := (t200 * (zs j)) in
            let a_alpha := (a_alpha + (t200 + t200)) in
            let a_alphaj := (a_alphas j) in
            if (Reqb a_alphaj 0) then
            (a_alpha_j_rows, a_alpha, da_alpha_dT_j_rows, workingd1, workings2)
            else
              let da_alpha_dT_j := (da_alpha_dTs j) in
              let zi_zj := ((zs i) * (zs j)) in
              let x1 := (a_alphai * da_alpha_dT_j) in
              let x2 := (a_alphaj * da_alpha_dT_i) in
              let x1_x2 := (x1 + x2) in
              let kij_m1 := (- (one_minus_kijs_i j)) in
              let v0_inv := (1 / v0) in
              let v1 := (kij_m1 * v0_inv) in
              let da_alpha_dT_ij := (x1_x2 * v1) in
              let da_alpha_dT_j_rows := upd da_alpha_dT_j_rows j ((da_alpha_dT_j_rows j) + ((zs i) * da_alpha_dT_ij)) in
              let da_alpha_dT_j_rows := upd da_alpha_dT_j_rows i ((da_alpha_dT_j_rows i) + ((zs j) * da_alpha_dT_ij)) in
              let da_alpha_dT_ij := (da_alpha_dT_ij * zi_zj) in
              let x0 := (a_alphai * a_alphaj) in
              let d2a_alpha_dT2_ij := (((v0_inv * v0_inv) * v1) * ((x0 * (((- (1 / 2)) * ((a_alphai * (d2a_alpha_dT2s j)) + (a_alphaj * d2a_alpha_dT2_i))) - (da_alpha_dT_i * da_alpha_dT_j))) + (((1 / 4) * x1_x2) * x1_x2))) in
              let d2a_alpha_dT2_ij := (d2a_alpha_dT2_ij * zi_zj) in
              let workingd1 := (workingd1 + da_alpha_dT_ij) in
              let workings2 := (workings2 + d2a_alpha_dT2_ij) in
            (a_alpha_j_rows, a_alpha, da_alpha_dT_j_rows, workingd1, workings2)
          ) (a_alpha_j_rows, a_alpha, da_alpha_dT_j_rows, workingd1, workings2) in
        let t200 := ((a_alphas i) * (zs i)) in
        let a_alpha_j_rows := upd a_alpha_j_rows i ((a_alpha_j_rows i) + t200) in
        let a_alpha := (a_alpha + (t200 * (zs i))) in
        let zi_zj := ((zs i) * (zs i)) in
        let da_alpha_dT_ij := ((- da_alpha_dT_i) - da_alpha_dT_i) in
        let da_alpha_dT_j_rows := upd da_alpha_dT_j_rows i ((da_alpha_dT_j_rows i) + ((zs i) * da_alpha_dT_ij)) in
        let da_alpha_dT_ij := (da_alpha_dT_ij * zi_zj) in
        let da_alpha_dT := (da_alpha_dT - ((1 / 2) * (da_alpha_dT_ij + (workingd1 + workingd1)))) in
        let d2a_alpha_dT2 := (d2a_alpha_dT2 + ((d2a_alpha_dT2_i * zi_zj) + (workings2 + workings2))) in
      (a_alpha_j_rows, a_alpha, da_alpha_dT_j_rows, da_alpha_dT, d2a_alpha_dT2)
    ) (a_alpha_j_rows, a_alpha, da_alpha_dT_j_rows, da_alpha_dT, d2a_alpha_dT2) in
  let da_alpha_dT_j_rows :=
    loop N_ (fun i da_alpha_dT_j_rows =>
      let da_alpha_dT_j_rows := upd da_alpha_dT_j_rows i ((da_alpha_dT_j_rows i) * (- (1 / 2))) in
      da_alpha_dT_j_rows
    ) da_alpha_dT_j_rows in
  (a_alpha, da_alpha_dT, d2a_alpha_dT2, a_alpha_j_rows, da_alpha_dT_j_rows).

(* thermo/eos_mix_methods.py, lines 744-781: eos_mix_dV_dzs. *)
Definition eos_mix_dV_dzs (T : R) (P : R) (Z : R) (b : R) (delta : R) (epsilon_ : R) (a_alpha : R) (db_dzs : nat -> R) (ddelta_dzs : nat -> R) (depsilon_dzs : nat -> R) (da_alpha_dzs : nat -> R) (N_ : nat) (out : nat -> R) :=
  let T := T in
  let RT := (Rgas * T) in
  let V := ((Z * RT) / P) in
  let x0 := delta in
  let a_alpha := a_alpha in
  let x1 := a_alpha in
  let epsilon_ := epsilon_ in
  let x2 := epsilon_ in
  let x0V := (x0 * V) in
  let Vmb := (V - b) in
  let x5 := (Vmb * Vmb) in
  let x1x5 := (x1 * x5) in
  let x0x1x5 := (x0 * x1x5) in
  let t0 := (V * x1x5) in
  let x6 := (x2 * x1x5) in
  let x9 := (V * V) in
  let x7 := (x9 * t0) in
  let x8 := (x2 * t0) in
  let x10 := ((x0V + x2) + x9) in
  let x10x10 := (x10 * x10) in
  let x11 := ((RT * x10) * x10x10) in
  let x13 := (x0x1x5 * x9) in
  let x7x8 := (x7 + x8) in
  let t2 := ((- 1) / ((((((x0V * x0x1x5) + (x0 * x6)) - x11) + (3 * x13)) + x7x8) + x7x8)) in
  let t1 := ((t2 * x10x10) * x5) in
  let t3 := (x0V * x1x5) in
  let t4 := (x1x5 * x9) in
  let t5 := (t2 * ((t3 + t4) + x6)) in
  let t6 := (t2 * (x13 + x7x8)) in
  let x11t2 := (x11 * t2) in
  let out :=
    loop N_ (fun i out =>
      let out := upd out i ((((t5 * (depsilon_dzs i)) - (t1 * (da_alpha_dzs i))) + (x11t2 * (db_dzs i))) + (t6 * (ddelta_dzs i))) in
      out
    ) out in
  out.

(* thermo/eos_mix_methods.py, lines 784-833: G_dep_lnphi_d_helper. *)
Definition G_dep_lnphi_d_helper (T : R) (P : R) (b : R) (delta : R) (epsilon_ : R) (a_alpha : R) (N_ : nat) (Z : R) (dbs : nat -> R) (depsilons : nat -> R) (ddelta : nat -> R) (dVs : nat -> R) (da_alphas : nat -> R) (G : bool) (out : nat -> R) :=
  let RT := (Rgas * T) in
  let V := ((Z * RT) / P) in
  let x0 := V in
  let x2 := (1 / RT) in
  let x6 := ((delta * delta) - (4 * epsilon_)) in
  let x6 :=
    if (Reqb x6 0) then
    let x6 := (1 / 10000000000000000000000000000000000000000000000000000000000000000000000000000000000000000000000000000) in
    x6
    else
    x6
  in
  let x7 := (1 / (sqrt x6)) in
  let x8 := a_alpha in
  let x9 := (x0 + x0) in
  let x10 := (delta + x9) in
  let x11 := (x2 + x2) in
  let x12 := (x11 * (re_catanh (x10 * x7))) in
  let x15 := (x7 * x7) in
  let db_dns := dbs in
  let depsilon_dns := depsilons in
  let ddelta_dns := ddelta in
  let dV_dns := dVs in
  let da_alpha_dns := da_alphas in
  let t1 := (P * x2) in
  let t2 := (((x11 * x15) * x8) / (((x10 * x10) * x15) - 1)) in
  let t3 := (((x12 * x8) * x15) * x7) in
  let t4 := (x12 * x7) in
  let t5 := (1 / (x0 - b)) in
  let t6 := (delta + x9) in
  let '(t1, t2, t3, t4, t5) :=
    if G then
    let t1 := (t1 * RT) in
    let t2 := (t2 * RT) in
    let t3 := (t3 * RT) in
    let t4 := (t4 * RT) in
    let t5 := (t5 * RT) in
    (t1, t2, t3, t4, t5)
    else
    (t1, t2, t3, t4, t5)
  in
  let c0 := ((t1 + (t2 * 2)) - t5) in
  let out :=
    loop N_ (fun i out =>
      let x13 := (ddelta_dns i) in
      let x14 := ((x13 * delta) - (2 * (depsilon_dns i))) in
      let x16 := (x14 * x15) in
      let diff := ((((((dV_dns i) * c0) - (t4 * (da_alpha_dns i))) + (t5 * (db_dns i))) + (t2 * (x13 - (x16 * t6)))) + (x14 * t3)) in
      let out := upd out i diff in
      out
    ) out in
  out.

(* thermo/eos_mix_methods.py, lines 876-881: eos_mix_db_dns. *)
Definition eos_mix_db_dns (b : R) (bs : nat -> R) (N_ : nat) (out : nat -> R) :=
  let out :=
    loop N_ (fun i out =>
      let out := upd out i ((bs i) - b) in
      out
    ) out in
  out.

(* thermo/eos_mix_methods.py, lines 883-889: eos_mix_da_alpha_dns. *)
Definition eos_mix_da_alpha_dns (a_alpha : R) (a_alpha_j_rows : nat -> R) (N_ : nat) (out : nat -> R) :=
  let a_alpha_n_2 := ((- 2) * a_alpha) in
  let out :=
    loop N_ (fun i out =>
      let out := upd out i ((2 * (a_alpha_j_rows i)) + a_alpha_n_2) in
      out
    ) out in
  out.

(* thermo/eos_mix_methods.py, lines 907-912: PR_ddelta_dzs. *)
Definition PR_ddelta_dzs (bs : nat -> R) (N_ : nat) (out : nat -> R) :=
  let out :=
    loop N_ (fun i out =>
      let out := upd out i (2 * (bs i)) in
      out
    ) out in
  out.

(* thermo/eos_mix_methods.py, lines 914-920: PR_ddelta_dns. *)
Definition PR_ddelta_dns (bs : nat -> R) (b : R) (N_ : nat) (out : nat -> R) :=
  let nb2 := ((- 2) * b) in
  let out :=
    loop N_ (fun i out =>
      let out := upd out i ((2 * (bs i)) + nb2) in
      out
    ) out in
  out.

(* thermo/eos_mix_methods.py, lines 922-929: PR_depsilon_dns. *)
Definition PR_depsilon_dns (b : R) (bs : nat -> R) (N_ : nat) (out : nat -> R) :=
  let b2 := (b + b) in
  let b2b := (b2 * b) in
  let out :=
    loop N_ (fun i out =>
      let out := upd out i (b2b - (b2 * (bs i))) in
      out
    ) out in
  out.

(* thermo/eos_mix_methods.py, lines 973-980: PR_depsilon_dzs. *)
Definition PR_depsilon_dzs (b : R) (bs : nat -> R) (N_ : nat) (out : nat -> R) :=
  let b2n := ((- 2) * b) in
  let out :=
    loop N_ (fun i out =>
      let out := upd out i (b2n * (bs i)) in
      out
    ) out in
  out.

(* thermo/eos_mix_methods.py, lines 1030-1035: PR_translated_ddelta_dzs. *)
Definition PR_translated_ddelta_dzs (b0s : nat -> R) (cs : nat -> R) (N_ : nat) (out : nat -> R) :=
  let out :=
    loop N_ (fun i out =>
      let out := upd out i (2 * ((cs i) + (b0s i))) in
      out
    ) out in
  out.

(* thermo/eos_mix_methods.py, lines 1072-1077: PR_translated_ddelta_dns. *)
Definition PR_translated_ddelta_dns (b0s : nat -> R) (cs : nat -> R) (delta : R) (N_ : nat) (out : nat -> R) :=
  let out :=
    loop N_ (fun i out =>
      let out := upd out i ((2 * ((cs i) + (b0s i))) - delta) in
      out
    ) out in
  out.

(* thermo/eos_mix_methods.py, lines 1079-1084: SRK_translated_ddelta_dns. *)
Definition SRK_translated_ddelta_dns (b0s : nat -> R) (cs : nat -> R) (delta : R) (N_ : nat) (out : nat -> R) :=
  let out :=
    loop N_ (fun i out =>
      let out := upd out i (((2 * (cs i)) + (b0s i)) - delta) in
      out
    ) out in
  out.

(* thermo/eos_mix_methods.py, lines 1087-1095: SRK_translated_depsilon_dns. *)
Definition SRK_translated_depsilon_dns (b : R) (c : R) (b0s : nat -> R) (cs : nat -> R) (N_ : nat) (out : nat -> R) :=
  let b0 := (b + c) in
  let x0 := ((((- 2) * b0) * c) - ((2 * c) * c)) in
  let x1 := (b0 + (2 * c)) in
  let out :=
    loop N_ (fun i out =>
      let out := upd out i ((x0 + ((b0s i) * c)) + ((cs i) * x1)) in
      out
    ) out in
  out.

(* thermo/eos_mix_methods.py, lines 1097-1104: SRK_translated_depsilon_dzs. *)
Definition SRK_translated_depsilon_dzs (b0s : nat -> R) (cs : nat -> R) (b : R) (c : R) (N_ : nat) (out : nat -> R) :=
  let b0 := (b + c) in
  let x0 := (b0 + (2 * c)) in
  let out :=
    loop N_ (fun i out =>
      let out := upd out i (((b0s i) * c) + ((cs i) * x0)) in
      out
    ) out in
  out.

(* thermo/eos_mix_methods.py, lines 1195-1204: PR_translated_depsilon_dzs. *)
Definition PR_translated_depsilon_dzs (c : R) (b : R) (b0s : nat -> R) (cs : nat -> R) (N_ : nat) (out : nat -> R) :=
  let b0 := (b + c) in
  let b0_2 := (b0 * 2) in
  let x0 := (b0_2 + (2 * c)) in
  let x1 := ((c * 2) - b0_2) in
  let out :=
    loop N_ (fun i out =>
      let out := upd out i (((cs i) * x0) + (x1 * (b0s i))) in
      out
    ) out in
  out.

(* thermo/eos_mix_methods.py, lines 1206-1215: PR_translated_depsilon_dns. *)
Definition PR_translated_depsilon_dns (b : R) (c : R) (b0s : nat -> R) (cs : nat -> R) (N_ : nat) (out : nat -> R) :=
  let b0 := (b + c) in
  let x0 := ((((2 * b0) * b0) - ((4 * b0) * c)) - ((2 * c) * c)) in
  let x1 := (((- 2) * b0) + (2 * c)) in
  let x2 := ((2 * b0) + (2 * c)) in
  let out :=
    loop N_ (fun i out =>
      let out := upd out i ((x0 + ((b0s i) * x1)) + ((cs i) * x2)) in
      out
    ) out in
  out.

(* thermo/eos_mix_methods.py, lines 931-942: PR_d2delta_dninjs. *)
Definition PR_d2delta_dninjs (b : R) (bs : nat -> R) (N_ : nat) (out : nat -> nat -> R) :=
  let bb := (2 * b) in
  let out :=
    loop N_ (fun i out =>
      let bi := (bs i) in
      let x0 := (2 * (bb - bi)) in
      let out :=
        loop N_ (fun j out =>
          let out := updm out i j (x0 - (2 * (bs j))) in
          out
        ) out in
      out
    ) out in
  out.

(* thermo/eos_mix_methods.py, lines 961-971: PR_d2epsilon_dzizjs. *)
Definition PR_d2epsilon_dzizjs (b : R) (bs : nat -> R) (N_ : nat) (out : nat -> nat -> R) :=
  let out :=
    loop N_ (fun i out =>
      let x0 := ((- 2) * (bs i)) in
      let out :=
        loop N_ (fun j out =>
          let out := updm out i j (x0 * (bs j)) in
          out
        ) out in
      out
    ) out in
  out.

(* thermo/eos_mix_methods.py, lines 984-1001: PR_d2epsilon_dninjs. *)
Definition PR_d2epsilon_dninjs (b : R) (bs : nat -> R) (N_ : nat) (out : nat -> nat -> R) :=
  let bb := (b + b) in
  let b2 := (b * b) in
  let c0 := (((- bb) * bb) - (2 * b2)) in
  let c1 := (2 * (b + ((1 / 2) * bb))) in
  let c2 := ((2 * b) + bb) in
  let out :=
    loop N_ (fun i out =>
      let bi := (bs i) in
      let x0 := (c0 + (c1 * bi)) in
      let x1 := (c2 - (2 * bi)) in
      let out :=
        loop N_ (fun j out =>
          let out := updm out i j (x0 + ((bs j) * x1)) in
          out
        ) out in
      out
    ) out in
  out.

(* thermo/eos_mix_methods.py, lines 1037-1048: PR_translated_d2epsilon_dzizjs. *)
Definition PR_translated_d2epsilon_dzizjs (b0s : nat -> R) (cs : nat -> R) (N_ : nat) (out : nat -> nat -> R) :=
  let out :=
    loop N_ (fun j out =>
      let x1 := (2 * (b0s j)) in
      let x2 := (2 * (cs j)) in
      let out :=
        loop N_ (fun i out =>
          let out := updm out j i ((x1 * ((cs i) - (b0s i))) + (x2 * ((b0s i) + (cs i)))) in
          out
        ) out in
      out
    ) out in
  out.

(* thermo/eos_mix_methods.py, lines 1050-1070: PR_translated_d2epsilon_dninjs. *)
Definition PR_translated_d2epsilon_dninjs (b0s : nat -> R) (cs : nat -> R) (b : R) (c : R) (N_ : nat) (out : nat -> nat -> R) :=
  let b0 := (b + c) in
  let v0 := (((((- 6) * b0) * b0) + ((12 * b0) * c)) + ((6 * c) * c)) in
  let v1 := ((4 * b0) - (4 * c)) in
  let v2 := (((- 4) * b0) - (4 * c)) in
  let out :=
    loop N_ (fun i out =>
      let b0i := (b0s i) in
      let ci := (cs i) in
      let x0 := ((v0 + (b0i * v1)) + (ci * v2)) in
      let x1 := ((v1 - (2 * b0i)) + (2 * ci)) in
      let x2 := ((v2 + (2 * b0i)) + (2 * ci)) in
      let out :=
        loop N_ (fun j out =>
          let out := updm out i j ((x0 + ((b0s j) * x1)) + ((cs j) * x2)) in
          out
        ) out in
      out
    ) out in
  out.

(* thermo/eos_mix_methods.py, lines 1106-1118: SRK_translated_d2epsilon_dzizjs. *)
Definition SRK_translated_d2epsilon_dzizjs (b0s : nat -> R) (cs : nat -> R) (b : R) (c : R) (N_ : nat) (out : nat -> nat -> R) :=
  let b0 := (b + c) in
  let out :=
    loop N_ (fun i out =>
      let x0 := (2 * (cs i)) in
      let b0i := (b0s i) in
      let c0i := (cs i) in
      let out :=
        loop N_ (fun j out =>
          let out := updm out i j (((cs j) * (x0 + b0i)) + ((b0s j) * c0i)) in
          out
        ) out in
      out
    ) out in
  out.

(* thermo/eos_mix_methods.py, lines 1121-1134: SRK_translated_d2delta_dninjs. *)
Definition SRK_translated_d2delta_dninjs (b0s : nat -> R) (cs : nat -> R) (b : R) (c : R) (delta : R) (N_ : nat) (out : nat -> nat -> R) :=
  let b0 := (b + c) in
  let c_4 := (4 * c) in
  let out :=
    loop N_ (fun i out =>
      let t := ((delta - (b0s i)) - (cs i)) in
      let x0 := (((2 * (b0 - (cs i))) + c_4) - (b0s i)) in
      let out :=
        loop N_ (fun j out =>
          let out := updm out i j ((x0 - (b0s j)) - (2 * (cs j))) in
          out
        ) out in
      out
    ) out in
  out.

(* thermo/eos_mix_methods.py, lines 1151-1166: SRK_translated_d2epsilon_dninjs. *)
Definition SRK_translated_d2epsilon_dninjs (b0s : nat -> R) (cs : nat -> R) (b : R) (c : R) (N_ : nat) (out : nat -> nat -> R) :=
  let b0 := (b + c) in
  let out :=
    loop N_ (fun i out =>
      let out :=
        loop N_ (fun j out =>
          let v := ((((((b0 * (((2 * c) - (cs i)) - (cs j))) + (c * (((2 * b0) - (b0s i)) - (b0s j)))) + ((2 * c) * (((2 * c) - (cs i)) - (cs j)))) + ((b0 - (b0s i)) * (c - (cs j)))) + ((b0 - (b0s j)) * (c - (cs i)))) + ((2 * (c - (cs i))) * (c - (cs j)))) in
          let out := updm out i j v in
          out
        ) out in
      out
    ) out in
  out.

(* thermo/eos_mix_methods.py, lines 1217-1228: PR_translated_d2delta_dninjs. *)
Definition PR_translated_d2delta_dninjs (b0s : nat -> R) (cs : nat -> R) (b : R) (c : R) (delta : R) (N_ : nat) (out : nat -> nat -> R) :=
  let b0 := (b + c) in
  let out :=
    loop N_ (fun i out =>
      let t := ((delta - (b0s i)) - (cs i)) in
      let out :=
        loop N_ (fun j out =>
          let out := updm out i j (2 * ((t - (b0s j)) - (cs j))) in
          out
        ) out in
      out
    ) out in
  out.

(* thermo/eos_mix_methods.py, lines 892-905: RK_d3delta_dninjnks. *)
Definition RK_d3delta_dninjnks (b : R) (bs : nat -> R) (N_ : nat) (out : nat -> nat -> nat -> R) :=
  let m6b := ((- 6) * b) in
  let out :=
    loop N_ (fun i out =>
      let bi := (bs i) in
      let out :=
        loop N_ (fun j out =>
          let bj := (bs j) in
          let x0 := (m6b + (2 * (bi + bj))) in
          let out :=
            loop N_ (fun k out =>
              let out := updt out i j k (x0 + (2 * (bs k))) in
              out
            ) out in
          out
        ) out in
      out
    ) out in
  out.

(* thermo/eos_mix_methods.py, lines 945-958: PR_d3delta_dninjnks. *)
Definition PR_d3delta_dninjnks (b : R) (bs : nat -> R) (N_ : nat) (out : nat -> nat -> nat -> R) :=
  let m3b := ((- 3) * b) in
  let out :=
    loop N_ (fun i out =>
      let bi := (bs i) in
      let out :=
        loop N_ (fun j out =>
          let bj := (bs j) in
          let x0 := (4 * ((m3b + bi) + bj)) in
          let out :=
            loop N_ (fun k out =>
              let out := updt out i j k (x0 + (4 * (bs k))) in
              out
            ) out in
          out
        ) out in
      out
    ) out in
  out.

(* thermo/eos_mix_methods.py, lines 1005-1026: PR_d3epsilon_dninjnks. *)
Definition PR_d3epsilon_dninjnks (b : R) (bs : nat -> R) (N_ : nat) (out : nat -> nat -> nat -> R) :=
  let c0 := ((24 * b) * b) in
  let out :=
    loop N_ (fun i out =>
      let bi := (bs i) in
      let c10 := (((- 12) * b) + (4 * bi)) in
      let c11 := (c0 - ((12 * b) * bi)) in
      let c12 := (((- 12) * b) + (4 * bi)) in
      let out :=
        loop N_ (fun j out =>
          let bj := (bs j) in
          let x0 := (c11 + (bj * c12)) in
          let x1 := (c10 + (4 * bj)) in
          let out :=
            loop N_ (fun k out =>
              let bk := (bs k) in
              let term := (x0 + (bk * x1)) in
              let out := updt out i j k term in
              out
            ) out in
          out
        ) out in
      out
    ) out in
  out.

(* thermo/eos_mix_methods.py, lines 1137-1149: SRK_translated_d3delta_dninjnks. *)
Definition SRK_translated_d3delta_dninjnks (b0s : nat -> R) (cs : nat -> R) (b : R) (c : R) (delta : R) (N_ : nat) (out : nat -> nat -> nat -> R) :=
  let b0 := (b + c) in
  let out :=
    loop N_ (fun i out =>
      let out :=
        loop N_ (fun j out =>
          let out :=
            loop N_ (fun k out =>
              let out := updt out i j k (((((- 6) * b0) + (2 * (((b0s i) + (b0s j)) + (b0s k)))) - (12 * c)) + (4 * (((cs i) + (cs j)) + (cs k)))) in
              out
            ) out in
          out
        ) out in
      out
    ) out in
  out.

(* thermo/eos_mix_methods.py, lines 1169-1193: SRK_translated_d3epsilon_dninjnks. *)
Definition SRK_translated_d3epsilon_dninjnks (b0s : nat -> R) (cs : nat -> R) (b : R) (c : R) (epsilon_ : R) (N_ : nat) (out : nat -> nat -> nat -> R) :=
  let b0 := (b + c) in
  let out :=
    loop N_ (fun i out =>
      let out :=
        loop N_ (fun j out =>
          let out :=
            loop N_ (fun k out =>
              let term := ((((((((((((((- 2) * b0) * ((((3 * c) - (cs i)) - (cs j)) - (cs k))) - ((2 * c) * ((((3 * b0) - (b0s i)) - (b0s j)) - (b0s k)))) - ((4 * c) * ((((3 * c) - (cs i)) - (cs j)) - (cs k)))) - ((b0 - (b0s i)) * (((2 * c) - (cs j)) - (cs k)))) - ((b0 - (b0s j)) * (((2 * c) - (cs i)) - (cs k)))) - ((b0 - (b0s k)) * (((2 * c) - (cs i)) - (cs j)))) - ((c - (cs i)) * (((2 * b0) - (b0s j)) - (b0s k)))) - ((c - (cs j)) * (((2 * b0) - (b0s i)) - (b0s k)))) - ((c - (cs k)) * (((2 * b0) - (b0s i)) - (b0s j)))) - ((2 * (c - (cs i))) * (((2 * c) - (cs j)) - (cs k)))) - ((2 * (c - (cs j))) * (((2 * c) - (cs i)) - (cs k)))) - ((2 * (c - (cs k))) * (((2 * c) - (cs i)) - (cs j)))) in
              let out := updt out i j k term in
              out
            ) out in
          out
        ) out in
      out
    ) out in
  out.

(* thermo/eos_mix_methods.py, lines 1231-1245: PR_translated_d3delta_dninjnks. *)
Definition PR_translated_d3delta_dninjnks (b0s : nat -> R) (cs : nat -> R) (delta : R) (N_ : nat) (out : nat -> nat -> nat -> R) :=
  let delta_six := (6 * delta) in
  let out :=
    loop N_ (fun i out =>
      let b0ici := ((b0s i) + (cs i)) in
      let out :=
        loop N_ (fun j out =>
          let b0jcj := ((b0s j) + (cs j)) in
          let v0 := ((4 * (b0ici + b0jcj)) - delta_six) in
          let out :=
            loop N_ (fun k out =>
              let out := updt out i j k (v0 + (4 * ((b0s k) + (cs k)))) in
              out
            ) out in
          out
        ) out in
      out
    ) out in
  out.

(* thermo/eos_mix_methods.py, lines 1249-1278: PR_translated_d3epsilon_dninjnks. *)
Definition PR_translated_d3epsilon_dninjnks (b0s : nat -> R) (cs : nat -> R) (b : R) (c : R) (epsilon_ : R) (N_ : nat) (out : nat -> nat -> nat -> R) :=
  let b0 := (b + c) in
  let out :=
    loop N_ (fun i out =>
      let out :=
        loop N_ (fun j out =>
          let out :=
            loop N_ (fun k out =>
              let term := (((((((((((((4 * b0) * ((((3 * b0) - (b0s i)) - (b0s j)) - (b0s k))) - ((2 * c) * ((((6 * b0) + (3 * c)) - (2 * (((b0s i) + (b0s j)) + (b0s k)))) - (((cs i) + (cs j)) + (cs k))))) + ((2 * (b0 - (b0s i))) * (((2 * b0) - (b0s j)) - (b0s k)))) + ((2 * (b0 - (b0s j))) * (((2 * b0) - (b0s i)) - (b0s k)))) + ((2 * (b0 - (b0s k))) * (((2 * b0) - (b0s i)) - (b0s j)))) - ((c - (cs i)) * ((((((4 * b0) - (2 * (b0s j))) - (2 * (b0s k))) + (2 * c)) - (cs j)) - (cs k)))) - ((c - (cs j)) * ((((((4 * b0) - (2 * (b0s i))) - (2 * (b0s k))) + (2 * c)) - (cs i)) - (cs k)))) - ((c - (cs k)) * ((((((4 * b0) - (2 * (b0s i))) - (2 * (b0s j))) + (2 * c)) - (cs i)) - (cs j)))) - ((2 * (c + (2 * b0))) * ((((3 * c) - (cs i)) - (cs j)) - (cs k)))) - ((((2 * c) - (cs i)) - (cs j)) * ((((2 * b0) + c) - (2 * (b0s k))) - (cs k)))) - ((((2 * c) - (cs i)) - (cs k)) * ((((2 * b0) + c) - (2 * (b0s j))) - (cs j)))) - ((((2 * c) - (cs j)) - (cs k)) * ((((2 * b0) + c) - (2 * (b0s i))) - (cs i)))) in
              let out := updt out i j k term in
              out
            ) out in
          out
        ) out in
      out
    ) out in
  out.

(* thermo/eos_mix_methods.py, lines 1285-1316: PR_lnphis. (the loop at lines 1310-1312 returns in its first iteration: it is modelled as that iteration with i = 0, N >= 1) *)
Definition PR_lnphis (T : R) (P : R) (Z : R) (b : R) (a_alpha : R) (bs : nat -> R) (a_alpha_j_rows : nat -> R) (N_ : nat) (lnphis : nat -> R) :=
  let T_inv := (1 / T) in
  let P_T := (P * T_inv) in
  let A := (((a_alpha * P_T) * (1 / (Rgas * Rgas))) * T_inv) in
  let B := ((b * P_T) * (1 / Rgas)) in
  let to_log := (Z - B) in
  let x0 :=
    if (Rleb to_log 0) then
    let x0 := 0 in
    x0
    else
    let x0 := (ln to_log) in
    x0
  in
  let root_two_B := (B * (sqrt 2)) in
  let two_root_two_B := (root_two_B + root_two_B) in
  let ZB := (Z + B) in
  let to_log := ((ZB + root_two_B) / (ZB - root_two_B)) in
  let x4 :=
    if (Rleb to_log 0) then
    let x4 := 0 in
    x4
    else
    let x4 := (A * (ln to_log)) in
    x4
  in
  let to_div := (a_alpha * two_root_two_B) in
  if (negb (Reqb to_div 0)) then
    let t50 := ((x4 + x4) / to_div) in
    let t51 := ((x4 + ((Z - 1) * two_root_two_B)) / (b * two_root_two_B)) in
    let lnphis :=
      loop N_ (fun i lnphis =>
        let lnphis := upd lnphis i ((((bs i) * t51) - x0) - (t50 * (a_alpha_j_rows i))) in
        lnphis
      ) lnphis in
    lnphis
  else
    let lnphis := upd lnphis 0%nat 0 in
    lnphis.

(* thermo/eos_mix_methods.py, lines 1318-1336: SRK_lnphis. *)
Definition SRK_lnphis (T : R) (P : R) (Z : R) (b : R) (a_alpha : R) (bs : nat -> R) (a_alpha_j_rows : nat -> R) (N_ : nat) (lnphis : nat -> R) :=
  let RT := (T * Rgas) in
  let P_RT := (P / RT) in
  let A := ((a_alpha * P) / (RT * RT)) in
  let B := ((b * P) / RT) in
  let B_inv := (1 / B) in
  let A_B := (A * B_inv) in
  let t0 := (ln (Z - B)) in
  let t3 := (ln (1 + (B / Z))) in
  let Z_minus_one_over_B := ((Z - 1) * B_inv) in
  let two_over_a_alpha := (2 / a_alpha) in
  let x0 := ((A_B * B_inv) * t3) in
  let x1 := ((A_B * two_over_a_alpha) * t3) in
  let x2 := ((Z_minus_one_over_B + x0) * P_RT) in
  let lnphis :=
    loop N_ (fun i lnphis =>
      let lnphis := upd lnphis i ((((bs i) * x2) - t0) - (x1 * (a_alpha_j_rows i))) in
      lnphis
    ) lnphis in
  lnphis.

(* thermo/eos_mix_methods.py, lines 1338-1349: VDW_lnphis. *)
Definition VDW_lnphis (T : R) (P : R) (Z : R) (b : R) (a_alpha : R) (bs : nat -> R) (a_alpha_roots : nat -> R) (N_ : nat) (lnphis : nat -> R) :=
  let V := (((Z * Rgas) * T) / P) in
  let sqrt_a_alpha := (sqrt a_alpha) in
  let t1 := (ln (Z * (1 - (b / V)))) in
  let t2 := ((2 * sqrt_a_alpha) / ((Rgas * T) * V)) in
  let t3 := (1 / (V - b)) in
  let lnphis :=
    loop N_ (fun i lnphis =>
      let lnphis := upd lnphis i ((((bs i) * t3) - t1) - (t2 * (a_alpha_roots i))) in
      lnphis
    ) lnphis in
  lnphis.
