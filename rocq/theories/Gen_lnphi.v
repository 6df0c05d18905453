(* Fugacity coefficients of mixtures (thermo/eos_mix_methods.py)
   Generated by tools/py2v.py from the text of /repo; do not edit by hand. *)
From Coq Require Import Reals Lra Lia Arith Bool.
From Verif Require Import Base.
Open Scope R_scope.
Open Scope bool_scope.
From Verif Require Import Gen_mix Gen_eos.
(* thermo/eos_mix_methods.py, lines 1351-1368: eos_mix_lnphis_general. *)
Definition eos_mix_lnphis_general (T : R) (P : R) (Z : R) (b : R) (delta : R) (epsilon_ : R) (a_alpha : R) (N_ : nat) (db_dns : nat -> R) (da_alpha_dns : nat -> R) (ddelta_dns : nat -> R) (depsilon_dns : nat -> R) (lnphis : nat -> R) :=
  let V := (((Z * Rgas) * T) / P) in
  let dV_dns := (eos_mix_dV_dzs T P Z b delta epsilon_ a_alpha db_dns ddelta_dns depsilon_dns da_alpha_dns N_ (fun _ => 0)) in
  let dlnphi_dns := (G_dep_lnphi_d_helper T P b delta epsilon_ a_alpha N_ Z db_dns depsilon_dns ddelta_dns dV_dns da_alpha_dns false (fun _ => 0)) in
  let lnphi := (eos_lnphi T P V b delta epsilon_ a_alpha) in
  let lnphis :=
    loop N_ (fun i lnphis =>
      let lnphis := upd lnphis i (lnphi + (dlnphi_dns i)) in
      lnphis
    ) lnphis in
  lnphis.

(* thermo/eos_mix_methods.py, lines 835-874: eos_mix_a_alpha_volume. *)
Definition eos_mix_a_alpha_volume (g : bool) (l : bool) (T : R) (P : R) (zs : nat -> R) (one_minus_kijs : nat -> nat -> R) (b : R) (delta : R) (epsilon_ : R) (a_alphas : nat -> R) (a_alpha_roots : nat -> R) (a_alpha_j_rows : nat -> R) (vec0 : nat -> R) (N_ : nat) (volume_solutions : R -> R -> R -> R -> R -> R -> R * R * R) :=
  let '(a_alpha, a_alpha_j_rows) := (a_alpha_quadratic_terms a_alphas a_alpha_roots T zs one_minus_kijs a_alpha_j_rows vec0 N_) in
  let '(V0, V1, V2) := (volume_solutions T P b delta epsilon_ a_alpha) in
  let V0 :=
    if (l && g) then
    let V_low := V0 in
    let V_low :=
      if (negb (Reqb V1 0)) then
      let V_low :=
        if ((Rltb V1 V_low) && (Rltb b V1)) then
        let V_low := V1 in
        V_low
        else
        V_low
      in
      let V_low :=
        if ((Rltb V2 V_low) && (Rltb b V2)) then
        let V_low := V2 in
        V_low
        else
        V_low
      in
      V_low
      else
      V_low
    in
    let V_high := V0 in
    let V_high :=
      if (negb (Reqb V1 0)) then
      let V_high :=
        if ((Rltb V_high V1) && (Rltb b V1)) then
        let V_high := V1 in
        V_high
        else
        V_high
      in
      let V_high :=
        if ((Rltb V_high V2) && (Rltb b V2)) then
        let V_high := V2 in
        V_high
        else
        V_high
      in
      V_high
      else
      V_high
    in
    let V0 :=
      if (negb (Reqb V_low V_high)) then
      let G_V_low := (eos_G_dep T P V_low b delta epsilon_ a_alpha) in
      let G_V_high := (eos_G_dep T P V_high b delta epsilon_ a_alpha) in
      let V0 := (if (Rltb G_V_low G_V_high) then V_low else V_high) in
      V0
      else
      V0
    in
    V0
    else
    let V0 :=
      if (negb g) then
      let V0 :=
        if (negb (Reqb V1 0)) then
        let V0 :=
          if ((Rltb V1 V0) && (Rltb b V1)) then
          let V0 := V1 in
          V0
          else
          V0
        in
        let V0 :=
          if ((Rltb V2 V0) && (Rltb b V2)) then
          let V0 := V2 in
          V0
          else
          V0
        in
        V0
        else
        V0
      in
      V0
      else
      let V0 :=
        if (negb (Reqb V1 0)) then
        let V0 :=
          if ((Rltb V0 V1) && (Rltb b V1)) then
          let V0 := V1 in
          V0
          else
          V0
        in
        let V0 :=
          if ((Rltb V0 V2) && (Rltb b V2)) then
          let V0 := V2 in
          V0
          else
          V0
        in
        V0
        else
        V0
      in
      V0
    in
    V0
  in
  let Z := ((P * V0) / (Rgas * T)) in
  (Z, a_alpha, a_alpha_j_rows).

(* thermo/eos_mix_methods.py, lines 1374-1384: PR_lnphis_fastest. *)
Definition PR_lnphis_fastest (zs : nat -> R) (T : R) (P : R) (N_ : nat) (one_minus_kijs : nat -> nat -> R) (l : bool) (g : bool) (bs : nat -> R) (a_alphas : nat -> R) (a_alpha_roots : nat -> R) (a_alpha_j_rows : nat -> R) (vec0 : nat -> R) (lnphis : nat -> R) (volume_solutions : R -> R -> R -> R -> R -> R -> R * R * R) :=
  let b := 0 in
  let b :=
    loop N_ (fun i b =>
      let b := (b + ((bs i) * (zs i))) in
      b
    ) b in
  let delta := (2 * b) in
  let epsilon_ := ((- b) * b) in
  let '(Z, a_alpha, a_alpha_j_rows) := (eos_mix_a_alpha_volume g l T P zs one_minus_kijs b delta epsilon_ a_alphas a_alpha_roots a_alpha_j_rows vec0 N_ volume_solutions) in
  (PR_lnphis T P Z b a_alpha bs a_alpha_j_rows N_ lnphis).

(* thermo/eos_mix_methods.py, lines 1387-1397: SRK_lnphis_fastest. *)
Definition SRK_lnphis_fastest (zs : nat -> R) (T : R) (P : R) (N_ : nat) (one_minus_kijs : nat -> nat -> R) (l : bool) (g : bool) (bs : nat -> R) (a_alphas : nat -> R) (a_alpha_roots : nat -> R) (a_alpha_j_rows : nat -> R) (vec0 : nat -> R) (lnphis : nat -> R) (volume_solutions : R -> R -> R -> R -> R -> R -> R * R * R) :=
  let b := 0 in
  let b :=
    loop N_ (fun i b =>
      let b := (b + ((bs i) * (zs i))) in
      b
    ) b in
  let delta := b in
  let epsilon_ := 0 in
  let '(Z, a_alpha, a_alpha_j_rows) := (eos_mix_a_alpha_volume g l T P zs one_minus_kijs b delta epsilon_ a_alphas a_alpha_roots a_alpha_j_rows vec0 N_ volume_solutions) in
  (SRK_lnphis T P Z b a_alpha bs a_alpha_j_rows N_ lnphis).

(* thermo/eos_mix_methods.py, lines 1400-1410: VDW_lnphis_fastest. *)
Definition VDW_lnphis_fastest (zs : nat -> R) (T : R) (P : R) (N_ : nat) (one_minus_kijs : nat -> nat -> R) (l : bool) (g : bool) (bs : nat -> R) (a_alphas : nat -> R) (a_alpha_roots : nat -> R) (a_alpha_j_rows : nat -> R) (vec0 : nat -> R) (lnphis : nat -> R) (volume_solutions : R -> R -> R -> R -> R -> R -> R * R * R) :=
  let b := 0 in
  let b :=
    loop N_ (fun i b =>
      let b := (b + ((bs i) * (zs i))) in
      b
    ) b in
  let delta := 0 in
  let epsilon_ := 0 in
  let '(Z, a_alpha, a_alpha_j_rows) := (eos_mix_a_alpha_volume g l T P zs one_minus_kijs b delta epsilon_ a_alphas a_alpha_roots a_alpha_j_rows vec0 N_ volume_solutions) in
  (VDW_lnphis T P Z b a_alpha bs a_alpha_roots N_ lnphis).

(* thermo/eos_mix_methods.py, lines 1413-1431: RK_lnphis_fastest. *)
Definition RK_lnphis_fastest (zs : nat -> R) (T : R) (P : R) (N_ : nat) (one_minus_kijs : nat -> nat -> R) (l : bool) (g : bool) (bs : nat -> R) (a_alphas : nat -> R) (a_alpha_roots : nat -> R) (a_alpha_j_rows : nat -> R) (vec0 : nat -> R) (lnphis : nat -> R) (volume_solutions : R -> R -> R -> R -> R -> R -> R * R * R) :=
  let b := 0 in
  let b :=
    loop N_ (fun i b =>
      let b := (b + ((bs i) * (zs i))) in
      b
    ) b in
  let delta := b in
  let epsilon_ := 0 in
  let '(Z, a_alpha, a_alpha_j_rows) := (eos_mix_a_alpha_volume g l T P zs one_minus_kijs b delta epsilon_ a_alphas a_alpha_roots a_alpha_j_rows vec0 N_ volume_solutions) in
  let db_dns := (eos_mix_db_dns b bs N_ (fun _ => 0)) in
  let ddelta_dns := db_dns in
  let da_alpha_dns := (eos_mix_da_alpha_dns a_alpha a_alpha_j_rows N_ (fun _ => 0)) in
  let depsilon_dns := (fun _ => 0) in
  (eos_mix_lnphis_general T P Z b delta epsilon_ a_alpha N_ db_dns da_alpha_dns ddelta_dns depsilon_dns lnphis).

(* thermo/eos_mix_methods.py, lines 1434-1455: PR_translated_lnphis_fastest. *)
Definition PR_translated_lnphis_fastest (zs : nat -> R) (T : R) (P : R) (N_ : nat) (one_minus_kijs : nat -> nat -> R) (l : bool) (g : bool) (b0s : nat -> R) (bs : nat -> R) (cs : nat -> R) (a_alphas : nat -> R) (a_alpha_roots : nat -> R) (a_alpha_j_rows : nat -> R) (vec0 : nat -> R) (lnphis : nat -> R) (volume_solutions : R -> R -> R -> R -> R -> R -> R * R * R) :=
  let b0 := 0 in
  let c := 0 in
  let '(b0, c) :=
    loop N_ (fun i st_ =>
      let '(b0, c) := st_ in
      let b0 := (b0 + ((b0s i) * (zs i))) in
      let c := (c + ((cs i) * (zs i))) in
      (b0, c)
    ) (b0, c) in
  let b := (b0 - c) in
  let delta := (2 * (c + b0)) in
  let epsilon_ := (((- b0) * b0) + (c * ((c + b0) + b0))) in
  let '(Z, a_alpha, a_alpha_j_rows) := (eos_mix_a_alpha_volume g l T P zs one_minus_kijs b delta epsilon_ a_alphas a_alpha_roots a_alpha_j_rows vec0 N_ volume_solutions) in
  let db_dns := (eos_mix_db_dns b bs N_ (fun _ => 0)) in
  let da_alpha_dns := (eos_mix_da_alpha_dns a_alpha a_alpha_j_rows N_ (fun _ => 0)) in
  let depsilon_dns := (PR_translated_depsilon_dns b c b0s cs N_ (fun _ => 0)) in
  let ddelta_dns := (PR_translated_ddelta_dns b0s cs delta N_ (fun _ => 0)) in
  (eos_mix_lnphis_general T P Z b delta epsilon_ a_alpha N_ db_dns da_alpha_dns ddelta_dns depsilon_dns lnphis).

(* thermo/eos_mix_methods.py, lines 1458-1479: SRK_translated_lnphis_fastest. *)
Definition SRK_translated_lnphis_fastest (zs : nat -> R) (T : R) (P : R) (N_ : nat) (one_minus_kijs : nat -> nat -> R) (l : bool) (g : bool) (b0s : nat -> R) (bs : nat -> R) (cs : nat -> R) (a_alphas : nat -> R) (a_alpha_roots : nat -> R) (a_alpha_j_rows : nat -> R) (vec0 : nat -> R) (lnphis : nat -> R) (volume_solutions : R -> R -> R -> R -> R -> R -> R * R * R) :=
  let b0 := 0 in
  let c := 0 in
  let '(b0, c) :=
    loop N_ (fun i st_ =>
      let '(b0, c) := st_ in
      let b0 := (b0 + ((b0s i) * (zs i))) in
      let c := (c + ((cs i) * (zs i))) in
      (b0, c)
    ) (b0, c) in
  let b := (b0 - c) in
  let delta := ((c + c) + b0) in
  let epsilon_ := (c * (b0 + c)) in
  let '(Z, a_alpha, a_alpha_j_rows) := (eos_mix_a_alpha_volume g l T P zs one_minus_kijs b delta epsilon_ a_alphas a_alpha_roots a_alpha_j_rows vec0 N_ volume_solutions) in
  let db_dns := (eos_mix_db_dns b bs N_ (fun _ => 0)) in
  let da_alpha_dns := (eos_mix_da_alpha_dns a_alpha a_alpha_j_rows N_ (fun _ => 0)) in
  let depsilon_dns := (SRK_translated_depsilon_dns b c b0s cs N_ (fun _ => 0)) in
  let ddelta_dns := (SRK_translated_ddelta_dns b0s cs delta N_ (fun _ => 0)) in
  (eos_mix_lnphis_general T P Z b delta epsilon_ a_alpha N_ db_dns da_alpha_dns ddelta_dns depsilon_dns lnphis).
