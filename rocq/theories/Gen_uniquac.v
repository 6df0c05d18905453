(* UNIQUAC activity coefficient model (thermo/uniquac.py)
   Generated by tools/py2v.py from the text of /repo; do not edit by hand. *)
From Coq Require Import Reals Lra Lia Arith Bool.
From Verif Require Import Base.
Open Scope R_scope.
Open Scope bool_scope.
From Verif Require Import Gen_wilson.

(* External: chemicals.utils.dxs_to_dn_partials(dxs, xs, F): derivatives of n F(x) with respect to mole numbers, from mole fraction derivatives (its documented formula). *)
Definition ext_dxs_to_dn_partials (N : nat) (dxs xs : nat -> R) (F : R) : nat -> R := fun i => dxs i + F - rsum N (fun j => xs j * dxs j).

(* thermo/uniquac.py, lines 62-73: uniquac_phis. *)
Definition uniquac_phis (N_ : nat) (xs : nat -> R) (rs : nat -> R) (phis : nat -> R) : (nat -> R) * R :=
  let rsxs_sum_inv := 0 in
  let '(phis, rsxs_sum_inv) :=
    loop N_ (fun i st_ =>
      let '(phis, rsxs_sum_inv) := st_ in
      let phis := upd phis i ((rs i) * (xs i)) in
      let rsxs_sum_inv := (rsxs_sum_inv + (phis i)) in
      (phis, rsxs_sum_inv)
    ) (phis, rsxs_sum_inv) in
  let rsxs_sum_inv := (1 / rsxs_sum_inv) in
  let phis :=
    loop N_ (fun i phis =>
      let phis := upd phis i ((phis i) * rsxs_sum_inv) in
      phis
    ) phis in
  (phis, rsxs_sum_inv).

(* thermo/uniquac.py, lines 75-92: uniquac_dphis_dxs. *)
Definition uniquac_dphis_dxs (N_ : nat) (rs : nat -> R) (phis : nat -> R) (rsxs_sum_inv : R) (dphis_dxs : nat -> nat -> R) (vec0 : nat -> R) : nat -> nat -> R :=
  let rsxs_sum_inv_m := (- rsxs_sum_inv) in
  let vec0 :=
    loop N_ (fun i vec0 =>
      let vec0 := upd vec0 i ((phis i) * rsxs_sum_inv_m) in
      vec0
    ) vec0 in
  let dphis_dxs :=
    loop N_ (fun j dphis_dxs =>
      let dphis_dxs :=
        loop N_ (fun i dphis_dxs =>
          let dphis_dxs := updm dphis_dxs i j ((vec0 i) * (rs j)) in
          dphis_dxs
        ) dphis_dxs in
      let dphis_dxs := updm dphis_dxs j j ((dphis_dxs j j) + ((rs j) * rsxs_sum_inv)) in
      dphis_dxs
    ) dphis_dxs in
  dphis_dxs.

(* thermo/uniquac.py, lines 94-103: uniquac_thetaj_taus_jis. *)
Definition uniquac_thetaj_taus_jis (N_ : nat) (taus : nat -> nat -> R) (thetas : nat -> R) (thetaj_taus_jis : nat -> R) : nat -> R :=
  let thetaj_taus_jis :=
    loop N_ (fun i thetaj_taus_jis =>
      let tot := 0 in
      let tot :=
        loop N_ (fun j tot =>
          let tot := (tot + ((thetas j) * (taus j i))) in
          tot
        ) tot in
      let thetaj_taus_jis := upd thetaj_taus_jis i tot in
      thetaj_taus_jis
    ) thetaj_taus_jis in
  thetaj_taus_jis.

(* thermo/uniquac.py, lines 105-114: uniquac_thetaj_taus_ijs. *)
Definition uniquac_thetaj_taus_ijs (N_ : nat) (taus : nat -> nat -> R) (thetas : nat -> R) (thetaj_taus_ijs : nat -> R) : nat -> R :=
  let thetaj_taus_ijs :=
    loop N_ (fun i thetaj_taus_ijs =>
      let tot := 0 in
      let tot :=
        loop N_ (fun j tot =>
          let tot := (tot + ((thetas j) * (taus i j))) in
          tot
        ) tot in
      let thetaj_taus_ijs := upd thetaj_taus_ijs i tot in
      thetaj_taus_ijs
    ) thetaj_taus_ijs in
  thetaj_taus_ijs.

(* thermo/uniquac.py, lines 117-153: uniquac_d2phis_dxixjs. *)
Definition uniquac_d2phis_dxixjs (N_ : nat) (xs : nat -> R) (rs : nat -> R) (rsxs_sum_inv : R) (d2phis_dxixjs : nat -> nat -> nat -> R) (vec0 : nat -> R) (vec1 : nat -> R) : nat -> nat -> nat -> R :=
  let rsxs_sum_inv2 := (rsxs_sum_inv * rsxs_sum_inv) in
  let rsxs_sum_inv3 := (rsxs_sum_inv2 * rsxs_sum_inv) in
  let rsxs_sum_inv_2 := (rsxs_sum_inv + rsxs_sum_inv) in
  let rsxs_sum_inv2_2 := (rsxs_sum_inv2 + rsxs_sum_inv2) in
  let rsxs_sum_inv3_2 := (rsxs_sum_inv3 + rsxs_sum_inv3) in
  let vec0 :=
    loop N_ (fun i vec0 =>
      let vec0 := upd vec0 i (rsxs_sum_inv2 * ((((rs i) * (xs i)) * rsxs_sum_inv_2) - 1)) in
      vec0
    ) vec0 in
  let vec1 :=
    loop N_ (fun i vec1 =>
      let vec1 := upd vec1 i (((rs i) * (xs i)) * rsxs_sum_inv3_2) in
      vec1
    ) vec1 in
  let d2phis_dxixjs :=
    loop N_ (fun k d2phis_dxixjs =>
      let d2phis_dxixjs :=
        loop N_ (fun j d2phis_dxixjs =>
          let rskrsj := ((rs k) * (rs j)) in
          let d2phis_dxixjs :=
            loop N_ (fun i d2phis_dxixjs =>
              let d2phis_dxixjs := updt d2phis_dxixjs k j i (rskrsj * (vec1 i)) in
              d2phis_dxixjs
            ) d2phis_dxixjs in
          let d2phis_dxixjs :=
            if (negb (j =? k)%nat) then
            let d2phis_dxixjs := updt d2phis_dxixjs k j k (rskrsj * (vec0 k)) in
            let d2phis_dxixjs := updt d2phis_dxixjs k j j (rskrsj * (vec0 j)) in
            d2phis_dxixjs
            else
            d2phis_dxixjs
          in
          d2phis_dxixjs
        ) d2phis_dxixjs in
      let d2phis_dxixjs := updt d2phis_dxixjs k k k ((d2phis_dxixjs k k k) - (((rs k) * (rs k)) * rsxs_sum_inv2_2)) in
      d2phis_dxixjs
    ) d2phis_dxixjs in
  d2phis_dxixjs.

(* thermo/uniquac.py, lines 155-165: uniquac_GE. *)
Definition uniquac_GE (T : R) (N_ : nat) (z : R) (xs : nat -> R) (qs : nat -> R) (phis : nat -> R) (thetas : nat -> R) (thetaj_taus_jis : nat -> R) : R :=
  let gE := 0 in
  let z_2 := ((1 / 2) * z) in
  let gE :=
    loop N_ (fun i gE =>
      let gE := (gE + ((xs i) * (ln ((phis i) / (xs i))))) in
      let gE := (gE + (((z_2 * (qs i)) * (xs i)) * (ln ((thetas i) / (phis i))))) in
      let gE := (gE - (((qs i) * (xs i)) * (ln (thetaj_taus_jis i)))) in
      gE
    ) gE in
  let gE := (gE * (Rgas * T)) in
  gE.

(* thermo/uniquac.py, lines 167-173: uniquac_dGE_dT. *)
Definition uniquac_dGE_dT (T : R) (N_ : nat) (GE : R) (xs : nat -> R) (qs : nat -> R) (thetaj_taus_jis : nat -> R) (thetaj_dtaus_dT_jis : nat -> R) : R :=
  let dGE := (GE / T) in
  let tot := 0 in
  let tot :=
    loop N_ (fun i tot =>
      let tot := (tot - ((((qs i) * (xs i)) * (thetaj_dtaus_dT_jis i)) / (thetaj_taus_jis i))) in
      tot
    ) tot in
  let dGE := (dGE + ((Rgas * T) * tot)) in
  dGE.

(* thermo/uniquac.py, lines 176-183: uniquac_d2GE_dT2. *)
Definition uniquac_d2GE_dT2 (T : R) (N_ : nat) (GE : R) (dGE_dT : R) (xs : nat -> R) (qs : nat -> R) (thetaj_taus_jis : nat -> R) (thetaj_dtaus_dT_jis : nat -> R) (thetaj_d2taus_dT2_jis : nat -> R) : R :=
  let tot := 0 in
  let tot :=
    loop N_ (fun i tot =>
      let tot := (tot + ((((qs i) * (xs i)) * (thetaj_d2taus_dT2_jis i)) / (thetaj_taus_jis i))) in
      let tot := (tot - ((((qs i) * (xs i)) * ((thetaj_dtaus_dT_jis i) ^ 2)) / ((thetaj_taus_jis i) ^ 2))) in
      tot
    ) tot in
  let d2GE_dT2 := ((T * tot) - ((2 / (Rgas * T)) * (dGE_dT - (GE / T)))) in
  let d2GE_dT2 := (d2GE_dT2 * (- Rgas)) in
  d2GE_dT2.

(* thermo/uniquac.py, lines 185-199: uniquac_d3GE_dT3. *)
Definition uniquac_d3GE_dT3 (T : R) (N_ : nat) (xs : nat -> R) (qs : nat -> R) (thetaj_taus_jis : nat -> R) (thetaj_dtaus_dT_jis : nat -> R) (thetaj_d2taus_dT2_jis : nat -> R) (thetaj_d3taus_dT3_jis : nat -> R) : R :=
  let Ttot := 0 in
  let tot := 0 in
  let '(Ttot, tot) :=
    loop N_ (fun i st_ =>
      let '(Ttot, tot) := st_ in
      let Ttot := (Ttot + ((((qs i) * (xs i)) * (thetaj_d3taus_dT3_jis i)) / (thetaj_taus_jis i))) in
      let Ttot := (Ttot - (((((3 * (qs i)) * (xs i)) * (thetaj_dtaus_dT_jis i)) * (thetaj_d2taus_dT2_jis i)) / ((thetaj_taus_jis i) ^ 2))) in
      let Ttot := (Ttot + ((((2 * (qs i)) * (xs i)) * ((thetaj_dtaus_dT_jis i) ^ 3)) / ((thetaj_taus_jis i) ^ 3))) in
      let tot := (tot + ((((3 * (qs i)) * (xs i)) * (thetaj_d2taus_dT2_jis i)) / (thetaj_taus_jis i))) in
      let tot := (tot - ((((3 * (qs i)) * (xs i)) * ((thetaj_dtaus_dT_jis i) ^ 2)) / ((thetaj_taus_jis i) ^ 2))) in
      (Ttot, tot)
    ) (Ttot, tot) in
  let d3GE_dT3 := ((- Rgas) * ((T * Ttot) + tot)) in
  d3GE_dT3.

(* thermo/uniquac.py, lines 203-235: uniquac_dGE_dxs. *)
Definition uniquac_dGE_dxs (N_ : nat) (T : R) (xs : nat -> R) (qs : nat -> R) (taus : nat -> nat -> R) (phis : nat -> R) (phis_inv : nat -> R) (dphis_dxs : nat -> nat -> R) (thetas : nat -> R) (dthetas_dxs : nat -> nat -> R) (thetaj_taus_jis : nat -> R) (thetaj_taus_jis_inv : nat -> R) (dGE_dxs : nat -> R) : nat -> R :=
  let z := 10 in
  let RT := (Rgas * T) in
  let dGE_dxs :=
    loop N_ (fun i dGE_dxs =>
      let tot := 0 in
      let tot :=
        loop N_ (fun j tot =>
          let tot := (tot + (((((((1 / 2) * (qs j)) * (xs j)) * (phis j)) * z) / (thetas j)) * (((phis_inv j) * (dthetas_dxs j i)) - ((((thetas j) * (phis_inv j)) * (phis_inv j)) * (dphis_dxs j i))))) in
          let tot3 := 0 in
          let tot3 :=
            loop N_ (fun k tot3 =>
              let tot3 := (tot3 + ((taus k j) * (dthetas_dxs k i))) in
              tot3
            ) tot3 in
          let tot := (tot - ((((qs j) * (xs j)) * tot3) * (thetaj_taus_jis_inv j))) in
          let tot :=
            if (negb (i =? j)%nat) then
            let tot := (tot + (((xs j) * (phis_inv j)) * (dphis_dxs j i))) in
            tot
            else
            tot
          in
          tot
        ) tot in
      let tot := (tot + ((((1 / 2) * z) * (qs i)) * (ln ((thetas i) * (phis_inv i))))) in
      let tot := (tot - ((qs i) * (ln (thetaj_taus_jis i)))) in
      let tot := (tot + ((((xs i) * (xs i)) * (phis_inv i)) * (((dphis_dxs i i) / (xs i)) - ((phis i) / ((xs i) * (xs i)))))) in
      let tot := (tot + (ln ((phis i) / (xs i)))) in
      let dGE_dxs := upd dGE_dxs i (RT * tot) in
      dGE_dxs
    ) dGE_dxs in
  dGE_dxs.

(* thermo/uniquac.py, lines 237-307: uniquac_d2GE_dTdxs. *)
Definition uniquac_d2GE_dTdxs (N_ : nat) (T : R) (xs : nat -> R) (qs : nat -> R) (taus : nat -> nat -> R) (phis : nat -> R) (phis_inv : nat -> R) (dphis_dxs : nat -> nat -> R) (thetas : nat -> R) (dthetas_dxs : nat -> nat -> R) (dtaus_dT : nat -> nat -> R) (thetaj_taus_jis : nat -> R) (thetaj_taus_jis_inv : nat -> R) (thetaj_dtaus_dT_jis : nat -> R) (qsxs : nat -> R) (qsxsthetaj_taus_jis_inv : nat -> R) (d2GE_dTdxs : nat -> R) (vec1 : nat -> R) (vec2 : nat -> R) (vec3 : nat -> R) (vec4 : nat -> R) : nat -> R :=
  let z := 10 in
  let vec1 :=
    loop N_ (fun i vec1 =>
      let vec1 := upd vec1 i (((qsxsthetaj_taus_jis_inv i) * (thetaj_dtaus_dT_jis i)) * (thetaj_taus_jis_inv i)) in
      vec1
    ) vec1 in
  let vec2 :=
    loop N_ (fun i vec2 =>
      let vec2 := upd vec2 i ((qsxs i) / (thetas i)) in
      vec2
    ) vec2 in
  let vec3 :=
    loop N_ (fun i vec3 =>
      let vec3 := upd vec3 i (((- (thetas i)) * (phis_inv i)) * (vec2 i)) in
      vec3
    ) vec3 in
  let vec4 :=
    loop N_ (fun i vec4 =>
      let vec4 := upd vec4 i ((xs i) * (phis_inv i)) in
      vec4
    ) vec4 in
  let d2GE_dTdxs :=
    loop N_ (fun i d2GE_dTdxs =>
      let tot := 0 in
      let Ttot := 0 in
      let Ttot := (Ttot + (((qs i) * (thetaj_dtaus_dT_jis i)) * (thetaj_taus_jis_inv i))) in
      let t49_sum := 0 in
      let t50_sum := 0 in
      let t51_sum := 0 in
      let t52_sum := 0 in
      let '(t49_sum, t50_sum, t52_sum, t51_sum, tot) :=
        loop N_ (fun j st_ =>
          let '(t49_sum, t50_sum, t52_sum, t51_sum, tot) := st_ in
          let t100 := 0 in
          let t100 :=
            loop N_ (fun k t100 =>
              let t100 := (t100 + ((dtaus_dT k j) * (dthetas_dxs k i))) in
              t100
            ) t100 in
          let t102 := 0 in
          let t102 :=
            loop N_ (fun k t102 =>
              let t102 := (t102 + ((taus k j) * (dthetas_dxs k i))) in
              t102
            ) t102 in
          let t49_sum := (t49_sum + (t100 * (qsxsthetaj_taus_jis_inv j))) in
          let t50_sum := (t50_sum + (t102 * (vec1 j))) in
          let t52_sum := (t52_sum + (t102 * (qsxsthetaj_taus_jis_inv j))) in
          let t51 := (((vec2 j) * (dthetas_dxs j i)) + ((vec3 j) * (dphis_dxs j i))) in
          let t51_sum := (t51_sum + t51) in
          let tot := (tot + ((vec4 j) * (dphis_dxs j i))) in
          (t49_sum, t50_sum, t52_sum, t51_sum, tot)
        ) (t49_sum, t50_sum, t52_sum, t51_sum, tot) in
      let Ttot := (Ttot - t50_sum) in
      let Ttot := (Ttot + t49_sum) in
      let tot := (tot + ((t51_sum * z) * (1 / 2))) in
      let tot := (tot - t52_sum) in
      let tot := (tot - (((xs i) * (phis_inv i)) * (dphis_dxs i i))) in
      let tot := (tot + (((xs i) * (phis_inv i)) * ((dphis_dxs i i) - ((phis i) / (xs i))))) in
      let tot := (tot + (ln ((phis i) / (xs i)))) in
      let tot := (tot - ((qs i) * (ln (thetaj_taus_jis i)))) in
      let tot := (tot + ((((1 / 2) * z) * (qs i)) * (ln ((thetas i) * (phis_inv i))))) in
      let d2GE_dTdxs := upd d2GE_dTdxs i (Rgas * (((- T) * Ttot) + tot)) in
      d2GE_dTdxs
    ) d2GE_dTdxs in
  d2GE_dTdxs.

(* thermo/uniquac.py, lines 312-425: uniquac_d2GE_dxixjs. *)
Definition uniquac_d2GE_dxixjs (N_ : nat) (T : R) (xs : nat -> R) (qs : nat -> R) (taus : nat -> nat -> R) (phis : nat -> R) (thetas : nat -> R) (dphis_dxs : nat -> nat -> R) (d2phis_dxixjs : nat -> nat -> nat -> R) (dthetas_dxs : nat -> nat -> R) (d2thetas_dxixjs : nat -> nat -> nat -> R) (thetaj_taus_jis : nat -> R) (d2GE_dxixjs : nat -> nat -> R) : nat -> nat -> R :=
  let RT := (Rgas * T) in
  let z := 10 in
  let tau_mk_dthetam_xi := (fun u_ => (fun _ => 0)) in
  let tau_mk_dthetam_xi :=
    loop N_ (fun i tau_mk_dthetam_xi =>
      let tau_mk_dthetam_xi :=
        loop N_ (fun j tau_mk_dthetam_xi =>
          let sum_value := 0 in
          let sum_value :=
            loop N_ (fun m sum_value =>
              let sum_value := (sum_value + ((taus m j) * (dthetas_dxs m i))) in
              sum_value
            ) sum_value in
          let tau_mk_dthetam_xi := updm tau_mk_dthetam_xi i j sum_value in
          tau_mk_dthetam_xi
        ) tau_mk_dthetam_xi in
      tau_mk_dthetam_xi
    ) tau_mk_dthetam_xi in
  let d2GE_dxixjs :=
    loop N_ (fun i d2GE_dxixjs =>
      let d2GE_dxixjs :=
        loop N_ (fun j d2GE_dxixjs =>
          let ij_min := (Nat.min i j) in
          let ij_max := (Nat.max i j) in
          let tot := 0 in
          let tot := (tot + ((((qs i) * z) / (2 * (thetas i))) * ((dthetas_dxs i j) - (((thetas i) / (phis i)) * (dphis_dxs i j))))) in
          let tot :=
            if (negb (i =? j)%nat) then
            let tot := (tot + ((dphis_dxs i j) / (phis i))) in
            tot
            else
            tot
          in
          let tot := (tot - (((qs i) * (tau_mk_dthetam_xi j i)) / (thetaj_taus_jis i))) in
          let tot := (tot + ((((qs j) * z) / (2 * (thetas j))) * ((dthetas_dxs j i) - (((thetas j) / (phis j)) * (dphis_dxs j i))))) in
          let tot :=
            if (negb (i =? j)%nat) then
            let tot := (tot + ((dphis_dxs j i) / (phis j))) in
            tot
            else
            tot
          in
          let tot := (tot - (((qs j) * (tau_mk_dthetam_xi i j)) / (thetaj_taus_jis j))) in
          let tot :=
            if (i =? j)%nat then
            let tot := (tot + (((3 * (dphis_dxs i i)) / (phis i)) - (3 / (xs i)))) in
            tot
            else
            tot
          in
          let tot :=
            loop N_ (fun m tot =>
              let tot :=
                if (i <? j)%nat then
                let tot :=
                  if (negb (m =? i)%nat) then
                  let tot := (tot + (((xs m) / (phis m)) * (d2phis_dxixjs i j m))) in
                  tot
                  else
                  tot
                in
                tot
                else
                let tot :=
                  if (negb (m =? j)%nat) then
                  let tot := (tot + (((xs m) / (phis m)) * (d2phis_dxixjs i j m))) in
                  tot
                  else
                  tot
                in
                tot
              in
              tot
            ) tot in
          let tot := (tot - (((((xs ij_min) * (xs ij_min)) / ((phis ij_min) * (phis ij_min))) * (((dphis_dxs ij_min ij_min) / (xs ij_min)) - ((phis ij_min) / ((xs ij_min) * (xs ij_min))))) * (dphis_dxs ij_min ij_max))) in
          let tot :=
            if (negb (i =? j)%nat) then
            let tot := (tot + ((((xs ij_min) * (xs ij_min)) / (phis ij_min)) * (((d2phis_dxixjs i j ij_min) / (xs ij_min)) - ((dphis_dxs ij_min ij_max) / ((xs ij_min) * (xs ij_min)))))) in
            tot
            else
            let tot := (tot + (((((xs i) * (d2phis_dxixjs i i i)) / (phis i)) - ((2 * (dphis_dxs i i)) / (phis i))) + (2 / (xs i)))) in
            tot
          in
          let tot :=
            loop N_ (fun m tot =>
              let tot :=
                if (i <? j)%nat then
                let tot :=
                  if (negb (m =? i)%nat) then
                  let tot := (tot - (((xs m) / ((phis m) * (phis m))) * ((dphis_dxs m i) * (dphis_dxs m j)))) in
                  tot
                  else
                  tot
                in
                tot
                else
                let tot :=
                  if (negb (m =? j)%nat) then
                  let tot := (tot - (((xs m) / ((phis m) * (phis m))) * ((dphis_dxs m i) * (dphis_dxs m j)))) in
                  tot
                  else
                  tot
                in
                tot
              in
              tot
            ) tot in
          let tot :=
            loop N_ (fun k tot =>
              let thing := 0 in
              let thing :=
                loop N_ (fun m thing =>
                  let thing := (thing + ((taus m k) * (d2thetas_dxixjs i j m))) in
                  thing
                ) thing in
              let tot := (tot - ((((qs k) * (xs k)) * thing) / (thetaj_taus_jis k))) in
              let tot := (tot - ((((((qs k) * (xs k)) * (tau_mk_dthetam_xi i k)) * (-1)) * (tau_mk_dthetam_xi j k)) / ((thetaj_taus_jis k) * (thetaj_taus_jis k)))) in
              let tot := (tot + ((((((qs k) * (xs k)) * z) / (2 * (thetas k))) * (((dthetas_dxs k i) / (phis k)) - (((thetas k) * (dphis_dxs k i)) / ((phis k) * (phis k))))) * (dphis_dxs k j))) in
              let tot := (tot + ((((((qs k) * (xs k)) * z) * (phis k)) / (2 * (thetas k))) * ((((d2thetas_dxixjs i j k) / (phis k)) - ((1 / ((phis k) * (phis k))) * ((((thetas k) * (d2phis_dxixjs i j k)) + ((dphis_dxs k i) * (dthetas_dxs k j))) + ((dphis_dxs k j) * (dthetas_dxs k i))))) + ((((2 * (thetas k)) * (dphis_dxs k i)) * (dphis_dxs k j)) / (((phis k) * (phis k)) * (phis k)))))) in
              let tot := (tot - (((((((qs k) * (xs k)) * z) * (phis k)) * (dthetas_dxs k j)) / ((2 * (thetas k)) * (thetas k))) * (((dthetas_dxs k i) / (phis k)) - (((thetas k) * (dphis_dxs k i)) / ((phis k) * (phis k)))))) in
              tot
            ) tot in
          let d2GE_dxixjs := updm d2GE_dxixjs i j (RT * tot) in
          d2GE_dxixjs
        ) d2GE_dxixjs in
      d2GE_dxixjs
    ) d2GE_dxixjs in
  d2GE_dxixjs.

(* thermo/uniquac.py, lines 832-845: UNIQUAC.taus. (without the cache; list path) *)
Definition UNIQUAC_taus (N_ : nat) (T : R) (tau_as : nat -> nat -> R) (tau_bs : nat -> nat -> R) (tau_cs : nat -> nat -> R) (tau_ds : nat -> nat -> R) (tau_es : nat -> nat -> R) (tau_fs : nat -> nat -> R) : nat -> nat -> R :=
  let A := tau_as in
  let B := tau_bs in
  let C_ := tau_cs in
  let D_ := tau_ds in
  let E_ := tau_es in
  let F := tau_fs in
  let T := T in
  let N_ := N_ in
  let taus := (fun u_ => (fun _ => 0)) in
  let taus := (interaction_exp T N_ A B C_ D_ E_ F taus) in
  taus.

(* thermo/uniquac.py, lines 872-888: UNIQUAC.dtaus_dT. (without the cache; list path) *)
Definition UNIQUAC_dtaus_dT (N_ : nat) (T : R) (tau_as : nat -> nat -> R) (tau_bs : nat -> nat -> R) (tau_cs : nat -> nat -> R) (tau_ds : nat -> nat -> R) (tau_es : nat -> nat -> R) (tau_fs : nat -> nat -> R) : nat -> nat -> R :=
  let B := tau_bs in
  let C_ := tau_cs in
  let D_ := tau_ds in
  let E_ := tau_es in
  let F := tau_fs in
  let T := T in
  let N_ := N_ in
  let taus := (UNIQUAC_taus N_ T tau_as tau_bs tau_cs tau_ds tau_es tau_fs) in
  let dtaus_dT := (fun u_ => (fun _ => 0)) in
  let dtaus_dT := (dinteraction_exp_dT T N_ B C_ D_ E_ F taus dtaus_dT) in
  dtaus_dT.

(* thermo/uniquac.py, lines 917-936: UNIQUAC.d2taus_dT2. (without the cache; list path) *)
Definition UNIQUAC_d2taus_dT2 (N_ : nat) (T : R) (tau_as : nat -> nat -> R) (tau_bs : nat -> nat -> R) (tau_cs : nat -> nat -> R) (tau_ds : nat -> nat -> R) (tau_es : nat -> nat -> R) (tau_fs : nat -> nat -> R) : nat -> nat -> R :=
  let B := tau_bs in
  let C_ := tau_cs in
  let E_ := tau_es in
  let F := tau_fs in
  let T := T in
  let N_ := N_ in
  let taus := (UNIQUAC_taus N_ T tau_as tau_bs tau_cs tau_ds tau_es tau_fs) in
  let dtaus_dT := (UNIQUAC_dtaus_dT N_ T tau_as tau_bs tau_cs tau_ds tau_es tau_fs) in
  let d2taus_dT2s := (fun u_ => (fun _ => 0)) in
  let d2taus_dT2s := (d2interaction_exp_dT2 T N_ B C_ E_ F taus dtaus_dT d2taus_dT2s) in
  d2taus_dT2s.

(* thermo/uniquac.py, lines 968-987: UNIQUAC.d3taus_dT3. (without the cache; list path) *)
Definition UNIQUAC_d3taus_dT3 (N_ : nat) (T : R) (tau_as : nat -> nat -> R) (tau_bs : nat -> nat -> R) (tau_cs : nat -> nat -> R) (tau_ds : nat -> nat -> R) (tau_es : nat -> nat -> R) (tau_fs : nat -> nat -> R) : nat -> nat -> R :=
  let T := T in
  let N_ := N_ in
  let B := tau_bs in
  let C_ := tau_cs in
  let E_ := tau_es in
  let F := tau_fs in
  let taus := (UNIQUAC_taus N_ T tau_as tau_bs tau_cs tau_ds tau_es tau_fs) in
  let dtaus_dT := (UNIQUAC_dtaus_dT N_ T tau_as tau_bs tau_cs tau_ds tau_es tau_fs) in
  let d3taus_dT3s := (fun u_ => (fun _ => 0)) in
  let d3taus_dT3s := (d3interaction_exp_dT3 T N_ B C_ E_ F taus dtaus_dT d3taus_dT3s) in
  d3taus_dT3s.

(* thermo/uniquac.py, lines 1004-1015: UNIQUAC.phis. (without the cache; list path) *)
Definition UNIQUAC_phis (N_ : nat) (xs : nat -> R) (rs : nat -> R) : nat -> R :=
  let N_ := N_ in
  let xs := xs in
  let rs := rs in
  let phis := (fun _ => 0) in
  let '(phis, rsxs_sum_inv) := (uniquac_phis N_ xs rs phis) in
  phis.

(* thermo/uniquac.py, lines 1004-1015: UNIQUAC.phis. (the value stored in _rsxs_sum_inv) *)
Definition UNIQUAC_rsxs_sum_inv (N_ : nat) (xs : nat -> R) (rs : nat -> R) : R :=
  let N_ := N_ in
  let xs := xs in
  let rs := rs in
  let phis := (fun _ => 0) in
  let '(phis, rsxs_sum_inv) := (uniquac_phis N_ xs rs phis) in
  rsxs_sum_inv.

(* thermo/uniquac.py, lines 1023-1029: UNIQUAC.phis_inv. (without the cache; list path) *)
Definition UNIQUAC_phis_inv (N_ : nat) (xs : nat -> R) (rs : nat -> R) : nat -> R :=
  let phis := (UNIQUAC_phis N_ xs rs) in
  let phis_inv := (fun k0_ => let v := phis k0_ in (1 / v)) in
  phis_inv.

(* thermo/uniquac.py, lines 1045-1055: UNIQUAC.dphis_dxs. (without the cache; list path) *)
Definition UNIQUAC_dphis_dxs (N_ : nat) (xs : nat -> R) (rs : nat -> R) : nat -> nat -> R :=
  let N_ := N_ in
  let rs := rs in
  let dphis_dxs := (fun i => (fun _ => 0)) in
  let dphis_dxs := (uniquac_dphis_dxs N_ rs (UNIQUAC_phis N_ xs rs) (UNIQUAC_rsxs_sum_inv N_ xs rs) dphis_dxs (fun _ => 0)) in
  dphis_dxs.

(* thermo/uniquac.py, lines 1069-1086: UNIQUAC.d2phis_dxixjs. (without the cache; list path) *)
Definition UNIQUAC_d2phis_dxixjs (N_ : nat) (xs : nat -> R) (rs : nat -> R) : nat -> nat -> nat -> R :=
  let N_ := N_ in
  let xs := xs in
  let rs := rs in
  let rsxs_sum_inv := (UNIQUAC_rsxs_sum_inv N_ xs rs) in
  let d2phis_dxixjs := (fun u_ => (fun u_ => (fun _ => 0))) in
  let d2phis_dxixjs := (uniquac_d2phis_dxixjs N_ xs rs rsxs_sum_inv d2phis_dxixjs (fun _ => 0) (fun _ => 0)) in
  d2phis_dxixjs.

(* thermo/uniquac.py, lines 1103-1114: UNIQUAC.thetas. (without the cache; list path) *)
Definition UNIQUAC_thetas (N_ : nat) (xs : nat -> R) (qs : nat -> R) : nat -> R :=
  let N_ := N_ in
  let xs := xs in
  let qs := qs in
  let thetas := (fun _ => 0) in
  let '(thetas, qsxs_sum_inv) := (uniquac_phis N_ xs qs thetas) in
  thetas.

(* thermo/uniquac.py, lines 1103-1114: UNIQUAC.thetas. (the value stored in _qsxs_sum_inv) *)
Definition UNIQUAC_qsxs_sum_inv (N_ : nat) (xs : nat -> R) (qs : nat -> R) : R :=
  let N_ := N_ in
  let xs := xs in
  let qs := qs in
  let thetas := (fun _ => 0) in
  let '(thetas, qsxs_sum_inv) := (uniquac_phis N_ xs qs thetas) in
  qsxs_sum_inv.

(* thermo/uniquac.py, lines 1130-1141: UNIQUAC.dthetas_dxs. (without the cache; list path) *)
Definition UNIQUAC_dthetas_dxs (N_ : nat) (xs : nat -> R) (qs : nat -> R) : nat -> nat -> R :=
  let N_ := N_ in
  let qs := qs in
  let dthetas_dxs := (fun i => (fun _ => 0)) in
  let dthetas_dxs := (uniquac_dphis_dxs N_ qs (UNIQUAC_thetas N_ xs qs) (UNIQUAC_qsxs_sum_inv N_ xs qs) dthetas_dxs (fun _ => 0)) in
  dthetas_dxs.

(* thermo/uniquac.py, lines 1155-1171: UNIQUAC.d2thetas_dxixjs. (without the cache; list path) *)
Definition UNIQUAC_d2thetas_dxixjs (N_ : nat) (xs : nat -> R) (qs : nat -> R) : nat -> nat -> nat -> R :=
  let N_ := N_ in
  let xs := xs in
  let qs := qs in
  let qsxs_sum_inv := (UNIQUAC_qsxs_sum_inv N_ xs qs) in
  let d2thetas_dxixjs := (fun u_ => (fun u_ => (fun _ => 0))) in
  let d2thetas_dxixjs := (uniquac_d2phis_dxixjs N_ xs qs qsxs_sum_inv d2thetas_dxixjs (fun _ => 0) (fun _ => 0)) in
  d2thetas_dxixjs.

(* thermo/uniquac.py, lines 1182-1195: UNIQUAC.thetaj_taus_jis. (without the cache; list path) *)
Definition UNIQUAC_thetaj_taus_jis (N_ : nat) (T : R) (xs : nat -> R) (qs : nat -> R) (tau_as : nat -> nat -> R) (tau_bs : nat -> nat -> R) (tau_cs : nat -> nat -> R) (tau_ds : nat -> nat -> R) (tau_es : nat -> nat -> R) (tau_fs : nat -> nat -> R) : nat -> R :=
  let thetas := (UNIQUAC_thetas N_ xs qs) in
  let taus := (UNIQUAC_taus N_ T tau_as tau_bs tau_cs tau_ds tau_es tau_fs) in
  let N_ := N_ in
  let thetaj_taus_jis := (fun _ => 0) in
  let thetaj_taus_jis := (uniquac_thetaj_taus_jis N_ taus thetas thetaj_taus_jis) in
  thetaj_taus_jis.

(* thermo/uniquac.py, lines 1203-1209: UNIQUAC.thetaj_taus_jis_inv. (without the cache; list path) *)
Definition UNIQUAC_thetaj_taus_jis_inv (N_ : nat) (T : R) (xs : nat -> R) (qs : nat -> R) (tau_as : nat -> nat -> R) (tau_bs : nat -> nat -> R) (tau_cs : nat -> nat -> R) (tau_ds : nat -> nat -> R) (tau_es : nat -> nat -> R) (tau_fs : nat -> nat -> R) : nat -> R :=
  let thetaj_taus_jis := (UNIQUAC_thetaj_taus_jis N_ T xs qs tau_as tau_bs tau_cs tau_ds tau_es tau_fs) in
  let thetaj_taus_jis_inv := (fun k0_ => let v := thetaj_taus_jis k0_ in (1 / v)) in
  thetaj_taus_jis_inv.

(* thermo/uniquac.py, lines 1220-1229: UNIQUAC.thetaj_taus_ijs. (without the cache; list path) *)
Definition UNIQUAC_thetaj_taus_ijs (N_ : nat) (T : R) (xs : nat -> R) (qs : nat -> R) (tau_as : nat -> nat -> R) (tau_bs : nat -> nat -> R) (tau_cs : nat -> nat -> R) (tau_ds : nat -> nat -> R) (tau_es : nat -> nat -> R) (tau_fs : nat -> nat -> R) : nat -> R :=
  let thetas := (UNIQUAC_thetas N_ xs qs) in
  let taus := (UNIQUAC_taus N_ T tau_as tau_bs tau_cs tau_ds tau_es tau_fs) in
  let N_ := N_ in
  let thetaj_taus_ijs := (uniquac_thetaj_taus_ijs N_ taus thetas (fun _ => 0)) in
  thetaj_taus_ijs.

(* thermo/uniquac.py, lines 1240-1252: UNIQUAC.thetaj_dtaus_dT_jis. (without the cache; list path) *)
Definition UNIQUAC_thetaj_dtaus_dT_jis (N_ : nat) (T : R) (xs : nat -> R) (qs : nat -> R) (tau_as : nat -> nat -> R) (tau_bs : nat -> nat -> R) (tau_cs : nat -> nat -> R) (tau_ds : nat -> nat -> R) (tau_es : nat -> nat -> R) (tau_fs : nat -> nat -> R) : nat -> R :=
  let thetas := (UNIQUAC_thetas N_ xs qs) in
  let dtaus_dT := (UNIQUAC_dtaus_dT N_ T tau_as tau_bs tau_cs tau_ds tau_es tau_fs) in
  let N_ := N_ in
  let thetaj_dtaus_dT_jis := (fun _ => 0) in
  let thetaj_dtaus_dT_jis := (uniquac_thetaj_taus_jis N_ dtaus_dT thetas thetaj_dtaus_dT_jis) in
  thetaj_dtaus_dT_jis.

(* thermo/uniquac.py, lines 1265-1277: UNIQUAC.thetaj_d2taus_dT2_jis. (without the cache; list path) *)
Definition UNIQUAC_thetaj_d2taus_dT2_jis (N_ : nat) (T : R) (xs : nat -> R) (qs : nat -> R) (tau_as : nat -> nat -> R) (tau_bs : nat -> nat -> R) (tau_cs : nat -> nat -> R) (tau_ds : nat -> nat -> R) (tau_es : nat -> nat -> R) (tau_fs : nat -> nat -> R) : nat -> R :=
  let thetas := (UNIQUAC_thetas N_ xs qs) in
  let d2taus_dT2 := (UNIQUAC_d2taus_dT2 N_ T tau_as tau_bs tau_cs tau_ds tau_es tau_fs) in
  let N_ := N_ in
  let thetaj_d2taus_dT2_jis := (fun _ => 0) in
  let thetaj_d2taus_dT2_jis := (uniquac_thetaj_taus_jis N_ d2taus_dT2 thetas thetaj_d2taus_dT2_jis) in
  thetaj_d2taus_dT2_jis.

(* thermo/uniquac.py, lines 1287-1299: UNIQUAC.thetaj_d3taus_dT3_jis. (without the cache; list path) *)
Definition UNIQUAC_thetaj_d3taus_dT3_jis (N_ : nat) (T : R) (xs : nat -> R) (qs : nat -> R) (tau_as : nat -> nat -> R) (tau_bs : nat -> nat -> R) (tau_cs : nat -> nat -> R) (tau_ds : nat -> nat -> R) (tau_es : nat -> nat -> R) (tau_fs : nat -> nat -> R) : nat -> R :=
  let thetas := (UNIQUAC_thetas N_ xs qs) in
  let d3taus_dT3 := (UNIQUAC_d3taus_dT3 N_ T tau_as tau_bs tau_cs tau_ds tau_es tau_fs) in
  let N_ := N_ in
  let thetaj_d3taus_dT3_jis := (fun _ => 0) in
  let thetaj_d3taus_dT3_jis := (uniquac_thetaj_taus_jis N_ d3taus_dT3 thetas thetaj_d3taus_dT3_jis) in
  thetaj_d3taus_dT3_jis.

(* thermo/uniquac.py, lines 1322-1328: UNIQUAC.GE. (without the cache; list path) *)
Definition UNIQUAC_GE (N_ : nat) (T : R) (xs : nat -> R) (rs : nat -> R) (qs : nat -> R) (tau_as : nat -> nat -> R) (tau_bs : nat -> nat -> R) (tau_cs : nat -> nat -> R) (tau_ds : nat -> nat -> R) (tau_es : nat -> nat -> R) (tau_fs : nat -> nat -> R) : R :=
  let T := T in
  let N_ := N_ in
  let xs := xs in
  let qs := qs in
  let phis := (UNIQUAC_phis N_ xs rs) in
  let thetas := (UNIQUAC_thetas N_ xs qs) in
  let thetaj_taus_jis := (UNIQUAC_thetaj_taus_jis N_ T xs qs tau_as tau_bs tau_cs tau_ds tau_es tau_fs) in
  let gE := (uniquac_GE T N_ 10 xs qs phis thetas thetaj_taus_jis) in
  gE.

(* thermo/uniquac.py, lines 1352-1358: UNIQUAC.dGE_dT. (without the cache; list path) *)
Definition UNIQUAC_dGE_dT (N_ : nat) (T : R) (xs : nat -> R) (rs : nat -> R) (qs : nat -> R) (tau_as : nat -> nat -> R) (tau_bs : nat -> nat -> R) (tau_cs : nat -> nat -> R) (tau_ds : nat -> nat -> R) (tau_es : nat -> nat -> R) (tau_fs : nat -> nat -> R) : R :=
  let T := T in
  let N_ := N_ in
  let xs := xs in
  let qs := qs in
  let thetaj_taus_jis := (UNIQUAC_thetaj_taus_jis N_ T xs qs tau_as tau_bs tau_cs tau_ds tau_es tau_fs) in
  let thetaj_dtaus_dT_jis := (UNIQUAC_thetaj_dtaus_dT_jis N_ T xs qs tau_as tau_bs tau_cs tau_ds tau_es tau_fs) in
  let dGE := (uniquac_dGE_dT T N_ (UNIQUAC_GE N_ T xs rs qs tau_as tau_bs tau_cs tau_ds tau_es tau_fs) xs qs thetaj_taus_jis thetaj_dtaus_dT_jis) in
  dGE.

(* thermo/uniquac.py, lines 1384-1395: UNIQUAC.d2GE_dT2. (without the cache; list path) *)
Definition UNIQUAC_d2GE_dT2 (N_ : nat) (T : R) (xs : nat -> R) (rs : nat -> R) (qs : nat -> R) (tau_as : nat -> nat -> R) (tau_bs : nat -> nat -> R) (tau_cs : nat -> nat -> R) (tau_ds : nat -> nat -> R) (tau_es : nat -> nat -> R) (tau_fs : nat -> nat -> R) : R :=
  let T := T in
  let N_ := N_ in
  let xs := xs in
  let qs := qs in
  let thetaj_taus_jis := (UNIQUAC_thetaj_taus_jis N_ T xs qs tau_as tau_bs tau_cs tau_ds tau_es tau_fs) in
  let thetaj_dtaus_dT_jis := (UNIQUAC_thetaj_dtaus_dT_jis N_ T xs qs tau_as tau_bs tau_cs tau_ds tau_es tau_fs) in
  let thetaj_d2taus_dT2_jis := (UNIQUAC_thetaj_d2taus_dT2_jis N_ T xs qs tau_as tau_bs tau_cs tau_ds tau_es tau_fs) in
  let GE := (UNIQUAC_GE N_ T xs rs qs tau_as tau_bs tau_cs tau_ds tau_es tau_fs) in
  let dGE_dT := (UNIQUAC_dGE_dT N_ T xs rs qs tau_as tau_bs tau_cs tau_ds tau_es tau_fs) in
  let d2GE_dT2 := (uniquac_d2GE_dT2 T N_ GE dGE_dT xs qs thetaj_taus_jis thetaj_dtaus_dT_jis thetaj_d2taus_dT2_jis) in
  d2GE_dT2.

(* thermo/uniquac.py, lines 1423-1433: UNIQUAC.d3GE_dT3. (without the cache; list path) *)
Definition UNIQUAC_d3GE_dT3 (N_ : nat) (T : R) (xs : nat -> R) (qs : nat -> R) (tau_as : nat -> nat -> R) (tau_bs : nat -> nat -> R) (tau_cs : nat -> nat -> R) (tau_ds : nat -> nat -> R) (tau_es : nat -> nat -> R) (tau_fs : nat -> nat -> R) : R :=
  let T := T in
  let N_ := N_ in
  let xs := xs in
  let qs := qs in
  let thetaj_taus_jis := (UNIQUAC_thetaj_taus_jis N_ T xs qs tau_as tau_bs tau_cs tau_ds tau_es tau_fs) in
  let thetaj_dtaus_dT_jis := (UNIQUAC_thetaj_dtaus_dT_jis N_ T xs qs tau_as tau_bs tau_cs tau_ds tau_es tau_fs) in
  let thetaj_d2taus_dT2_jis := (UNIQUAC_thetaj_d2taus_dT2_jis N_ T xs qs tau_as tau_bs tau_cs tau_ds tau_es tau_fs) in
  let thetaj_d3taus_dT3_jis := (UNIQUAC_thetaj_d3taus_dT3_jis N_ T xs qs tau_as tau_bs tau_cs tau_ds tau_es tau_fs) in
  let d3GE_dT3 := (uniquac_d3GE_dT3 T N_ xs qs thetaj_taus_jis thetaj_dtaus_dT_jis thetaj_d2taus_dT2_jis thetaj_d3taus_dT3_jis) in
  d3GE_dT3.

(* thermo/uniquac.py, lines 1464-1483: UNIQUAC.dGE_dxs. (without the cache; list path) *)
Definition UNIQUAC_dGE_dxs (N_ : nat) (T : R) (xs : nat -> R) (rs : nat -> R) (qs : nat -> R) (tau_as : nat -> nat -> R) (tau_bs : nat -> nat -> R) (tau_cs : nat -> nat -> R) (tau_ds : nat -> nat -> R) (tau_es : nat -> nat -> R) (tau_fs : nat -> nat -> R) : nat -> R :=
  let z := 10 in
  let T := T in
  let xs := xs in
  let N_ := N_ in
  let qs := qs in
  let taus := (UNIQUAC_taus N_ T tau_as tau_bs tau_cs tau_ds tau_es tau_fs) in
  let phis := (UNIQUAC_phis N_ xs rs) in
  let phis_inv := (UNIQUAC_phis_inv N_ xs rs) in
  let dphis_dxs := (UNIQUAC_dphis_dxs N_ xs rs) in
  let thetas := (UNIQUAC_thetas N_ xs qs) in
  let dthetas_dxs := (UNIQUAC_dthetas_dxs N_ xs qs) in
  let thetaj_taus_jis := (UNIQUAC_thetaj_taus_jis N_ T xs qs tau_as tau_bs tau_cs tau_ds tau_es tau_fs) in
  let thetaj_taus_jis_inv := (UNIQUAC_thetaj_taus_jis_inv N_ T xs qs tau_as tau_bs tau_cs tau_ds tau_es tau_fs) in
  let dGE_dxs := (fun _ => 0) in
  let dGE_dxs := (uniquac_dGE_dxs N_ T xs qs taus phis phis_inv dphis_dxs thetas dthetas_dxs thetaj_taus_jis thetaj_taus_jis_inv dGE_dxs) in
  dGE_dxs.

(* thermo/uniquac.py, lines 1517-1599: UNIQUAC.d2GE_dTdxs. (without the cache; list path) *)
Definition UNIQUAC_d2GE_dTdxs (N_ : nat) (T : R) (xs : nat -> R) (rs : nat -> R) (qs : nat -> R) (tau_as : nat -> nat -> R) (tau_bs : nat -> nat -> R) (tau_cs : nat -> nat -> R) (tau_ds : nat -> nat -> R) (tau_es : nat -> nat -> R) (tau_fs : nat -> nat -> R) : nat -> R :=
  let z := 10 in
  let T := T in
  let xs := xs in
  let N_ := N_ in
  let qs := qs in
  let taus := (UNIQUAC_taus N_ T tau_as tau_bs tau_cs tau_ds tau_es tau_fs) in
  let phis := (UNIQUAC_phis N_ xs rs) in
  let phis_inv := (UNIQUAC_phis_inv N_ xs rs) in
  let dphis_dxs := (UNIQUAC_dphis_dxs N_ xs rs) in
  let thetas := (UNIQUAC_thetas N_ xs qs) in
  let dthetas_dxs := (UNIQUAC_dthetas_dxs N_ xs qs) in
  let dtaus_dT := (UNIQUAC_dtaus_dT N_ T tau_as tau_bs tau_cs tau_ds tau_es tau_fs) in
  let thetaj_taus_jis := (UNIQUAC_thetaj_taus_jis N_ T xs qs tau_as tau_bs tau_cs tau_ds tau_es tau_fs) in
  let thetaj_taus_jis_inv := (UNIQUAC_thetaj_taus_jis_inv N_ T xs qs tau_as tau_bs tau_cs tau_ds tau_es tau_fs) in
  let thetaj_dtaus_dT_jis := (UNIQUAC_thetaj_dtaus_dT_jis N_ T xs qs tau_as tau_bs tau_cs tau_ds tau_es tau_fs) in
  let d2GE_dTdxs := (fun _ => 0) in
  let qsxs := (fun i => ((qs i) * (xs i))) in
  let qsxsthetaj_taus_jis_inv := (fun i => ((thetaj_taus_jis_inv i) * (qsxs i))) in
  let d2GE_dTdxs := (uniquac_d2GE_dTdxs N_ T xs qs taus phis phis_inv dphis_dxs thetas dthetas_dxs dtaus_dT thetaj_taus_jis thetaj_taus_jis_inv thetaj_dtaus_dT_jis qsxs qsxsthetaj_taus_jis_inv d2GE_dTdxs (fun _ => 0) (fun _ => 0) (fun _ => 0) (fun _ => 0)) in
  d2GE_dTdxs.

(* thermo/uniquac.py, lines 1623-1644: UNIQUAC.d2GE_dxixjs. (without the cache; list path) *)
Definition UNIQUAC_d2GE_dxixjs (N_ : nat) (T : R) (xs : nat -> R) (rs : nat -> R) (qs : nat -> R) (tau_as : nat -> nat -> R) (tau_bs : nat -> nat -> R) (tau_cs : nat -> nat -> R) (tau_ds : nat -> nat -> R) (tau_es : nat -> nat -> R) (tau_fs : nat -> nat -> R) : nat -> nat -> R :=
  let T := T in
  let N_ := N_ in
  let xs := xs in
  let qs := qs in
  let taus := (UNIQUAC_taus N_ T tau_as tau_bs tau_cs tau_ds tau_es tau_fs) in
  let phis := (UNIQUAC_phis N_ xs rs) in
  let thetas := (UNIQUAC_thetas N_ xs qs) in
  let dphis_dxs := (UNIQUAC_dphis_dxs N_ xs rs) in
  let d2phis_dxixjs := (UNIQUAC_d2phis_dxixjs N_ xs rs) in
  let dthetas_dxs := (UNIQUAC_dthetas_dxs N_ xs qs) in
  let d2thetas_dxixjs := (UNIQUAC_d2thetas_dxixjs N_ xs qs) in
  let thetaj_taus_jis := (UNIQUAC_thetaj_taus_jis N_ T xs qs tau_as tau_bs tau_cs tau_ds tau_es tau_fs) in
  let d2GE_dxixjs := (fun u_ => (fun _ => 0)) in
  let L_d2GE_dxixjs := (uniquac_d2GE_dxixjs N_ T xs qs taus phis thetas dphis_dxs d2phis_dxixjs dthetas_dxs d2thetas_dxixjs thetaj_taus_jis d2GE_dxixjs) in
  L_d2GE_dxixjs.

(* thermo/activity.py, lines 876-887: GibbsExcess.gammas. (without the cache; list path) *)
Definition UNIQUAC_gammas (N_ : nat) (T : R) (xs : nat -> R) (rs : nat -> R) (qs : nat -> R) (tau_as : nat -> nat -> R) (tau_bs : nat -> nat -> R) (tau_cs : nat -> nat -> R) (tau_ds : nat -> nat -> R) (tau_es : nat -> nat -> R) (tau_fs : nat -> nat -> R) : nat -> R :=
  let GE := (UNIQUAC_GE N_ T xs rs qs tau_as tau_bs tau_cs tau_ds tau_es tau_fs) in
  let dG_dxs := (UNIQUAC_dGE_dxs N_ T xs rs qs tau_as tau_bs tau_cs tau_ds tau_es tau_fs) in
  let dG_dns := (ext_dxs_to_dn_partials N_ dG_dxs xs GE) in
  let RT_inv := (1 / (Rgas * T)) in
  let gammas := (fun k0_ => let i := dG_dns k0_ in (exp (i * RT_inv))) in
  gammas.

(* thermo/activity.py, lines 83-93: gibbs_excess_gammas. *)
Definition gibbs_excess_gammas (xs : nat -> R) (dG_dxs : nat -> R) (GE : R) (T : R) (gammas : nat -> R) (N_ : nat) : nat -> R :=
  let xdx_totF := GE in
  let N_ := N_ in
  let xdx_totF :=
    loop N_ (fun i xdx_totF =>
      let xdx_totF := (xdx_totF - ((xs i) * (dG_dxs i))) in
      xdx_totF
    ) xdx_totF in
  let RT_inv := ((1 / Rgas) / T) in
  let gammas :=
    loop N_ (fun i gammas =>
      let gammas := upd gammas i (exp (((dG_dxs i) + xdx_totF) * RT_inv)) in
      gammas
    ) gammas in
  gammas.

(* thermo/uniquac.py, lines 427-446: uniquac_gammas_from_args. *)
Definition uniquac_gammas_from_args (xs : nat -> R) (N_ : nat) (T : R) (z : R) (rs : nat -> R) (qs : nat -> R) (taus : nat -> nat -> R) (gammas : nat -> R) : nat -> R :=
  let '(phis, rsxs_sum_inv) := (uniquac_phis N_ xs rs (fun _ => 0)) in
  let phis_inv := (fun _ => 0) in
  let phis_inv :=
    loop N_ (fun i phis_inv =>
      let phis_inv := upd phis_inv i (1 / (phis i)) in
      phis_inv
    ) phis_inv in
  let '(thetas, qsxs_sum_inv) := (uniquac_phis N_ xs qs (fun _ => 0)) in
  let thetaj_taus_jis := (uniquac_thetaj_taus_jis N_ taus thetas (fun _ => 0)) in
  let GE := (uniquac_GE T N_ z xs qs phis thetas thetaj_taus_jis) in
  let dphis_dxs := (uniquac_dphis_dxs N_ rs phis rsxs_sum_inv (fun _ _ => 0) (fun _ => 0)) in
  let dthetas_dxs := (uniquac_dphis_dxs N_ qs thetas qsxs_sum_inv (fun _ _ => 0) (fun _ => 0)) in
  let thetaj_taus_jis_inv := (fun _ => 0) in
  let thetaj_taus_jis_inv :=
    loop N_ (fun i thetaj_taus_jis_inv =>
      let thetaj_taus_jis_inv := upd thetaj_taus_jis_inv i (1 / (thetaj_taus_jis i)) in
      thetaj_taus_jis_inv
    ) thetaj_taus_jis_inv in
  let dGE_dxs := (uniquac_dGE_dxs N_ T xs qs taus phis phis_inv dphis_dxs thetas dthetas_dxs thetaj_taus_jis thetaj_taus_jis_inv (fun _ => 0)) in
  let gammas := (gibbs_excess_gammas xs dGE_dxs GE T gammas N_) in
  gammas.

(* thermo/uniquac.py, lines 1886-2008: UNIQUAC_gammas. (the stand-alone function) *)
Definition UNIQUAC_gammas_function (xs : nat -> R) (rs : nat -> R) (qs : nat -> R) (taus : nat -> nat -> R) (N_ : nat) : nat -> R :=
  let N_ := N_ in
  let rsxs := (fun i => ((rs i) * (xs i))) in
  let rsxs_sum_inv := (1 / (rsum N_ rsxs)) in
  let phis := (fun i => ((rsxs i) * rsxs_sum_inv)) in
  let qsxs := (fun i => ((qs i) * (xs i))) in
  let qsxs_sum_inv := (1 / (rsum N_ qsxs)) in
  let vs := (fun i => ((qsxs i) * qsxs_sum_inv)) in
  let Ss := (fun i => (rsum N_ (fun j => ((vs j) * (taus j i))))) in
  let VsSs := (fun j => ((vs j) / (Ss j))) in
  let ans := (fun _ => 0) in
  let ans :=
    loop N_ (fun i ans =>
      let x1 := ((phis i) / (xs i)) in
      let x2 := ((phis i) / (vs i)) in
      let loggammac := ((((ln x1) + 1) - x1) - ((5 * (qs i)) * (((ln x2) + 1) - x2))) in
      let loggammar := ((qs i) * ((1 - (ln (Ss i))) - (rsum N_ (fun j => ((taus i j) * (VsSs j)))))) in
      let ans := upd ans i (exp (loggammac + loggammar)) in
      ans
    ) ans in
  ans.

(* thermo/uniquac.py, line 1820: MIN_TAU_UNIQUAC. *)
Definition MIN_TAU_UNIQUAC : R := 1 / 10 ^ 20.

(* thermo/uniquac.py, lines 1840-1883: UNIQUAC_gammas_binary. (trunc_exp as the exponential) *)
Definition UNIQUAC_gammas_binary (x1 : R) (r1 : R) (r2 : R) (q1 : R) (q2 : R) (tau12 : R) (tau21 : R) : R * R :=
  let x0 := (q1 * x1) in
  let x2 := (x1 - 1) in
  let x3 := (q2 * x2) in
  let x4 := (((- tau21) * x3) + x0) in
  let x5 := (- x3) in
  let x6 := (x0 + x5) in
  let x7 := (1 / x6) in
  let x8 := (ln (x4 * x7)) in
  let x9 := (r1 * x1) in
  let x10 := (r2 * x2) in
  let x11 := ((- x10) + x9) in
  let x12 := (x11 * x7) in
  let x13 := (5 * (ln ((q1 * x12) / r1))) in
  let x14 := (1 / x11) in
  let x15 := (r1 * x14) in
  let x16 := (1 - x1) in
  let x17 := (r2 * x16) in
  let x18 := (x17 + x9) in
  let x19 := (x11 / (x18 ^ 2)) in
  let x20 := (1 / x4) in
  let x21 := (q2 * x16) in
  let x22 := (1 / (x0 + x21)) in
  let x23 := (x0 * x22) in
  let x24 := (x21 * x22) in
  let x25 := (x22 * x6) in
  let x26 := (1 / x18) in
  let x27 := (x18 * x22) in
  let x28 := (q1 * x27) in
  let x29 := (5 * x14) in
  let x30 := (x29 * x6) in
  let x31 := (tau12 * x0) in
  let x32 := (x31 + x5) in
  let x33 := (x25 / x32) in
  let x34 := ((((((((((((q1 ^ 2) * x1) * x20) * x25) * (((tau21 * x24) + x23) - 1)) + (q1 * x13)) - (((q1 * x3) * x33) * (((- tau12) * (1 - x23)) + x24))) - (q1 * x8)) + (x15 * x2)) - (x19 * x9)) + (((x25 * x29) * x3) * ((- r1) + x28))) - ((x28 * x30) * (x23 - (x26 * x9)))) in
  let x35 := (ln x15) in
  let x36 := (r2 * x14) in
  let x37 := (ln x36) in
  let x38 := (ln (x32 * x7)) in
  let x39 := (5 * (ln ((q2 * x12) / r2))) in
  let x40 := (x23 * x6) in
  let x41 := (((((((((((- (q2 ^ 2)) * x2) * x33) * (((x22 * x31) + x24) - 1)) + (((q2 * x20) * x40) * (((- tau21) * (1 - x24)) + x23))) - (q2 * x38)) + (q2 * x39)) - (x1 * x36)) + (x10 * x19)) - ((x29 * x40) * ((q2 * x27) - r2))) + ((((x27 * x3) * x30) * (((- x17) * x26) + x24)) / x16)) in
  let x42 := ((((((((x0 * x13) - (x0 * x8)) + (x1 * x35)) - (x1 * (x34 + x35))) - (x2 * x37)) + (x2 * (x37 + x41))) + (x3 * x38)) - (x3 * x39)) in
  ((x15 * (exp (x34 + x42))), (x36 * (exp (x41 + x42)))).

(* thermo/uniquac.py, lines 1824-1838: UNIQUAC_gammas_binaries. *)
Definition UNIQUAC_gammas_binaries (xs : nat -> R) (rs : nat -> R) (qs : nat -> R) (tau12 : R) (tau21 : R) (calc : nat -> R) (pts : nat) : nat -> R :=
  let tau12 :=
    if (Rltb tau12 MIN_TAU_UNIQUAC) then
    let tau12 := MIN_TAU_UNIQUAC in
    tau12
    else
    tau12
  in
  let tau21 :=
    if (Rltb tau21 MIN_TAU_UNIQUAC) then
    let tau21 := MIN_TAU_UNIQUAC in
    tau21
    else
    tau21
  in
  let pts := pts in
  let r1 := (rs 0%nat) in
  let r2 := (rs 1%nat) in
  let q1 := (qs 0%nat) in
  let q2 := (qs 1%nat) in
  let allocate_size := (pts * 2%nat)%nat in
  let calc :=
    loop pts (fun i calc =>
      let '(g0, g1) := (UNIQUAC_gammas_binary (xs (i * 2)%nat) r1 r2 q1 q2 tau12 tau21) in
      let calc := upd calc (i * 2)%nat g0 in
      let calc := upd calc ((i * 2)%nat + 1%nat)%nat g1 in
      calc
    ) calc in
  calc.
