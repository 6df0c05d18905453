(* Regular solution, Flory-Huggins and Hansen models (thermo/regular_solution.py)
   Generated by tools/py2v.py from the text of /repo; do not edit by hand. *)
From Coq Require Import Reals Lra Lia Arith Bool.
From Verif Require Import Base.
Open Scope R_scope.
Open Scope bool_scope.
From Verif Require Import Gen_uniquac.

(* thermo/regular_solution.py, lines 81-91: regular_solution_His. *)
Definition regular_solution_His (SPs : nat -> R) (coeffs : nat -> nat -> R) (N_ : nat) (His : nat -> nat -> R) : nat -> nat -> R :=
  let His :=
    loop N_ (fun i His =>
      let His :=
        loop N_ (fun j His =>
          let SPi_m_SPj := ((SPs i) - (SPs j)) in
          let Hi := ((((SPs i) * (SPs j)) * ((coeffs i j) + (coeffs j i))) + (SPi_m_SPj * SPi_m_SPj)) in
          let His := updm His i j Hi in
          His
        ) His in
      His
    ) His in
  His.

(* thermo/regular_solution.py, lines 94-106: regular_solution_Hi_sums. *)
Definition regular_solution_Hi_sums (SPs : nat -> R) (Vs : nat -> R) (xsVs : nat -> R) (coeffs : nat -> nat -> R) (N_ : nat) (Hi_sums : nat -> R) : nat -> R :=
  let Hi_sums :=
    loop N_ (fun i Hi_sums =>
      let t := 0 in
      let t :=
        loop N_ (fun j t =>
          let SPi_m_SPj := ((SPs i) - (SPs j)) in
          let Hi := ((((SPs i) * (SPs j)) * ((coeffs i j) + (coeffs j i))) + (SPi_m_SPj * SPi_m_SPj)) in
          let t := (t + ((xsVs j) * Hi)) in
          t
        ) t in
      let Hi_sums := upd Hi_sums i ((Vs i) * t) in
      Hi_sums
    ) Hi_sums in
  Hi_sums.

(* thermo/regular_solution.py, lines 108-117: regular_solution_Hi_sums_fast. *)
Definition regular_solution_Hi_sums_fast (Vs : nat -> R) (xsVs : nat -> R) (His : nat -> nat -> R) (N_ : nat) (Hi_sums : nat -> R) : nat -> R :=
  let Hi_sums :=
    loop N_ (fun i Hi_sums =>
      let t := 0 in
      let Hi_row := (His i) in
      let t :=
        loop N_ (fun j t =>
          let t := (t + ((xsVs j) * (Hi_row j))) in
          t
        ) t in
      let Hi_sums := upd Hi_sums i ((Vs i) * t) in
      Hi_sums
    ) Hi_sums in
  Hi_sums.

(* thermo/regular_solution.py, lines 120-128: regular_solution_Aijs. *)
Definition regular_solution_Aijs (SPs : nat -> R) (coeffs : nat -> nat -> R) (Aijs : nat -> nat -> R) (N_ : nat) : nat -> nat -> R :=
  let N_ := N_ in
  let Aijs :=
    loop N_ (fun i Aijs =>
      let Aijs :=
        loop N_ (fun j Aijs =>
          let d := ((SPs i) - (SPs j)) in
          let Aijs := updm Aijs i j ((((1 / 2) * d) * d) + (((SPs i) * (SPs j)) * (coeffs i j))) in
          Aijs
        ) Aijs in
      Aijs
    ) Aijs in
  Aijs.

(* thermo/regular_solution.py, lines 133-154: regular_solution_GE. *)
Definition regular_solution_GE (SPs : nat -> R) (xsVs : nat -> R) (coeffs : nat -> nat -> R) (N_ : nat) (xsVs_sum_inv : R) : R :=
  let num := 0 in
  let tots := (fun _ => 0) in
  let tot2s := (fun _ => 0) in
  let tots :=
    loop N_ (fun i tots =>
      let tot := 0 in
      let tot :=
        loop N_ (fun j tot =>
          let SPi_m_SPj := ((SPs i) - (SPs j)) in
          let tot := (tot + (((xsVs j) * SPi_m_SPj) * SPi_m_SPj)) in
          tot
        ) tot in
      let tots := upd tots i tot in
      tots
    ) tots in
  let tot2s :=
    loop N_ (fun i tot2s =>
      let tot2 := 0 in
      let tot2 :=
        loop N_ (fun j tot2 =>
          let tot2 := (tot2 + (((xsVs j) * (SPs j)) * (coeffs i j))) in
          tot2
        ) tot2 in
      let tot2s := upd tot2s i tot2 in
      tot2s
    ) tot2s in
  let num :=
    loop N_ (fun i num =>
      let num := (num + ((((1 / 2) * (tots i)) + ((tot2s i) * (SPs i))) * (xsVs i))) in
      num
    ) num in
  (num * xsVs_sum_inv).

(* thermo/regular_solution.py, lines 157-162: regular_solution_GE_from_Aijs. *)
Definition regular_solution_GE_from_Aijs (xsVs : nat -> R) (Aijs : nat -> nat -> R) (xsVs_sum_inv : R) (N_ : nat) : R :=
  let N_ := N_ in
  let num := 0 in
  let num :=
    loop N_ (fun i num =>
      let num :=
        loop N_ (fun j num =>
          let num := (num + (((xsVs i) * (xsVs j)) * (Aijs i j))) in
          num
        ) num in
      num
    ) num in
  (num * xsVs_sum_inv).

(* thermo/regular_solution.py, lines 165-171: regular_solution_dGE_dxs. *)
Definition regular_solution_dGE_dxs (Vs : nat -> R) (Hi_sums : nat -> R) (N_ : nat) (xsVs_sum_inv : R) (GE : R) (dGE_dxs : nat -> R) : nat -> R :=
  let dGE_dxs :=
    loop N_ (fun i dGE_dxs =>
      let dGE_dxs := upd dGE_dxs i (((Hi_sums i) - (GE * (Vs i))) * xsVs_sum_inv) in
      dGE_dxs
    ) dGE_dxs in
  dGE_dxs.

(* thermo/regular_solution.py, lines 174-213: regular_solution_gammas. *)
Definition regular_solution_gammas (xs : nat -> R) (N_ : nat) (T : R) (Vs : nat -> R) (SPs : nat -> R) (lambda_coeffs : nat -> nat -> R) (xsVs : nat -> R) (Hi_sums : nat -> R) (dGE_dxs : nat -> R) (gammas : nat -> R) : nat -> R :=
  let xsVs :=
    loop N_ (fun i xsVs =>
      let xsVs := upd xsVs i ((xs i) * (Vs i)) in
      xsVs
    ) xsVs in
  let xsVs_sum := 0 in
  let xsVs_sum :=
    loop N_ (fun i xsVs_sum =>
      let xsVs_sum := (xsVs_sum + (xsVs i)) in
      xsVs_sum
    ) xsVs_sum in
  let xsVs_sum_inv := (1 / xsVs_sum) in
  let Hi_sums := (regular_solution_Hi_sums SPs Vs xsVs lambda_coeffs N_ Hi_sums) in
  let GE := (regular_solution_GE SPs xsVs lambda_coeffs N_ xsVs_sum_inv) in
  let dG_dxs := (regular_solution_dGE_dxs Vs Hi_sums N_ xsVs_sum_inv GE dGE_dxs) in
  let xdx_totF := GE in
  let xdx_totF :=
    loop N_ (fun i xdx_totF =>
      let xdx_totF := (xdx_totF - ((xs i) * (dG_dxs i))) in
      xdx_totF
    ) xdx_totF in
  let gammas :=
    loop N_ (fun i gammas =>
      let gammas := upd gammas i ((dG_dxs i) + xdx_totF) in
      gammas
    ) gammas in
  let RT_inv := (1 / (Rgas * T)) in
  let gammas :=
    loop N_ (fun i gammas =>
      let gammas := upd gammas i ((gammas i) * RT_inv) in
      gammas
    ) gammas in
  let gammas :=
    loop N_ (fun i gammas =>
      let gammas := upd gammas i (exp (gammas i)) in
      gammas
    ) gammas in
  gammas.

(* thermo/regular_solution.py, lines 217-231: regular_solution_d2GE_dxixjs. *)
Definition regular_solution_d2GE_dxixjs (Vs : nat -> R) (SPs : nat -> R) (Hi_sums : nat -> R) (dGE_dxs : nat -> R) (N_ : nat) (GE : R) (coeffs : nat -> nat -> R) (xsVs_sum_inv : R) (d2GE_dxixjs : nat -> nat -> R) : nat -> nat -> R :=
  let d2GE_dxixjs :=
    loop N_ (fun i d2GE_dxixjs =>
      let v0 := (((((Vs i) * GE) - (Hi_sums i)) * xsVs_sum_inv) * xsVs_sum_inv) in
      let v1 := ((Vs i) * xsVs_sum_inv) in
      let d2GE_dxixjs :=
        loop N_ (fun j d2GE_dxixjs =>
          let SPi_m_SPj := ((SPs i) - (SPs j)) in
          let Hi := ((((SPs i) * (SPs j)) * ((coeffs i j) + (coeffs j i))) + (SPi_m_SPj * SPi_m_SPj)) in
          let tot := (((Vs j) * v0) + (v1 * (((Vs j) * Hi) - (dGE_dxs j)))) in
          let d2GE_dxixjs := updm d2GE_dxixjs i j tot in
          d2GE_dxixjs
        ) d2GE_dxixjs in
      d2GE_dxixjs
    ) d2GE_dxixjs in
  d2GE_dxixjs.

(* thermo/regular_solution.py, lines 235-257: regular_solution_d3GE_dxixjxks. *)
Definition regular_solution_d3GE_dxixjxks (Vs : nat -> R) (SPs : nat -> R) (Hi_sums : nat -> R) (dGE_dxs : nat -> R) (N_ : nat) (GE : R) (xsVs_sum_inv : R) (d2GE_dxixjs : nat -> nat -> R) (coeffs : nat -> nat -> R) (d3GE_dxixjxks : nat -> nat -> nat -> R) : nat -> nat -> nat -> R :=
  let d3GE_dxixjxks :=
    loop N_ (fun i d3GE_dxixjxks =>
      let d3GE_dxixjxks :=
        loop N_ (fun j d3GE_dxixjxks =>
          let d3GE_dxixjxks :=
            loop N_ (fun k d3GE_dxixjxks =>
              let thirds := ((((((- 2) * (Vs i)) * (Vs j)) * (Vs k)) * GE) + (((2 * (Vs j)) * (Vs k)) * (Hi_sums i))) in
              let seconds := ((Vs i) * (((Vs j) * (dGE_dxs k)) + ((Vs k) * (dGE_dxs j)))) in
              let seconds := (seconds - ((((Vs i) * (Vs j)) * (Vs k)) * ((((SPs i) * (((SPs j) * ((coeffs i j) + (coeffs j i))) + ((SPs k) * ((coeffs i k) + (coeffs k i))))) + (((SPs i) - (SPs j)) ^ 2)) + (((SPs i) - (SPs k)) ^ 2)))) in
              let firsts := ((- (Vs i)) * (d2GE_dxixjs j k)) in
              let tot := (((firsts * xsVs_sum_inv) + ((seconds * xsVs_sum_inv) * xsVs_sum_inv)) + (((thirds * xsVs_sum_inv) * xsVs_sum_inv) * xsVs_sum_inv)) in
              let d3GE_dxixjxks := updt d3GE_dxixjxks i j k tot in
              d3GE_dxixjxks
            ) d3GE_dxixjxks in
          d3GE_dxixjxks
        ) d3GE_dxixjxks in
      d3GE_dxixjxks
    ) d3GE_dxixjxks in
  d3GE_dxixjxks.

(* thermo/regular_solution.py, lines 260-273: flory_huggins_GE. *)
Definition flory_huggins_GE (xs : nat -> R) (Vs : nat -> R) (Aijs : nat -> nat -> R) (T : R) (xsVs : nat -> R) (xsVs_sum_inv : R) (N_ : nat) : R :=
  let fh_term := 0 in
  let tmp := (fun _ => 0) in
  let tmp :=
    loop N_ (fun i tmp =>
      let tmp := upd tmp i ((Vs i) * xsVs_sum_inv) in
      tmp
    ) tmp in
  let tmp :=
    loop N_ (fun i tmp =>
      let tmp := upd tmp i (ln (tmp i)) in
      tmp
    ) tmp in
  let fh_term :=
    loop N_ (fun i fh_term =>
      let fh_term := (fh_term + ((xs i) * (tmp i))) in
      fh_term
    ) fh_term in
  (((Rgas * T) * fh_term) + (regular_solution_GE_from_Aijs xsVs Aijs xsVs_sum_inv N_)).

(* thermo/regular_solution.py, lines 276-284: flory_huggins_dGE_dT. *)
Definition flory_huggins_dGE_dT (xs : nat -> R) (Vs : nat -> R) (N_ : nat) : R :=
  let Vi_avg := 0 in
  let Vi_avg :=
    loop N_ (fun i Vi_avg =>
      let Vi_avg := (Vi_avg + ((Vs i) * (xs i))) in
      Vi_avg
    ) Vi_avg in
  let tot := 0 in
  let tot :=
    loop N_ (fun i tot =>
      let tot := (tot + ((xs i) * (ln ((Vs i) / Vi_avg)))) in
      tot
    ) tot in
  (Rgas * tot).

(* thermo/regular_solution.py, lines 287-300: flory_huggins_d2GE_dTdxs. *)
Definition flory_huggins_d2GE_dTdxs (xs : nat -> R) (Vs : nat -> R) (d2GE_dTdxs : nat -> R) (N_ : nat) : nat -> R :=
  let Vi_avg := 0 in
  let Vi_avg :=
    loop N_ (fun i Vi_avg =>
      let Vi_avg := (Vi_avg + ((Vs i) * (xs i))) in
      Vi_avg
    ) Vi_avg in
  let d2GE_dTdxs :=
    loop N_ (fun i d2GE_dTdxs =>
      let Vi := (Vs i) in
      let term1 := (ln (Vi / Vi_avg)) in
      let term2 := (Vi / Vi_avg) in
      let d2GE_dTdxs := upd d2GE_dTdxs i (Rgas * (term1 - term2)) in
      d2GE_dTdxs
    ) d2GE_dTdxs in
  d2GE_dTdxs.

(* thermo/regular_solution.py, lines 303-320: flory_huggins_dGE_dxs. *)
Definition flory_huggins_dGE_dxs (xs : nat -> R) (Vs : nat -> R) (Hi_sums : nat -> R) (N_ : nat) (xsVs_sum_inv : R) (GE : R) (T : R) (dGE_dxs : nat -> R) : nat -> R :=
  let RT := (Rgas * T) in
  let GE :=
    loop N_ (fun i GE =>
      let GE := (GE - ((RT * (xs i)) * (ln ((Vs i) * xsVs_sum_inv)))) in
      GE
    ) GE in
  let dGE_dxs := (regular_solution_dGE_dxs Vs Hi_sums N_ xsVs_sum_inv GE dGE_dxs) in
  let dGE_dxs :=
    loop N_ (fun i dGE_dxs =>
      let flory_huggins_term := (RT * ((ln ((Vs i) * xsVs_sum_inv)) - ((Vs i) * xsVs_sum_inv))) in
      let dGE_dxs := upd dGE_dxs i ((dGE_dxs i) + flory_huggins_term) in
      dGE_dxs
    ) dGE_dxs in
  dGE_dxs.

(* thermo/regular_solution.py, lines 323-350: flory_huggins_d2GE_dxixjs. *)
Definition flory_huggins_d2GE_dxixjs (GE : R) (xs : nat -> R) (Vs : nat -> R) (SPs : nat -> R) (Hi_sums : nat -> R) (N_ : nat) (T : R) (lambda_coeffs : nat -> nat -> R) (xsVs_sum_inv : R) (d2GE_dxixjs : nat -> nat -> R) : nat -> nat -> R :=
  let RT := (Rgas * T) in
  let GE :=
    loop N_ (fun i GE =>
      let GE := (GE - ((RT * (xs i)) * (ln ((Vs i) * xsVs_sum_inv)))) in
      GE
    ) GE in
  let dGE_dxs := (fun _ => 0) in
  let dGE_dxs := (regular_solution_dGE_dxs Vs Hi_sums N_ xsVs_sum_inv GE dGE_dxs) in
  let d2GE_dxixjs := (regular_solution_d2GE_dxixjs Vs SPs Hi_sums dGE_dxs N_ GE lambda_coeffs xsVs_sum_inv d2GE_dxixjs) in
  let RTf := (RT * xsVs_sum_inv) in
  let d2GE_dxixjs :=
    loop N_ (fun i d2GE_dxixjs =>
      let factor := ((Vs i) * xsVs_sum_inv) in
      let d2GE_dxixjs :=
        loop N_ (fun j d2GE_dxixjs =>
          let flory_huggins_term := (RTf * (((factor * (Vs j)) - (Vs i)) - (Vs j))) in
          let d2GE_dxixjs := updm d2GE_dxixjs i j ((d2GE_dxixjs i j) + flory_huggins_term) in
          d2GE_dxixjs
        ) d2GE_dxixjs in
      d2GE_dxixjs
    ) d2GE_dxixjs in
  d2GE_dxixjs.

(* thermo/regular_solution.py, lines 353-393: flory_huggins_d3GE_dxixjxks. *)
Definition flory_huggins_d3GE_dxixjxks (xs : nat -> R) (Vs : nat -> R) (SPs : nat -> R) (Hi_sums : nat -> R) (N_ : nat) (T : R) (GE : R) (xsVs_sum_inv : R) (lambda_coeffs : nat -> nat -> R) (d3GE_dxixjxks : nat -> nat -> nat -> R) : nat -> nat -> nat -> R :=
  let RT := (Rgas * T) in
  let GE :=
    loop N_ (fun i GE =>
      let GE := (GE - ((RT * (xs i)) * (ln ((Vs i) * xsVs_sum_inv)))) in
      GE
    ) GE in
  let dGE_dxs := (fun _ => 0) in
  let dGE_dxs := (regular_solution_dGE_dxs Vs Hi_sums N_ xsVs_sum_inv GE dGE_dxs) in
  let d2GE_dxixjs := (fun u_ => (fun _ => 0)) in
  let d2GE_dxixjs := (regular_solution_d2GE_dxixjs Vs SPs Hi_sums dGE_dxs N_ GE lambda_coeffs xsVs_sum_inv d2GE_dxixjs) in
  let d3GE_dxixjxks := (regular_solution_d3GE_dxixjxks Vs SPs Hi_sums dGE_dxs N_ GE xsVs_sum_inv d2GE_dxixjs lambda_coeffs d3GE_dxixjxks) in
  let d3GE_dxixjxks :=
    loop N_ (fun i d3GE_dxixjxks =>
      let d3GE_dxixjxks :=
        loop N_ (fun j d3GE_dxixjxks =>
          let d3GE_dxixjxks :=
            loop N_ (fun k d3GE_dxixjxks =>
              let m_sum := 0 in
              let m_sum :=
                loop N_ (fun m m_sum =>
                  let m_sum := (m_sum + ((((((((- 2) * (Vs i)) * (Vs j)) * (Vs k)) * (xs m)) * xsVs_sum_inv) * xsVs_sum_inv) * xsVs_sum_inv)) in
                  m_sum
                ) m_sum in
              let flory_huggins_term := (RT * (m_sum + ((xsVs_sum_inv * xsVs_sum_inv) * ((((Vs i) * (Vs j)) + ((Vs i) * (Vs k))) + ((Vs j) * (Vs k)))))) in
              let d3GE_dxixjxks := updt d3GE_dxixjxks i j k ((d3GE_dxixjxks i j k) + flory_huggins_term) in
              d3GE_dxixjxks
            ) d3GE_dxixjxks in
          d3GE_dxixjxks
        ) d3GE_dxixjxks in
      d3GE_dxixjxks
    ) d3GE_dxixjxks in
  d3GE_dxixjxks.

(* thermo/regular_solution.py, lines 1520-1536: hansen_Aijs_His. *)
Definition hansen_Aijs_His (delta_d : nat -> R) (delta_p : nat -> R) (delta_h : nat -> R) (output : nat -> nat -> R) (alpha : R) (multiplier : R) (N_ : nat) : nat -> nat -> R :=
  let N_ := N_ in
  let factor := (alpha * multiplier) in
  let output :=
    loop N_ (fun i output =>
      let output :=
        loop N_ (fun j output =>
          let term_d := ((delta_d i) - (delta_d j)) in
          let term_d := (term_d * term_d) in
          let term_p := ((delta_p i) - (delta_p j)) in
          let term_p := (term_p * ((1 / 4) * term_p)) in
          let term_h := ((delta_h i) - (delta_h j)) in
          let term_h := (term_h * ((1 / 4) * term_h)) in
          let output := updm output i j (factor * ((term_d + term_p) + term_h)) in
          output
        ) output in
      output
    ) output in
  output.

(* thermo/regular_solution.py, lines 1538-1539: hansen_Aijs. *)
Definition hansen_Aijs (delta_d : nat -> R) (delta_p : nat -> R) (delta_h : nat -> R) (Aijs : nat -> nat -> R) (alpha : R) (N_ : nat) : nat -> nat -> R :=
  (hansen_Aijs_His delta_d delta_p delta_h Aijs alpha (1 / 2) N_).

(* thermo/regular_solution.py, lines 1541-1542: hansen_His. *)
Definition hansen_His (delta_d : nat -> R) (delta_p : nat -> R) (delta_h : nat -> R) (His : nat -> nat -> R) (alpha : R) (N_ : nat) : nat -> nat -> R :=
  (hansen_Aijs_His delta_d delta_p delta_h His alpha 1 N_).

(* thermo/regular_solution.py, lines 579-593: RegularSolution.__init__. (the attribute xsVs) *)
Definition RegularSolution_xsVs (N_ : nat) (xs : nat -> R) (Vs : nat -> R) : nat -> R :=
  let xs := xs in
  let Vs := Vs in
  let N_ := N_ in
  let xsVs := (fun _ => 0) in
  let xsVs :=
    loop N_ (fun i xsVs =>
      let xsVs := upd xsVs i ((xs i) * (Vs i)) in
      xsVs
    ) xsVs in
  xsVs.

(* thermo/regular_solution.py, lines 579-593: RegularSolution.__init__. (the attribute xsVs_sum_inv) *)
Definition RegularSolution_xsVs_sum_inv (N_ : nat) (xs : nat -> R) (Vs : nat -> R) : R :=
  let xs := xs in
  let Vs := Vs in
  let N_ := N_ in
  let xsVs_sum := 0 in
  let xsVs_sum :=
    loop N_ (fun i xsVs_sum =>
      let xsVs_sum := (xsVs_sum + ((xs i) * (Vs i))) in
      xsVs_sum
    ) xsVs_sum in
  (1 / xsVs_sum).

(* thermo/regular_solution.py, lines 596-596: RegularSolution.__init__. (the attribute Aijs) *)
Definition RegularSolution_Aijs (N_ : nat) (SPs : nat -> R) (lambda_coeffs : nat -> nat -> R) : nat -> nat -> R :=
  let N_ := N_ in
  (regular_solution_Aijs SPs lambda_coeffs (fun i => (fun _ => 0)) N_).

(* thermo/regular_solution.py, lines 599-599: RegularSolution.__init__. (the attribute His) *)
Definition RegularSolution_His (N_ : nat) (SPs : nat -> R) (lambda_coeffs : nat -> nat -> R) : nat -> nat -> R :=
  let N_ := N_ in
  (regular_solution_His SPs lambda_coeffs N_ (fun i => (fun _ => 0))).

(* thermo/regular_solution.py, lines 771-783: RegularSolution.Hi_sums. (without the cache; list path) *)
Definition RegularSolution_Hi_sums (N_ : nat) (xs : nat -> R) (Vs : nat -> R) (SPs : nat -> R) (lambda_coeffs : nat -> nat -> R) : nat -> R :=
  let Hi_sums := (fun _ => 0) in
  let Hi_sums := (regular_solution_Hi_sums_fast Vs (RegularSolution_xsVs N_ xs Vs) (RegularSolution_His N_ SPs lambda_coeffs) N_ Hi_sums) in
  Hi_sums.

(* thermo/regular_solution.py, lines 698-727: RegularSolution.GE. (without the cache; list path) *)
Definition RegularSolution_GE (N_ : nat) (xs : nat -> R) (Vs : nat -> R) (SPs : nat -> R) (lambda_coeffs : nat -> nat -> R) : R :=
  let GE := (regular_solution_GE_from_Aijs (RegularSolution_xsVs N_ xs Vs) (RegularSolution_Aijs N_ SPs lambda_coeffs) (RegularSolution_xsVs_sum_inv N_ xs Vs) N_) in
  GE.

(* thermo/regular_solution.py, lines 747-768: RegularSolution.dGE_dxs. (without the cache; list path) *)
Definition RegularSolution_dGE_dxs (N_ : nat) (xs : nat -> R) (Vs : nat -> R) (SPs : nat -> R) (lambda_coeffs : nat -> nat -> R) : nat -> R :=
  let GE := (RegularSolution_GE N_ xs Vs SPs lambda_coeffs) in
  let dGE_dxs := (fun _ => 0) in
  let dGE_dxs := (regular_solution_dGE_dxs Vs (RegularSolution_Hi_sums N_ xs Vs SPs lambda_coeffs) N_ (RegularSolution_xsVs_sum_inv N_ xs Vs) GE dGE_dxs) in
  dGE_dxs.

(* thermo/regular_solution.py, lines 802-833: RegularSolution.d2GE_dxixjs. (without the cache; list path) *)
Definition RegularSolution_d2GE_dxixjs (N_ : nat) (xs : nat -> R) (Vs : nat -> R) (SPs : nat -> R) (lambda_coeffs : nat -> nat -> R) : nat -> nat -> R :=
  let GE := (RegularSolution_GE N_ xs Vs SPs lambda_coeffs) in
  let dGE_dxs := (RegularSolution_dGE_dxs N_ xs Vs SPs lambda_coeffs) in
  let N_ := N_ in
  let d2GE_dxixjs := (fun i => (fun _ => 0)) in
  let Hi_sums := (RegularSolution_Hi_sums N_ xs Vs SPs lambda_coeffs) in
  let d2GE_dxixjs := (regular_solution_d2GE_dxixjs Vs SPs Hi_sums dGE_dxs N_ GE lambda_coeffs (RegularSolution_xsVs_sum_inv N_ xs Vs) d2GE_dxixjs) in
  d2GE_dxixjs.

(* thermo/regular_solution.py, lines 853-884: RegularSolution.d3GE_dxixjxks. (without the cache; list path) *)
Definition RegularSolution_d3GE_dxixjxks (N_ : nat) (xs : nat -> R) (Vs : nat -> R) (SPs : nat -> R) (lambda_coeffs : nat -> nat -> R) : nat -> nat -> nat -> R :=
  let N_ := N_ in
  let GE := (RegularSolution_GE N_ xs Vs SPs lambda_coeffs) in
  let dGE_dxs := (RegularSolution_dGE_dxs N_ xs Vs SPs lambda_coeffs) in
  let d2GE_dxixjs := (RegularSolution_d2GE_dxixjs N_ xs Vs SPs lambda_coeffs) in
  let Hi_sums := (RegularSolution_Hi_sums N_ xs Vs SPs lambda_coeffs) in
  let d3GE_dxixjxks := (fun u_ => (fun u_ => (fun _ => 0))) in
  let d3GE_dxixjxks := (regular_solution_d3GE_dxixjxks Vs SPs Hi_sums dGE_dxs N_ GE (RegularSolution_xsVs_sum_inv N_ xs Vs) d2GE_dxixjs lambda_coeffs d3GE_dxixjxks) in
  d3GE_dxixjxks.

(* thermo/activity.py, lines 871-887: GibbsExcess.gammas. (without the cache; list path) *)
Definition RegularSolution_gammas (N_ : nat) (T : R) (xs : nat -> R) (Vs : nat -> R) (SPs : nat -> R) (lambda_coeffs : nat -> nat -> R) : nat -> R :=
  let GE := (RegularSolution_GE N_ xs Vs SPs lambda_coeffs) in
  let dG_dxs := (RegularSolution_dGE_dxs N_ xs Vs SPs lambda_coeffs) in
  let dG_dns := (ext_dxs_to_dn_partials N_ dG_dxs xs GE) in
  let RT_inv := (1 / (Rgas * T)) in
  let gammas := (fun k0_ => let i := dG_dns k0_ in (exp (i * RT_inv))) in
  gammas.

(* thermo/regular_solution.py, lines 579-593: RegularSolution.__init__. (the attribute xsVs) *)
Definition FloryHuggins_xsVs (N_ : nat) (xs : nat -> R) (Vs : nat -> R) : nat -> R :=
  let xs := xs in
  let Vs := Vs in
  let N_ := N_ in
  let xsVs := (fun _ => 0) in
  let xsVs :=
    loop N_ (fun i xsVs =>
      let xsVs := upd xsVs i ((xs i) * (Vs i)) in
      xsVs
    ) xsVs in
  xsVs.

(* thermo/regular_solution.py, lines 579-593: RegularSolution.__init__. (the attribute xsVs_sum_inv) *)
Definition FloryHuggins_xsVs_sum_inv (N_ : nat) (xs : nat -> R) (Vs : nat -> R) : R :=
  let xs := xs in
  let Vs := Vs in
  let N_ := N_ in
  let xsVs_sum := 0 in
  let xsVs_sum :=
    loop N_ (fun i xsVs_sum =>
      let xsVs_sum := (xsVs_sum + ((xs i) * (Vs i))) in
      xsVs_sum
    ) xsVs_sum in
  (1 / xsVs_sum).

(* thermo/regular_solution.py, lines 596-596: RegularSolution.__init__. (the attribute Aijs) *)
Definition FloryHuggins_Aijs (N_ : nat) (SPs : nat -> R) (lambda_coeffs : nat -> nat -> R) : nat -> nat -> R :=
  let N_ := N_ in
  (regular_solution_Aijs SPs lambda_coeffs (fun i => (fun _ => 0)) N_).

(* thermo/regular_solution.py, lines 599-599: RegularSolution.__init__. (the attribute His) *)
Definition FloryHuggins_His (N_ : nat) (SPs : nat -> R) (lambda_coeffs : nat -> nat -> R) : nat -> nat -> R :=
  let N_ := N_ in
  (regular_solution_His SPs lambda_coeffs N_ (fun i => (fun _ => 0))).

(* thermo/regular_solution.py, lines 771-783: RegularSolution.Hi_sums. (without the cache; list path) *)
Definition FloryHuggins_Hi_sums (N_ : nat) (xs : nat -> R) (Vs : nat -> R) (SPs : nat -> R) (lambda_coeffs : nat -> nat -> R) : nat -> R :=
  let Hi_sums := (fun _ => 0) in
  let Hi_sums := (regular_solution_Hi_sums_fast Vs (FloryHuggins_xsVs N_ xs Vs) (FloryHuggins_His N_ SPs lambda_coeffs) N_ Hi_sums) in
  Hi_sums.

(* thermo/regular_solution.py, lines 1296-1302: FloryHuggins.GE. (without the cache; list path) *)
Definition FloryHuggins_GE (N_ : nat) (T : R) (xs : nat -> R) (Vs : nat -> R) (SPs : nat -> R) (lambda_coeffs : nat -> nat -> R) : R :=
  let GE := (flory_huggins_GE xs Vs (FloryHuggins_Aijs N_ SPs lambda_coeffs) T (FloryHuggins_xsVs N_ xs Vs) (FloryHuggins_xsVs_sum_inv N_ xs Vs) N_) in
  GE.

(* thermo/regular_solution.py, lines 1319-1324: FloryHuggins.dGE_dT. (without the cache; list path) *)
Definition FloryHuggins_dGE_dT (N_ : nat) (xs : nat -> R) (Vs : nat -> R) : R :=
  let dGE_dT := (flory_huggins_dGE_dT xs Vs N_) in
  dGE_dT.

(* thermo/regular_solution.py, lines 1343-1353: FloryHuggins.d2GE_dTdxs. (without the cache; list path) *)
Definition FloryHuggins_d2GE_dTdxs (N_ : nat) (xs : nat -> R) (Vs : nat -> R) : nat -> R :=
  let d2GE_dTdxs := (fun _ => 0) in
  let d2GE_dTdxs := (flory_huggins_d2GE_dTdxs xs Vs d2GE_dTdxs N_) in
  d2GE_dTdxs.

(* thermo/regular_solution.py, lines 1377-1394: FloryHuggins.dGE_dxs. (without the cache; list path) *)
Definition FloryHuggins_dGE_dxs (N_ : nat) (T : R) (xs : nat -> R) (Vs : nat -> R) (SPs : nat -> R) (lambda_coeffs : nat -> nat -> R) : nat -> R :=
  let GE := (FloryHuggins_GE N_ T xs Vs SPs lambda_coeffs) in
  let dGE_dxs := (fun _ => 0) in
  let dGE_dxs := (flory_huggins_dGE_dxs xs Vs (FloryHuggins_Hi_sums N_ xs Vs SPs lambda_coeffs) N_ (FloryHuggins_xsVs_sum_inv N_ xs Vs) GE T dGE_dxs) in
  dGE_dxs.

(* thermo/regular_solution.py, lines 1415-1440: FloryHuggins.d2GE_dxixjs. (without the cache; list path) *)
Definition FloryHuggins_d2GE_dxixjs (N_ : nat) (T : R) (xs : nat -> R) (Vs : nat -> R) (SPs : nat -> R) (lambda_coeffs : nat -> nat -> R) : nat -> nat -> R :=
  let GE := (FloryHuggins_GE N_ T xs Vs SPs lambda_coeffs) in
  let N_ := N_ in
  let d2GE_dxixjs := (fun i => (fun _ => 0)) in
  let Hi_sums := (FloryHuggins_Hi_sums N_ xs Vs SPs lambda_coeffs) in
  let d2GE_dxixjs := (flory_huggins_d2GE_dxixjs GE xs Vs SPs Hi_sums N_ T lambda_coeffs (FloryHuggins_xsVs_sum_inv N_ xs Vs) d2GE_dxixjs) in
  d2GE_dxixjs.

(* thermo/regular_solution.py, lines 1461-1486: FloryHuggins.d3GE_dxixjxks. (without the cache; list path) *)
Definition FloryHuggins_d3GE_dxixjxks (N_ : nat) (T : R) (xs : nat -> R) (Vs : nat -> R) (SPs : nat -> R) (lambda_coeffs : nat -> nat -> R) : nat -> nat -> nat -> R :=
  let N_ := N_ in
  let GE := (FloryHuggins_GE N_ T xs Vs SPs lambda_coeffs) in
  let Hi_sums := (FloryHuggins_Hi_sums N_ xs Vs SPs lambda_coeffs) in
  let d3GE_dxixjxks := (fun u_ => (fun u_ => (fun _ => 0))) in
  let d3GE_dxixjxks := (flory_huggins_d3GE_dxixjxks xs Vs SPs Hi_sums N_ T GE (FloryHuggins_xsVs_sum_inv N_ xs Vs) lambda_coeffs d3GE_dxixjxks) in
  d3GE_dxixjxks.

(* thermo/activity.py, lines 871-887: GibbsExcess.gammas. (without the cache; list path) *)
Definition FloryHuggins_gammas (N_ : nat) (T : R) (xs : nat -> R) (Vs : nat -> R) (SPs : nat -> R) (lambda_coeffs : nat -> nat -> R) : nat -> R :=
  let GE := (FloryHuggins_GE N_ T xs Vs SPs lambda_coeffs) in
  let dG_dxs := (FloryHuggins_dGE_dxs N_ T xs Vs SPs lambda_coeffs) in
  let dG_dns := (ext_dxs_to_dn_partials N_ dG_dxs xs GE) in
  let RT_inv := (1 / (Rgas * T)) in
  let gammas := (fun k0_ => let i := dG_dns k0_ in (exp (i * RT_inv))) in
  gammas.

(* thermo/regular_solution.py, lines 1659-1672: Hansen.__init__. (the attribute xsVs) *)
Definition Hansen_xsVs (N_ : nat) (xs : nat -> R) (Vs : nat -> R) : nat -> R :=
  let xs := xs in
  let Vs := Vs in
  let N_ := N_ in
  let xsVs := (fun _ => 0) in
  let xsVs :=
    loop N_ (fun i xsVs =>
      let xsVs := upd xsVs i ((xs i) * (Vs i)) in
      xsVs
    ) xsVs in
  xsVs.

(* thermo/regular_solution.py, lines 1659-1672: Hansen.__init__. (the attribute xsVs_sum_inv) *)
Definition Hansen_xsVs_sum_inv (N_ : nat) (xs : nat -> R) (Vs : nat -> R) : R :=
  let xs := xs in
  let Vs := Vs in
  let N_ := N_ in
  let xsVs_sum := 0 in
  let xsVs_sum :=
    loop N_ (fun i xsVs_sum =>
      let xsVs_sum := (xsVs_sum + ((xs i) * (Vs i))) in
      xsVs_sum
    ) xsVs_sum in
  (1 / xsVs_sum).

(* thermo/regular_solution.py, lines 1674-1674: Hansen.__init__. (the attribute Aijs) *)
Definition Hansen_Aijs (N_ : nat) (delta_d : nat -> R) (delta_p : nat -> R) (delta_h : nat -> R) (alpha : R) : nat -> nat -> R :=
  let N_ := N_ in
  (hansen_Aijs delta_d delta_p delta_h (fun i => (fun _ => 0)) alpha N_).

(* thermo/regular_solution.py, lines 1675-1675: Hansen.__init__. (the attribute His) *)
Definition Hansen_His (N_ : nat) (delta_d : nat -> R) (delta_p : nat -> R) (delta_h : nat -> R) (alpha : R) : nat -> nat -> R :=
  let N_ := N_ in
  (hansen_His delta_d delta_p delta_h (fun i => (fun _ => 0)) alpha N_).

(* thermo/regular_solution.py, lines 771-783: RegularSolution.Hi_sums. (without the cache; list path) *)
Definition Hansen_Hi_sums (N_ : nat) (xs : nat -> R) (Vs : nat -> R) (delta_d : nat -> R) (delta_p : nat -> R) (delta_h : nat -> R) (alpha : R) : nat -> R :=
  let Hi_sums := (fun _ => 0) in
  let Hi_sums := (regular_solution_Hi_sums_fast Vs (Hansen_xsVs N_ xs Vs) (Hansen_His N_ delta_d delta_p delta_h alpha) N_ Hi_sums) in
  Hi_sums.

(* thermo/regular_solution.py, lines 1296-1302: FloryHuggins.GE. (without the cache; list path) *)
Definition Hansen_GE (N_ : nat) (T : R) (xs : nat -> R) (Vs : nat -> R) (delta_d : nat -> R) (delta_p : nat -> R) (delta_h : nat -> R) (alpha : R) : R :=
  let GE := (flory_huggins_GE xs Vs (Hansen_Aijs N_ delta_d delta_p delta_h alpha) T (Hansen_xsVs N_ xs Vs) (Hansen_xsVs_sum_inv N_ xs Vs) N_) in
  GE.

(* thermo/regular_solution.py, lines 1319-1324: FloryHuggins.dGE_dT. (without the cache; list path) *)
Definition Hansen_dGE_dT (N_ : nat) (xs : nat -> R) (Vs : nat -> R) : R :=
  let dGE_dT := (flory_huggins_dGE_dT xs Vs N_) in
  dGE_dT.

(* thermo/regular_solution.py, lines 1343-1353: FloryHuggins.d2GE_dTdxs. (without the cache; list path) *)
Definition Hansen_d2GE_dTdxs (N_ : nat) (xs : nat -> R) (Vs : nat -> R) : nat -> R :=
  let d2GE_dTdxs := (fun _ => 0) in
  let d2GE_dTdxs := (flory_huggins_d2GE_dTdxs xs Vs d2GE_dTdxs N_) in
  d2GE_dTdxs.

(* thermo/regular_solution.py, lines 1377-1394: FloryHuggins.dGE_dxs. (without the cache; list path) *)
Definition Hansen_dGE_dxs (N_ : nat) (T : R) (xs : nat -> R) (Vs : nat -> R) (delta_d : nat -> R) (delta_p : nat -> R) (delta_h : nat -> R) (alpha : R) : nat -> R :=
  let GE := (Hansen_GE N_ T xs Vs delta_d delta_p delta_h alpha) in
  let dGE_dxs := (fun _ => 0) in
  let dGE_dxs := (flory_huggins_dGE_dxs xs Vs (Hansen_Hi_sums N_ xs Vs delta_d delta_p delta_h alpha) N_ (Hansen_xsVs_sum_inv N_ xs Vs) GE T dGE_dxs) in
  dGE_dxs.

(* thermo/activity.py, lines 871-887: GibbsExcess.gammas. (without the cache; list path) *)
Definition Hansen_gammas (N_ : nat) (T : R) (xs : nat -> R) (Vs : nat -> R) (delta_d : nat -> R) (delta_p : nat -> R) (delta_h : nat -> R) (alpha : R) : nat -> R :=
  let GE := (Hansen_GE N_ T xs Vs delta_d delta_p delta_h alpha) in
  let dG_dxs := (Hansen_dGE_dxs N_ T xs Vs delta_d delta_p delta_h alpha) in
  let dG_dns := (ext_dxs_to_dn_partials N_ dG_dxs xs GE) in
  let RT_inv := (1 / (Rgas * T)) in
  let gammas := (fun k0_ => let i := dG_dns k0_ in (exp (i * RT_inv))) in
  gammas.

(* thermo/regular_solution.py, lines 1046-1048: MIN_LAMBDA_REGULAR_SOLUTION, MAX_LAMBDA_REGULAR_SOLUTION, MAX_GAMMA_REGULAR_SOLUTION. *)
Definition MIN_LAMBDA_REGULAR_SOLUTION : R := - 10 ^ 100.
Definition MAX_LAMBDA_REGULAR_SOLUTION : R := 10 ^ 100.
Definition MAX_GAMMA_REGULAR_SOLUTION : R := 10 ^ 10.

(* thermo/regular_solution.py, lines 1117-1151: regular_solution_gammas_binaries. (trunc_exp as the exponential) *)
Definition regular_solution_gammas_binaries (xs : nat -> R) (Vs : nat -> R) (SPs : nat -> R) (Ts : nat -> R) (lambda12 : R) (lambda21 : R) (gammas : nat -> R) (pts : nat) : nat -> R :=
  let lambda12 :=
    if (Rltb lambda12 MIN_LAMBDA_REGULAR_SOLUTION) then
    let lambda12 := MIN_LAMBDA_REGULAR_SOLUTION in
    lambda12
    else
    lambda12
  in
  let lambda21 :=
    if (Rltb lambda21 MIN_LAMBDA_REGULAR_SOLUTION) then
    let lambda21 := MIN_LAMBDA_REGULAR_SOLUTION in
    lambda21
    else
    lambda21
  in
  let lambda12 :=
    if (Rltb MAX_LAMBDA_REGULAR_SOLUTION lambda12) then
    let lambda12 := MAX_LAMBDA_REGULAR_SOLUTION in
    lambda12
    else
    lambda12
  in
  let lambda21 :=
    if (Rltb MAX_LAMBDA_REGULAR_SOLUTION lambda21) then
    let lambda21 := MAX_LAMBDA_REGULAR_SOLUTION in
    lambda21
    else
    lambda21
  in
  let pts := pts in
  let l01 := lambda12 in
  let l10 := lambda21 in
  let SP0 := (SPs 0%nat) in
  let SP1 := (SPs 1%nat) in
  let V0 := (Vs 0%nat) in
  let V1 := (Vs 1%nat) in
  let c0 := (SP0 - SP1) in
  let base_term := ((((c0 * c0) + ((l01 * SP0) * SP1)) + ((l10 * SP0) * SP1)) * (1 / Rgas)) in
  let gammas :=
    loop pts (fun i gammas =>
      let i2 := (i * 2)%nat in
      let x0 := (xs i2) in
      let x1 := (1 - x0) in
      let x0V0 := (x0 * V0) in
      let x1V1 := (x1 * V1) in
      let den_inv := (1 / (x0V0 + x1V1)) in
      let phi0 := (x0V0 * den_inv) in
      let phi1 := (x1V1 * den_inv) in
      let term := (base_term / (Ts i)) in
      let gammas := upd gammas i2 (Rmin (exp (((V0 * phi1) * phi1) * term)) MAX_GAMMA_REGULAR_SOLUTION) in
      let gammas := upd gammas (i2 + 1%nat)%nat (Rmin (exp (((V1 * phi0) * phi0) * term)) MAX_GAMMA_REGULAR_SOLUTION) in
      gammas
    ) gammas in
  gammas.

(* thermo/regular_solution.py, lines 1154-1199: regular_solution_gammas_binaries_jac. (trunc_exp as the exponential) *)
Definition regular_solution_gammas_binaries_jac (xs : nat -> R) (Vs : nat -> R) (SPs : nat -> R) (Ts : nat -> R) (lambda12 : R) (lambda21 : R) (jac : nat -> nat -> R) (pts : nat) : nat -> nat -> R :=
  let lambda12 :=
    if (Rltb lambda12 MIN_LAMBDA_REGULAR_SOLUTION) then
    let lambda12 := MIN_LAMBDA_REGULAR_SOLUTION in
    lambda12
    else
    lambda12
  in
  let lambda21 :=
    if (Rltb lambda21 MIN_LAMBDA_REGULAR_SOLUTION) then
    let lambda21 := MIN_LAMBDA_REGULAR_SOLUTION in
    lambda21
    else
    lambda21
  in
  let lambda12 :=
    if (Rltb MAX_LAMBDA_REGULAR_SOLUTION lambda12) then
    let lambda12 := MAX_LAMBDA_REGULAR_SOLUTION in
    lambda12
    else
    lambda12
  in
  let lambda21 :=
    if (Rltb MAX_LAMBDA_REGULAR_SOLUTION lambda21) then
    let lambda21 := MAX_LAMBDA_REGULAR_SOLUTION in
    lambda21
    else
    lambda21
  in
  let pts := pts in
  let l01 := lambda12 in
  let l10 := lambda21 in
  let SP0 := (SPs 0%nat) in
  let SP1 := (SPs 1%nat) in
  let V0 := (Vs 0%nat) in
  let V1 := (Vs 1%nat) in
  let x2 := (SP0 * SP1) in
  let c99 := (SP0 - SP1) in
  let c100 := (((l01 * x2) + (l10 * x2)) + (c99 * c99)) in
  let c101 := ((V0 * V1) * V1) in
  let c102 := ((V0 * V0) * V1) in
  let jac :=
    loop pts (fun i jac =>
      let i2 := (i * 2)%nat in
      let x0 := (xs i2) in
      let x1 := (1 - x0) in
      let T := (Ts i) in
      let c0 := ((V0 * x0) + (V1 * x1)) in
      let x3 := ((1 / Rgas) / ((T * c0) * c0)) in
      let x4 := (x3 * c100) in
      let x5 := ((c101 * x1) * x1) in
      let x6 := (x2 * x3) in
      let x7 := ((x5 * x6) * (exp (x4 * x5))) in
      let x8 := ((c102 * x0) * x0) in
      let x9 := ((x6 * x8) * (exp (x4 * x8))) in
      let jac := updm jac i2 0%nat x7 in
      let jac := updm jac i2 1%nat x7 in
      let jac := updm jac (i2 + 1%nat)%nat 0%nat x9 in
      let jac := updm jac (i2 + 1%nat)%nat 1%nat x9 in
      jac
    ) jac in
  jac.
