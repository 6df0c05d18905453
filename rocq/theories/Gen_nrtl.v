(* NRTL activity coefficient model (thermo/nrtl.py)
   Generated by tools/py2v.py from the text of /repo; do not edit by hand. *)
From Coq Require Import Reals Lra Lia Arith Bool.
From Verif Require Import Base.
Open Scope R_scope.
Open Scope bool_scope.

(* thermo/nrtl.py, lines 279-299: nrtl_xj_Gs_jis_and_Gs_taus_jis. *)
Definition nrtl_xj_Gs_jis_and_Gs_taus_jis (N_ : nat) (xs : nat -> R) (Gs : nat -> nat -> R) (taus : nat -> nat -> R) (Gs_transposed : nat -> nat -> R) (Gs_taus_transposed : nat -> nat -> R) (xj_Gs_jis : nat -> R) (xj_Gs_taus_jis : nat -> R) : (nat -> R) * (nat -> R) :=
  let xj_Gs_jis :=
    loop N_ (fun i xj_Gs_jis =>
      let tot1 := 0 in
      let Gs_row := (Gs_transposed i) in
      let tot1 :=
        loop N_ (fun j tot1 =>
          let xjGji := ((xs j) * (Gs_row j)) in
          let tot1 := (tot1 + xjGji) in
          tot1
        ) tot1 in
      let xj_Gs_jis := upd xj_Gs_jis i tot1 in
      xj_Gs_jis
    ) xj_Gs_jis in
  let xj_Gs_taus_jis :=
    loop N_ (fun i xj_Gs_taus_jis =>
      let tot2 := 0 in
      let Gs_taus_transposed_row := (Gs_taus_transposed i) in
      let tot2 :=
        loop N_ (fun j tot2 =>
          let tot2 := (tot2 + ((xs j) * (Gs_taus_transposed_row j))) in
          tot2
        ) tot2 in
      let xj_Gs_taus_jis := upd xj_Gs_taus_jis i tot2 in
      xj_Gs_taus_jis
    ) xj_Gs_taus_jis in
  (xj_Gs_jis, xj_Gs_taus_jis).

(* thermo/nrtl.py, lines 77-100: nrtl_gammas. *)
Definition nrtl_gammas (xs : nat -> R) (N_ : nat) (Gs : nat -> nat -> R) (taus : nat -> nat -> R) (xj_Gs_jis_inv : nat -> R) (xj_Gs_taus_jis : nat -> R) (gammas : nat -> R) (vec0 : nat -> R) (vec1 : nat -> R) : nat -> R :=
  let vec0 :=
    loop N_ (fun j vec0 =>
      let vec0 := upd vec0 j ((xs j) * (xj_Gs_jis_inv j)) in
      vec0
    ) vec0 in
  let vec1 :=
    loop N_ (fun j vec1 =>
      let vec1 := upd vec1 j ((xj_Gs_taus_jis j) * (xj_Gs_jis_inv j)) in
      vec1
    ) vec1 in
  let gammas :=
    loop N_ (fun i gammas =>
      let tot := (vec1 i) in
      let Gsi := (Gs i) in
      let tausi := (taus i) in
      let tot :=
        loop N_ (fun j tot =>
          let tot := (tot + (((vec0 j) * (Gsi j)) * ((tausi j) - (vec1 j)))) in
          tot
        ) tot in
      let gammas := upd gammas i (exp tot) in
      gammas
    ) gammas in
  gammas.

(* thermo/nrtl.py, lines 103-125: nrtl_taus. *)
Definition nrtl_taus (T : R) (N_ : nat) (A : nat -> nat -> R) (B : nat -> nat -> R) (E_ : nat -> nat -> R) (F : nat -> nat -> R) (G : nat -> nat -> R) (H : nat -> nat -> R) (taus : nat -> nat -> R) : nat -> nat -> R :=
  let T2 := (T * T) in
  let Tinv := (1 / T) in
  let T2inv := (Tinv * Tinv) in
  let logT := (ln T) in
  let taus :=
    loop N_ (fun i taus =>
      let Ai := (A i) in
      let Bi := (B i) in
      let Ei := (E_ i) in
      let Fi := (F i) in
      let Gi := (G i) in
      let Hi := (H i) in
      let taus :=
        loop N_ (fun j taus =>
          let taus := updm taus i j ((((((Ai j) + ((Bi j) * Tinv)) + ((Ei j) * logT)) + ((Fi j) * T)) + ((Gi j) * T2inv)) + ((Hi j) * T2)) in
          taus
        ) taus in
      taus
    ) taus in
  taus.

(* thermo/nrtl.py, lines 127-146: nrtl_dtaus_dT. *)
Definition nrtl_dtaus_dT (T : R) (N_ : nat) (B : nat -> nat -> R) (E_ : nat -> nat -> R) (F : nat -> nat -> R) (G : nat -> nat -> R) (H : nat -> nat -> R) (dtaus_dT : nat -> nat -> R) : nat -> nat -> R :=
  let Tinv := (1 / T) in
  let nT2inv := ((- Tinv) * Tinv) in
  let n2T3inv := ((2 * nT2inv) * Tinv) in
  let T2 := (T + T) in
  let dtaus_dT :=
    loop N_ (fun i dtaus_dT =>
      let Bi := (B i) in
      let Ei := (E_ i) in
      let Fi := (F i) in
      let Gi := (G i) in
      let Hi := (H i) in
      let dtaus_dT :=
        loop N_ (fun j dtaus_dT =>
          let dtaus_dT := updm dtaus_dT i j (((((Fi j) + (nT2inv * (Bi j))) + (Tinv * (Ei j))) + (n2T3inv * (Gi j))) + (T2 * (Hi j))) in
          dtaus_dT
        ) dtaus_dT in
      dtaus_dT
    ) dtaus_dT in
  dtaus_dT.

(* thermo/nrtl.py, lines 148-169: nrtl_d2taus_dT2. *)
Definition nrtl_d2taus_dT2 (T : R) (N_ : nat) (B : nat -> nat -> R) (E_ : nat -> nat -> R) (G : nat -> nat -> R) (H : nat -> nat -> R) (d2taus_dT2 : nat -> nat -> R) : nat -> nat -> R :=
  let Tinv := (1 / T) in
  let Tinv2 := (Tinv * Tinv) in
  let T3inv2 := (2 * (Tinv2 * Tinv)) in
  let nT2inv := ((- Tinv) * Tinv) in
  let T4inv6 := (6 * (Tinv2 * Tinv2)) in
  let d2taus_dT2 :=
    loop N_ (fun i d2taus_dT2 =>
      let Bi := (B i) in
      let Ei := (E_ i) in
      let Gi := (G i) in
      let Hi := (H i) in
      let d2taus_dT2 :=
        loop N_ (fun j d2taus_dT2 =>
          let d2taus_dT2 := updm d2taus_dT2 i j ((((2 * (Hi j)) + (T3inv2 * (Bi j))) + (nT2inv * (Ei j))) + (T4inv6 * (Gi j))) in
          d2taus_dT2
        ) d2taus_dT2 in
      d2taus_dT2
    ) d2taus_dT2 in
  d2taus_dT2.

(* thermo/nrtl.py, lines 171-191: nrtl_d3taus_dT3. *)
Definition nrtl_d3taus_dT3 (T : R) (N_ : nat) (B : nat -> nat -> R) (E_ : nat -> nat -> R) (G : nat -> nat -> R) (d3taus_dT3 : nat -> nat -> R) : nat -> nat -> R :=
  let Tinv := (1 / T) in
  let T2inv := (Tinv * Tinv) in
  let nT4inv6 := (((- 6) * T2inv) * T2inv) in
  let T3inv2 := ((2 * T2inv) * Tinv) in
  let T5inv24 := ((- 24) * ((T2inv * T2inv) * Tinv)) in
  let d3taus_dT3 :=
    loop N_ (fun i d3taus_dT3 =>
      let Bi := (B i) in
      let Ei := (E_ i) in
      let Gi := (G i) in
      let d3taus_dT3 :=
        loop N_ (fun j d3taus_dT3 =>
          let d3taus_dT3 := updm d3taus_dT3 i j (((nT4inv6 * (Bi j)) + (T3inv2 * (Ei j))) + (T5inv24 * (Gi j))) in
          d3taus_dT3
        ) d3taus_dT3 in
      d3taus_dT3
    ) d3taus_dT3 in
  d3taus_dT3.

(* thermo/nrtl.py, lines 193-204: nrtl_alphas. *)
Definition nrtl_alphas (T : R) (N_ : nat) (c : nat -> nat -> R) (d : nat -> nat -> R) (alphas : nat -> nat -> R) : nat -> nat -> R :=
  let alphas :=
    loop N_ (fun i alphas =>
      let ci := (c i) in
      let di := (d i) in
      let alphas :=
        loop N_ (fun j alphas =>
          let alphas := updm alphas i j ((ci j) + ((di j) * T)) in
          alphas
        ) alphas in
      alphas
    ) alphas in
  alphas.

(* thermo/nrtl.py, lines 206-217: nrtl_Gs. *)
Definition nrtl_Gs (N_ : nat) (alphas : nat -> nat -> R) (taus : nat -> nat -> R) (Gs : nat -> nat -> R) : nat -> nat -> R :=
  let Gs :=
    loop N_ (fun i Gs =>
      let alphasi := (alphas i) in
      let tausi := (taus i) in
      let Gs :=
        loop N_ (fun j Gs =>
          let Gs := updm Gs i j (exp ((- (alphasi j)) * (tausi j))) in
          Gs
        ) Gs in
      Gs
    ) Gs in
  Gs.

(* thermo/nrtl.py, lines 219-233: nrtl_dGs_dT. *)
Definition nrtl_dGs_dT (N_ : nat) (alphas : nat -> nat -> R) (dalphas_dT : nat -> nat -> R) (taus : nat -> nat -> R) (dtaus_dT : nat -> nat -> R) (Gs : nat -> nat -> R) (dGs_dT : nat -> nat -> R) : nat -> nat -> R :=
  let dGs_dT :=
    loop N_ (fun i dGs_dT =>
      let alphasi := (alphas i) in
      let tausi := (taus i) in
      let dalphasi := (dalphas_dT i) in
      let dtausi := (dtaus_dT i) in
      let Gsi := (Gs i) in
      let dGs_dT :=
        loop N_ (fun j dGs_dT =>
          let dGs_dT := updm dGs_dT i j ((((- (alphasi j)) * (dtausi j)) - ((tausi j) * (dalphasi j))) * (Gsi j)) in
          dGs_dT
        ) dGs_dT in
      dGs_dT
    ) dGs_dT in
  dGs_dT.

(* thermo/nrtl.py, lines 235-252: nrtl_d2Gs_dT2. *)
Definition nrtl_d2Gs_dT2 (N_ : nat) (alphas : nat -> nat -> R) (dalphas_dT : nat -> nat -> R) (taus : nat -> nat -> R) (dtaus_dT : nat -> nat -> R) (d2taus_dT2 : nat -> nat -> R) (Gs : nat -> nat -> R) (d2Gs_dT2 : nat -> nat -> R) : nat -> nat -> R :=
  let d2Gs_dT2 :=
    loop N_ (fun i d2Gs_dT2 =>
      let alphasi := (alphas i) in
      let tausi := (taus i) in
      let dalphasi := (dalphas_dT i) in
      let dtausi := (dtaus_dT i) in
      let d2taus_dT2i := (d2taus_dT2 i) in
      let Gsi := (Gs i) in
      let d2Gs_dT2 :=
        loop N_ (fun j d2Gs_dT2 =>
          let t1 := (((alphasi j) * (dtausi j)) + ((tausi j) * (dalphasi j))) in
          let d2Gs_dT2 := updm d2Gs_dT2 i j ((((t1 * t1) - ((alphasi j) * (d2taus_dT2i j))) - ((2 * (dalphasi j)) * (dtausi j))) * (Gsi j)) in
          d2Gs_dT2
        ) d2Gs_dT2 in
      d2Gs_dT2
    ) d2Gs_dT2 in
  d2Gs_dT2.

(* thermo/nrtl.py, lines 254-277: nrtl_d3Gs_dT3. *)
Definition nrtl_d3Gs_dT3 (N_ : nat) (alphas : nat -> nat -> R) (dalphas_dT : nat -> nat -> R) (taus : nat -> nat -> R) (dtaus_dT : nat -> nat -> R) (d2taus_dT2 : nat -> nat -> R) (d3taus_dT3 : nat -> nat -> R) (Gs : nat -> nat -> R) (d3Gs_dT3 : nat -> nat -> R) : nat -> nat -> R :=
  let d3Gs_dT3 :=
    loop N_ (fun i d3Gs_dT3 =>
      let alphasi := (alphas i) in
      let tausi := (taus i) in
      let dalphasi := (dalphas_dT i) in
      let dtaus_dTi := (dtaus_dT i) in
      let d2taus_dT2i := (d2taus_dT2 i) in
      let d3taus_dT3i := (d3taus_dT3 i) in
      let Gsi := (Gs i) in
      let d3Gs_dT3 :=
        loop N_ (fun j d3Gs_dT3 =>
          let x0 := (alphasi j) in
          let x1 := (tausi j) in
          let x2 := (dalphasi j) in
          let x3 := (d2taus_dT2i j) in
          let x4 := (dtaus_dTi j) in
          let x5 := ((x0 * x4) + (x1 * x2)) in
          let d3Gs_dT3 := updm d3Gs_dT3 i j ((Gsi j) * (((((- x0) * (d3taus_dT3i j)) - ((3 * x2) * x3)) - ((x5 * x5) * x5)) + ((3 * x5) * ((x0 * x3) + ((2 * x2) * x4))))) in
          d3Gs_dT3
        ) d3Gs_dT3 in
      d3Gs_dT3
    ) d3Gs_dT3 in
  d3Gs_dT3.

(* thermo/nrtl.py, lines 301-310: nrtl_xj_Gs_jis. *)
Definition nrtl_xj_Gs_jis (N_ : nat) (xs : nat -> R) (Gs : nat -> nat -> R) (xj_Gs_jis : nat -> R) : nat -> R :=
  let xj_Gs_jis :=
    loop N_ (fun i xj_Gs_jis =>
      let tot1 := 0 in
      let tot1 :=
        loop N_ (fun j tot1 =>
          let tot1 := (tot1 + ((xs j) * (Gs j i))) in
          tot1
        ) tot1 in
      let xj_Gs_jis := upd xj_Gs_jis i tot1 in
      xj_Gs_jis
    ) xj_Gs_jis in
  xj_Gs_jis.

(* thermo/nrtl.py, lines 312-321: nrtl_xj_Gs_taus_jis. *)
Definition nrtl_xj_Gs_taus_jis (N_ : nat) (xs : nat -> R) (Gs : nat -> nat -> R) (taus : nat -> nat -> R) (xj_Gs_taus_jis : nat -> R) : nat -> R :=
  let xj_Gs_taus_jis :=
    loop N_ (fun i xj_Gs_taus_jis =>
      let tot2 := 0 in
      let tot2 :=
        loop N_ (fun j tot2 =>
          let tot2 := (tot2 + (((xs j) * (Gs j i)) * (taus j i))) in
          tot2
        ) tot2 in
      let xj_Gs_taus_jis := upd xj_Gs_taus_jis i tot2 in
      xj_Gs_taus_jis
    ) xj_Gs_taus_jis in
  xj_Gs_taus_jis.

(* thermo/nrtl.py, lines 323-328: nrtl_GE. *)
Definition nrtl_GE (N_ : nat) (T : R) (xs : nat -> R) (xj_Gs_taus_jis : nat -> R) (xj_Gs_jis_inv : nat -> R) : R :=
  let GE := 0 in
  let GE :=
    loop N_ (fun i GE =>
      let GE := (GE + (((xs i) * (xj_Gs_taus_jis i)) * (xj_Gs_jis_inv i))) in
      GE
    ) GE in
  let GE := (GE * (T * Rgas)) in
  GE.

(* thermo/nrtl.py, lines 330-336: nrtl_dGE_dT. *)
Definition nrtl_dGE_dT (N_ : nat) (T : R) (xs : nat -> R) (xj_Gs_taus_jis : nat -> R) (xj_Gs_jis_inv : nat -> R) (xj_dGs_dT_jis : nat -> R) (xj_taus_dGs_dT_jis : nat -> R) (xj_Gs_dtaus_dT_jis : nat -> R) : R :=
  let dGE_dT := 0 in
  let dGE_dT :=
    loop N_ (fun i dGE_dT =>
      let dGE_dT := (dGE_dT + (((xs i) * ((xj_Gs_taus_jis i) + (T * (((xj_taus_dGs_dT_jis i) + (xj_Gs_dtaus_dT_jis i)) - (((xj_Gs_taus_jis i) * (xj_dGs_dT_jis i)) * (xj_Gs_jis_inv i)))))) * (xj_Gs_jis_inv i))) in
      dGE_dT
    ) dGE_dT in
  let dGE_dT := (dGE_dT * Rgas) in
  dGE_dT.

(* thermo/nrtl.py, lines 338-382: nrtl_d2GE_dT2. *)
Definition nrtl_d2GE_dT2 (N_ : nat) (T : R) (xs : nat -> R) (taus : nat -> nat -> R) (dtaus_dT : nat -> nat -> R) (d2taus_dT2 : nat -> nat -> R) (Gs : nat -> nat -> R) (dGs_dT : nat -> nat -> R) (d2Gs_dT2 : nat -> nat -> R) : R :=
  let tot := 0 in
  let tot :=
    loop N_ (fun i tot =>
      let sum1 := 0 in
      let sum2 := 0 in
      let sum3 := 0 in
      let sum4 := 0 in
      let sum5 := 0 in
      let sum6 := 0 in
      let sum7 := 0 in
      let sum8 := 0 in
      let sum9 := 0 in
      let '(sum1, sum2, sum3, sum4, sum5, sum6, sum7, sum8, sum9) :=
        loop N_ (fun j st_ =>
          let '(sum1, sum2, sum3, sum4, sum5, sum6, sum7, sum8, sum9) := st_ in
          let tauji := (taus j i) in
          let dtaus_dTji := (dtaus_dT j i) in
          let Gjixj := ((Gs j i) * (xs j)) in
          let dGjidTxj := ((dGs_dT j i) * (xs j)) in
          let d2GjidT2xj := ((xs j) * (d2Gs_dT2 j i)) in
          let sum1 := (sum1 + Gjixj) in
          let sum2 := (sum2 + (tauji * Gjixj)) in
          let sum3 := (sum3 + dGjidTxj) in
          let sum4 := (sum4 + (tauji * dGjidTxj)) in
          let sum5 := (sum5 + (dtaus_dTji * Gjixj)) in
          let sum6 := (sum6 + d2GjidT2xj) in
          let sum7 := (sum7 + (tauji * d2GjidT2xj)) in
          let sum8 := (sum8 + (Gjixj * (d2taus_dT2 j i))) in
          let sum9 := (sum9 + (dGjidTxj * dtaus_dTji)) in
          (sum1, sum2, sum3, sum4, sum5, sum6, sum7, sum8, sum9)
        ) (sum1, sum2, sum3, sum4, sum5, sum6, sum7, sum8, sum9) in
      let term1 := ((((- T) * sum2) * (sum6 - (((2 * sum3) * sum3) / sum1))) / sum1) in
      let term2 := (T * ((sum7 + sum8) + (2 * sum9))) in
      let term3 := ((((- 2) * T) * (sum3 * (sum4 + sum5))) / sum1) in
      let term4 := (((- 2) * (sum2 * sum3)) / sum1) in
      let term5 := (2 * (sum4 + sum5)) in
      let tot := (tot + (((xs i) * ((((term1 + term2) + term3) + term4) + term5)) / sum1)) in
      tot
    ) tot in
  let d2GE_dT2 := (Rgas * tot) in
  d2GE_dT2.

(* thermo/nrtl.py, lines 384-395: nrtl_dGE_dxs. *)
Definition nrtl_dGE_dxs (N_ : nat) (T : R) (xs : nat -> R) (taus : nat -> nat -> R) (Gs : nat -> nat -> R) (xj_Gs_taus_jis : nat -> R) (xj_Gs_jis_inv : nat -> R) (dGE_dxs : nat -> R) : nat -> R :=
  let RT := (Rgas * T) in
  let dGE_dxs :=
    loop N_ (fun k dGE_dxs =>
      let tot := ((xj_Gs_taus_jis k) * (xj_Gs_jis_inv k)) in
      let tot :=
        loop N_ (fun i tot =>
          let tot := (tot + ((((xs i) * (xj_Gs_jis_inv i)) * (Gs k i)) * ((taus k i) - ((xj_Gs_jis_inv i) * (xj_Gs_taus_jis i))))) in
          tot
        ) tot in
      let dGE_dxs := upd dGE_dxs k (tot * RT) in
      dGE_dxs
    ) dGE_dxs in
  dGE_dxs.

(* thermo/nrtl.py, lines 397-425: nrtl_d2GE_dxixjs. *)
Definition nrtl_d2GE_dxixjs (N_ : nat) (T : R) (xs : nat -> R) (taus : nat -> nat -> R) (Gs : nat -> nat -> R) (xj_Gs_taus_jis : nat -> R) (xj_Gs_jis_inv : nat -> R) (d2GE_dxixjs : nat -> nat -> R) : nat -> nat -> R :=
  let RT := (Rgas * T) in
  let d2GE_dxixjs :=
    loop N_ (fun i d2GE_dxixjs =>
      let d2GE_dxixjs :=
        loop N_ (fun j d2GE_dxixjs =>
          let tot := 0 in
          let tot := (tot + (((Gs i j) * (taus i j)) * (xj_Gs_jis_inv j))) in
          let tot := (tot + (((Gs j i) * (taus j i)) * (xj_Gs_jis_inv i))) in
          let tot := (tot - (((xj_Gs_taus_jis j) * (Gs i j)) * ((xj_Gs_jis_inv j) * (xj_Gs_jis_inv j)))) in
          let tot := (tot - (((xj_Gs_taus_jis i) * (Gs j i)) * ((xj_Gs_jis_inv i) * (xj_Gs_jis_inv i)))) in
          let tot :=
            loop N_ (fun k tot =>
              let tot := (tot + (((((2 * (xs k)) * (xj_Gs_taus_jis k)) * (Gs i k)) * (Gs j k)) * (((xj_Gs_jis_inv k) * (xj_Gs_jis_inv k)) * (xj_Gs_jis_inv k)))) in
              tot
            ) tot in
          let tot :=
            loop N_ (fun k tot =>
              let tot := (tot - ((((((xs k) * (Gs i k)) * (Gs j k)) * ((taus j k) + (taus i k))) * (xj_Gs_jis_inv k)) * (xj_Gs_jis_inv k))) in
              tot
            ) tot in
          let tot := (tot * RT) in
          let d2GE_dxixjs := updm d2GE_dxixjs i j tot in
          d2GE_dxixjs
        ) d2GE_dxixjs in
      d2GE_dxixjs
    ) d2GE_dxixjs in
  d2GE_dxixjs.

(* thermo/nrtl.py, lines 427-464: nrtl_d2GE_dTdxs. *)
Definition nrtl_d2GE_dTdxs (N_ : nat) (T : R) (xs : nat -> R) (taus : nat -> nat -> R) (dtaus_dT : nat -> nat -> R) (Gs : nat -> nat -> R) (dGs_dT : nat -> nat -> R) (xj_Gs_taus_jis : nat -> R) (xj_Gs_jis_inv : nat -> R) (xj_dGs_dT_jis : nat -> R) (xj_taus_dGs_dT_jis : nat -> R) (xj_Gs_dtaus_dT_jis : nat -> R) (d2GE_dTdxs : nat -> R) (vec0 : nat -> R) (vec1 : nat -> R) : nat -> R :=
  let sum1 := xj_Gs_jis_inv in
  let sum2 := xj_Gs_taus_jis in
  let sum3 := xj_dGs_dT_jis in
  let sum4 := xj_taus_dGs_dT_jis in
  let sum5 := xj_Gs_dtaus_dT_jis in
  let vec0 :=
    loop N_ (fun i vec0 =>
      let vec0 := upd vec0 i ((xs i) * (sum1 i)) in
      vec0
    ) vec0 in
  let vec1 :=
    loop N_ (fun i vec1 =>
      let vec1 := upd vec1 i ((sum1 i) * (sum2 i)) in
      vec1
    ) vec1 in
  let d2GE_dTdxs :=
    loop N_ (fun i d2GE_dTdxs =>
      let others := (vec1 i) in
      let tot1 := ((sum1 i) * (((sum3 i) * (vec1 i)) - ((sum5 i) + (sum4 i)))) in
      let Gsi := (Gs i) in
      let tausi := (taus i) in
      let '(tot1, others) :=
        loop N_ (fun j st_ =>
          let '(tot1, others) := st_ in
          let t0 := ((vec1 j) * (dGs_dT i j)) in
          let t0 := (t0 + (((sum1 j) * (Gsi j)) * ((((sum3 j) * (((tausi j) - (vec1 j)) - (vec1 j))) + (sum5 j)) + (sum4 j)))) in
          let t0 := (t0 - (((Gsi j) * (dtaus_dT i j)) + ((tausi j) * (dGs_dT i j)))) in
          let tot1 := (tot1 + (t0 * (vec0 j))) in
          let others := (others + (((vec0 j) * (Gsi j)) * ((tausi j) - (vec1 j)))) in
          (tot1, others)
        ) (tot1, others) in
      let d2GE_dTdxs := upd d2GE_dTdxs i ((- Rgas) * ((T * tot1) - others)) in
      d2GE_dTdxs
    ) d2GE_dTdxs in
  d2GE_dTdxs.

(* thermo/nrtl.py, lines 726-733: NRTL.__init__. (the flag only) *)
Definition NRTL_alpha_temperature_independent (N_ : nat) (alpha_ds : nat -> nat -> R) : bool :=
  let N_ := N_ in
  let alpha_ds := alpha_ds in
  let alpha_temperature_independent := true in
  let alpha_temperature_independent :=
    loop N_ (fun i alpha_temperature_independent =>
      let r := (alpha_ds i) in
      let alpha_temperature_independent :=
        loop N_ (fun j alpha_temperature_independent =>
          let alpha_temperature_independent :=
            if (negb (Reqb (r j) 0)) then
            let alpha_temperature_independent := false in
            alpha_temperature_independent
            else
            alpha_temperature_independent
          in
          alpha_temperature_independent
        ) alpha_temperature_independent in
      alpha_temperature_independent
    ) alpha_temperature_independent in
  alpha_temperature_independent.

(* thermo/nrtl.py, lines 899-912: NRTL.taus. (without the cache; list path) *)
Definition NRTL_taus (N_ : nat) (T : R) (tau_as : nat -> nat -> R) (tau_bs : nat -> nat -> R) (tau_es : nat -> nat -> R) (tau_fs : nat -> nat -> R) (tau_gs : nat -> nat -> R) (tau_hs : nat -> nat -> R) : nat -> nat -> R :=
  let A := tau_as in
  let B := tau_bs in
  let E_ := tau_es in
  let F := tau_fs in
  let G := tau_gs in
  let H := tau_hs in
  let T := T in
  let N_ := N_ in
  let taus := (fun u_ => (fun _ => 0)) in
  let taus := (nrtl_taus T N_ A B E_ F G H taus) in
  taus.

(* thermo/nrtl.py, lines 936-948: NRTL.dtaus_dT. (without the cache; list path) *)
Definition NRTL_dtaus_dT (N_ : nat) (T : R) (tau_bs : nat -> nat -> R) (tau_es : nat -> nat -> R) (tau_fs : nat -> nat -> R) (tau_gs : nat -> nat -> R) (tau_hs : nat -> nat -> R) : nat -> nat -> R :=
  let B := tau_bs in
  let E_ := tau_es in
  let F := tau_fs in
  let G := tau_gs in
  let H := tau_hs in
  let T := T in
  let N_ := N_ in
  let dtaus_dT := (fun u_ => (fun _ => 0)) in
  let dtaus_dT := (nrtl_dtaus_dT T N_ B E_ F G H dtaus_dT) in
  dtaus_dT.

(* thermo/nrtl.py, lines 971-983: NRTL.d2taus_dT2. (without the cache; list path) *)
Definition NRTL_d2taus_dT2 (N_ : nat) (T : R) (tau_bs : nat -> nat -> R) (tau_es : nat -> nat -> R) (tau_gs : nat -> nat -> R) (tau_hs : nat -> nat -> R) : nat -> nat -> R :=
  let B := tau_bs in
  let E_ := tau_es in
  let G := tau_gs in
  let H := tau_hs in
  let T := T in
  let N_ := N_ in
  let d2taus_dT2 := (fun u_ => (fun _ => 0)) in
  let d2taus_dT2 := (nrtl_d2taus_dT2 T N_ B E_ G H d2taus_dT2) in
  d2taus_dT2.

(* thermo/nrtl.py, lines 1006-1015: NRTL.d3taus_dT3. (without the cache; list path) *)
Definition NRTL_d3taus_dT3 (N_ : nat) (T : R) (tau_bs : nat -> nat -> R) (tau_es : nat -> nat -> R) (tau_gs : nat -> nat -> R) : nat -> nat -> R :=
  let B := tau_bs in
  let E_ := tau_es in
  let G := tau_gs in
  let T := T in
  let N_ := N_ in
  let d3taus_dT3 := (fun u_ => (fun _ => 0)) in
  let d3taus_dT3 := (nrtl_d3taus_dT3 T N_ B E_ G d3taus_dT3) in
  d3taus_dT3.

(* thermo/nrtl.py, lines 1050-1061: NRTL.alphas. (without the cache; list path) *)
Definition NRTL_alphas (N_ : nat) (T : R) (alpha_cs : nat -> nat -> R) (alpha_ds : nat -> nat -> R) (alpha_temperature_independent : bool) : nat -> nat -> R :=
  let N_ := N_ in
  let alphas :=
    if alpha_temperature_independent then
    let alphas := alpha_cs in
    alphas
    else
    let alphas := (fun u_ => (fun _ => 0)) in
    let alphas := (nrtl_alphas T N_ alpha_cs alpha_ds alphas) in
    alphas
  in
  alphas.

(* thermo/nrtl.py, lines 1065-1065: NRTL.dalphas_dT. (without the cache; list path) *)
Definition NRTL_dalphas_dT (alpha_ds : nat -> nat -> R) : nat -> nat -> R :=
  alpha_ds.

(* thermo/nrtl.py, lines 1086-1096: NRTL.Gs. (without the cache; list path) *)
Definition NRTL_Gs (N_ : nat) (T : R) (tau_as : nat -> nat -> R) (tau_bs : nat -> nat -> R) (tau_es : nat -> nat -> R) (tau_fs : nat -> nat -> R) (tau_gs : nat -> nat -> R) (tau_hs : nat -> nat -> R) (alpha_cs : nat -> nat -> R) (alpha_ds : nat -> nat -> R) (alpha_temperature_independent : bool) : nat -> nat -> R :=
  let alphas := (NRTL_alphas N_ T alpha_cs alpha_ds alpha_temperature_independent) in
  let taus := (NRTL_taus N_ T tau_as tau_bs tau_es tau_fs tau_gs tau_hs) in
  let N_ := N_ in
  let Gs := (fun u_ => (fun _ => 0)) in
  let Gs := (nrtl_Gs N_ alphas taus Gs) in
  Gs.

(* thermo/nrtl.py, lines 1125-1138: NRTL.dGs_dT. (without the cache; list path) *)
Definition NRTL_dGs_dT (N_ : nat) (T : R) (tau_as : nat -> nat -> R) (tau_bs : nat -> nat -> R) (tau_es : nat -> nat -> R) (tau_fs : nat -> nat -> R) (tau_gs : nat -> nat -> R) (tau_hs : nat -> nat -> R) (alpha_cs : nat -> nat -> R) (alpha_ds : nat -> nat -> R) (alpha_temperature_independent : bool) : nat -> nat -> R :=
  let alphas := (NRTL_alphas N_ T alpha_cs alpha_ds alpha_temperature_independent) in
  let dalphas_dT := (NRTL_dalphas_dT alpha_ds) in
  let taus := (NRTL_taus N_ T tau_as tau_bs tau_es tau_fs tau_gs tau_hs) in
  let dtaus_dT := (NRTL_dtaus_dT N_ T tau_bs tau_es tau_fs tau_gs tau_hs) in
  let Gs := (NRTL_Gs N_ T tau_as tau_bs tau_es tau_fs tau_gs tau_hs alpha_cs alpha_ds alpha_temperature_independent) in
  let N_ := N_ in
  let dGs_dT := (fun u_ => (fun _ => 0)) in
  let dGs_dT := (nrtl_dGs_dT N_ alphas dalphas_dT taus dtaus_dT Gs dGs_dT) in
  dGs_dT.

(* thermo/nrtl.py, lines 1172-1186: NRTL.d2Gs_dT2. (without the cache; list path) *)
Definition NRTL_d2Gs_dT2 (N_ : nat) (T : R) (tau_as : nat -> nat -> R) (tau_bs : nat -> nat -> R) (tau_es : nat -> nat -> R) (tau_fs : nat -> nat -> R) (tau_gs : nat -> nat -> R) (tau_hs : nat -> nat -> R) (alpha_cs : nat -> nat -> R) (alpha_ds : nat -> nat -> R) (alpha_temperature_independent : bool) : nat -> nat -> R :=
  let alphas := (NRTL_alphas N_ T alpha_cs alpha_ds alpha_temperature_independent) in
  let dalphas_dT := (NRTL_dalphas_dT alpha_ds) in
  let taus := (NRTL_taus N_ T tau_as tau_bs tau_es tau_fs tau_gs tau_hs) in
  let dtaus_dT := (NRTL_dtaus_dT N_ T tau_bs tau_es tau_fs tau_gs tau_hs) in
  let d2taus_dT2 := (NRTL_d2taus_dT2 N_ T tau_bs tau_es tau_gs tau_hs) in
  let Gs := (NRTL_Gs N_ T tau_as tau_bs tau_es tau_fs tau_gs tau_hs alpha_cs alpha_ds alpha_temperature_independent) in
  let N_ := N_ in
  let d2Gs_dT2 := (fun u_ => (fun _ => 0)) in
  let d2Gs_dT2 := (nrtl_d2Gs_dT2 N_ alphas dalphas_dT taus dtaus_dT d2taus_dT2 Gs d2Gs_dT2) in
  d2Gs_dT2.

(* thermo/nrtl.py, lines 1223-1238: NRTL.d3Gs_dT3. (without the cache; list path) *)
Definition NRTL_d3Gs_dT3 (N_ : nat) (T : R) (tau_as : nat -> nat -> R) (tau_bs : nat -> nat -> R) (tau_es : nat -> nat -> R) (tau_fs : nat -> nat -> R) (tau_gs : nat -> nat -> R) (tau_hs : nat -> nat -> R) (alpha_cs : nat -> nat -> R) (alpha_ds : nat -> nat -> R) (alpha_temperature_independent : bool) : nat -> nat -> R :=
  let N_ := N_ in
  let alphas := (NRTL_alphas N_ T alpha_cs alpha_ds alpha_temperature_independent) in
  let dalphas_dT := (NRTL_dalphas_dT alpha_ds) in
  let taus := (NRTL_taus N_ T tau_as tau_bs tau_es tau_fs tau_gs tau_hs) in
  let dtaus_dT := (NRTL_dtaus_dT N_ T tau_bs tau_es tau_fs tau_gs tau_hs) in
  let d2taus_dT2 := (NRTL_d2taus_dT2 N_ T tau_bs tau_es tau_gs tau_hs) in
  let d3taus_dT3 := (NRTL_d3taus_dT3 N_ T tau_bs tau_es tau_gs) in
  let Gs := (NRTL_Gs N_ T tau_as tau_bs tau_es tau_fs tau_gs tau_hs alpha_cs alpha_ds alpha_temperature_independent) in
  let d3Gs_dT3 := (fun u_ => (fun _ => 0)) in
  let d3Gs_dT3 := (nrtl_d3Gs_dT3 N_ alphas dalphas_dT taus dtaus_dT d2taus_dT2 d3taus_dT3 Gs d3Gs_dT3) in
  d3Gs_dT3.

(* thermo/nrtl.py, lines 1247-1251: NRTL.Gs_transposed. (without the cache; list path) *)
Definition NRTL_Gs_transposed (N_ : nat) (T : R) (tau_as : nat -> nat -> R) (tau_bs : nat -> nat -> R) (tau_es : nat -> nat -> R) (tau_fs : nat -> nat -> R) (tau_gs : nat -> nat -> R) (tau_hs : nat -> nat -> R) (alpha_cs : nat -> nat -> R) (alpha_ds : nat -> nat -> R) (alpha_temperature_independent : bool) : nat -> nat -> R :=
  let L_Gs_transposed := (fun i_ j_ => (NRTL_Gs N_ T tau_as tau_bs tau_es tau_fs tau_gs tau_hs alpha_cs alpha_ds alpha_temperature_independent) j_ i_) in
  L_Gs_transposed.

(* thermo/nrtl.py, lines 1260-1270: NRTL.Gs_taus_transposed. (without the cache; list path) *)
Definition NRTL_Gs_taus_transposed (N_ : nat) (T : R) (tau_as : nat -> nat -> R) (tau_bs : nat -> nat -> R) (tau_es : nat -> nat -> R) (tau_fs : nat -> nat -> R) (tau_gs : nat -> nat -> R) (tau_hs : nat -> nat -> R) (alpha_cs : nat -> nat -> R) (alpha_ds : nat -> nat -> R) (alpha_temperature_independent : bool) : nat -> nat -> R :=
  let mat := (fun i_ j_ => (NRTL_taus N_ T tau_as tau_bs tau_es tau_fs tau_gs tau_hs) j_ i_) in
  let Gs_transposed := (NRTL_Gs_transposed N_ T tau_as tau_bs tau_es tau_fs tau_gs tau_hs alpha_cs alpha_ds alpha_temperature_independent) in
  let N_ := N_ in
  let mat :=
    loop N_ (fun i mat =>
      let mat :=
        loop N_ (fun j mat =>
          let mat := updm mat i j ((mat i j) * (Gs_transposed i j)) in
          mat
        ) mat in
      mat
    ) mat in
  mat.

(* thermo/nrtl.py, lines 1279-1289: NRTL.Gs_taus. (without the cache; list path) *)
Definition NRTL_Gs_taus (N_ : nat) (T : R) (tau_as : nat -> nat -> R) (tau_bs : nat -> nat -> R) (tau_es : nat -> nat -> R) (tau_fs : nat -> nat -> R) (tau_gs : nat -> nat -> R) (tau_hs : nat -> nat -> R) (alpha_cs : nat -> nat -> R) (alpha_ds : nat -> nat -> R) (alpha_temperature_independent : bool) : nat -> nat -> R :=
  let N_ := N_ in
  let Gs_taus := (fun u_ => (fun _ => 0)) in
  let taus := (NRTL_taus N_ T tau_as tau_bs tau_es tau_fs tau_gs tau_hs) in
  let Gs := (NRTL_Gs N_ T tau_as tau_bs tau_es tau_fs tau_gs tau_hs alpha_cs alpha_ds alpha_temperature_independent) in
  let Gs_taus :=
    loop N_ (fun i Gs_taus =>
      let Gs_taus :=
        loop N_ (fun j Gs_taus =>
          let Gs_taus := updm Gs_taus i j ((taus i j) * (Gs i j)) in
          Gs_taus
        ) Gs_taus in
      Gs_taus
    ) Gs_taus in
  Gs_taus.

(* thermo/nrtl.py, lines 1300-1325: NRTL.xj_Gs_jis. (without the cache; list path) *)
Definition NRTL_xj_Gs_jis (N_ : nat) (T : R) (xs : nat -> R) (tau_as : nat -> nat -> R) (tau_bs : nat -> nat -> R) (tau_es : nat -> nat -> R) (tau_fs : nat -> nat -> R) (tau_gs : nat -> nat -> R) (tau_hs : nat -> nat -> R) (alpha_cs : nat -> nat -> R) (alpha_ds : nat -> nat -> R) (alpha_temperature_independent : bool) : nat -> R :=
  let Gs := (NRTL_Gs N_ T tau_as tau_bs tau_es tau_fs tau_gs tau_hs alpha_cs alpha_ds alpha_temperature_independent) in
  let taus := (NRTL_taus N_ T tau_as tau_bs tau_es tau_fs tau_gs tau_hs) in
  let Gs_transposed := (NRTL_Gs_transposed N_ T tau_as tau_bs tau_es tau_fs tau_gs tau_hs alpha_cs alpha_ds alpha_temperature_independent) in
  let Gs_taus_transposed := (NRTL_Gs_taus_transposed N_ T tau_as tau_bs tau_es tau_fs tau_gs tau_hs alpha_cs alpha_ds alpha_temperature_independent) in
  let xs := xs in
  let N_ := N_ in
  let u_xj_Gs_jis := (fun _ => 0) in
  let u_xj_Gs_taus_jis := (fun _ => 0) in
  let '(u_xj_Gs_jis, u_xj_Gs_taus_jis) := (nrtl_xj_Gs_jis_and_Gs_taus_jis N_ xs Gs taus Gs_transposed Gs_taus_transposed u_xj_Gs_jis u_xj_Gs_taus_jis) in
  u_xj_Gs_jis.

(* thermo/nrtl.py, lines 1300-1325: NRTL.xj_Gs_jis. (the second list it computes, returned by NRTL.xj_Gs_taus_jis, lines 1344-1350; without the cache; list path) *)
Definition NRTL_xj_Gs_taus_jis (N_ : nat) (T : R) (xs : nat -> R) (tau_as : nat -> nat -> R) (tau_bs : nat -> nat -> R) (tau_es : nat -> nat -> R) (tau_fs : nat -> nat -> R) (tau_gs : nat -> nat -> R) (tau_hs : nat -> nat -> R) (alpha_cs : nat -> nat -> R) (alpha_ds : nat -> nat -> R) (alpha_temperature_independent : bool) : nat -> R :=
  let Gs := (NRTL_Gs N_ T tau_as tau_bs tau_es tau_fs tau_gs tau_hs alpha_cs alpha_ds alpha_temperature_independent) in
  let taus := (NRTL_taus N_ T tau_as tau_bs tau_es tau_fs tau_gs tau_hs) in
  let Gs_transposed := (NRTL_Gs_transposed N_ T tau_as tau_bs tau_es tau_fs tau_gs tau_hs alpha_cs alpha_ds alpha_temperature_independent) in
  let Gs_taus_transposed := (NRTL_Gs_taus_transposed N_ T tau_as tau_bs tau_es tau_fs tau_gs tau_hs alpha_cs alpha_ds alpha_temperature_independent) in
  let xs := xs in
  let N_ := N_ in
  let u_xj_Gs_jis := (fun _ => 0) in
  let u_xj_Gs_taus_jis := (fun _ => 0) in
  let '(u_xj_Gs_jis, u_xj_Gs_taus_jis) := (nrtl_xj_Gs_jis_and_Gs_taus_jis N_ xs Gs taus Gs_transposed Gs_taus_transposed u_xj_Gs_jis u_xj_Gs_taus_jis) in
  u_xj_Gs_taus_jis.

(* thermo/nrtl.py, lines 1336-1342: NRTL.xj_Gs_jis_inv. (without the cache; list path) *)
Definition NRTL_xj_Gs_jis_inv (N_ : nat) (T : R) (xs : nat -> R) (tau_as : nat -> nat -> R) (tau_bs : nat -> nat -> R) (tau_es : nat -> nat -> R) (tau_fs : nat -> nat -> R) (tau_gs : nat -> nat -> R) (tau_hs : nat -> nat -> R) (alpha_cs : nat -> nat -> R) (alpha_ds : nat -> nat -> R) (alpha_temperature_independent : bool) : nat -> R :=
  let xj_Gs_jis := (NRTL_xj_Gs_jis N_ T xs tau_as tau_bs tau_es tau_fs tau_gs tau_hs alpha_cs alpha_ds alpha_temperature_independent) in
  let L_xj_Gs_jis_inv := (fun k0_ => let i := xj_Gs_jis k0_ in (1 / i)) in
  L_xj_Gs_jis_inv.

(* thermo/nrtl.py, lines 1380-1388: NRTL.xj_dGs_dT_jis. (without the cache; list path) *)
Definition NRTL_xj_dGs_dT_jis (N_ : nat) (T : R) (xs : nat -> R) (tau_as : nat -> nat -> R) (tau_bs : nat -> nat -> R) (tau_es : nat -> nat -> R) (tau_fs : nat -> nat -> R) (tau_gs : nat -> nat -> R) (tau_hs : nat -> nat -> R) (alpha_cs : nat -> nat -> R) (alpha_ds : nat -> nat -> R) (alpha_temperature_independent : bool) : nat -> R :=
  let dGs_dT := (NRTL_dGs_dT N_ T tau_as tau_bs tau_es tau_fs tau_gs tau_hs alpha_cs alpha_ds alpha_temperature_independent) in
  let xs := xs in
  let N_ := N_ in
  let xj_dGs_dT_jis := (fun _ => 0) in
  let xj_dGs_dT_jis := (nrtl_xj_Gs_jis N_ xs dGs_dT xj_dGs_dT_jis) in
  xj_dGs_dT_jis.

(* thermo/nrtl.py, lines 1396-1412: NRTL.xj_taus_dGs_dT_jis. (without the cache; list path) *)
Definition NRTL_xj_taus_dGs_dT_jis (N_ : nat) (T : R) (xs : nat -> R) (tau_as : nat -> nat -> R) (tau_bs : nat -> nat -> R) (tau_es : nat -> nat -> R) (tau_fs : nat -> nat -> R) (tau_gs : nat -> nat -> R) (tau_hs : nat -> nat -> R) (alpha_cs : nat -> nat -> R) (alpha_ds : nat -> nat -> R) (alpha_temperature_independent : bool) : nat -> R :=
  let xs := xs in
  let N_ := N_ in
  let dGs_dT := (NRTL_dGs_dT N_ T tau_as tau_bs tau_es tau_fs tau_gs tau_hs alpha_cs alpha_ds alpha_temperature_independent) in
  let taus := (NRTL_taus N_ T tau_as tau_bs tau_es tau_fs tau_gs tau_hs) in
  let xj_taus_dGs_dT_jis := (fun _ => 0) in
  let xj_taus_dGs_dT_jis := (nrtl_xj_Gs_taus_jis N_ xs dGs_dT taus xj_taus_dGs_dT_jis) in
  xj_taus_dGs_dT_jis.

(* thermo/nrtl.py, lines 1420-1435: NRTL.xj_Gs_dtaus_dT_jis. (without the cache; list path) *)
Definition NRTL_xj_Gs_dtaus_dT_jis (N_ : nat) (T : R) (xs : nat -> R) (tau_as : nat -> nat -> R) (tau_bs : nat -> nat -> R) (tau_es : nat -> nat -> R) (tau_fs : nat -> nat -> R) (tau_gs : nat -> nat -> R) (tau_hs : nat -> nat -> R) (alpha_cs : nat -> nat -> R) (alpha_ds : nat -> nat -> R) (alpha_temperature_independent : bool) : nat -> R :=
  let xs := xs in
  let N_ := N_ in
  let dtaus_dT := (NRTL_dtaus_dT N_ T tau_bs tau_es tau_fs tau_gs tau_hs) in
  let Gs := (NRTL_Gs N_ T tau_as tau_bs tau_es tau_fs tau_gs tau_hs alpha_cs alpha_ds alpha_temperature_independent) in
  let xj_Gs_dtaus_dT_jis := (fun _ => 0) in
  let xj_Gs_dtaus_dT_jis := (nrtl_xj_Gs_taus_jis N_ xs Gs dtaus_dT xj_Gs_dtaus_dT_jis) in
  xj_Gs_dtaus_dT_jis.

(* thermo/nrtl.py, lines 1460-1466: NRTL.GE. (without the cache; list path) *)
Definition NRTL_GE (N_ : nat) (T : R) (xs : nat -> R) (tau_as : nat -> nat -> R) (tau_bs : nat -> nat -> R) (tau_es : nat -> nat -> R) (tau_fs : nat -> nat -> R) (tau_gs : nat -> nat -> R) (tau_hs : nat -> nat -> R) (alpha_cs : nat -> nat -> R) (alpha_ds : nat -> nat -> R) (alpha_temperature_independent : bool) : R :=
  let xj_Gs_jis_inv := (NRTL_xj_Gs_jis_inv N_ T xs tau_as tau_bs tau_es tau_fs tau_gs tau_hs alpha_cs alpha_ds alpha_temperature_independent) in
  let xj_Gs_taus_jis := (NRTL_xj_Gs_taus_jis N_ T xs tau_as tau_bs tau_es tau_fs tau_gs tau_hs alpha_cs alpha_ds alpha_temperature_independent) in
  let GE := (nrtl_GE N_ T xs xj_Gs_taus_jis xj_Gs_jis_inv) in
  GE.

(* thermo/nrtl.py, lines 1492-1507: NRTL.dGE_dT. (without the cache; list path) *)
Definition NRTL_dGE_dT (N_ : nat) (T : R) (xs : nat -> R) (tau_as : nat -> nat -> R) (tau_bs : nat -> nat -> R) (tau_es : nat -> nat -> R) (tau_fs : nat -> nat -> R) (tau_gs : nat -> nat -> R) (tau_hs : nat -> nat -> R) (alpha_cs : nat -> nat -> R) (alpha_ds : nat -> nat -> R) (alpha_temperature_independent : bool) : R :=
  let T := T in
  let xs := xs in
  let N_ := N_ in
  let xj_Gs_jis_inv := (NRTL_xj_Gs_jis_inv N_ T xs tau_as tau_bs tau_es tau_fs tau_gs tau_hs alpha_cs alpha_ds alpha_temperature_independent) in
  let xj_Gs_taus_jis := (NRTL_xj_Gs_taus_jis N_ T xs tau_as tau_bs tau_es tau_fs tau_gs tau_hs alpha_cs alpha_ds alpha_temperature_independent) in
  let xj_dGs_dT_jis := (NRTL_xj_dGs_dT_jis N_ T xs tau_as tau_bs tau_es tau_fs tau_gs tau_hs alpha_cs alpha_ds alpha_temperature_independent) in
  let xj_taus_dGs_dT_jis := (NRTL_xj_taus_dGs_dT_jis N_ T xs tau_as tau_bs tau_es tau_fs tau_gs tau_hs alpha_cs alpha_ds alpha_temperature_independent) in
  let xj_Gs_dtaus_dT_jis := (NRTL_xj_Gs_dtaus_dT_jis N_ T xs tau_as tau_bs tau_es tau_fs tau_gs tau_hs alpha_cs alpha_ds alpha_temperature_independent) in
  let xj_Gs_dtaus_dT_jis := (nrtl_dGE_dT N_ T xs xj_Gs_taus_jis xj_Gs_jis_inv xj_dGs_dT_jis xj_taus_dGs_dT_jis xj_Gs_dtaus_dT_jis) in
  xj_Gs_dtaus_dT_jis.

(* thermo/nrtl.py, lines 1535-1545: NRTL.d2GE_dT2. (without the cache; list path) *)
Definition NRTL_d2GE_dT2 (N_ : nat) (T : R) (xs : nat -> R) (tau_as : nat -> nat -> R) (tau_bs : nat -> nat -> R) (tau_es : nat -> nat -> R) (tau_fs : nat -> nat -> R) (tau_gs : nat -> nat -> R) (tau_hs : nat -> nat -> R) (alpha_cs : nat -> nat -> R) (alpha_ds : nat -> nat -> R) (alpha_temperature_independent : bool) : R :=
  let T := T in
  let xs := xs in
  let N_ := N_ in
  let taus := (NRTL_taus N_ T tau_as tau_bs tau_es tau_fs tau_gs tau_hs) in
  let dtaus_dT := (NRTL_dtaus_dT N_ T tau_bs tau_es tau_fs tau_gs tau_hs) in
  let d2taus_dT2 := (NRTL_d2taus_dT2 N_ T tau_bs tau_es tau_gs tau_hs) in
  let Gs := (NRTL_Gs N_ T tau_as tau_bs tau_es tau_fs tau_gs tau_hs alpha_cs alpha_ds alpha_temperature_independent) in
  let dGs_dT := (NRTL_dGs_dT N_ T tau_as tau_bs tau_es tau_fs tau_gs tau_hs alpha_cs alpha_ds alpha_temperature_independent) in
  let d2Gs_dT2 := (NRTL_d2Gs_dT2 N_ T tau_as tau_bs tau_es tau_fs tau_gs tau_hs alpha_cs alpha_ds alpha_temperature_independent) in
  let d2GE_dT2 := (nrtl_d2GE_dT2 N_ T xs taus dtaus_dT d2taus_dT2 Gs dGs_dT d2Gs_dT2) in
  d2GE_dT2.

(* thermo/nrtl.py, lines 1596-1607: NRTL.dGE_dxs. (without the cache; list path) *)
Definition NRTL_dGE_dxs (N_ : nat) (T : R) (xs : nat -> R) (tau_as : nat -> nat -> R) (tau_bs : nat -> nat -> R) (tau_es : nat -> nat -> R) (tau_fs : nat -> nat -> R) (tau_gs : nat -> nat -> R) (tau_hs : nat -> nat -> R) (alpha_cs : nat -> nat -> R) (alpha_ds : nat -> nat -> R) (alpha_temperature_independent : bool) : nat -> R :=
  let T := T in
  let xs := xs in
  let N_ := N_ in
  let taus := (NRTL_taus N_ T tau_as tau_bs tau_es tau_fs tau_gs tau_hs) in
  let Gs := (NRTL_Gs N_ T tau_as tau_bs tau_es tau_fs tau_gs tau_hs alpha_cs alpha_ds alpha_temperature_independent) in
  let xj_Gs_jis_inv := (NRTL_xj_Gs_jis_inv N_ T xs tau_as tau_bs tau_es tau_fs tau_gs tau_hs alpha_cs alpha_ds alpha_temperature_independent) in
  let xj_Gs_taus_jis := (NRTL_xj_Gs_taus_jis N_ T xs tau_as tau_bs tau_es tau_fs tau_gs tau_hs alpha_cs alpha_ds alpha_temperature_independent) in
  let dGE_dxs := (fun _ => 0) in
  let dGE_dxs := (nrtl_dGE_dxs N_ T xs taus Gs xj_Gs_taus_jis xj_Gs_jis_inv dGE_dxs) in
  dGE_dxs.

(* thermo/nrtl.py, lines 1677-1688: NRTL.d2GE_dxixjs. (without the cache; list path) *)
Definition NRTL_d2GE_dxixjs (N_ : nat) (T : R) (xs : nat -> R) (tau_as : nat -> nat -> R) (tau_bs : nat -> nat -> R) (tau_es : nat -> nat -> R) (tau_fs : nat -> nat -> R) (tau_gs : nat -> nat -> R) (tau_hs : nat -> nat -> R) (alpha_cs : nat -> nat -> R) (alpha_ds : nat -> nat -> R) (alpha_temperature_independent : bool) : nat -> nat -> R :=
  let T := T in
  let xs := xs in
  let N_ := N_ in
  let taus := (NRTL_taus N_ T tau_as tau_bs tau_es tau_fs tau_gs tau_hs) in
  let Gs := (NRTL_Gs N_ T tau_as tau_bs tau_es tau_fs tau_gs tau_hs alpha_cs alpha_ds alpha_temperature_independent) in
  let xj_Gs_jis_inv := (NRTL_xj_Gs_jis_inv N_ T xs tau_as tau_bs tau_es tau_fs tau_gs tau_hs alpha_cs alpha_ds alpha_temperature_independent) in
  let xj_Gs_taus_jis := (NRTL_xj_Gs_taus_jis N_ T xs tau_as tau_bs tau_es tau_fs tau_gs tau_hs alpha_cs alpha_ds alpha_temperature_independent) in
  let d2GE_dxixjs := (fun u_ => (fun _ => 0)) in
  let d2GE_dxixjs := (nrtl_d2GE_dxixjs N_ T xs taus Gs xj_Gs_taus_jis xj_Gs_jis_inv d2GE_dxixjs) in
  d2GE_dxixjs.

(* thermo/nrtl.py, lines 1727-1748: NRTL.d2GE_dTdxs. (without the cache; list path) *)
Definition NRTL_d2GE_dTdxs (N_ : nat) (T : R) (xs : nat -> R) (tau_as : nat -> nat -> R) (tau_bs : nat -> nat -> R) (tau_es : nat -> nat -> R) (tau_fs : nat -> nat -> R) (tau_gs : nat -> nat -> R) (tau_hs : nat -> nat -> R) (alpha_cs : nat -> nat -> R) (alpha_ds : nat -> nat -> R) (alpha_temperature_independent : bool) : nat -> R :=
  let xj_Gs_jis_inv := (NRTL_xj_Gs_jis_inv N_ T xs tau_as tau_bs tau_es tau_fs tau_gs tau_hs alpha_cs alpha_ds alpha_temperature_independent) in
  let xj_Gs_taus_jis := (NRTL_xj_Gs_taus_jis N_ T xs tau_as tau_bs tau_es tau_fs tau_gs tau_hs alpha_cs alpha_ds alpha_temperature_independent) in
  let xj_dGs_dT_jis := (NRTL_xj_dGs_dT_jis N_ T xs tau_as tau_bs tau_es tau_fs tau_gs tau_hs alpha_cs alpha_ds alpha_temperature_independent) in
  let xj_taus_dGs_dT_jis := (NRTL_xj_taus_dGs_dT_jis N_ T xs tau_as tau_bs tau_es tau_fs tau_gs tau_hs alpha_cs alpha_ds alpha_temperature_independent) in
  let xj_Gs_dtaus_dT_jis := (NRTL_xj_Gs_dtaus_dT_jis N_ T xs tau_as tau_bs tau_es tau_fs tau_gs tau_hs alpha_cs alpha_ds alpha_temperature_independent) in
  let T := T in
  let xs := xs in
  let N_ := N_ in
  let taus := (NRTL_taus N_ T tau_as tau_bs tau_es tau_fs tau_gs tau_hs) in
  let dtaus_dT := (NRTL_dtaus_dT N_ T tau_bs tau_es tau_fs tau_gs tau_hs) in
  let Gs := (NRTL_Gs N_ T tau_as tau_bs tau_es tau_fs tau_gs tau_hs alpha_cs alpha_ds alpha_temperature_independent) in
  let dGs_dT := (NRTL_dGs_dT N_ T tau_as tau_bs tau_es tau_fs tau_gs tau_hs alpha_cs alpha_ds alpha_temperature_independent) in
  let d2GE_dTdxs := (fun _ => 0) in
  let d2GE_dTdxs := (nrtl_d2GE_dTdxs N_ T xs taus dtaus_dT Gs dGs_dT xj_Gs_taus_jis xj_Gs_jis_inv xj_dGs_dT_jis xj_taus_dGs_dT_jis xj_Gs_dtaus_dT_jis d2GE_dTdxs (fun _ => 0) (fun _ => 0)) in
  d2GE_dTdxs.

(* thermo/nrtl.py, lines 830-846: NRTL.gammas. (without the cache; list path) *)
Definition NRTL_gammas (N_ : nat) (T : R) (xs : nat -> R) (tau_as : nat -> nat -> R) (tau_bs : nat -> nat -> R) (tau_es : nat -> nat -> R) (tau_fs : nat -> nat -> R) (tau_gs : nat -> nat -> R) (tau_hs : nat -> nat -> R) (alpha_cs : nat -> nat -> R) (alpha_ds : nat -> nat -> R) (alpha_temperature_independent : bool) : nat -> R :=
  let taus := (NRTL_taus N_ T tau_as tau_bs tau_es tau_fs tau_gs tau_hs) in
  let Gs := (NRTL_Gs N_ T tau_as tau_bs tau_es tau_fs tau_gs tau_hs alpha_cs alpha_ds alpha_temperature_independent) in
  let xs := xs in
  let N_ := N_ in
  let xj_Gs_jis_inv := (NRTL_xj_Gs_jis_inv N_ T xs tau_as tau_bs tau_es tau_fs tau_gs tau_hs alpha_cs alpha_ds alpha_temperature_independent) in
  let xj_Gs_taus_jis := (NRTL_xj_Gs_taus_jis N_ T xs tau_as tau_bs tau_es tau_fs tau_gs tau_hs alpha_cs alpha_ds alpha_temperature_independent) in
  let gammas := (fun _ => 0) in
  let gammas := (nrtl_gammas xs N_ Gs taus xj_Gs_jis_inv xj_Gs_taus_jis gammas (fun _ => 0) (fun _ => 0)) in
  gammas.

(* thermo/nrtl.py, lines 67-75: nrtl_gammas_from_args. *)
Definition nrtl_gammas_from_args (xs : nat -> R) (N_ : nat) (Gs : nat -> nat -> R) (taus : nat -> nat -> R) (Gs_transposed : nat -> nat -> R) (Gs_taus_transposed : nat -> nat -> R) (Gs_taus : nat -> nat -> R) (xj_Gs_jis : nat -> R) (xj_Gs_taus_jis : nat -> R) (vec0 : nat -> R) (vec1 : nat -> R) (gammas : nat -> R) : nat -> R :=
  let '(xj_Gs_jis, xj_Gs_taus_jis) := (nrtl_xj_Gs_jis_and_Gs_taus_jis N_ xs Gs taus Gs_transposed Gs_taus_transposed xj_Gs_jis xj_Gs_taus_jis) in
  let xj_Gs_jis :=
    loop N_ (fun i xj_Gs_jis =>
      let xj_Gs_jis := upd xj_Gs_jis i (1 / (xj_Gs_jis i)) in
      xj_Gs_jis
    ) xj_Gs_jis in
  (nrtl_gammas xs N_ Gs taus xj_Gs_jis xj_Gs_taus_jis gammas vec0 vec1).

(* thermo/nrtl.py, lines 1858-1859: MIN_TAU_NRTL, MIN_ALPHA_NRTL. *)
Definition MIN_TAU_NRTL : R := - (10 ^ 100).
Definition MIN_ALPHA_NRTL : R := 1 / 10 ^ 10.

(* thermo/nrtl.py, lines 2104-2141: NRTL_gammas. (the stand-alone function) *)
Definition NRTL_gammas_function (xs : nat -> R) (taus : nat -> nat -> R) (alphas : nat -> nat -> R) (N_ : nat) : nat -> R :=
  let N_ := N_ in
  let gammas := (fun _ => 0) in
  let Gs := (fun u_ => (fun _ => 0)) in
  let Gs :=
    loop N_ (fun i Gs =>
      let alphasi := (alphas i) in
      let tausi := (taus i) in
      let Gs := updrow Gs i (fun j => (exp ((- (alphasi j)) * (tausi j)))) in
      Gs
    ) Gs in
  let td2s := (fun _ => 0) in
  let tn3s := (fun _ => 0) in
  let '(td2s, tn3s) :=
    loop N_ (fun j st_ =>
      let '(td2s, tn3s) := st_ in
      let td2 := 0 in
      let tn3 := 0 in
      let '(td2, tn3) :=
        loop N_ (fun k st_ =>
          let '(td2, tn3) := st_ in
          let xkGkj := ((xs k) * (Gs k j)) in
          let td2 := (td2 + xkGkj) in
          let tn3 := (tn3 + (xkGkj * (taus k j))) in
          (td2, tn3)
        ) (td2, tn3) in
      let td2 := (1 / td2) in
      let td2xj := (td2 * (xs j)) in
      let td2s := upd td2s j td2xj in
      let tn3s := upd tn3s j ((tn3 * td2) * td2xj) in
      (td2s, tn3s)
    ) (td2s, tn3s) in
  let gammas :=
    loop N_ (fun i gammas =>
      let tn1 := 0 in
      let td1 := 0 in
      let total2 := 0 in
      let Gsi := (Gs i) in
      let tausi := (taus i) in
      let '(td1, tn1, total2) :=
        loop N_ (fun j st_ =>
          let '(td1, tn1, total2) := st_ in
          let xjGji := ((xs j) * (Gs j i)) in
          let td1 := (td1 + xjGji) in
          let tn1 := (tn1 + (xjGji * (taus j i))) in
          let total2 := (total2 + ((Gsi j) * (((tausi j) * (td2s j)) - (tn3s j)))) in
          (td1, tn1, total2)
        ) (td1, tn1, total2) in
      let gamma := (exp ((tn1 / td1) + total2)) in
      let gammas := upd gammas i gamma in
      gammas
    ) gammas in
  gammas.

(* thermo/nrtl.py, lines 1861-1958: NRTL_gammas_binaries. *)
Definition NRTL_gammas_binaries (xs : nat -> R) (tau12 : R) (tau21 : R) (alpha12 : R) (alpha21 : R) (gammas : nat -> R) (pts : nat) : nat -> R :=
  let tau12 :=
    if (Rltb tau12 MIN_TAU_NRTL) then
    let tau12 := MIN_TAU_NRTL in
    tau12
    else
    tau12
  in
  let tau21 :=
    if (Rltb tau21 MIN_TAU_NRTL) then
    let tau21 := MIN_TAU_NRTL in
    tau21
    else
    tau21
  in
  let alpha12 :=
    if (Rltb alpha12 MIN_ALPHA_NRTL) then
    let alpha12 := MIN_ALPHA_NRTL in
    alpha12
    else
    alpha12
  in
  let alpha21 :=
    if (Rltb alpha21 MIN_ALPHA_NRTL) then
    let alpha21 := MIN_ALPHA_NRTL in
    alpha21
    else
    alpha21
  in
  let pts := pts in
  let tau01 := tau12 in
  let tau10 := tau21 in
  let alpha01 := alpha12 in
  let alpha10 := alpha21 in
  let G01 := (exp ((- alpha01) * tau01)) in
  let G10 := (exp ((- alpha10) * tau10)) in
  let G10_2_tau10 := ((G10 * G10) * tau10) in
  let G10_tau10 := (G10 * tau10) in
  let G01_2_tau01 := ((G01 * G01) * tau01) in
  let G01_tau01 := (G01 * tau01) in
  let gammas :=
    loop pts (fun i gammas =>
      let i2 := (i * 2)%nat in
      let x0 := (xs i2) in
      let x1 := (1 - x0) in
      let c0 := (1 / (x0 + (x1 * G10))) in
      let c0 := (c0 * c0) in
      let c1 := (1 / (x1 + (x0 * G01))) in
      let c1 := (c1 * c1) in
      let gamma0 := (exp ((x1 * x1) * ((G10_2_tau10 * c0) + (G01_tau01 * c1)))) in
      let gamma1 := (exp ((x0 * x0) * ((G01_2_tau01 * c1) + (G10_tau10 * c0)))) in
      let gammas := upd gammas i2 gamma0 in
      let gammas := upd gammas (i2 + 1%nat)%nat gamma1 in
      gammas
    ) gammas in
  gammas.

(* thermo/nrtl.py, lines 1961-2026: NRTL_gammas_binaries_jac. *)
Definition NRTL_gammas_binaries_jac (xs : nat -> R) (tau12 : R) (tau21 : R) (alpha12 : R) (alpha21 : R) (calc : nat -> nat -> R) (pts : nat) : nat -> nat -> R :=
  let tau12 :=
    if (Rltb tau12 MIN_TAU_NRTL) then
    let tau12 := MIN_TAU_NRTL in
    tau12
    else
    tau12
  in
  let tau21 :=
    if (Rltb tau21 MIN_TAU_NRTL) then
    let tau21 := MIN_TAU_NRTL in
    tau21
    else
    tau21
  in
  let alpha12 :=
    if (Rltb alpha12 MIN_ALPHA_NRTL) then
    let alpha12 := MIN_ALPHA_NRTL in
    alpha12
    else
    alpha12
  in
  let alpha21 :=
    if (Rltb alpha21 MIN_ALPHA_NRTL) then
    let alpha21 := MIN_ALPHA_NRTL in
    alpha21
    else
    alpha21
  in
  let pts := pts in
  let tau01 := tau12 in
  let tau10 := tau21 in
  let alpha01 := alpha12 in
  let alpha10 := alpha21 in
  let x2 := (alpha01 * tau01) in
  let x3 := (exp x2) in
  let x11 := (alpha10 * tau10) in
  let x12 := (exp x11) in
  let x26 := (tau01 * tau01) in
  let x27 := (tau10 * tau10) in
  let calc :=
    loop pts (fun i calc =>
      let i2 := (i * 2)%nat in
      let x0 := (xs i2) in
      let x1 := (1 - x0) in
      let x4 := (x1 * x3) in
      let x5 := (x0 + x4) in
      let x5_inv := (1 / x5) in
      let x6 := (2 * x4) in
      let x7 := (x6 * x5_inv) in
      let x8 := (x2 * x7) in
      let x9 := (x5_inv * x5_inv) in
      let x10 := (x1 * x1) in
      let x13 := (x0 * x12) in
      let x14 := (x1 + x13) in
      let x14_inv := (1 / x14) in
      let x15 := (x14_inv * x14_inv) in
      let x16 := (tau10 * x15) in
      let x17 := (tau01 * x9) in
      let x18 := (x10 * (exp (x10 * (x16 + (x17 * x3))))) in
      let x19 := ((x18 * x3) * x9) in
      let x20 := (x0 * x0) in
      let x21 := (x20 * (exp (x20 * ((x12 * x16) + x17)))) in
      let x22 := (2 * x13) in
      let x23 := (x22 * x14_inv) in
      let x24 := (x11 * x23) in
      let x25 := ((x12 * x15) * x21) in
      let calc := updm calc i2 0%nat (x19 * ((x2 - x8) + 1)) in
      let calc := updm calc i2 1%nat (((- x15) * x18) * (x24 - 1)) in
      let calc := updm calc i2 2%nat (((- x19) * x26) * (x7 - 1)) in
      let calc := updm calc i2 3%nat (((((- x18) * x22) * x27) * x15) * x14_inv) in
      let calc := updm calc (i2 + 1%nat)%nat 0%nat (((- x21) * x9) * (x8 - 1)) in
      let calc := updm calc (i2 + 1%nat)%nat 1%nat (x25 * ((x11 - x24) + 1)) in
      let calc := updm calc (i2 + 1%nat)%nat 2%nat (((((- x21) * x26) * x6) * x5_inv) * x9) in
      let calc := updm calc (i2 + 1%nat)%nat 3%nat (((- x25) * x27) * (x23 - 1)) in
      calc
    ) calc in
  calc.
