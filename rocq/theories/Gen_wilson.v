(* Wilson activity coefficient model (thermo/wilson.py, thermo/activity.py)
   Generated by tools/py2v.py from the text of /repo; do not edit by hand. *)
From Coq Require Import Reals Lra Lia Arith Bool.
From Verif Require Import Base.
Open Scope R_scope.
Open Scope bool_scope.

(* thermo/activity.py, lines 144-181: interaction_exp. *)
Definition interaction_exp (T : R) (N_ : nat) (A : nat -> nat -> R) (B : nat -> nat -> R) (C_ : nat -> nat -> R) (D_ : nat -> nat -> R) (E_ : nat -> nat -> R) (F : nat -> nat -> R) (lambdas : nat -> nat -> R) : nat -> nat -> R :=
  let T2 := (T * T) in
  let Tinv := (1 / T) in
  let T2inv := (Tinv * Tinv) in
  let logT := (ln T) in
  let lambdas :=
    loop N_ (fun i lambdas =>
      let Ai := (A i) in
      let Bi := (B i) in
      let Ci := (C_ i) in
      let Di := (D_ i) in
      let Ei := (E_ i) in
      let Fi := (F i) in
      let lambdas :=
        loop N_ (fun j lambdas =>
          let lambdas := updm lambdas i j (exp ((((((Ai j) + ((Bi j) * Tinv)) + ((Ci j) * logT)) + ((Di j) * T)) + ((Ei j) * T2inv)) + ((Fi j) * T2))) in
          lambdas
        ) lambdas in
      lambdas
    ) lambdas in
  lambdas.

(* thermo/activity.py, lines 184-204: dinteraction_exp_dT. *)
Definition dinteraction_exp_dT (T : R) (N_ : nat) (B : nat -> nat -> R) (C_ : nat -> nat -> R) (D_ : nat -> nat -> R) (E_ : nat -> nat -> R) (F : nat -> nat -> R) (lambdas : nat -> nat -> R) (dlambdas_dT : nat -> nat -> R) : nat -> nat -> R :=
  let T2 := (T + T) in
  let Tinv := (1 / T) in
  let nT2inv := ((- Tinv) * Tinv) in
  let nT3inv2 := ((2 * nT2inv) * Tinv) in
  let dlambdas_dT :=
    loop N_ (fun i dlambdas_dT =>
      let lambdasi := (lambdas i) in
      let Bi := (B i) in
      let Ci := (C_ i) in
      let Di := (D_ i) in
      let Ei := (E_ i) in
      let Fi := (F i) in
      let dlambdas_dT :=
        loop N_ (fun j dlambdas_dT =>
          let dlambdas_dT := updm dlambdas_dT i j ((((((T2 * (Fi j)) + (Di j)) + ((Ci j) * Tinv)) + ((Bi j) * nT2inv)) + ((Ei j) * nT3inv2)) * (lambdasi j)) in
          dlambdas_dT
        ) dlambdas_dT in
      dlambdas_dT
    ) dlambdas_dT in
  dlambdas_dT.

(* thermo/activity.py, lines 206-227: d2interaction_exp_dT2. *)
Definition d2interaction_exp_dT2 (T : R) (N_ : nat) (B : nat -> nat -> R) (C_ : nat -> nat -> R) (E_ : nat -> nat -> R) (F : nat -> nat -> R) (lambdas : nat -> nat -> R) (dlambdas_dT : nat -> nat -> R) (d2lambdas_dT2 : nat -> nat -> R) : nat -> nat -> R :=
  let Tinv := (1 / T) in
  let nT2inv := ((- Tinv) * Tinv) in
  let T3inv2 := (((- 2) * nT2inv) * Tinv) in
  let T4inv6 := ((3 * T3inv2) * Tinv) in
  let d2lambdas_dT2 :=
    loop N_ (fun i d2lambdas_dT2 =>
      let lambdasi := (lambdas i) in
      let dlambdas_dTi := (dlambdas_dT i) in
      let Bi := (B i) in
      let Ci := (C_ i) in
      let Ei := (E_ i) in
      let Fi := (F i) in
      let d2lambdas_dT2 :=
        loop N_ (fun j d2lambdas_dT2 =>
          let d2lambdas_dT2 := updm d2lambdas_dT2 i j ((((((2 * (Fi j)) + (nT2inv * (Ci j))) + (T3inv2 * (Bi j))) + (T4inv6 * (Ei j))) * (lambdasi j)) + (((dlambdas_dTi j) * (dlambdas_dTi j)) / (lambdasi j))) in
          d2lambdas_dT2
        ) d2lambdas_dT2 in
      d2lambdas_dT2
    ) d2lambdas_dT2 in
  d2lambdas_dT2.

(* thermo/activity.py, lines 229-260: d3interaction_exp_dT3. *)
Definition d3interaction_exp_dT3 (T : R) (N_ : nat) (B : nat -> nat -> R) (C_ : nat -> nat -> R) (E_ : nat -> nat -> R) (F : nat -> nat -> R) (lambdas : nat -> nat -> R) (dlambdas_dT : nat -> nat -> R) (d3lambdas_dT3 : nat -> nat -> R) : nat -> nat -> R :=
  let Tinv := (1 / T) in
  let Tinv3 := (3 * Tinv) in
  let nT2inv := ((- Tinv) * Tinv) in
  let nT2inv05 := ((1 / 2) * nT2inv) in
  let T3inv := ((- nT2inv) * Tinv) in
  let T3inv2 := (T3inv + T3inv) in
  let T4inv3 := (((3 / 2) * T3inv2) * Tinv) in
  let T2_12 := ((- 12) * nT2inv) in
  let d3lambdas_dT3 :=
    loop N_ (fun i d3lambdas_dT3 =>
      let lambdasi := (lambdas i) in
      let dlambdas_dTi := (dlambdas_dT i) in
      let Bi := (B i) in
      let Ci := (C_ i) in
      let Ei := (E_ i) in
      let Fi := (F i) in
      let d3lambdas_dT3 :=
        loop N_ (fun j d3lambdas_dT3 =>
          let term2 := ((((Fi j) + (nT2inv05 * (Ci j))) + (T3inv * (Bi j))) + (T4inv3 * (Ei j))) in
          let term3 := ((dlambdas_dTi j) / (lambdasi j)) in
          let term4 := (T3inv2 * (((Ci j) - (Tinv3 * (Bi j))) - (T2_12 * (Ei j)))) in
          let d3lambdas_dT3 := updm d3lambdas_dT3 i j (((term3 * ((6 * term2) + (term3 * term3))) + term4) * (lambdasi j)) in
          d3lambdas_dT3
        ) d3lambdas_dT3 in
      d3lambdas_dT3
    ) d3lambdas_dT3 in
  d3lambdas_dT3.

(* thermo/wilson.py, lines 66-75: wilson_xj_Lambda_ijs. *)
Definition wilson_xj_Lambda_ijs (xs : nat -> R) (lambdas : nat -> nat -> R) (N_ : nat) (xj_Lambda_ijs : nat -> R) : nat -> R :=
  let xj_Lambda_ijs :=
    loop N_ (fun i xj_Lambda_ijs =>
      let tot := 0 in
      let lambdasi := (lambdas i) in
      let tot :=
        loop N_ (fun j tot =>
          let tot := (tot + ((xs j) * (lambdasi j))) in
          tot
        ) tot in
      let xj_Lambda_ijs := upd xj_Lambda_ijs i tot in
      xj_Lambda_ijs
    ) xj_Lambda_ijs in
  xj_Lambda_ijs.

(* thermo/wilson.py, lines 77-84: wilson_dGE_dT. *)
Definition wilson_dGE_dT (xs : nat -> R) (T : R) (GE : R) (N_ : nat) (xj_Lambda_ijs_inv : nat -> R) (xj_dLambda_dTijs : nat -> R) : R :=
  let tot := (GE / T) in
  let sum1 := 0 in
  let sum1 :=
    loop N_ (fun i sum1 =>
      let sum1 := (sum1 + (((xs i) * (xj_dLambda_dTijs i)) * (xj_Lambda_ijs_inv i))) in
      sum1
    ) sum1 in
  let tot := (tot - ((T * Rgas) * sum1)) in
  tot.

(* thermo/wilson.py, lines 86-96: wilson_d2GE_dT2. *)
Definition wilson_d2GE_dT2 (xs : nat -> R) (T : R) (N_ : nat) (xj_Lambda_ijs_inv : nat -> R) (xj_dLambda_dTijs : nat -> R) (xj_d2Lambda_dT2ijs : nat -> R) : R :=
  let sum0 := 0 in
  let sum1 := 0 in
  let '(sum1, sum0) :=
    loop N_ (fun i st_ =>
      let '(sum1, sum0) := st_ in
      let t := ((xs i) * (xj_Lambda_ijs_inv i)) in
      let t2 := ((xj_dLambda_dTijs i) * t) in
      let sum1 := (sum1 + t2) in
      let sum0 := (sum0 + (t * ((xj_d2Lambda_dT2ijs i) - (((xj_dLambda_dTijs i) * (xj_dLambda_dTijs i)) * (xj_Lambda_ijs_inv i))))) in
      (sum1, sum0)
    ) (sum1, sum0) in
  let d2GE_dT2 := ((- Rgas) * ((T * sum0) + (2 * sum1))) in
  d2GE_dT2.

(* thermo/wilson.py, lines 98-121: wilson_d3GE_dT3. *)
Definition wilson_d3GE_dT3 (xs : nat -> R) (T : R) (N_ : nat) (xj_Lambda_ijs_inv : nat -> R) (xj_dLambda_dTijs : nat -> R) (xj_d2Lambda_dT2ijs : nat -> R) (xj_d3Lambda_dT3ijs : nat -> R) : R :=
  let sum0 := 0 in
  let sum0 :=
    loop N_ (fun i sum0 =>
      let sum0 := (sum0 + (((xj_Lambda_ijs_inv i) * (xs i)) * ((xj_d2Lambda_dT2ijs i) - (((xj_dLambda_dTijs i) * (xj_dLambda_dTijs i)) * (xj_Lambda_ijs_inv i))))) in
      sum0
    ) sum0 in
  let sum_d3 := 0 in
  let sum_d3 :=
    loop N_ (fun i sum_d3 =>
      let sum_d3 := (sum_d3 + (((xs i) * (xj_d3Lambda_dT3ijs i)) * (xj_Lambda_ijs_inv i))) in
      sum_d3
    ) sum_d3 in
  let sum_comb := 0 in
  let sum_comb :=
    loop N_ (fun i sum_comb =>
      let sum_comb := (sum_comb + (((((xs i) * (xj_d2Lambda_dT2ijs i)) * (xj_dLambda_dTijs i)) * (xj_Lambda_ijs_inv i)) * (xj_Lambda_ijs_inv i))) in
      sum_comb
    ) sum_comb in
  let sum_comb := (sum_comb * 3) in
  let sum_last := 0 in
  let sum_last :=
    loop N_ (fun i sum_last =>
      let v := ((xj_dLambda_dTijs i) * (xj_Lambda_ijs_inv i)) in
      let sum_last := (sum_last + ((((xs i) * v) * v) * v)) in
      sum_last
    ) sum_last in
  let sum_last := (sum_last * 2) in
  let d3GE_dT3 := ((- Rgas) * ((3 * sum0) + (T * ((sum_d3 - sum_comb) + sum_last)))) in
  d3GE_dT3.

(* thermo/wilson.py, lines 123-140: wilson_d2GE_dTdxs. *)
Definition wilson_d2GE_dTdxs (xs : nat -> R) (T : R) (N_ : nat) (log_xj_Lambda_ijs : nat -> R) (lambdas : nat -> nat -> R) (dlambdas_dT : nat -> nat -> R) (xj_Lambda_ijs_inv : nat -> R) (xj_dLambda_dTijs : nat -> R) (d2GE_dTdxs : nat -> R) : nat -> R :=
  let d2GE_dTdxs :=
    loop N_ (fun i d2GE_dTdxs =>
      let tot1 := ((xj_dLambda_dTijs i) * (xj_Lambda_ijs_inv i)) in
      let tot2 := 0 in
      let '(tot1, tot2) :=
        loop N_ (fun j st_ =>
          let '(tot1, tot2) := st_ in
          let t1 := ((lambdas j i) * (xj_Lambda_ijs_inv j)) in
          let tot1 := (tot1 + (((xs j) * (xj_Lambda_ijs_inv j)) * ((dlambdas_dT j i) - ((xj_dLambda_dTijs j) * t1)))) in
          let tot2 := (tot2 + ((xs j) * t1)) in
          (tot1, tot2)
        ) (tot1, tot2) in
      let dG := ((- Rgas) * (((T * tot1) + (log_xj_Lambda_ijs i)) + tot2)) in
      let d2GE_dTdxs := upd d2GE_dTdxs i dG in
      d2GE_dTdxs
    ) d2GE_dTdxs in
  d2GE_dTdxs.

(* thermo/wilson.py, lines 142-151: wilson_dGE_dxs. *)
Definition wilson_dGE_dxs (xs : nat -> R) (T : R) (N_ : nat) (log_xj_Lambda_ijs : nat -> R) (lambdas : nat -> nat -> R) (xj_Lambda_ijs_inv : nat -> R) (dGE_dxs : nat -> R) : nat -> R :=
  let mRT := ((- T) * Rgas) in
  let dGE_dxs :=
    loop N_ (fun k dGE_dxs =>
      let tot := (log_xj_Lambda_ijs k) in
      let tot :=
        loop N_ (fun i tot =>
          let tot := (tot + (((xs i) * (lambdas i k)) * (xj_Lambda_ijs_inv i))) in
          tot
        ) tot in
      let dGE_dxs := upd dGE_dxs k (mRT * tot) in
      dGE_dxs
    ) dGE_dxs in
  dGE_dxs.

(* thermo/wilson.py, lines 153-169: wilson_d2GE_dxixjs. *)
Definition wilson_d2GE_dxixjs (xs : nat -> R) (T : R) (N_ : nat) (lambdas : nat -> nat -> R) (xj_Lambda_ijs_inv : nat -> R) (d2GE_dxixjs : nat -> nat -> R) : nat -> nat -> R :=
  let RT := (Rgas * T) in
  let d2GE_dxixjs :=
    loop N_ (fun k d2GE_dxixjs =>
      let d2GE_dxixjs :=
        loop N_ (fun m d2GE_dxixjs =>
          let tot := 0 in
          let tot :=
            loop N_ (fun i tot =>
              let tot := (tot + ((((xs i) * (lambdas i k)) * (lambdas i m)) * ((xj_Lambda_ijs_inv i) * (xj_Lambda_ijs_inv i)))) in
              tot
            ) tot in
          let tot := (tot - ((lambdas k m) * (xj_Lambda_ijs_inv k))) in
          let tot := (tot - ((lambdas m k) * (xj_Lambda_ijs_inv m))) in
          let d2GE_dxixjs := updm d2GE_dxixjs k m (RT * tot) in
          d2GE_dxixjs
        ) d2GE_dxixjs in
      d2GE_dxixjs
    ) d2GE_dxixjs in
  d2GE_dxixjs.

(* thermo/wilson.py, lines 172-194: wilson_d3GE_dxixjxks. *)
Definition wilson_d3GE_dxixjxks (xs : nat -> R) (T : R) (N_ : nat) (lambdas : nat -> nat -> R) (xj_Lambda_ijs_inv : nat -> R) (d3GE_dxixjxks : nat -> nat -> nat -> R) : nat -> nat -> nat -> R :=
  let nRT := ((- Rgas) * T) in
  let d3GE_dxixjxks :=
    loop N_ (fun k d3GE_dxixjxks =>
      let d3GE_dxixjxks :=
        loop N_ (fun m d3GE_dxixjxks =>
          let d3GE_dxixjxks :=
            loop N_ (fun n d3GE_dxixjxks =>
              let tot := 0 in
              let tot :=
                loop N_ (fun i tot =>
                  let num := ((((xs i) * (lambdas i k)) * (lambdas i m)) * (lambdas i n)) in
                  let den := (((xj_Lambda_ijs_inv i) * (xj_Lambda_ijs_inv i)) * (xj_Lambda_ijs_inv i)) in
                  let tot := (tot + (num * den)) in
                  tot
                ) tot in
              let tot := (tot * 2) in
              let tot := (tot - ((((lambdas k m) * (lambdas k n)) * (xj_Lambda_ijs_inv k)) * (xj_Lambda_ijs_inv k))) in
              let tot := (tot - ((((lambdas m k) * (lambdas m n)) * (xj_Lambda_ijs_inv m)) * (xj_Lambda_ijs_inv m))) in
              let tot := (tot - ((((lambdas n m) * (lambdas n k)) * (xj_Lambda_ijs_inv n)) * (xj_Lambda_ijs_inv n))) in
              let d3GE_dxixjxks := updt d3GE_dxixjxks k m n (nRT * tot) in
              d3GE_dxixjxks
            ) d3GE_dxixjxks in
          d3GE_dxixjxks
        ) d3GE_dxixjxks in
      d3GE_dxixjxks
    ) d3GE_dxixjxks in
  d3GE_dxixjxks.

(* thermo/wilson.py, lines 196-212: wilson_gammas. *)
Definition wilson_gammas (xs : nat -> R) (N_ : nat) (lambdas : nat -> nat -> R) (xj_Lambda_ijs_inv : nat -> R) (gammas : nat -> R) (vec0 : nat -> R) : nat -> R :=
  let vec0 :=
    loop N_ (fun i vec0 =>
      let vec0 := upd vec0 i ((xs i) * (xj_Lambda_ijs_inv i)) in
      vec0
    ) vec0 in
  let gammas :=
    loop N_ (fun j gammas =>
      let const_j := (vec0 j) in
      let gammas :=
        loop N_ (fun i gammas =>
          let gammas := upd gammas i ((gammas i) + ((lambdas j i) * const_j)) in
          gammas
        ) gammas in
      gammas
    ) gammas in
  let gammas :=
    loop N_ (fun i gammas =>
      let gammas := upd gammas i ((exp (1 - (gammas i))) * (xj_Lambda_ijs_inv i)) in
      gammas
    ) gammas in
  gammas.

(* thermo/wilson.py, lines 962-972: Wilson.lambdas. (without the cache; list path) *)
Definition Wilson_lambdas (N_ : nat) (T : R) (lambda_as : nat -> nat -> R) (lambda_bs : nat -> nat -> R) (lambda_cs : nat -> nat -> R) (lambda_ds : nat -> nat -> R) (lambda_es : nat -> nat -> R) (lambda_fs : nat -> nat -> R) : nat -> nat -> R :=
  let N_ := N_ in
  let lambdas := (fun u_ => (fun _ => 0)) in
  let lambdas := (interaction_exp T N_ lambda_as lambda_bs lambda_cs lambda_ds lambda_es lambda_fs lambdas) in
  lambdas.

(* thermo/wilson.py, lines 999-1016: Wilson.dlambdas_dT. (without the cache; list path) *)
Definition Wilson_dlambdas_dT (N_ : nat) (T : R) (lambda_as : nat -> nat -> R) (lambda_bs : nat -> nat -> R) (lambda_cs : nat -> nat -> R) (lambda_ds : nat -> nat -> R) (lambda_es : nat -> nat -> R) (lambda_fs : nat -> nat -> R) : nat -> nat -> R :=
  let B := lambda_bs in
  let C_ := lambda_cs in
  let D_ := lambda_ds in
  let E_ := lambda_es in
  let F := lambda_fs in
  let T := T in
  let N_ := N_ in
  let lambdas := (Wilson_lambdas N_ T lambda_as lambda_bs lambda_cs lambda_ds lambda_es lambda_fs) in
  let dlambdas_dT := (fun u_ => (fun _ => 0)) in
  let dlambdas_dT := (dinteraction_exp_dT T N_ B C_ D_ E_ F lambdas dlambdas_dT) in
  dlambdas_dT.

(* thermo/wilson.py, lines 1045-1066: Wilson.d2lambdas_dT2. (without the cache; list path) *)
Definition Wilson_d2lambdas_dT2 (N_ : nat) (T : R) (lambda_as : nat -> nat -> R) (lambda_bs : nat -> nat -> R) (lambda_cs : nat -> nat -> R) (lambda_ds : nat -> nat -> R) (lambda_es : nat -> nat -> R) (lambda_fs : nat -> nat -> R) : nat -> nat -> R :=
  let T := T in
  let N_ := N_ in
  let lambdas := (Wilson_lambdas N_ T lambda_as lambda_bs lambda_cs lambda_ds lambda_es lambda_fs) in
  let dlambdas_dT := (Wilson_dlambdas_dT N_ T lambda_as lambda_bs lambda_cs lambda_ds lambda_es lambda_fs) in
  let d2lambdas_dT2 := (fun u_ => (fun _ => 0)) in
  let d2lambdas_dT2 := (d2interaction_exp_dT2 T N_ lambda_bs lambda_cs lambda_es lambda_fs lambdas dlambdas_dT d2lambdas_dT2) in
  d2lambdas_dT2.

(* thermo/wilson.py, lines 1098-1120: Wilson.d3lambdas_dT3. (without the cache; list path) *)
Definition Wilson_d3lambdas_dT3 (N_ : nat) (T : R) (lambda_as : nat -> nat -> R) (lambda_bs : nat -> nat -> R) (lambda_cs : nat -> nat -> R) (lambda_ds : nat -> nat -> R) (lambda_es : nat -> nat -> R) (lambda_fs : nat -> nat -> R) : nat -> nat -> R :=
  let T := T in
  let N_ := N_ in
  let lambda_bs := lambda_bs in
  let lambda_cs := lambda_cs in
  let lambda_es := lambda_es in
  let lambda_fs := lambda_fs in
  let lambdas := (Wilson_lambdas N_ T lambda_as lambda_bs lambda_cs lambda_ds lambda_es lambda_fs) in
  let dlambdas_dT := (Wilson_dlambdas_dT N_ T lambda_as lambda_bs lambda_cs lambda_ds lambda_es lambda_fs) in
  let d3lambdas_dT3s := (fun u_ => (fun _ => 0)) in
  let d3lambdas_dT3s := (d3interaction_exp_dT3 T N_ lambda_bs lambda_cs lambda_es lambda_fs lambdas dlambdas_dT d3lambdas_dT3s) in
  d3lambdas_dT3s.

(* thermo/wilson.py, lines 1132-1140: Wilson.xj_Lambda_ijs. (without the cache; list path) *)
Definition Wilson_xj_Lambda_ijs (N_ : nat) (T : R) (xs : nat -> R) (lambda_as : nat -> nat -> R) (lambda_bs : nat -> nat -> R) (lambda_cs : nat -> nat -> R) (lambda_ds : nat -> nat -> R) (lambda_es : nat -> nat -> R) (lambda_fs : nat -> nat -> R) : nat -> R :=
  let lambdas := (Wilson_lambdas N_ T lambda_as lambda_bs lambda_cs lambda_ds lambda_es lambda_fs) in
  let xj_Lambda_ijs := (fun _ => 0) in
  let xj_Lambda_ijs := (wilson_xj_Lambda_ijs xs lambdas N_ xj_Lambda_ijs) in
  xj_Lambda_ijs.

(* thermo/wilson.py, lines 1153-1158: Wilson.xj_Lambda_ijs_inv. (without the cache; list path) *)
Definition Wilson_xj_Lambda_ijs_inv (N_ : nat) (T : R) (xs : nat -> R) (lambda_as : nat -> nat -> R) (lambda_bs : nat -> nat -> R) (lambda_cs : nat -> nat -> R) (lambda_ds : nat -> nat -> R) (lambda_es : nat -> nat -> R) (lambda_fs : nat -> nat -> R) : nat -> R :=
  let xj_Lambda_ijs := (Wilson_xj_Lambda_ijs N_ T xs lambda_as lambda_bs lambda_cs lambda_ds lambda_es lambda_fs) in
  let L_xj_Lambda_ijs_inv := (fun k0_ => let x := xj_Lambda_ijs k0_ in (1 / x)) in
  L_xj_Lambda_ijs_inv.

(* thermo/wilson.py, lines 1170-1175: Wilson.log_xj_Lambda_ijs. (without the cache; list path) *)
Definition Wilson_log_xj_Lambda_ijs (N_ : nat) (T : R) (xs : nat -> R) (lambda_as : nat -> nat -> R) (lambda_bs : nat -> nat -> R) (lambda_cs : nat -> nat -> R) (lambda_ds : nat -> nat -> R) (lambda_es : nat -> nat -> R) (lambda_fs : nat -> nat -> R) : nat -> R :=
  let xj_Lambda_ijs := (Wilson_xj_Lambda_ijs N_ T xs lambda_as lambda_bs lambda_cs lambda_ds lambda_es lambda_fs) in
  let L_log_xj_Lambda_ijs := (fun k0_ => let i := xj_Lambda_ijs k0_ in (ln i)) in
  L_log_xj_Lambda_ijs.

(* thermo/wilson.py, lines 1188-1196: Wilson.xj_dLambda_dTijs. (without the cache; list path) *)
Definition Wilson_xj_dLambda_dTijs (N_ : nat) (T : R) (xs : nat -> R) (lambda_as : nat -> nat -> R) (lambda_bs : nat -> nat -> R) (lambda_cs : nat -> nat -> R) (lambda_ds : nat -> nat -> R) (lambda_es : nat -> nat -> R) (lambda_fs : nat -> nat -> R) : nat -> R :=
  let dlambdas_dT := (Wilson_dlambdas_dT N_ T lambda_as lambda_bs lambda_cs lambda_ds lambda_es lambda_fs) in
  let xj_dLambda_dTijs := (fun _ => 0) in
  let xj_dLambda_dTijs := (wilson_xj_Lambda_ijs xs dlambdas_dT N_ xj_dLambda_dTijs) in
  xj_dLambda_dTijs.

(* thermo/wilson.py, lines 1209-1217: Wilson.xj_d2Lambda_dT2ijs. (without the cache; list path) *)
Definition Wilson_xj_d2Lambda_dT2ijs (N_ : nat) (T : R) (xs : nat -> R) (lambda_as : nat -> nat -> R) (lambda_bs : nat -> nat -> R) (lambda_cs : nat -> nat -> R) (lambda_ds : nat -> nat -> R) (lambda_es : nat -> nat -> R) (lambda_fs : nat -> nat -> R) : nat -> R :=
  let d2lambdas_dT2 := (Wilson_d2lambdas_dT2 N_ T lambda_as lambda_bs lambda_cs lambda_ds lambda_es lambda_fs) in
  let xj_d2Lambda_dT2ijs := (fun _ => 0) in
  let xj_d2Lambda_dT2ijs := (wilson_xj_Lambda_ijs xs d2lambdas_dT2 N_ xj_d2Lambda_dT2ijs) in
  xj_d2Lambda_dT2ijs.

(* thermo/wilson.py, lines 1229-1237: Wilson.xj_d3Lambda_dT3ijs. (without the cache; list path) *)
Definition Wilson_xj_d3Lambda_dT3ijs (N_ : nat) (T : R) (xs : nat -> R) (lambda_as : nat -> nat -> R) (lambda_bs : nat -> nat -> R) (lambda_cs : nat -> nat -> R) (lambda_ds : nat -> nat -> R) (lambda_es : nat -> nat -> R) (lambda_fs : nat -> nat -> R) : nat -> R :=
  let d3lambdas_dT3 := (Wilson_d3lambdas_dT3 N_ T lambda_as lambda_bs lambda_cs lambda_ds lambda_es lambda_fs) in
  let xj_d3Lambda_dT3ijs := (fun _ => 0) in
  let xj_d3Lambda_dT3ijs := (wilson_xj_Lambda_ijs xs d3lambdas_dT3 N_ xj_d3Lambda_dT3ijs) in
  xj_d3Lambda_dT3ijs.

(* thermo/wilson.py, lines 1263-1273: Wilson.GE. (without the cache; list path) *)
Definition Wilson_GE (N_ : nat) (T : R) (xs : nat -> R) (lambda_as : nat -> nat -> R) (lambda_bs : nat -> nat -> R) (lambda_cs : nat -> nat -> R) (lambda_ds : nat -> nat -> R) (lambda_es : nat -> nat -> R) (lambda_fs : nat -> nat -> R) : R :=
  let log_xj_Lambda_ijs := (Wilson_log_xj_Lambda_ijs N_ T xs lambda_as lambda_bs lambda_cs lambda_ds lambda_es lambda_fs) in
  let xs := xs in
  let N_ := N_ in
  let GE := 0 in
  let GE :=
    loop N_ (fun i GE =>
      let GE := (GE + ((xs i) * (log_xj_Lambda_ijs i))) in
      GE
    ) GE in
  let GE := (((- GE) * Rgas) * T) in
  GE.

(* thermo/wilson.py, lines 1321-1333: Wilson.dGE_dT. (without the cache; list path) *)
Definition Wilson_dGE_dT (N_ : nat) (T : R) (xs : nat -> R) (lambda_as : nat -> nat -> R) (lambda_bs : nat -> nat -> R) (lambda_cs : nat -> nat -> R) (lambda_ds : nat -> nat -> R) (lambda_es : nat -> nat -> R) (lambda_fs : nat -> nat -> R) : R :=
  let xj_Lambda_ijs_inv := (Wilson_xj_Lambda_ijs_inv N_ T xs lambda_as lambda_bs lambda_cs lambda_ds lambda_es lambda_fs) in
  let xj_dLambda_dTijs := (Wilson_xj_dLambda_dTijs N_ T xs lambda_as lambda_bs lambda_cs lambda_ds lambda_es lambda_fs) in
  let GE := (Wilson_GE N_ T xs lambda_as lambda_bs lambda_cs lambda_ds lambda_es lambda_fs) in
  let dGE_dT := (wilson_dGE_dT xs T GE N_ xj_Lambda_ijs_inv xj_dLambda_dTijs) in
  dGE_dT.

(* thermo/wilson.py, lines 1363-1375: Wilson.d2GE_dT2. (without the cache; list path) *)
Definition Wilson_d2GE_dT2 (N_ : nat) (T : R) (xs : nat -> R) (lambda_as : nat -> nat -> R) (lambda_bs : nat -> nat -> R) (lambda_cs : nat -> nat -> R) (lambda_ds : nat -> nat -> R) (lambda_es : nat -> nat -> R) (lambda_fs : nat -> nat -> R) : R :=
  let xj_Lambda_ijs_inv := (Wilson_xj_Lambda_ijs_inv N_ T xs lambda_as lambda_bs lambda_cs lambda_ds lambda_es lambda_fs) in
  let xj_dLambda_dTijs := (Wilson_xj_dLambda_dTijs N_ T xs lambda_as lambda_bs lambda_cs lambda_ds lambda_es lambda_fs) in
  let xj_d2Lambda_dT2ijs := (Wilson_xj_d2Lambda_dT2ijs N_ T xs lambda_as lambda_bs lambda_cs lambda_ds lambda_es lambda_fs) in
  let xj_d2Lambda_dT2ijs := (wilson_d2GE_dT2 xs T N_ xj_Lambda_ijs_inv xj_dLambda_dTijs xj_d2Lambda_dT2ijs) in
  xj_d2Lambda_dT2ijs.

(* thermo/wilson.py, lines 1405-1412: Wilson.d3GE_dT3. (without the cache; list path) *)
Definition Wilson_d3GE_dT3 (N_ : nat) (T : R) (xs : nat -> R) (lambda_as : nat -> nat -> R) (lambda_bs : nat -> nat -> R) (lambda_cs : nat -> nat -> R) (lambda_ds : nat -> nat -> R) (lambda_es : nat -> nat -> R) (lambda_fs : nat -> nat -> R) : R :=
  let xj_Lambda_ijs_inv := (Wilson_xj_Lambda_ijs_inv N_ T xs lambda_as lambda_bs lambda_cs lambda_ds lambda_es lambda_fs) in
  let xj_dLambda_dTijs := (Wilson_xj_dLambda_dTijs N_ T xs lambda_as lambda_bs lambda_cs lambda_ds lambda_es lambda_fs) in
  let xj_d2Lambda_dT2ijs := (Wilson_xj_d2Lambda_dT2ijs N_ T xs lambda_as lambda_bs lambda_cs lambda_ds lambda_es lambda_fs) in
  let xj_d3Lambda_dT3ijs := (Wilson_xj_d3Lambda_dT3ijs N_ T xs lambda_as lambda_bs lambda_cs lambda_ds lambda_es lambda_fs) in
  let xj_d3Lambda_dT3ijs := (wilson_d3GE_dT3 xs T N_ xj_Lambda_ijs_inv xj_dLambda_dTijs xj_d2Lambda_dT2ijs xj_d3Lambda_dT3ijs) in
  xj_d3Lambda_dT3ijs.

(* thermo/wilson.py, lines 1447-1473: Wilson.d2GE_dTdxs. (without the cache; list path) *)
Definition Wilson_d2GE_dTdxs (N_ : nat) (T : R) (xs : nat -> R) (lambda_as : nat -> nat -> R) (lambda_bs : nat -> nat -> R) (lambda_cs : nat -> nat -> R) (lambda_ds : nat -> nat -> R) (lambda_es : nat -> nat -> R) (lambda_fs : nat -> nat -> R) : nat -> R :=
  let log_xj_Lambda_ijs := (Wilson_log_xj_Lambda_ijs N_ T xs lambda_as lambda_bs lambda_cs lambda_ds lambda_es lambda_fs) in
  let lambdas := (Wilson_lambdas N_ T lambda_as lambda_bs lambda_cs lambda_ds lambda_es lambda_fs) in
  let dlambdas_dT := (Wilson_dlambdas_dT N_ T lambda_as lambda_bs lambda_cs lambda_ds lambda_es lambda_fs) in
  let xj_Lambda_ijs_inv := (Wilson_xj_Lambda_ijs_inv N_ T xs lambda_as lambda_bs lambda_cs lambda_ds lambda_es lambda_fs) in
  let xj_dLambda_dTijs := (Wilson_xj_dLambda_dTijs N_ T xs lambda_as lambda_bs lambda_cs lambda_ds lambda_es lambda_fs) in
  let d2GE_dTdxs := (fun _ => 0) in
  let d2GE_dTdxs := (wilson_d2GE_dTdxs xs T N_ log_xj_Lambda_ijs lambdas dlambdas_dT xj_Lambda_ijs_inv xj_dLambda_dTijs d2GE_dTdxs) in
  d2GE_dTdxs.

(* thermo/wilson.py, lines 1525-1542: Wilson.dGE_dxs. (without the cache; list path) *)
Definition Wilson_dGE_dxs (N_ : nat) (T : R) (xs : nat -> R) (lambda_as : nat -> nat -> R) (lambda_bs : nat -> nat -> R) (lambda_cs : nat -> nat -> R) (lambda_ds : nat -> nat -> R) (lambda_es : nat -> nat -> R) (lambda_fs : nat -> nat -> R) : nat -> R :=
  let lambdas := (Wilson_lambdas N_ T lambda_as lambda_bs lambda_cs lambda_ds lambda_es lambda_fs) in
  let log_xj_Lambda_ijs := (Wilson_log_xj_Lambda_ijs N_ T xs lambda_as lambda_bs lambda_cs lambda_ds lambda_es lambda_fs) in
  let xj_Lambda_ijs_inv := (Wilson_xj_Lambda_ijs_inv N_ T xs lambda_as lambda_bs lambda_cs lambda_ds lambda_es lambda_fs) in
  let dGE_dxs := (fun _ => 0) in
  let dGE_dxs := (wilson_dGE_dxs xs T N_ log_xj_Lambda_ijs lambdas xj_Lambda_ijs_inv dGE_dxs) in
  dGE_dxs.

(* thermo/wilson.py, lines 1571-1584: Wilson.d2GE_dxixjs. (without the cache; list path) *)
Definition Wilson_d2GE_dxixjs (N_ : nat) (T : R) (xs : nat -> R) (lambda_as : nat -> nat -> R) (lambda_bs : nat -> nat -> R) (lambda_cs : nat -> nat -> R) (lambda_ds : nat -> nat -> R) (lambda_es : nat -> nat -> R) (lambda_fs : nat -> nat -> R) : nat -> nat -> R :=
  let lambdas := (Wilson_lambdas N_ T lambda_as lambda_bs lambda_cs lambda_ds lambda_es lambda_fs) in
  let xj_Lambda_ijs_inv := (Wilson_xj_Lambda_ijs_inv N_ T xs lambda_as lambda_bs lambda_cs lambda_ds lambda_es lambda_fs) in
  let N_ := N_ in
  let d2GE_dxixjs := (fun u_ => (fun _ => 0)) in
  let d2GE_dxixjs := (wilson_d2GE_dxixjs xs T N_ lambdas xj_Lambda_ijs_inv d2GE_dxixjs) in
  d2GE_dxixjs.

(* thermo/wilson.py, lines 1612-1627: Wilson.d3GE_dxixjxks. (without the cache; list path) *)
Definition Wilson_d3GE_dxixjxks (N_ : nat) (T : R) (xs : nat -> R) (lambda_as : nat -> nat -> R) (lambda_bs : nat -> nat -> R) (lambda_cs : nat -> nat -> R) (lambda_ds : nat -> nat -> R) (lambda_es : nat -> nat -> R) (lambda_fs : nat -> nat -> R) : nat -> nat -> nat -> R :=
  let lambdas := (Wilson_lambdas N_ T lambda_as lambda_bs lambda_cs lambda_ds lambda_es lambda_fs) in
  let xj_Lambda_ijs_inv := (Wilson_xj_Lambda_ijs_inv N_ T xs lambda_as lambda_bs lambda_cs lambda_ds lambda_es lambda_fs) in
  let N_ := N_ in
  let d3GE_dxixjxks := (fun u_ => (fun u_ => (fun _ => 0))) in
  let d3GE_dxixjxks := (wilson_d3GE_dxixjxks xs T N_ lambdas xj_Lambda_ijs_inv d3GE_dxixjxks) in
  d3GE_dxixjxks.

(* thermo/wilson.py, lines 1642-1655: Wilson.gammas. (without the cache; list path) *)
Definition Wilson_gammas (N_ : nat) (T : R) (xs : nat -> R) (lambda_as : nat -> nat -> R) (lambda_bs : nat -> nat -> R) (lambda_cs : nat -> nat -> R) (lambda_ds : nat -> nat -> R) (lambda_es : nat -> nat -> R) (lambda_fs : nat -> nat -> R) : nat -> R :=
  let lambdas := (Wilson_lambdas N_ T lambda_as lambda_bs lambda_cs lambda_ds lambda_es lambda_fs) in
  let xj_Lambda_ijs_inv := (Wilson_xj_Lambda_ijs_inv N_ T xs lambda_as lambda_bs lambda_cs lambda_ds lambda_es lambda_fs) in
  let gammas := (fun _ => 0) in
  let gammas := (wilson_gammas xs N_ lambdas xj_Lambda_ijs_inv gammas (fun _ => 0)) in
  gammas.

(* thermo/wilson.py, lines 214-221: wilson_gammas_from_args. *)
Definition wilson_gammas_from_args (xs : nat -> R) (N_ : nat) (lambdas : nat -> nat -> R) (xj_Lambda_ijs : nat -> R) (vec0 : nat -> R) (gammas : nat -> R) : nat -> R :=
  let xj_Lambda_ijs := (wilson_xj_Lambda_ijs xs lambdas N_ xj_Lambda_ijs) in
  let xj_Lambda_ijs :=
    loop N_ (fun i xj_Lambda_ijs =>
      let xj_Lambda_ijs := upd xj_Lambda_ijs i (1 / (xj_Lambda_ijs i)) in
      xj_Lambda_ijs
    ) xj_Lambda_ijs in
  (wilson_gammas xs N_ lambdas xj_Lambda_ijs gammas vec0).

(* thermo/wilson.py, line 223: MIN_LAMBDA_WILSON. *)
Definition MIN_LAMBDA_WILSON : R := 1 / 10 ^ 20.

(* thermo/wilson.py, lines 1798-1820: Wilson_gammas. (the stand-alone function) *)
Definition Wilson_gammas_function (xs : nat -> R) (params : nat -> nat -> R) (N_ : nat) : nat -> R :=
  let N_ := N_ in
  let gammas := (fun _ => 0) in
  let sums0 := (fun _ => 0) in
  let sums0 :=
    loop N_ (fun j sums0 =>
      let tot := 0 in
      let paramsj := (params j) in
      let tot :=
        loop N_ (fun k tot =>
          let tot := (tot + ((paramsj k) * (xs k))) in
          tot
        ) tot in
      let sums0 := upd sums0 j tot in
      sums0
    ) sums0 in
  let gammas :=
    loop N_ (fun i gammas =>
      let tot2 := 0 in
      let tot2 :=
        loop N_ (fun j tot2 =>
          let tot2 := (tot2 + (((params j i) * (xs j)) / (sums0 j))) in
          tot2
        ) tot2 in
      let gamma := (exp ((1 - (ln (sums0 i))) - tot2)) in
      let gammas := upd gammas i gamma in
      gammas
    ) gammas in
  gammas.

(* thermo/wilson.py, lines 225-297: wilson_gammas_binaries. (trunc_exp, which returns the largest float instead of overflowing, is the exponential here) *)
Definition wilson_gammas_binaries (xs : nat -> R) (lambda12 : R) (lambda21 : R) (calc : nat -> R) (pts : nat) : nat -> R :=
  let lambda12 :=
    if (Rltb lambda12 MIN_LAMBDA_WILSON) then
    let lambda12 := MIN_LAMBDA_WILSON in
    lambda12
    else
    lambda12
  in
  let lambda21 :=
    if (Rltb lambda21 MIN_LAMBDA_WILSON) then
    let lambda21 := MIN_LAMBDA_WILSON in
    lambda21
    else
    lambda21
  in
  let pts := pts in
  let calc :=
    loop pts (fun i calc =>
      let i2 := (i * 2)%nat in
      let x1 := (xs i2) in
      let x2 := (1 - x1) in
      let c0 := (1 / (x1 + (x2 * lambda12))) in
      let c1 := (1 / (x2 + (x1 * lambda21))) in
      let c3 := ((lambda12 * c0) - (lambda21 * c1)) in
      let calc := upd calc i2 ((exp (c3 * x2)) * c0) in
      let calc := upd calc (i2 + 1%nat)%nat ((exp ((- c3) * x1)) * c1) in
      calc
    ) calc in
  calc.

(* thermo/wilson.py, lines 337-368: wilson_gammas_binaries_jac. (trunc_exp as the exponential) *)
Definition wilson_gammas_binaries_jac (xs : nat -> R) (lambda12 : R) (lambda21 : R) (calc : nat -> nat -> R) (pts : nat) : nat -> nat -> R :=
  let lambda12 :=
    if (Rltb lambda12 MIN_LAMBDA_WILSON) then
    let lambda12 := MIN_LAMBDA_WILSON in
    lambda12
    else
    lambda12
  in
  let lambda21 :=
    if (Rltb lambda21 MIN_LAMBDA_WILSON) then
    let lambda21 := MIN_LAMBDA_WILSON in
    lambda21
    else
    lambda21
  in
  let pts := pts in
  let calc :=
    loop pts (fun i calc =>
      let i2 := (i * 2)%nat in
      let x1 := (xs i2) in
      let x2 := (1 - x1) in
      let c0 := (lambda12 * x2) in
      let c1 := (c0 + x1) in
      let c2 := (1 / c1) in
      let c3 := (lambda21 * x1) in
      let c4 := (c3 + x2) in
      let c5 := (1 / c4) in
      let c6 := ((c2 * lambda12) - (c5 * lambda21)) in
      let c7 := (exp (c6 * x2)) in
      let c8 := (c2 * c5) in
      let c9 := (exp ((- c6) * x1)) in
      let calc := updm calc i2 0%nat (((((((- c7) * lambda12) * x2) * x2) * c2) * c2) * c2) in
      let calc := updm calc i2 1%nat (((c7 * c8) * x2) * ((c3 * c5) - 1)) in
      let calc := updm calc (i2 + 1%nat)%nat 0%nat (((c8 * c9) * x1) * ((c0 * c2) - 1)) in
      let calc := updm calc (i2 + 1%nat)%nat 1%nat (((((((- c9) * lambda21) * x1) * x1) * c5) * c5) * c5) in
      calc
    ) calc in
  calc.
