(* UNIFAC activity coefficient model (thermo/unifac.py)
   Generated by tools/py2v.py from the text of /repo; do not edit by hand. *)
From Coq Require Import Reals Lra Lia Arith Bool.
From Verif Require Import Base.
Open Scope R_scope.
Open Scope bool_scope.

(* store into a four-index array *)
Definition updq {A : Type} (a : nat -> nat -> nat -> nat -> A) (i j h l : nat) (v : A) : nat -> nat -> nat -> nat -> A :=
  fun p q r s => if (Nat.eqb p i && Nat.eqb q j && Nat.eqb r h && Nat.eqb s l)%bool then v else a p q r s.

(* thermo/unifac.py, lines 4023-4045: unifac_psis. *)
Definition unifac_psis (T : R) (N_groups : nat) (version : nat) (psi_a : nat -> nat -> R) (psi_b : nat -> nat -> R) (psi_c : nat -> nat -> R) (psis : nat -> nat -> R) : nat -> nat -> R :=
  let mT_inv := ((- 1) / T) in
  let psis :=
    if ((version =? 4%nat)%nat || (version =? 5%nat)%nat) then
    let T0 := (5963 / 20) in
    let TmT0 := (T - T0) in
    let B := (((T * (ln (T0 / T))) + T) - T0) in
    let psis :=
      loop N_groups (fun i psis =>
        let a_row := (psi_a i) in
        let b_row := (psi_b i) in
        let c_row := (psi_c i) in
        let psis :=
          loop N_groups (fun j psis =>
            let psis := updm psis i j (exp (mT_inv * (((a_row j) + ((b_row j) * TmT0)) + ((c_row j) * B)))) in
            psis
          ) psis in
        psis
      ) psis in
    psis
    else
    let psis :=
      loop N_groups (fun i psis =>
        let a_row := (psi_a i) in
        let b_row := (psi_b i) in
        let c_row := (psi_c i) in
        let psis :=
          loop N_groups (fun j psis =>
            let psis := updm psis i j (exp ((((a_row j) * mT_inv) - (b_row j)) - ((c_row j) * T))) in
            psis
          ) psis in
        psis
      ) psis in
    psis
  in
  psis.

(* thermo/unifac.py, lines 4049-4078: unifac_dpsis_dT. *)
Definition unifac_dpsis_dT (T : R) (N_groups : nat) (version : nat) (psi_a : nat -> nat -> R) (psi_b : nat -> nat -> R) (psi_c : nat -> nat -> R) (psis : nat -> nat -> R) (dpsis_dT : nat -> nat -> R) : nat -> nat -> R :=
  let T2_inv := (1 / (T * T)) in
  let '(T2_inv, dpsis_dT) :=
    if ((version =? 4%nat)%nat || (version =? 5%nat)%nat) then
    let T0 := (5963 / 20) in
    let mT_inv := ((- 1) / T) in
    let T2_inv := (mT_inv * mT_inv) in
    let TmT0 := (T - T0) in
    let x0 := (ln (T0 / T)) in
    let B := (((T * x0) + T) - T0) in
    let x1 := (mT_inv + (TmT0 * T2_inv)) in
    let x2 := ((x0 * mT_inv) + (B * T2_inv)) in
    let dpsis_dT :=
      loop N_groups (fun i dpsis_dT =>
        let a_row := (psi_a i) in
        let b_row := (psi_b i) in
        let c_row := (psi_c i) in
        let psis_row := (psis i) in
        let dpsis_dT :=
          loop N_groups (fun j dpsis_dT =>
            let dpsis_dT := updm dpsis_dT i j ((psis_row j) * (((x1 * (b_row j)) + ((c_row j) * x2)) + ((a_row j) * T2_inv))) in
            dpsis_dT
          ) dpsis_dT in
        dpsis_dT
      ) dpsis_dT in
    (T2_inv, dpsis_dT)
    else
    let dpsis_dT :=
      loop N_groups (fun i dpsis_dT =>
        let a_row := (psi_a i) in
        let c_row := (psi_c i) in
        let psis_row := (psis i) in
        let dpsis_dT :=
          loop N_groups (fun j dpsis_dT =>
            let dpsis_dT := updm dpsis_dT i j ((psis_row j) * (((a_row j) * T2_inv) - (c_row j))) in
            dpsis_dT
          ) dpsis_dT in
        dpsis_dT
      ) dpsis_dT in
    (T2_inv, dpsis_dT)
  in
  dpsis_dT.

(* thermo/unifac.py, lines 4081-4111: unifac_d2psis_dT2. *)
Definition unifac_d2psis_dT2 (T : R) (N_groups : nat) (version : nat) (psi_a : nat -> nat -> R) (psi_b : nat -> nat -> R) (psi_c : nat -> nat -> R) (psis : nat -> nat -> R) (d2psis_dT2 : nat -> nat -> R) : nat -> nat -> R :=
  let d2psis_dT2 :=
    if ((version =? 4%nat)%nat || (version =? 5%nat)%nat) then
    let T0 := (5963 / 20) in
    let T_inv := (1 / T) in
    let T2_inv := (T_inv * T_inv) in
    let x0 := (ln (T0 / T)) in
    let d2psis_dT2 :=
      loop N_groups (fun i d2psis_dT2 =>
        let psis_row := (psis i) in
        let a_row := (psi_a i) in
        let b_row := (psi_b i) in
        let c_row := (psi_c i) in
        let d2psis_dT2 :=
          loop N_groups (fun j d2psis_dT2 =>
            let a1 := (a_row j) in
            let a2 := (b_row j) in
            let a3 := (c_row j) in
            let tf2 := ((a1 + (a2 * (T - T0))) + (a3 * (((T * (ln (T0 / T))) + T) - T0))) in
            let tf3 := (a2 + (a3 * x0)) in
            let x1 := (tf3 - (tf2 * T_inv)) in
            let v := ((T2_inv * (psis_row j)) * (((a3 + (2 * tf3)) + (x1 * x1)) - ((2 * tf2) * T_inv))) in
            let d2psis_dT2 := updm d2psis_dT2 i j v in
            d2psis_dT2
          ) d2psis_dT2 in
        d2psis_dT2
      ) d2psis_dT2 in
    d2psis_dT2
    else
    let mT2_inv := ((- 1) / (T * T)) in
    let T3_inv_m2 := ((- 2) / ((T * T) * T)) in
    let d2psis_dT2 :=
      loop N_groups (fun i d2psis_dT2 =>
        let a_row := (psi_a i) in
        let c_row := (psi_c i) in
        let psis_row := (psis i) in
        let d2psis_dT2 :=
          loop N_groups (fun j d2psis_dT2 =>
            let x0 := ((c_row j) + (mT2_inv * (a_row j))) in
            let d2psis_dT2 := updm d2psis_dT2 i j (((x0 * x0) + (T3_inv_m2 * (a_row j))) * (psis_row j)) in
            d2psis_dT2
          ) d2psis_dT2 in
        d2psis_dT2
      ) d2psis_dT2 in
    d2psis_dT2
  in
  d2psis_dT2.

(* thermo/unifac.py, lines 4114-4150: unifac_d3psis_dT3. *)
Definition unifac_d3psis_dT3 (T : R) (N_groups : nat) (version : nat) (psi_a : nat -> nat -> R) (psi_b : nat -> nat -> R) (psi_c : nat -> nat -> R) (psis : nat -> nat -> R) (d3psis_dT3 : nat -> nat -> R) : nat -> nat -> R :=
  let d3psis_dT3 :=
    if ((version =? 4%nat)%nat || (version =? 5%nat)%nat) then
    let T0 := (5963 / 20) in
    let T_inv := (1 / T) in
    let nT3_inv := (((- T_inv) * T_inv) * T_inv) in
    let TmT0 := (T - T0) in
    let x0 := (ln (T0 / T)) in
    let B := (((T * x0) + T) - T0) in
    let d3psis_dT3 :=
      loop N_groups (fun i d3psis_dT3 =>
        let psis_row := (psis i) in
        let a_row := (psi_a i) in
        let b_row := (psi_b i) in
        let c_row := (psi_c i) in
        let d3psis_dT3 :=
          loop N_groups (fun j d3psis_dT3 =>
            let a1 := (a_row j) in
            let a2 := (b_row j) in
            let a3 := (c_row j) in
            let tf2 := ((a1 + (a2 * TmT0)) + (a3 * B)) in
            let tf3 := (a2 + (a3 * x0)) in
            let x6 := (tf2 * T_inv) in
            let x5 := (tf3 - x6) in
            let v := ((nT3_inv * (psis_row j)) * (((((4 * a3) + (6 * tf3)) + ((x5 * x5) * x5)) + ((3 * x5) * (((a3 + tf3) + tf3) - (2 * x6)))) - (6 * x6))) in
            let d3psis_dT3 := updm d3psis_dT3 i j v in
            d3psis_dT3
          ) d3psis_dT3 in
        d3psis_dT3
      ) d3psis_dT3 in
    d3psis_dT3
    else
    let nT2_inv := ((- 1) / (T * T)) in
    let T3_inv_6 := (6 / ((T * T) * T)) in
    let T4_inv_6 := (6 / (((T * T) * T) * T)) in
    let d3psis_dT3 :=
      loop N_groups (fun i d3psis_dT3 =>
        let psis_row := (psis i) in
        let a_row := (psi_a i) in
        let c_row := (psi_c i) in
        let d3psis_dT3 :=
          loop N_groups (fun j d3psis_dT3 =>
            let x0 := ((c_row j) + (nT2_inv * (a_row j))) in
            let d3psis_dT3 := updm d3psis_dT3 i j (((x0 * ((T3_inv_6 * (a_row j)) - (x0 * x0))) + (T4_inv_6 * (a_row j))) * (psis_row j)) in
            d3psis_dT3
          ) d3psis_dT3 in
        d3psis_dT3
      ) d3psis_dT3 in
    d3psis_dT3
  in
  d3psis_dT3.

(* thermo/unifac.py, lines 4153-4161: unifac_Vis. *)
Definition unifac_Vis (rs : nat -> R) (xs : nat -> R) (N_ : nat) (Vis : nat -> R) : (nat -> R) * R :=
  let rx_sum_inv := 0 in
  let rx_sum_inv :=
    loop N_ (fun i rx_sum_inv =>
      let rx_sum_inv := (rx_sum_inv + ((rs i) * (xs i))) in
      rx_sum_inv
    ) rx_sum_inv in
  let rx_sum_inv := (1 / rx_sum_inv) in
  let Vis :=
    loop N_ (fun i Vis =>
      let Vis := upd Vis i ((rs i) * rx_sum_inv) in
      Vis
    ) Vis in
  (Vis, rx_sum_inv).

(* thermo/unifac.py, lines 4164-4175: unifac_dVis_dxs. *)
Definition unifac_dVis_dxs (rs : nat -> R) (rx_sum_inv : R) (N_ : nat) (dVis_dxs : nat -> nat -> R) : nat -> nat -> R :=
  let mrx_sum_inv2 := ((- rx_sum_inv) * rx_sum_inv) in
  let dVis_dxs :=
    loop N_ (fun i dVis_dxs =>
      let v := ((rs i) * mrx_sum_inv2) in
      let dVis_dxs :=
        loop N_ (fun j dVis_dxs =>
          let dVis_dxs := updm dVis_dxs i j (v * (rs j)) in
          dVis_dxs
        ) dVis_dxs in
      dVis_dxs
    ) dVis_dxs in
  dVis_dxs.

(* thermo/unifac.py, lines 4178-4192: unifac_d2Vis_dxixjs. *)
Definition unifac_d2Vis_dxixjs (rs : nat -> R) (rx_sum_inv : R) (N_ : nat) (d2Vis_dxixjs : nat -> nat -> nat -> R) : nat -> nat -> nat -> R :=
  let rx_sum_inv3_2 := (((2 * rx_sum_inv) * rx_sum_inv) * rx_sum_inv) in
  let d2Vis_dxixjs :=
    loop N_ (fun i d2Vis_dxixjs =>
      let x0 := ((rs i) * rx_sum_inv3_2) in
      let d2Vis_dxixjs :=
        loop N_ (fun j d2Vis_dxixjs =>
          let x1 := (x0 * (rs j)) in
          let d2Vis_dxixjs :=
            loop N_ (fun k d2Vis_dxixjs =>
              let d2Vis_dxixjs := updt d2Vis_dxixjs i j k (x1 * (rs k)) in
              d2Vis_dxixjs
            ) d2Vis_dxixjs in
          d2Vis_dxixjs
        ) d2Vis_dxixjs in
      d2Vis_dxixjs
    ) d2Vis_dxixjs in
  d2Vis_dxixjs.

(* thermo/unifac.py, lines 4195-4212: unifac_d3Vis_dxixjxks. *)
Definition unifac_d3Vis_dxixjxks (rs : nat -> R) (rx_sum_inv : R) (N_ : nat) (d3Vis_dxixjxks : nat -> nat -> nat -> nat -> R) : nat -> nat -> nat -> nat -> R :=
  let mrx_sum_inv4_6 := (((((- 6) * rx_sum_inv) * rx_sum_inv) * rx_sum_inv) * rx_sum_inv) in
  let d3Vis_dxixjxks :=
    loop N_ (fun i d3Vis_dxixjxks =>
      let x0 := ((rs i) * mrx_sum_inv4_6) in
      let d3Vis_dxixjxks :=
        loop N_ (fun j d3Vis_dxixjxks =>
          let x1 := (x0 * (rs j)) in
          let d3Vis_dxixjxks :=
            loop N_ (fun k d3Vis_dxixjxks =>
              let x2 := (x1 * (rs k)) in
              let d3Vis_dxixjxks :=
                loop N_ (fun l d3Vis_dxixjxks =>
                  let d3Vis_dxixjxks := updq d3Vis_dxixjxks i j k l (x2 * (rs l)) in
                  d3Vis_dxixjxks
                ) d3Vis_dxixjxks in
              d3Vis_dxixjxks
            ) d3Vis_dxixjxks in
          d3Vis_dxixjxks
        ) d3Vis_dxixjxks in
      d3Vis_dxixjxks
    ) d3Vis_dxixjxks in
  d3Vis_dxixjxks.

(* thermo/unifac.py, lines 4215-4230: unifac_Xs. *)
Definition unifac_Xs (N_ : nat) (N_groups : nat) (xs : nat -> R) (vs : nat -> nat -> R) (Xs : nat -> R) : (nat -> R) * R :=
  let Xs_sum_inv := 0 in
  let '(Xs, Xs_sum_inv) :=
    loop N_groups (fun i st_ =>
      let '(Xs, Xs_sum_inv) := st_ in
      let tot := 0 in
      let vsi := (vs i) in
      let tot :=
        loop N_ (fun j tot =>
          let tot := (tot + ((vsi j) * (xs j))) in
          tot
        ) tot in
      let Xs := upd Xs i tot in
      let Xs_sum_inv := (Xs_sum_inv + tot) in
      (Xs, Xs_sum_inv)
    ) (Xs, Xs_sum_inv) in
  let Xs_sum_inv := (1 / Xs_sum_inv) in
  let Xs :=
    loop N_groups (fun i Xs =>
      let Xs := upd Xs i ((Xs i) * Xs_sum_inv) in
      Xs
    ) Xs in
  (Xs, Xs_sum_inv).

(* thermo/unifac.py, lines 4233-4243: unifac_Thetas. *)
Definition unifac_Thetas (N_groups : nat) (Xs : nat -> R) (Qs : nat -> R) (Thetas : nat -> R) : (nat -> R) * R :=
  let Thetas_sum_inv := 0 in
  let Thetas_sum_inv :=
    loop N_groups (fun i Thetas_sum_inv =>
      let Thetas_sum_inv := (Thetas_sum_inv + ((Xs i) * (Qs i))) in
      Thetas_sum_inv
    ) Thetas_sum_inv in
  let Thetas_sum_inv := (1 / Thetas_sum_inv) in
  let Thetas :=
    loop N_groups (fun i Thetas =>
      let Thetas := upd Thetas i (((Qs i) * (Xs i)) * Thetas_sum_inv) in
      Thetas
    ) Thetas in
  (Thetas, Thetas_sum_inv).

(* thermo/unifac.py, lines 4246-4270: unifac_dThetas_dxs. *)
Definition unifac_dThetas_dxs (N_groups : nat) (N_ : nat) (Qs : nat -> R) (vs : nat -> nat -> R) (VS : nat -> R) (VSXS : nat -> R) (F : R) (G : R) (dThetas_dxs : nat -> nat -> R) (vec0 : nat -> R) : nat -> nat -> R :=
  let tot0 := 0 in
  let tot0 :=
    loop N_groups (fun k tot0 =>
      let tot0 := (tot0 + ((Qs k) * (VSXS k))) in
      tot0
    ) tot0 in
  let tot0 := (tot0 * F) in
  let vec0 :=
    loop N_ (fun j vec0 =>
      let tot1 := 0 in
      let tot1 :=
        loop N_groups (fun k tot1 =>
          let tot1 := (tot1 - ((Qs k) * (vs k j))) in
          tot1
        ) tot1 in
      let vec0 := upd vec0 j (F * ((G * ((tot0 * (VS j)) + tot1)) - (VS j))) in
      vec0
    ) vec0 in
  let FG := (F * G) in
  let dThetas_dxs :=
    loop N_groups (fun i dThetas_dxs =>
      let c := (FG * (Qs i)) in
      let dThetas_dxs :=
        loop N_ (fun j dThetas_dxs =>
          let dThetas_dxs := updm dThetas_dxs i j (c * (((VSXS i) * (vec0 j)) + (vs i j))) in
          dThetas_dxs
        ) dThetas_dxs in
      dThetas_dxs
    ) dThetas_dxs in
  dThetas_dxs.

(* thermo/unifac.py, lines 4273-4333: unifac_d2Thetas_dxixjs. *)
Definition unifac_d2Thetas_dxixjs (N_groups : nat) (N_ : nat) (Qs : nat -> R) (vs : nat -> nat -> R) (VS : nat -> R) (VSXS : nat -> R) (F : R) (G : R) (d2Thetas_dxixjs : nat -> nat -> nat -> R) (vec0 : nat -> R) : nat -> nat -> nat -> R :=
  let QsVSXS := 0 in
  let QsVSXS :=
    loop N_groups (fun i QsVSXS =>
      let QsVSXS := (QsVSXS + ((Qs i) * (VSXS i))) in
      QsVSXS
    ) QsVSXS in
  let QsVSXS_sum_inv := (1 / QsVSXS) in
  let vec0 :=
    loop N_ (fun j vec0 =>
      let nffVSj := ((- F) * (VS j)) in
      let v := 0 in
      let v :=
        loop N_groups (fun n v =>
          let v := (v + ((Qs n) * ((nffVSj * (VSXS n)) + (vs n j)))) in
          v
        ) v in
      let vec0 := upd vec0 j v in
      vec0
    ) vec0 in
  let n2F := ((- 2) * F) in
  let F2_2 := ((2 * F) * F) in
  let QsVSXS_sum_inv2 := (2 * QsVSXS_sum_inv) in
  let d2Thetas_dxixjs :=
    loop N_ (fun j d2Thetas_dxixjs =>
      let d2Thetas_dxixjs :=
        loop N_ (fun k d2Thetas_dxixjs =>
          let n2FVsK := (n2F * (VS k)) in
          let tot0 := 0 in
          let tot0 :=
            loop N_groups (fun n tot0 =>
              let tot0 := (tot0 + ((Qs n) * (((VS j) * ((n2FVsK * (VSXS n)) + (vs n k))) + ((VS k) * (vs n j))))) in
              tot0
            ) tot0 in
          let tot0 := ((tot0 * F) * QsVSXS_sum_inv) in
          let d2Thetas_dxixjs :=
            loop N_groups (fun i d2Thetas_dxixjs =>
              let v := ((((- F) * (((VS j) * (vs i k)) + ((VS k) * (vs i j)))) + ((VSXS i) * tot0)) + (((F2_2 * (VS j)) * (VS k)) * (VSXS i))) in
              let v := (v + (QsVSXS_sum_inv * ((((((QsVSXS_sum_inv2 * (VSXS i)) * (vec0 j)) * (vec0 k)) - ((vs i j) * (vec0 k))) - ((vs i k) * (vec0 j))) + ((F * (VSXS i)) * (((VS j) * (vec0 k)) + ((VS k) * (vec0 j))))))) in
              let d2Thetas_dxixjs := updt d2Thetas_dxixjs j k i ((v * (Qs i)) * QsVSXS_sum_inv) in
              d2Thetas_dxixjs
            ) d2Thetas_dxixjs in
          d2Thetas_dxixjs
        ) d2Thetas_dxixjs in
      d2Thetas_dxixjs
    ) d2Thetas_dxixjs in
  d2Thetas_dxixjs.

(* thermo/unifac.py, lines 4336-4343: unifac_VSXS. *)
Definition unifac_VSXS (N_ : nat) (N_groups : nat) (vs : nat -> nat -> R) (xs : nat -> R) (VSXS : nat -> R) : nat -> R :=
  let VSXS :=
    loop N_groups (fun i VSXS =>
      let v := 0 in
      let v :=
        loop N_ (fun j v =>
          let v := (v + ((vs i j) * (xs j))) in
          v
        ) v in
      let VSXS := upd VSXS i v in
      VSXS
    ) VSXS in
  VSXS.

(* thermo/unifac.py, lines 4346-4353: unifac_Theta_Psi_sums. *)
Definition unifac_Theta_Psi_sums (N_groups : nat) (Thetas : nat -> R) (psis : nat -> nat -> R) (Theta_Psi_sums : nat -> R) : nat -> R :=
  let Theta_Psi_sums :=
    loop N_groups (fun k Theta_Psi_sums =>
      let tot := 0 in
      let tot :=
        loop N_groups (fun m tot =>
          let tot := (tot + ((Thetas m) * (psis m k))) in
          tot
        ) tot in
      let Theta_Psi_sums := upd Theta_Psi_sums k tot in
      Theta_Psi_sums
    ) Theta_Psi_sums in
  Theta_Psi_sums.

(* thermo/unifac.py, lines 4356-4367: unifac_ws. *)
Definition unifac_ws (N_ : nat) (N_groups : nat) (psis : nat -> nat -> R) (dThetas_dxs : nat -> nat -> R) (Ws : nat -> nat -> R) : nat -> nat -> R :=
  let Ws :=
    loop N_groups (fun k Ws =>
      let Ws :=
        loop N_ (fun i Ws =>
          let tot0 := 0 in
          let tot0 :=
            loop N_groups (fun m tot0 =>
              let tot0 := (tot0 + ((psis m k) * (dThetas_dxs m i))) in
              tot0
            ) tot0 in
          let Ws := updm Ws k i tot0 in
          Ws
        ) Ws in
      Ws
    ) Ws in
  Ws.

(* thermo/unifac.py, lines 4370-4380: unifac_Theta_pure_Psi_sums. *)
Definition unifac_Theta_pure_Psi_sums (N_ : nat) (N_groups : nat) (psis : nat -> nat -> R) (Thetas_pure : nat -> nat -> R) (Theta_pure_Psi_sums : nat -> nat -> R) : nat -> nat -> R :=
  let Theta_pure_Psi_sums :=
    loop N_ (fun i Theta_pure_Psi_sums =>
      let Theta_pure_Psi_sums :=
        loop N_groups (fun k Theta_pure_Psi_sums =>
          let tot := 0 in
          let tot :=
            loop N_groups (fun m tot =>
              let tot := (tot + ((Thetas_pure i m) * (psis m k))) in
              tot
            ) tot in
          let Theta_pure_Psi_sums := updm Theta_pure_Psi_sums i k tot in
          Theta_pure_Psi_sums
        ) Theta_pure_Psi_sums in
      Theta_pure_Psi_sums
    ) Theta_pure_Psi_sums in
  Theta_pure_Psi_sums.

(* thermo/unifac.py, lines 4383-4393: unifac_lnGammas_subgroups. *)
Definition unifac_lnGammas_subgroups (N_groups : nat) (Qs : nat -> R) (psis : nat -> nat -> R) (Thetas : nat -> R) (Theta_Psi_sums : nat -> R) (Theta_Psi_sum_invs : nat -> R) (lnGammas_subgroups : nat -> R) : nat -> R :=
  let lnGammas_subgroups :=
    loop N_groups (fun k lnGammas_subgroups =>
      let psisk := (psis k) in
      let last := 1 in
      let last :=
        loop N_groups (fun m last =>
          let last := (last - (((Thetas m) * (Theta_Psi_sum_invs m)) * (psisk m))) in
          last
        ) last in
      let lnGammas_subgroups := upd lnGammas_subgroups k ((Qs k) * (last - (ln (Theta_Psi_sums k)))) in
      lnGammas_subgroups
    ) lnGammas_subgroups in
  lnGammas_subgroups.

(* thermo/unifac.py, lines 4397-4410: unifac_dlnGammas_subgroups_dxs. *)
Definition unifac_dlnGammas_subgroups_dxs (N_ : nat) (N_groups : nat) (Qs : nat -> R) (Ws : nat -> nat -> R) (psis : nat -> nat -> R) (Thetas : nat -> R) (Theta_Psi_sum_invs : nat -> R) (dThetas_dxs : nat -> nat -> R) (dlnGammas_subgroups_dxs : nat -> nat -> R) : nat -> nat -> R :=
  let dlnGammas_subgroups_dxs :=
    loop N_groups (fun k dlnGammas_subgroups_dxs =>
      let dlnGammas_subgroups_dxs :=
        loop N_ (fun i dlnGammas_subgroups_dxs =>
          let tot := ((- (Ws k i)) * (Theta_Psi_sum_invs k)) in
          let tot :=
            loop N_groups (fun m tot =>
              let tot := (tot - (((psis k m) * (Theta_Psi_sum_invs m)) * ((dThetas_dxs m i) - (((Ws m i) * (Theta_Psi_sum_invs m)) * (Thetas m))))) in
              tot
            ) tot in
          let dlnGammas_subgroups_dxs := updm dlnGammas_subgroups_dxs k i (tot * (Qs k)) in
          dlnGammas_subgroups_dxs
        ) dlnGammas_subgroups_dxs in
      dlnGammas_subgroups_dxs
    ) dlnGammas_subgroups_dxs in
  dlnGammas_subgroups_dxs.

(* thermo/unifac.py, lines 4413-4449: unifac_d2lnGammas_subgroups_dTdxs. *)
Definition unifac_d2lnGammas_subgroups_dTdxs (N_ : nat) (N_groups : nat) (Qs : nat -> R) (Fs : nat -> R) (Zs : nat -> R) (Ws : nat -> nat -> R) (psis : nat -> nat -> R) (dpsis_dT : nat -> nat -> R) (Thetas : nat -> R) (dThetas_dxs : nat -> nat -> R) (d2lnGammas_subgroups_dTdxs : nat -> nat -> R) (vec0 : nat -> R) (vec1 : nat -> R) (mat0 : nat -> nat -> R) : nat -> nat -> R :=
  let mat0 :=
    loop N_groups (fun k mat0 =>
      let mat0 :=
        loop N_ (fun j mat0 =>
          let tot := 0 in
          let tot :=
            loop N_groups (fun m tot =>
              let tot := (tot + ((dThetas_dxs m j) * (dpsis_dT m k))) in
              tot
            ) tot in
          let mat0 := updm mat0 k j tot in
          mat0
        ) mat0 in
      mat0
    ) mat0 in
  let vec0 :=
    loop N_groups (fun i vec0 =>
      let vec0 := upd vec0 i ((Zs i) * (Zs i)) in
      vec0
    ) vec0 in
  let vec1 :=
    loop N_groups (fun m vec1 =>
      let vec1 := upd vec1 m ((((2 * (Fs m)) * (vec0 m)) * (Zs m)) * (Thetas m)) in
      vec1
    ) vec1 in
  let d2lnGammas_subgroups_dTdxs :=
    loop N_groups (fun k d2lnGammas_subgroups_dTdxs =>
      let d2lnGammas_subgroups_dTdxs :=
        loop N_ (fun i d2lnGammas_subgroups_dTdxs =>
          let v := ((Zs k) * ((mat0 k i) - (((Fs k) * (Ws k i)) * (Zs k)))) in
          let v :=
            loop N_groups (fun m v =>
              let v := (v + (((dThetas_dxs m i) * (Zs m)) * ((dpsis_dT k m) - (((Fs m) * (Zs m)) * (psis k m))))) in
              let v := (v - (((vec0 m) * (Thetas m)) * (((mat0 m i) * (psis k m)) + ((Ws m i) * (dpsis_dT k m))))) in
              let v := (v + (((vec1 m) * (Ws m i)) * (psis k m))) in
              v
            ) v in
          let d2lnGammas_subgroups_dTdxs := updm d2lnGammas_subgroups_dTdxs k i ((- v) * (Qs k)) in
          d2lnGammas_subgroups_dTdxs
        ) d2lnGammas_subgroups_dTdxs in
      d2lnGammas_subgroups_dTdxs
    ) d2lnGammas_subgroups_dTdxs in
  d2lnGammas_subgroups_dTdxs.

(* thermo/unifac.py, lines 4454-4490: unifac_d2lnGammas_subgroups_dxixjs. *)
Definition unifac_d2lnGammas_subgroups_dxixjs (N_ : nat) (N_groups : nat) (Qs : nat -> R) (Zs : nat -> R) (Ws : nat -> nat -> R) (psis : nat -> nat -> R) (Thetas : nat -> R) (dThetas_dxs : nat -> nat -> R) (d2Thetas_dxixjs : nat -> nat -> nat -> R) (d2lnGammas_subgroups_dxixjs : nat -> nat -> nat -> R) (vec0 : nat -> R) : nat -> nat -> nat -> R :=
  let '(vec0, d2lnGammas_subgroups_dxixjs) :=
    loop N_ (fun i st_ =>
      let '(vec0, d2lnGammas_subgroups_dxixjs) := st_ in
      let '(vec0, d2lnGammas_subgroups_dxixjs) :=
        loop N_ (fun j st_ =>
          let '(vec0, d2lnGammas_subgroups_dxixjs) := st_ in
          let d2Thetas_dxixjs_ij := (d2Thetas_dxixjs i j) in
          let vec0 :=
            loop N_groups (fun k vec0 =>
              let totK := 0 in
              let totK :=
                loop N_groups (fun m totK =>
                  let totK := (totK + ((psis m k) * (d2Thetas_dxixjs_ij m))) in
                  totK
                ) totK in
              let vec0 := upd vec0 k totK in
              vec0
            ) vec0 in
          let d2lnGammas_subgroups_dxixjs :=
            loop N_groups (fun k d2lnGammas_subgroups_dxixjs =>
              let v := 0 in
              let v :=
                loop N_groups (fun m v =>
                  let d := (d2Thetas_dxixjs_ij m) in
                  let d := (d + ((Zs m) * ((((((2 * (Ws m i)) * (Ws m j)) * (Zs m)) - (vec0 m)) * (Thetas m)) - (((Ws m j) * (dThetas_dxs m i)) + ((Ws m i) * (dThetas_dxs m j)))))) in
                  let v := (v + ((d * (psis k m)) * (Zs m))) in
                  v
                ) v in
              let v := (v + ((Zs k) * ((vec0 k) - (((Ws k i) * (Ws k j)) * (Zs k))))) in
              let d2lnGammas_subgroups_dxixjs := updt d2lnGammas_subgroups_dxixjs i j k ((- v) * (Qs k)) in
              d2lnGammas_subgroups_dxixjs
            ) d2lnGammas_subgroups_dxixjs in
          (vec0, d2lnGammas_subgroups_dxixjs)
        ) (vec0, d2lnGammas_subgroups_dxixjs) in
      (vec0, d2lnGammas_subgroups_dxixjs)
    ) (vec0, d2lnGammas_subgroups_dxixjs) in
  d2lnGammas_subgroups_dxixjs.

(* thermo/unifac.py, lines 4512-4522: unifac_dlnGammas_subgroups_dT. *)
Definition unifac_dlnGammas_subgroups_dT (N_groups : nat) (Qs : nat -> R) (psis : nat -> nat -> R) (dpsis_dT : nat -> nat -> R) (Thetas : nat -> R) (Theta_Psi_sum_invs : nat -> R) (Theta_dPsidT_sum : nat -> R) (dlnGammas_subgroups_dT : nat -> R) : nat -> R :=
  let dlnGammas_subgroups_dT :=
    loop N_groups (fun i dlnGammas_subgroups_dT =>
      let tot := 0 in
      let tot :=
        loop N_groups (fun j tot =>
          let tot := (tot + ((((((psis i j) * (Theta_dPsidT_sum j)) * (Theta_Psi_sum_invs j)) - (dpsis_dT i j)) * (Theta_Psi_sum_invs j)) * (Thetas j))) in
          tot
        ) tot in
      let v := ((Qs i) * (tot - ((Theta_dPsidT_sum i) * (Theta_Psi_sum_invs i)))) in
      let dlnGammas_subgroups_dT := upd dlnGammas_subgroups_dT i v in
      dlnGammas_subgroups_dT
    ) dlnGammas_subgroups_dT in
  dlnGammas_subgroups_dT.

(* thermo/unifac.py, lines 4546-4561: unifac_d2lnGammas_subgroups_dT2. *)
Definition unifac_d2lnGammas_subgroups_dT2 (N_groups : nat) (Qs : nat -> R) (psis : nat -> nat -> R) (dpsis_dT : nat -> nat -> R) (d2psis_dT2 : nat -> nat -> R) (Thetas : nat -> R) (Theta_Psi_sum_invs : nat -> R) (Theta_dPsidT_sum : nat -> R) (Theta_d2PsidT2_sum : nat -> R) (d2lnGammas_subgroups_dT2 : nat -> R) (vec0 : nat -> R) : nat -> R :=
  let Zs := Theta_Psi_sum_invs in
  let Fs := Theta_dPsidT_sum in
  let Gs := Theta_d2PsidT2_sum in
  let vec0 :=
    loop N_groups (fun j vec0 =>
      let vec0 := upd vec0 j ((((((2 * (Fs j)) * (Fs j)) * (Thetas j)) * (Zs j)) * (Zs j)) * (Zs j)) in
      vec0
    ) vec0 in
  let d2lnGammas_subgroups_dT2 :=
    loop N_groups (fun i d2lnGammas_subgroups_dT2 =>
      let tot0 := 0 in
      let tot0 :=
        loop N_groups (fun j tot0 =>
          let tot0 := (tot0 + (((Zs j) * (Thetas j)) * ((d2psis_dT2 i j) - ((((Gs j) * (psis i j)) + ((2 * (Fs j)) * (dpsis_dT i j))) * (Zs j))))) in
          let tot0 := (tot0 + ((vec0 j) * (psis i j))) in
          tot0
        ) tot0 in
      let v := ((Qs i) * (((Zs i) * ((((Fs i) * (Fs i)) * (Zs i)) - (Gs i))) - tot0)) in
      let d2lnGammas_subgroups_dT2 := upd d2lnGammas_subgroups_dT2 i v in
      d2lnGammas_subgroups_dT2
    ) d2lnGammas_subgroups_dT2 in
  d2lnGammas_subgroups_dT2.

(* thermo/unifac.py, lines 4595-4618: unifac_d3lnGammas_subgroups_dT3. *)
Definition unifac_d3lnGammas_subgroups_dT3 (N_groups : nat) (Qs : nat -> R) (psis : nat -> nat -> R) (dpsis_dT : nat -> nat -> R) (d2psis_dT2 : nat -> nat -> R) (d3psis_dT3 : nat -> nat -> R) (Thetas : nat -> R) (Theta_Psi_sum_invs : nat -> R) (Theta_dPsidT_sum : nat -> R) (Theta_d2PsidT2_sum : nat -> R) (Theta_d3PsidT3_sum : nat -> R) (d3lnGammas_subgroups_dT3 : nat -> R) : nat -> R :=
  let Us_inv := Theta_Psi_sum_invs in
  let Fs := Theta_dPsidT_sum in
  let Gs := Theta_d2PsidT2_sum in
  let Hs := Theta_d3PsidT3_sum in
  let d3lnGammas_subgroups_dT3 :=
    loop N_groups (fun i d3lnGammas_subgroups_dT3 =>
      let tot := 0 in
      let tot :=
        loop N_groups (fun j tot =>
          let Theta_U := ((Thetas j) * (Us_inv j)) in
          let tot := (tot - (Theta_U * (d3psis_dT3 i j))) in
          let tot := (tot + ((((Hs j) * Theta_U) * (psis i j)) * (Us_inv j))) in
          let tot := (tot - (((((((6 * (Fs j)) * (Fs j)) * (Thetas j)) * (dpsis_dT i j)) * (Us_inv j)) * (Us_inv j)) * (Us_inv j))) in
          let tot := (tot + (((((3 * (Fs j)) * (Thetas j)) * (d2psis_dT2 i j)) * (Us_inv j)) * (Us_inv j))) in
          let tot := (tot + (((((3 * (Gs j)) * (Thetas j)) * (dpsis_dT i j)) * (Us_inv j)) * (Us_inv j))) in
          let tot := (tot + ((((6 * ((Fs j) ^ 3)) * (Thetas j)) * (psis i j)) * ((Us_inv j) ^ 4))) in
          let tot := (tot - (((((6 * (Fs j)) * (Gs j)) * (Thetas j)) * (psis i j)) * ((Us_inv j) ^ 3))) in
          tot
        ) tot in
      let v := ((Qs i) * (((((- (Hs i)) * (Us_inv i)) - ((2 * ((Fs i) ^ 3)) * ((Us_inv i) ^ 3))) + (((3 * (Fs i)) * (Gs i)) * ((Us_inv i) ^ 2))) + tot)) in
      let d3lnGammas_subgroups_dT3 := upd d3lnGammas_subgroups_dT3 i v in
      d3lnGammas_subgroups_dT3
    ) d3lnGammas_subgroups_dT3 in
  d3lnGammas_subgroups_dT3.

(* thermo/unifac.py, lines 4621-4628: unifac_Xs_pure. *)
Definition unifac_Xs_pure (N_ : nat) (N_groups : nat) (vs : nat -> nat -> R) (cmp_v_count_inv : nat -> R) (Xs_pure : nat -> nat -> R) : nat -> nat -> R :=
  let Xs_pure :=
    loop N_groups (fun i Xs_pure =>
      let vsi := (vs i) in
      let Xs_pure :=
        loop N_ (fun j Xs_pure =>
          let Xs_pure := updm Xs_pure i j ((vsi j) * (cmp_v_count_inv j)) in
          Xs_pure
        ) Xs_pure in
      Xs_pure
    ) Xs_pure in
  Xs_pure.

(* thermo/unifac.py, lines 4631-4644: unifac_Thetas_pure. *)
Definition unifac_Thetas_pure (N_ : nat) (N_groups : nat) (Xs_pure : nat -> nat -> R) (Qs : nat -> R) (Thetas_pure : nat -> nat -> R) : nat -> nat -> R :=
  let Thetas_pure :=
    loop N_ (fun i Thetas_pure =>
      let tot := 0 in
      let tot :=
        loop N_groups (fun j tot =>
          let tot := (tot + ((Qs j) * (Xs_pure j i))) in
          tot
        ) tot in
      let tot_inv := (1 / tot) in
      let Thetas_pure :=
        loop N_groups (fun j Thetas_pure =>
          let Thetas_pure := updm Thetas_pure i j (((Qs j) * (Xs_pure j i)) * tot_inv) in
          Thetas_pure
        ) Thetas_pure in
      Thetas_pure
    ) Thetas_pure in
  Thetas_pure.

(* thermo/unifac.py, lines 4648-4670: unifac_lnGammas_subgroups_pure. (the index lists hold the groups with a non-zero count: `for m in cmp_group_idx[i]` is a loop over all groups with a test) *)
Definition unifac_lnGammas_subgroups_pure (N_ : nat) (N_groups : nat) (Qs : nat -> R) (Thetas_pure : nat -> nat -> R) (psis : nat -> nat -> R) (lnGammas_subgroups_pure : nat -> nat -> R) (vs : nat -> nat -> R) : nat -> nat -> R :=
  let lnGammas_subgroups_pure :=
    loop N_groups (fun k lnGammas_subgroups_pure =>
      let lnGammas_subgroups_pure :=
        loop N_ (fun i lnGammas_subgroups_pure =>
          let lnGammas_subgroups_pure :=
            if (negb (Reqb (vs k i) 0)) then
            let psisk := (psis k) in
            let log_sum := 0 in
            let log_sum :=
              loop N_groups (fun m log_sum =>
                let log_sum :=
                  if (negb (Reqb (vs m i) 0)) then
                  let log_sum := (log_sum + ((Thetas_pure i m) * (psis m k))) in
                  log_sum
                  else
                  log_sum
                in
                log_sum
              ) log_sum in
            let log_sum := (ln log_sum) in
            let last := 0 in
            let last :=
              loop N_groups (fun m last =>
                let last :=
                  if (negb (Reqb (vs m i) 0)) then
                  let sub_subs := 0 in
                  let sub_subs :=
                    loop N_groups (fun n sub_subs =>
                      let sub_subs := (sub_subs + ((Thetas_pure i n) * (psis n m))) in
                      sub_subs
                    ) sub_subs in
                  let last := (last + (((Thetas_pure i m) * (psisk m)) / sub_subs)) in
                  last
                  else
                  last
                in
                last
              ) last in
            let v := ((Qs k) * ((1 - log_sum) - last)) in
            let lnGammas_subgroups_pure := updm lnGammas_subgroups_pure k i v in
            lnGammas_subgroups_pure
            else
            lnGammas_subgroups_pure
          in
          lnGammas_subgroups_pure
        ) lnGammas_subgroups_pure in
      lnGammas_subgroups_pure
    ) lnGammas_subgroups_pure in
  lnGammas_subgroups_pure.

(* thermo/unifac.py, lines 4675-4693: unifac_dlnGammas_subgroups_pure_dT. (the index lists hold the groups with a non-zero count: `for m in cmp_group_idx[i]` is a loop over all groups with a test) *)
Definition unifac_dlnGammas_subgroups_pure_dT (N_ : nat) (N_groups : nat) (Qs : nat -> R) (psis : nat -> nat -> R) (dpsis_dT : nat -> nat -> R) (Thetas_pure : nat -> nat -> R) (Theta_pure_Psi_sum_invs : nat -> nat -> R) (Fs_pure : nat -> nat -> R) (dlnGammas_subgroups_pure_dT : nat -> nat -> R) (vec0 : nat -> R) (vs : nat -> nat -> R) : nat -> nat -> R :=
  let '(vec0, dlnGammas_subgroups_pure_dT) :=
    loop N_ (fun m st_ =>
      let '(vec0, dlnGammas_subgroups_pure_dT) := st_ in
      let Thetas := (Thetas_pure m) in
      let Theta_Psi_sum_invs := (Theta_pure_Psi_sum_invs m) in
      let Theta_dPsidT_sum := (Fs_pure m) in
      let vec0 := (unifac_dlnGammas_subgroups_dT N_groups Qs psis dpsis_dT Thetas Theta_Psi_sum_invs Theta_dPsidT_sum vec0) in
      let dlnGammas_subgroups_pure_dT :=
        loop N_groups (fun k dlnGammas_subgroups_pure_dT =>
          let dlnGammas_subgroups_pure_dT :=
            if (negb (Reqb (vs k m) 0)) then
            let dlnGammas_subgroups_pure_dT := updm dlnGammas_subgroups_pure_dT k m (vec0 k) in
            dlnGammas_subgroups_pure_dT
            else
            dlnGammas_subgroups_pure_dT
          in
          dlnGammas_subgroups_pure_dT
        ) dlnGammas_subgroups_pure_dT in
      (vec0, dlnGammas_subgroups_pure_dT)
    ) (vec0, dlnGammas_subgroups_pure_dT) in
  dlnGammas_subgroups_pure_dT.

(* thermo/unifac.py, lines 4696-4715: unifac_d2lnGammas_subgroups_pure_dT2. (the index lists hold the groups with a non-zero count: `for m in cmp_group_idx[i]` is a loop over all groups with a test) *)
Definition unifac_d2lnGammas_subgroups_pure_dT2 (N_ : nat) (N_groups : nat) (Qs : nat -> R) (psis : nat -> nat -> R) (dpsis_dT : nat -> nat -> R) (d2psis_dT2 : nat -> nat -> R) (Thetas_pure : nat -> nat -> R) (Theta_pure_Psi_sum_invs : nat -> nat -> R) (Fs_pure : nat -> nat -> R) (Gs_pure : nat -> nat -> R) (d2lnGammas_subgroups_pure_dT2 : nat -> nat -> R) (vec0 : nat -> R) (vs : nat -> nat -> R) : nat -> nat -> R :=
  let d2lnGammas_subgroups_pure_dT2 :=
    loop N_ (fun m d2lnGammas_subgroups_pure_dT2 =>
      let Thetas := (Thetas_pure m) in
      let Theta_Psi_sum_invs := (Theta_pure_Psi_sum_invs m) in
      let Theta_dPsidT_sum := (Fs_pure m) in
      let Theta_d2PsidT2_sum := (Gs_pure m) in
      let vec0 := (unifac_d2lnGammas_subgroups_dT2 N_groups Qs psis dpsis_dT d2psis_dT2 Thetas Theta_Psi_sum_invs Theta_dPsidT_sum Theta_d2PsidT2_sum (fun _ => 0) (fun _ => 0)) in
      let d2lnGammas_subgroups_pure_dT2 :=
        loop N_groups (fun k d2lnGammas_subgroups_pure_dT2 =>
          let d2lnGammas_subgroups_pure_dT2 :=
            if (negb (Reqb (vs k m) 0)) then
            let d2lnGammas_subgroups_pure_dT2 := updm d2lnGammas_subgroups_pure_dT2 k m (vec0 k) in
            d2lnGammas_subgroups_pure_dT2
            else
            d2lnGammas_subgroups_pure_dT2
          in
          d2lnGammas_subgroups_pure_dT2
        ) d2lnGammas_subgroups_pure_dT2 in
      d2lnGammas_subgroups_pure_dT2
    ) d2lnGammas_subgroups_pure_dT2 in
  d2lnGammas_subgroups_pure_dT2.

(* thermo/unifac.py, lines 4718-4737: unifac_d3lnGammas_subgroups_pure_dT3. (the index lists hold the groups with a non-zero count: `for m in cmp_group_idx[i]` is a loop over all groups with a test) *)
Definition unifac_d3lnGammas_subgroups_pure_dT3 (N_ : nat) (N_groups : nat) (Qs : nat -> R) (psis : nat -> nat -> R) (dpsis_dT : nat -> nat -> R) (d2psis_dT2 : nat -> nat -> R) (d3psis_dT3 : nat -> nat -> R) (Thetas_pure : nat -> nat -> R) (Theta_pure_Psi_sum_invs : nat -> nat -> R) (Fs_pure : nat -> nat -> R) (Gs_pure : nat -> nat -> R) (Hs_pure : nat -> nat -> R) (d3lnGammas_subgroups_pure_dT3 : nat -> nat -> R) (vs : nat -> nat -> R) : nat -> nat -> R :=
  let d3lnGammas_subgroups_pure_dT3 :=
    loop N_ (fun m d3lnGammas_subgroups_pure_dT3 =>
      let Thetas := (Thetas_pure m) in
      let Theta_Psi_sum_invs := (Theta_pure_Psi_sum_invs m) in
      let Theta_dPsidT_sum := (Fs_pure m) in
      let Theta_d2PsidT2_sum := (Gs_pure m) in
      let Theta_d3PsidT3_sum := (Hs_pure m) in
      let row := (unifac_d3lnGammas_subgroups_dT3 N_groups Qs psis dpsis_dT d2psis_dT2 d3psis_dT3 Thetas Theta_Psi_sum_invs Theta_dPsidT_sum Theta_d2PsidT2_sum Theta_d3PsidT3_sum (fun _ => 0)) in
      let d3lnGammas_subgroups_pure_dT3 :=
        loop N_groups (fun k d3lnGammas_subgroups_pure_dT3 =>
          let d3lnGammas_subgroups_pure_dT3 :=
            if (negb (Reqb (vs k m) 0)) then
            let d3lnGammas_subgroups_pure_dT3 := updm d3lnGammas_subgroups_pure_dT3 k m (row k) in
            d3lnGammas_subgroups_pure_dT3
            else
            d3lnGammas_subgroups_pure_dT3
          in
          d3lnGammas_subgroups_pure_dT3
        ) d3lnGammas_subgroups_pure_dT3 in
      d3lnGammas_subgroups_pure_dT3
    ) d3lnGammas_subgroups_pure_dT3 in
  d3lnGammas_subgroups_pure_dT3.

(* thermo/unifac.py, lines 4740-4748: unifac_lngammas_r. *)
Definition unifac_lngammas_r (N_ : nat) (N_groups : nat) (lnGammas_subgroups_pure : nat -> nat -> R) (lnGammas_subgroups : nat -> R) (vs : nat -> nat -> R) (lngammas_r : nat -> R) : nat -> R :=
  let lngammas_r :=
    loop N_ (fun i lngammas_r =>
      let tot := 0 in
      let tot :=
        loop N_groups (fun k tot =>
          let tot := (tot + ((vs k i) * ((lnGammas_subgroups k) - (lnGammas_subgroups_pure k i)))) in
          tot
        ) tot in
      let lngammas_r := upd lngammas_r i tot in
      lngammas_r
    ) lngammas_r in
  lngammas_r.

(* thermo/unifac.py, lines 4751-4761: unifac_dlngammas_r_dxs. *)
Definition unifac_dlngammas_r_dxs (N_ : nat) (N_groups : nat) (vs : nat -> nat -> R) (dlnGammas_subgroups_dxs : nat -> nat -> R) (dlngammas_r_dxs : nat -> nat -> R) : nat -> nat -> R :=
  let dlngammas_r_dxs :=
    loop N_ (fun i dlngammas_r_dxs =>
      let dlngammas_r_dxs :=
        loop N_ (fun j dlngammas_r_dxs =>
          let tot := 0 in
          let tot :=
            loop N_groups (fun m tot =>
              let tot := (tot + ((vs m i) * (dlnGammas_subgroups_dxs m j))) in
              tot
            ) tot in
          let dlngammas_r_dxs := updm dlngammas_r_dxs i j tot in
          dlngammas_r_dxs
        ) dlngammas_r_dxs in
      dlngammas_r_dxs
    ) dlngammas_r_dxs in
  dlngammas_r_dxs.

(* thermo/unifac.py, lines 4765-4779: unifac_d2lngammas_r_dxixjs. *)
Definition unifac_d2lngammas_r_dxixjs (N_ : nat) (N_groups : nat) (vs : nat -> nat -> R) (d2lnGammas_subgroups_dxixjs : nat -> nat -> nat -> R) (d2lngammas_r_dxixjs : nat -> nat -> nat -> R) : nat -> nat -> nat -> R :=
  let d2lngammas_r_dxixjs :=
    loop N_ (fun i d2lngammas_r_dxixjs =>
      let d2lngammas_r_dxixjs :=
        loop N_ (fun j d2lngammas_r_dxixjs =>
          let d2lngammas_r_dxixjs :=
            loop N_ (fun k d2lngammas_r_dxixjs =>
              let tot := 0 in
              let r := (d2lnGammas_subgroups_dxixjs j k) in
              let tot :=
                loop N_groups (fun m tot =>
                  let tot := (tot + ((vs m i) * (r m))) in
                  tot
                ) tot in
              let d2lngammas_r_dxixjs := updt d2lngammas_r_dxixjs i j k tot in
              d2lngammas_r_dxixjs
            ) d2lngammas_r_dxixjs in
          d2lngammas_r_dxixjs
        ) d2lngammas_r_dxixjs in
      d2lngammas_r_dxixjs
    ) d2lngammas_r_dxixjs in
  d2lngammas_r_dxixjs.

(* thermo/unifac.py, lines 4782-4786: unifac_GE. *)
Definition unifac_GE (T : R) (xs : nat -> R) (N_ : nat) (lngammas_r : nat -> R) (lngammas_c : nat -> R) : R :=
  let GE := 0 in
  let GE :=
    loop N_ (fun i GE =>
      let GE := (GE + ((xs i) * ((lngammas_c i) + (lngammas_r i)))) in
      GE
    ) GE in
  let GE := (GE * (Rgas * T)) in
  GE.

(* thermo/unifac.py, lines 4789-4793: unifac_GE_skip_comb. *)
Definition unifac_GE_skip_comb (T : R) (xs : nat -> R) (N_ : nat) (lngammas_r : nat -> R) : R :=
  let GE := 0 in
  let GE :=
    loop N_ (fun i GE =>
      let GE := (GE + ((xs i) * (lngammas_r i))) in
      GE
    ) GE in
  let GE := (GE * (Rgas * T)) in
  GE.

(* thermo/unifac.py, lines 4796-4804: unifac_dGE_dxs. *)
Definition unifac_dGE_dxs (T : R) (xs : nat -> R) (N_ : nat) (lngammas_r : nat -> R) (dlngammas_r_dxs : nat -> nat -> R) (lngammas_c : nat -> R) (dlngammas_c_dxs : nat -> nat -> R) (dGE_dxs : nat -> R) : nat -> R :=
  let RT := (Rgas * T) in
  let dGE_dxs :=
    loop N_ (fun i dGE_dxs =>
      let dGE := ((lngammas_r i) + (lngammas_c i)) in
      let dGE :=
        loop N_ (fun j dGE =>
          let dGE := (dGE + ((xs j) * ((dlngammas_c_dxs j i) + (dlngammas_r_dxs j i)))) in
          dGE
        ) dGE in
      let dGE_dxs := upd dGE_dxs i (dGE * RT) in
      dGE_dxs
    ) dGE_dxs in
  dGE_dxs.

(* thermo/unifac.py, lines 4807-4815: unifac_dGE_dxs_skip_comb. *)
Definition unifac_dGE_dxs_skip_comb (T : R) (xs : nat -> R) (N_ : nat) (lngammas_r : nat -> R) (dlngammas_r_dxs : nat -> nat -> R) (dGE_dxs : nat -> R) : nat -> R :=
  let RT := (Rgas * T) in
  let dGE_dxs :=
    loop N_ (fun i dGE_dxs =>
      let dGE := (lngammas_r i) in
      let dGE :=
        loop N_ (fun j dGE =>
          let dGE := (dGE + ((xs j) * (dlngammas_r_dxs j i))) in
          dGE
        ) dGE in
      let dGE_dxs := upd dGE_dxs i (dGE * RT) in
      dGE_dxs
    ) dGE_dxs in
  dGE_dxs.

(* thermo/unifac.py, lines 4819-4828: unifac_d2GE_dTdxs. *)
Definition unifac_d2GE_dTdxs (T : R) (xs : nat -> R) (N_ : nat) (lngammas_r : nat -> R) (dlngammas_r_dxs : nat -> nat -> R) (dlngammas_r_dT : nat -> R) (d2lngammas_r_dTdxs : nat -> nat -> R) (lngammas_c : nat -> R) (dlngammas_c_dxs : nat -> nat -> R) (d2GE_dTdxs : nat -> R) : nat -> R :=
  let d2GE_dTdxs :=
    loop N_ (fun i d2GE_dTdxs =>
      let dGE := (((lngammas_r i) + (lngammas_c i)) + (T * (dlngammas_r_dT i))) in
      let dGE :=
        loop N_ (fun j dGE =>
          let dGE := (dGE + ((xs j) * ((dlngammas_c_dxs j i) + (dlngammas_r_dxs j i)))) in
          let dGE := (dGE + ((T * (xs j)) * (d2lngammas_r_dTdxs j i))) in
          dGE
        ) dGE in
      let d2GE_dTdxs := upd d2GE_dTdxs i (dGE * Rgas) in
      d2GE_dTdxs
    ) d2GE_dTdxs in
  d2GE_dTdxs.

(* thermo/unifac.py, lines 4831-4838: unifac_d2GE_dTdxs_skip_comb. *)
Definition unifac_d2GE_dTdxs_skip_comb (T : R) (xs : nat -> R) (N_ : nat) (lngammas_r : nat -> R) (dlngammas_r_dxs : nat -> nat -> R) (dlngammas_r_dT : nat -> R) (d2lngammas_r_dTdxs : nat -> nat -> R) (d2GE_dTdxs : nat -> R) : nat -> R :=
  let d2GE_dTdxs :=
    loop N_ (fun i d2GE_dTdxs =>
      let dGE := ((lngammas_r i) + (T * (dlngammas_r_dT i))) in
      let dGE :=
        loop N_ (fun j dGE =>
          let dGE := (dGE + ((xs j) * ((dlngammas_r_dxs j i) + (T * (d2lngammas_r_dTdxs j i))))) in
          dGE
        ) dGE in
      let d2GE_dTdxs := upd d2GE_dTdxs i (dGE * Rgas) in
      d2GE_dTdxs
    ) d2GE_dTdxs in
  d2GE_dTdxs.

(* thermo/unifac.py, lines 4841-4855: unifac_d2GE_dxixjs. *)
Definition unifac_d2GE_dxixjs (T : R) (xs : nat -> R) (N_ : nat) (dlngammas_r_dxs : nat -> nat -> R) (d2lngammas_r_dxixjs : nat -> nat -> nat -> R) (dlngammas_c_dxs : nat -> nat -> R) (d2lngammas_c_dxixjs : nat -> nat -> nat -> R) (d2GE_dxixjs : nat -> nat -> R) : nat -> nat -> R :=
  let RT := (Rgas * T) in
  let d2GE_dxixjs :=
    loop N_ (fun i d2GE_dxixjs =>
      let d2GE_dxixjs :=
        loop N_ (fun j d2GE_dxixjs =>
          let dGE := ((dlngammas_c_dxs i j) + (dlngammas_r_dxs i j)) in
          let dGE := (dGE + ((dlngammas_c_dxs j i) + (dlngammas_r_dxs j i))) in
          let dGE :=
            loop N_ (fun k dGE =>
              let dGE := (dGE + ((xs k) * ((d2lngammas_c_dxixjs k i j) + (d2lngammas_r_dxixjs k i j)))) in
              dGE
            ) dGE in
          let d2GE_dxixjs := updm d2GE_dxixjs i j (dGE * RT) in
          d2GE_dxixjs
        ) d2GE_dxixjs in
      d2GE_dxixjs
    ) d2GE_dxixjs in
  d2GE_dxixjs.

(* thermo/unifac.py, lines 4858-4870: unifac_d2GE_dxixjs_skip_comb. *)
Definition unifac_d2GE_dxixjs_skip_comb (T : R) (xs : nat -> R) (N_ : nat) (dlngammas_r_dxs : nat -> nat -> R) (d2lngammas_r_dxixjs : nat -> nat -> nat -> R) (d2GE_dxixjs : nat -> nat -> R) : nat -> nat -> R :=
  let RT := (Rgas * T) in
  let d2GE_dxixjs :=
    loop N_ (fun i d2GE_dxixjs =>
      let d2GE_dxixjs :=
        loop N_ (fun j d2GE_dxixjs =>
          let dGE := ((dlngammas_r_dxs i j) + (dlngammas_r_dxs j i)) in
          let dGE :=
            loop N_ (fun k dGE =>
              let dGE := (dGE + ((xs k) * (d2lngammas_r_dxixjs k i j))) in
              dGE
            ) dGE in
          let d2GE_dxixjs := updm d2GE_dxixjs i j (dGE * RT) in
          d2GE_dxixjs
        ) d2GE_dxixjs in
      d2GE_dxixjs
    ) d2GE_dxixjs in
  d2GE_dxixjs.

(* thermo/unifac.py, lines 4873-4876: unifac_dGE_dT. *)
Definition unifac_dGE_dT (N_ : nat) (T : R) (xs : nat -> R) (dlngammas_r_dT : nat -> R) (GE : R) : R :=
  let tot := 0 in
  let tot :=
    loop N_ (fun i tot =>
      let tot := (tot + ((xs i) * (dlngammas_r_dT i))) in
      tot
    ) tot in
  (((Rgas * T) * tot) + (GE / T)).

(* thermo/unifac.py, lines 4879-4884: unifac_d2GE_dT2. *)
Definition unifac_d2GE_dT2 (N_ : nat) (T : R) (xs : nat -> R) (dlngammas_r_dT : nat -> R) (d2lngammas_r_dT2 : nat -> R) : R :=
  let tot0 := 0 in
  let tot1 := 0 in
  let '(tot0, tot1) :=
    loop N_ (fun i st_ =>
      let '(tot0, tot1) := st_ in
      let tot0 := (tot0 + ((xs i) * (d2lngammas_r_dT2 i))) in
      let tot1 := (tot1 + ((xs i) * (dlngammas_r_dT i))) in
      (tot0, tot1)
    ) (tot0, tot1) in
  (Rgas * ((T * tot0) + (tot1 + tot1))).

(* thermo/unifac.py, lines 4887-4892: unifac_d3GE_dT3. *)
Definition unifac_d3GE_dT3 (N_ : nat) (T : R) (xs : nat -> R) (d2lngammas_r_dT2 : nat -> R) (d3lngammas_r_dT3 : nat -> R) : R :=
  let tot0 := 0 in
  let tot1 := 0 in
  let '(tot0, tot1) :=
    loop N_ (fun i st_ =>
      let '(tot0, tot1) := st_ in
      let tot0 := (tot0 + ((xs i) * (d3lngammas_r_dT3 i))) in
      let tot1 := (tot1 + ((xs i) * (d2lngammas_r_dT2 i))) in
      (tot0, tot1)
    ) (tot0, tot1) in
  (Rgas * ((T * tot0) + (3 * tot1))).

(* thermo/unifac.py, lines 4895-4900: unifac_gammas. *)
Definition unifac_gammas (N_ : nat) (xs : nat -> R) (lngammas_r : nat -> R) (lngammas_c : nat -> R) (gammas : nat -> R) : nat -> R :=
  let gammas :=
    loop N_ (fun i gammas =>
      let gammas := upd gammas i (exp ((lngammas_r i) + (lngammas_c i))) in
      gammas
    ) gammas in
  gammas.

(* thermo/unifac.py, lines 4983-4997: unifac_lngammas_c. *)
Definition unifac_lngammas_c (N_ : nat) (version : nat) (qs : nat -> R) (Fis : nat -> R) (Vis : nat -> R) (Vis_modified : nat -> R) (lngammas_c : nat -> R) : nat -> R :=
  let lngammas_c :=
    if (version =? 4%nat)%nat then
    let lngammas_c :=
      loop N_ (fun i lngammas_c =>
        let r := (Vis_modified i) in
        let val := (((ln r) + 1) - r) in
        let lngammas_c := upd lngammas_c i val in
        lngammas_c
      ) lngammas_c in
    lngammas_c
    else
    let lngammas_c :=
      loop N_ (fun i lngammas_c =>
        let Vi_Fi := ((Vis i) / (Fis i)) in
        let val := (((1 - (Vis_modified i)) + (ln (Vis_modified i))) - ((5 * (qs i)) * ((1 - Vi_Fi) + (ln Vi_Fi)))) in
        let lngammas_c := upd lngammas_c i val in
        lngammas_c
      ) lngammas_c in
    lngammas_c
  in
  lngammas_c.

(* thermo/unifac.py, lines 5000-5019: unifac_dlngammas_c_dxs. *)
Definition unifac_dlngammas_c_dxs (N_ : nat) (version : nat) (qs : nat -> R) (Fis : nat -> R) (dFis_dxs : nat -> nat -> R) (Vis : nat -> R) (dVis_dxs : nat -> nat -> R) (Vis_modified : nat -> R) (dVis_modified_dxs : nat -> nat -> R) (dlngammas_c_dxs : nat -> nat -> R) : nat -> nat -> R :=
  let dlngammas_c_dxs :=
    if (version =? 4%nat)%nat then
    let dlngammas_c_dxs :=
      loop N_ (fun i dlngammas_c_dxs =>
        let dlngammas_c_dxs :=
          loop N_ (fun j dlngammas_c_dxs =>
            let v := ((- (dVis_modified_dxs i j)) + ((dVis_modified_dxs i j) / (Vis_modified i))) in
            let dlngammas_c_dxs := updm dlngammas_c_dxs i j v in
            dlngammas_c_dxs
          ) dlngammas_c_dxs in
        dlngammas_c_dxs
      ) dlngammas_c_dxs in
    dlngammas_c_dxs
    else
    let dlngammas_c_dxs :=
      loop N_ (fun i dlngammas_c_dxs =>
        let Fi_inv := (1 / (Fis i)) in
        let dlngammas_c_dxs :=
          loop N_ (fun j dlngammas_c_dxs =>
            let val := (((((- 5) * (qs i)) * (((((dVis_dxs i j) - (((Vis i) * (dFis_dxs i j)) * Fi_inv)) / (Vis i)) - ((dVis_dxs i j) * Fi_inv)) + ((((Vis i) * (dFis_dxs i j)) * Fi_inv) * Fi_inv))) - (dVis_modified_dxs i j)) + ((dVis_modified_dxs i j) / (Vis_modified i))) in
            let dlngammas_c_dxs := updm dlngammas_c_dxs i j val in
            dlngammas_c_dxs
          ) dlngammas_c_dxs in
        dlngammas_c_dxs
      ) dlngammas_c_dxs in
    dlngammas_c_dxs
  in
  dlngammas_c_dxs.

(* thermo/unifac.py, lines 5023-5077: unifac_d2lngammas_c_dxixjs. *)
Definition unifac_d2lngammas_c_dxixjs (N_ : nat) (version : nat) (qs : nat -> R) (Fis : nat -> R) (dFis_dxs : nat -> nat -> R) (d2Fis_dxixjs : nat -> nat -> nat -> R) (Vis : nat -> R) (dVis_dxs : nat -> nat -> R) (d2Vis_dxixjs : nat -> nat -> nat -> R) (Vis_modified : nat -> R) (dVis_modified_dxs : nat -> nat -> R) (d2Vis_modified_dxixjs : nat -> nat -> nat -> R) (d2lngammas_c_dxixjs : nat -> nat -> nat -> R) : nat -> nat -> nat -> R :=
  let d2lngammas_c_dxixjs :=
    if (version =? 4%nat)%nat then
    let d2lngammas_c_dxixjs :=
      loop N_ (fun i d2lngammas_c_dxixjs =>
        let Vi := (Vis_modified i) in
        let d2lngammas_c_dxixjs :=
          loop N_ (fun j d2lngammas_c_dxixjs =>
            let d2lngammas_c_dxixjs :=
              loop N_ (fun k d2lngammas_c_dxixjs =>
                let val := ((- (d2Vis_modified_dxixjs i j k)) + ((1 / Vi) * (d2Vis_modified_dxixjs i j k))) in
                let val := (val - (((1 / (Vi ^ 2)) * (dVis_modified_dxs i j)) * (dVis_modified_dxs i k))) in
                let d2lngammas_c_dxixjs := updt d2lngammas_c_dxixjs i j k val in
                d2lngammas_c_dxixjs
              ) d2lngammas_c_dxixjs in
            d2lngammas_c_dxixjs
          ) d2lngammas_c_dxixjs in
        d2lngammas_c_dxixjs
      ) d2lngammas_c_dxixjs in
    d2lngammas_c_dxixjs
    else
    let d2lngammas_c_dxixjs :=
      loop N_ (fun i d2lngammas_c_dxixjs =>
        let Vi := (Vis i) in
        let qi := (qs i) in
        let ViD := (Vis_modified i) in
        let ViD_inv2 := (1 / (ViD * ViD)) in
        let Fi := (Fis i) in
        let x1 := (1 / Fi) in
        let x4 := (x1 * x1) in
        let Fi_inv3 := ((x1 * x1) * x1) in
        let x5 := ((Vis i) * x4) in
        let x15 := (1 / Vi) in
        let Vi_inv2 := (x15 * x15) in
        let d2lngammas_c_dxixjs :=
          loop N_ (fun j d2lngammas_c_dxixjs =>
            let x6 := (dFis_dxs i j) in
            let x10 := (dVis_dxs i j) in
            let dViD_dxj := (dVis_modified_dxs i j) in
            let d2lngammas_c_dxixjs :=
              loop N_ (fun k d2lngammas_c_dxixjs =>
                let x0 := (d2Vis_modified_dxixjs i j k) in
                let x2 := (d2Vis_dxixjs i j k) in
                let x3 := (d2Fis_dxixjs i j k) in
                let x7 := (dVis_dxs i k) in
                let dViD_dxk := (dVis_modified_dxs i k) in
                let x8 := (x6 * x7) in
                let x9 := (dFis_dxs i k) in
                let x11 := (x10 * x9) in
                let x12 := ((2 * x6) * x9) in
                let x13 := (Vi * x1) in
                let x14 := (x10 - (x13 * x6)) in
                let val := (((((5 * qi) * (((((((((((- x1) * x14) * x15) * x9) + (x1 * x2)) - (x11 * x4)) + (x15 * (((((x1 * x11) + (x1 * x8)) - (x12 * x5)) + (x13 * x3)) - x2))) - (x3 * x5)) - (x4 * x8)) + ((x14 * x7) * Vi_inv2)) + ((Vi * x12) * Fi_inv3))) - x0) + (x0 / ViD)) - ((dViD_dxj * dViD_dxk) * ViD_inv2)) in
                let d2lngammas_c_dxixjs := updt d2lngammas_c_dxixjs i j k val in
                d2lngammas_c_dxixjs
              ) d2lngammas_c_dxixjs in
            d2lngammas_c_dxixjs
          ) d2lngammas_c_dxixjs in
        d2lngammas_c_dxixjs
      ) d2lngammas_c_dxixjs in
    d2lngammas_c_dxixjs
  in
  d2lngammas_c_dxixjs.

(* thermo/unifac.py, lines 5080-5157: unifac_d3lngammas_c_dxixjxks. *)
Definition unifac_d3lngammas_c_dxixjxks (N_ : nat) (version : nat) (qs : nat -> R) (Fis : nat -> R) (dFis_dxs : nat -> nat -> R) (d2Fis_dxixjs : nat -> nat -> nat -> R) (d3Fis_dxixjxks : nat -> nat -> nat -> nat -> R) (Vis : nat -> R) (dVis_dxs : nat -> nat -> R) (d2Vis_dxixjs : nat -> nat -> nat -> R) (d3Vis_dxixjxks : nat -> nat -> nat -> nat -> R) (Vis_modified : nat -> R) (dVis_modified_dxs : nat -> nat -> R) (d2Vis_modified_dxixjs : nat -> nat -> nat -> R) (d3Vis_modified_dxixjxks : nat -> nat -> nat -> nat -> R) (d3lngammas_c_dxixjxks : nat -> nat -> nat -> nat -> R) : nat -> nat -> nat -> nat -> R :=
  let d3lngammas_c_dxixjxks :=
    if (version =? 4%nat)%nat then
    let d3lngammas_c_dxixjxks :=
      loop N_ (fun i d3lngammas_c_dxixjxks =>
        let Vi := (Vis_modified i) in
        let d3lngammas_c_dxixjxks :=
          loop N_ (fun j d3lngammas_c_dxixjxks =>
            let d3lngammas_c_dxixjxks :=
              loop N_ (fun k d3lngammas_c_dxixjxks =>
                let d3lngammas_c_dxixjxks :=
                  loop N_ (fun m d3lngammas_c_dxixjxks =>
                    let val := ((d3Vis_modified_dxixjxks i j k m) * ((1 / Vi) - 1)) in
                    let val := (val - ((1 / (Vi ^ 2)) * ((((dVis_modified_dxs i j) * (d2Vis_modified_dxixjs i k m)) + ((dVis_modified_dxs i k) * (d2Vis_modified_dxixjs i j m))) + ((dVis_modified_dxs i m) * (d2Vis_modified_dxixjs i j k))))) in
                    let val := (val + ((((2 / (Vi ^ 3)) * (dVis_modified_dxs i j)) * (dVis_modified_dxs i k)) * (dVis_modified_dxs i m))) in
                    let d3lngammas_c_dxixjxks := updq d3lngammas_c_dxixjxks i j k m val in
                    d3lngammas_c_dxixjxks
                  ) d3lngammas_c_dxixjxks in
                d3lngammas_c_dxixjxks
              ) d3lngammas_c_dxixjxks in
            d3lngammas_c_dxixjxks
          ) d3lngammas_c_dxixjxks in
        d3lngammas_c_dxixjxks
      ) d3lngammas_c_dxixjxks in
    d3lngammas_c_dxixjxks
    else
    let d3lngammas_c_dxixjxks :=
      loop N_ (fun i d3lngammas_c_dxixjxks =>
        let Vi := (Vis i) in
        let ViD := (Vis_modified i) in
        let Fi := (Fis i) in
        let qi := (qs i) in
        let d3lngammas_c_dxixjxks :=
          loop N_ (fun j d3lngammas_c_dxixjxks =>
            let d3lngammas_c_dxixjxks :=
              loop N_ (fun k d3lngammas_c_dxixjxks =>
                let d3lngammas_c_dxixjxks :=
                  loop N_ (fun m d3lngammas_c_dxixjxks =>
                    let x0 := (d3Vis_modified_dxixjxks i j k m) in
                    let x1 := (1 / (Fis i)) in
                    let x2 := (5 * (qs i)) in
                    let x3 := (x2 * (d3Fis_dxixjxks i j k m)) in
                    let x4 := (x2 * (d3Vis_dxixjxks i j k m)) in
                    let x5 := (/ ((Vis_modified i) ^ 2)) in
                    let x6 := (dVis_modified_dxs i j) in
                    let x7 := (dVis_modified_dxs i k) in
                    let x8 := (dVis_modified_dxs i m) in
                    let x9 := (/ ((Fis i) ^ 2)) in
                    let x10 := (x2 * x9) in
                    let x11 := (dFis_dxs i j) in
                    let x12 := (d2Fis_dxixjs i k m) in
                    let x13 := (x11 * x12) in
                    let x14 := (d2Vis_dxixjs i k m) in
                    let x15 := (d2Fis_dxixjs i j m) in
                    let x16 := (dFis_dxs i k) in
                    let x17 := (x10 * x16) in
                    let x18 := (d2Vis_dxixjs i j m) in
                    let x19 := (d2Fis_dxixjs i j k) in
                    let x20 := (dFis_dxs i m) in
                    let x21 := (x10 * x20) in
                    let x22 := (d2Vis_dxixjs i j k) in
                    let x23 := (dVis_dxs i j) in
                    let x24 := (dVis_dxs i k) in
                    let x25 := (dVis_dxs i m) in
                    let x26 := (x2 / ((Vis i) ^ 2)) in
                    let x27 := (/ ((Fis i) ^ 3)) in
                    let x28 := (10 * (qs i)) in
                    let x29 := (x27 * x28) in
                    let x30 := (Vi * x29) in
                    let x31 := (x11 * x16) in
                    let x32 := (x20 * x29) in
                    let x33 := (x25 * x28) in
                    let val := (((((((((((((((((((((((((((((((((- Vi) * x3) * x9) - x0) + (x1 * x3)) + (x1 * x4)) - ((x10 * x11) * x14)) - ((x10 * x12) * x23)) - (x10 * x13)) - ((x10 * x15) * x24)) - ((x10 * x19) * x25)) + ((x11 * x24) * x32)) + (x13 * x30)) + ((x14 * x23) * x26)) + ((x15 * x16) * x30)) - (x15 * x17)) + ((x16 * x23) * x32)) - (x17 * x18)) + ((x18 * x24) * x26)) + ((x19 * x20) * x30)) - (x19 * x21)) - (x21 * x22)) + ((x22 * x25) * x26)) + ((x27 * x31) * x33)) + (x31 * x32)) - ((x5 * x6) * (d2Vis_modified_dxixjs i k m))) - ((x5 * x7) * (d2Vis_modified_dxixjs i j m))) - ((x5 * x8) * (d2Vis_modified_dxixjs i j k))) + (x0 / ViD)) + ((((2 * x6) * x7) * x8) / (ViD ^ 3))) - (x4 / Vi)) - (((x23 * x24) * x33) / (Vi ^ 3))) - (((((30 * Vi) * qi) * x20) * x31) / (Fi ^ 4))) in
                    let d3lngammas_c_dxixjxks := updq d3lngammas_c_dxixjxks i j k m val in
                    d3lngammas_c_dxixjxks
                  ) d3lngammas_c_dxixjxks in
                d3lngammas_c_dxixjxks
              ) d3lngammas_c_dxixjxks in
            d3lngammas_c_dxixjxks
          ) d3lngammas_c_dxixjxks in
        d3lngammas_c_dxixjxks
      ) d3lngammas_c_dxixjxks in
    d3lngammas_c_dxixjxks
  in
  d3lngammas_c_dxixjxks.

(* thermo/unifac.py, lines 4941-4951: unifac_dgammas_dxs. *)
Definition unifac_dgammas_dxs (N_ : nat) (xs : nat -> R) (gammas : nat -> R) (dlngammas_r_dxs : nat -> nat -> R) (dlngammas_c_dxs : nat -> nat -> R) (dgammas_dxs : nat -> nat -> R) : nat -> nat -> R :=
  let dgammas_dxs :=
    loop N_ (fun i dgammas_dxs =>
      let dlngammas_r_dxsi := (dlngammas_r_dxs i) in
      let dlngammas_c_dxsi := (dlngammas_c_dxs i) in
      let dgammas_dxs :=
        loop N_ (fun j dgammas_dxs =>
          let dgammas_dxs := updm dgammas_dxs i j (((dlngammas_r_dxsi j) + (dlngammas_c_dxsi j)) * (gammas i)) in
          dgammas_dxs
        ) dgammas_dxs in
      dgammas_dxs
    ) dgammas_dxs in
  dgammas_dxs.

(* thermo/unifac.py, lines 4955-4964: unifac_dgammas_dxs_skip_comb. *)
Definition unifac_dgammas_dxs_skip_comb (N_ : nat) (xs : nat -> R) (gammas : nat -> R) (dlngammas_r_dxs : nat -> nat -> R) (dgammas_dxs : nat -> nat -> R) : nat -> nat -> R :=
  let dgammas_dxs :=
    loop N_ (fun i dgammas_dxs =>
      let dlngammas_r_dxsi := (dlngammas_r_dxs i) in
      let dgammas_dxs :=
        loop N_ (fun j dgammas_dxs =>
          let dgammas_dxs := updm dgammas_dxs i j ((dlngammas_r_dxsi j) * (gammas i)) in
          dgammas_dxs
        ) dgammas_dxs in
      dgammas_dxs
    ) dgammas_dxs in
  dgammas_dxs.

(* thermo/unifac.py, lines 4967-4979: unifac_dgammas_dns. *)
Definition unifac_dgammas_dns (N_ : nat) (xs : nat -> R) (dgammas_dxs : nat -> nat -> R) (dgammas_dns : nat -> nat -> R) : nat -> nat -> R :=
  let dgammas_dns :=
    loop N_ (fun i dgammas_dns =>
      let dgammas_dxsi := (dgammas_dxs i) in
      let xdx_tot := 0 in
      let xdx_tot :=
        loop N_ (fun j xdx_tot =>
          let xdx_tot := (xdx_tot + ((xs j) * (dgammas_dxsi j))) in
          xdx_tot
        ) xdx_tot in
      let dgammas_dns :=
        loop N_ (fun j dgammas_dns =>
          let dgammas_dns := updm dgammas_dns i j ((dgammas_dxsi j) - xdx_tot) in
          dgammas_dns
        ) dgammas_dns in
      dgammas_dns
    ) dgammas_dns in
  dgammas_dns.

(* thermo/unifac.py, lines 4906-4938: unifac_gammas_from_args. *)
Definition unifac_gammas_from_args (xs : nat -> R) (N_ : nat) (N_groups : nat) (vs : nat -> nat -> R) (rs : nat -> R) (qs : nat -> R) (Qs : nat -> R) (psis : nat -> nat -> R) (lnGammas_subgroups_pure : nat -> nat -> R) (version : nat) (rs_34 : nat -> R) (gammas : nat -> R) : nat -> R :=
  let '(Xs, Xs_sum_inv) := (unifac_Xs N_ N_groups xs vs (fun _ => 0)) in
  let '(Thetas, Thetas_sum_inv) := (unifac_Thetas N_groups Xs Qs (fun _ => 0)) in
  let Theta_Psi_sums := (unifac_Theta_Psi_sums N_groups Thetas psis (fun _ => 0)) in
  let Theta_Psi_sum_invs := (fun _ => 0) in
  let Theta_Psi_sum_invs :=
    loop N_groups (fun i Theta_Psi_sum_invs =>
      let Theta_Psi_sum_invs := upd Theta_Psi_sum_invs i (1 / (Theta_Psi_sums i)) in
      Theta_Psi_sum_invs
    ) Theta_Psi_sum_invs in
  let lnGammas_subgroups := (unifac_lnGammas_subgroups N_groups Qs psis Thetas Theta_Psi_sums Theta_Psi_sum_invs (fun _ => 0)) in
  let lngammas_r := (unifac_lngammas_r N_ N_groups lnGammas_subgroups_pure lnGammas_subgroups vs (fun _ => 0)) in
  let gammas :=
    if (version =? 3%nat)%nat then
    let gammas :=
      loop N_ (fun i gammas =>
        let gammas := upd gammas i (exp (lngammas_r i)) in
        gammas
      ) gammas in
    gammas
    else
    let '(Vis, rx_sum_inv) := (unifac_Vis rs xs N_ (fun _ => 0)) in
    let '(Fis, qx_sum_inv) := (unifac_Vis qs xs N_ (fun _ => 0)) in
    let Vis_modified :=
      if ((version =? 1%nat)%nat || (version =? 3%nat)%nat || (version =? 4%nat)%nat) then
      let '(Vis_modified, r34x_sum_inv) := (unifac_Vis rs_34 xs N_ (fun _ => 0)) in
      Vis_modified
      else
      let Vis_modified := Vis in
      Vis_modified
    in
    let lngammas_c := (unifac_lngammas_c N_ version qs Fis Vis Vis_modified (fun _ => 0)) in
    let gammas :=
      loop N_ (fun i gammas =>
        let gammas := upd gammas i (exp ((lngammas_r i) + (lngammas_c i))) in
        gammas
      ) gammas in
    gammas
  in
  gammas.

(* thermo/unifac.py, lines 5534-5539: UNIFAC.__init__, the number of groups in each compound (cmp_v_count). *)
Definition UNIFAC_cmp_v_count (N_groups : nat) (vs : nat -> nat -> R) : nat -> R :=
  fun i => loop N_groups (fun group tot => tot + vs group i) 0.

(* thermo/unifac.py, lines 5540-5545: UNIFAC.__init__, cmp_v_count_inv. *)
Definition UNIFAC_cmp_v_count_inv (N_groups : nat) (vs : nat -> nat -> R) : nat -> R :=
  fun i => 1 / UNIFAC_cmp_v_count N_groups vs i.

(* thermo/unifac.py, lines 5520-5532: UNIFAC.__init__, the powers of rs. The attribute is not set for the other versions, which never read it; here it is 0 for them. *)
Definition UNIFAC_rs_34 (version : nat) (rs : nat -> R) : nat -> R :=
  fun i => if Nat.eqb version 1 then Rpower (rs i) (3 / 4) else if Nat.eqb version 4 then Rpower (rs i) (2 / 3) else 0.

(* thermo/unifac.py, lines 5798-5811: UNIFAC.psis. (without the cache; list path) *)
Definition UNIFAC_psis (N_groups : nat) (T : R) (version : nat) (psi_a : nat -> nat -> R) (psi_b : nat -> nat -> R) (psi_c : nat -> nat -> R) : nat -> nat -> R :=
  let T := T in
  let N_groups := N_groups in
  let psi_a := psi_a in
  let psi_b := psi_b in
  let psi_c := psi_c in
  let psis := (fun u_ => (fun _ => 0)) in
  let psis := (unifac_psis T N_groups version psi_a psi_b psi_c psis) in
  psis.

(* thermo/unifac.py, lines 5852-5870: UNIFAC.dpsis_dT. (without the cache; list path) *)
Definition UNIFAC_dpsis_dT (N_groups : nat) (T : R) (version : nat) (psi_a : nat -> nat -> R) (psi_b : nat -> nat -> R) (psi_c : nat -> nat -> R) : nat -> nat -> R :=
  let psis := (UNIFAC_psis N_groups T version psi_a psi_b psi_c) in
  let T := T in
  let N_groups := N_groups in
  let psi_a := psi_a in
  let psi_b := psi_b in
  let psi_c := psi_c in
  let dpsis_dT := (fun u_ => (fun _ => 0)) in
  let dpsis_dT := (unifac_dpsis_dT T N_groups version psi_a psi_b psi_c psis dpsis_dT) in
  dpsis_dT.

(* thermo/unifac.py, lines 5918-5936: UNIFAC.d2psis_dT2. (without the cache; list path) *)
Definition UNIFAC_d2psis_dT2 (N_groups : nat) (T : R) (version : nat) (psi_a : nat -> nat -> R) (psi_b : nat -> nat -> R) (psi_c : nat -> nat -> R) : nat -> nat -> R :=
  let psis := (UNIFAC_psis N_groups T version psi_a psi_b psi_c) in
  let T := T in
  let N_groups := N_groups in
  let psi_a := psi_a in
  let psi_b := psi_b in
  let psi_c := psi_c in
  let d2psis_dT2 := (fun u_ => (fun _ => 0)) in
  let d2psis_dT2 := (unifac_d2psis_dT2 T N_groups version psi_a psi_b psi_c psis d2psis_dT2) in
  d2psis_dT2.

(* thermo/unifac.py, lines 5994-6012: UNIFAC.d3psis_dT3. (without the cache; list path) *)
Definition UNIFAC_d3psis_dT3 (N_groups : nat) (T : R) (version : nat) (psi_a : nat -> nat -> R) (psi_b : nat -> nat -> R) (psi_c : nat -> nat -> R) : nat -> nat -> R :=
  let psis := (UNIFAC_psis N_groups T version psi_a psi_b psi_c) in
  let T := T in
  let N_groups := N_groups in
  let psi_a := psi_a in
  let psi_b := psi_b in
  let psi_c := psi_c in
  let d3psis_dT3 := (fun u_ => (fun _ => 0)) in
  let d3psis_dT3 := (unifac_d3psis_dT3 T N_groups version psi_a psi_b psi_c psis d3psis_dT3) in
  d3psis_dT3.

(* thermo/unifac.py, lines 6030-6041: UNIFAC.Vis. (without the cache; list path) *)
Definition UNIFAC_Vis (N_ : nat) (xs : nat -> R) (rs : nat -> R) : nat -> R :=
  let rs := rs in
  let xs := xs in
  let N_ := N_ in
  let Vis := (fun _ => 0) in
  let '(Vis, rx_sum_inv) := (unifac_Vis rs xs N_ Vis) in
  Vis.

(* thermo/unifac.py, lines 6030-6041: UNIFAC.Vis. (the value stored in _rx_sum_inv) *)
Definition UNIFAC_rx_sum_inv (N_ : nat) (xs : nat -> R) (rs : nat -> R) : R :=
  let rs := rs in
  let xs := xs in
  let N_ := N_ in
  let Vis := (fun _ => 0) in
  let '(Vis, rx_sum_inv) := (unifac_Vis rs xs N_ Vis) in
  rx_sum_inv.

(* thermo/unifac.py, lines 6062-6078: UNIFAC.dVis_dxs. (without the cache; list path) *)
Definition UNIFAC_dVis_dxs (N_ : nat) (xs : nat -> R) (rs : nat -> R) : nat -> nat -> R :=
  let rx_sum_inv := (UNIFAC_rx_sum_inv N_ xs rs) in
  let rs := rs in
  let N_ := N_ in
  let dVis_dxs := (fun u_ => (fun _ => 0)) in
  let dVis_dxs := (unifac_dVis_dxs rs rx_sum_inv N_ dVis_dxs) in
  dVis_dxs.

(* thermo/unifac.py, lines 6101-6117: UNIFAC.d2Vis_dxixjs. (without the cache; list path) *)
Definition UNIFAC_d2Vis_dxixjs (N_ : nat) (xs : nat -> R) (rs : nat -> R) : nat -> nat -> nat -> R :=
  let rx_sum_inv := (UNIFAC_rx_sum_inv N_ xs rs) in
  let rs := rs in
  let N_ := N_ in
  let d2Vis_dxixjs := (fun u_ => (fun u_ => (fun _ => 0))) in
  let d2Vis_dxixjs := (unifac_d2Vis_dxixjs rs rx_sum_inv N_ d2Vis_dxixjs) in
  d2Vis_dxixjs.

(* thermo/unifac.py, lines 6140-6155: UNIFAC.d3Vis_dxixjxks. (without the cache; list path) *)
Definition UNIFAC_d3Vis_dxixjxks (N_ : nat) (xs : nat -> R) (rs : nat -> R) : nat -> nat -> nat -> nat -> R :=
  let rx_sum_inv := (UNIFAC_rx_sum_inv N_ xs rs) in
  let rs := rs in
  let N_ := N_ in
  let d3Vis_dxixjxks := (fun u_ => (fun u_ => (fun u_ => (fun _ => 0)))) in
  let d3Vis_dxixjxks := (unifac_d3Vis_dxixjxks rs rx_sum_inv N_ d3Vis_dxixjxks) in
  d3Vis_dxixjxks.

(* thermo/unifac.py, lines 6173-6184: UNIFAC.Fis. (without the cache; list path) *)
Definition UNIFAC_Fis (N_ : nat) (xs : nat -> R) (qs : nat -> R) : nat -> R :=
  let qs := qs in
  let xs := xs in
  let N_ := N_ in
  let Fis := (fun _ => 0) in
  let '(Fis, qx_sum_inv) := (unifac_Vis qs xs N_ Fis) in
  Fis.

(* thermo/unifac.py, lines 6173-6184: UNIFAC.Fis. (the value stored in _qx_sum_inv) *)
Definition UNIFAC_qx_sum_inv (N_ : nat) (xs : nat -> R) (qs : nat -> R) : R :=
  let qs := qs in
  let xs := xs in
  let N_ := N_ in
  let Fis := (fun _ => 0) in
  let '(Fis, qx_sum_inv) := (unifac_Vis qs xs N_ Fis) in
  qx_sum_inv.

(* thermo/unifac.py, lines 6205-6223: UNIFAC.dFis_dxs. (without the cache; list path) *)
Definition UNIFAC_dFis_dxs (N_ : nat) (xs : nat -> R) (qs : nat -> R) : nat -> nat -> R :=
  let qx_sum_inv := (UNIFAC_qx_sum_inv N_ xs qs) in
  let qs := qs in
  let N_ := N_ in
  let dFis_dxs := (fun u_ => (fun _ => 0)) in
  let dFis_dxs := (unifac_dVis_dxs qs qx_sum_inv N_ dFis_dxs) in
  dFis_dxs.

(* thermo/unifac.py, lines 6246-6264: UNIFAC.d2Fis_dxixjs. (without the cache; list path) *)
Definition UNIFAC_d2Fis_dxixjs (N_ : nat) (xs : nat -> R) (qs : nat -> R) : nat -> nat -> nat -> R :=
  let qx_sum_inv := (UNIFAC_qx_sum_inv N_ xs qs) in
  let qs := qs in
  let N_ := N_ in
  let d2Fis_dxixjs := (fun u_ => (fun u_ => (fun _ => 0))) in
  let d2Fis_dxixjs := (unifac_d2Vis_dxixjs qs qx_sum_inv N_ d2Fis_dxixjs) in
  d2Fis_dxixjs.

(* thermo/unifac.py, lines 6287-6303: UNIFAC.d3Fis_dxixjxks. (without the cache; list path) *)
Definition UNIFAC_d3Fis_dxixjxks (N_ : nat) (xs : nat -> R) (qs : nat -> R) : nat -> nat -> nat -> nat -> R :=
  let qx_sum_inv := (UNIFAC_qx_sum_inv N_ xs qs) in
  let qs := qs in
  let N_ := N_ in
  let d3Fis_dxixjxks := (fun u_ => (fun u_ => (fun u_ => (fun _ => 0)))) in
  let d3Fis_dxixjxks := (unifac_d3Vis_dxixjxks qs qx_sum_inv N_ d3Fis_dxixjxks) in
  d3Fis_dxixjxks.

(* thermo/unifac.py, lines 6321-6333: UNIFAC.Vis_modified. (without the cache; list path) *)
Definition UNIFAC_Vis_modified (N_ : nat) (xs : nat -> R) (version : nat) (rs : nat -> R) : nat -> R :=
  let rs_34 := (UNIFAC_rs_34 version rs) in
  let xs := xs in
  let N_ := N_ in
  let Vis_modified := (fun _ => 0) in
  let '(Vis_modified, r34x_sum_inv) := (unifac_Vis rs_34 xs N_ Vis_modified) in
  Vis_modified.

(* thermo/unifac.py, lines 6321-6333: UNIFAC.Vis_modified. (the value stored in r34x_sum_inv) *)
Definition UNIFAC_r34x_sum_inv (N_ : nat) (xs : nat -> R) (version : nat) (rs : nat -> R) : R :=
  let rs_34 := (UNIFAC_rs_34 version rs) in
  let xs := xs in
  let N_ := N_ in
  let Vis_modified := (fun _ => 0) in
  let '(Vis_modified, r34x_sum_inv) := (unifac_Vis rs_34 xs N_ Vis_modified) in
  r34x_sum_inv.

(* thermo/unifac.py, lines 6354-6370: UNIFAC.dVis_modified_dxs. (without the cache; list path) *)
Definition UNIFAC_dVis_modified_dxs (N_ : nat) (xs : nat -> R) (version : nat) (rs : nat -> R) : nat -> nat -> R :=
  let r34x_sum_inv := (UNIFAC_r34x_sum_inv N_ xs version rs) in
  let rs_34 := (UNIFAC_rs_34 version rs) in
  let N_ := N_ in
  let dVis_modified := (fun u_ => (fun _ => 0)) in
  let dVis_modified := (unifac_dVis_dxs rs_34 r34x_sum_inv N_ dVis_modified) in
  dVis_modified.

(* thermo/unifac.py, lines 6393-6410: UNIFAC.d2Vis_modified_dxixjs. (without the cache; list path) *)
Definition UNIFAC_d2Vis_modified_dxixjs (N_ : nat) (xs : nat -> R) (version : nat) (rs : nat -> R) : nat -> nat -> nat -> R :=
  let r34x_sum_inv := (UNIFAC_r34x_sum_inv N_ xs version rs) in
  let rs_34 := (UNIFAC_rs_34 version rs) in
  let N_ := N_ in
  let d2Vis_modified := (fun u_ => (fun u_ => (fun _ => 0))) in
  let d2Vis_modified := (unifac_d2Vis_dxixjs rs_34 r34x_sum_inv N_ d2Vis_modified) in
  d2Vis_modified.

(* thermo/unifac.py, lines 6433-6449: UNIFAC.d3Vis_modified_dxixjxks. (without the cache; list path) *)
Definition UNIFAC_d3Vis_modified_dxixjxks (N_ : nat) (xs : nat -> R) (version : nat) (rs : nat -> R) : nat -> nat -> nat -> nat -> R :=
  let r34x_sum_inv := (UNIFAC_r34x_sum_inv N_ xs version rs) in
  let rs_34 := (UNIFAC_rs_34 version rs) in
  let N_ := N_ in
  let d3Vis_modified := (fun u_ => (fun u_ => (fun u_ => (fun _ => 0)))) in
  let d3Vis_modified := (unifac_d3Vis_dxixjxks rs_34 r34x_sum_inv N_ d3Vis_modified) in
  d3Vis_modified.

(* thermo/unifac.py, lines 6464-6478: UNIFAC.Xs. (without the cache; list path) *)
Definition UNIFAC_Xs (N_ : nat) (N_groups : nat) (xs : nat -> R) (vs : nat -> nat -> R) : nat -> R :=
  let vs := vs in
  let xs := xs in
  let N_ := N_ in
  let N_groups := N_groups in
  let Xs := (fun _ => 0) in
  let '(Xs, Xs_sum_inv) := (unifac_Xs N_ N_groups xs vs Xs) in
  Xs.

(* thermo/unifac.py, lines 6464-6478: UNIFAC.Xs. (the value stored in _Xs_sum_inv) *)
Definition UNIFAC_Xs_sum_inv (N_ : nat) (N_groups : nat) (xs : nat -> R) (vs : nat -> nat -> R) : R :=
  let vs := vs in
  let xs := xs in
  let N_ := N_ in
  let N_groups := N_groups in
  let Xs := (fun _ => 0) in
  let '(Xs, Xs_sum_inv) := (unifac_Xs N_ N_groups xs vs Xs) in
  Xs_sum_inv.

(* thermo/unifac.py, lines 6500-6515: UNIFAC.Thetas. (without the cache; list path) *)
Definition UNIFAC_Thetas (N_ : nat) (N_groups : nat) (xs : nat -> R) (Qs : nat -> R) (vs : nat -> nat -> R) : nat -> R :=
  let Qs := Qs in
  let N_groups := N_groups in
  let Xs := (UNIFAC_Xs N_ N_groups xs vs) in
  let Thetas := (fun _ => 0) in
  let '(Thetas, Thetas_sum_inv) := (unifac_Thetas N_groups Xs Qs Thetas) in
  Thetas.

(* thermo/unifac.py, lines 6500-6515: UNIFAC.Thetas. (the value stored in _Thetas_sum_inv) *)
Definition UNIFAC_Thetas_sum_inv (N_ : nat) (N_groups : nat) (xs : nat -> R) (Qs : nat -> R) (vs : nat -> nat -> R) : R :=
  let Qs := Qs in
  let N_groups := N_groups in
  let Xs := (UNIFAC_Xs N_ N_groups xs vs) in
  let Thetas := (fun _ => 0) in
  let '(Thetas, Thetas_sum_inv) := (unifac_Thetas N_groups Xs Qs Thetas) in
  Thetas_sum_inv.

(* thermo/unifac.py, lines 6664-6675: UNIFAC.VSXS. (without the cache; list path) *)
Definition UNIFAC_VSXS (N_ : nat) (N_groups : nat) (xs : nat -> R) (vs : nat -> nat -> R) : nat -> R :=
  let N_groups := N_groups in
  let VSXS := (fun _ => 0) in
  let VSXS := (unifac_VSXS N_ N_groups vs xs VSXS) in
  VSXS.

(* thermo/unifac.py, lines 6555-6585: UNIFAC.dThetas_dxs. (without the cache; list path) *)
Definition UNIFAC_dThetas_dxs (N_ : nat) (N_groups : nat) (xs : nat -> R) (Qs : nat -> R) (vs : nat -> nat -> R) : nat -> nat -> R :=
  let F := (UNIFAC_Xs_sum_inv N_ N_groups xs vs) in
  let G := (UNIFAC_Thetas_sum_inv N_ N_groups xs Qs vs) in
  let Qs := Qs in
  let N_ := N_ in
  let N_groups := N_groups in
  let vs := vs in
  let VS := (UNIFAC_cmp_v_count N_groups vs) in
  let dThetas_dxs := (fun u_ => (fun _ => 0)) in
  let VSXS := (UNIFAC_VSXS N_ N_groups xs vs) in
  let dThetas_dxs := (unifac_dThetas_dxs N_groups N_ Qs vs VS VSXS F G dThetas_dxs (fun _ => 0)) in
  dThetas_dxs.

(* thermo/unifac.py, lines 6634-6661: UNIFAC.d2Thetas_dxixjs. (without the cache; list path) *)
Definition UNIFAC_d2Thetas_dxixjs (N_ : nat) (N_groups : nat) (xs : nat -> R) (Qs : nat -> R) (vs : nat -> nat -> R) : nat -> nat -> nat -> R :=
  let F := (UNIFAC_Xs_sum_inv N_ N_groups xs vs) in
  let G := (UNIFAC_Thetas_sum_inv N_ N_groups xs Qs vs) in
  let Qs := Qs in
  let N_ := N_ in
  let N_groups := N_groups in
  let vs := vs in
  let VS := (UNIFAC_cmp_v_count N_groups vs) in
  let VSXS := (UNIFAC_VSXS N_ N_groups xs vs) in
  let d2Thetas_dxixjs := (fun u_ => (fun u_ => (fun _ => 0))) in
  let d2Thetas_dxixjs := (unifac_d2Thetas_dxixjs N_groups N_ Qs vs VS VSXS F G d2Thetas_dxixjs (fun _ => 0)) in
  d2Thetas_dxixjs.

(* thermo/unifac.py, lines 6684-6705: UNIFAC.Theta_Psi_sums. (without the cache; list path) *)
Definition UNIFAC_Theta_Psi_sums (N_ : nat) (N_groups : nat) (T : R) (xs : nat -> R) (version : nat) (Qs : nat -> R) (vs : nat -> nat -> R) (psi_a : nat -> nat -> R) (psi_b : nat -> nat -> R) (psi_c : nat -> nat -> R) : nat -> R :=
  let Thetas := (UNIFAC_Thetas N_ N_groups xs Qs vs) in
  let psis := (UNIFAC_psis N_groups T version psi_a psi_b psi_c) in
  let N_groups := N_groups in
  let Theta_Psi_sums := (fun _ => 0) in
  let Theta_Psi_sums := (unifac_Theta_Psi_sums N_groups Thetas psis Theta_Psi_sums) in
  Theta_Psi_sums.

(* thermo/unifac.py, lines 6714-6725: UNIFAC.Theta_Psi_sum_invs. (without the cache; list path) *)
Definition UNIFAC_Theta_Psi_sum_invs (N_ : nat) (N_groups : nat) (T : R) (xs : nat -> R) (version : nat) (Qs : nat -> R) (vs : nat -> nat -> R) (psi_a : nat -> nat -> R) (psi_b : nat -> nat -> R) (psi_c : nat -> nat -> R) : nat -> R :=
  let Theta_Psi_sums := (UNIFAC_Theta_Psi_sums N_ N_groups T xs version Qs vs psi_a psi_b psi_c) in
  let L_Theta_Psi_sum_invs := (fun k => (1 / (Theta_Psi_sums k))) in
  L_Theta_Psi_sum_invs.

(* thermo/unifac.py, lines 6735-6756: UNIFAC.Ws. (without the cache; list path) *)
Definition UNIFAC_Ws (N_ : nat) (N_groups : nat) (T : R) (xs : nat -> R) (version : nat) (Qs : nat -> R) (vs : nat -> nat -> R) (psi_a : nat -> nat -> R) (psi_b : nat -> nat -> R) (psi_c : nat -> nat -> R) : nat -> nat -> R :=
  let psis := (UNIFAC_psis N_groups T version psi_a psi_b psi_c) in
  let dThetas_dxs := (UNIFAC_dThetas_dxs N_ N_groups xs Qs vs) in
  let N_ := N_ in
  let N_groups := N_groups in
  let Ws := (fun u_ => (fun _ => 0)) in
  let Ws := (unifac_ws N_ N_groups psis dThetas_dxs Ws) in
  Ws.

(* thermo/unifac.py, lines 6764-6785: UNIFAC.Fs. (without the cache; list path) *)
Definition UNIFAC_Fs (N_ : nat) (N_groups : nat) (T : R) (xs : nat -> R) (version : nat) (Qs : nat -> R) (vs : nat -> nat -> R) (psi_a : nat -> nat -> R) (psi_b : nat -> nat -> R) (psi_c : nat -> nat -> R) : nat -> R :=
  let Thetas := (UNIFAC_Thetas N_ N_groups xs Qs vs) in
  let dpsis_dT := (UNIFAC_dpsis_dT N_groups T version psi_a psi_b psi_c) in
  let N_groups := N_groups in
  let Fs := (fun _ => 0) in
  let Fs := (unifac_Theta_Psi_sums N_groups Thetas dpsis_dT Fs) in
  Fs.

(* thermo/unifac.py, lines 6793-6820: UNIFAC.Gs. (without the cache; list path) *)
Definition UNIFAC_Gs (N_ : nat) (N_groups : nat) (T : R) (xs : nat -> R) (version : nat) (Qs : nat -> R) (vs : nat -> nat -> R) (psi_a : nat -> nat -> R) (psi_b : nat -> nat -> R) (psi_c : nat -> nat -> R) : nat -> R :=
  let Thetas := (UNIFAC_Thetas N_ N_groups xs Qs vs) in
  let d2psis_dT2 := (UNIFAC_d2psis_dT2 N_groups T version psi_a psi_b psi_c) in
  let N_groups := N_groups in
  let Gs := (fun _ => 0) in
  let Gs := (unifac_Theta_Psi_sums N_groups Thetas d2psis_dT2 Gs) in
  Gs.

(* thermo/unifac.py, lines 6828-6849: UNIFAC.Hs. (without the cache; list path) *)
Definition UNIFAC_Hs (N_ : nat) (N_groups : nat) (T : R) (xs : nat -> R) (version : nat) (Qs : nat -> R) (vs : nat -> nat -> R) (psi_a : nat -> nat -> R) (psi_b : nat -> nat -> R) (psi_c : nat -> nat -> R) : nat -> R :=
  let Thetas := (UNIFAC_Thetas N_ N_groups xs Qs vs) in
  let d3psis_dT3 := (UNIFAC_d3psis_dT3 N_groups T version psi_a psi_b psi_c) in
  let N_groups := N_groups in
  let Hs := (fun _ => 0) in
  let Hs := (unifac_Theta_Psi_sums N_groups Thetas d3psis_dT3 Hs) in
  Hs.

(* thermo/unifac.py, lines 7471-7484: UNIFAC.Xs_pure. (without the cache; list path) *)
Definition UNIFAC_Xs_pure (N_ : nat) (N_groups : nat) (vs : nat -> nat -> R) : nat -> nat -> R :=
  let vs := vs in
  let cmp_v_count_inv := (UNIFAC_cmp_v_count_inv N_groups vs) in
  let N_ := N_ in
  let N_groups := N_groups in
  let Xs_pure := (fun u_ => (fun _ => 0)) in
  let Xs_pure := (unifac_Xs_pure N_ N_groups vs cmp_v_count_inv Xs_pure) in
  Xs_pure.

(* thermo/unifac.py, lines 7501-7516: UNIFAC.Thetas_pure. (without the cache; list path) *)
Definition UNIFAC_Thetas_pure (N_ : nat) (N_groups : nat) (Qs : nat -> R) (vs : nat -> nat -> R) : nat -> nat -> R :=
  let Xs_pure := (UNIFAC_Xs_pure N_ N_groups vs) in
  let Qs := Qs in
  let N_ := N_ in
  let N_groups := N_groups in
  let Thetas_pure := (fun u_ => (fun _ => 0)) in
  let Thetas_pure := (unifac_Thetas_pure N_ N_groups Xs_pure Qs Thetas_pure) in
  Thetas_pure.

(* thermo/unifac.py, lines 6852-6870: UNIFAC.Theta_pure_Psi_sums. (without the cache; list path) *)
Definition UNIFAC_Theta_pure_Psi_sums (N_ : nat) (N_groups : nat) (T : R) (version : nat) (Qs : nat -> R) (vs : nat -> nat -> R) (psi_a : nat -> nat -> R) (psi_b : nat -> nat -> R) (psi_c : nat -> nat -> R) : nat -> nat -> R :=
  let Thetas_pure := (UNIFAC_Thetas_pure N_ N_groups Qs vs) in
  let psis := (UNIFAC_psis N_groups T version psi_a psi_b psi_c) in
  let N_groups := N_groups in
  let N_ := N_ in
  let Theta_pure_Psi_sums := (fun u_ => (fun _ => 0)) in
  let Theta_pure_Psi_sums := (unifac_Theta_pure_Psi_sums N_ N_groups psis Thetas_pure Theta_pure_Psi_sums) in
  Theta_pure_Psi_sums.

(* thermo/unifac.py, lines 6879-6890: UNIFAC.Theta_pure_Psi_sum_invs. (without the cache; list path) *)
Definition UNIFAC_Theta_pure_Psi_sum_invs (N_ : nat) (N_groups : nat) (T : R) (version : nat) (Qs : nat -> R) (vs : nat -> nat -> R) (psi_a : nat -> nat -> R) (psi_b : nat -> nat -> R) (psi_c : nat -> nat -> R) : nat -> nat -> R :=
  let Theta_pure_Psi_sums := (UNIFAC_Theta_pure_Psi_sums N_ N_groups T version Qs vs psi_a psi_b psi_c) in
  let L_Theta_pure_Psi_sum_invs := (fun i => (fun k => (1 / (Theta_pure_Psi_sums i k)))) in
  L_Theta_pure_Psi_sum_invs.

(* thermo/unifac.py, lines 6898-6916: UNIFAC.Fs_pure. (without the cache; list path) *)
Definition UNIFAC_Fs_pure (N_ : nat) (N_groups : nat) (T : R) (version : nat) (Qs : nat -> R) (vs : nat -> nat -> R) (psi_a : nat -> nat -> R) (psi_b : nat -> nat -> R) (psi_c : nat -> nat -> R) : nat -> nat -> R :=
  let Thetas_pure := (UNIFAC_Thetas_pure N_ N_groups Qs vs) in
  let dpsis_dT := (UNIFAC_dpsis_dT N_groups T version psi_a psi_b psi_c) in
  let N_groups := N_groups in
  let N_ := N_ in
  let Fs_pure := (fun u_ => (fun _ => 0)) in
  let Fs_pure := (unifac_Theta_pure_Psi_sums N_ N_groups dpsis_dT Thetas_pure Fs_pure) in
  Fs_pure.

(* thermo/unifac.py, lines 6924-6942: UNIFAC.Gs_pure. (without the cache; list path) *)
Definition UNIFAC_Gs_pure (N_ : nat) (N_groups : nat) (T : R) (version : nat) (Qs : nat -> R) (vs : nat -> nat -> R) (psi_a : nat -> nat -> R) (psi_b : nat -> nat -> R) (psi_c : nat -> nat -> R) : nat -> nat -> R :=
  let Thetas_pure := (UNIFAC_Thetas_pure N_ N_groups Qs vs) in
  let d2psis_dT2 := (UNIFAC_d2psis_dT2 N_groups T version psi_a psi_b psi_c) in
  let N_groups := N_groups in
  let N_ := N_ in
  let Gs_pure := (fun u_ => (fun _ => 0)) in
  let Gs_pure := (unifac_Theta_pure_Psi_sums N_ N_groups d2psis_dT2 Thetas_pure Gs_pure) in
  Gs_pure.

(* thermo/unifac.py, lines 6950-6968: UNIFAC.Hs_pure. (without the cache; list path) *)
Definition UNIFAC_Hs_pure (N_ : nat) (N_groups : nat) (T : R) (version : nat) (Qs : nat -> R) (vs : nat -> nat -> R) (psi_a : nat -> nat -> R) (psi_b : nat -> nat -> R) (psi_c : nat -> nat -> R) : nat -> nat -> R :=
  let Thetas_pure := (UNIFAC_Thetas_pure N_ N_groups Qs vs) in
  let d3psis_dT3 := (UNIFAC_d3psis_dT3 N_groups T version psi_a psi_b psi_c) in
  let N_groups := N_groups in
  let N_ := N_ in
  let Hs_pure := (fun u_ => (fun _ => 0)) in
  let Hs_pure := (unifac_Theta_pure_Psi_sums N_ N_groups d3psis_dT3 Thetas_pure Hs_pure) in
  Hs_pure.

(* thermo/unifac.py, lines 6983-7013: UNIFAC.lnGammas_subgroups. (without the cache; list path) *)
Definition UNIFAC_lnGammas_subgroups (N_ : nat) (N_groups : nat) (T : R) (xs : nat -> R) (version : nat) (Qs : nat -> R) (vs : nat -> nat -> R) (psi_a : nat -> nat -> R) (psi_b : nat -> nat -> R) (psi_c : nat -> nat -> R) : nat -> R :=
  let Thetas := (UNIFAC_Thetas N_ N_groups xs Qs vs) in
  let psis := (UNIFAC_psis N_groups T version psi_a psi_b psi_c) in
  let Theta_Psi_sums := (UNIFAC_Theta_Psi_sums N_ N_groups T xs version Qs vs psi_a psi_b psi_c) in
  let Theta_Psi_sum_invs := (UNIFAC_Theta_Psi_sum_invs N_ N_groups T xs version Qs vs psi_a psi_b psi_c) in
  let N_ := N_ in
  let N_groups := N_groups in
  let Qs := Qs in
  let lnGammas_subgroups := (fun _ => 0) in
  let lnGammas_subgroups := (unifac_lnGammas_subgroups N_groups Qs psis Thetas Theta_Psi_sums Theta_Psi_sum_invs lnGammas_subgroups) in
  lnGammas_subgroups.

(* thermo/unifac.py, lines 7040-7076: UNIFAC.dlnGammas_subgroups_dxs. (without the cache; list path) *)
Definition UNIFAC_dlnGammas_subgroups_dxs (N_ : nat) (N_groups : nat) (T : R) (xs : nat -> R) (version : nat) (Qs : nat -> R) (vs : nat -> nat -> R) (psi_a : nat -> nat -> R) (psi_b : nat -> nat -> R) (psi_c : nat -> nat -> R) : nat -> nat -> R :=
  let Thetas := (UNIFAC_Thetas N_ N_groups xs Qs vs) in
  let psis := (UNIFAC_psis N_groups T version psi_a psi_b psi_c) in
  let Theta_Psi_sum_invs := (UNIFAC_Theta_Psi_sum_invs N_ N_groups T xs version Qs vs psi_a psi_b psi_c) in
  let dThetas_dxs := (UNIFAC_dThetas_dxs N_ N_groups xs Qs vs) in
  let Ws := (UNIFAC_Ws N_ N_groups T xs version Qs vs psi_a psi_b psi_c) in
  let N_ := N_ in
  let N_groups := N_groups in
  let Qs := Qs in
  let dlnGammas_subgroups_dxs := (fun u_ => (fun _ => 0)) in
  let dlnGammas_subgroups_dxs := (unifac_dlnGammas_subgroups_dxs N_ N_groups Qs Ws psis Thetas Theta_Psi_sum_invs dThetas_dxs dlnGammas_subgroups_dxs) in
  dlnGammas_subgroups_dxs.

(* thermo/unifac.py, lines 7201-7239: UNIFAC.d2lnGammas_subgroups_dxixjs. (without the cache; list path) *)
Definition UNIFAC_d2lnGammas_subgroups_dxixjs (N_ : nat) (N_groups : nat) (T : R) (xs : nat -> R) (version : nat) (Qs : nat -> R) (vs : nat -> nat -> R) (psi_a : nat -> nat -> R) (psi_b : nat -> nat -> R) (psi_c : nat -> nat -> R) : nat -> nat -> nat -> R :=
  let Thetas := (UNIFAC_Thetas N_ N_groups xs Qs vs) in
  let psis := (UNIFAC_psis N_groups T version psi_a psi_b psi_c) in
  let dThetas_dxs := (UNIFAC_dThetas_dxs N_ N_groups xs Qs vs) in
  let d2Thetas_dxixjs := (UNIFAC_d2Thetas_dxixjs N_ N_groups xs Qs vs) in
  let Zs := (UNIFAC_Theta_Psi_sum_invs N_ N_groups T xs version Qs vs psi_a psi_b psi_c) in
  let Ws := (UNIFAC_Ws N_ N_groups T xs version Qs vs psi_a psi_b psi_c) in
  let N_ := N_ in
  let N_groups := N_groups in
  let Qs := Qs in
  let d2lnGammas_subgroups_dxixjs := (fun u_ => (fun u_ => (fun _ => 0))) in
  let d2lnGammas_subgroups_dxixjs := (unifac_d2lnGammas_subgroups_dxixjs N_ N_groups Qs Zs Ws psis Thetas dThetas_dxs d2Thetas_dxixjs d2lnGammas_subgroups_dxixjs (fun _ => 0)) in
  d2lnGammas_subgroups_dxixjs.

(* thermo/unifac.py, lines 7264-7295: UNIFAC.dlnGammas_subgroups_dT. (without the cache; list path) *)
Definition UNIFAC_dlnGammas_subgroups_dT (N_ : nat) (N_groups : nat) (T : R) (xs : nat -> R) (version : nat) (Qs : nat -> R) (vs : nat -> nat -> R) (psi_a : nat -> nat -> R) (psi_b : nat -> nat -> R) (psi_c : nat -> nat -> R) : nat -> R :=
  let Thetas := (UNIFAC_Thetas N_ N_groups xs Qs vs) in
  let psis := (UNIFAC_psis N_groups T version psi_a psi_b psi_c) in
  let dpsis_dT := (UNIFAC_dpsis_dT N_groups T version psi_a psi_b psi_c) in
  let Zs := (UNIFAC_Theta_Psi_sum_invs N_ N_groups T xs version Qs vs psi_a psi_b psi_c) in
  let Fs := (UNIFAC_Fs N_ N_groups T xs version Qs vs psi_a psi_b psi_c) in
  let N_ := N_ in
  let N_groups := N_groups in
  let Qs := Qs in
  let dlnGammas_subgroups_dT := (fun _ => 0) in
  let dlnGammas_subgroups_dT := (unifac_dlnGammas_subgroups_dT N_groups Qs psis dpsis_dT Thetas Zs Fs dlnGammas_subgroups_dT) in
  dlnGammas_subgroups_dT.

(* thermo/unifac.py, lines 7325-7366: UNIFAC.d2lnGammas_subgroups_dT2. (without the cache; list path) *)
Definition UNIFAC_d2lnGammas_subgroups_dT2 (N_ : nat) (N_groups : nat) (T : R) (xs : nat -> R) (version : nat) (Qs : nat -> R) (vs : nat -> nat -> R) (psi_a : nat -> nat -> R) (psi_b : nat -> nat -> R) (psi_c : nat -> nat -> R) : nat -> R :=
  let Thetas := (UNIFAC_Thetas N_ N_groups xs Qs vs) in
  let psis := (UNIFAC_psis N_groups T version psi_a psi_b psi_c) in
  let dpsis_dT := (UNIFAC_dpsis_dT N_groups T version psi_a psi_b psi_c) in
  let d2psis_dT2 := (UNIFAC_d2psis_dT2 N_groups T version psi_a psi_b psi_c) in
  let Zs := (UNIFAC_Theta_Psi_sum_invs N_ N_groups T xs version Qs vs psi_a psi_b psi_c) in
  let Fs := (UNIFAC_Fs N_ N_groups T xs version Qs vs psi_a psi_b psi_c) in
  let Gs := (UNIFAC_Gs N_ N_groups T xs version Qs vs psi_a psi_b psi_c) in
  let N_ := N_ in
  let N_groups := N_groups in
  let Qs := Qs in
  let d2lnGammas_subgroups_dT2 := (fun _ => 0) in
  let row := (unifac_d2lnGammas_subgroups_dT2 N_groups Qs psis dpsis_dT d2psis_dT2 Thetas Zs Fs Gs d2lnGammas_subgroups_dT2 (fun _ => 0)) in
  row.

(* thermo/unifac.py, lines 7405-7455: UNIFAC.d3lnGammas_subgroups_dT3. (without the cache; list path) *)
Definition UNIFAC_d3lnGammas_subgroups_dT3 (N_ : nat) (N_groups : nat) (T : R) (xs : nat -> R) (version : nat) (Qs : nat -> R) (vs : nat -> nat -> R) (psi_a : nat -> nat -> R) (psi_b : nat -> nat -> R) (psi_c : nat -> nat -> R) : nat -> R :=
  let Thetas := (UNIFAC_Thetas N_ N_groups xs Qs vs) in
  let psis := (UNIFAC_psis N_groups T version psi_a psi_b psi_c) in
  let dpsis_dT := (UNIFAC_dpsis_dT N_groups T version psi_a psi_b psi_c) in
  let d2psis_dT2 := (UNIFAC_d2psis_dT2 N_groups T version psi_a psi_b psi_c) in
  let d3psis_dT3 := (UNIFAC_d3psis_dT3 N_groups T version psi_a psi_b psi_c) in
  let Zs := (UNIFAC_Theta_Psi_sum_invs N_ N_groups T xs version Qs vs psi_a psi_b psi_c) in
  let Fs := (UNIFAC_Fs N_ N_groups T xs version Qs vs psi_a psi_b psi_c) in
  let Gs := (UNIFAC_Gs N_ N_groups T xs version Qs vs psi_a psi_b psi_c) in
  let Hs := (UNIFAC_Hs N_ N_groups T xs version Qs vs psi_a psi_b psi_c) in
  let N_ := N_ in
  let N_groups := N_groups in
  let Qs := Qs in
  let d3lnGammas_subgroups_dT3 := (fun _ => 0) in
  let d3lnGammas_subgroups_dT3 := (unifac_d3lnGammas_subgroups_dT3 N_groups Qs psis dpsis_dT d2psis_dT2 d3psis_dT3 Thetas Zs Fs Gs Hs d3lnGammas_subgroups_dT3) in
  d3lnGammas_subgroups_dT3.

(* thermo/unifac.py, lines 7537-7554: UNIFAC.lnGammas_subgroups_pure. (without the cache; list path) *)
Definition UNIFAC_lnGammas_subgroups_pure (N_ : nat) (N_groups : nat) (T : R) (version : nat) (Qs : nat -> R) (vs : nat -> nat -> R) (psi_a : nat -> nat -> R) (psi_b : nat -> nat -> R) (psi_c : nat -> nat -> R) : nat -> nat -> R :=
  let psis := (UNIFAC_psis N_groups T version psi_a psi_b psi_c) in
  let N_ := N_ in
  let N_groups := N_groups in
  let Qs := Qs in
  let Thetas_pure := (UNIFAC_Thetas_pure N_ N_groups Qs vs) in
  let lnGammas_subgroups_pure := (fun u_ => (fun _ => 0)) in
  let lnGammas_subgroups_pure := (unifac_lnGammas_subgroups_pure N_ N_groups Qs Thetas_pure psis lnGammas_subgroups_pure vs) in
  lnGammas_subgroups_pure.

(* thermo/unifac.py, lines 7585-7621: UNIFAC.dlnGammas_subgroups_pure_dT. (without the cache; list path) *)
Definition UNIFAC_dlnGammas_subgroups_pure_dT (N_ : nat) (N_groups : nat) (T : R) (version : nat) (Qs : nat -> R) (vs : nat -> nat -> R) (psi_a : nat -> nat -> R) (psi_b : nat -> nat -> R) (psi_c : nat -> nat -> R) : nat -> nat -> R :=
  let Thetas_pure := (UNIFAC_Thetas_pure N_ N_groups Qs vs) in
  let psis := (UNIFAC_psis N_groups T version psi_a psi_b psi_c) in
  let dpsis_dT := (UNIFAC_dpsis_dT N_groups T version psi_a psi_b psi_c) in
  let N_ := N_ in
  let N_groups := N_groups in
  let Qs := Qs in
  let Theta_pure_Psi_sum_invs := (UNIFAC_Theta_pure_Psi_sum_invs N_ N_groups T version Qs vs psi_a psi_b psi_c) in
  let Fs_pure := (UNIFAC_Fs_pure N_ N_groups T version Qs vs psi_a psi_b psi_c) in
  let dlnGammas_subgroups_pure_dT := (fun u_ => (fun _ => 0)) in
  let dlnGammas_subgroups_pure_dT := (unifac_dlnGammas_subgroups_pure_dT N_ N_groups Qs psis dpsis_dT Thetas_pure Theta_pure_Psi_sum_invs Fs_pure dlnGammas_subgroups_pure_dT (fun _ => 0) vs) in
  dlnGammas_subgroups_pure_dT.

(* thermo/unifac.py, lines 7656-7685: UNIFAC.d2lnGammas_subgroups_pure_dT2. (without the cache; list path) *)
Definition UNIFAC_d2lnGammas_subgroups_pure_dT2 (N_ : nat) (N_groups : nat) (T : R) (version : nat) (Qs : nat -> R) (vs : nat -> nat -> R) (psi_a : nat -> nat -> R) (psi_b : nat -> nat -> R) (psi_c : nat -> nat -> R) : nat -> nat -> R :=
  let Thetas_pure := (UNIFAC_Thetas_pure N_ N_groups Qs vs) in
  let Qs := Qs in
  let psis := (UNIFAC_psis N_groups T version psi_a psi_b psi_c) in
  let dpsis_dT := (UNIFAC_dpsis_dT N_groups T version psi_a psi_b psi_c) in
  let d2psis_dT2 := (UNIFAC_d2psis_dT2 N_groups T version psi_a psi_b psi_c) in
  let N_ := N_ in
  let N_groups := N_groups in
  let Theta_pure_Psi_sum_invs := (UNIFAC_Theta_pure_Psi_sum_invs N_ N_groups T version Qs vs psi_a psi_b psi_c) in
  let Fs_pure := (UNIFAC_Fs_pure N_ N_groups T version Qs vs psi_a psi_b psi_c) in
  let Gs_pure := (UNIFAC_Gs_pure N_ N_groups T version Qs vs psi_a psi_b psi_c) in
  let d2lnGammas_subgroups_pure_dT2 := (fun u_ => (fun _ => 0)) in
  let d2lnGammas_subgroups_pure_dT2 := (unifac_d2lnGammas_subgroups_pure_dT2 N_ N_groups Qs psis dpsis_dT d2psis_dT2 Thetas_pure Theta_pure_Psi_sum_invs Fs_pure Gs_pure d2lnGammas_subgroups_pure_dT2 (fun _ => 0) vs) in
  d2lnGammas_subgroups_pure_dT2.

(* thermo/unifac.py, lines 7728-7760: UNIFAC.d3lnGammas_subgroups_pure_dT3. (the value when the reciprocal sums are cached; for the case they are not see Model_unifac) *)
Definition UNIFAC_d3lnGammas_subgroups_pure_dT3 (N_ : nat) (N_groups : nat) (T : R) (version : nat) (Qs : nat -> R) (vs : nat -> nat -> R) (psi_a : nat -> nat -> R) (psi_b : nat -> nat -> R) (psi_c : nat -> nat -> R) : nat -> nat -> R :=
  let Thetas_pure := (UNIFAC_Thetas_pure N_ N_groups Qs vs) in
  let Qs := Qs in
  let psis := (UNIFAC_psis N_groups T version psi_a psi_b psi_c) in
  let dpsis_dT := (UNIFAC_dpsis_dT N_groups T version psi_a psi_b psi_c) in
  let d2psis_dT2 := (UNIFAC_d2psis_dT2 N_groups T version psi_a psi_b psi_c) in
  let d3psis_dT3 := (UNIFAC_d3psis_dT3 N_groups T version psi_a psi_b psi_c) in
  let N_ := N_ in
  let N_groups := N_groups in
  let Theta_pure_Psi_sum_invs := (UNIFAC_Theta_pure_Psi_sum_invs N_ N_groups T version Qs vs psi_a psi_b psi_c) in
  let Fs_pure := (UNIFAC_Fs_pure N_ N_groups T version Qs vs psi_a psi_b psi_c) in
  let Gs_pure := (UNIFAC_Gs_pure N_ N_groups T version Qs vs psi_a psi_b psi_c) in
  let Hs_pure := (UNIFAC_Hs_pure N_ N_groups T version Qs vs psi_a psi_b psi_c) in
  let d3lnGammas_subgroups_pure_dT3 := (fun u_ => (fun _ => 0)) in
  let d3lnGammas_subgroups_pure_dT3 := (unifac_d3lnGammas_subgroups_pure_dT3 N_ N_groups Qs psis dpsis_dT d2psis_dT2 d3psis_dT3 Thetas_pure Theta_pure_Psi_sum_invs Fs_pure Gs_pure Hs_pure d3lnGammas_subgroups_pure_dT3 vs) in
  d3lnGammas_subgroups_pure_dT3.

(* thermo/unifac.py, lines 7119-7164: UNIFAC.d2lnGammas_subgroups_dTdxs. (without the cache; list path) *)
Definition UNIFAC_d2lnGammas_subgroups_dTdxs (N_ : nat) (N_groups : nat) (T : R) (xs : nat -> R) (version : nat) (Qs : nat -> R) (vs : nat -> nat -> R) (psi_a : nat -> nat -> R) (psi_b : nat -> nat -> R) (psi_c : nat -> nat -> R) : nat -> nat -> R :=
  let Thetas := (UNIFAC_Thetas N_ N_groups xs Qs vs) in
  let psis := (UNIFAC_psis N_groups T version psi_a psi_b psi_c) in
  let dpsis_dT := (UNIFAC_dpsis_dT N_groups T version psi_a psi_b psi_c) in
  let dThetas_dxs := (UNIFAC_dThetas_dxs N_ N_groups xs Qs vs) in
  let Zs := (UNIFAC_Theta_Psi_sum_invs N_ N_groups T xs version Qs vs psi_a psi_b psi_c) in
  let Ws := (UNIFAC_Ws N_ N_groups T xs version Qs vs psi_a psi_b psi_c) in
  let N_ := N_ in
  let N_groups := N_groups in
  let Qs := Qs in
  let Fs := (UNIFAC_Fs N_ N_groups T xs version Qs vs psi_a psi_b psi_c) in
  let d2lnGammas_subgroups_dTdxs := (fun u_ => (fun _ => 0)) in
  let d2lnGammas_subgroups_dTdxs := (unifac_d2lnGammas_subgroups_dTdxs N_ N_groups Qs Fs Zs Ws psis dpsis_dT Thetas dThetas_dxs d2lnGammas_subgroups_dTdxs (fun _ => 0) (fun _ => 0) (fun _ _ => 0)) in
  d2lnGammas_subgroups_dTdxs.

(* thermo/unifac.py, lines 7777-7796: UNIFAC.lngammas_r. (without the cache; list path) *)
Definition UNIFAC_lngammas_r (N_ : nat) (N_groups : nat) (T : R) (xs : nat -> R) (version : nat) (Qs : nat -> R) (vs : nat -> nat -> R) (psi_a : nat -> nat -> R) (psi_b : nat -> nat -> R) (psi_c : nat -> nat -> R) : nat -> R :=
  let lnGammas_subgroups_pure := (UNIFAC_lnGammas_subgroups_pure N_ N_groups T version Qs vs psi_a psi_b psi_c) in
  let lnGammas_subgroups := (UNIFAC_lnGammas_subgroups N_ N_groups T xs version Qs vs psi_a psi_b psi_c) in
  let vs := vs in
  let N_ := N_ in
  let N_groups := N_groups in
  let lngammas_r := (fun _ => 0) in
  let lngammas_r :=
    if (negb (N_ =? 1%nat)%nat) then
    let lngammas_r := (unifac_lngammas_r N_ N_groups lnGammas_subgroups_pure lnGammas_subgroups vs lngammas_r) in
    lngammas_r
    else
    lngammas_r
  in
  lngammas_r.

(* thermo/unifac.py, lines 7816-7831: UNIFAC.dlngammas_r_dT. (without the cache; list path) *)
Definition UNIFAC_dlngammas_r_dT (N_ : nat) (N_groups : nat) (T : R) (xs : nat -> R) (version : nat) (Qs : nat -> R) (vs : nat -> nat -> R) (psi_a : nat -> nat -> R) (psi_b : nat -> nat -> R) (psi_c : nat -> nat -> R) : nat -> R :=
  let dlnGammas_subgroups_pure_dT := (UNIFAC_dlnGammas_subgroups_pure_dT N_ N_groups T version Qs vs psi_a psi_b psi_c) in
  let dlnGammas_subgroups_dT := (UNIFAC_dlnGammas_subgroups_dT N_ N_groups T xs version Qs vs psi_a psi_b psi_c) in
  let vs := vs in
  let N_ := N_ in
  let N_groups := N_groups in
  let dlngammas_r_dT := (fun _ => 0) in
  let dlngammas_r_dT := (unifac_lngammas_r N_ N_groups dlnGammas_subgroups_pure_dT dlnGammas_subgroups_dT vs dlngammas_r_dT) in
  dlngammas_r_dT.

(* thermo/unifac.py, lines 7852-7868: UNIFAC.d2lngammas_r_dT2. (without the cache; list path) *)
Definition UNIFAC_d2lngammas_r_dT2 (N_ : nat) (N_groups : nat) (T : R) (xs : nat -> R) (version : nat) (Qs : nat -> R) (vs : nat -> nat -> R) (psi_a : nat -> nat -> R) (psi_b : nat -> nat -> R) (psi_c : nat -> nat -> R) : nat -> R :=
  let d2lnGammas_subgroups_pure_dT2 := (UNIFAC_d2lnGammas_subgroups_pure_dT2 N_ N_groups T version Qs vs psi_a psi_b psi_c) in
  let d2lnGammas_subgroups_dT2 := (UNIFAC_d2lnGammas_subgroups_dT2 N_ N_groups T xs version Qs vs psi_a psi_b psi_c) in
  let vs := vs in
  let N_ := N_ in
  let N_groups := N_groups in
  let d2lngammas_r_dT2 := (fun _ => 0) in
  let d2lngammas_r_dT2 := (unifac_lngammas_r N_ N_groups d2lnGammas_subgroups_pure_dT2 d2lnGammas_subgroups_dT2 vs d2lngammas_r_dT2) in
  d2lngammas_r_dT2.

(* thermo/unifac.py, lines 7889-7902: UNIFAC.d3lngammas_r_dT3. (without the cache; list path) *)
Definition UNIFAC_d3lngammas_r_dT3 (N_ : nat) (N_groups : nat) (T : R) (xs : nat -> R) (version : nat) (Qs : nat -> R) (vs : nat -> nat -> R) (psi_a : nat -> nat -> R) (psi_b : nat -> nat -> R) (psi_c : nat -> nat -> R) : nat -> R :=
  let d3lnGammas_subgroups_pure_dT3 := (UNIFAC_d3lnGammas_subgroups_pure_dT3 N_ N_groups T version Qs vs psi_a psi_b psi_c) in
  let d3lnGammas_subgroups_dT3 := (UNIFAC_d3lnGammas_subgroups_dT3 N_ N_groups T xs version Qs vs psi_a psi_b psi_c) in
  let vs := vs in
  let N_ := N_ in
  let N_groups := N_groups in
  let d3lngammas_r_dT3 := (fun _ => 0) in
  let d3lngammas_r_dT3 := (unifac_lngammas_r N_ N_groups d3lnGammas_subgroups_pure_dT3 d3lnGammas_subgroups_dT3 vs d3lngammas_r_dT3) in
  d3lngammas_r_dT3.

(* thermo/unifac.py, lines 7919-7940: UNIFAC.dlngammas_r_dxs. (without the cache; list path) *)
Definition UNIFAC_dlngammas_r_dxs (N_ : nat) (N_groups : nat) (T : R) (xs : nat -> R) (version : nat) (Qs : nat -> R) (vs : nat -> nat -> R) (psi_a : nat -> nat -> R) (psi_b : nat -> nat -> R) (psi_c : nat -> nat -> R) : nat -> nat -> R :=
  let vs := vs in
  let N_ := N_ in
  let N_groups := N_groups in
  let dlnGammas_subgroups_dxs := (UNIFAC_dlnGammas_subgroups_dxs N_ N_groups T xs version Qs vs psi_a psi_b psi_c) in
  let dlngammas_r_dxs := (fun u_ => (fun _ => 0)) in
  let dlngammas_r_dxs := (unifac_dlngammas_r_dxs N_ N_groups vs dlnGammas_subgroups_dxs dlngammas_r_dxs) in
  let dlngammas_r_dxs :=
    loop N_ (fun i dlngammas_r_dxs =>
      let dlngammas_r_dxs :=
        loop N_ (fun j dlngammas_r_dxs =>
          let tot := 0 in
          let tot :=
            loop N_groups (fun m tot =>
              let tot := (tot + ((vs m i) * (dlnGammas_subgroups_dxs m j))) in
              tot
            ) tot in
          let dlngammas_r_dxs := updm dlngammas_r_dxs i j tot in
          dlngammas_r_dxs
        ) dlngammas_r_dxs in
      dlngammas_r_dxs
    ) dlngammas_r_dxs in
  dlngammas_r_dxs.

(* thermo/unifac.py, lines 7958-7972: UNIFAC.d2lngammas_r_dTdxs. (without the cache; list path) *)
Definition UNIFAC_d2lngammas_r_dTdxs (N_ : nat) (N_groups : nat) (T : R) (xs : nat -> R) (version : nat) (Qs : nat -> R) (vs : nat -> nat -> R) (psi_a : nat -> nat -> R) (psi_b : nat -> nat -> R) (psi_c : nat -> nat -> R) : nat -> nat -> R :=
  let vs := vs in
  let N_ := N_ in
  let N_groups := N_groups in
  let d2lnGammas_subgroups_dTdxs := (UNIFAC_d2lnGammas_subgroups_dTdxs N_ N_groups T xs version Qs vs psi_a psi_b psi_c) in
  let d2lngammas_r_dTdxs := (fun u_ => (fun _ => 0)) in
  let d2lngammas_r_dTdxs := (unifac_dlngammas_r_dxs N_ N_groups vs d2lnGammas_subgroups_dTdxs d2lngammas_r_dTdxs) in
  d2lngammas_r_dTdxs.

(* thermo/unifac.py, lines 7989-8003: UNIFAC.d2lngammas_r_dxixjs. (without the cache; list path) *)
Definition UNIFAC_d2lngammas_r_dxixjs (N_ : nat) (N_groups : nat) (T : R) (xs : nat -> R) (version : nat) (Qs : nat -> R) (vs : nat -> nat -> R) (psi_a : nat -> nat -> R) (psi_b : nat -> nat -> R) (psi_c : nat -> nat -> R) : nat -> nat -> nat -> R :=
  let vs := vs in
  let N_ := N_ in
  let N_groups := N_groups in
  let d2lnGammas_subgroups_dxixjs := (UNIFAC_d2lnGammas_subgroups_dxixjs N_ N_groups T xs version Qs vs psi_a psi_b psi_c) in
  let d2lngammas_r_dxixjs := (fun u_ => (fun u_ => (fun _ => 0))) in
  let d2lngammas_r_dxixjs := (unifac_d2lngammas_r_dxixjs N_ N_groups vs d2lnGammas_subgroups_dxixjs d2lngammas_r_dxixjs) in
  d2lngammas_r_dxixjs.

(* thermo/unifac.py, lines 8391-8419: UNIFAC.lngammas_c. (without the cache; list path) *)
Definition UNIFAC_lngammas_c (N_ : nat) (xs : nat -> R) (version : nat) (rs : nat -> R) (qs : nat -> R) : nat -> R :=
  let Vis := (UNIFAC_Vis N_ xs rs) in
  let Fis := (UNIFAC_Fis N_ xs qs) in
  let N_ := N_ in
  let version := version in
  let qs := qs in
  let Vis_modified :=
    if ((version =? 1%nat)%nat || (version =? 4%nat)%nat) then
    let Vis_modified := (UNIFAC_Vis_modified N_ xs version rs) in
    Vis_modified
    else
    let Vis_modified := Vis in
    Vis_modified
  in
  let lngammas_c := (fun _ => 0) in
  let lngammas_c :=
    if (negb (N_ =? 1%nat)%nat) then
    let lngammas_c := (unifac_lngammas_c N_ version qs Fis Vis Vis_modified lngammas_c) in
    lngammas_c
    else
    lngammas_c
  in
  lngammas_c.

(* thermo/unifac.py, lines 8518-8560: UNIFAC.dlngammas_c_dxs. (without the cache; list path) *)
Definition UNIFAC_dlngammas_c_dxs (N_ : nat) (xs : nat -> R) (version : nat) (rs : nat -> R) (qs : nat -> R) : nat -> nat -> R :=
  let N_ := N_ in
  let version := version in
  let qs := qs in
  let Vis := (UNIFAC_Vis N_ xs rs) in
  let dVis_dxs := (UNIFAC_dVis_dxs N_ xs rs) in
  let Fis := (UNIFAC_Fis N_ xs qs) in
  let dFis_dxs := (UNIFAC_dFis_dxs N_ xs qs) in
  let '(Vis_modified, dVis_modified_dxs) :=
    if ((version =? 1%nat)%nat || (version =? 4%nat)%nat) then
    let Vis_modified := (UNIFAC_Vis_modified N_ xs version rs) in
    let dVis_modified_dxs := (UNIFAC_dVis_modified_dxs N_ xs version rs) in
    (Vis_modified, dVis_modified_dxs)
    else
    let Vis_modified := Vis in
    let dVis_modified_dxs := dVis_dxs in
    (Vis_modified, dVis_modified_dxs)
  in
  let dlngammas_c_dxs := (fun u_ => (fun _ => 0)) in
  let dlngammas_c_dxs := (unifac_dlngammas_c_dxs N_ version qs Fis dFis_dxs Vis dVis_dxs Vis_modified dVis_modified_dxs dlngammas_c_dxs) in
  dlngammas_c_dxs.

(* thermo/unifac.py, lines 8656-8711: UNIFAC.d2lngammas_c_dxixjs. (without the cache; list path) *)
Definition UNIFAC_d2lngammas_c_dxixjs (N_ : nat) (xs : nat -> R) (version : nat) (rs : nat -> R) (qs : nat -> R) : nat -> nat -> nat -> R :=
  let N_ := N_ in
  let version := version in
  let qs := qs in
  let Vis := (UNIFAC_Vis N_ xs rs) in
  let dVis_dxs := (UNIFAC_dVis_dxs N_ xs rs) in
  let d2Vis_dxixjs := (UNIFAC_d2Vis_dxixjs N_ xs rs) in
  let Fis := (UNIFAC_Fis N_ xs qs) in
  let dFis_dxs := (UNIFAC_dFis_dxs N_ xs qs) in
  let d2Fis_dxixjs := (UNIFAC_d2Fis_dxixjs N_ xs qs) in
  let '(Vis_modified, dVis_modified_dxs, d2Vis_modified_dxixjs) :=
    if ((version =? 1%nat)%nat || (version =? 4%nat)%nat) then
    let Vis_modified := (UNIFAC_Vis_modified N_ xs version rs) in
    let dVis_modified_dxs := (UNIFAC_dVis_modified_dxs N_ xs version rs) in
    let d2Vis_modified_dxixjs := (UNIFAC_d2Vis_modified_dxixjs N_ xs version rs) in
    (Vis_modified, dVis_modified_dxs, d2Vis_modified_dxixjs)
    else
    let Vis_modified := Vis in
    let dVis_modified_dxs := dVis_dxs in
    let d2Vis_modified_dxixjs := d2Vis_dxixjs in
    (Vis_modified, dVis_modified_dxs, d2Vis_modified_dxixjs)
  in
  let d2lngammas_c_dxixjs := (fun u_ => (fun u_ => (fun _ => 0))) in
  let d2lngammas_c_dxixjs := (unifac_d2lngammas_c_dxixjs N_ version qs Fis dFis_dxs d2Fis_dxixjs Vis dVis_dxs d2Vis_dxixjs Vis_modified dVis_modified_dxs d2Vis_modified_dxixjs d2lngammas_c_dxixjs) in
  d2lngammas_c_dxixjs.

(* thermo/unifac.py, lines 8776-8808: UNIFAC.d3lngammas_c_dxixjxks. (without the cache; list path) *)
Definition UNIFAC_d3lngammas_c_dxixjxks (N_ : nat) (xs : nat -> R) (version : nat) (rs : nat -> R) (qs : nat -> R) : nat -> nat -> nat -> nat -> R :=
  let N_ := N_ in
  let version := version in
  let qs := qs in
  let Vis := (UNIFAC_Vis N_ xs rs) in
  let dVis_dxs := (UNIFAC_dVis_dxs N_ xs rs) in
  let d2Vis_dxixjs := (UNIFAC_d2Vis_dxixjs N_ xs rs) in
  let d3Vis_dxixjxks := (UNIFAC_d3Vis_dxixjxks N_ xs rs) in
  let Fis := (UNIFAC_Fis N_ xs qs) in
  let dFis_dxs := (UNIFAC_dFis_dxs N_ xs qs) in
  let d2Fis_dxixjs := (UNIFAC_d2Fis_dxixjs N_ xs qs) in
  let d3Fis_dxixjxks := (UNIFAC_d3Fis_dxixjxks N_ xs qs) in
  let '(Vis_modified, dVis_modified_dxs, d2Vis_modified_dxixjs, d3Vis_modified_dxixjxks) :=
    if ((version =? 1%nat)%nat || (version =? 4%nat)%nat) then
    let Vis_modified := (UNIFAC_Vis_modified N_ xs version rs) in
    let dVis_modified_dxs := (UNIFAC_dVis_modified_dxs N_ xs version rs) in
    let d2Vis_modified_dxixjs := (UNIFAC_d2Vis_modified_dxixjs N_ xs version rs) in
    let d3Vis_modified_dxixjxks := (UNIFAC_d3Vis_modified_dxixjxks N_ xs version rs) in
    (Vis_modified, dVis_modified_dxs, d2Vis_modified_dxixjs, d3Vis_modified_dxixjxks)
    else
    let Vis_modified := Vis in
    let dVis_modified_dxs := dVis_dxs in
    let d2Vis_modified_dxixjs := d2Vis_dxixjs in
    let d3Vis_modified_dxixjxks := d3Vis_dxixjxks in
    (Vis_modified, dVis_modified_dxs, d2Vis_modified_dxixjs, d3Vis_modified_dxixjxks)
  in
  let d3lngammas_c_dxixjxks := (fun u_ => (fun u_ => (fun u_ => (fun _ => 0)))) in
  let d3lngammas_c_dxixjxks := (unifac_d3lngammas_c_dxixjxks N_ version qs Fis dFis_dxs d2Fis_dxixjs d3Fis_dxixjxks Vis dVis_dxs d2Vis_dxixjs d3Vis_dxixjxks Vis_modified dVis_modified_dxs d2Vis_modified_dxixjs d3Vis_modified_dxixjxks d3lngammas_c_dxixjxks) in
  d3lngammas_c_dxixjxks.

(* thermo/unifac.py, lines 8018-8033: UNIFAC.GE. (without the cache; list path) *)
Definition UNIFAC_GE (N_ : nat) (N_groups : nat) (T : R) (xs : nat -> R) (version : nat) (rs : nat -> R) (qs : nat -> R) (Qs : nat -> R) (vs : nat -> nat -> R) (psi_a : nat -> nat -> R) (psi_b : nat -> nat -> R) (psi_c : nat -> nat -> R) : R :=
  let T := T in
  let xs := xs in
  let N_ := N_ in
  let GE :=
    if (N_ =? 1%nat)%nat then
    let GE := 0 in
    GE
    else
    let lngammas_r := (UNIFAC_lngammas_r N_ N_groups T xs version Qs vs psi_a psi_b psi_c) in
    let GE :=
      if (version =? 3%nat)%nat then
      let GE := (unifac_GE_skip_comb T xs N_ lngammas_r) in
      GE
      else
      let lngammas_c := (UNIFAC_lngammas_c N_ xs version rs qs) in
      let GE := (unifac_GE T xs N_ lngammas_r lngammas_c) in
      GE
    in
    GE
  in
  GE.

(* thermo/unifac.py, lines 8050-8069: UNIFAC.dGE_dxs. (without the cache; list path) *)
Definition UNIFAC_dGE_dxs (N_ : nat) (N_groups : nat) (T : R) (xs : nat -> R) (version : nat) (rs : nat -> R) (qs : nat -> R) (Qs : nat -> R) (vs : nat -> nat -> R) (psi_a : nat -> nat -> R) (psi_b : nat -> nat -> R) (psi_c : nat -> nat -> R) : nat -> R :=
  let T := T in
  let xs := xs in
  let N_ := N_ in
  let lngammas_r := (UNIFAC_lngammas_r N_ N_groups T xs version Qs vs psi_a psi_b psi_c) in
  let dlngammas_r_dxs := (UNIFAC_dlngammas_r_dxs N_ N_groups T xs version Qs vs psi_a psi_b psi_c) in
  let dGE_dxs := (fun _ => 0) in
  let dGE_dxs :=
    if (version =? 3%nat)%nat then
    let dGE_dxs := (unifac_dGE_dxs_skip_comb T xs N_ lngammas_r dlngammas_r_dxs dGE_dxs) in
    dGE_dxs
    else
    let lngammas_c := (UNIFAC_lngammas_c N_ xs version rs qs) in
    let dlngammas_c_dxs := (UNIFAC_dlngammas_c_dxs N_ xs version rs qs) in
    let dGE_dxs := (unifac_dGE_dxs T xs N_ lngammas_r dlngammas_r_dxs lngammas_c dlngammas_c_dxs dGE_dxs) in
    dGE_dxs
  in
  dGE_dxs.

(* thermo/unifac.py, lines 8090-8111: UNIFAC.d2GE_dTdxs. (without the cache; list path) *)
Definition UNIFAC_d2GE_dTdxs (N_ : nat) (N_groups : nat) (T : R) (xs : nat -> R) (version : nat) (rs : nat -> R) (qs : nat -> R) (Qs : nat -> R) (vs : nat -> nat -> R) (psi_a : nat -> nat -> R) (psi_b : nat -> nat -> R) (psi_c : nat -> nat -> R) : nat -> R :=
  let T := T in
  let xs := xs in
  let N_ := N_ in
  let lngammas_r := (UNIFAC_lngammas_r N_ N_groups T xs version Qs vs psi_a psi_b psi_c) in
  let dlngammas_r_dxs := (UNIFAC_dlngammas_r_dxs N_ N_groups T xs version Qs vs psi_a psi_b psi_c) in
  let dlngammas_r_dT := (UNIFAC_dlngammas_r_dT N_ N_groups T xs version Qs vs psi_a psi_b psi_c) in
  let d2lngammas_r_dTdxs := (UNIFAC_d2lngammas_r_dTdxs N_ N_groups T xs version Qs vs psi_a psi_b psi_c) in
  let d2GE_dTdxs := (fun _ => 0) in
  let d2GE_dTdxs :=
    if (version =? 3%nat)%nat then
    let d2GE_dTdxs := (unifac_d2GE_dTdxs_skip_comb T xs N_ lngammas_r dlngammas_r_dxs dlngammas_r_dT d2lngammas_r_dTdxs d2GE_dTdxs) in
    d2GE_dTdxs
    else
    let lngammas_c := (UNIFAC_lngammas_c N_ xs version rs qs) in
    let dlngammas_c_dxs := (UNIFAC_dlngammas_c_dxs N_ xs version rs qs) in
    let d2GE_dTdxs := (unifac_d2GE_dTdxs T xs N_ lngammas_r dlngammas_r_dxs dlngammas_r_dT d2lngammas_r_dTdxs lngammas_c dlngammas_c_dxs d2GE_dTdxs) in
    d2GE_dTdxs
  in
  d2GE_dTdxs.

(* thermo/unifac.py, lines 8133-8156: UNIFAC.d2GE_dxixjs. (without the cache; list path) *)
Definition UNIFAC_d2GE_dxixjs (N_ : nat) (N_groups : nat) (T : R) (xs : nat -> R) (version : nat) (rs : nat -> R) (qs : nat -> R) (Qs : nat -> R) (vs : nat -> nat -> R) (psi_a : nat -> nat -> R) (psi_b : nat -> nat -> R) (psi_c : nat -> nat -> R) : nat -> nat -> R :=
  let T := T in
  let xs := xs in
  let N_ := N_ in
  let dlngammas_r_dxs := (UNIFAC_dlngammas_r_dxs N_ N_groups T xs version Qs vs psi_a psi_b psi_c) in
  let d2lngammas_r_dxixjs := (UNIFAC_d2lngammas_r_dxixjs N_ N_groups T xs version Qs vs psi_a psi_b psi_c) in
  let d2GE_dxixjs := (fun u_ => (fun _ => 0)) in
  let d2GE_dxixjs :=
    if (negb (N_ =? 1%nat)%nat) then
    let d2GE_dxixjs :=
      if (version =? 3%nat)%nat then
      let d2GE_dxixjs := (unifac_d2GE_dxixjs_skip_comb T xs N_ dlngammas_r_dxs d2lngammas_r_dxixjs d2GE_dxixjs) in
      d2GE_dxixjs
      else
      let dlngammas_c_dxs := (UNIFAC_dlngammas_c_dxs N_ xs version rs qs) in
      let d2lngammas_c_dxixjs := (UNIFAC_d2lngammas_c_dxixjs N_ xs version rs qs) in
      let d2GE_dxixjs := (unifac_d2GE_dxixjs T xs N_ dlngammas_r_dxs d2lngammas_r_dxixjs dlngammas_c_dxs d2lngammas_c_dxixjs d2GE_dxixjs) in
      d2GE_dxixjs
    in
    d2GE_dxixjs
    else
    d2GE_dxixjs
  in
  d2GE_dxixjs.

(* thermo/unifac.py, lines 8172-8177: UNIFAC.dGE_dT. (without the cache; list path) *)
Definition UNIFAC_dGE_dT (N_ : nat) (N_groups : nat) (T : R) (xs : nat -> R) (version : nat) (rs : nat -> R) (qs : nat -> R) (Qs : nat -> R) (vs : nat -> nat -> R) (psi_a : nat -> nat -> R) (psi_b : nat -> nat -> R) (psi_c : nat -> nat -> R) : R :=
  let dGE_dT := (unifac_dGE_dT N_ T xs (UNIFAC_dlngammas_r_dT N_ N_groups T xs version Qs vs psi_a psi_b psi_c) (UNIFAC_GE N_ N_groups T xs version rs qs Qs vs psi_a psi_b psi_c)) in
  dGE_dT.

(* thermo/unifac.py, lines 8193-8201: UNIFAC.d2GE_dT2. (without the cache; list path) *)
Definition UNIFAC_d2GE_dT2 (N_ : nat) (N_groups : nat) (T : R) (xs : nat -> R) (version : nat) (Qs : nat -> R) (vs : nat -> nat -> R) (psi_a : nat -> nat -> R) (psi_b : nat -> nat -> R) (psi_c : nat -> nat -> R) : R :=
  let T := T in
  let xs := xs in
  let N_ := N_ in
  let dlngammas_r_dT := (UNIFAC_dlngammas_r_dT N_ N_groups T xs version Qs vs psi_a psi_b psi_c) in
  let d2lngammas_r_dT2 := (UNIFAC_d2lngammas_r_dT2 N_ N_groups T xs version Qs vs psi_a psi_b psi_c) in
  let d2GE_dT2 := (unifac_d2GE_dT2 N_ T xs dlngammas_r_dT d2lngammas_r_dT2) in
  d2GE_dT2.

(* thermo/unifac.py, lines 8217-8225: UNIFAC.d3GE_dT3. (without the cache; list path) *)
Definition UNIFAC_d3GE_dT3 (N_ : nat) (N_groups : nat) (T : R) (xs : nat -> R) (version : nat) (Qs : nat -> R) (vs : nat -> nat -> R) (psi_a : nat -> nat -> R) (psi_b : nat -> nat -> R) (psi_c : nat -> nat -> R) : R :=
  let T := T in
  let xs := xs in
  let N_ := N_ in
  let d2lngammas_r_dT2 := (UNIFAC_d2lngammas_r_dT2 N_ N_groups T xs version Qs vs psi_a psi_b psi_c) in
  let d3lngammas_r_dT3 := (UNIFAC_d3lngammas_r_dT3 N_ N_groups T xs version Qs vs psi_a psi_b psi_c) in
  let d3GE_dT3 := (unifac_d3GE_dT3 N_ T xs d2lngammas_r_dT2 d3lngammas_r_dT3) in
  d3GE_dT3.

(* thermo/unifac.py, lines 8243-8269: UNIFAC.gammas. (without the cache; list path) *)
Definition UNIFAC_gammas (N_ : nat) (N_groups : nat) (T : R) (xs : nat -> R) (version : nat) (rs : nat -> R) (qs : nat -> R) (Qs : nat -> R) (vs : nat -> nat -> R) (psi_a : nat -> nat -> R) (psi_b : nat -> nat -> R) (psi_c : nat -> nat -> R) : nat -> R :=
  let xs := xs in
  let N_ := N_ in
  let lngammas_r := (UNIFAC_lngammas_r N_ N_groups T xs version Qs vs psi_a psi_b psi_c) in
  let gammas :=
    if (version =? 3%nat)%nat then
    let gammas := (fun k0_ => let ri := lngammas_r k0_ in (exp ri)) in
    gammas
    else
    let lngammas_c := (UNIFAC_lngammas_c N_ xs version rs qs) in
    let gammas := (fun _ => 0) in
    let gammas := (unifac_gammas N_ xs lngammas_r lngammas_c gammas) in
    gammas
  in
  gammas.

(* thermo/unifac.py, lines 8285-8301: UNIFAC.dgammas_dT. (without the cache; list path) *)
Definition UNIFAC_dgammas_dT (N_ : nat) (N_groups : nat) (T : R) (xs : nat -> R) (version : nat) (rs : nat -> R) (qs : nat -> R) (Qs : nat -> R) (vs : nat -> nat -> R) (psi_a : nat -> nat -> R) (psi_b : nat -> nat -> R) (psi_c : nat -> nat -> R) : nat -> R :=
  let gammas := (UNIFAC_gammas N_ N_groups T xs version rs qs Qs vs psi_a psi_b psi_c) in
  let dlngammas_r_dT := (UNIFAC_dlngammas_r_dT N_ N_groups T xs version Qs vs psi_a psi_b psi_c) in
  let dgammas_dT := (fun i => ((dlngammas_r_dT i) * (gammas i))) in
  dgammas_dT.

(* thermo/unifac.py, lines 8340-8369: UNIFAC.dgammas_dxs. (without the cache; list path) *)
Definition UNIFAC_dgammas_dxs (N_ : nat) (N_groups : nat) (T : R) (xs : nat -> R) (version : nat) (rs : nat -> R) (qs : nat -> R) (Qs : nat -> R) (vs : nat -> nat -> R) (psi_a : nat -> nat -> R) (psi_b : nat -> nat -> R) (psi_c : nat -> nat -> R) : nat -> nat -> R :=
  let gammas := (UNIFAC_gammas N_ N_groups T xs version rs qs Qs vs psi_a psi_b psi_c) in
  let xs := xs in
  let N_ := N_ in
  let dlngammas_r_dxs := (UNIFAC_dlngammas_r_dxs N_ N_groups T xs version Qs vs psi_a psi_b psi_c) in
  let dgammas_dxs := (fun u_ => (fun _ => 0)) in
  let dgammas_dxs :=
    if (version =? 3%nat)%nat then
    let dgammas_dxs := (unifac_dgammas_dxs_skip_comb N_ xs gammas dlngammas_r_dxs dgammas_dxs) in
    dgammas_dxs
    else
    let dlngammas_c_dxs := (UNIFAC_dlngammas_c_dxs N_ xs version rs qs) in
    let dgammas_dxs := (unifac_dgammas_dxs N_ xs gammas dlngammas_r_dxs dlngammas_c_dxs dgammas_dxs) in
    dgammas_dxs
  in
  dgammas_dxs.

(* thermo/unifac.py, lines 8304-8315: UNIFAC.dgammas_dns. (without the cache; list path) *)
Definition UNIFAC_dgammas_dns (N_ : nat) (N_groups : nat) (T : R) (xs : nat -> R) (version : nat) (rs : nat -> R) (qs : nat -> R) (Qs : nat -> R) (vs : nat -> nat -> R) (psi_a : nat -> nat -> R) (psi_b : nat -> nat -> R) (psi_c : nat -> nat -> R) : nat -> nat -> R :=
  let dgammas_dxs := (UNIFAC_dgammas_dxs N_ N_groups T xs version rs qs Qs vs psi_a psi_b psi_c) in
  let N_ := N_ in
  let dgammas_dns := (fun u_ => (fun _ => 0)) in
  let dgammas_dns := (unifac_dgammas_dns N_ xs dgammas_dxs dgammas_dns) in
  dgammas_dns.
