(* Base class of the activity models (thermo/activity.py)
   Generated by tools/py2v.py from the text of /repo; do not edit by hand. *)
From Coq Require Import Reals Lra Lia Arith Bool.
From Verif Require Import Base.
Open Scope R_scope.
Open Scope bool_scope.
From Verif Require Import Gen_uniquac.

(* thermo/activity.py, lines 83-93: gibbs_excess_gammas with its default gammas=None (lines 89-90: a new list of zeros). *)
Definition gibbs_excess_gammas_new (N : nat) (xs dG_dxs : nat -> R) (GE T : R) : nat -> R := gibbs_excess_gammas xs dG_dxs GE T (fun _ => 0) N.

(* thermo/activity.py, lines 95-100: gibbs_excess_dHE_dxs. *)
Definition gibbs_excess_dHE_dxs (dGE_dxs : nat -> R) (d2GE_dTdxs : nat -> R) (N_ : nat) (T : R) (dHE_dxs : nat -> R) : nat -> R :=
  let dHE_dxs :=
    loop N_ (fun i dHE_dxs =>
      let dHE_dxs := upd dHE_dxs i (((- T) * (d2GE_dTdxs i)) + (dGE_dxs i)) in
      dHE_dxs
    ) dHE_dxs in
  dHE_dxs.

(* thermo/activity.py, lines 104-124: gibbs_excess_dgammas_dns. *)
Definition gibbs_excess_dgammas_dns (xs : nat -> R) (gammas : nat -> R) (d2GE_dxixjs : nat -> nat -> R) (N_ : nat) (T : R) (dgammas_dns : nat -> nat -> R) (vec0 : nat -> R) : nat -> nat -> R :=
  let vec0 :=
    loop N_ (fun j vec0 =>
      let tot := 0 in
      let tot :=
        loop N_ (fun k tot =>
          let tot := (tot + ((xs k) * (d2GE_dxixjs j k))) in
          tot
        ) tot in
      let vec0 := upd vec0 j tot in
      vec0
    ) vec0 in
  let RT_inv := ((1 / Rgas) / T) in
  let dgammas_dns :=
    loop N_ (fun i dgammas_dns =>
      let gammai_RT := ((gammas i) * RT_inv) in
      let dgammas_dns :=
        loop N_ (fun j dgammas_dns =>
          let dgammas_dns := updm dgammas_dns i j (gammai_RT * ((d2GE_dxixjs i j) - (vec0 j))) in
          dgammas_dns
        ) dgammas_dns in
      dgammas_dns
    ) dgammas_dns in
  dgammas_dns.

(* thermo/activity.py, lines 126-142: gibbs_excess_dgammas_dT. *)
Definition gibbs_excess_dgammas_dT (xs : nat -> R) (GE : R) (dGE_dT : R) (dG_dxs : nat -> R) (d2GE_dTdxs : nat -> R) (N_ : nat) (T : R) (dgammas_dT : nat -> R) : nat -> R :=
  let xdx_totF0 := dGE_dT in
  let xdx_totF0 :=
    loop N_ (fun j xdx_totF0 =>
      let xdx_totF0 := (xdx_totF0 - ((xs j) * (d2GE_dTdxs j))) in
      xdx_totF0
    ) xdx_totF0 in
  let xdx_totF1 := GE in
  let xdx_totF1 :=
    loop N_ (fun j xdx_totF1 =>
      let xdx_totF1 := (xdx_totF1 - ((xs j) * (dG_dxs j))) in
      xdx_totF1
    ) xdx_totF1 in
  let T_inv := (1 / T) in
  let RT_inv := ((1 / Rgas) * T_inv) in
  let dgammas_dT :=
    loop N_ (fun i dgammas_dT =>
      let dG_dni := (xdx_totF1 + (dG_dxs i)) in
      let dgammas_dT := upd dgammas_dT i ((RT_inv * (((d2GE_dTdxs i) - (dG_dni * T_inv)) + xdx_totF0)) * (exp (dG_dni * RT_inv))) in
      dgammas_dT
    ) dgammas_dT in
  dgammas_dT.

(* External: chemicals.utils.dxs_to_dns(dxs, xs): mole-number derivatives of an intensive property, from mole fraction derivatives (its documented formula). *)
Definition ext_dxs_to_dns (N : nat) (dxs xs : nat -> R) : nat -> R := fun i => dxs i - rsum N (fun j => xs j * dxs j).
(* External: chemicals.utils.dns_to_dn_partials(dns, F): derivatives of n F with respect to mole numbers, from those of F (its documented formula). *)
Definition ext_dns_to_dn_partials (dns : nat -> R) (F : R) : nat -> R := fun i => dns i + F.
(* External: chemicals.utils.d2xs_to_dxdn_partials(d2xs, xs): its documented formula. *)
Definition ext_d2xs_to_dxdn_partials (N : nat) (d2xs : nat -> nat -> R) (xs : nat -> R) : nat -> nat -> R := fun i j => d2xs i j - rsum N (fun k => xs k * d2xs j k).

(* thermo/activity.py, lines 473-473: GibbsExcess.HE. (without the cache; list path) *)
Definition GibbsExcess_HE (T : R) (GE : R) (dGE_dT : R) : R :=
  (((- T) * dGE_dT) + GE).

(* thermo/activity.py, lines 492-492: GibbsExcess.dHE_dT. (without the cache; list path) *)
Definition GibbsExcess_dHE_dT (T : R) (d2GE_dT2 : R) : R :=
  ((- T) * d2GE_dT2).

(* thermo/activity.py, lines 592-596: GibbsExcess.SE. (without the cache; list path) *)
Definition GibbsExcess_SE (T : R) (GE : R) (dGE_dT : R) : R :=
  (((GibbsExcess_HE T GE dGE_dT) - GE) / T).

(* thermo/activity.py, lines 513-527: GibbsExcess.dHE_dxs. (without the cache; list path) *)
Definition GibbsExcess_dHE_dxs (N_ : nat) (T : R) (dGE_dxs : nat -> R) (d2GE_dTdxs : nat -> R) : nat -> R :=
  let d2GE_dTdxs := d2GE_dTdxs in
  let dGE_dxs := dGE_dxs in
  let dHE_dxs := (gibbs_excess_dHE_dxs dGE_dxs d2GE_dTdxs N_ T (fun _ => 0)) in
  dHE_dxs.

(* thermo/activity.py, lines 545-547: GibbsExcess.dHE_dns. (without the cache; list path) *)
Definition GibbsExcess_dHE_dns (N_ : nat) (T : R) (xs : nat -> R) (dGE_dxs : nat -> R) (d2GE_dTdxs : nat -> R) : nat -> R :=
  let N_ := N_ in
  let dHE_dns := (ext_dxs_to_dns N_ (GibbsExcess_dHE_dxs N_ T dGE_dxs d2GE_dTdxs) xs) in
  dHE_dns.

(* thermo/activity.py, lines 565-567: GibbsExcess.dnHE_dns. (without the cache; list path) *)
Definition GibbsExcess_dnHE_dns (N_ : nat) (T : R) (xs : nat -> R) (GE : R) (dGE_dT : R) (dGE_dxs : nat -> R) (d2GE_dTdxs : nat -> R) : nat -> R :=
  let N_ := N_ in
  let dnHE_dns := (ext_dxs_to_dn_partials N_ (GibbsExcess_dHE_dxs N_ T dGE_dxs d2GE_dTdxs) xs (GibbsExcess_HE T GE dGE_dT)) in
  dnHE_dns.

(* thermo/activity.py, lines 617-639: GibbsExcess.dSE_dT. (without the cache; list path) *)
Definition GibbsExcess_dSE_dT (T : R) (GE : R) (dGE_dT : R) (d2GE_dT2 : R) : R :=
  let dHE_dT := (GibbsExcess_dHE_dT T d2GE_dT2) in
  let HE := (GibbsExcess_HE T GE dGE_dT) in
  let dGE_dT := dGE_dT in
  let GE := GE in
  let T_inv := (1 / T) in
  (T_inv * (((- dGE_dT) + dHE_dT) - ((HE - GE) * T_inv))).

(* thermo/activity.py, lines 666-672: GibbsExcess.dSE_dxs. (without the cache; list path) *)
Definition GibbsExcess_dSE_dxs (d2GE_dTdxs : nat -> R) : nat -> R :=
  let d2GE_dTdxs := d2GE_dTdxs in
  let dSE_dxs := (fun k0_ => let v := d2GE_dTdxs k0_ in (- v)) in
  dSE_dxs.

(* thermo/activity.py, lines 690-692: GibbsExcess.dSE_dns. (without the cache; list path) *)
Definition GibbsExcess_dSE_dns (N_ : nat) (xs : nat -> R) (d2GE_dTdxs : nat -> R) : nat -> R :=
  let N_ := N_ in
  let dSE_dns := (ext_dxs_to_dns N_ (GibbsExcess_dSE_dxs d2GE_dTdxs) xs) in
  dSE_dns.

(* thermo/activity.py, lines 710-712: GibbsExcess.dnSE_dns. (without the cache; list path) *)
Definition GibbsExcess_dnSE_dns (N_ : nat) (T : R) (xs : nat -> R) (GE : R) (dGE_dT : R) (d2GE_dTdxs : nat -> R) : nat -> R :=
  let N_ := N_ in
  let dnSE_dns := (ext_dxs_to_dn_partials N_ (GibbsExcess_dSE_dxs d2GE_dTdxs) xs (GibbsExcess_SE T GE dGE_dT)) in
  dnSE_dns.

(* thermo/activity.py, lines 730-732: GibbsExcess.dGE_dns. (without the cache; list path) *)
Definition GibbsExcess_dGE_dns (N_ : nat) (xs : nat -> R) (dGE_dxs : nat -> R) : nat -> R :=
  let N_ := N_ in
  let dGE_dns := (ext_dxs_to_dns N_ dGE_dxs xs) in
  dGE_dns.

(* thermo/activity.py, lines 750-752: GibbsExcess.dnGE_dns. (without the cache; list path) *)
Definition GibbsExcess_dnGE_dns (N_ : nat) (xs : nat -> R) (GE : R) (dGE_dxs : nat -> R) : nat -> R :=
  let N_ := N_ in
  let dnGE_dns := (ext_dxs_to_dn_partials N_ dGE_dxs xs GE) in
  dnGE_dns.

(* thermo/activity.py, lines 771-773: GibbsExcess.d2GE_dTdns. (without the cache; list path) *)
Definition GibbsExcess_d2GE_dTdns (N_ : nat) (xs : nat -> R) (d2GE_dTdxs : nat -> R) : nat -> R :=
  let N_ := N_ in
  let d2GE_dTdns := (ext_dxs_to_dns N_ d2GE_dTdxs xs) in
  d2GE_dTdns.

(* thermo/activity.py, lines 794-798: GibbsExcess.d2nGE_dTdns. (without the cache; list path) *)
Definition GibbsExcess_d2nGE_dTdns (N_ : nat) (xs : nat -> R) (dGE_dT : R) (d2GE_dTdxs : nat -> R) : nat -> R :=
  let dGE_dT := dGE_dT in
  let d2GE_dTdns := (GibbsExcess_d2GE_dTdns N_ xs d2GE_dTdxs) in
  let N_ := N_ in
  let d2nGE_dTdns := (ext_dns_to_dn_partials d2GE_dTdns dGE_dT) in
  d2nGE_dTdns.

(* thermo/activity.py, lines 819-822: GibbsExcess.d2nGE_dninjs. (without the cache; list path) *)
Definition GibbsExcess_d2nGE_dninjs (N_ : nat) (xs : nat -> R) (d2GE_dxixjs : nat -> nat -> R) : nat -> nat -> R :=
  let N_ := N_ in
  let d2nGE_dninjs := (ext_d2xs_to_dxdn_partials N_ d2GE_dxixjs xs) in
  d2nGE_dninjs.

(* thermo/activity.py, lines 871-887: GibbsExcess.gammas. (without the cache; list path) *)
Definition GibbsExcess_gammas (N_ : nat) (T : R) (xs : nat -> R) (GE : R) (dGE_dxs : nat -> R) : nat -> R :=
  let GE := GE in
  let N_ := N_ in
  let dG_dxs := dGE_dxs in
  let dG_dns := (ext_dxs_to_dn_partials N_ dG_dxs xs GE) in
  let RT_inv := (1 / (Rgas * T)) in
  let gammas := (fun k0_ => let i := dG_dns k0_ in (exp (i * RT_inv))) in
  gammas.

(* thermo/activity.py, lines 871-887: GibbsExcess.gammas. (the numpy path, without the cache) *)
Definition GibbsExcess_gammas_vectorized (N_ : nat) (T : R) (xs : nat -> R) (GE : R) (dGE_dxs : nat -> R) : nat -> R :=
  let GE := GE in
  let N_ := N_ in
  let dG_dxs := dGE_dxs in
  let gammas := (gibbs_excess_gammas_new N_ xs dG_dxs GE T) in
  gammas.

(* thermo/activity.py, lines 923-930: GibbsExcess.lngammas. (without the cache; list path) *)
Definition GibbsExcess_lngammas (N_ : nat) (T : R) (xs : nat -> R) (GE : R) (dGE_dxs : nat -> R) : nat -> R :=
  let GE := GE in
  let N_ := N_ in
  let dG_dxs := dGE_dxs in
  let dG_dns := (ext_dxs_to_dn_partials N_ dG_dxs xs GE) in
  let RT_inv := (1 / (Rgas * T)) in
  (fun k0_ => let dG_dn := dG_dns k0_ in (dG_dn * RT_inv)).

(* thermo/activity.py, lines 973-990: GibbsExcess.dgammas_dns. (without the cache; list path) *)
Definition GibbsExcess_dgammas_dns (N_ : nat) (T : R) (xs : nat -> R) (GE : R) (dGE_dxs : nat -> R) (d2GE_dxixjs : nat -> nat -> R) : nat -> nat -> R :=
  let gammas := (GibbsExcess_gammas N_ T xs GE dGE_dxs) in
  let N_ := N_ in
  let xs := xs in
  let d2GE_dxixjs := d2GE_dxixjs in
  let dgammas_dns := (fun u_ => (fun _ => 0)) in
  let dgammas_dns := (gibbs_excess_dgammas_dns xs gammas d2GE_dxixjs N_ T dgammas_dns (fun _ => 0)) in
  dgammas_dns.

(* thermo/activity.py, lines 1052-1071: GibbsExcess.dgammas_dT. (without the cache; list path) *)
Definition GibbsExcess_dgammas_dT (N_ : nat) (T : R) (xs : nat -> R) (GE : R) (dGE_dT : R) (dGE_dxs : nat -> R) (d2GE_dTdxs : nat -> R) : nat -> R :=
  let N_ := N_ in
  let T := T in
  let xs := xs in
  let dGE_dT := dGE_dT in
  let GE := GE in
  let dG_dxs := dGE_dxs in
  let d2GE_dTdxs := d2GE_dTdxs in
  let dgammas_dT := (gibbs_excess_dgammas_dT xs GE dGE_dT dG_dxs d2GE_dTdxs N_ T (fun _ => 0)) in
  dgammas_dT.

(* thermo/activity.py, lines 949-955: GibbsExcess.dlngammas_dT. (without the cache; list path) *)
Definition GibbsExcess_dlngammas_dT (N_ : nat) (T : R) (xs : nat -> R) (GE : R) (dGE_dT : R) (dGE_dxs : nat -> R) (d2GE_dTdxs : nat -> R) : nat -> R :=
  let gammas := (GibbsExcess_gammas N_ T xs GE dGE_dxs) in
  let dgammas_dT := (GibbsExcess_dgammas_dT N_ T xs GE dGE_dT dGE_dxs d2GE_dTdxs) in
  (fun i => ((dgammas_dT i) / (gammas i))).

(* thermo/utils/functional.py, lines 236-244: d2ns_to_dn2_partials. *)
Definition d2ns_to_dn2_partials (d2ns : nat -> nat -> R) (dns : nat -> R) (N_ : nat) : nat -> nat -> R :=
  let N_ := N_ in
  let hess := (fun u_ => (fun _ => 0)) in
  let hess :=
    loop N_ (fun i hess =>
      let hess :=
        loop N_ (fun j hess =>
          let v := (((d2ns i j) + (dns i)) + (dns j)) in
          let hess := updm hess i j v in
          hess
        ) hess in
      hess
    ) hess in
  hess.
