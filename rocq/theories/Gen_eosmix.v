(* Mixture equations of state: parameters and composition derivatives (thermo/eos_mix.py)
   Generated by tools/py2v.py from the text of /repo; do not edit by hand. *)
From Coq Require Import Reals Lra Lia Arith Bool.
From Verif Require Import Base.
Open Scope R_scope.
Open Scope bool_scope.
From Verif Require Import Gen_mix.

(* thermo/eos_mix.py, lines 6547-6551: RKMIX.__init__. (the statements that set b, delta; list paths, not numpy) *)
Definition RKMIX_init_params (zs : nat -> R) (N_ : nat) (bs : nat -> R) :=
  let b := 0 in
  let b :=
    loop N_ (fun i b =>
      let b := (b + ((bs i) * (zs i))) in
      b
    ) b in
  let delta := b in
  let b := delta in
  (b, delta).

(* thermo/eos_mix.py, lines 6559-6565: RKMIX._fast_init_specific. (the statements that set b, delta; list paths, not numpy) *)
Definition RKMIX_fast_params (N_ : nat) (bs : nat -> R) (zs : nat -> R) :=
  let b := 0 in
  let b :=
    loop N_ (fun i b =>
      let b := (b + ((bs i) * (zs i))) in
      b
    ) b in
  let delta := b in
  let b := delta in
  (b, delta).

(* thermo/eos_mix.py, lines 6898-6905: PRMIX.__init__. (the statements that set b, delta, epsilon; list paths, not numpy) *)
Definition PRMIX_init_params (zs : nat -> R) (N_ : nat) (bs : nat -> R) :=
  let b := 0 in
  let b :=
    loop N_ (fun i b =>
      let b := (b + ((bs i) * (zs i))) in
      b
    ) b in
  let delta := (2 * b) in
  let epsilon_ := ((- b) * b) in
  (b, delta, epsilon_).

(* thermo/eos_mix.py, lines 6915-6918: PRMIX._fast_init_specific. (the statements that set b, delta, epsilon; list paths, not numpy) *)
Definition PRMIX_fast_params (N_ : nat) (bs : nat -> R) (zs : nat -> R) :=
  let b := 0 in
  let b :=
    loop N_ (fun i b =>
      let b := (b + ((bs i) * (zs i))) in
      b
    ) b in
  let delta := (2 * b) in
  let epsilon_ := ((- b) * b) in
  (b, delta, epsilon_).

(* thermo/eos_mix.py, lines 7945-7959: PRMIXTranslated.__init__. (the statements that set c, b, delta, epsilon; list paths, not numpy) *)
Definition PRMIXTranslated_init_params (zs : nat -> R) (cs : nat -> R) (N_ : nat) (b0s : nat -> R) :=
  let b0 := 0 in
  let c := 0 in
  let '(b0, c) :=
    loop N_ (fun i st_ =>
      let '(b0, c) := st_ in
      let b0 := (b0 + ((b0s i) * (zs i))) in
      let c := (c + ((cs i) * (zs i))) in
      (b0, c)
    ) (b0, c) in
  let b := (b0 - c) in
  let delta := (2 * (c + b0)) in
  let epsilon_ := (((- b0) * b0) + (c * ((c + b0) + b0))) in
  (c, b, delta, epsilon_).

(* thermo/eos_mix.py, lines 7973-7980: PRMIXTranslated._fast_init_specific. (the statements that set c, b, delta, epsilon; list paths, not numpy) *)
Definition PRMIXTranslated_fast_params (N_ : nat) (b0s : nat -> R) (zs : nat -> R) (cs : nat -> R) :=
  let b0 := 0 in
  let c := 0 in
  let '(b0, c) :=
    loop N_ (fun i st_ =>
      let '(b0, c) := st_ in
      let b0 := (b0 + ((b0s i) * (zs i))) in
      let c := (c + ((cs i) * (zs i))) in
      (b0, c)
    ) (b0, c) in
  let b := (b0 - c) in
  let delta := (2 * (c + b0)) in
  let epsilon_ := (((- b0) * b0) + (c * ((c + b0) + b0))) in
  (c, b, delta, epsilon_).

(* thermo/eos_mix.py, lines 8531-8542: PRMIXTranslatedConsistent.__init__. (the statements that set c, b, delta, epsilon; list paths, not numpy) *)
Definition PRMIXTranslatedConsistent_init_params (zs : nat -> R) (cs : nat -> R) (N_ : nat) (b0s : nat -> R) :=
  let b0 := 0 in
  let c := 0 in
  let '(b0, c) :=
    loop N_ (fun i st_ =>
      let '(b0, c) := st_ in
      let b0 := (b0 + ((b0s i) * (zs i))) in
      let c := (c + ((cs i) * (zs i))) in
      (b0, c)
    ) (b0, c) in
  let b := (b0 - c) in
  let delta := (2 * (c + b0)) in
  let epsilon_ := (((- b0) * b0) + (c * ((c + b0) + b0))) in
  (c, b, delta, epsilon_).

(* thermo/eos_mix.py, lines 8557-8565: PRMIXTranslatedConsistent._fast_init_specific. (the statements that set c, b, delta, epsilon; list paths, not numpy) *)
Definition PRMIXTranslatedConsistent_fast_params (N_ : nat) (b0s : nat -> R) (zs : nat -> R) (cs : nat -> R) :=
  let b0 := 0 in
  let c := 0 in
  let '(b0, c) :=
    loop N_ (fun i st_ =>
      let '(b0, c) := st_ in
      let b0 := (b0 + ((b0s i) * (zs i))) in
      let c := (c + ((cs i) * (zs i))) in
      (b0, c)
    ) (b0, c) in
  let b := (b0 - c) in
  let delta := (2 * (c + b0)) in
  let epsilon_ := (((- b0) * b0) + (c * ((c + b0) + b0))) in
  (c, b, delta, epsilon_).

(* thermo/eos_mix.py, lines 8696-8700: SRKMIX.__init__. (the statements that set b, delta; list paths, not numpy) *)
Definition SRKMIX_init_params (zs : nat -> R) (bs : nat -> R) (N_ : nat) :=
  let b := (rsum N_ (fun k0_ => let bi := bs k0_ in let zi := zs k0_ in (bi * zi))) in
  let delta := b in
  (b, delta).

(* thermo/eos_mix.py, lines 8711-8712: SRKMIX._fast_init_specific. (the statements that set b, delta; list paths, not numpy) *)
Definition SRKMIX_fast_params (bs : nat -> R) (N_ : nat) (zs : nat -> R) :=
  let b := (rsum N_ (fun k0_ => let bi := bs k0_ in let zi := zs k0_ in (bi * zi))) in
  let delta := b in
  (b, delta).

(* thermo/eos_mix.py, lines 9079-9090: SRKMIXTranslated.__init__. (the statements that set c, b, delta, epsilon; list paths, not numpy) *)
Definition SRKMIXTranslated_init_params (zs : nat -> R) (cs : nat -> R) (N_ : nat) (b0s : nat -> R) :=
  let b0 := 0 in
  let c := 0 in
  let '(b0, c) :=
    loop N_ (fun i st_ =>
      let '(b0, c) := st_ in
      let b0 := (b0 + ((b0s i) * (zs i))) in
      let c := (c + ((cs i) * (zs i))) in
      (b0, c)
    ) (b0, c) in
  let b := (b0 - c) in
  let delta := ((c + c) + b0) in
  let epsilon_ := (c * (b0 + c)) in
  (c, b, delta, epsilon_).

(* thermo/eos_mix.py, lines 9105-9113: SRKMIXTranslated._fast_init_specific. (the statements that set c, b, delta, epsilon; list paths, not numpy) *)
Definition SRKMIXTranslated_fast_params (N_ : nat) (b0s : nat -> R) (zs : nat -> R) (cs : nat -> R) :=
  let b0 := 0 in
  let c := 0 in
  let '(b0, c) :=
    loop N_ (fun i st_ =>
      let '(b0, c) := st_ in
      let b0 := (b0 + ((b0s i) * (zs i))) in
      let c := (c + ((cs i) * (zs i))) in
      (b0, c)
    ) (b0, c) in
  let b := (b0 - c) in
  let delta := ((c + c) + b0) in
  let epsilon_ := (c * (b0 + c)) in
  (c, b, delta, epsilon_).

(* thermo/eos_mix.py, lines 9503-9514: SRKMIXTranslatedConsistent.__init__. (the statements that set c, b, delta, epsilon; list paths, not numpy) *)
Definition SRKMIXTranslatedConsistent_init_params (zs : nat -> R) (cs : nat -> R) (N_ : nat) (b0s : nat -> R) :=
  let b0 := 0 in
  let c := 0 in
  let '(b0, c) :=
    loop N_ (fun i st_ =>
      let '(b0, c) := st_ in
      let b0 := (b0 + ((b0s i) * (zs i))) in
      let c := (c + ((cs i) * (zs i))) in
      (b0, c)
    ) (b0, c) in
  let b := (b0 - c) in
  let delta := ((c + c) + b0) in
  let epsilon_ := (c * (b0 + c)) in
  (c, b, delta, epsilon_).

(* thermo/eos_mix.py, lines 9529-9537: SRKMIXTranslatedConsistent._fast_init_specific. (the statements that set c, b, delta, epsilon; list paths, not numpy) *)
Definition SRKMIXTranslatedConsistent_fast_params (N_ : nat) (b0s : nat -> R) (zs : nat -> R) (cs : nat -> R) :=
  let b0 := 0 in
  let c := 0 in
  let '(b0, c) :=
    loop N_ (fun i st_ =>
      let '(b0, c) := st_ in
      let b0 := (b0 + ((b0s i) * (zs i))) in
      let c := (c + ((cs i) * (zs i))) in
      (b0, c)
    ) (b0, c) in
  let b := (b0 - c) in
  let delta := ((c + c) + b0) in
  let epsilon_ := (c * (b0 + c)) in
  (c, b, delta, epsilon_).

(* thermo/eos_mix.py, lines 10133-10133: VDWMIX.__init__. (the statements that set b; list paths, not numpy) *)
Definition VDWMIX_init_params (zs : nat -> R) (bs : nat -> R) (N_ : nat) :=
  let b := (rsum N_ (fun k0_ => let bi := bs k0_ in let zi := zs k0_ in (bi * zi))) in
  b.

(* thermo/eos_mix.py, lines 10144-10144: VDWMIX._fast_init_specific. (the statements that set b; list paths, not numpy) *)
Definition VDWMIX_fast_params (bs : nat -> R) (N_ : nat) (zs : nat -> R) :=
  let b := (rsum N_ (fun k0_ => let bi := bs k0_ in let zi := zs k0_ in (bi * zi))) in
  b.

(* thermo/eos_mix.py, lines 10612-10619: PRSVMIX.__init__. (the statements that set b, delta, epsilon; list paths, not numpy) *)
Definition PRSVMIX_init_params (zs : nat -> R) (N_ : nat) (bs : nat -> R) :=
  let b := 0 in
  let b :=
    loop N_ (fun i b =>
      let b := (b + ((bs i) * (zs i))) in
      b
    ) b in
  let delta := (2 * b) in
  let epsilon_ := ((- b) * b) in
  (b, delta, epsilon_).

(* thermo/eos_mix.py, lines 10648-10653: PRSVMIX._fast_init_specific. (the statements that set b, delta, epsilon; list paths, not numpy) *)
Definition PRSVMIX_fast_params (N_ : nat) (bs : nat -> R) (zs : nat -> R) :=
  let b := 0 in
  let b :=
    loop N_ (fun i b =>
      let b := (b + ((bs i) * (zs i))) in
      b
    ) b in
  let delta := (2 * b) in
  let epsilon_ := ((- b) * b) in
  (b, delta, epsilon_).

(* thermo/eos_mix.py, lines 10872-10878: PRSV2MIX.__init__. (the statements that set b, delta, epsilon; list paths, not numpy) *)
Definition PRSV2MIX_init_params (zs : nat -> R) (N_ : nat) (bs : nat -> R) :=
  let b := 0 in
  let b :=
    loop N_ (fun i b =>
      let b := (b + ((bs i) * (zs i))) in
      b
    ) b in
  let delta := (2 * b) in
  let epsilon_ := ((- b) * b) in
  (b, delta, epsilon_).

(* thermo/eos_mix.py, lines 10912-10917: PRSV2MIX._fast_init_specific. (the statements that set b, delta, epsilon; list paths, not numpy) *)
Definition PRSV2MIX_fast_params (N_ : nat) (bs : nat -> R) (zs : nat -> R) :=
  let b := 0 in
  let b :=
    loop N_ (fun i b =>
      let b := (b + ((bs i) * (zs i))) in
      b
    ) b in
  let delta := (b + b) in
  let epsilon_ := ((- b) * b) in
  (b, delta, epsilon_).

(* thermo/eos_mix.py, lines 11102-11108: TWUPRMIX.__init__. (the statements that set b, delta, epsilon; list paths, not numpy) *)
Definition TWUPRMIX_init_params (zs : nat -> R) (N_ : nat) (bs : nat -> R) :=
  let b := 0 in
  let b :=
    loop N_ (fun i b =>
      let b := (b + ((bs i) * (zs i))) in
      b
    ) b in
  let delta := (2 * b) in
  let epsilon_ := ((- b) * b) in
  (b, delta, epsilon_).

(* thermo/eos_mix.py, lines 11119-11124: TWUPRMIX._fast_init_specific. (the statements that set b, delta, epsilon; list paths, not numpy) *)
Definition TWUPRMIX_fast_params (N_ : nat) (bs : nat -> R) (zs : nat -> R) :=
  let b := 0 in
  let b :=
    loop N_ (fun i b =>
      let b := (b + ((bs i) * (zs i))) in
      b
    ) b in
  let delta := (2 * b) in
  let epsilon_ := ((- b) * b) in
  (b, delta, epsilon_).

(* thermo/eos_mix.py, lines 11258-11262: TWUSRKMIX.__init__. (the statements that set b, delta; list paths, not numpy) *)
Definition TWUSRKMIX_init_params (zs : nat -> R) (N_ : nat) (bs : nat -> R) :=
  let b := 0 in
  let b :=
    loop N_ (fun i b =>
      let b := (b + ((bs i) * (zs i))) in
      b
    ) b in
  let delta := b in
  (b, delta).

(* thermo/eos_mix.py, lines 11270-11277: TWUSRKMIX._fast_init_specific. (the statements that set b, delta; list paths, not numpy) *)
Definition TWUSRKMIX_fast_params (N_ : nat) (bs : nat -> R) (zs : nat -> R) :=
  let b := 0 in
  let b :=
    loop N_ (fun i b =>
      let b := (b + ((bs i) * (zs i))) in
      b
    ) b in
  let delta := b in
  (b, delta).

(* thermo/eos_mix.py, lines 11422-11425: APISRKMIX.__init__. (the statements that set b, delta; list paths, not numpy) *)
Definition APISRKMIX_init_params (zs : nat -> R) (N_ : nat) (bs : nat -> R) :=
  let b := 0 in
  let b :=
    loop N_ (fun i b =>
      let b := (b + ((bs i) * (zs i))) in
      b
    ) b in
  let delta := b in
  let b := delta in
  (b, delta).

(* thermo/eos_mix.py, lines 11436-11436: APISRKMIX._fast_init_specific. (the statements that set b, delta; list paths, not numpy) *)
Definition APISRKMIX_fast_params (bs : nat -> R) (N_ : nat) (zs : nat -> R) :=
  let b := (rsum N_ (fun k0_ => let bi := bs k0_ in let zi := zs k0_ in (bi * zi))) in
  let delta := b in
  (b, delta).

(* thermo/eos_mix.py, lines 2451-2470: GCEOSMIX._a_alpha_j_rows. *)
Definition GCEOSMIX_a_alpha_j_rows (zs : nat -> R) (N_ : nat) (a_alpha_ijs : nat -> nat -> R) : nat -> R :=
  let zs := zs in
  let N_ := N_ in
  let a_alpha_ijs := a_alpha_ijs in
  let a_alpha_j_rows := (fun _ => 0) in
  let a_alpha_j_rows :=
    loop N_ (fun i a_alpha_j_rows =>
      let l := (a_alpha_ijs i) in
      let a_alpha_j_rows :=
        loop i (fun j a_alpha_j_rows =>
          let a_alpha_j_rows := upd a_alpha_j_rows j ((a_alpha_j_rows j) + ((zs i) * (l j))) in
          let a_alpha_j_rows := upd a_alpha_j_rows i ((a_alpha_j_rows i) + ((zs j) * (l j))) in
          a_alpha_j_rows
        ) a_alpha_j_rows in
      let a_alpha_j_rows := upd a_alpha_j_rows i ((a_alpha_j_rows i) + ((zs i) * (l i))) in
      a_alpha_j_rows
    ) a_alpha_j_rows in
  a_alpha_j_rows.

(* thermo/eos_mix.py, lines 2599-2625: GCEOSMIX._da_alpha_dT_j_rows. *)
Definition GCEOSMIX_da_alpha_dT_j_rows (zs : nat -> R) (N_ : nat) (vectorized : R) (da_alpha_dT_ijs : nat -> nat -> R) : nat -> R :=
  let zs := zs in
  let N_ := N_ in
  let vectorized := vectorized in
  let da_alpha_dT_ijs := da_alpha_dT_ijs in
  let da_alpha_dT_j_rows := (fun _ => 0) in
  let da_alpha_dT_j_rows :=
    loop N_ (fun i da_alpha_dT_j_rows =>
      let l := (da_alpha_dT_ijs i) in
      let da_alpha_dT_j_rows :=
        loop i (fun j da_alpha_dT_j_rows =>
          let da_alpha_dT_j_rows := upd da_alpha_dT_j_rows j ((da_alpha_dT_j_rows j) + ((zs i) * (l j))) in
          let da_alpha_dT_j_rows := upd da_alpha_dT_j_rows i ((da_alpha_dT_j_rows i) + ((zs j) * (l j))) in
          da_alpha_dT_j_rows
        ) da_alpha_dT_j_rows in
      let da_alpha_dT_j_rows := upd da_alpha_dT_j_rows i ((da_alpha_dT_j_rows i) + ((zs i) * (l i))) in
      da_alpha_dT_j_rows
    ) da_alpha_dT_j_rows in
  da_alpha_dT_j_rows.

(* thermo/eos_mix.py, lines 2628-2653: GCEOSMIX._d2a_alpha_dT2_j_rows. *)
Definition GCEOSMIX_d2a_alpha_dT2_j_rows (d2a_alpha_dT2_ijs : nat -> nat -> R) (N_ : nat) (vectorized : R) (zs : nat -> R) : nat -> R :=
  let d2a_alpha_dT2_ijs := d2a_alpha_dT2_ijs in
  let N_ := N_ in
  let vectorized := vectorized in
  let zs := zs in
  let d2a_alpha_dT2_j_rows := (fun _ => 0) in
  let d2a_alpha_dT2_j_rows :=
    loop N_ (fun i d2a_alpha_dT2_j_rows =>
      let l := (d2a_alpha_dT2_ijs i) in
      let d2a_alpha_dT2_j_rows :=
        loop i (fun j d2a_alpha_dT2_j_rows =>
          let d2a_alpha_dT2_j_rows := upd d2a_alpha_dT2_j_rows j ((d2a_alpha_dT2_j_rows j) + ((zs i) * (l j))) in
          let d2a_alpha_dT2_j_rows := upd d2a_alpha_dT2_j_rows i ((d2a_alpha_dT2_j_rows i) + ((zs j) * (l j))) in
          d2a_alpha_dT2_j_rows
        ) d2a_alpha_dT2_j_rows in
      let d2a_alpha_dT2_j_rows := upd d2a_alpha_dT2_j_rows i ((d2a_alpha_dT2_j_rows i) + ((zs i) * (l i))) in
      d2a_alpha_dT2_j_rows
    ) d2a_alpha_dT2_j_rows in
  d2a_alpha_dT2_j_rows.

(* thermo/eos_mix.py, lines 2658-2675: GCEOSMIX.db_dzs. *)
Definition GCEOSMIX_db_dzs (bs : nat -> R) : nat -> R :=
  bs.

(* thermo/eos_mix.py, lines 2678-2699: GCEOSMIX.db_dns. *)
Definition GCEOSMIX_db_dns (b : R) (bs : nat -> R) (N_ : nat) : nat -> R :=
  let b := b in
  (fun k0_ => let bi := bs k0_ in (bi - b)).

(* thermo/eos_mix.py, lines 2702-2719: GCEOSMIX.dnb_dns. *)
Definition GCEOSMIX_dnb_dns (bs : nat -> R) : nat -> R :=
  bs.

(* thermo/eos_mix.py, lines 2722-2742: GCEOSMIX.d2b_dzizjs. *)
Definition GCEOSMIX_d2b_dzizjs (N_ : nat) : nat -> nat -> R :=
  let N_ := N_ in
  (fun i => (fun _ => 0)).

(* thermo/eos_mix.py, lines 2886-2908: GCEOSMIX.da_alpha_dzs. *)
Definition GCEOSMIX_da_alpha_dzs (a_alpha_j_rows : nat -> R) (N_ : nat) : nat -> R :=
  let a_alpha_j_rows := a_alpha_j_rows in
  (fun k0_ => let i := a_alpha_j_rows k0_ in (i + i)).

(* thermo/eos_mix.py, lines 2911-2934: GCEOSMIX.da_alpha_dns. *)
Definition GCEOSMIX_da_alpha_dns (a_alpha_j_rows : nat -> R) (a_alpha : R) (N_ : nat) : nat -> R :=
  let a_alpha_j_rows := a_alpha_j_rows in
  let a_alpha_n_2 := ((- 2) * a_alpha) in
  (fun k0_ => let t := a_alpha_j_rows k0_ in ((2 * t) + a_alpha_n_2)).

(* thermo/eos_mix.py, lines 2937-2960: GCEOSMIX.dna_alpha_dns. *)
Definition GCEOSMIX_dna_alpha_dns (a_alpha_j_rows : nat -> R) (a_alpha : R) (N_ : nat) : nat -> R :=
  let a_alpha_j_rows := a_alpha_j_rows in
  let a_alpha := a_alpha in
  (fun k0_ => let t := a_alpha_j_rows k0_ in ((t + t) - a_alpha)).

(* thermo/eos_mix.py, lines 2963-2983: GCEOSMIX.d2a_alpha_dzizjs. *)
Definition GCEOSMIX_d2a_alpha_dzizjs (a_alpha_ijs : nat -> nat -> R) (N_ : nat) : nat -> nat -> R :=
  let a_alpha_ijs := a_alpha_ijs in
  (fun k0_ => let row := a_alpha_ijs k0_ in (fun k1_ => let i := row k1_ in (i + i))).

(* thermo/eos_mix.py, lines 2986-3039: GCEOSMIX.d2a_alpha_dninjs. *)
Definition GCEOSMIX_d2a_alpha_dninjs (a_alpha_j_rows : nat -> R) (a_alpha : R) (a_alpha_ijs : nat -> nat -> R) (N_ : nat) (zs : nat -> R) : nat -> nat -> R :=
  let a_alpha_j_rows := a_alpha_j_rows in
  let a_alpha := a_alpha in
  let a_alpha_ijs := a_alpha_ijs in
  let N_ := N_ in
  let zs := zs in
  let a_alpha3 := (3 * a_alpha) in
  let hessian := (fun u_ => (fun _ => 0)) in
  let hessian :=
    loop N_ (fun i hessian =>
      let hessian :=
        loop (i + 1%nat)%nat (fun j hessian =>
          let term :=
            if (i =? j)%nat then
            let term := (2 * (a_alpha_j_rows i)) in
            term
            else
            let term := 0 in
            let term :=
              loop N_ (fun k term =>
                let term := (term + ((zs k) * ((a_alpha_ijs i k) + (a_alpha_ijs j k)))) in
                term
              ) term in
            term
          in
          let hessian := updm hessian j i (2 * ((a_alpha3 + (a_alpha_ijs i j)) - (2 * term))) in
          let hessian := updm hessian i j (2 * ((a_alpha3 + (a_alpha_ijs i j)) - (2 * term))) in
          hessian
        ) hessian in
      hessian
    ) hessian in
  hessian.

(* thermo/eos_mix.py, lines 3108-3133: GCEOSMIX.da_alpha_dT_dzs. *)
Definition GCEOSMIX_da_alpha_dT_dzs (da_alpha_dT_j_rows : nat -> R) (N_ : nat) : nat -> R :=
  let da_alpha_dT_j_rows := da_alpha_dT_j_rows in
  (fun k0_ => let i := da_alpha_dT_j_rows k0_ in (i + i)).

(* thermo/eos_mix.py, lines 3136-3163: GCEOSMIX.da_alpha_dT_dns. *)
Definition GCEOSMIX_da_alpha_dT_dns (da_alpha_dT_j_rows : nat -> R) (da_alpha_dT : R) (N_ : nat) : nat -> R :=
  let da_alpha_dT_j_rows := da_alpha_dT_j_rows in
  let da_alpha_dT := da_alpha_dT in
  (fun k0_ => let t := da_alpha_dT_j_rows k0_ in (2 * (t - da_alpha_dT))).

(* thermo/eos_mix.py, lines 3166-3193: GCEOSMIX.dna_alpha_dT_dns. *)
Definition GCEOSMIX_dna_alpha_dT_dns (da_alpha_dT_j_rows : nat -> R) (da_alpha_dT : R) (N_ : nat) : nat -> R :=
  let da_alpha_dT_j_rows := da_alpha_dT_j_rows in
  let da_alpha_dT := da_alpha_dT in
  (fun k0_ => let t := da_alpha_dT_j_rows k0_ in ((t + t) - da_alpha_dT)).

(* thermo/eos_mix.py, lines 3196-3219: GCEOSMIX.d2a_alpha_dT2_dzs. *)
Definition GCEOSMIX_d2a_alpha_dT2_dzs (d2a_alpha_dT2_j_rows : nat -> R) (N_ : nat) : nat -> R :=
  let d2a_alpha_dT2_j_rows := d2a_alpha_dT2_j_rows in
  (fun k0_ => let i := d2a_alpha_dT2_j_rows k0_ in (i + i)).

(* thermo/eos_mix.py, lines 3222-3247: GCEOSMIX.d2a_alpha_dT2_dns. *)
Definition GCEOSMIX_d2a_alpha_dT2_dns (d2a_alpha_dT2_j_rows : nat -> R) (d2a_alpha_dT2 : R) (N_ : nat) : nat -> R :=
  let d2a_alpha_dT2_j_rows := d2a_alpha_dT2_j_rows in
  let d2a_alpha_dT2 := d2a_alpha_dT2 in
  (fun k0_ => let t := d2a_alpha_dT2_j_rows k0_ in (2 * (t - d2a_alpha_dT2))).

(* thermo/eos_mix.py, lines 3065-3104: GCEOSMIX.d3a_alpha_dninjnks. *)
Definition GCEOSMIX_d3a_alpha_dninjnks (a_alpha : R) (a_alpha_ijs : nat -> nat -> R) (N_ : nat) (zs : nat -> R) : nat -> nat -> nat -> R :=
  let a_alpha := a_alpha in
  let a_alpha_ijs := a_alpha_ijs in
  let N_ := N_ in
  let zs := zs in
  let a_alpha6 := ((- 6) * a_alpha) in
  let matrix := (fun u_ => (fun u_ => (fun _ => 0))) in
  let matrix :=
    loop N_ (fun i matrix =>
      let matrix :=
        loop N_ (fun j matrix =>
          let matrix :=
            loop N_ (fun k matrix =>
              let mid := (((a_alpha_ijs i j) + (a_alpha_ijs i k)) + (a_alpha_ijs j k)) in
              let last := (rsum N_ (fun m => ((zs m) * (((a_alpha_ijs i m) + (a_alpha_ijs j m)) + (a_alpha_ijs k m))))) in
              let ele := (4 * ((a_alpha6 - mid) + (3 * last))) in
              let matrix := updt matrix i j k ele in
              matrix
            ) matrix in
          matrix
        ) matrix in
      matrix
    ) matrix in
  matrix.

(* thermo/eos_mix.py, lines 2745-2776: GCEOSMIX.d2b_dninjs (list path: rows built with append, entry [i][j] = bb - bs[i] - bs[j]). *)
Definition GCEOSMIX_d2b_dninjs (b : R) (bs : nat -> R) : nat -> nat -> R :=
  let bb := 2 * b in
  fun i j => bb - bs i - bs j.

(* thermo/eos_mix.py, lines 2801-2840: GCEOSMIX.d3b_dninjnks (list path: nested lists built with append). *)
Definition GCEOSMIX_d3b_dninjnks (b : R) (bs : nat -> R) : nat -> nat -> nat -> R :=
  let n6b := - 6 * b in
  let bs2 := fun i => bs i + bs i in
  fun i j k => let base := n6b + bs2 i + bs2 j in base + bs2 k.

(* thermo/eos_mix.py, lines 5698-5715: EpsilonZeroMixingRules.depsilon_dzs. *)
Definition EpsilonZeroMixingRules_depsilon_dzs  : nat -> R :=
  (fun _ => 0).

(* thermo/eos_mix.py, lines 5718-5735: EpsilonZeroMixingRules.depsilon_dns. *)
Definition EpsilonZeroMixingRules_depsilon_dns  : nat -> R :=
  (fun _ => 0).

(* thermo/eos_mix.py, lines 5738-5756: EpsilonZeroMixingRules.d2epsilon_dzizjs. *)
Definition EpsilonZeroMixingRules_d2epsilon_dzizjs (N_ : nat) : nat -> nat -> R :=
  let N_ := N_ in
  (fun i => (fun _ => 0)).

(* thermo/eos_mix.py, lines 5759-5777: EpsilonZeroMixingRules.d2epsilon_dninjs. *)
Definition EpsilonZeroMixingRules_d2epsilon_dninjs (N_ : nat) : nat -> nat -> R :=
  let N_ := N_ in
  (fun i => (fun _ => 0)).

(* thermo/eos_mix.py, lines 5780-5800: EpsilonZeroMixingRules.d3epsilon_dninjnks. *)
Definition EpsilonZeroMixingRules_d3epsilon_dninjnks (N_ : nat) : nat -> nat -> nat -> R :=
  let N_ := N_ in
  (fun u_ => (fun u_ => (fun _ => 0))).

(* thermo/eos_mix.py, lines 6653-6670: RKMIX.ddelta_dzs. *)
Definition RKMIX_ddelta_dzs (bs : nat -> R) : nat -> R :=
  bs.

(* thermo/eos_mix.py, lines 6673-6691: RKMIX.ddelta_dns. *)
Definition RKMIX_ddelta_dns (b : R) (bs : nat -> R) (N_ : nat) : nat -> R :=
  let b := b in
  (fun k0_ => let bi := bs k0_ in (bi - b)).

(* thermo/eos_mix.py, lines 6694-6712: RKMIX.d2delta_dzizjs. *)
Definition RKMIX_d2delta_dzizjs (N_ : nat) : nat -> nat -> R :=
  let N_ := N_ in
  (fun i => (fun _ => 0)).

(* thermo/eos_mix.py, lines 6715-6732: RKMIX.d2delta_dninjs. *)
Definition RKMIX_d2delta_dninjs (d2b_dninjs : nat -> nat -> R) : nat -> nat -> R :=
  d2b_dninjs.

(* thermo/eos_mix.py, lines 6735-6756: RKMIX.d3delta_dninjnks. *)
Definition RKMIX_d3delta_dninjnks (N_ : nat) (b : R) (bs : nat -> R) : nat -> nat -> nat -> R :=
  let N_ := N_ in
  let out := (fun u_ => (fun u_ => (fun _ => 0))) in
  (RK_d3delta_dninjnks b bs N_ out).

(* thermo/eos_mix.py, lines 7561-7579: PRMIX.ddelta_dzs. *)
Definition PRMIX_ddelta_dzs (N_ : nat) (bs : nat -> R) : nat -> R :=
  let N_ := N_ in
  (PR_ddelta_dzs bs N_ (fun _ => 0)).

(* thermo/eos_mix.py, lines 7582-7600: PRMIX.ddelta_dns. *)
Definition PRMIX_ddelta_dns (N_ : nat) (bs : nat -> R) (b : R) : nat -> R :=
  let N_ := N_ in
  (PR_ddelta_dns bs b N_ (fun _ => 0)).

(* thermo/eos_mix.py, lines 7603-7621: PRMIX.d2delta_dzizjs. *)
Definition PRMIX_d2delta_dzizjs (N_ : nat) : nat -> nat -> R :=
  let N_ := N_ in
  (fun i => (fun _ => 0)).

(* thermo/eos_mix.py, lines 7624-7643: PRMIX.d2delta_dninjs. *)
Definition PRMIX_d2delta_dninjs (N_ : nat) (b : R) (bs : nat -> R) : nat -> nat -> R :=
  let N_ := N_ in
  let out := (fun u_ => (fun _ => 0)) in
  (PR_d2delta_dninjs b bs N_ out).

(* thermo/eos_mix.py, lines 7646-7667: PRMIX.d3delta_dninjnks. *)
Definition PRMIX_d3delta_dninjnks (N_ : nat) (b : R) (bs : nat -> R) : nat -> nat -> nat -> R :=
  let N_ := N_ in
  let out := (fun u_ => (fun u_ => (fun _ => 0))) in
  (PR_d3delta_dninjnks b bs N_ out).

(* thermo/eos_mix.py, lines 7670-7688: PRMIX.depsilon_dzs. *)
Definition PRMIX_depsilon_dzs (N_ : nat) (b : R) (bs : nat -> R) : nat -> R :=
  let N_ := N_ in
  (PR_depsilon_dzs b bs N_ (fun _ => 0)).

(* thermo/eos_mix.py, lines 7691-7709: PRMIX.depsilon_dns. *)
Definition PRMIX_depsilon_dns (N_ : nat) (b : R) (bs : nat -> R) : nat -> R :=
  let N_ := N_ in
  (PR_depsilon_dns b bs N_ (fun _ => 0)).

(* thermo/eos_mix.py, lines 7712-7731: PRMIX.d2epsilon_dzizjs. *)
Definition PRMIX_d2epsilon_dzizjs (N_ : nat) (b : R) (bs : nat -> R) : nat -> nat -> R :=
  let N_ := N_ in
  let out := (fun u_ => (fun _ => 0)) in
  (PR_d2epsilon_dzizjs b bs N_ out).

(* thermo/eos_mix.py, lines 7734-7754: PRMIX.d2epsilon_dninjs. *)
Definition PRMIX_d2epsilon_dninjs (N_ : nat) (b : R) (bs : nat -> R) : nat -> nat -> R :=
  let N_ := N_ in
  let out := (fun u_ => (fun _ => 0)) in
  (PR_d2epsilon_dninjs b bs N_ out).

(* thermo/eos_mix.py, lines 7759-7781: PRMIX.d3epsilon_dninjnks. *)
Definition PRMIX_d3epsilon_dninjnks (N_ : nat) (b : R) (bs : nat -> R) : nat -> nat -> nat -> R :=
  let N_ := N_ in
  let out := (fun u_ => (fun u_ => (fun _ => 0))) in
  (PR_d3epsilon_dninjnks b bs N_ out).

(* thermo/eos_mix.py, lines 7983-8003: PRMIXTranslated.ddelta_dzs. *)
Definition PRMIXTranslated_ddelta_dzs (N_ : nat) (b0s : nat -> R) (cs : nat -> R) : nat -> R :=
  let N_ := N_ in
  (PR_translated_ddelta_dzs b0s cs N_ (fun _ => 0)).

(* thermo/eos_mix.py, lines 8010-8029: PRMIXTranslated.ddelta_dns. *)
Definition PRMIXTranslated_ddelta_dns (N_ : nat) (b0s : nat -> R) (cs : nat -> R) (delta : R) : nat -> R :=
  let N_ := N_ in
  (PR_translated_ddelta_dns b0s cs delta N_ (fun _ => 0)).

(* thermo/eos_mix.py, lines 8033-8053: PRMIXTranslated.d2delta_dninjs. *)
Definition PRMIXTranslated_d2delta_dninjs (N_ : nat) (b0s : nat -> R) (cs : nat -> R) (b : R) (c : R) (delta : R) : nat -> nat -> R :=
  let N_ := N_ in
  let out := (fun u_ => (fun _ => 0)) in
  (PR_translated_d2delta_dninjs b0s cs b c delta N_ out).

(* thermo/eos_mix.py, lines 8056-8079: PRMIXTranslated.d3delta_dninjnks. *)
Definition PRMIXTranslated_d3delta_dninjnks (N_ : nat) (b0s : nat -> R) (cs : nat -> R) (delta : R) : nat -> nat -> nat -> R :=
  let N_ := N_ in
  let out := (fun u_ => (fun u_ => (fun _ => 0))) in
  (PR_translated_d3delta_dninjnks b0s cs delta N_ out).

(* thermo/eos_mix.py, lines 8082-8102: PRMIXTranslated.depsilon_dzs. *)
Definition PRMIXTranslated_depsilon_dzs (N_ : nat) (c : R) (b : R) (b0s : nat -> R) (cs : nat -> R) : nat -> R :=
  let N_ := N_ in
  (PR_translated_depsilon_dzs c b b0s cs N_ (fun _ => 0)).

(* thermo/eos_mix.py, lines 8105-8126: PRMIXTranslated.depsilon_dns. *)
Definition PRMIXTranslated_depsilon_dns (c : R) (b : R) (N_ : nat) (b0s : nat -> R) (cs : nat -> R) : nat -> R :=
  let c := c in
  let b := b in
  let N_ := N_ in
  let b0s := b0s in
  let cs := cs in
  (PR_translated_depsilon_dns b c b0s cs N_ (fun _ => 0)).

(* thermo/eos_mix.py, lines 8129-8148: PRMIXTranslated.d2epsilon_dzizjs. *)
Definition PRMIXTranslated_d2epsilon_dzizjs (N_ : nat) (b0s : nat -> R) (cs : nat -> R) : nat -> nat -> R :=
  let N_ := N_ in
  let out := (fun u_ => (fun _ => 0)) in
  (PR_translated_d2epsilon_dzizjs b0s cs N_ out).

(* thermo/eos_mix.py, lines 8154-8178: PRMIXTranslated.d2epsilon_dninjs. *)
Definition PRMIXTranslated_d2epsilon_dninjs (N_ : nat) (b0s : nat -> R) (cs : nat -> R) (b : R) (c : R) : nat -> nat -> R :=
  let N_ := N_ in
  let out := (fun u_ => (fun _ => 0)) in
  (PR_translated_d2epsilon_dninjs b0s cs b c N_ out).

(* thermo/eos_mix.py, lines 8181-8212: PRMIXTranslated.d3epsilon_dninjnks. *)
Definition PRMIXTranslated_d3epsilon_dninjnks (N_ : nat) (b0s : nat -> R) (cs : nat -> R) (b : R) (c : R) (epsilon_ : R) : nat -> nat -> nat -> R :=
  let N_ := N_ in
  let out := (fun u_ => (fun u_ => (fun _ => 0))) in
  (PR_translated_d3epsilon_dninjnks b0s cs b c epsilon_ N_ out).

(* thermo/eos_mix.py, lines 9116-9135: SRKMIXTranslated.ddelta_dzs. *)
Definition SRKMIXTranslated_ddelta_dzs (b0s : nat -> R) (cs : nat -> R) (N_ : nat) : nat -> R :=
  let b0s := b0s in
  let cs := cs in
  (fun i => ((2 * (cs i)) + (b0s i))).

(* thermo/eos_mix.py, lines 9142-9161: SRKMIXTranslated.ddelta_dns. *)
Definition SRKMIXTranslated_ddelta_dns (N_ : nat) (b0s : nat -> R) (cs : nat -> R) (delta : R) : nat -> R :=
  let N_ := N_ in
  (SRK_translated_ddelta_dns b0s cs delta N_ (fun _ => 0)).

(* thermo/eos_mix.py, lines 9164-9184: SRKMIXTranslated.d2delta_dninjs. *)
Definition SRKMIXTranslated_d2delta_dninjs (N_ : nat) (b0s : nat -> R) (cs : nat -> R) (b : R) (c : R) (delta : R) : nat -> nat -> R :=
  let N_ := N_ in
  let out := (fun u_ => (fun _ => 0)) in
  (SRK_translated_d2delta_dninjs b0s cs b c delta N_ out).

(* thermo/eos_mix.py, lines 9187-9210: SRKMIXTranslated.d3delta_dninjnks. *)
Definition SRKMIXTranslated_d3delta_dninjnks (N_ : nat) (b0s : nat -> R) (cs : nat -> R) (b : R) (c : R) (delta : R) : nat -> nat -> nat -> R :=
  let N_ := N_ in
  let out := (fun u_ => (fun u_ => (fun _ => 0))) in
  (SRK_translated_d3delta_dninjnks b0s cs b c delta N_ out).

(* thermo/eos_mix.py, lines 9213-9233: SRKMIXTranslated.depsilon_dzs. *)
Definition SRKMIXTranslated_depsilon_dzs (N_ : nat) (b0s : nat -> R) (cs : nat -> R) (b : R) (c : R) : nat -> R :=
  let N_ := N_ in
  let out := (fun _ => 0) in
  (SRK_translated_depsilon_dzs b0s cs b c N_ out).

(* thermo/eos_mix.py, lines 9236-9256: SRKMIXTranslated.depsilon_dns. *)
Definition SRKMIXTranslated_depsilon_dns (N_ : nat) (b : R) (c : R) (b0s : nat -> R) (cs : nat -> R) : nat -> R :=
  let N_ := N_ in
  (SRK_translated_depsilon_dns b c b0s cs N_ (fun _ => 0)).

(* thermo/eos_mix.py, lines 9259-9278: SRKMIXTranslated.d2epsilon_dzizjs. *)
Definition SRKMIXTranslated_d2epsilon_dzizjs (N_ : nat) (b0s : nat -> R) (cs : nat -> R) (b : R) (c : R) : nat -> nat -> R :=
  let N_ := N_ in
  let out := (fun u_ => (fun _ => 0)) in
  (SRK_translated_d2epsilon_dzizjs b0s cs b c N_ out).

(* thermo/eos_mix.py, lines 9283-9303: SRKMIXTranslated.d2epsilon_dninjs. *)
Definition SRKMIXTranslated_d2epsilon_dninjs (N_ : nat) (b0s : nat -> R) (cs : nat -> R) (b : R) (c : R) : nat -> nat -> R :=
  let N_ := N_ in
  let out := (fun u_ => (fun _ => 0)) in
  (SRK_translated_d2epsilon_dninjs b0s cs b c N_ out).

(* thermo/eos_mix.py, lines 9306-9338: SRKMIXTranslated.d3epsilon_dninjnks. *)
Definition SRKMIXTranslated_d3epsilon_dninjnks (N_ : nat) (b0s : nat -> R) (cs : nat -> R) (b : R) (c : R) (epsilon_ : R) : nat -> nat -> nat -> R :=
  let N_ := N_ in
  let out := (fun u_ => (fun u_ => (fun _ => 0))) in
  (SRK_translated_d3epsilon_dninjnks b0s cs b c epsilon_ N_ out).

(* thermo/eos_mix.py, lines 10348-10365: VDWMIX.ddelta_dzs. *)
Definition VDWMIX_ddelta_dzs  : nat -> R :=
  (fun _ => 0).

(* thermo/eos_mix.py, lines 10368-10385: VDWMIX.ddelta_dns. *)
Definition VDWMIX_ddelta_dns  : nat -> R :=
  (fun _ => 0).

(* thermo/eos_mix.py, lines 10389-10407: VDWMIX.d2delta_dzizjs. *)
Definition VDWMIX_d2delta_dzizjs (N_ : nat) : nat -> nat -> R :=
  let N_ := N_ in
  (fun i => (fun _ => 0)).

(* thermo/eos_mix.py, lines 10410-10428: VDWMIX.d2delta_dninjs. *)
Definition VDWMIX_d2delta_dninjs (N_ : nat) : nat -> nat -> R :=
  let N_ := N_ in
  (fun i => (fun _ => 0)).

(* thermo/eos_mix.py, lines 10431-10451: VDWMIX.d3delta_dninjnks. *)
Definition VDWMIX_d3delta_dninjnks (N_ : nat) : nat -> nat -> nat -> R :=
  let N_ := N_ in
  (fun u_ => (fun u_ => (fun _ => 0))).
