(* thermo/flash/flash_utils.py: sequential_substitution_2P (lines 153-339), sequential_substitution_2P_functional (341-410),
   sequential_substitution_NP (413-498); thermo/flash/flash_vl.py: FlashVL.sequential_substitution_2P (lines 708-731).
   Compositions are functions of the component index, N is len(zs). Floats are reals: exp does not overflow, so the trunc_exp
   fallbacks (lines 191-192, 450-451) and trunc_exp itself (line 358) are exp. The external Rachford-Rice solvers flash_inner_loop
   and Rachford_Rice_solutionN (package chemicals) are section variables; they may raise. The V specification is None. *)
From Coq Require Import Reals List Bool Arith.
From Verif Require Import Base.
Import ListNotations.
Open Scope R_scope.

Definition vec := nat -> R.

(* a phase object as the substitutions use it: its T, P and zs attributes and the log fugacity coefficients its model gives
   (phases/phase.py: lnphis_at_zs(zs) evaluates the model at the object's T and P) *)
Record sphase := { s_T : R; s_P : R; s_zs : vec; s_lnphis : R -> R -> vec -> vec }.
(* phase.to_TP_zs(T, P, zs) and phase.to(zs, T, P, V=None): the same model at other conditions *)
Definition to_TP_zs (p : sphase) (T P : R) (zs : vec) : sphase := {| s_T := T; s_P := P; s_zs := zs; s_lnphis := s_lnphis p |}.
(* phase.lnphis_at_zs *)
Definition lnphis_at_zs (p : sphase) (zs : vec) : vec := s_lnphis p (s_T p) (s_P p) zs.
(* lines 172-175: if phase.T != T or phase.P != P: phase = phase.to_TP_zs(T, P, zs) *)
Definition at_TP (p : sphase) (T P : R) (zs : vec) : sphase :=
  if (negb (Reqb (s_T p) T) || negb (Reqb (s_P p) P))%bool then to_TP_zs p T P zs else p.

(* what a substitution does; V_over_F is None only when the caller's guess was None and is returned unchanged *)
Inductive ss_error := Oscillation | Trivial | Unconverged | Inner_failed.
Inductive ss_outcome := Returns (V : option R) (xs ys : vec) (l g : sphase) (iteration : nat) (err : R) | Fails (e : ss_error).

Section SS.
Variable N : nat.
(* flash_inner_loop(zs, Ks, guess): V_over_F, xs, ys or an exception *)
Variable inner : vec -> vec -> option R -> option (R * vec * vec).

(* lines 272-281 (and 282-290, 362-380): if some entry is negative every entry becomes its absolute value over their sum *)
Definition make_positive (v : vec) : vec :=
  if existsb (fun i => Rltb (v i) 0) (seq 0 N)
  then let sum_inv := 1 / loop N (fun j s => s + Rabs (v j)) 0 in fun i => Rabs (v i) * sum_inv
  else v.
(* lines 295-302 (382-388): the squared relative errors of K x / y, components with y = 0 left out *)
Definition ss_err (Ks xs ys : vec) : R :=
  loop N (fun i e => if Reqb (ys i) 0 then e else let err_i := Ks i * xs i / ys i - 1 in e + err_i * err_i) 0.
(* lines 316-318 (393-395) *)
Definition comp_difference (xs ys : vec) : R := loop N (fun i d => d + Rabs (xs i - ys i)) 0.
(* line 304 (390) *)
Definition cycling (err err1 err2 err3 : R) (error_increases : nat) : bool :=
  (Rltb 0 err && (Reqb err err1 || Reqb err err2 || Reqb err err3)) || Nat.ltb 3 error_increases.
(* lines 336-337 (406-407) *)
Definition count_increase (err err1 : R) (error_increases : nat) : nat :=
  if (negb (Reqb err1 0) && Rltb 20 (Rabs (err / err1)))%bool then S error_increases else error_increases.

(* sequential_substitution_2P, lines 177-339: the loop, from iteration number `iteration` with `fuel` iterations left *)
Fixpoint ss_2P_loop (fuel iteration : nat) (T P : R) (zs : vec) (liquid gas : sphase) (tol trivial_tol : R)
  (V : option R) (xs ys : vec) (err1 err2 err3 : R) (error_increases : nat) : ss_outcome :=
  match fuel with
  | O => Fails Unconverged
  | S fuel' =>
      let lnphis_g := lnphis_at_zs gas ys in
      let lnphis_l := lnphis_at_zs liquid xs in
      let Ks := fun i => exp (lnphis_l i - lnphis_g i) in
      match inner zs Ks V with
      | None => Fails Inner_failed
      | Some (V_new, xs_raw, ys_raw) =>
          let xs_new := make_positive xs_raw in
          let ys_new := make_positive ys_raw in
          let err := ss_err Ks xs ys in
          if cycling err err1 err2 err3 error_increases then Fails Oscillation
          else if Rltb (comp_difference xs_new ys_new) trivial_tol then Fails Trivial
          else if Rltb err tol then
            if Nat.eqb iteration 0
            then Returns (Some V_new) xs_new ys_new (to_TP_zs liquid T P xs_new) (to_TP_zs gas T P ys_new) iteration err
            else Returns V xs ys (to_TP_zs liquid T P xs) (to_TP_zs gas T P ys) iteration err
          else ss_2P_loop fuel' (S iteration) T P zs liquid gas tol trivial_tol (Some V_new) xs_new ys_new
                 err err1 err2 (count_increase err err1 error_increases)
      end
  end.

(* sequential_substitution_2P, lines 153-339 *)
Definition sequential_substitution_2P (T P : R) (zs xs_guess ys_guess : vec) (liquid_phase gas_phase : sphase)
  (maxiter : nat) (tol trivial_solution_tol : R) (V_over_F_guess : option R) : ss_outcome :=
  ss_2P_loop maxiter 0 T P zs (at_TP liquid_phase T P xs_guess) (at_TP gas_phase T P ys_guess) tol trivial_solution_tol
    V_over_F_guess xs_guess ys_guess 0 0 0 0.

(* sequential_substitution_2P_functional, lines 353-410; lnphis_direct(zs, args) evaluates the model the arguments came from.
   The trivial test (lines 393-398) is on xs and ys, not on the new compositions. *)
Inductive ssf_outcome := FReturns (V : option R) (xs ys : vec) (iteration : nat) (err : R) | FFails (e : ss_error).
Fixpoint ss_functional_loop (fuel iteration : nat) (zs : vec) (lnphi_l lnphi_g : vec -> vec) (tol trivial_tol : R)
  (V : option R) (xs ys : vec) (err1 err2 err3 : R) (error_increases : nat) : ssf_outcome :=
  match fuel with
  | O => FFails Unconverged
  | S fuel' =>
      let lnphis_g := lnphi_g ys in
      let lnphis_l := lnphi_l xs in
      let Ks := fun i => exp (lnphis_l i - lnphis_g i) in
      match inner zs Ks V with
      | None => FFails Inner_failed
      | Some (V_new, xs_raw, ys_raw) =>
          let xs_new := make_positive xs_raw in
          let ys_new := make_positive ys_raw in
          let err := ss_err Ks xs ys in
          if cycling err err1 err2 err3 error_increases then FFails Oscillation
          else if Rltb (comp_difference xs ys) trivial_tol then FFails Trivial
          else if Rltb err tol then
            if Nat.eqb iteration 0 then FReturns (Some V_new) xs_new ys_new iteration err else FReturns V xs ys iteration err
          else ss_functional_loop fuel' (S iteration) zs lnphi_l lnphi_g tol trivial_tol (Some V_new) xs_new ys_new
                 err err1 err2 (count_increase err err1 error_increases)
      end
  end.
Definition sequential_substitution_2P_functional (zs xs_guess ys_guess : vec) (lnphi_l lnphi_g : vec -> vec)
  (maxiter : nat) (tol trivial_solution_tol : R) (V_over_F_guess : option R) : ssf_outcome :=
  ss_functional_loop maxiter 0 zs lnphi_l lnphi_g tol trivial_solution_tol V_over_F_guess xs_guess ys_guess 0 0 0 0.

(* FlashVL.sequential_substitution_2P, flash_vl.py lines 708-731; `functional` is supports_lnphis_args *)
Definition flasher_ss_2P (functional : bool) (T P : R) (zs xs_guess ys_guess : vec) (liquid_phase gas_phase : sphase)
  (V_over_F_guess : option R) (maxiter : nat) (tol trivial_tol : R) : ss_outcome :=
  if functional then
    let liquid := at_TP liquid_phase T P xs_guess in
    let gas := at_TP gas_phase T P ys_guess in
    match sequential_substitution_2P_functional zs xs_guess ys_guess (lnphis_at_zs liquid) (lnphis_at_zs gas) maxiter tol
            trivial_tol V_over_F_guess with
    | FReturns V xs ys iteration err => Returns V xs ys (to_TP_zs liquid T P xs) (to_TP_zs gas T P ys) iteration err
    | FFails e => Fails e
    end
  else sequential_substitution_2P T P zs xs_guess ys_guess liquid_phase gas_phase maxiter tol trivial_tol V_over_F_guess.

(* sequential_substitution_NP, lines 413-498. Rachford_Rice_solutionN(zs, Ks, betas): the fractions and the compositions, the
   reference phase last. *)
Variable rr_N : vec -> list vec -> list R -> option (list R * list vec).

(* l[:-1] with l.insert(k, l[-1]) (lines 460-468): insert past the end appends *)
Definition move_last {A : Type} (k : nat) (d : A) (l : list A) : list A :=
  let h := removelast l in firstn k h ++ last l d :: skipn k h.
(* [f(i) for i in range(n) if i != ref] *)
Definition others (n ref : nat) : list nat := filter (fun i => negb (Nat.eqb i ref)) (seq 0 n).

Inductive np_outcome := NReturns (betas : list R) (compositions : list vec) (phases : list sphase) (iteration : nat) (err : R) | NFails (e : ss_error).

Definition no_phase : sphase := {| s_T := 0; s_P := 0; s_zs := fun _ => 0; s_lnphis := fun _ _ _ _ => 0 |}.
Definition no_comp : vec := fun _ => 0.

(* lines 470-477: the sum over the phases other than the reference *)
Fixpoint np_err (Ks comps : list vec) (comp_ref : vec) (e : R) : R :=
  match Ks, comps with
  | K :: Ks', ys :: comps' =>
      np_err Ks' comps' comp_ref
        (loop N (fun i e => if Reqb (ys i) 0 then e else let err_i := K i * comp_ref i / ys i - 1 in e + err_i * err_i) e)
  | _, _ => e
  end.

(* lines 435-498 *)
Fixpoint ss_NP_loop (fuel iteration : nat) (T P : R) (zs : vec) (phases : list sphase) (ref : nat) (tol : R)
  (betas : list R) (compositions compositions_K_order : list vec) (compositions_ref : vec) : np_outcome :=
  match fuel with
  | O => NFails Unconverged
  | S fuel' =>
      let n := length phases in
      let lnphis := map (fun i => lnphis_at_zs (nth i phases no_phase) (nth i compositions no_comp)) (seq 0 n) in
      let lnphis_ref := nth ref lnphis no_comp in
      let Ks := map (fun i => let lnphis_i := nth i lnphis no_comp in fun j => exp (lnphis_ref j - lnphis_i j)) (others n ref) in
      let beta_guesses := map (fun i => nth i betas 0) (others n ref) in
      match rr_N zs Ks beta_guesses with
      | None => NFails Inner_failed
      | Some (betas_raw, comps_raw) =>
          let betas_new := move_last ref 0 betas_raw in
          let compositions_ref_new := last comps_raw no_comp in
          let compositions_K_order_new := removelast comps_raw in
          let compositions_new := move_last ref no_comp comps_raw in
          let err := np_err Ks compositions_K_order compositions_ref 0 in
          if Rltb err tol
          then NReturns betas_new compositions_new
                 (map (fun i => to_TP_zs (nth i phases no_phase) T P (nth i compositions no_comp)) (seq 0 n)) iteration err
          else ss_NP_loop fuel' (S iteration) T P zs phases ref tol betas_new compositions_new compositions_K_order_new compositions_ref_new
      end
  end.

(* lines 429-431, in place on the caller's list *)
Definition move_phases (T P : R) (phases : list sphase) : list sphase := map (fun p => at_TP p T P (s_zs p)) phases.
(* lines 422-424, in place on the caller's list *)
Definition complete_betas (betas : list R) (phases : list sphase) : list R :=
  if Nat.ltb (length betas) (length phases) then betas ++ [1 - fold_left Rplus betas 0] else betas.

(* the outcome together with the caller's lists of fractions and of phases after the call *)
Definition sequential_substitution_NP (T P : R) (zs : vec) (compositions_guesses : list vec) (betas_guesses : list R)
  (phases : list sphase) (maxiter : nat) (tol : R) (ref : nat) : np_outcome * list R * list sphase :=
  let betas := complete_betas betas_guesses phases in
  let moved := move_phases T P phases in
  (ss_NP_loop maxiter 0 T P zs moved ref tol betas compositions_guesses
     (map (fun i => nth i compositions_guesses no_comp) (others (length phases) ref)) (nth ref compositions_guesses no_comp),
   betas, moved).
End SS.
