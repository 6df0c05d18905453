(* thermo/flash/flash_vl.py, FlashVL at given T and P: phases_at_TP_binary (lines 356-362), flash_TP_stability_test (656-680), flash_2P
   (734-776), flash_TPV (801-826). Phases, compositions, the substitutions and the stability test are those of Model_ss and
   Model_stability. The dictionary of convergence information is reduced to iterations and err. *)
From Coq Require Import Reals List Bool Arith.
From Verif Require Import Base Model_ss Model_stability.
Import ListNotations.
Open Scope R_scope.

(* the attributes of the flash object that these methods read (defaults: lines 244-272) *)
Record vl := {
  v_liquid : sphase; v_gas : sphase;
  v_G : sphase -> R;                              (* G_dep() if ideal_gas_basis, else G() *)
  v_named_l : sphase -> bool;                     (* phase.phase == 'l' *)
  v_fugacities : sphase -> vec;                   (* fugacities_lowest_Gibbs() *)
  v_lnphi_test : sphase -> vec -> vec;            (* lnphis_at_zs(zs, most_stable=True), or lnphis_direct on lnphis_args() *)
  v_guesses : R -> R -> vec -> list vec;          (* stab.incipient_guesses(T, P, zs) *)
  v_functional : bool;                            (* supports_lnphis_args *)
  v_stab_maxiter : nat; v_stab_xtol : R; v_stab_far : bool; v_stab_min : option R;
  v_tol : R; v_maxiter : nat; v_trivial : R;
  v_polish : bool; v_polish_VF : R; v_polish_tol : R; v_polish_maxiter : nat }.
(* what is returned: gas, liquids, betas, iterations and err; or the exception *)
Record flash_sln := { r_gas : option sphase; r_liquids : list sphase; r_betas : list R; r_iterations : nat; r_err : R }.
Inductive flash_failure := SS_error (e : ss_error) | Stability_error.
Inductive flash_outcome := Flashed (r : flash_sln) | Raises (e : flash_failure).

Section FlashTP.
Variable N : nat.
Variable inner : vec -> vec -> option R -> option (R * vec * vec).
Variable f : vl.

(* lines 748, 763, 677: ls, g = ([liquid], None) if min_phase is liquid else ([], gas), with betas [1.0] *)
Definition one_phase (liquid gas : sphase) (min_is_liquid : bool) (iterations : nat) (err : R) : flash_sln :=
  {| r_gas := if min_is_liquid then None else Some gas; r_liquids := if min_is_liquid then [liquid] else []; r_betas := [1]; r_iterations := iterations; r_err := err |}.

(* lines 753-774, the part after the successive substitution and its polishing; V_over_F is a number (a None would be a TypeError) *)
Definition split_result (LL min_is_liquid : bool) (V_over_F : R) (l g : sphase) (iteration : nat) (err : R) : flash_sln :=
  if LL then {| r_gas := None; r_liquids := [g; l]; r_betas := [V_over_F; 1 - V_over_F]; r_iterations := iteration; r_err := err |}
  else if min_is_liquid then {| r_gas := Some g; r_liquids := [l]; r_betas := [V_over_F; 1 - V_over_F]; r_iterations := iteration; r_err := err |}
  else {| r_gas := Some l; r_liquids := [g]; r_betas := [1 - V_over_F; 1 - (1 - V_over_F)]; r_iterations := iteration; r_err := err |}.

(* lines 734-776; min_phase is liquid or gas *)
Definition flash_2P (T P : R) (zs trial_zs appearing_zs : vec) (min_is_liquid : bool) (gas liquid : sphase) (V_over_F_guess : option R) (LL : bool) : flash_outcome :=
  let min_phase := if min_is_liquid then liquid else gas in
  let other_phase := if min_is_liquid then gas else liquid in
  match flasher_ss_2P N inner (v_functional f) T P zs trial_zs appearing_zs min_phase other_phase V_over_F_guess (v_maxiter f) (v_tol f) (v_trivial f) with
  | Fails Trivial => Flashed (one_phase liquid gas min_is_liquid 0 0)
  | Fails e => Raises (SS_error e)
  | Returns None _ _ _ _ _ _ => Raises Stability_error
  | Returns (Some V_over_F) xs ys l g iteration err =>
      let p := v_polish_VF f in
      if (Rltb V_over_F p || Rltb (1 - p) V_over_F)%bool then
        let checked := fun V l g iteration err =>
          if (Rltb V 0 || Rltb 1 V)%bool then Flashed (one_phase liquid gas min_is_liquid iteration err)
          else Flashed (split_result LL min_is_liquid V l g iteration err) in
        if ((Rltb (- p) V_over_F || Rltb (1 + p) V_over_F) && v_polish f)%bool then
          match flasher_ss_2P N inner (v_functional f) T P zs xs ys l g (Some V_over_F) (v_polish_maxiter f) (v_polish_tol f) (v_trivial f) with
          | Fails e => Raises (SS_error e)                      (* outside the try *)
          | Returns None _ _ _ _ _ _ => Raises Stability_error
          | Returns (Some V) _ _ l g iteration err => checked V l g iteration err
          end
        else checked V_over_F l g iteration err
      else Flashed (split_result LL min_is_liquid V_over_F l g iteration err)
  end.

(* lines 527-577 as called in line 673: min_phase and other_phase are already at T, P *)
Definition stability (T P : R) (zs : vec) (min_phase other_phase : sphase) : stab_outcome :=
  stability_test_Michelsen N
    {| o_skip := None; o_handle_iffy := false; o_lowest_dG := false; o_highest_comp_diff := v_stab_far f; o_min_comp_diff := v_stab_min f; o_all_solutions := false |}
    zs None
    (map (fun w => stability_iteration_Michelsen N inner P (s_zs min_phase) (v_fugacities f min_phase) w (v_lnphi_test f other_phase) (v_stab_maxiter f) (v_stab_xtol f))
       (v_guesses f T P zs)).

(* lines 664-669: which phase has the lower Gibbs energy *)
Definition min_is_liquid (liquid gas : sphase) : bool :=
  if Rltb (v_G f liquid) (v_G f gas) then true else if Reqb (v_G f liquid) (v_G f gas) then v_named_l f liquid else false.
(* lines 656-680, phases_ready=False *)
Definition flash_TP_stability_test (T P : R) (zs : vec) (liquid gas : sphase) (LL : bool) : flash_outcome :=
  let liquid := to_TP_zs liquid T P zs in
  let gas := to_TP_zs gas T P zs in
  let ml := min_is_liquid liquid gas in
  let min_phase := if ml then liquid else gas in
  let other_phase := if ml then gas else liquid in
  match stability T P zs min_phase other_phase with
  | Verdict true _ => Flashed (one_phase liquid gas ml 0 0)
  | Verdict false (Some s) => flash_2P T P zs (w_trial_zs s) (w_appearing_zs s) ml gas liquid None LL
  | Verdict false None | All _ | Type_error | Name_error => Raises Stability_error
  end.

(* lines 801-826 with T and P given. hot_start: beta_gas, liquid0.zs and gas.zs; None also for one that lacks a phase (the
   AttributeError is caught) *)
Definition flash_TPV (T P : R) (zs : vec) (hot_start : option (option R * vec * vec)) : flash_outcome :=
  let cold := flash_TP_stability_test T P zs (v_liquid f) (v_gas f) false in
  match hot_start with
  | None => cold
  | Some (VF_guess, xs, ys) =>
      match flasher_ss_2P N inner (v_functional f) T P zs xs ys (v_liquid f) (v_gas f) VF_guess (v_maxiter f) (v_tol f) (v_trivial f) with
      | Returns (Some V) _ _ l g iteration err =>
          if (Rleb 0 V && Rleb V 1)%bool then Flashed {| r_gas := Some g; r_liquids := [l]; r_betas := [V; 1 - V]; r_iterations := iteration; r_err := err |} else cold
      | _ => cold
      end
  end.
End FlashTP.
