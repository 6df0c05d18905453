(* The state of a flash result (thermo/equilibrium.py, EquilibriumState) and its bulk phases (thermo/bulk.py, Bulk and BulkSettings).
   A component list of length N is a function of the index; the lists of phases and phase fractions are lists. An exception is None. *)
From Coq Require Import Reals Arith List Bool String.
From Verif Require Import Base Model_pyerr Gen_phase.
Import ListNotations.
Open Scope R_scope.
Open Scope string_scope.

(* The methods of a phase without arguments that a bulk reads (thermo/bulk.py, lines 748-1716) *)
Inductive attr := aV | aCp | aH | aS | adH_dP | adS_dP | adS_dT | adG_dT | adG_dP | adU_dT | adU_dP | adA_dT | adA_dP | aH_reactive | aS_reactive
  | adP_dT | adP_dV | ad2P_dT2 | ad2P_dV2 | ad2P_dTdV | aisobaric_expansion | akappa | aJoule_Thomson | aspeed_of_sound | amu | ak | asigma
  | aTmc | aPmc | aVmc | aZmc | aH_dep | aS_dep | aG_min_criteria.
(* A phase: its mole fractions and the value of each method. Simplification: a phase is what its methods return. *)
Record phase := { p_zs : nat -> R; get : attr -> R }.
(* What the constants and correlations packages hold: molecular weights, reference liquid volumes, the atoms of each component, the integrals
   of the ideal gas heat capacities to T and their values *)
Record package := { N : nat; MWs : nat -> R; Vls : nat -> R; atomss : list (list (string * R)); CpI : nat -> R; CpIT : nat -> R; Cpig : nat -> R }.

(* Python sums: acc = 0.0; for ...: acc += ... *)
Definition psum (l : list R) : R := fold_left Rplus l 0.
Definition pwsum (ws xs : list R) : R := fold_left (fun acc p => acc + fst p * snd p) (combine ws xs) 0.
(* sum over components, for i in range(N): acc += zs[i]*xs[i] *)
Definition csum (n : nat) (zs xs : nat -> R) : R := loop n (fun i acc => acc + zs i * xs i) 0.

(* thermo/phases/phase.py, lines 4487-4517: Phase.MW; thermo/equilibrium.py, lines 996-1019: EquilibriumState.MW;
   thermo/bulk.py, lines 955-977: Bulk.MW. The three loops are the same. *)
Definition MW_of (K : package) (zs : nat -> R) : R := csum (N K) zs (MWs K).
(* thermo/equilibrium.py, lines 733-759: EquilibriumState.V_liquid_ref *)
Definition V_liquid_ref_of (K : package) (zs : nat -> R) : R := csum (N K) zs (Vls K).

(* thermo/bulk.py, lines 588-644: Bulk, the attributes given to __init__; phase_bulk is None, 'l' or 's' *)
Record bulk := { b_zs : nat -> R; b_phases : list phase; b_betas : list R; b_kind : option string }.
(* thermo/equilibrium.py, lines 263-343: the arguments of EquilibriumState.__init__ *)
Record state := { e_T : R; e_P : R; e_zs : nat -> R; e_gas : option phase; e_liquids : list phase; e_solids : list phase; e_betas : list R }.
(* lines 275-293 *)
Definition gas_count (s : state) : nat := match e_gas s with Some _ => 1 | None => 0 end.
Definition liquid_count (s : state) : nat := List.length (e_liquids s).
Definition solid_count (s : state) : nat := List.length (e_solids s).
Definition phase_count (s : state) : nat := (gas_count s + liquid_count s + solid_count s)%nat.
Definition phases (s : state) : list phase := match e_gas s with Some g => [g] ++ e_liquids s ++ e_solids s | None => e_liquids s ++ e_solids s end.
Definition gas_beta (s : state) : R := match gas_count s with O => 0 | _ => nth 0 (e_betas s) 0 end.
Definition liquids_betas (s : state) : list R := firstn (liquid_count s) (skipn (gas_count s) (e_betas s)).
Definition solids_betas (s : state) : list R := skipn (gas_count s + liquid_count s) (e_betas s).
(* lines 295-325: normalize divides by the sum (chemicals.utils.normalize) *)
Definition mixed_zs (n : nat) (betas : list R) (ps : list phase) : nat -> R :=
  let raw := fun i => pwsum betas (map (fun p => p_zs p i) ps) in
  fun i => raw i * / rsum n raw.
Definition overall_bulk (s : state) : bulk := {| b_zs := e_zs s; b_phases := phases s; b_betas := e_betas s; b_kind := None |}.
(* the liquid_bulk attribute: a Bulk of several liquids, the liquid itself when there is one, None when there is none *)
Inductive bulk_or_phase := IsBulk (b : bulk) | IsPhase (p : phase).
Definition liquid_bulk (K : package) (s : state) : option bulk_or_phase :=
  match e_liquids s with
  | [] => None
  | [l] => Some (IsPhase l)
  | ls => Some (IsBulk {| b_zs := mixed_zs (N K) (liquids_betas s) ls; b_phases := ls; b_betas := liquids_betas s; b_kind := Some "l" |})
  end.
Definition solid_bulk (K : package) (s : state) : option bulk :=
  match e_solids s with
  | [] => None
  | ss => Some {| b_zs := mixed_zs (N K) (solids_betas s) ss; b_phases := ss; b_betas := solids_betas s; b_kind := Some "s" |}
  end.

(* thermo/bulk.py, lines 651-662: beta *)
Definition Bulk_beta (b : bulk) : R := psum (b_betas b).
(* lines 665-746: betas_mass, betas_volume, betas_volume_liquid_ref *)
Definition weight_fractions (betas xs : list R) : list R :=
  let tot := pwsum xs betas in
  let tot_inv := 1 / tot in
  map (fun p => fst p * snd p * tot_inv) (combine betas xs).
Definition Bulk_betas_mass (K : package) (b : bulk) : list R := weight_fractions (b_betas b) (map (fun p => MW_of K (p_zs p)) (b_phases b)).
Definition Bulk_betas_volume (b : bulk) : list R := weight_fractions (b_betas b) (map (fun p => get p aV) (b_phases b)).
Definition Bulk_betas_volume_liquid_ref (K : package) (b : bulk) : list R := weight_fractions (b_betas b) (map (fun p => V_liquid_ref_of K (p_zs p)) (b_phases b)).
Definition Bulk_beta_mass (K : package) (b : bulk) : R := psum (Bulk_betas_mass K b).
Definition Bulk_beta_volume (b : bulk) : R := psum (Bulk_betas_volume b).
Definition Bulk_beta_volume_liquid_ref (K : package) (b : bulk) : R := psum (Bulk_betas_volume_liquid_ref K b).

(* for i in range(len(betas)): X += betas[i]*phases[i].X() ; the value is then kept in an attribute of the bulk, whose phases do not change *)
Definition mole_sum (b : bulk) (a : attr) : R := pwsum (b_betas b) (map (fun p => get p a) (b_phases b)).
(* lines 955-977 *)
Definition Bulk_MW (K : package) (b : bulk) : R := MW_of K (b_zs b).
(* lines 979-1001 *)
Definition Bulk_V (b : bulk) : R := mole_sum b aV.
(* lines 1023-1048 *)
Definition Bulk_Cp (b : bulk) : R := mole_sum b aCp.
(* lines 1050-1073 *)
Definition Bulk_H (b : bulk) : R := mole_sum b aH.
(* lines 1075-1098 *)
Definition Bulk_S (b : bulk) : R := mole_sum b aS.
(* lines 1100-1230 *)
Definition Bulk_dH_dP (b : bulk) : R := mole_sum b adH_dP.
Definition Bulk_dS_dP (b : bulk) : R := mole_sum b adS_dP.
Definition Bulk_dS_dT (b : bulk) : R := mole_sum b adS_dT.
Definition Bulk_dG_dT (b : bulk) : R := mole_sum b adG_dT.
Definition Bulk_dG_dP (b : bulk) : R := mole_sum b adG_dP.
Definition Bulk_dU_dT (b : bulk) : R := mole_sum b adU_dT.
Definition Bulk_dU_dP (b : bulk) : R := mole_sum b adU_dP.
Definition Bulk_dA_dT (b : bulk) : R := mole_sum b adA_dT.
Definition Bulk_dA_dP (b : bulk) : R := mole_sum b adA_dP.
(* lines 1232-1280 *)
Definition Bulk_H_reactive (b : bulk) : R := mole_sum b aH_reactive.
Definition Bulk_S_reactive (b : bulk) : R := mole_sum b aS_reactive.
(* lines 1282-1425 *)
Definition Bulk_dP_dT_frozen (b : bulk) : R := mole_sum b adP_dT.
Definition Bulk_dP_dV_frozen (b : bulk) : R := mole_sum b adP_dV.
Definition Bulk_d2P_dT2_frozen (b : bulk) : R := mole_sum b ad2P_dT2.
Definition Bulk_d2P_dV2_frozen (b : bulk) : R := mole_sum b ad2P_dV2.
Definition Bulk_d2P_dTdV_frozen (b : bulk) : R := mole_sum b ad2P_dTdV.
(* lines 1626-1672 *)
Definition Bulk_Tmc (b : bulk) : R := mole_sum b aTmc.
Definition Bulk_Pmc (b : bulk) : R := mole_sum b aPmc.
Definition Bulk_Vmc (b : bulk) : R := mole_sum b aVmc.
Definition Bulk_Zmc (b : bulk) : R := mole_sum b aZmc.
(* lines 1714-1715 *)
Definition Bulk_G_min_criteria (b : bulk) : R := mole_sum b aG_min_criteria.
(* G, U, A, rho, rho_mass of a Bulk are the methods of Phase, Gen_phase *)
Definition Bulk_G (T : R) (b : bulk) : R := Ph_G T (Bulk_H b) (Bulk_S b).
Definition Bulk_U (P : R) (b : bulk) : R := Ph_U P (Bulk_V b) (Bulk_H b).
Definition Bulk_A (T P : R) (b : bulk) : R := Ph_A T P (Bulk_V b) (Bulk_H b) (Bulk_S b).
Definition Bulk_rho (b : bulk) : R := Ph_rho (Bulk_V b).
Definition Bulk_rho_mass (K : package) (b : bulk) : R := Ph_rho_mass (Bulk_V b) (Bulk_MW K b).
(* thermo/equilibrium.py, lines 1354-1367 (and 1369-1459 for the others): H_mass of a phase or bulk, X()*1e3*MW_inv() *)
Definition per_mass (X MW : R) : R := X * 1000 * Ph_MW_inv MW.

(* thermo/bulk.py, lines 92-208: the names of the methods and the sets they belong to *)
Inductive method := MOLE_WEIGHTED | MASS_WEIGHTED | VOLUME_WEIGHTED | LOG_PROP_MOLE_WEIGHTED | LOG_PROP_MASS_WEIGHTED | LOG_PROP_VOLUME_WEIGHTED
  | POWER_PROP_MOLE_WEIGHTED | POWER_PROP_MASS_WEIGHTED | POWER_PROP_VOLUME_WEIGHTED | MINIMUM_PHASE_PROP | MAXIMUM_PHASE_PROP
  | AS_ONE_LIQUID | AS_ONE_GAS | EQUILIBRIUM_DERIVATIVE | FROM_DERIVATIVE_SETTINGS | FIROOZABADI_PAN
  | BEATTIE_WHALLEY_MU_VL | MCADAMS_MU_VL | CICCHITTI_MU_VL | LUN_KWOK_MU_VL | FOURAR_BORIES_MU_VL | DUCKLER_MU_VL | OTHER_NAME (name : string).
Definition mole_methods (m : method) : bool := match m with MOLE_WEIGHTED | LOG_PROP_MOLE_WEIGHTED | POWER_PROP_MOLE_WEIGHTED => true | _ => false end.
Definition mass_methods (m : method) : bool := match m with MASS_WEIGHTED | LOG_PROP_MASS_WEIGHTED | POWER_PROP_MASS_WEIGHTED => true | _ => false end.
Definition volume_methods (m : method) : bool := match m with VOLUME_WEIGHTED | LOG_PROP_VOLUME_WEIGHTED | POWER_PROP_VOLUME_WEIGHTED => true | _ => false end.
Definition linear_methods (m : method) : bool := match m with MOLE_WEIGHTED | MASS_WEIGHTED | VOLUME_WEIGHTED => true | _ => false end.
Definition log_prop_methods (m : method) : bool := match m with LOG_PROP_MOLE_WEIGHTED | LOG_PROP_MASS_WEIGHTED | LOG_PROP_VOLUME_WEIGHTED => true | _ => false end.
Definition prop_power_methods (m : method) : bool := match m with POWER_PROP_MOLE_WEIGHTED | POWER_PROP_MASS_WEIGHTED | POWER_PROP_VOLUME_WEIGHTED => true | _ => false end.
Definition MU_VL_CORRELATIONS_SET (m : method) : bool := match m with BEATTIE_WHALLEY_MU_VL | MCADAMS_MU_VL | CICCHITTI_MU_VL | LUN_KWOK_MU_VL | FOURAR_BORIES_MU_VL | DUCKLER_MU_VL => true | _ => false end.
(* lines 156-163 *)
Definition MU_LL_METHODS_set (m : method) : bool :=
  linear_methods m || log_prop_methods m || prop_power_methods m || match m with AS_ONE_LIQUID | MINIMUM_PHASE_PROP | MAXIMUM_PHASE_PROP => true | _ => false end.
(* lines 183-190 *)
Definition MU_VL_METHODS_SET (m : method) : bool := MU_LL_METHODS_set m || match m with AS_ONE_GAS => true | _ => false end || MU_VL_CORRELATIONS_SET m.
Definition K_VL_METHODS_SET (m : method) : bool := MU_LL_METHODS_set m || match m with AS_ONE_GAS => true | _ => false end.

(* lines 478-584: the mixing settings that BulkSettings.__init__ checks, and the ones it takes as they are *)
Record settings := { mu_LL : method; mu_LL_power_exponent : R; mu_VL : method; mu_VL_power_exponent : R; k_LL : method; k_LL_power_exponent : R;
  k_VL : method; k_VL_power_exponent : R; sigma_LL : method; sigma_LL_power_exponent : R; s_dP_dT : method; s_dP_dV : method; s_d2P_dV2 : method;
  s_d2P_dT2 : method; s_d2P_dTdV : method; s_speed_of_sound : method; s_kappa : method; s_isobaric_expansion : method; s_Joule_Thomson : method; equilibrium_perturbation : R }.
Definition BulkSettings (x : settings) : option settings :=
  if negb (MU_LL_METHODS_set (mu_LL x)) then None else
  if negb (MU_VL_METHODS_SET (mu_VL x)) then None else
  if negb (MU_LL_METHODS_set (k_LL x)) then None else
  if negb (K_VL_METHODS_SET (k_VL x)) then None else
  if negb (MU_LL_METHODS_set (sigma_LL x)) then None else Some x.

(* min(l) and max(l); ValueError for an empty list *)
Definition pmin (l : list R) : option R := match l with [] => None | x :: l' => Some (fold_left (fun m y => if Rltb y m then y else m) l' x) end.
Definition pmax (l : list R) : option R := match l with [] => None | x :: l' => Some (fold_left (fun m y => if Rltb m y then y else m) l' x) end.
(* x**e for a positive x (simplification: nothing is said of a base that is not positive, None), 1.0/e raises for e = 0, and x**None raises *)
Definition ppow (x : R) (e : option R) : option R := match e with None => None | Some e => if Rltb 0 x then Some (Rpower x e) else None end.
Definition pinv (e : option R) : option R := match e with None => None | Some e => py_div 1 e end.
(* for ...: prop += betas[i]*f(props[i]), where f may raise *)
Definition posum (f : R -> option R) (ws xs : list R) : option R :=
  fold_left (fun acc p => bindo acc (fun a => bindo (f (snd p)) (fun y => Some (a + fst p * y)))) (combine ws xs) (Some 0).

(* lines 748-778: _property_mixing_rule; as_one is the value of mix_obj.mixture_property (None: there is no such object) *)
Definition property_mixing_rule (K : package) (b : bulk) (m : method) (exponent : option R) (as_one : option R) (a : attr) : option R :=
  match m with
  | AS_ONE_LIQUID => as_one
  | _ =>
    let props := map (fun p => get p a) (b_phases b) in
    let betas := if mole_methods m then b_betas b else if mass_methods m then Bulk_betas_mass K b else if volume_methods m then Bulk_betas_volume b else [] in
    if linear_methods m then Some (pwsum betas props)
    else if prop_power_methods m then
      bindo (posum (fun x => ppow x exponent) betas props) (fun prop => bindo (pinv exponent) (fun e => ppow prop (Some e)))
    else if log_prop_methods m then bindo (posum py_log betas props) (fun prop => Some (exp prop))
    else match m with MINIMUM_PHASE_PROP => pmin props | MAXIMUM_PHASE_PROP => pmax props | _ => None end
  end.

(* thermo/equilibrium.py, lines 381-411: VF and LF *)
Definition VF (s : state) : R := match e_gas s with Some _ => nth 0 (e_betas s) 0 | None => 0 end.
Definition LF (s : state) : R := psum (liquids_betas s).
(* lines 443-461 *)
Definition betas_states (s : state) : list R := [gas_beta s; psum (liquids_betas s); psum (solids_betas s)].
(* lines 464-498 and 501-535: g_tot, l_tot, s_tot over their sum *)
Definition state_shares (s : state) (f : phase -> R) : list R :=
  let g := match e_gas s with Some g => f g | None => 0 end in
  let g_tot := g * gas_beta s in
  let l_tot := pwsum (map f (e_liquids s)) (liquids_betas s) in
  let s_tot := pwsum (map f (e_solids s)) (solids_betas s) in
  let tot := g_tot + l_tot + s_tot in
  let tot := 1 / tot in
  [g_tot * tot; l_tot * tot; s_tot * tot].
Definition betas_mass_states (K : package) (s : state) : list R := state_shares s (fun p => MW_of K (p_zs p)).
Definition betas_volume_states (s : state) : list R := state_shares s (fun p => get p aV).
(* lines 539-622, without the attribute they are kept in *)
Definition state_betas_mass (K : package) (s : state) : list R := weight_fractions (e_betas s) (map (fun p => MW_of K (p_zs p)) (phases s)).
Definition state_betas_volume (s : state) : list R := weight_fractions (e_betas s) (map (fun p => get p aV) (phases s)).
Definition state_betas_volume_liquid_ref (K : package) (s : state) : list R := weight_fractions (e_betas s) (map (fun p => V_liquid_ref_of K (p_zs p)) (phases s)).
(* lines 625-652 *)
Definition betas_liquids (s : state) : list R :=
  let tot := psum (liquids_betas s) in
  if Reqb tot 0 then [] else let tot := 1 / tot in map (fun vi => vi * tot) (liquids_betas s).
(* lines 655-709 *)
Definition betas_mass_liquids (K : package) (s : state) : list R :=
  match liquid_count s with O => [] | _ => weight_fractions (liquids_betas s) (map (fun p => MW_of K (p_zs p)) (e_liquids s)) end.
Definition betas_volume_liquids (s : state) : list R :=
  match liquid_count s with O => [] | _ => weight_fractions (liquids_betas s) (map (fun p => get p aV) (e_liquids s)) end.
(* lines 414-440; chemicals.utils.vapor_mass_quality(VF, MWl, MWg) = VF MWg / (VF MWg + (1 - VF) MWl) *)
Definition ext_vapor_mass_quality (VF MWl MWg : R) : R := VF * MWg / (VF * MWg + (1 - VF) * MWl).
Definition body_MW (K : package) (x : bulk_or_phase) : R := match x with IsBulk b => Bulk_MW K b | IsPhase p => MW_of K (p_zs p) end.
Definition quality (K : package) (s : state) : R :=
  match e_gas s, liquid_bulk K s with
  | Some g, Some l => ext_vapor_mass_quality (gas_beta s) (body_MW K l) (MW_of K (p_zs g))
  | Some _, None => 1
  | None, _ => 0
  end.

(* The attributes of an EquilibriumState that keep a list of fractions once read. lines 567-594: betas_volume looks for and stores the
   attribute _betas_volume_liquid_ref; lines 596-622: betas_volume_liquid_ref looks for and stores the same attribute *)
Record kept := { k_mass : option (list R); k_volume_liquid_ref : option (list R) }.
Definition nothing_kept : kept := {| k_mass := None; k_volume_liquid_ref := None |}.
Inductive reading := READ_betas_mass | READ_betas_volume | READ_betas_volume_liquid_ref.
Definition read (K : package) (s : state) (c : kept) (r : reading) : list R * kept :=
  match r with
  | READ_betas_mass => match k_mass c with Some l => (l, c) | None => let l := state_betas_mass K s in (l, {| k_mass := Some l; k_volume_liquid_ref := k_volume_liquid_ref c |}) end
  | READ_betas_volume => match k_volume_liquid_ref c with Some l => (l, c) | None => let l := state_betas_volume s in (l, {| k_mass := k_mass c; k_volume_liquid_ref := Some l |}) end
  | READ_betas_volume_liquid_ref => match k_volume_liquid_ref c with Some l => (l, c) | None => let l := state_betas_volume_liquid_ref K s in (l, {| k_mass := k_mass c; k_volume_liquid_ref := Some l |}) end
  end.
Fixpoint read_all (K : package) (s : state) (c : kept) (rs : list reading) : kept := match rs with [] => c | r :: rs' => read_all K s (snd (read K s c r)) rs' end.

(* thermo/bulk.py, lines 780-802: _mu_k_VL; props is [gas, liquid] *)
Definition mu_k_VL (K : package) (s : state) (m : method) (pg pl : R) (exponent : R) : option R :=
  let betas := if mole_methods m then [VF s; 1 - VF s] else if mass_methods m then firstn 2 (betas_mass_states K s) else if volume_methods m then firstn 2 (betas_volume_states s) else [] in
  let b0 := nth 0 betas 0 in let b1 := nth 1 betas 0 in
  if linear_methods m then Some (b0 * pg + b1 * pl)
  else if prop_power_methods m then bindo (ppow pg (Some exponent)) (fun x => bindo (ppow pl (Some exponent)) (fun y => bindo (pinv (Some exponent)) (fun e => ppow (b0 * x + b1 * y) (Some e))))
  else if log_prop_methods m then bindo (py_log pg) (fun x => bindo (py_log pl) (fun y => Some (exp (b0 * x + b1 * y))))
  else match m with MINIMUM_PHASE_PROP => pmin [pg; pl] | MAXIMUM_PHASE_PROP => pmax [pg; pl] | _ => None end.

Definition is_l (k : option string) : bool := match k with Some x => String.eqb x "l" | None => false end.
Definition no_gas (s : state) : bool := match e_gas s with None => true | Some _ => false end.
(* lines 805-862, 864-912 and 914-950: mu, k and sigma of a Bulk of the state s, without the attribute they are kept in.
   as_liquid and as_gas are the mixture_property of the liquid and gas mixture objects; corr is fluids' gas_liquid_viscosity(x, mul, mug, rhol, rhog). *)
Section Transport.
Variables (K : package) (S_ : settings) (s : state) (as_liquid as_gas : attr -> option R) (corr : method -> R -> R -> R -> R -> R -> R).
Definition LL_method (a : attr) : method * R := match a with amu => (mu_LL S_, mu_LL_power_exponent S_) | ak => (k_LL S_, k_LL_power_exponent S_) | _ => (sigma_LL S_, sigma_LL_power_exponent S_) end.
Definition LL_rule (b : bulk) (a : attr) : option R := property_mixing_rule K b (fst (LL_method a)) (Some (snd (LL_method a))) (as_liquid a) a.
(* the part of mu and k for one phase or no gas phase; what is read in the liquid_bulk of the state *)
Definition liquid_transport (x : bulk_or_phase) (a : attr) : option R :=
  match x with IsPhase p => Some (get p a) | IsBulk b => match b_phases b with [p] => Some (get p a) | _ => LL_rule b a end end.
Definition liquid_rho_mass (x : bulk_or_phase) : R := match x with IsPhase p => Ph_rho_mass (get p aV) (MW_of K (p_zs p)) | IsBulk b => Bulk_rho_mass K b end.
(* if phase_count == 2: result.liquids[0] else: result.liquid_bulk *)
Definition the_liquid (b : bulk) : option bulk_or_phase :=
  if Nat.eqb (List.length (b_betas b)) 2 then match e_liquids s with l :: _ => Some (IsPhase l) | [] => None end else liquid_bulk K s.
Definition Bulk_mu (b : bulk) : option R :=
  if Nat.eqb (List.length (b_betas b)) 1 then match b_phases b with p :: _ => Some (get p amu) | [] => None end
  else if is_l (b_kind b) || no_gas s then LL_rule b amu
  else match mu_VL S_ with
  | AS_ONE_LIQUID => as_liquid amu
  | AS_ONE_GAS => as_gas amu
  | m => match e_gas s with None => None | Some g =>
      let mug := get g amu in
      bindo (the_liquid b) (fun l => bindo (liquid_transport l amu) (fun mul =>
      if MU_VL_CORRELATIONS_SET m then Some (corr m (nth 0 (state_betas_mass K s) 0) mul mug (liquid_rho_mass l) (Ph_rho_mass (get g aV) (MW_of K (p_zs g))))
      else mu_k_VL K s m mug mul (mu_VL_power_exponent S_))) end
  end.
Definition Bulk_k (b : bulk) : option R :=
  if Nat.eqb (List.length (b_betas b)) 1 then match b_phases b with p :: _ => Some (get p ak) | [] => None end
  else if is_l (b_kind b) || no_gas s then LL_rule b ak
  else match k_VL S_ with
  | AS_ONE_LIQUID => as_liquid ak
  | AS_ONE_GAS => as_gas ak
  | m => match e_gas s with None => None | Some g =>
      bindo (the_liquid b) (fun l => bindo (liquid_transport l ak) (fun kl => mu_k_VL K s m (get g ak) kl (k_VL_power_exponent S_))) end
  end.
(* the inner None of the result is the value None that is returned when there is a gas phase *)
Definition Bulk_sigma (b : bulk) : option (option R) :=
  if Nat.eqb (List.length (b_betas b)) 1 && no_gas s then match b_phases b with p :: _ => Some (Some (get p asigma)) | [] => None end
  else if is_l (b_kind b) || no_gas s then match LL_rule b asigma with Some v => Some (Some v) | None => None end
  else Some None.
End Transport.

(* lines 1427-1443: _equilibrium_derivative; flash is the value of the property `of` at the flash with the value given for `wrt` *)
Definition equilibrium_derivative (flash : R -> R) (pert x : R) : R :=
  let wrt_value2 := x * (1 + pert) in
  let delta := wrt_value2 - x in
  (flash wrt_value2 - flash x) / delta.
(* lines 1447-1524: dP_dT, dP_dV, d2P_dT2, d2P_dV2, d2P_dTdV; eqd is the equilibrium derivative *)
Definition Bulk_dP_dT (K : package) (S_ : settings) (eqd : R) (b : bulk) : option R :=
  match s_dP_dT S_ with MOLE_WEIGHTED => Some (Bulk_dP_dT_frozen b) | EQUILIBRIUM_DERIVATIVE => Some eqd | m => property_mixing_rule K b m None None adP_dT end.
Definition Bulk_dP_dV (K : package) (S_ : settings) (eqd : R) (b : bulk) : option R :=
  match s_dP_dV S_ with MOLE_WEIGHTED => Some (Bulk_dP_dV_frozen b) | EQUILIBRIUM_DERIVATIVE => Some eqd | m => property_mixing_rule K b m None None adP_dV end.
Definition Bulk_d2P_dT2 (K : package) (S_ : settings) (b : bulk) : option R :=
  match s_d2P_dT2 S_ with MOLE_WEIGHTED => Some (Bulk_d2P_dT2_frozen b) | m => property_mixing_rule K b m None None ad2P_dT2 end.
Definition Bulk_d2P_dV2 (K : package) (S_ : settings) (b : bulk) : option R :=
  match s_d2P_dV2 S_ with MOLE_WEIGHTED => Some (Bulk_d2P_dV2_frozen b) | m => property_mixing_rule K b m None None ad2P_dV2 end.
Definition Bulk_d2P_dTdV (K : package) (S_ : settings) (b : bulk) : option R :=
  match s_d2P_dTdV S_ with MOLE_WEIGHTED => Some (Bulk_d2P_dTdV_frozen b) | m => property_mixing_rule K b m None None ad2P_dTdV end.
(* lines 1596-1624, the two equilibrium methods of speed_of_sound: dP_drho_S and dV_dP_S are the equilibrium derivatives at constant S *)
Definition speed_of_sound_equilibrium (dP_drho_S : R) : R := sqrt dP_drho_S.
Definition speed_of_sound_Firoozabadi_Pan (V dV_dP_S : R) : R := let Cs := - 1 / V * dV_dP_S in sqrt (V / Cs).

(* thermo/equilibrium.py, lines 1688-1748: H_ideal_gas, S_ideal_gas and 1461-1487: Cp_ideal_gas of the state for a bulk phase; P_REF is P_REF_IG.
   S_ideal_gas takes the logarithms of self.zs, the mole fractions of the whole state *)
Definition state_H_ideal_gas (K : package) (zs : nat -> R) : R := csum (N K) zs (CpI K).
Definition state_Cp_ideal_gas (K : package) (zs : nat -> R) : R := csum (N K) zs (Cpig K).
Definition state_S_ideal_gas (K : package) (P_REF : R) (s : state) (b : bulk) : R :=
  let log_zs := fun i => ln (e_zs s i) in
  let S0 := 0 - Rgas * rsum (N K) (fun i => b_zs b i * log_zs i) in
  let S0 := S0 - Rgas * ln (e_P s * (1 / P_REF)) in
  loop (N K) (fun i acc => acc + b_zs b i * CpIT K i) S0.
(* thermo/bulk.py, lines 1675-1712: the same of a Bulk, with its own mole fractions *)
Definition Bulk_S_ideal_gas (K : package) (P_REF P : R) (b : bulk) : R :=
  let log_zs := fun i => ln (b_zs b i) in
  let S0 := 0 - Rgas * rsum (N K) (fun i => b_zs b i * log_zs i) in
  let S0 := S0 - Rgas * ln (P * (1 / P_REF)) in
  loop (N K) (fun i acc => acc + b_zs b i * CpIT K i) S0.
(* thermo/equilibrium.py, lines 1489-1526: H_dep and S_dep of a bulk phase *)
Definition state_H_dep (K : package) (b : bulk) : R := Bulk_H b - state_H_ideal_gas K (b_zs b).
Definition state_S_dep (b : bulk) : R := fold_left (fun acc p => acc + snd p * fst p) (combine (b_betas b) (map (fun p => get p aS_dep) (b_phases b))) 0.

(* lines 781-811: atom_content, without the attribute it is kept in. A dict is the list of its items in order of insertion *)
Fixpoint item_add (d : list (string * R)) (k : string) (v : R) : list (string * R) :=
  match d with [] => [(k, v)] | (k', v') :: d' => if String.eqb k' k then (k', v' + v) :: d' else (k', v') :: item_add d' k v end.
Definition atom_content (K : package) (zs : nat -> R) : list (string * R) :=
  snd (fold_left (fun (st : nat * list (string * R)) atoms => let (i, things) := st in
        (S i, fold_left (fun d (p : string * R) => item_add d (fst p) (zs i * snd p)) atoms things)) (atomss K) (0%nat, [])).
(* lines 813-835: atom_fractions *)
Definition atom_fractions (K : package) (zs : nat -> R) : list (string * R) :=
  let things := atom_content K zs in
  let tot_inv := 1 / psum (map snd things) in
  map (fun p => (fst p, snd p * tot_inv)) things.
(* dict.get(k, 0.0) *)
Fixpoint item_get (d : list (string * R)) (k : string) : R := match d with [] => 0 | (k', v) :: d' => if String.eqb k' k then v else item_get d' k end.
(* lines 2174-2195: H_C_ratio of the state for a phase; the fractions are those of the state whatever the phase. None: the value None *)
Definition H_C_ratio (K : package) (s : state) (ph : option (nat -> R)) : option R :=
  let fr := atom_fractions K (e_zs s) in py_div (item_get fr "H") (item_get fr "C").
(* lines 931-946: ws (chemicals.utils.zs_to_ws) *)
Definition ws_of (K : package) (zs : nat -> R) : nat -> R := fun i => zs i * MWs K i / rsum (N K) (fun j => zs j * MWs K j).
(* lines 2342-2365: humidity_ratio of the state for a phase; the mass fractions are those of the state whatever the phase. *)
Definition humidity_ratio (K : package) (s : state) (water : option nat) (ph : option (nat -> R)) : R :=
  match water with None => 0 | Some w => let w_H2O := ws_of K (e_zs s) w in w_H2O / (1 - w_H2O) end.
(* lines 2367-2397: zs_no_water *)
Definition zs_no_water (K : package) (zs : nat -> R) (water : option nat) : nat -> R :=
  match water with None => zs | Some w => let m := 1 / (1 - zs w) in upd (loop (N K) (fun i z => upd z i (z i * m)) zs) w 0 end.
(* lines 948-973: Vfls *)
Definition Vfls (K : package) (zs : nat -> R) : nat -> R := let V := csum (N K) zs (Vls K) in let V_inv := 1 / V in fun i => V_inv * Vls K i * zs i.
(* lines 2437-2478: Ks of a phase against a reference phase *)
Definition Ks (ref_zs zs : nat -> R) : nat -> R := fun i => zs i / ref_zs i.
(* lines 2268-2297: water_phase_index *)
Definition water_phase_index (s : state) (w : nat) : option nat :=
  snd (fst (fold_left (fun (st : R * option nat * nat) (l : phase) => let '(max_zw, best, i) := st in
     if Rltb max_zw (p_zs l w) then (p_zs l w, Some i, S i) else (max_zw, best, S i)) (e_liquids s) (0, None, 0%nat))).
(* lines 356-378: phase *)
Definition phase_string (s : state) : string :=
  (if no_gas s then "" else "V") ++ String.concat "" (repeat "L" (liquid_count s)) ++ String.concat "" (repeat "S" (solid_count s)).
