(* thermo/flash/flash_pure_vls.py: the pure component flash at two of T, P, V (flash_TPV, lines 340-467) and at one of them with H, S or U
   (flash_TPV_HSGUA, 697-962, and flash_TPV_HSGUA_VL_bound_first, 598-694). What a phase object gives at the specification is data: its
   state or an exception. Not modelled: the CoolProp and IAPWS-95 branches, solution='high', 'low' or a function (the criterion is
   arbitrary here, so the general branch covers them), spec_fun, the texts of the error messages, and the one phase solver itself. *)
From Coq Require Import Reals List Bool Arith.
From Verif Require Import Base.
Import ListNotations.
Open Scope R_scope.

Inductive kind := Gas | Liquid | Solid.
(* a phase at the specification: a name for it, its kind, the criterion fun (G, or what is minimised), its compressibility factor *)
Record pstate := { p_name : nat; p_kind : kind; crit : R; Zf : R }.
(* a phase object: T_MIN_FLASH and .to(...), None for an exception *)
Record pobj := { T_min : R; at_spec : option pstate }.

(* the returned tuple: the phase as gas, in the list of liquids or in the list of solids; or no phase at all; or an exception *)
Inductive placed := As_gas (s : pstate) | As_liquid (s : pstate) | As_solid (s : pstate) | Nothing | Raised.

(* the state of the search: G_min, lowest_phase *)
Definition search := (R * option pstate)%type.

(* lines 433-438: None for an exception *)
Definition try_gas (gas : option pobj) (T : option R) : option (search * option pstate) :=
  match gas with
  | Some g => if match T with None => true | Some t => Rltb (T_min g) t end
              then match at_spec g with Some s => Some ((crit s, Some s), Some s) | None => None end
              else Some ((10 ^ 100, None), None)
  | None => Some ((10 ^ 100, None), None)
  end.
(* lines 440-453 *)
Fixpoint try_liquids (has_gas : bool) (ls : list pobj) (T : option R) (m : search) : option search :=
  match ls with
  | [] => Some m
  | l :: ls =>
    if match T with None => false | Some t => Rltb t (T_min l) end then try_liquids has_gas ls T m
    else match at_spec l with
         | None => None
         | Some s =>
           let m' := if Rltb (crit s) (fst m) then (crit s, Some s)
                     else if Reqb (crit s) (fst m) && has_gas then (if Rltb (Zf s) (/ 4) then (crit s, Some s) else m)
                     else m in
           try_liquids has_gas ls T m'
         end
  end.
(* lines 456-462 *)
Fixpoint try_solids (ss : list pobj) (m : search) : option search :=
  match ss with
  | [] => Some m
  | s :: ss => match at_spec s with
               | None => None
               | Some s => try_solids ss (if Rltb (crit s) (fst m) then (crit s, Some s) else m)
               end
  end.
(* lines 464-469: by identity with the gas (None is None), then whether it is one of the liquids *)
Definition place (m : search) : placed :=
  match snd m with
  | None => Nothing
  | Some s => match p_kind s with Gas => As_gas s | Liquid => As_liquid s | Solid => As_solid s end
  end.
(* Simplified: when the gas was skipped and no phase is lowest, "lowest_phase is gas" compares None with None and the gas returned is None *)
Definition general_TPV (gas : option pobj) (liquids solids : list pobj) (T : option R) : placed :=
  match try_gas gas T with
  | None => Raised
  | Some (m, g) =>
    match try_liquids (match g with Some _ => true | None => false end) liquids T m with
    | None => Raised
    | Some m => match try_solids solids m with None => Raised | Some m => place m end
    end
  end.

(* the equation of state of a liquid and a gas of the same cubic: eos_mix.phase, and the departures of G for both roots *)
Inductive roots := Both | Gas_only | Liquid_only.
(* the packages of lines 300-334 that are told apart; Same_EOS with the roots, the departures of G of liquid and gas, and whether V was
   given; IG_activity with P and Psat when V was not given *)
Inductive package :=
| Other_package
| Same_EOS (r : roots) (G_dep_l G_dep_g : R) (V_given : bool)
| IG_activity (P Psat : R).

(* the phase object of a gas phase, listed as a liquid *)
Definition or_raise (f : pstate -> placed) (o : option pstate) : placed := match o with Some s => f s | None => Raised end.
Definition at_spec_of (o : option pobj) : option pstate := match o with Some o => at_spec o | None => None end.
(* lines 353-388, 431-469; criterion: True when solution is None *)
Definition flash_TPV (pk : package) (default : bool) (gas : option pobj) (liquids solids : list pobj) (T : option R) : placed :=
  match gas, liquids, solids with
  | Some p, [], [] | None, [p], [] | None, [], [p] => or_raise As_liquid (at_spec p) (* phase_count == 1 *)
  | _, _, _ =>
    match pk, default with
    | Same_EOS r Gl Gg false, true =>
        match r with
        | Both => if Rltb Gl Gg then or_raise As_liquid (at_spec_of (hd_error liquids)) else or_raise As_gas (at_spec_of gas)
        | Gas_only => or_raise As_gas (at_spec_of gas)
        | Liquid_only => or_raise As_liquid (at_spec_of gas)
        end
    | IG_activity P Psat, true =>
        if Rltb Psat P then or_raise As_liquid (at_spec_of (hd_error liquids)) else or_raise As_gas (at_spec_of gas)
    | Same_EOS r _ _ true, true => match r with Gas_only => or_raise As_gas (at_spec_of gas) | _ => or_raise As_liquid (at_spec_of gas) end
    | _, _ => general_TPV gas liquids solids T
    end
  end.

(* --- one of T, P, V with H, S or U --- *)
(* a one phase solution: its temperature, its state *)
Record sol1 := { s_T : R; s_state : pstate }.
(* the saturated liquid and gas at the fixed T or P: value of the specified property and of the criterion *)
Record sat := { spec_l : R; spec_g : R; crit_l : R; crit_g : R }.

(* lines 725-738: is the new solution taken instead of the previous one *)
Definition takes (PS : bool) (new prev : sol1) : bool :=
  if PS then
    if Rltb (crit (s_state new)) (crit (s_state prev)) then negb (Rltb (s_T new) 1 && Rltb 1 (s_T prev))
    else Rltb (s_T prev) 1 && Rltb 1 (s_T new)
  else Rltb (crit (s_state new)) (crit (s_state prev)).
(* lines 796-823: None in the list for a phase without a solution *)
Definition best1 (PS : bool) (attempts : list (option sol1)) : option sol1 :=
  fold_left (fun best a => match a with
                           | None => best
                           | Some new => match best with None => Some new | Some prev => if takes PS new prev then Some new else best end
                           end) attempts None.
(* lines 757-784: the vapour fraction and the criterion of the mixture; None: an exception (also of the division), or outside 0 to 1 *)
Definition lever (vl : option sat) (spec_val : R) : option (R * R) :=
  match vl with
  | None => None
  | Some s => if Reqb (spec_g s - spec_l s) 0 then None
              else let VF := (spec_val - spec_l s) / (spec_g s - spec_l s) in
                   if Rleb 0 VF && Rleb VF 1 then Some (VF, crit_g s * VF + crit_l s * (1 - VF)) else None
  end.
(* lines 830-847: the solid fraction, tested but not used for the answer *)
Definition solid_fraction (sf : option (R * R)) (spec_val : R) : option R :=
  match sf with
  | None => None
  | Some (s, o) => if Reqb (o - s) 0 then None else let SF := (spec_val - s) / (o - s) in if Rltb SF 0 || Rltb 1 SF then None else Some SF
  end.
Inductive failure := Unconverged_in_bounds | Unconverged_uncertain | No_solution.
(* the two phases with betas [VF, 1 - VF], one phase, or an error *)
Inductive outcome := Two (VF : R) | One (s : sol1) | Error (e : failure).

(* lines 910-957: the values of the specified property of each phase at the two bounds, None for an exception *)
Definition between (a b x : R) : bool := Rleb (Rmin a b) x && Rleb x (Rmax a b).
Definition failure_of (bounds : list (option (R * R))) (vl : option sat) (sf : option (R * R)) (spec_val : R) : failure :=
  let had := existsb (fun o => match o with Some (lo, hi) => between lo hi spec_val | None => false end) bounds
             || (match vl with Some s => between (spec_l s) (spec_g s) spec_val | None => false end)
             || (match solid_fraction sf spec_val, sf with Some _, Some (s, o) => between s o spec_val | _, _ => false end) in
  if had then Unconverged_in_bounds
  else if existsb (fun o => match o with None => true | Some _ => false end) bounds then Unconverged_uncertain else No_solution.

(* lines 855-962; PS: the fixed variable is P and the specified one S *)
Definition flash_TPV_HSGUA (PS : bool) (vl : option sat) (attempts : list (option sol1)) (sf : option (R * R)) (bounds : list (option (R * R))) (spec_val : R) : outcome :=
  let best := best1 PS attempts in
  let G_min := match best with Some b => crit (s_state b) | None => 10 ^ 100 end in
  let G_VL := match lever vl spec_val with Some (_, g) => g | None => 10 ^ 100 end in
  if Rltb G_VL G_min then match lever vl spec_val with Some (VF, _) => Two VF | None => Error No_solution end
  else if Reqb G_min (10 ^ 100) then Error (failure_of bounds vl sf spec_val)
  else match best with Some b => One b | None => Error No_solution end.

(* --- saturation first (598-694), for one equation of state (cubic) and for ideal gas with activity coefficients --- *)
(* a one phase attempt: None for an exception; with cubic, whether the equation has both roots and whether the root has the lower G *)
Record attempt := { a_state : sol1; a_both : bool; a_lowest : bool }.
Definition accepted (cubic : bool) (a : option attempt) : option sol1 :=
  match a with
  | None => None
  | Some a => if cubic && a_both a && negb (a_lowest a) then None else Some (a_state a)
  end.
(* lines 646-692: the first accepted; None: the end of the function is reached *)
Fixpoint first_accepted (cubic : bool) (l : list (option attempt)) : option sol1 :=
  match l with
  | [] => None
  | a :: l => match accepted cubic a with Some s => Some s | None => first_accepted cubic l end
  end.
Inductive bounded := B_two (VF : R) | B_one (s : sol1) | B_None | B_ZeroDivision.
(* gas and liquid: their attempts. vl: the saturated phases if the vapour pressure (or P) exceeds 0.01 *)
Definition VL_bound_first (cubic : bool) (vl : option (R * R)) (gas liquid : option attempt) (spec_val : R) : bounded :=
  let try_ l := match first_accepted cubic l with Some s => B_one s | None => B_None end in
  match vl with
  | None => try_ [gas; liquid]
  | Some (sl, sg) =>
    if Reqb (sg - sl) 0 then B_ZeroDivision
    else let VF := (spec_val - sl) / (sg - sl) in
         if Rleb 0 VF && Rleb VF 1 then B_two VF else if Rltb VF 0 then try_ [liquid; gas] else try_ [gas; liquid]
  end.
