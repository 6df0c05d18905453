(* thermo/phase_identification.py: identity_phase_states (lines 791-838), mini_sort_phases (864-893), sort_phases (933-962) and
   identify_sort_phases (1024-1064). *)
From Coq Require Import Reals List Bool Arith.
From Verif Require Import Base.
Import ListNotations.
Open Scope R_scope.

(* A phase object is its identity (what `is` compares). *)
Definition phase := nat.
Inductive forced := Force_l | Force_s | Force_g | Force_other.
Inductive sort_prop := DENSITY_MASS | DENSITY | ISOTHERMAL_COMPRESSIBILITY | HEAT_CAPACITY.
Inductive sort_method := PROP_SORT | KEY_COMPONENTS_SORT.
Inductive water_sort := WATER_FIRST | WATER_LAST | WATER_NOT_SPECIAL.
(* The attributes and methods of the phases that are read here.  a_VL T p is the vapor score of p by the selected method given the temperature
   of the first phase (score_phases_VL, 703-745, computes one score per phase), a_S the solid score (score_phases_S, 663-666). *)
Record attributes := {
  a_force : phase -> option forced; a_T : phase -> R; a_VL : R -> phase -> R; a_S : phase -> R; a_hash : phase -> nat; a_zs : phase -> nat -> R;
  a_V : phase -> R; a_rho : phase -> R; a_isobaric_expansion : phase -> R; a_Cp : phase -> R }.
(* constants: N, MWs, water_index; settings: BulkSettings preferences for the sorting *)
Record constants := { k_N : nat; k_MWs : nat -> R; k_water_index : option nat }.
Record settings := { s_liquid_method : sort_method; s_liquid_prop : sort_prop; s_solid_method : sort_method; s_solid_prop : sort_prop; s_higher_first : bool; s_water : water_sort }.
(* exceptions: max() of an empty list, comparing two phases with <, key_cmp_sort, len(None) *)
Inductive error := ValueError_max | TypeError_lt | NotImplemented | TypeError_len.
Inductive result (A : Type) := Ok (a : A) | Err (e : error).
Arguments Ok {A}. Arguments Err {A}.

(* list.index(max(list)) : the maximum, and its first position *)
Definition py_max (l : list R) : option R := match l with [] => None | x :: l => Some (fold_left (fun m y => if Rltb m y then y else m) l x) end.
Fixpoint index_of (x : R) (l : list R) : nat := match l with [] => 0%nat | y :: l => if Reqb y x then 0%nat else S (index_of x l) end.
(* lines 798-807: split by force_phase; an unknown force_phase is dropped *)
Section Identify.
Variable A : attributes.
Definition with_force (k : forced) (phases : list phase) : list phase :=
  filter (fun p => match a_force A p, k with Some Force_l, Force_l | Some Force_s, Force_s | Some Force_g, Force_g => true | _, _ => false end) phases.
Definition unknown (phases : list phase) : list phase := filter (fun p => match a_force A p with None => true | _ => false end) phases.
(* lines 810-825: scores of the unknown phases, by position *)
Definition VL_scores (ph : list phase) : list R := map (a_VL A (a_T A (hd 0%nat ph))) ph.
Definition S_scores (ph : list phase) : list R := map (a_S A) ph.
Definition classify (skip_solids : bool) (ph : list phase) (solids possible_gases liquids : list phase) (scores : list R) : list phase * list phase * list phase * list R :=
  fold_left (fun st i =>
    let '(solids, gases, liquids, scores) := st in
    let p := nth i ph 0%nat in
    if negb skip_solids && Rleb 0 (nth i (S_scores ph) 0) then (solids ++ [p], gases, liquids, scores)
    else if Rleb 0 (nth i (VL_scores ph) 0) then (solids, gases ++ [p], liquids, scores ++ [nth i (VL_scores ph) 0])
    else (solids, gases, liquids ++ [p], scores)) (seq 0 (length ph)) (solids, possible_gases, liquids, scores).
(* lines 791-838 *)
Definition identity_phase_states (skip_solids : bool) (phases : list phase) : result (option phase * list phase * list phase) :=
  let '(solids, gases, liquids, scores) := classify skip_solids (unknown phases) (with_force Force_s phases) (with_force Force_g phases) (with_force Force_l phases) [] in
  match gases with
  | [] => Ok (None, liquids, solids)
  | [g] => Ok (Some g, liquids, solids)
  | _ => match py_max scores with
         | None => Err ValueError_max
         | Some m => let gas := nth (index_of m scores) gases 0%nat in Ok (Some gas, liquids ++ filter (fun p => negb (p =? gas)%nat) gases, solids)
         end
  end.

(* sorted(zip(keys, phases)): pairs compare by key, then by phase; phases have == (equal hashes) but no <.  Any comparison sort compares
   neighbours of the sorted order, so the exception happens exactly when two elements have the same key and different hashes. *)
Definition clash (a b : R * phase) : bool := Reqb (fst a) (fst b) && negb (a_hash A (snd a) =? a_hash A (snd b))%nat.
Fixpoint has_clash (l : list (R * phase)) : bool := match l with [] => false | a :: l => existsb (clash a) l || has_clash l end.
Fixpoint insert (a : R * phase) (l : list (R * phase)) : list (R * phase) := match l with [] => [a] | b :: m => if Rltb (fst b) (fst a) then b :: insert a m else a :: l end.
Definition py_sorted (l : list (R * phase)) : result (list (R * phase)) := if has_clash l then Err TypeError_lt else Ok (fold_right insert [] l).
(* chemicals.utils.Vm_to_rho *)
Definition Vm_to_rho (Vm MW : R) : R := / Vm * MW / 1000.
Definition sort_key (C : constants) (prop : sort_prop) (p : phase) : R :=
  match prop with
  | DENSITY_MASS => Vm_to_rho (a_V A p) (rsum (k_N C) (fun i => a_zs A p i * k_MWs C i))
  | DENSITY => a_rho A p
  | ISOTHERMAL_COMPRESSIBILITY => a_isobaric_expansion A p
  | HEAT_CAPACITY => a_Cp A p
  end.
(* lines 864-893; key_cmp_sort (859-861) raises NotImplementedError *)
Definition mini_sort_phases (C : constants) (m : sort_method) (prop : sort_prop) (reverse : bool) (phases : list phase) : result (list phase) :=
  match m with
  | PROP_SORT => match py_sorted (combine (map (sort_key C prop) phases) phases) with
                 | Err e => Err e
                 | Ok l => Ok (if reverse then rev (map snd l) else map snd l)
                 end
  | KEY_COMPONENTS_SORT => Err NotImplemented
  end.
(* list.pop(i) *)
Definition pop (i : nat) (l : list phase) : list phase := firstn i l ++ skipn (S i) l.
(* lines 941-953: the liquid with the most water goes first or last *)
Definition place_water (C : constants) (w : water_sort) (liquids : list phase) : list phase :=
  match w, k_water_index C with
  | WATER_NOT_SPECIAL, _ | _, None => liquids
  | _, Some wi =>
      let water_zs := map (fun p => a_zs A p wi) liquids in
      match py_max water_zs with
      | None => liquids
      | Some m => if Rltb (1 / 10000) m then
          let k := index_of m water_zs in let water := nth k liquids 0%nat in
          match w with WATER_LAST => pop k liquids ++ [water] | _ => water :: pop k liquids end
        else liquids
      end
  end.
(* lines 933-962 *)
Definition sort_phases (C : constants) (s : settings) (liquids solids : list phase) : result (list phase * list phase) :=
  match (if (1 <? length liquids)%nat then match mini_sort_phases C (s_liquid_method s) (s_liquid_prop s) (s_higher_first s) liquids with Ok l => Ok (place_water C (s_water s) l) | Err e => Err e end else Ok liquids) with
  | Err e => Err e
  | Ok liquids =>
      match (if (1 <? length solids)%nat then mini_sort_phases C (s_solid_method s) (s_solid_prop s) (s_higher_first s) solids else Ok solids) with
      | Err e => Err e
      | Ok solids => Ok (liquids, solids)
      end
  end.
(* the inner loops of lines 1043-1061: the entry of betas at the first position of the phase *)
Fixpoint lookup (p : phase) (phases : list phase) (betas : list R) : list R :=
  match phases, betas with q :: phases, b :: betas => if (q =? p)%nat then [b] else lookup p phases betas | _, _ => [] end.
Definition reorder (gas : option phase) (liquids solids phases : list phase) (betas : list R) : list R :=
  flat_map (fun p => lookup p phases betas) (match gas with Some g => [g] | None => [] end ++ liquids ++ solids).
(* lines 1024-1064 *)
Definition identify_sort_phases (C : constants) (s : settings) (skip_solids : bool) (phases : list phase) (betas : option (list R)) : result (option phase * list phase * list phase * list R) :=
  match identity_phase_states skip_solids phases with
  | Err e => Err e
  | Ok (gas, liquids, solids) =>
      match betas with
      | None => Err TypeError_len
      | Some betas =>
          if (length betas =? 1)%nat then Ok (gas, liquids, solids, betas)
          else if (1 <? length liquids)%nat || (1 <? length solids)%nat then
            match sort_phases C s liquids solids with
            | Err e => Err e
            | Ok (liquids, solids) => Ok (gas, liquids, solids, reorder gas liquids solids phases betas)
            end
          else if (length liquids =? 1)%nat && (length phases =? 2)%nat && match gas with Some g => (hd 0%nat phases =? g)%nat | None => false end then Ok (gas, liquids, solids, betas)
          else Ok (gas, liquids, solids, reorder gas liquids solids phases betas)
      end
  end.
End Identify.
