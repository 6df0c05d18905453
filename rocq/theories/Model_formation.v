(* Model of standard entropies and standard state formation properties: thermo/chemical_utils.py.
   Simplifications: numbers are reals; the numerical integrals of heat capacities (quad, T_dependent_property_integral and
   T_dependent_property_integral_over_T) are the exact integrals; the heat capacity objects of an element are the functions
   of temperature they compute after the choice of method in lines 305-314. *)
From Coq Require Import Reals List String Bool Arith.
From Coquelicot Require Import Coquelicot.
From Verif Require Import Base.
Import ListNotations.
Open Scope R_scope.

(* T_dependent_property_integral and T_dependent_property_integral_over_T of a heat capacity (chemical_utils.py 60, 78, 285-286) *)
Definition int_T (Cp : R -> R) (T1 T2 : R) : R := RInt Cp T1 T2.
Definition int_over_T (Cp : R -> R) (T1 T2 : R) : R := RInt (fun T => Cp T / T) T1 T2.

(* the sum over zip(dH_trans_s, T_trans_s): chemical_utils.py 51-54 *)
Fixpoint transition_entropies (l : list (R * R)) (T_ref : R) (force_gas : bool) : R :=
  match l with
  | [] => 0
  | (dH, T) :: r => (if Rltb T T_ref || force_gas then dH / T else 0) + transition_entropies r T_ref force_gas
  end.

(* sum(dS_trans_s): chemical_utils.py 49-50 *)
Fixpoint sum_list (l : list R) : R := match l with [] => 0 | a :: r => a + sum_list r end.

(* standard_entropy: chemical_utils.py 33-94.  Simplification: Tm, Tb, Hfusm, Hvapm and the heat capacities are the ones given
   or those of the chemical (38-45); an absent list is the empty list. *)
Definition standard_entropy (dS_trans_s : list R) (trans : list (R * R)) (Cp_s : R -> R) (Sfusm : option R) (Hfusm Tm : R) (Cp_l : R -> R)
  (Svapm : option R) (Hvapm Tb : R) (Cp_g : R -> R) (T_ref T_low : R) (force_gas : bool) : R :=
  let tot := 0 + sum_list dS_trans_s in
  let tot := tot + transition_entropies trans T_ref force_gas in
  let tot := tot + int_over_T Cp_s T_low Tm in
  let tot := if force_gas || Rltb Tm T_ref then match Sfusm with Some s => tot + s | None => tot + Hfusm / Tm end else tot in
  let T_liquid_int := if negb force_gas && Rltb T_ref Tb then T_ref else Tb in
  let tot := if force_gas || Rltb Tm T_ref then tot + int_over_T Cp_l Tm T_liquid_int else tot in
  let tot := if force_gas || Rltb Tb T_ref then match Svapm with Some s => tot + s | None => tot + Hvapm / Tb end else tot in
  if force_gas || Rltb Tb T_ref then tot + int_over_T Cp_g Tb T_ref else tot.

(* S0_basis_converter: chemical_utils.py 97-147; None is the ValueError *)
Definition S0_basis_converter (Cp_l Cp_g : R -> R) (Hvap Tb : R) (S0_liq S0_gas : option R) (T_ref : R) : option R :=
  match S0_liq, S0_gas with
  | None, None => None
  | None, Some s =>
      let dS := int_over_T Cp_g T_ref Tb in
      let dS := dS - Hvap / Tb in
      let dS := dS + int_over_T Cp_l Tb T_ref in
      Some (s + dS)
  | Some s, _ =>
      let dS := int_over_T Cp_l T_ref Tb in
      let dS := dS + Hvap / Tb in
      let dS := dS + int_over_T Cp_g Tb T_ref in
      Some (s + dS)
  end.

(* standard_state_transitions: chemical_utils.py 150-171, (Tm, Tb, Hfus, Hvap) *)
Definition transitions : list (string * (R * R * R * R)) :=
  [("Si"%string, (1687.15, 3504.616, 50210, 384548)); ("Br"%string, (265.9, 332.503, 10571, 29563)); ("I"%string, (386.75, 457.666, 15517, 41960));
   ("B"%string, (2350, 4139.449, 50208, 480509)); ("Mg"%string, (923, 1366.104, 8477, 127867)); ("Hg"%string, (234.29, 629.839, 2295, 59205));
   ("Pb"%string, (600.6, 2019.022, 4774, 177582)); ("Li"%string, (453.69, 1620.12, 3000, 145843)); ("Na"%string, (370.98, 1170.525, 2603, 97022));
   ("Al"%string, (933.45, 2790.812, 10711, 294002)); ("K"%string, (336.35, 1039.54, 2334, 79556)); ("V"%string, (2190, 3690.08, 22845, 446977));
   ("Cr"%string, (2130, 2952.078, 20502, 339537))].

(* standard_state_supported_elements: chemical_utils.py 173-175 *)
Definition supported : list string :=
  ["H"; "O"; "N"; "F"; "P"; "Cl"; "Br"; "I"; "Mg"; "B"; "Pb"; "Li"; "Na"; "Al"; "K"; "V"; "Cr"; "C"; "Si"; "Hg"]%string.

Fixpoint assoc {A : Type} (k : string) (l : list (string * A)) : option A :=
  match l with [] => None | (k', v) :: r => if String.eqb k k' then Some v else assoc k r end.

(* the heat capacity objects of the elements: chemical_utils.py 177-205 and 299-301 *)
Record element_data := { solid_Cp : string -> R -> R; liquid_Cp : string -> R -> R; gas_Cp : string -> R -> R }.

(* the branch of an element with a tabulated melting and boiling point: chemical_utils.py 316-335 *)
Definition melting_deltas (D : element_data) (ele : string) (Tm Tb Hfus Hvap T_ref T : R) : R * R :=
  let Tm_solid_int := Rmin T Tm in
  let T_liquid_int := Rmin T Tb in
  let dH := int_T (solid_Cp D ele) T_ref Tm_solid_int in
  let dS := int_over_T (solid_Cp D ele) T_ref Tm_solid_int in
  let '(dH, dS) := if Rltb Tm T
    then (dH + Hfus + int_T (liquid_Cp D ele) Tm T_liquid_int, dS + Hfus / Tm + int_over_T (liquid_Cp D ele) Tm T_liquid_int)
    else (dH, dS) in
  if Rltb Tb T
  then (dH + Hvap + int_T (gas_Cp D ele) Tb T, dS + Hvap / Tb + int_over_T (gas_Cp D ele) Tb T)
  else (dH, dS).

(* the branch of phosphorus: chemical_utils.py 336-370 *)
Definition phosphorus_deltas (D : element_data) (ele : string) (T_ref T : R) : R * R :=
  let T_ab := 195.4 in let H_ab := 521 in let Tm := 317.3 in let Hfus := 659 in let Tb := 1180.008 in let Hvap := 63728 in
  let T_solid_int1 := Rmin T Tm in
  let T_liquid_int := Rmin T Tb in
  if Rltb T T_ab
  then (int_T (solid_Cp D ele) T_ref T - H_ab, int_over_T (solid_Cp D ele) T_ref T - H_ab / T_ab)
  else
    let dH := int_T (solid_Cp D ele) T_ref T_solid_int1 in
    let dS := int_over_T (solid_Cp D ele) T_ref T_solid_int1 in
    let '(dH, dS) := if Rltb Tm T
      then (dH + Hfus + int_T (liquid_Cp D ele) Tm T_liquid_int, dS + Hfus / Tm + int_over_T (liquid_Cp D ele) Tm T_liquid_int)
      else (dH, dS) in
    if Rltb Tb T
    then (dH + Hvap + int_T (gas_Cp D ele) Tb T, dS + Hvap / Tb + int_over_T (gas_Cp D ele) Tb T)
    else (dH, dS).

(* dH_ele and dS_ele of one element: chemical_utils.py 316-390; None is the NotImplementedError of line 376 *)
Definition element_deltas (D : element_data) (ele : string) (T_ref T : R) : option (R * R) :=
  match assoc ele transitions with
  | Some (Tm, Tb, Hfus, Hvap) => Some (melting_deltas D ele Tm Tb Hfus Hvap T_ref T)
  | None =>
      if String.eqb ele "P" then Some (phosphorus_deltas D ele T_ref T)
      else if String.eqb ele "S" then None
      else if String.eqb ele "C" then Some (int_T (solid_Cp D ele) T_ref T, int_over_T (solid_Cp D ele) T_ref T)
      else if String.eqb ele "" then Some (int_T (liquid_Cp D ele) T_ref T, int_over_T (liquid_Cp D ele) T_ref T)
      else Some (int_T (gas_Cp D ele) T_ref T, int_over_T (gas_Cp D ele) T_ref T)
  end.

(* the loop over the elements: chemical_utils.py 295-303, 391-392; None is NotImplementedError *)
Fixpoint subtract_elements (D : element_data) (T_ref T : R) (l : list (R * string)) (H Se : R) : option (R * R) :=
  match l with
  | [] => Some (H, Se)
  | (coeff, ele) :: r =>
      if existsb (String.eqb ele) supported then
        match element_deltas D ele T_ref T with
        | Some (dH, dS) => subtract_elements D T_ref T r (H - coeff * dH) (Se - coeff * dS)
        | None => None
        end
      else None
  end.

(* the reaction returned by chemicals.reaction.standard_formation_reaction: coefficient of the compound, counts and elements *)
Definition reaction : Type := (R * list R * list string)%type.

(* what follows once the reaction is known: chemical_utils.py 285-397 *)
Definition formation_of_reaction (D : element_data) (rx : reaction) (T Hf_ref Sf_ref : R) (Cp_compound : R -> R) (T_ref : R) : option (R * R * R) :=
  let '(nu, counts, comp) := rx in
  let dH_compound := int_T Cp_compound T_ref T in
  let dS_compound := int_over_T Cp_compound T_ref T in
  match subtract_elements D T_ref T (combine counts comp) (nu * Hf_ref + nu * dH_compound) (nu * Sf_ref + nu * dS_compound) with
  | None => None
  | Some (H, Se) => let G := H - T * Se in Some (H / nu, Se / nu, G / nu)
  end.

Inductive formation_result := Formed (H Se G : R) | NotImplementedErr | UnboundLocalErr.

(* _standard_state_ideal_gas_formation_direct: chemical_utils.py 270-397.  The cache is the dictionary in order of insertion; key is
   hash(tuple(atoms.items())) and react is standard_formation_reaction.  Without the cache the names reactant_coeff … are not bound (283). *)
Definition formation_direct {atoms : Type} (key : atoms -> nat) (react : atoms -> reaction) (D : element_data) (use_cache : bool)
  (store : list (nat * reaction)) (a : atoms) (T Hf_ref Sf_ref : R) (Cp_compound : R -> R) (T_ref : R) : formation_result * list (nat * reaction) :=
  if use_cache then
    let '(rx, store') := match find (fun e => Nat.eqb (fst e) (key a)) store with
      | Some e => (snd e, store)
      | None => let s := store ++ [(key a, react a)] in (react a, if Nat.ltb 250 (List.length s) then tl s else s)
      end in
    (match formation_of_reaction D rx T Hf_ref Sf_ref Cp_compound T_ref with Some (H, Se, G) => Formed H Se G | None => NotImplementedErr end, store')
  else (UnboundLocalErr, store).

(* standard_state_ideal_gas_formation: chemical_utils.py 208-266; Hfgm and Sfgm are those of the chemical *)
Definition standard_state_ideal_gas_formation {atoms : Type} (key : atoms -> nat) (react : atoms -> reaction) (D : element_data)
  (store : list (nat * reaction)) (a : atoms) (Hfgm Sfgm : R) (Cp_compound : R -> R) (T : R) (Hf Sf : option R) (T_ref : R) :=
  let Hf_ref := match Hf with Some h => h | None => Hfgm end in
  let Sf_ref := match Sf with Some s => s | None => Sfgm end in
  formation_direct key react D true store a T Hf_ref Sf_ref Cp_compound T_ref.
