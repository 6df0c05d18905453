(* thermo/flash/flash_base.py: Flash.flash (lines 158-503) and Flash.flash_phase_boundary (512-563): which algorithm is called with which values.
   The algorithms themselves (flash_TPV, flash_TVF, flash_TPV_HSGUA, ...) are not modelled here: the model returns the call. *)
From Coq Require Import Reals List Bool Arith.
From Verif Require Import Base.
Import ListNotations.
Open Scope R_scope.

(* the specification names used as dictionary keys and as fixed_var / spec / iter_var *)
Inductive var := vT | vP | vV | vH | vS | vU | vG | vA | vVF | vSF.
Definition var_eqb (a b : var) : bool := match a, b with vT, vT | vP, vP | vV, vV | vH, vH | vS, vS | vU, vU | vG, vG | vA, vA | vVF, vVF | vSF, vSF => true | _, _ => false end.

(* the keyword arguments of flash (lines 158-162); zs is None or the list of mole fractions *)
Record flash_args := {
  a_zs : option (list R); a_T : option R; a_P : option R; a_VF : option R; a_SF : option R; a_V : option R; a_H : option R; a_S : option R;
  a_G : option R; a_U : option R; a_A : option R; a_retry : bool; a_rho : option R; a_rho_mass : option R; a_H_mass : option R;
  a_S_mass : option R; a_G_mass : option R; a_U_mass : option R; a_A_mass : option R; a_H_reactive : option R }.
(* the attributes of the flasher used here: number of components, constants.MWs, constants.Hfgs, T_MIN_FLASH_ANY and the two capability flags *)
Record flasher := { f_N : nat; f_MWs : nat -> R; f_Hfgs : nat -> R; f_Tmin : R; f_VF_ok : bool; f_SF_ok : bool }.

(* what flash does: an algorithm call, or an exception *)
Inductive call :=
| Call_TPV (T P V : option R) (zs : list R)
| Call_TVF (T VF : R) (zs : list R)
| Call_PVF (P VF : R) (zs : list R)
| Call_TSF (T SF : R) (zs : list R)
| Call_PSF (P SF : R) (zs : list R)
| Call_VF_HSGUA (VF spec_val : R) (spec_var : var) (zs : list R)
| Call_TPV_HSGUA (fixed_val spec_val : R) (fixed_var spec iter_var : var) (zs : list R).
Inductive flash_error := Composition_missing | T_below_minimum | P_unphysical | V_unphysical | VF_out_of_range | VF_unsupported | SF_out_of_range | SF_unsupported | Inputs_unsupported | Not_one_specification.
Inductive outcome := Calls (c : call) (backup : option call) | Raises (e : flash_error).

(* external chemicals.utils: mixing_simple, rho_to_Vm, property_mass_to_molar *)
Definition mixing_simple (zs : list R) (props : nat -> R) : R := rsum (length zs) (fun i => nth i zs 0 * props i).
Definition rho_to_Vm (rho MW : R) : R := 1 / (rho * 1000 / MW).
Definition property_mass_to_molar (A_mass MW : R) : R := A_mass * (MW / 1000).

(* lines 62-92: spec_to_iter_vars and spec_to_iter_vars_backup *)
Definition spec_to_iter_vars (k : bool * bool * bool * bool * bool * bool) : option (var * var * var) :=
  match k with
  | (true, false, false, true, false, false) => Some (vT, vH, vP)
  | (true, false, false, false, true, false) => Some (vT, vS, vP)
  | (true, false, false, false, false, true) => Some (vT, vU, vV)
  | (false, true, false, true, false, false) => Some (vP, vH, vT)
  | (false, true, false, false, true, false) => Some (vP, vS, vT)
  | (false, true, false, false, false, true) => Some (vP, vU, vT)
  | (false, false, true, true, false, false) => Some (vV, vH, vP)
  | (false, false, true, false, true, false) => Some (vV, vS, vP)
  | (false, false, true, false, false, true) => Some (vV, vU, vP)
  | _ => None
  end.
Definition spec_to_iter_vars_backup (k : bool * bool * bool * bool * bool * bool) : option (var * var * var) :=
  match k with
  | (true, false, false, true, false, false) => Some (vT, vH, vV)
  | (true, false, false, false, true, false) => Some (vT, vS, vV)
  | (true, false, false, false, false, true) => Some (vT, vU, vP)
  | (false, true, false, true, false, false) => Some (vP, vH, vV)
  | (false, true, false, false, true, false) => Some (vP, vS, vV)
  | (false, true, false, false, false, true) => Some (vP, vU, vV)
  | (false, false, true, true, false, false) => Some (vV, vH, vT)
  | (false, false, true, false, true, false) => Some (vV, vS, vT)
  | (false, false, true, false, false, true) => Some (vV, vU, vT)
  | _ => None
  end.

Definition given (o : option R) : bool := match o with Some _ => true | None => false end.
Definition value (o : option R) : R := match o with Some v => v | None => 0 end.
Definition over (new old : option R) : option R := match new with Some _ => new | None => old end.

(* lines 263-268: the composition *)
Definition flash_zs (f : flasher) (a : flash_args) : option (list R) :=
  match a_zs a with Some zs => Some zs | None => if (f_N f =? 1)%nat then Some [1] else None end.
(* lines 282-300: density, mass based and reactive specifications replace V, H, S, G, U, A.  (The division by a zero density is not modelled.) *)
Definition flash_V (f : flasher) (a : flash_args) (zs : list R) : option R :=
  over (option_map (fun r => rho_to_Vm r (mixing_simple zs (f_MWs f))) (a_rho_mass a)) (over (option_map (fun r => 1 / r) (a_rho a)) (a_V a)).
Definition flash_mass (f : flasher) (zs : list R) (mass molar : option R) : option R := over (option_map (fun m => property_mass_to_molar m (mixing_simple zs (f_MWs f))) mass) molar.
Definition flash_H (f : flasher) (a : flash_args) (zs : list R) : option R :=
  over (option_map (fun h => h - rsum (f_N f) (fun i => nth i zs 0 * f_Hfgs f i)) (a_H_reactive a)) (flash_mass f zs (a_H_mass a) (a_H a)).

(* lines 317-370: the checks on the values, in order *)
Definition flash_checks (f : flasher) (T P V VF SF : option R) : option flash_error :=
  if given T && Rltb (value T) (f_Tmin f) then Some T_below_minimum
  else if given P && Rleb (value P) 0 then Some P_unphysical
  else if given V && Rleb (value V) 0 then Some V_unphysical
  else if given VF && (Rltb (value VF) 0 || Rltb 1 (value VF)) then Some VF_out_of_range
  else if given VF && negb (f_VF_ok f) then Some VF_unsupported
  else if given SF && (Rltb (value SF) 0 || Rltb 1 (value SF)) then Some SF_out_of_range
  else if given SF && negb (f_SF_ok f) then Some SF_unsupported
  else None.
(* lines 315-358: flash_specs, in insertion order (zs, which comes first, is left out) *)
Definition flash_specs (T P V H S U G A VF SF : option R) : list (var * R) :=
  let e k o := match o with Some v => [(k, v)] | None => [] end in
  e vT T ++ e vP P ++ e vV V ++ e vH H ++ e vS S ++ e vU U ++ e vG G ++ e vA A ++ e vVF VF ++ e vSF SF.

(* lines 372-503: the choice of the algorithm *)
Definition flash_dispatch (zs : list R) (retry : bool) (T P V H S U G A VF SF : option R) : outcome :=
  let T_spec := given T in let P_spec := given P in let V_spec := given V in let H_spec := given H in let S_spec := given S in
  let U_spec := given U in let G_spec := given G in let A_spec := given A in let VF_spec := given VF in let SF_spec := given SF in
  if (T_spec && (P_spec || V_spec)) || (P_spec && V_spec) then Calls (Call_TPV T P V zs) None
  else if T_spec && VF_spec then Calls (Call_TVF (value T) (value VF) zs) None
  else if P_spec && VF_spec then Calls (Call_PVF (value P) (value VF) zs) None
  else if T_spec && SF_spec then Calls (Call_TSF (value T) (value SF) zs) None
  else if P_spec && SF_spec then Calls (Call_PSF (value P) (value SF) zs) None
  else if VF_spec && (H_spec || S_spec || U_spec || G_spec || A_spec) then
    match find (fun kv => negb (var_eqb (fst kv) vVF)) (flash_specs T P V H S U G A VF SF) with
    | Some (spec_var, spec_val) => Calls (Call_VF_HSGUA (value VF) spec_val spec_var zs) None
    | None => Raises Inputs_unsupported
    end
  else
    let key := (T_spec, P_spec, V_spec, H_spec, S_spec, U_spec) in
    match spec_to_iter_vars key, spec_to_iter_vars_backup key with
    | Some (fixed_var, spec, iter_var), Some (_, _, iter_var_backup) =>
        let fixed_val := if T_spec then value T else if P_spec then value P else value V in
        let spec_val := if H_spec then value H else if S_spec then value S else value U in
        Calls (Call_TPV_HSGUA fixed_val spec_val fixed_var spec iter_var zs) (if retry then Some (Call_TPV_HSGUA fixed_val spec_val fixed_var spec iter_var_backup zs) else None)
    | _, _ => Raises Inputs_unsupported
    end.
(* the whole method *)
Definition flash (f : flasher) (a : flash_args) : outcome :=
  match flash_zs f a with
  | None => Raises Composition_missing
  | Some zs =>
      let V := flash_V f a zs in
      let H := flash_H f a zs in
      let S := flash_mass f zs (a_S_mass a) (a_S a) in
      let G := flash_mass f zs (a_G_mass a) (a_G a) in
      let U := flash_mass f zs (a_U_mass a) (a_U a) in
      let A := flash_mass f zs (a_A_mass a) (a_A a) in
      match flash_checks f (a_T a) (a_P a) V (a_VF a) (a_SF a) with
      | Some e => Raises e
      | None => flash_dispatch zs (a_retry a) (a_T a) (a_P a) V H S U G A (a_VF a) (a_SF a)
      end
  end.

(* lines 512-543: flash_phase_boundary: the specification, its value, and the two iteration variables; later tests overwrite earlier ones *)
Definition flash_phase_boundary (T P V H S U : option R) : flash_error + (var * R * var * var) :=
  let spec_count := (Nat.b2n (given T) + Nat.b2n (given P) + Nat.b2n (given V) + Nat.b2n (given H) + Nat.b2n (given S) + Nat.b2n (given U))%nat in
  if negb (spec_count =? 1)%nat then inl Not_one_specification
  else
    let r := (vT, value T, vP, vH) in
    let r := if given P then (vP, value P, vT, vH) else r in
    let r := if given V then (vV, value V, vP, vH) else r in
    let r := if given H then (vH, value H, vP, vT) else r in
    let r := if given S then (vS, value S, vP, vT) else r in
    let r := if given U then (vU, value U, vP, vT) else r in
    inr r.
