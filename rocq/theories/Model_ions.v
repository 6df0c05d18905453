(* thermo/electrochem.py: balance_ions and its helpers (lines 1436-1791), and ionic_strength (1158-1198). *)
From Coq Require Import Reals List Bool Arith.
From Verif Require Import Base.
Import ListNotations.
Open Scope R_scope.

(* An ion object: `in` and `index` compare identities; charge and MW are the attributes read. *)
Record ion := { i_id : nat; i_charge : R; i_MW : R }.
Inductive ion_method :=
| Dominant | Decrease_dominant | Increase_dominant | Other_dominant        (* Other_*: any other string containing 'dominant' / 'proportional' *)
| Insufficient_increase | Excess_decrease | Cation_adjustment | Anion_adjustment | Other_proportional
| NaCl_increase | NaCl_decrease | Adjust | Increase | Decrease | Makeup | Unrecognized.
(* exceptions; Index stands for IndexError / ValueError of list.index, Unbound for a local variable read before assignment *)
Inductive ion_error := Negative_fraction | Zero_division | Wrong_direction | No_charge | No_ion | No_composition | Bad_method | Unbound.
Inductive ires (A : Type) := IOk (a : A) | IErr (e : ion_error).
Arguments IOk {A}. Arguments IErr {A}.
Definition lsum (l : list R) : R := fold_right Rplus 0 l.
Definition products (zs charges : list R) : list R := map (fun p => fst p * snd p) (combine zs charges).
(* first position of an extreme value, list.index(min(l)), list.index(max(l)) *)
Definition lmin (l : list R) : R := match l with [] => 0 | x :: l => fold_left (fun m y => if Rltb y m then y else m) l x end.
Definition lmax (l : list R) : R := match l with [] => 0 | x :: l => fold_left (fun m y => if Rltb m y then y else m) l x end.
Fixpoint lindex (x : R) (l : list R) : nat := match l with [] => 0%nat | y :: l => if Reqb y x then 0%nat else S (lindex x l) end.
Fixpoint replace (k : nat) (v : R) (l : list R) : list R := match l, k with [], _ => [] | _ :: l, O => v :: l | x :: l, S k => x :: replace k v l end.
(* list.insert(i, v) for 0 <= i <= len *)
Definition insert_at (k : nat) (v : R) (l : list R) : list R := firstn k l ++ v :: skipn k l.
Definition mem (x : ion) (l : list ion) : bool := existsb (fun y => (i_id y =? i_id x)%nat) l.
Fixpoint position (x : ion) (l : list ion) : nat := match l with [] => 0%nat | y :: l => if (i_id y =? i_id x)%nat then 0%nat else S (position x l) end.
Definition triple := (list R * list R * R)%type.

(* lines 1491-1500: ion_balance_adjust_one *)
Definition ion_balance_adjust_one (charges zs : list R) (n_anions n_cations adjust : nat) : ires triple :=
  let main_tot := lsum (map (fun i => nth i zs 0 * nth i charges 0) (filter (fun i => negb (i =? adjust)%nat) (seq 0 (length charges)))) in
  if Reqb (nth adjust charges 0) 0 then IErr Zero_division
  else
    let z := - main_tot / nth adjust charges 0 in
    let zs := replace adjust z zs in
    if Rltb z 0 then IErr Negative_fraction
    else IOk (firstn n_anions zs, firstn n_cations (skipn n_anions zs), 1 - lsum (firstn (length zs - 1) zs)).
(* lines 1503-1527: ion_balance_dominant; the dominant ion is the one with the extreme charge contribution *)
Definition ion_balance_dominant (impacts : list R) (balance_error : R) (charges zs : list R) (n_anions n_cations : nat) (method : ion_method) : ires triple :=
  let low := lmin impacts in let high := lmax impacts in
  let adjust := match method with
    | Dominant => Some (if Rltb high (Rabs low) then lindex low impacts else lindex high impacts)
    | Decrease_dominant => Some (if Rltb balance_error 0 then lindex low impacts else lindex high impacts)
    | Increase_dominant => Some (if Rltb balance_error 0 then lindex high impacts else lindex low impacts)
    | _ => None end in
  match adjust with Some k => ion_balance_adjust_one charges zs n_anions n_cations k | None => IErr Bad_method end.
(* lines 1530-1563: ion_balance_proportional *)
Definition scale (m : R) (l : list R) : list R := map (fun i => i * m) l.
Definition ion_balance_proportional (anion_charges cation_charges zs : list R) (n_anions n_cations : nat) (balance_error : R) (method : ion_method) : ires triple :=
  let anion_zs := firstn n_anions zs in
  let cation_zs := firstn n_cations (skipn n_anions zs) in
  let ae := lsum (products anion_zs anion_charges) in
  let ce := lsum (products cation_zs cation_charges) in
  let cations_scaled := if Reqb ce 0 then IErr Zero_division else IOk (anion_zs, scale (- ae / ce) cation_zs) in
  let anions_scaled := if Reqb ae 0 then IErr Zero_division else IOk (scale (- ce / ae) anion_zs, cation_zs) in
  let r := match method with
    | Insufficient_increase => if Rltb balance_error 0 then cations_scaled else anions_scaled
    | Excess_decrease => if Rltb balance_error 0 then anions_scaled else cations_scaled
    | Cation_adjustment => cations_scaled
    | Anion_adjustment => anions_scaled
    | _ => IErr Bad_method end in
  match r with IErr e => IErr e | IOk (anion_zs, cation_zs) => IOk (anion_zs, cation_zs, 1 - lsum anion_zs - lsum cation_zs) end.
(* lines 1447-1488: ion_balance_adjust_wrapper; the anion and cation lists it extends are returned as well *)
Definition ion_balance_adjust_wrapper (charges zs : list R) (anions cations : list ion) (selected : ion) (increase : option bool) : ires (list ion * list ion * triple) :=
  let charge := i_charge selected in
  let n_anions := length anions in let n_cations := length cations in
  if Reqb charge 0 then IErr No_charge
  else
    let '(charges, zs, anions, cations, anion_index, cation_index, adjust, old_zi) :=
      if negb (mem selected anions) && negb (mem selected cations) then
        if Rltb charge 0 then
          (insert_at n_anions charge charges, insert_at n_anions 0 zs, anions ++ [selected], cations, Some n_anions, None, n_anions, 0)
        else
          (insert_at (length charges - 1) charge charges, insert_at (length zs - 1) 0 zs, anions, cations ++ [selected], None, Some n_cations, (n_anions + n_cations)%nat, 0)
      else if mem selected anions then
        (charges, zs, anions, cations, Some (position selected anions), None, position selected anions, nth (position selected anions) zs 0)
      else
        (charges, zs, anions, cations, None, Some (position selected cations), (n_anions + position selected cations)%nat, nth (n_anions + position selected cations) zs 0) in
    match ion_balance_adjust_one charges zs (length anions) (length cations) adjust with
    | IErr e => IErr e
    | IOk (anion_zs, cation_zs, z_water) =>
        match (if Rltb 0 charge then option_map (fun k => nth k cation_zs 0) cation_index else option_map (fun k => nth k anion_zs 0) anion_index) with
        | None => IErr Unbound
        | Some new_zi =>
            if match increase with Some true => Rltb new_zi old_zi | Some false => Rltb old_zi new_zi | None => false end then IErr Wrong_direction
            else IOk (anions, cations, (anion_zs, cation_zs, z_water))
        end
    end.
(* chemicals.utils.ws_to_zs *)
Definition ws_to_zs (ws MWs : list R) : list R := let l := map (fun p => fst p / snd p) (combine ws MWs) in map (fun x => x / lsum l) l.
(* the mole fractions of the ions, then water (lines 1696-1717) *)
Definition ion_fractions (anions cations : list ion) (anion_zs cation_zs anion_concs cation_concs : option (list R)) (rho_w : R) : option (list R) :=
  let rho_w := rho_w * (1 / 1000) in
  match anion_concs, cation_concs with
  | Some ac, Some cc =>
      let ws := map (fun i => i * (1 / 1000000) / rho_w) in
      Some (ws_to_zs (ws ac ++ ws cc ++ [1 - lsum (ws ac) - lsum (ws cc)]) (map i_MW anions ++ map i_MW cations ++ [18.01528]))
  | _, _ => match anion_zs, cation_zs with
            | Some az, Some cz => Some ((az ++ cz) ++ [1 - lsum (az ++ cz)])
            | _, _ => None end
  end.
(* lines 1683-1791: balance_ions.  Na, Cl: the two ions found by name in the identifier database; makeup: the tuple (anion, cation) given as
   selected_ion for that method.  A missing selected_ion with 'makeup' (TypeError in the code) is reported as No_ion too. *)
Definition balance_ions (Na Cl : ion) (anions cations : list ion) (anion_zs cation_zs anion_concs cation_concs : option (list R)) (rho_w : R) (method : ion_method) (selected : option ion) (makeup : option (ion * ion)) : ires (list ion * list ion * triple) :=
  let n_anions := length anions in let n_cations := length cations in
  let anion_charges := map i_charge anions in let cation_charges := map i_charge cations in
  let charges := anion_charges ++ cation_charges ++ [0] in
  match ion_fractions anions cations anion_zs cation_zs anion_concs cation_concs rho_w with
  | None => IErr No_composition
  | Some zs =>
      let impacts := products zs charges in
      let balance_error := lsum impacts in
      let keep r := match r with IErr e => IErr e | IOk t => IOk (anions, cations, t) end in
      let wrap ion increase := match ion with None => IErr No_ion | Some i => ion_balance_adjust_wrapper charges zs anions cations i increase end in
      if Rltb (Rabs balance_error) (1 / 10 ^ 7) then IOk (anions, cations, (firstn n_anions zs, firstn n_cations (skipn n_anions zs), last zs 0))
      else match method with
        | Dominant | Decrease_dominant | Increase_dominant | Other_dominant => keep (ion_balance_dominant impacts balance_error charges zs n_anions n_cations method)
        | Insufficient_increase | Excess_decrease | Cation_adjustment | Anion_adjustment | Other_proportional =>
            keep (ion_balance_proportional anion_charges cation_charges zs n_anions n_cations balance_error method)
        | NaCl_increase => wrap (Some (if Rltb balance_error 0 then Na else Cl)) (Some true)
        | NaCl_decrease => wrap (Some (if Rltb 0 balance_error then Na else Cl)) (Some false)
        | Adjust => wrap selected None
        | Increase => wrap selected (Some true)
        | Decrease => wrap selected (Some false)
        | Makeup => wrap (option_map (fun p => if Rltb balance_error 0 then snd p else fst p) makeup) (Some true)
        | Unrecognized => IErr Bad_method
        end
  end.
