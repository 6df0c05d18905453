(* Model of the entry of the flash with several liquids at T and P: thermo/flash/flash_vln.py, phases_at (240-273), flash_TPV_hot (281-303),
   flash_TP_K_composition_idependent (306-337) and the head of flash_TPV (339-353).
   Simplifications: numbers are reals; a phase is a value of an abstract type with the operations to(T, P, zs) and phis_at(T, P, zs);
   flash_inner_loop is a parameter, None being its PhaseCountReducedError. *)
From Coq Require Import Reals List Bool Arith.
From Verif Require Import Base.
Import ListNotations.
Open Scope R_scope.

Section KFlash.
Variables (Phase : Type) (to : Phase -> R -> R -> (nat -> R) -> Phase) (phis_at : Phase -> R -> R -> (nat -> R) -> nat -> R).

(* the flags K_low and K_high over the components: flash_vln.py 316-322 *)
Fixpoint K_flags (n : nat) (z K : nat -> R) : bool * bool :=
  match n with
  | O => (false, false)
  | S k =>
      let '(low, high) := K_flags k z K in
      if negb (Reqb (z k) 0) then (if Rltb 1 (K k) then (low, true) else (true, high)) else (low, high)
  end.

(* the values returned (gas, liquids, betas), or ValueError("Error"); the empty list of solids and the convergence record are left out *)
Inductive outcome := Found (gas : option Phase) (liquids : list Phase) (betas : list R) | ValueErr.

(* flash_TP_K_composition_idependent: flash_vln.py 306-337 *)
Definition flash_TP_K (n : nat) (max_phases : nat) (phase0 gas liquid0 : Phase)
  (inner : (nat -> R) -> (nat -> R) -> option (R * (nat -> R) * (nat -> R))) (T P : R) (zs : nat -> R) : outcome :=
  if Nat.eqb max_phases 1 then Found None [to phase0 T P zs] [1]
  else
    let Ks := phis_at liquid0 T P zs in
    let split VF xs ys :=
      if Rltb 1 VF then Found None [to gas T P zs] [1]
      else if Rltb VF 0 then Found None [to liquid0 T P zs] [1]
      else Found (Some (to gas T P ys)) [to liquid0 T P xs] [VF; 1 - VF] in
    match inner zs Ks with
    | Some (VF, xs, ys) => split VF xs ys
    | None =>
        let '(K_low, K_high) := K_flags n zs Ks in
        if K_low && negb K_high then split (- (1 / 2)) zs zs
        else if K_high && negb K_low then split (3 / 2) zs zs
        else ValueErr
    end.

(* the inner loop of phases_at over liquids_to_unique_liquids: flash_vln.py 251-253 *)
Fixpoint assign (i : nat) (l : Phase) (idxs : list nat) (liquids : list (option Phase)) : list (option Phase) :=
  match idxs, liquids with
  | idx :: r, c :: q => (if Nat.eqb idx i then Some l else c) :: assign i l r q
  | _, _ => liquids
  end.

(* the loop over unique_liquids: flash_vln.py 249-258 *)
Fixpoint assign_all (i : nat) (unique : list Phase) (T P : R) (zs : nat -> R) (idxs : list nat) (liquids : list (option Phase)) : list (option Phase) :=
  match unique with
  | [] => liquids
  | liq :: r => assign_all (S i) r T P zs idxs (assign i (to liq T P zs) idxs liquids)
  end.

(* phases_at without a volume: flash_vln.py 245-262.  Simplification: the gas made from the solved equation of state of a liquid (256)
   is the gas at the conditions. *)
Definition phases_at (gas : Phase) (unique : list Phase) (idxs : list nat) (max_liquids : nat) (T P : R) (zs : nat -> R) :
  Phase * list (option Phase) * list (option Phase) :=
  let liquids := assign_all 0 unique T P zs idxs (repeat None max_liquids) in
  let g := to gas T P zs in
  (g, liquids, Some g :: liquids).
End KFlash.
Arguments Found {Phase}.
Arguments ValueErr {Phase}.

Section Entry.
Variable res : Type.

(* flash_TPV_hot: flash_vln.py 281-303; None is an exception.  two: what flash_2P gives, with flags for an empty first and second part;
   many: the result of sequential_substitution_NP; cold: flash_TPV without hot_start.  With one phase the name failed is not bound (302). *)
Definition flash_TPV_hot (phase_count : nat) (two : option (bool * bool * res)) (many cold : option res) : option res :=
  if Nat.eqb phase_count 2 then
    match two with
    | None => None
    | Some (empty0, empty1, r) => let failed := empty0 && empty1 in if negb failed then Some r else cold
    end
  else if Nat.ltb 2 phase_count then many
  else None.

(* the head of flash_TPV: flash_vln.py 339-353; general: the rest of the function *)
Definition flash_TPV (T P : option R) (hot_start : option nat) (solution K_independent hack : bool)
  (PV TV : option res) (two : option (bool * bool * res)) (many K_flash general : option res) : option res :=
  match T, P with
  | None, _ => PV
  | _, None => TV
  | Some _, Some _ =>
      let cold := if K_independent && hack && negb solution then K_flash else general in
      match hot_start with
      | Some c =>
          if Nat.ltb 1 c && negb solution
          then match flash_TPV_hot c two many cold with Some r => Some r | None => cold end
          else cold
      | None => cold
      end
  end.
End Entry.
