(* thermo/property_package.py, StabilityTester: the guesses of the stability test (lines 247-542). Compositions are lists of fractions.
   Not modelled: stationary_points_unconstrained and stationary_points_constrained (SciPy minimisations), and the order in which a
   caller interleaves reading the generators with other uses of the global random number generator. *)
From Coq Require Import String Reals List Bool Arith.
From Verif Require Import Base.
Import ListNotations.
Open Scope R_scope.

Inductive exn := ZeroDivision | IndexErr | TypeErr.
(* a generator: what it yields, then how it ends *)
Inductive item := Yield (g : list R) | Raise (e : exn).
Record generated := { yielded : list (list R); ended : option exn }.
Fixpoint run (l : list item) : generated :=
  match l with
  | [] => {| yielded := []; ended := None |}
  | Raise e :: _ => {| yielded := []; ended := Some e |}
  | Yield g :: l => let r := run l in {| yielded := g :: yielded r; ended := ended r |}
  end.

Definition lsum (l : list R) : R := fold_right Rplus 0 l.
(* chemicals.utils.normalize: every entry times 1/sum(values) *)
Definition normalize (l : list R) : item := if Reqb (lsum l) 0 then Raise ZeroDivision else Yield (map (fun x => x * (1 / lsum l)) l).
(* K**e for K >= 0; the powers used are 1, -1, 1/3 and -1/3, and zero to a negative power raises in Python: only reached with K <> 0 *)
Definition pw (K e : R) : R := if Reqb K 0 then 0 else Rpower K e.
(* guess[k] = v *)
Fixpoint set_nth (k : nat) (v : R) (l : list R) : list R :=
  match l, k with [], _ => [] | _ :: t, O => v :: t | x :: t, S k => x :: set_nth k v t end.

(* the attributes (lines 254-265); CASs=None gives water_index None *)
Record tester := { t_N : nat; t_Tcs : list R; t_Pcs : list R; t_omegas : list R; t_water : option nat }.
(* CASs.index(CAS_H2O) *)
Fixpoint index_of (c : string) (l : list string) : option nat :=
  match l with [] => None | x :: t => if String.eqb x c then Some 0%nat else option_map S (index_of c t) end.
Definition StabilityTester (Tcs Pcs omegas : list R) (CASs : option (list string)) : tester :=
  {| t_N := length Tcs; t_Tcs := Tcs; t_Pcs := Pcs; t_omegas := omegas; t_water := match CASs with Some l => index_of "7732-18-5"%string l | None => None end |}.

(* the argument random: True, or a number (False is 0) *)
Inductive rnd := All_components | Number (n : nat).

Section Guesses.
Variable s : tester.
(* the values drawn by uniform(0, 1) after seed(0) *)
Variable u : nat -> R.
(* thermo.utils random_values *)
Variable random_values : list R.

(* lines 331-337 *)
Definition random_guesses (N : option nat) : list item :=
  let N := match N with Some n => n | None => t_N s end in
  map (fun k => normalize (map (fun j => u (k * N + j)%nat) (seq 0 N))) (seq 0 N).
(* lines 339-343 *)
Definition pure_guesses (zero_fraction : R) : list item :=
  map (fun k => normalize (map (fun j => if negb (Nat.eqb j k) then zero_fraction else 1) (seq 0 (t_N s)))) (seq 0 (t_N s)).
(* chemicals.flash_basic.Wilson_K_value *)
Definition Wilson_K_value (T P Tc Pc omega : R) : R := Pc / P * exp (537 / 100 * (1 + omega) * (1 - Tc / T)).
Definition Ks_Wilson (T P : R) : list R :=
  map (fun i => Wilson_K_value T P (nth i (t_Tcs s) 0) (nth i (t_Pcs s) 0) (nth i (t_omegas s) 0)) (seq 0 (t_N s)).
Definition zip_with (f : R -> R -> R) (a b : list R) : list R := map (fun p => f (fst p) (snd p)) (combine a b).
(* lines 345-354 *)
Definition Wilson_guesses (T P : R) (zs : list R) (powers : list R) : list item :=
  map (fun power => normalize (zip_with (fun Ki zi => pw Ki power * zi) (Ks_Wilson T P) zs)) powers.
Definition default_powers : list R := [1; -1; 1 / 3; - (1 / 3)].

(* the names; 'pure%d' and 'random%d' with their number *)
Inductive gname := Wilson_gas | Wilson_liquid | Wilson_gas_third | Wilson_liquid_third | Pure (k : nat) | Random (k : nat).
Inductive name_result := Name (n : gname) | No_name | Name_raises (e : exn).
(* lines 356-373 *)
Definition incipient_guess_name (idx : nat) (expect_liquid expect_aqueous : bool) : name_result :=
  let liquids := [Wilson_liquid; Wilson_liquid_third; Wilson_gas_third; Wilson_gas] in
  let pick := fun l i => match nth_error l i with Some n => Name n | None => Name_raises IndexErr end in
  if Nat.ltb idx 4 then
    if negb expect_liquid then pick [Wilson_gas; Wilson_liquid; Wilson_gas_third; Wilson_liquid_third] idx
    else if expect_aqueous then
      if Nat.eqb idx 0 then match t_water s with Some k => Name (Pure k) | None => Name_raises TypeErr end
      else pick liquids (idx - 1)%nat
    else pick liquids idx
  else if expect_aqueous then No_name
  else if (Nat.ltb 3 idx && Nat.leb idx (3 + t_N s))%bool then Name (Pure (idx - 3))
  else if Nat.ltb (3 + t_N s) idx then Name (Random (idx - (3 + t_N s)))
  else No_name.

(* one almost pure guess: lines 394-398, 436-440, 464-469 *)
Definition almost_pure (N k : nat) (zero_fraction : R) : item :=
  if Reqb (INR N - 1) 0 then Raise ZeroDivision
  else if Nat.ltb k N then Yield (set_nth k (1 - zero_fraction) (repeat (zero_fraction / (INR N - 1)) N)) else Raise IndexErr.
(* lines 375-398; None for a name it does not know *)
Definition incipient_guess_named (T P : R) (zs : list R) (name : gname) (zero_fraction : R) : option item :=
  match name with
  | Wilson_gas => Some (normalize (zip_with (fun Ki zi => Ki * zi) (Ks_Wilson T P) zs))
  | Wilson_liquid => Some (normalize (zip_with (fun Ki zi => zi / Ki) (Ks_Wilson T P) zs))
  | Wilson_gas_third => Some (normalize (zip_with (fun Ki zi => pw Ki (1 / 3) * zi) (Ks_Wilson T P) zs))
  | Wilson_liquid_third => Some (normalize (zip_with (fun Ki zi => pw Ki (- (1 / 3)) * zi) (Ks_Wilson T P) zs))
  | Pure k => Some (almost_pure (t_N s) k zero_fraction)
  | Random _ => None
  end.

(* lines 400-486 *)
Definition incipient_guesses (T P : R) (zs : list R) (pure Wilson : bool) (random : rnd) (zero_fraction : R) (expect_liquid expect_aqueous : bool) : generated :=
  let N := t_N s in
  let RANDOM_MAX_GUESSES := match random with All_components => N | Number n => n end in
  let P_inv := 1 / P in let T_inv := 1 / T in
  let Ks := map (fun i => nth i (t_Pcs s) 0 * P_inv * exp (537 / 100 * (1 + nth i (t_omegas s) 0) * (1 - nth i (t_Tcs s) 0 * T_inv))) (seq 0 N) in
  let est := fun (f : R -> R -> R) => normalize (map (fun i => f (nth i Ks 0) (nth i zs 0)) (seq 0 N)) in
  let all_wilson_zero := forallb (fun K => Reqb K 0) Ks in
  let any_wilson_zero := existsb (fun K => Reqb K 0) Ks in
  let wilson_unlikely := forallb (fun K => negb (Rltb (1 / 10 ^ 100) K)) Ks in
  let wilson :=
    if negb Wilson then [] else
    if (expect_liquid && negb all_wilson_zero && negb wilson_unlikely)%bool then
      (if expect_aqueous then [match t_water s with Some k => almost_pure N k zero_fraction | None => if Reqb (INR N - 1) 0 then Raise ZeroDivision else Raise TypeErr end] else []) ++
      (if negb any_wilson_zero then [est (fun K z => z / K); est (fun K z => pw K (- (1 / 3)) * z)] else []) ++
      [est (fun K z => pw K (1 / 3) * z); est (fun K z => K * z)]
    else if (negb all_wilson_zero && negb wilson_unlikely)%bool then
      [est (fun K z => K * z)] ++
      (if negb any_wilson_zero then [est (fun K z => z / K)] else []) ++
      [est (fun K z => pw K (1 / 3) * z)] ++
      (if negb any_wilson_zero then [est (fun K z => pw K (- (1 / 3)) * z)] else [])
    else [] in
  let pures := if pure then (if Reqb (INR N - 1) 0 then [Raise ZeroDivision] else map (fun k => almost_pure N k zero_fraction) (seq 0 N)) else [] in
  let randoms :=
    if Nat.ltb 1000 (RANDOM_MAX_GUESSES * N) then
      flat_map (fun i => map (fun k => normalize (map (fun j => u (k * N + j)%nat) (seq 0 N))) (seq 0 N)) (seq 0 RANDOM_MAX_GUESSES)
    else
      map (fun i => let guess := firstn N (skipn (i * N) random_values) in
                    if Reqb (lsum guess) 0 then Raise ZeroDivision else Yield (map (fun x => x * (1 / lsum guess)) guess)) (seq 0 RANDOM_MAX_GUESSES) in
  run (wilson ++ pures ++ randoms).

(* lines 526-542: a list, so an exception leaves nothing *)
Definition guesses (T P : R) (zs : list R) (pure Wilson : bool) (random : rnd) (zero_fraction : R) : generated :=
  run ((if Wilson then Wilson_guesses T P zs default_powers else []) ++
       (if pure then pure_guesses zero_fraction else []) ++
       match random with All_components => random_guesses None | Number O => [] | Number n => random_guesses (Some n) end).
(* lines 488-522: the list is made first; then pop(0) max_guesses times *)
Fixpoint pops (n : nat) (l : list (list R)) : list item :=
  match n with O => [] | S n => match l with [] => [Raise IndexErr] | g :: l => Yield g :: pops n l end end.
Definition guess_generator (T P : R) (zs : list R) (pure Wilson : bool) (random : rnd) (zero_fraction : R) : generated :=
  let RANDOM_MAX_GUESSES := match random with All_components => t_N s | Number n => n end in
  let made := guesses T P zs pure Wilson random zero_fraction in
  match ended made with
  | Some e => {| yielded := []; ended := Some e |}
  | None => run (pops (RANDOM_MAX_GUESSES + (4 + t_N s)) (yielded made))
  end.
End Guesses.
