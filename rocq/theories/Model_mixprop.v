(* thermo/utils/mixture_property.py: properties of mixtures from those of the pure components.  Floats are reals; numbers are finite.
   mixing_simple (chemicals) is the sum of the products, raising for a missing value; normalize, ws_to_zs and zs_to_ws (chemicals) are the usual
   conversions; derivative (fluids) with its default order is the central difference.  Methods of correlations are numbers. *)
From Coq Require Import Reals List Bool Arith.
From Verif Require Import Base Model_rk.
Import ListNotations.
Open Scope R_scope.

Inductive meth := LINEAR | LOG_MOLAR | LOG_MASS | Corr (k : nat).
Definition meth_eqb (a b : meth) : bool := match a, b with LINEAR, LINEAR | LOG_MOLAR, LOG_MOLAR | LOG_MASS, LOG_MASS => true | Corr i, Corr j => (i =? j)%nat | _, _ => false end.
(* a value, None or an exception *)
Inductive result := Value (v : R) | NoValue | Raised.
(* a correlation: the structure indexed [i][j][k][t] (None: IndexError), N_terms, N_T (lines 199-212) *)
Record corr := { c_coeffs : nat -> nat -> nat -> nat -> option R; c_terms : nat; c_T : nat }.
Definition dot (a b : list R) : R := fold_left (fun r p => r + fst p * snd p) (combine a b) 0.
(* the values of the pure components, None for a missing one *)
Fixpoint all_some (l : list (option R)) : option (list R) :=
  match l with [] => Some [] | Some x :: l => match all_some l with Some r => Some (x :: r) | None => None end | None :: _ => None end.
(* trunc_log (fluids.numerics): log, a large negative number at zero; a negative number raises *)
Definition trunc_log (x : R) : option R := if Rltb x 0 then None else Some (if Reqb x 0 then - (744.4400719213812) else ln x).
Fixpoint all_logs (l : list R) : option (list R) := match l with [] => Some [] | x :: l => match trunc_log x, all_logs l with Some y, Some r => Some (y :: r) | _, _ => None end end.
(* lines 216-230 of redlich_kister.py read every coefficient: the structure as a total function when all those are there *)
Definition defined_below (n m p q : nat) (f : nat -> nat -> nat -> nat -> option R) : bool :=
  forallb (fun i => forallb (fun j => forallb (fun k => forallb (fun t => match f i j k t with Some _ => true | None => false end) (seq 0 q)) (seq 0 p)) (seq 0 m)) (seq 0 n).
Definition total (f : nat -> nat -> nat -> nat -> option R) (i j k t : nat) : R := match f i j k t with Some x => x | None => 0 end.

(* a pure component object at a given T and P: the temperature dependent value and the one with pressure *)
Record pure := { p_T : R -> option R; p_TP : R -> R -> option R }.
(* what the object is made of: components, whether their class depends on pressure, molar masses, limits, available methods, the validity test of a class
   (None: it raises), the valid range of the property and the flags *)
Record obj := { pures : list pure; P_dependent : bool; correct_pressure : bool; MWs : list R; corrs : list (nat * corr);
  T_limits : meth -> option R * option R; P_limits : meth -> option R * option R;
  class_valid : option (R -> R -> list R -> list R -> meth -> option bool);
  property_min : R; property_max : R; skip_method : bool; skip_prop : bool; raise_errors : bool;
  method : meth }.
(* ws_to_zs, zs_to_ws *)
Definition ws_to_zs (ws MWs : list R) : list R := let q := map (fun p => fst p / snd p) (combine ws MWs) in map (fun x => x / rsum (length q) (fun i => nth i q 0)) q.
Definition zs_to_ws (zs MWs : list R) : list R := let q := map (fun p => fst p * snd p) (combine zs MWs) in map (fun x => x / rsum (length q) (fun i => nth i q 0)) q.
(* lines 378-384; when both are given the caller keeps them *)
Definition complete_zs_ws (o : obj) (zs ws : option (list R)) : option (list R * list R) :=
  match zs, ws with
  | None, None => None
  | None, Some ws => Some (ws_to_zs ws (MWs o), ws)
  | Some zs, None => Some (zs, zs_to_ws zs (MWs o))
  | Some zs, Some ws => Some (zs, ws)
  end.
(* lines 236-259, with fallback *)
Definition pures_corrected (o : obj) (T P : R) : list (option R) :=
  if correct_pressure o && P_dependent o then map (fun p => match p_TP p T P with Some v => Some v | None => p_T p T end) (pures o) else map (fun p => p_T p T) (pures o).
Definition find_corr (o : obj) (k : nat) : option corr := match find (fun p => (fst p =? k)%nat) (corrs o) with Some p => Some (snd p) | None => None end.
(* lines 214-234: calculate.  The number of temperature terms N_T is passed to redlich_kister_excess_inner as the number of components. *)
Definition calculate (o : obj) (T P : R) (zs ws : list R) (m : meth) : option R :=
  match all_some (pures_corrected o T P) with
  | None => None
  | Some props =>
      match m with
      | LINEAR => if (length zs =? length props)%nat then Some (dot zs props) else None
      | LOG_MOLAR => match all_logs props with Some l => if (length zs <=? length l)%nat then Some (exp (dot zs l)) else None | None => None end
      | LOG_MASS => match all_logs props with Some l => if (length ws <=? length l)%nat then Some (exp (dot ws l)) else None | None => None end
      | Corr k =>
          match find_corr o k with
          | None => None
          | Some c =>
              let N := length zs in
              if defined_below N N (c_terms c) (c_T c) (c_coeffs c) then
                match redlich_kister_T_dependence (total (c_coeffs c)) T (c_T c) with
                | None => None
                | Some a => if (c_T c <=? N)%nat && (N =? length props)%nat then Some (dot zs props + redlich_kister_excess_inner (c_T c) (c_terms c) a (fun i => nth i zs 0)) else None
                end
              else None
          end
      end
  end.
(* lines 261-295: test_method_validity of the base class *)
Definition below (x : R) (b : option R) : bool := match b with Some b => Rltb x b | None => false end.
Definition above (x : R) (b : option R) : bool := match b with Some b => Rltb b x | None => false end.
Definition test_method_validity (o : obj) (T P : R) (zs ws : list R) (m : meth) : option bool :=
  match class_valid o with
  | Some f => f T P zs ws m
  | None =>
      if below T (fst (T_limits o m)) then Some false
      else if below P (fst (P_limits o m)) then Some false
      else if above T (snd (T_limits o m)) then Some false
      else if above P (snd (P_limits o m)) then Some false
      else match m with Corr k => match find_corr o k with Some _ => Some true | None => None end | _ => None end
  end.
Definition test_property_validity (o : obj) (v : R) : bool := if Rltb v (property_min o) then false else if Rltb (property_max o) v then false else true.
(* lines 444-491: mixture_property *)
Definition mixture_property (o : obj) (T P : R) (zs ws : option (list R)) : result :=
  match complete_zs_ws o zs ws with
  | None => Raised
  | Some (zs, ws) =>
      match (if negb (skip_method o) then Some true else test_method_validity o T P zs ws (method o)) with
      | None => Raised
      | Some true =>
          match calculate o T P zs ws (method o) with
          | None => if raise_errors o then Raised else NoValue
          | Some v => if skip_prop o || test_property_validity o v then Value v else if raise_errors o then Raised else NoValue
          end
      | Some false => if raise_errors o then Raised else NoValue
      end
  end.
(* lines 493-530: excess_property; an exception of calculate is not caught *)
Definition unit_fracs (N i : nat) : list R := map (fun k => if (k =? i)%nat then 1 else 0) (seq 0 N).
Definition calculate_excess_property (o : obj) (T P : R) (zs ws : list R) (m : meth) : option R :=
  let N := length zs in
  match calculate o T P zs ws m with
  | None => None
  | Some prop =>
      match loop N (fun i tot => match tot, calculate o T P (unit_fracs N i) (unit_fracs N i) m with Some tot, Some v => Some (tot + nth i zs 0 * v) | _, _ => None end) (Some 0) with
      | Some tot => Some (prop - tot)
      | None => None
      end
  end.
Definition excess_property (o : obj) (T P : R) (zs ws : option (list R)) : option R :=
  match complete_zs_ws o zs ws with Some (zs, ws) => calculate_excess_property o T P zs ws (method o) | None => None end.
(* lines 532-567: partial_property; None times a number raises.  normalize divides by the sum. *)
Definition total_of (l : list R) : R := rsum (length l) (fun i => nth i l 0).
Definition replace_nth (l : list R) (i : nat) (x : R) : list R := map (fun k => if (k =? i)%nat then x else nth k l 0) (seq 0 (length l)).
Definition prop_extensive (o : obj) (T P : R) (zs : list R) (i : nat) (ni : R) : option R :=
  let ns := replace_nth zs i ni in
  match mixture_property o T P (Some (map (fun n => n / total_of ns) ns)) None with Value v => Some (v * total_of ns) | _ => None end.
Definition partial_property (o : obj) (T P : R) (i : nat) (zs ws : option (list R)) : option R :=
  match complete_zs_ws o zs ws with
  | None => None
  | Some (zs, _) =>
      let x0 := nth i zs 0 in let dx := 1 / 1000000 in
      match prop_extensive o T P zs i (x0 - dx), prop_extensive o T P zs i x0, prop_extensive o T P zs i (x0 + dx) with
      | Some a, Some b, Some c => Some ((- (1 / 2) * a + 0 * b + 1 / 2 * c) / dx)
      | _, _, _ => None
      end
  end.
(* lines 351-376, 386-416: the remembered value.  The key of a call is a tuple, the one remembered is a list: in Python these are never equal. *)
Inductive key := Tuple (T P : R) (zs ws : list R) | List_ (T P : R) (zs ws : list R) | List_None.
Definition list_eqb (a b : list R) : bool := (length a =? length b)%nat && forallb (fun p => Reqb (fst p) (snd p)) (combine a b).
Definition key_eqb (a b : key) : bool :=
  match a, b with
  | Tuple T P zs ws, Tuple T' P' zs' ws' | List_ T P zs ws, List_ T' P' zs' ws' => Reqb T T' && Reqb P P' && list_eqb zs zs' && list_eqb ws ws'
  | List_None, List_None => true
  | _, _ => false
  end.
Record state := { ob : obj; cached : key; prop_cached : result }.
Definition call (s : state) (T P : R) (zs ws : option (list R)) : result * state :=
  match complete_zs_ws (ob s) zs ws with
  | None => (Raised, s)
  | Some (z, w) =>
      if key_eqb (Tuple T P z w) (cached s) then (prop_cached s, s)
      else match mixture_property (ob s) T P (Some z) (Some w) with
           | Raised => (Raised, s)
           | r => (r, {| ob := ob s; cached := List_ T P z w; prop_cached := r |})
           end
  end.
Definition with_method (o : obj) (m : meth) : obj := {| pures := pures o; P_dependent := P_dependent o; correct_pressure := correct_pressure o; MWs := MWs o; corrs := corrs o; T_limits := T_limits o; P_limits := P_limits o; class_valid := class_valid o;
  property_min := property_min o; property_max := property_max o; skip_method := skip_method o; skip_prop := skip_prop o; raise_errors := raise_errors o; method := m |}.
Definition with_pressure (o : obj) (b : bool) : obj := {| pures := pures o; P_dependent := P_dependent o; correct_pressure := b; MWs := MWs o; corrs := corrs o; T_limits := T_limits o; P_limits := P_limits o; class_valid := class_valid o;
  property_min := property_min o; property_max := property_max o; skip_method := skip_method o; skip_prop := skip_prop o; raise_errors := raise_errors o; method := method o |}.
(* lines 199-212: a new correlation is added to the dictionary and selected *)
Definition with_corr (o : obj) (k : nat) (c : corr) : obj := {| pures := pures o; P_dependent := P_dependent o; correct_pressure := correct_pressure o; MWs := MWs o; corrs := (k, c) :: filter (fun p => negb (fst p =? k)%nat) (corrs o); T_limits := T_limits o; P_limits := P_limits o; class_valid := class_valid o;
  property_min := property_min o; property_max := property_max o; skip_method := skip_method o; skip_prop := skip_prop o; raise_errors := raise_errors o; method := Corr k |}.
Inductive op := Call (T P : R) (zs ws : option (list R)) | Set_method (m : meth) | Set_pressure (b : bool) | Add_corr (k : nat) (c : corr).
Definition exec (s : state) (a : op) : state :=
  match a with
  | Call T P zs ws => snd (call s T P zs ws)
  | Set_method m => {| ob := with_method (ob s) m; cached := List_None; prop_cached := prop_cached s |}
  | Set_pressure b => if eqb b (correct_pressure (ob s)) then s else {| ob := with_pressure (ob s) b; cached := List_None; prop_cached := prop_cached s |}
  | Add_corr k c => {| ob := with_corr (ob s) k c; cached := List_None; prop_cached := prop_cached s |}
  end.

(* lines 131-168: the combined correlation of coefficients found for pairs of components (when ENABLE_MIXTURE_JSON is set).  found i j: N_T, N_terms and
   the coefficients for the pair of names of components i and j, the same for j and i. *)
Record pair_data := { d_T : nat; d_terms : nat; d_coeffs : list (list R) }.
Definition json_entries (N : nat) (found : nat -> nat -> option pair_data) : list ((nat * nat) * pair_data) :=
  flat_map (fun i => flat_map (fun j => match found i j with Some d => [((if (i <? j)%nat then (i, j) else (j, i)), d)] | None => [] end) (seq 0 N)) (seq 0 N).
Definition json_corr (N : nat) (found : nat -> nat -> option pair_data) : option corr :=
  let e := json_entries N found in
  match e with
  | [] => None
  | _ =>
      let N_T := fold_left (fun n p => max n (d_T (snd p))) e 1%nat in
      let N_terms := fold_left (fun n p => max n (d_terms (snd p))) e 1%nat in
      match redlich_kister_build_structure_2d [N_terms; N_T] (map (fun p => d_coeffs (snd p)) e) (map fst e) with
      | Some s => Some {| c_coeffs := fun i j k t => match s i j with Some rows => match nth_error rows k with Some r => nth_error r t | None => None end | None => None end; c_terms := N_terms; c_T := N_T |}
      | None => None
      end
  end.
