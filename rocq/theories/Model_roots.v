(* Choice of the phase volumes from the roots of the EOS (thermo/eos.py: GCEOS.set_from_PT, solve, more_stable_phase). *)
From Coq Require Import Reals List Bool.
From Verif Require Import Base.
Open Scope R_scope.
Open Scope bool_scope.
Import ListNotations.

Inductive phase := Liq | Gas | LiqGas.
(* the attributes the phase logic sets: V_l and V_g (None: not set) and phase *)
Record eos_state := mk { V_l : option R; V_g : option R; ph : option phase }.
Definition fresh : eos_state := mk None None None.

(* thermo/eos.py, lines 1450-1467: the last part of set_properties_from_solution. pip is the phase identification parameter at V. All the
   other attributes set there (Z, H_dep, ...) are functions of V, covered by C01-C05, and are represented by V. *)
Definition set_properties (pip : R -> R) (force_l force_g : bool) (V : R) (s : eos_state) : eos_state * phase :=
  if force_l || (negb force_g && Rltb (100000000000001 / 100000000000000) (pip V)) then (mk (Some V) (V_g s) (ph s), Liq)
  else (mk (V_l s) (Some V) (ph s), Gas).
Definition set_phase (p : phase) (s : eos_state) : eos_state := mk (V_l s) (V_g s) (Some p).

(* thermo/eos.py, lines 1219-1228: the scan of the roots; the state is (good_root_count, Vmin, Vmax); a root is (V.real, V.imag) *)
Definition scan_step (b : R) (st : nat * R * R) (V : R * R) : nat * R * R :=
  let '(good_root_count, Vmin, Vmax) := st in
  let (re, im) := V in
  if Reqb re 0 || Reqb im 0 || Rltb (Rabs (im / re)) (1 / 1000000000000) then
    if Rleb re b then st
    else (S good_root_count, (if Rltb re Vmin then re else Vmin), (if Rltb Vmax re then re else Vmax))
  else st.
Definition huge : R := IZR (10 ^ 100).
Definition scan (b : R) (Vs : list (R * R)) : nat * R * R := fold_left (scan_step b) Vs (O, huge, - huge).

(* thermo/eos.py, lines 1183-1278: set_from_PT. None is the ValueError 'No acceptable roots were found'. at_critical stands for
   N == 1 and T == Tc and P == Pc. *)
Definition set_from_PT (pip : R -> R) (at_critical : bool) (b : R) (Vs : list (R * R)) (only_l only_g : bool) (s : eos_state) : option eos_state :=
  let '(good_root_count, Vmin, Vmax) := scan b Vs in
  if Nat.eqb good_root_count 1 || Reqb Vmin Vmax then
    let V := if negb (Reqb Vmin huge) then Vmin else Vmax in
    let (s, p) := set_properties pip false false V s in
    let s := set_phase p s in
    if at_critical then
      let force_l := match p with Liq => false | _ => true end in
      let force_g := match p with Gas => false | _ => true end in
      let V := if negb (Reqb Vmin huge) then Vmin else Vmax in
      let (s, _) := set_properties pip force_l force_g V s in
      Some (set_phase LiqGas s)
    else Some s
  else if Nat.ltb 1 good_root_count then
    let s := if negb only_g then fst (set_properties pip true false Vmin s) else s in
    let s := if negb only_l then fst (set_properties pip false true Vmax s) else s in
    Some (set_phase LiqGas s)
  else None.

(* thermo/eos.py, line 1147: in solve, when V was specified *)
Definition solve_with_V (pip : R -> R) (at_critical : bool) (b V : R) (s : eos_state) : option eos_state :=
  set_from_PT pip at_critical b [(V, 0); (0, 1); (0, 1)] false false s.

(* thermo/eos.py, lines 3821-3841: more_stable_phase; G is G_dep as a function of the phase volume *)
Definition more_stable_phase (G : R -> R) (s : eos_state) : phase :=
  match V_l s, V_g s with
  | Some vl, Some vg => if Rltb (G vl) (G vg) then Liq else Gas
  | _, Some _ => Gas
  | _, None => Liq
  end.
