(* thermo/utils/tp_dependent_property.py: the state of a temperature and pressure dependent property object.
   The temperature dependent side (methods, limits, extrapolation) is a function value_T of the selected method and T; the built in pressure methods
   are functions of T, P and the temperature dependent value; the interpolators of a table are a function of the table at the time they were made.
   Names of methods are numbers. *)
From Coq Require Import Reals List Bool Arith.
From Verif Require Import Base.
Import ListNotations.
Open Scope R_scope.

Definition name := nat.
(* Ts, Ps and the rows of properties *)
Record table := { t_Ts : list R; t_Ps : list R; t_rows : list (list R) }.
(* a value or None, or an exception *)
Inductive result := Val (v : option R) | Raised.
Definition tfind (k : name) (l : list (name * table)) : option table := match find (fun p => (fst p =? k)%nat) l with Some p => Some (snd p) | None => None end.
Fixpoint tset (k : name) (t : table) (l : list (name * table)) : list (name * table) :=
  match l with [] => [(k, t)] | (q, u) :: l => if (q =? k)%nat then (q, t) :: l else (q, u) :: tset k t l end.
Definition nmem (k : name) (l : list name) : bool := existsb (Nat.eqb k) l.
Definition nadd (k : name) (l : list name) : list name := if nmem k l then l else l ++ [k].
Fixpoint increasing (l : list R) : bool := match l with [] => true | x :: l' => match l' with [] => true | y :: _ => Rltb x y && increasing l' end end.

(* what the state does not change: the temperature dependent side, the built in pressure methods, the interpolation and the settings *)
Record params := {
  (* value_T m T: T_dependent_property with the selected method m (None: no method). valid_T: test_method_validity *)
  value_T : option name -> R -> result;
  valid_T : name -> R -> bool;
  (* calculate_P of a built in method; the second argument is T_dependent_property(T) *)
  builtin : name -> result -> R -> R -> result;
  (* test_method_validity_P of a built in method handled by the class *)
  builtin_valid : name -> option (R -> R -> bool);
  (* the limits T_limits of a method *)
  limits : name -> option (R * R);
  (* the interpolators: of the table they were made from, at T and P, inside the current table or not *)
  interpolator : table -> bool -> R -> R -> option R;
  pmin : R; pmax : R; neglect_P : name; extrapolate : bool; raise_errors : bool;
  (* the name 'Tabular data series #k' *)
  auto_name : nat -> name;
  ranked_P : list name }.

Section TP.
  Variable c : params.
  (* all_methods, _method; all_methods_P, _method_P; tabular_data (its length), tabular_data_P, tabular_data_interpolators_P; TP_cached, prop_cached *)
  Record st := { all_T : list name; meth_T : option name; all_P : list name; meth_P : option name; n_tab : nat; tabs : list (name * table); interp : list (name * table);
                 cached : option (R * option R * result) }.
  Definition valid_prop (v : R) : bool := Rleb (pmin c) v && Rleb v (pmax c).
  Definition firstR (l : list R) := hd 0 l.
  Definition lastR (l : list R) := last l 0.

  (* lines 384-417: test_method_validity_P; None: an exception *)
  Definition test_validity_P (s : st) (T P : R) (m : name) : option bool :=
    match builtin_valid c m with
    | Some f => Some (f T P)
    | None =>
        match tfind m (tabs s) with
        | Some t => Some (if extrapolate c then true else Rltb (firstR (t_Ts t)) T && Rltb T (lastR (t_Ts t)) && Rltb (firstR (t_Ps t)) P && Rltb P (lastR (t_Ps t)))
        | None =>
            if (m =? neglect_P c)%nat then Some (match meth_T s with Some q => valid_T c q T | None => false end)
            else if nmem m (all_P s) then match limits c m with Some (lo, hi) => Some (Rltb lo T && Rltb T hi) | None => None end
            else None
        end
    end.
  (* lines 419-514: interpolate_P; the value (None: an exception) and the interpolators afterwards *)
  Definition interpolate_P (s : st) (T P : R) (m : name) (t : table) : option R * list (name * table) :=
    let inside := negb (Rltb T (firstR (t_Ts t)) || Rltb (lastR (t_Ts t)) T || Rltb P (firstR (t_Ps t)) || Rltb (lastR (t_Ps t)) P) in
    if negb (extrapolate c) && negb inside then (None, interp s)
    else match tfind m (interp s) with
         | Some old => (interpolator c old inside T P, interp s)
         | None => (interpolator c t inside T P, tset m t (interp s))
         end.
  (* calculate_P of the classes (viscosity.py 648-677 and others) and _base_calculate_P (t_dependent_property.py 3035-3041) *)
  Definition calculate_P (s : st) (T P : R) (m : name) : result * list (name * table) :=
    match builtin_valid c m with
    | Some _ => (builtin c m (value_T c (meth_T s) T) T P, interp s)
    | None =>
        match tfind m (tabs s) with
        | Some t => let '(v, i) := interpolate_P s T P m t in (match v with Some v => Val (Some v) | None => Raised end, i)
        | None => if (m =? neglect_P c)%nat then (value_T c (meth_T s) T, interp s) else (Raised, interp s)
        end
    end.
  Definition fail : result := if raise_errors c then Raised else Val None.
  (* lines 250-288: TP_dependent_property; test_property_validity (t_dependent_property.py 2595-2617) refuses None *)
  Definition TP_property (s : st) (T P : R) : result * list (name * table) :=
    match meth_P s with
    | None => (fail, interp s)
    | Some m =>
        match test_validity_P s T P m with
        | None => (Raised, interp s)
        | Some false => (fail, interp s)
        | Some true =>
            let '(v, i) := calculate_P s T P m in
            (match v with Val (Some v) => if valid_prop v then Val (Some v) else fail | _ => fail end, i)
        end
    end.
  (* lines 290-321: TP_or_T_dependent_property *)
  Definition TP_or_T (s : st) (T : R) (P : option R) : result * list (name * table) :=
    match P with
    | None => (value_T c (meth_T s) T, interp s)
    | Some P => let '(r, i) := TP_property s T P in (match r with Val None => value_T c (meth_T s) T | _ => r end, i)
    end.
  (* lines 184-211: __call__; an exception leaves the cache as it was *)
  Definition optR_eqb (a b : option R) : bool := match a, b with Some a, Some b => Reqb a b | None, None => true | _, _ => false end.
  Definition fresh (s : st) (T : R) (P : option R) : result * list (name * table) :=
    match P with Some P => TP_property s T P | None => (value_T c (meth_T s) T, interp s) end.
  Definition with_cache (s : st) i k := {| all_T := all_T s; meth_T := meth_T s; all_P := all_P s; meth_P := meth_P s; n_tab := n_tab s; tabs := tabs s; interp := i; cached := k |}.
  Definition call (s : st) (T : R) (P : option R) : result * st :=
    match cached s with
    | Some (T0, P0, v) => if Reqb T T0 && optR_eqb P P0 then (v, s)
        else let '(r, i) := fresh s T P in (r, with_cache s i (match r with Raised => cached s | _ => Some (T, P, r) end))
    | None => let '(r, i) := fresh s T P in (r, with_cache s i (match r with Raised => None | _ => Some (T, P, r) end))
    end.
  (* operations; the second component: no exception *)
  Inductive op :=
  | Set_method (m : option name) | Set_method_P (m : option name)
  | Add_tabular_data (m : name)                        (* the temperature dependent one, with a name *)
  | Add_tabular_data_P (m : option name) (t : table) (check : bool)
  | Add_P_correlation (m : name)
  | Call (T : R) (P : option R) | Property (T P : R).
  Definition with_method_T s m := {| all_T := all_T s; meth_T := m; all_P := all_P s; meth_P := meth_P s; n_tab := n_tab s; tabs := tabs s; interp := interp s; cached := cached s |}.
  Definition with_method_P s m := {| all_T := all_T s; meth_T := meth_T s; all_P := all_P s; meth_P := m; n_tab := n_tab s; tabs := tabs s; interp := interp s; cached := None |}.
  (* t_dependent_property.py 2553-2559: T_cached is reset, TP_cached is not; lines 177-182; 342-382; 148-161. Adding temperature dependent tabular
     data here always makes a new series (the counter is len(tabular_data)). *)
  Definition exec (s : st) (o : op) : st * bool :=
    match o with
    | Set_method m => match m with Some q => if nmem q (all_T s) then (with_method_T s m, true) else (s, false) | None => (with_method_T s m, true) end
    | Set_method_P m => match m with Some q => if nmem q (all_P s) then (with_method_P s m, true) else (s, false) | None => (with_method_P s m, true) end
    | Add_tabular_data m =>
        ({| all_T := nadd m (all_T s); meth_T := Some m; all_P := all_P s; meth_P := meth_P s; n_tab := S (n_tab s); tabs := tabs s; interp := interp s; cached := cached s |}, true)
    | Add_tabular_data_P m t check =>
        if check && negb (forallb (forallb valid_prop) (t_rows t)) then (s, false)
        else if negb (increasing (t_Ts t)) then (s, false)
        else if negb (increasing (t_Ps t)) then (s, false)
        else let k := match m with Some k => k | None => auto_name c (n_tab s) end in
             ({| all_T := all_T s; meth_T := meth_T s; all_P := nadd k (all_P s); meth_P := Some k; n_tab := n_tab s; tabs := tset k t (tabs s); interp := interp s; cached := None |}, true)
    | Add_P_correlation m =>
        ({| all_T := nadd m (all_T s); meth_T := Some m; all_P := all_P s; meth_P := meth_P s; n_tab := n_tab s; tabs := tabs s; interp := interp s; cached := cached s |}, true)
    | Call T P => (snd (call s T P), match fst (call s T P) with Raised => false | _ => true end)
    | Property T P => (with_cache s (snd (TP_property s T P)) (cached s), match fst (TP_property s T P) with Raised => false | _ => true end)
    end.
  (* lines 213-248: valid_methods_P; None: an exception of the validity test *)
  Fixpoint keep_valid (s : st) (T P : R) (l : list name) : option (list name) :=
    match l with
    | [] => Some []
    | m :: l => match test_validity_P s T P m, keep_valid s T P l with Some b, Some r => Some (if b then m :: r else r) | _, _ => None end
    end.
  Definition remove1 (m : name) (l : list name) : list name := (fix go l := match l with [] => [] | x :: l => if (x =? m)%nat then l else x :: go l end) l.
  Definition valid_methods_P (s : st) (TP : option (R * R)) : option (list name) :=
    let sorted := filter (fun m => nmem m (all_P s)) (ranked_P c) in
    let sorted := match meth_P s with Some m => if nmem m sorted then m :: remove1 m sorted else sorted | None => sorted end in
    match TP with None => Some sorted | Some (T, P) => keep_valid s T P sorted end.
  (* lines 130-137: the pressure method of a new object when none is given: the first of the ranked ones there is *)
  Definition default_P (all : list name) : option name := find (fun m => nmem m all) (ranked_P c).
End TP.
