(* The state of a temperature dependent property object: its methods, its selected method and its caches.
   thermo/utils/t_dependent_property.py, class TDependentProperty. An exception is None (values) or false (operations). *)
From Coq Require Import Reals Arith List Bool String Ascii.
From Verif Require Import Base Model_tdep.
Import ListNotations.
Open Scope R_scope.

(* A function with the derivatives supplied for some orders: a correlation with its coefficients, a local method (create_local_method) or a built-in method *)
Record data := { d_f : R -> option R; d_der : nat -> option (R -> option R) }.
(* (T, property) rows of tabular data *)
Definition table := list (R * R).
(* dictionaries: the newest entry of a key comes first *)
Fixpoint find {A} (l : list (string * A)) (k : string) : option A := match l with [] => None | (k', v) :: l' => if String.eqb k' k then Some v else find l' k end.
Definition key := (string * string * bool)%type.
Definition key_eqb (a b : key) : bool := let '(x, y, z) := a in let '(u, v, w) := b in String.eqb x u && String.eqb y v && Bool.eqb z w.
Fixpoint findk {A} (l : list (key * A)) (k : key) : option A := match l with [] => None | (k', v) :: l' => if key_eqb k' k then Some v else findk l' k end.
Definition mem (n : string) (l : list string) : bool := existsb (String.eqb n) l.
Arguments mem : simpl never.

(* The attributes correlations, tabular_data, local_methods, piecewise_methods, T_limits, all_methods, _method, _extrapolation, _extrapolation_low, _extrapolation_high,
   tabular_data_interpolators (for each name the table it was built from), extrapolation_coeffs, and (T_cached, prop_cached) *)
Record st := { corr : list (string * data); tab : list (string * table); loc : list (string * data); pw : list (string * (list string * list R));
  limits : list (string * (R * option R)); known : list string; meth : option string; e_whole : option string; e_lo : option string; e_hi : option string;
  icache : list (string * table); ccache : list (key * list R); called : option (R * option R) }.

Section Object.
(* built-in methods of the class; linear interpolation and the spline of a table; numerical derivatives of the fluids library, of the property and of its logarithm, between two limits *)
Variable builtin : string -> option data.
Variables (lin spl : table -> R -> R).
Variable numder : (R -> option R) -> R -> option R -> nat -> R -> option R.
Variable numlog : (R -> option R) -> R -> option R -> R -> option R.
(* Tc, extrapolation_min, extrapolation_max, property_min, property_max *)
Variables (Tc : R) (emin emax : option R) (pmin pmax : R).

(* lines 3400-3474: interpolate, without transforms (interpolation_T and interpolation_property None); snapshot: the table of the cached interpolator *)
Definition first_T (t : table) : R := match t with [] => 0 | (x, _) :: _ => x end.
Definition last_T (t : table) : R := fst (last t (0, 0)).
Definition interpolate (snapshot current : table) (T : R) : option R :=
  if Rltb T (first_T current) || Rltb (last_T current) T || (List.length snapshot <? 5)%nat then Some (lin snapshot T) else Some (spl snapshot T).
(* lines 2964-3025: _base_calculate of a method that is not piecewise *)
Definition base_calc (s : st) (name : string) : option (R -> option R) :=
  match find (corr s) name with Some d => Some (d_f d) | None =>
  match builtin name with Some d => Some (d_f d) | None =>
  match find (tab s) name with Some t => Some (interpolate (match find (icache s) name with Some t0 => t0 | None => t end) t) | None =>
  match find (loc s) name with Some d => Some (d_f d) | None => None end end end end.
(* lines 3026-3031: the method of a piecewise method that is used at T *)
Fixpoint pick (subs : list string) (Ts : list R) (dflt : string) (T : R) : string :=
  match subs, Ts with sub :: subs', Tmax :: Ts' => if Rleb T Tmax then sub else pick subs' Ts' sub T | _, _ => dflt end.
Fixpoint pw_calc (base : string -> option (R -> option R)) (pws : list (string * (list string * list R))) (name : string) (T : R) : option R :=
  match pws with
  | [] => None
  | (n, (subs, Ts)) :: rest =>
    if String.eqb n name then let sub := pick subs Ts (last subs EmptyString) T in match base sub with Some f => f T | None => pw_calc base rest sub T end
    else pw_calc base rest name T
  end.
Definition obj_calc (s : st) (name : string) (T : R) : option R := match base_calc s name with Some f => f T | None => pw_calc (base_calc s) (pw s) name T end.
(* lines 3888-4083: calculate_derivative *)
Definition supplied_der (o : option data) (n : nat) : option (R -> option R) := match o with Some d => d_der d n | None => None end.
Definition obj_limits (s : st) (name : string) : R * option R := match find (limits s) name with Some l => l | None => (0, None) end.
Definition obj_der (s : st) (name : string) (n : nat) (T : R) : option R :=
  match supplied_der (find (corr s) name) n with Some f => f T | None =>
  match supplied_der (find (loc s) name) n with Some f => f T | None =>
  match supplied_der (builtin name) n with Some f => f T | None =>
  numder (obj_calc s name) (fst (obj_limits s name)) (snd (obj_limits s name)) n T end end end.
Definition view (s : st) (name : string) : method :=
  {| calc := obj_calc s name; cder := obj_der s name; clogder := numlog (obj_calc s name) (fst (obj_limits s name)) (snd (obj_limits s name));
     cint := fun _ _ => None; cintT := fun _ _ => None; m_lo := fst (obj_limits s name); m_hi := snd (obj_limits s name) |}.
(* lines 4556-4653: extrapolate, with the dictionary of coefficients *)
Definition obj_coeffs (s : st) (k name : string) (low : bool) : option (list R) :=
  match findk (ccache s) (k, name, low) with Some cs => Some cs | None => get_coeffs (view s name) Tc (kind_of k) low end.
Definition obj_extrapolate (s : st) (name : string) (T : R) : option R :=
  match side (view s name) IR_error T with None => None | Some low =>
  match (if low then e_lo s else e_hi s) with None => None | Some k =>
  match obj_coeffs s k name low with None => None | Some cs =>
  match extrapolated (view s name) Tc (kind_of k) low cs T with None => None | Some v => Some (clamp emin emax v) end end end end.
(* lines 3067-3115: T_dependent_property; a method without limits is not modelled (None) *)
Definition checked (o : option R) : option R := match o with Some v => if valid pmin pmax v then Some v else None | None => None end.
Definition property (s : st) (T : R) : option R :=
  match meth s with None => None | Some m =>
  match find (limits s) m with None => None | Some _ =>
  if inside (view s m) T then checked (obj_calc s m T)
  else match e_whole s with Some _ => obj_extrapolate s m T | None => None end end end.

(* lines 1784-1806: __call__ *)
Definition call_value (s : st) (T : R) : option R := match called s with Some (T0, v) => if Reqb T T0 then v else property s T | None => property s T end.
Definition with_called (s : st) (c : option (R * option R)) : st := {| corr := corr s; tab := tab s; loc := loc s; pw := pw s; limits := limits s; known := known s; meth := meth s; e_whole := e_whole s; e_lo := e_lo s; e_hi := e_hi s; icache := icache s; ccache := ccache s; called := c |}.
Definition with_method (s : st) (m : option string) : st := {| corr := corr s; tab := tab s; loc := loc s; pw := pw s; limits := limits s; known := known s; meth := m; e_whole := e_whole s; e_lo := e_lo s; e_hi := e_hi s; icache := icache s; ccache := ccache s; called := None |}.
Definition with_icache (s : st) c : st := {| corr := corr s; tab := tab s; loc := loc s; pw := pw s; limits := limits s; known := known s; meth := meth s; e_whole := e_whole s; e_lo := e_lo s; e_hi := e_hi s; icache := c; ccache := ccache s; called := called s |}.
Definition with_ccache (s : st) c : st := {| corr := corr s; tab := tab s; loc := loc s; pw := pw s; limits := limits s; known := known s; meth := meth s; e_whole := e_whole s; e_lo := e_lo s; e_hi := e_hi s; icache := icache s; ccache := c; called := called s |}.
(* What evaluations leave behind. Which entries one evaluation adds depends on the code of the derivatives; each entry is an interpolator of the current table under a name that had none
   (lines 3430-3456), or coefficients computed at that moment under a key that had none (4607-4611 and the same lines in the other functions), or the value of a call (1804-1805) *)
Inductive fill : st -> st -> Prop :=
| fill_interpolator s n t : find (tab s) n = Some t -> find (icache s) n = None -> fill s (with_icache s ((n, t) :: icache s))
| fill_coefficients s k n low cs : In n (known s) -> findk (ccache s) (k, n, low) = None -> get_coeffs (view s n) Tc (kind_of k) low = Some cs -> fill s (with_ccache s (((k, n, low), cs) :: ccache s))
| fill_call s T : (match called s with Some (T0, _) => T <> T0 | None => True end) -> fill s (with_called s (Some (T, property s T))).

(* The operations. The boolean of the result is false when the operation raises *)
Inductive op :=
| Add_method (name : string) (d : data) (Tmin : option R) (Tmax : option R)
| Add_correlation (name : string) (d : data) (Tmin Tmax : R) (select : bool) (optimizes : bool)
| Add_tabular_data (name : string) (t : table) (check select : bool)
| Add_piecewise_method (name : string) (subs : list string) (T_ranges : list R) (select : bool)
| Select (m : option string)
| Set_extrapolation (e : option string).
Definition dflt (o : option R) (x : R) : R := match o with Some y => y | None => x end.
Fixpoint sorted_le (l : list R) : bool := match l with [] => true | x :: l' => match l' with [] => true | y :: _ => Rleb x y && sorted_le l' end end.
(* str.split on the vertical bar *)
Fixpoint split_bar (s : string) : list string :=
  match s with EmptyString => [EmptyString] | String c s' =>
    if Ascii.eqb c "|"%char then EmptyString :: split_bar s' else match split_bar s' with x :: l => String c x :: l | [] => [] end end.
Definition exec (s : st) (o : op) : st * bool :=
  match o with
  (* lines 3762-3770: add_method *)
  | Add_method name d Tmin Tmax => ({| corr := corr s; tab := tab s; loc := (name, d) :: loc s; pw := pw s; limits := (name, (dflt Tmin 0, Tmax)) :: limits s; known := name :: known s; meth := Some name;
      e_whole := e_whole s; e_lo := e_lo s; e_hi := e_hi s; icache := icache s; ccache := ccache s; called := None |}, true)
  (* lines 3671-3704: add_correlation of an available model with its required coefficients; optimizes: _optimize_added_correlation does not raise *)
  | Add_correlation name d Tmin Tmax select optimizes =>
      if mem name (known s) then (s, false)
      else let s1 := {| corr := (name, d) :: corr s; tab := tab s; loc := loc s; pw := pw s; limits := (name, (Tmin, Some Tmax)) :: limits s; known := name :: known s; meth := meth s;
        e_whole := e_whole s; e_lo := e_lo s; e_hi := e_hi s; icache := icache s; ccache := ccache s; called := called s |} in
        if optimizes then (if select then with_method s1 (Some name) else s1, true) else (s1, false)
  (* lines 3796-3810: add_tabular_data with a name; an empty table makes min(Ts) raise after tabular_data is changed, which is not modelled: it is refused *)
  | Add_tabular_data name t check select =>
      if (check && negb (forallb (fun r => valid pmin pmax (snd r)) t)) || negb (sorted_le (map fst t)) || (List.length t =? 0)%nat then (s, false)
      else let s1 := {| corr := corr s; tab := (name, t) :: tab s; loc := loc s; pw := pw s; limits := (name, (first_T t, Some (last_T t))) :: limits s; known := name :: known s; meth := meth s;
        e_whole := e_whole s; e_lo := e_lo s; e_hi := e_hi s; icache := icache s; ccache := ccache s; called := called s |} in
        (if select then with_method s1 (Some name) else s1, true)
  (* lines 3611-3630: add_piecewise_method; no methods at all is refused here (the code accepts it with one temperature and fails later) *)
  | Add_piecewise_method name subs T_ranges select =>
      if negb (forallb (fun m => mem m (known s)) subs) || mem name (known s) || negb (List.length subs + 1 =? List.length T_ranges)%nat || negb (sorted_le T_ranges) || (List.length subs =? 0)%nat then (s, false)
      else let s1 := {| corr := corr s; tab := tab s; loc := loc s; pw := (name, (subs, tl T_ranges)) :: pw s; limits := (name, (hd 0 T_ranges, Some (last T_ranges 0))) :: limits s; known := name :: known s; meth := meth s;
        e_whole := e_whole s; e_lo := e_lo s; e_hi := e_hi s; icache := icache s; ccache := ccache s; called := called s |} in
        (if select then with_method s1 (Some name) else s1, true)
  (* lines 2554-2559: the setter of method *)
  | Select m => match m with Some n => if mem n (known s) then (with_method s m, true) else (s, false) | None => (with_method s None, true) end
  (* lines 4534-4554: the setter of extrapolation, of a string without 'interp1d' (which is replaced by 'linear') *)
  | Set_extrapolation e =>
      let put w l h := {| corr := corr s; tab := tab s; loc := loc s; pw := pw s; limits := limits s; known := known s; meth := meth s; e_whole := w; e_lo := l; e_hi := h; icache := icache s; ccache := ccache s; called := called s |} in
      match e with
      | None => (put None None None, true)
      | Some x => match split_bar x with [_] => (put e e e, true) | [a; b] => (put e (Some a) (Some b), true) | _ => (put e (e_lo s) (e_hi s), false) end
      end
  end.
End Object.
