(* thermo/flash/flash_utils.py 2626-3170: a phase with a given H, S, G, U or A at fixed T, P or V, and the guesses for it. Floats are reals. *)
From Coq Require Import Reals List Bool Arith.
From Verif Require Import Base.
Import ListNotations.
Open Scope R_scope.

(* the exceptions a solver's fallback distinguishes; OtherError: any other one *)
Inductive exn := BadArgument | NotBounded | Unconverged | Oscillation | UnboundVariable | TypeError | OtherError.
Inductive res (A : Type) := Ret (a : A) | Exn (e : exn).
Arguments Ret {A} a.
Arguments Exn {A} e.
Inductive var := VT | VP | VV.
Inductive spec := SH | SS | SG | SU | SA.
Definition var_eqb (a b : var) : bool := match a, b with VT, VT | VP, VP | VV, VV => true | _, _ => false end.

(* 2626-2628: multiple_solution_sets, used with (fixed_var, spec) *)
Definition multiple_solutions (fixed : var) (s : spec) : bool := match fixed with VT => true | _ => false end.

(* ---- TPV_solve_HSGUA_1P, 2630-2890 ---- *)
Section Solve.
  Variable Phase : Type.
  (* phase.to(fixed_var: fixed_var_val, iter_var: x, zs=zs); the property asked for; spec_val, or spec_fun of the phase *)
  Variables (to : R -> res Phase) (value target : Phase -> R).
  (* what to_solve changes: the counter and the store *)
  Record st := St { calls : nat; store : option (Phase * R) }.
  (* 2715-2736, with the phase solved for, or one given *)
  Definition eval_phase (s : st) (p : Phase) : st * R :=
    let err := value p - target p in (St (S (calls s)) (Some (p, err)), err).
  Definition eval (s : st) (x : R) : st * res R :=
    match to x with
    | Exn e => (St (S (calls s)) (store s), Exn e)
    | Ret p => let '(s', err) := eval_phase s p in (s', Ret err)
    end.
  Definition eval_given (s : st) (x : R) (given : option Phase) : st * res R :=
    match given with None => eval s x | Some p => let '(s', err) := eval_phase s p in (s', Ret err) end.
  (* a solver is the list of points it evaluates and how it ends; an exception of an evaluation ends it *)
  Fixpoint exec (xs : list R) (out : res R) (s : st) : st * res R :=
    match xs with
    | [] => (s, out)
    | x :: xs => match eval s x with (s', Exn e) => (s', Exn e) | (s', Ret _) => exec xs out s' end
    end.

  (* 2764-2785: the transition pressure, the limits just below and above it (for the volume: those of the phases at the limits, which are
     given to to_solve). An exception of this part is Exn *)
  Record trans := Tr { t_at : R; t_under : R; t_above : R; t_lower : option Phase; t_higher : option Phase }.
  Definition pair_of (a b : R) : R * R := (Rmin a b, Rmax a b).
  (* 2790-2820 *)
  Definition low_side (s : st) (min_bound : option R) (t : trans) : st * res (option (R * R)) :=
    match min_bound with
    | None => (s, Ret None)
    | Some b =>
        match eval s b with
        | (s, Exn e) => (s, Exn e)
        | (s, Ret f) => match eval_given s (t_under t) (t_lower t) with
                        | (s, Exn e) => (s, Exn e)
                        | (s, Ret g) => (s, Ret (if Rleb (f * g) 0 then Some (pair_of b (t_under t)) else None))
                        end
        end
    end.
  Definition high_side (s : st) (max_bound : option R) (t : trans) (low : option (R * R)) (multiple : bool) : st * res (option (R * R)) :=
    match max_bound with
    | None => (s, Ret low)
    | Some b =>
        if match low with None => true | Some _ => multiple end then
          match eval s b with
          | (s, Exn e) => (s, Exn e)
          | (s, Ret f) => match eval_given s (t_above t) (t_higher t) with
                          | (s, Exn e) => (s, Exn e)
                          | (s, Ret g) => (s, Ret (if Rleb (f * g) 0 then Some (pair_of b (t_above t)) else low))
                          end
          end
        else (s, Ret low)
    end.
  Definition not_likely (min_bound max_bound : option R) (at_ : R) : bool :=
    match min_bound with Some b => Rltb at_ b | None => false end || match max_bound with Some b => Rltb b at_ | None => false end.
  Definition bracket (s : st) (min_bound max_bound : option R) (tr : res trans) (multiple ignore : bool) : st * res (option (R * R)) :=
    match tr with
    | Exn e => (s, Exn e)
    | Ret t =>
        match low_side s min_bound t with
        | (s, Exn e) => (s, Exn e)
        | (s, Ret low) =>
            match high_side s max_bound t low multiple with
            | (s, Exn e) => (s, Exn e)
            | (s, Ret (Some p)) => (s, Ret (Some p))
            | (s, Ret None) =>
                (* 2804: max_bound is tested twice, min_bound not at all *)
                if match max_bound with Some _ => negb ignore | None => false end then (s, Exn NotBounded)
                else if negb ignore && not_likely min_bound max_bound (t_at t) then (s, Exn NotBounded)
                else (s, Ret None)
            end
        end
    end.

  (* 2740-2749: the limit of the phase at a fixed volume. Result: max_bound and high *)
  Definition phys_limit (fixed : var) (max_phys max_bound : option R) : option R * option R :=
    match fixed, max_phys with
    | VV, Some m => let b := match max_bound with None => m | Some b => Rmin m b end in (Some b, Some b)
    | _, _ => (max_bound, None)
    end.
  (* newton or secant (fprime, low, high, guess; oscillation detection is part of it), and best_bounding_bounds followed by brenth *)
  Variable open_solver : bool -> bool -> option R -> option R -> R -> list R * res R.
  Variable bounded_solver : R -> R -> list R * res R.
  Definition caught (e : exn) : bool := match e with Unconverged | Oscillation | NotBounded => true | _ => false end.  (* 2860 *)

  (* 2849-2890: the open solver; after a failure to converge the bounded one; the last phase evaluated is returned *)
  Definition run_solvers (s : st) (fprime oscillation bounded : bool) (min_bound max_bound high : option R) (guess : R) : res (R * Phase * nat * R) :=
    let '(xs, out) := open_solver fprime oscillation min_bound high guess in
    let '(s, r) := exec xs out s in
    let '(s, r) :=
      match r with
      | Ret v => (s, Ret v)
      | Exn e =>
          if caught e then
            match bounded, min_bound, max_bound with
            | true, Some lo, Some hi => let '(xs, out) := bounded_solver lo hi in exec xs out s
            | _, _, _ => (s, Exn UnboundVariable)
            end
          else (s, Exn e)
      end in
    match r with
    | Exn e => Exn e
    | Ret v => match store s with None => Exn OtherError | Some (p, err) => Ret (v, p, calls s, err) end
    end.

  Definition solve (fixed iter : var) (sp : spec) (guess : R) (fprime0 spec_fun oscillation bounded : bool)
      (min_bound0 max_bound0 max_phys : option R) (tr : res trans) : res (R * Phase * nat * R) :=
    if var_eqb fixed iter then Exn BadArgument else
    let fprime := fprime0 && negb spec_fun in
    let '(max_bound, high) := phys_limit fixed max_phys max_bound0 in
    let ignore := match fixed, iter with VT, VP => true | _, _ => false end in
    let s0 := St 0 None in
    let '(s, b) := match fixed with VT => bracket s0 min_bound0 max_bound tr (multiple_solutions fixed sp) ignore | _ => (s0, Ret None) end in
    match b with
    | Exn NotBounded => Exn NotBounded
    | _ =>
        let '(min_bound, max_bound, high, guess, oscillation) :=
          match b with
          | Ret (Some (lo, hi)) => (Some lo, Some hi, Some hi, if Rltb lo guess && Rltb guess hi then guess else 0.5 * (lo + hi), false)
          | _ => (min_bound0, max_bound, high, guess, oscillation)
          end in
        run_solvers s fprime oscillation bounded min_bound max_bound high guess
    end.
End Solve.

(* ---- TPV_solve_HSGUA_guesses_1P, 2967-3170: the error of a simple model ---- *)
(* the value of a local variable *)
Inductive local := Unset | PyNone | Num (x : R).
Section Simple.
  (* the model of the method: H, S, V at (T, P), and T from (V, P); None: the function returns nothing *)
  Variables (H_model S_model V_model : R -> R -> R) (T_from_V : R -> R -> option R) (zs : list R) (P_ref : R).
  Definition dS_ideal : R := Rgas * fold_left Rplus (map (fun z => z * ln z) (filter (fun z => Rltb 0 z) zs)) 0.  (* 3000 *)
  (* 3004-3022 *)
  Definition locals (fixed iter : var) (fixed_val guess : R) : local * local * local :=
    let T := match fixed with VT => Num fixed_val | VV => PyNone | VP => Unset end in
    let P := match fixed with VP => Num fixed_val | _ => Unset end in
    let V := match fixed with VV => Num fixed_val | _ => Unset end in
    let V' := match fixed with VV => V | _ => PyNone end in
    match iter with
    | VP => (T, Num guess, V')
    | VT => (Num guess, P, V')
    | VV => (PyNone, P, Num guess)
    end.
  Definition always_S (s : spec) : bool := match s with SS | SG | SA => true | _ => false end.
  Definition always_H (s : spec) : bool := match s with SH | SG | SU | SA => true | _ => false end.
  Definition always_V (s : spec) : bool := match s with SU | SA => true | _ => false end.
  (* 3024-3025; the temperature used, None when T_from_V returned nothing *)
  Definition temperature (T P V : local) : res (option R) :=
    match T with
    | Num t => Ret (Some t)
    | PyNone => match V, P with Num v, Num p => Ret (T_from_V v p) | Num _, PyNone => Exn TypeError | _, _ => Exn UnboundVariable end
    | Unset => Exn UnboundVariable
    end.
  (* 3028-3047. Every quantity uses P, and T in arithmetic *)
  Definition simple_err (fixed iter : var) (sp : spec) (fixed_val guess spec_val : R) : res R :=
    let '(T, P, V) := locals fixed iter fixed_val guess in
    match temperature T P V with
    | Exn e => Exn e
    | Ret t =>
        match P with
        | Num p =>
            match t with
            | None => Exn TypeError
            | Some t =>
                let s := S_model t p - dS_ideal - Rgas * ln (p * (1 / P_ref)) in
                let h := H_model t p in
                let v := match V with Num v => v | _ => V_model t p end in
                Ret (match sp with
                     | SH => h - spec_val
                     | SS => s - spec_val
                     | SG => (h - t * s) - spec_val
                     | SU => (h - p * v) - spec_val
                     | SA => (h - p * v - t * s) - spec_val
                     end)
            end
        | _ => Exn UnboundVariable
        end
    end.
End Simple.

(* 3055-3070: the ideal gas: integrals of the heat capacities from T_ref *)
Definition mix (zs : list R) (f : list (R -> R)) (T : R) : R := fold_left (fun acc p => acc + fst p * snd p T) (combine zs f) 0.
Definition ideal_gas_err (zs : list R) (dH dS : list (R -> R)) (P_ref : R) :=
  simple_err (fun T _ => mix zs dH T) (fun T _ => mix zs dS T) (fun T P => Rgas * T / P) (fun V P => Some (P * V / Rgas)) zs P_ref.
(* 3089-3107: the last function has no return statement *)
Definition dadgostar_err (H S V : R -> R) (zs : list R) (P_ref : R) :=
  simple_err (fun T _ => H T) (fun T _ => S T) (fun T _ => V T) (fun _ _ => None) zs P_ref.

(* ---- solve_PTV_HSGUA_1P, 2927-2948: the guess ---- *)
Inductive method := LAST_CONVERGED | FIXED_GUESS | STP_T_GUESS | IG_ENTHALPY | LASTOVKA_SHAW | IDEAL_LIQUID_ENTHALPY | DADGOSTAR_SHAW_1.
Inductive kind := Gas | Liquid | Solid.
Definition methods (k : kind) : list method :=
  match k with
  | Gas => [LAST_CONVERGED; FIXED_GUESS; STP_T_GUESS; IG_ENTHALPY; LASTOVKA_SHAW]
  | Liquid => [LAST_CONVERGED; FIXED_GUESS; STP_T_GUESS; IDEAL_LIQUID_ENTHALPY; DADGOSTAR_SHAW_1]
  | Solid => [LAST_CONVERGED; FIXED_GUESS; STP_T_GUESS]
  end.
(* 3139-3153; estimate: what the models of the other methods give *)
Definition guess_of (iter : var) (user last_conv : option R) (estimate : method -> res R) (m : method) : res R :=
  match m with
  | STP_T_GUESS => Ret (match iter with VT => 298.15 | VP => 101325 | VV => 0.024465403697038125 end)
  | LAST_CONVERGED => match last_conv with None => Exn BadArgument | Some v => Ret v end
  | FIXED_GUESS => match user with None => Exn BadArgument | Some v => Ret v end
  | _ => estimate m
  end.
Fixpoint first_guess (guess : method -> res R) (l : list method) : res R :=
  match l with [] => Exn UnboundVariable | m :: l => match guess m with Ret v => Ret v | Exn _ => first_guess guess l end end.
Definition start_guess (k : kind) (iter : var) (last_conv : option R) (estimate : method -> res R) : res R :=
  first_guess (guess_of iter None last_conv estimate) (methods k).
(* 2950-2956 *)
Definition ytol_of (iapws95 : bool) (iter : var) (sp : spec) (spec_val : R) : option R :=
  if iapws95 then None
  else let y := / 10 ^ 8 * Rabs spec_val in
       Some (match iter, sp with VT, SS | VT, SH => y / 100 | _, _ => y end).
(* 2958-2965: T and P are those of the phase, not the value of the solver *)
Definition solve_PTV (Phase : Type) (T P : Phase -> R) (iapws95 : bool) (answer : res (R * Phase * nat * R)) : res (R * R * Phase * nat * R) :=
  match answer with
  | Exn e => Exn e
  | Ret (_, p, n, err) => if iapws95 && Rltb (/ 10 ^ 4) (Rabs err) then Exn BadArgument else Ret (T p, P p, p, n, err)
  end.

(* ---- PH_secant_1P and PH_newton_1P, 3172-3215 ---- *)
Definition PH_1P (Phase : Type) (to : R -> res Phase) (H : Phase -> R) (spec_val : R) (solver : list R * res R) : res (R * Phase * nat * R) :=
  let '(s, r) := exec Phase to H (fun _ => spec_val) (fst solver) (snd solver) (St Phase 0 None) in
  match r with
  | Exn e => Exn e
  | Ret v => match store Phase s with None => Exn OtherError | Some (p, err) => Ret (v, p, calls Phase s, err) end
  end.
