(* thermo/flash/flash_utils.py 3220-3460: saturation of a pure component (TVF_pure_secant, TVF_pure_newton, PVF_pure_newton, PVF_pure_secant,
   TSF_pure_newton, PSF_pure_newton); thermo/flash/flash_pure_vls.py 469-596: Psat_guess, flash_TVF, flash_PVF, flash_TSF, flash_PSF.
   A phase object is the functions of T and P it evaluates; a phase at a state is the object and the state. The root finders of
   fluids.numerics are parameters: given the objective and a start they return a value and the point they evaluated last, or fail; the
   first point they evaluate is the start, and an exception in the objective leaves them. Not modelled: the branches for CoolProp and
   IAPWS-95 packages, the number of iterations. *)
From Coq Require Import Reals List Bool Arith.
From Verif Require Import Base.
Import ListNotations.
Open Scope R_scope.

(* fugacities()[0], dfugacities_dT()[0], dfugacities_dP()[0], G(), Z() of the phase at T and P and zs = [1.0] *)
Record phase := { fugacity : R -> R -> R; dfugacity_dT : R -> R -> R; dfugacity_dP : R -> R -> R; G : R -> R -> R; Z : R -> R -> R }.
(* phase.to_TP_zs(T, P, [1.0]) *)
Record state := { of : phase; at_T : R; at_P : R }.
Definition to_TP (T P : R) (p : phase) : state := {| of := p; at_T := T; at_P := P |}.
Definition ev (f : phase -> R -> R -> R) (s : state) : R := f (of s) (at_T s) (at_P s).

Inductive exn := NoneAttribute | TooLow | Impossible | SolverError.
Inductive res (A : Type) := Ret (a : A) | Exn (e : exn).
Arguments Ret {A} a.
Arguments Exn {A} e.
Inductive solved := Root (r last : R) | Failed.

(* lines 3233-3241, 3277-3285, ... : one_liquid = len(liquids) is used as a truth value *)
Definition lowest (ps : list phase) (T P : R) : option state :=
  let one := length ps in
  if negb (Nat.eqb one 0) then option_map (to_TP T P) (hd_error ps)
  else snd (fold_left (fun (m : R * option state) s => let g := ev G s in if Rltb g (fst m) then (g, Some s) else m)
                      (map (to_TP T P) ps) (10 ^ 100, None)).

(* what is stored, and the derivative *)
Record evaluated := { e_a : state; e_b : state; e_err : R; e_derr : R }.
(* lines 3225-3250, 3269-3291, 3304-3330, 3341-3366: liquid and gas *)
Definition vl_eval (d : phase -> R -> R -> R) (liquids : list phase) (gas : phase) (T P : R) : option evaluated :=
  let g := to_TP T P gas in
  match lowest liquids T P with
  | Some l => Some {| e_a := l; e_b := g; e_err := ev fugacity l - ev fugacity g; e_derr := ev d l - ev d g |}
  | None => None
  end.
(* lines 3377-3410, 3422-3455: other phases and solids *)
Definition sf_eval (d : phase -> R -> R -> R) (others solids : list phase) (T P : R) : option evaluated :=
  match lowest solids T P with
  | None => None
  | Some s => match lowest others T P with
              | Some o => Some {| e_a := o; e_b := s; e_err := ev fugacity o - ev fugacity s; e_derr := ev d o - ev d s |}
              | None => None
              end
  end.

Definition P_MIN_FIXED : R := / 100. (* phase.py 129 *)

(* secant(f, start), newton(f, start, fprime=True) *)
Definition secant_t := (R -> option R) -> R -> solved.
Definition newton_t := (R -> option (R * R)) -> R -> solved.
Definition finish (eval : R -> option evaluated) (start : R) (r : solved) : res (R * state * state * R) :=
  match eval start with
  | None => Exn NoneAttribute
  | Some _ => match r with
              | Failed => Exn SolverError
              | Root p q => match eval q with Some e => Ret (p, e_a e, e_b e, e_err e) | None => Exn NoneAttribute end
              end
  end.
Definition by_secant (secant : secant_t) (eval : R -> option evaluated) (start : R) : res (R * state * state * R) :=
  finish eval start (secant (fun x => option_map e_err (eval x)) start).
Definition by_newton (newton : newton_t) (eval : R -> option evaluated) (start : R) : res (R * state * state * R) :=
  finish eval start (newton (fun x => option_map (fun e => (e_err e, e_derr e)) (eval x)) start).

(* lines 3220-3258 *)
Definition TVF_pure_newton (newton : newton_t) (P_guess T : R) (liquids : list phase) (gas : phase) :=
  by_newton newton (vl_eval dfugacity_dP liquids gas T) P_guess.
(* lines 3260-3298; the derivative is not evaluated *)
Definition TVF_pure_secant (secant : secant_t) (P_guess T : R) (liquids : list phase) (gas : phase) :=
  if Rltb P_guess P_MIN_FIXED then Exn TooLow else by_secant secant (vl_eval dfugacity_dP liquids gas T) P_guess.
(* lines 3301-3336 *)
Definition PVF_pure_newton (newton : newton_t) (T_guess P : R) (liquids : list phase) (gas : phase) :=
  by_newton newton (fun T => vl_eval dfugacity_dT liquids gas T P) T_guess.
(* lines 3339-3370 *)
Definition PVF_pure_secant (secant : secant_t) (T_guess P : R) (liquids : list phase) (gas : phase) :=
  by_secant secant (fun T => vl_eval dfugacity_dT liquids gas T P) T_guess.
(* lines 3373-3415 *)
Definition TSF_pure_newton (newton : newton_t) (P_guess T : R) (others solids : list phase) :=
  by_newton newton (sf_eval dfugacity_dP others solids T) P_guess.
(* lines 3417-3460 *)
Definition PSF_pure_newton (newton : newton_t) (T_guess P : R) (others solids : list phase) :=
  by_newton newton (fun T => sf_eval dfugacity_dT others solids T P) T_guess.

(* the packages of flash_pure_vls.py 300-334 that are told apart here. IG_activity: GibbsExcessLiquid and ideal gas, with the vapour
   pressure of the liquid phase and the inverse of the correlation. Same_EOS: liquid and gas of the same cubic equation of state, with the
   critical point and the equation's saturation curves (None: an exception). Any: the vapour pressure correlation (None: an exception)
   and its inverse (which may also raise) *)
Inductive package :=
| IG_activity (Psat : R -> R) (Tsat : R -> option R)
| Same_EOS (Tc Pc : R) (Psat : R -> R) (Tsat : R -> option R)
| Any (Psat : R -> option R) (Tsat : R -> option R).
Record flasher := { kind : package; f_liquids : list phase; f_gas : phase; f_solids : list phase; f_Tt : R; f_Pt : R;
                    Psub : R -> R; Tsub : R -> R }.

(* lines 510-520 and 557-563: the result is refused when both phases have the same compressibility factor *)
Definition not_trivial (r : res (R * state * state * R)) : res (R * state * state * R) :=
  match r with
  | Ret (p, l, g, err) => if Reqb (ev Z l) (ev Z g) then Exn Impossible else r
  | Exn e => Exn e
  end.

(* lines 469-480, 482-520 *)
Definition flash_TVF (secant : secant_t) (f : flasher) (T : R) : res (R * state * state * R) :=
  match kind f with
  | IG_activity Psat _ => match hd_error (f_liquids f) with
                          | Some l => Ret (Psat T, to_TP T (Psat T) l, to_TP T (Psat T) (f_gas f), 0)
                          | None => Exn NoneAttribute
                          end
  | Same_EOS Tc _ Psat _ => if Rltb Tc T then Exn Impossible
                            else match hd_error (f_liquids f) with
                                 | Some l => Ret (Psat T, to_TP T (Psat T) l, to_TP T (Psat T) (f_gas f), 0)
                                 | None => Exn NoneAttribute
                                 end
  | Any Psat _ => not_trivial (TVF_pure_secant secant (match Psat T with Some p => p | None => 100000 end) T (f_liquids f) (f_gas f))
  end.
(* lines 522-563 *)
Definition flash_PVF (newton : newton_t) (f : flasher) (P : R) : res (R * state * state * R) :=
  let at_Tsat (T : option R) (e : exn) :=
    match T, hd_error (f_liquids f) with
    | Some T, Some l => Ret (T, to_TP T P l, to_TP T P (f_gas f), 0)
    | None, _ => Exn e
    | _, None => Exn NoneAttribute
    end in
  match kind f with
  | Same_EOS _ Pc _ Tsat => if Rltb Pc P then Exn Impossible else at_Tsat (Tsat P) Impossible
  | IG_activity _ Tsat => at_Tsat (Tsat P) SolverError
  | Any _ Tsat => match Tsat P with
                  | Some T => not_trivial (PVF_pure_newton newton T P (f_liquids f) (f_gas f))
                  | None => Exn SolverError
                  end
  end.
(* lines 566-580 *)
Definition flash_TSF (newton : newton_t) (f : flasher) (T : R) : res (R * state * state * R) :=
  if Rltb T (f_Tt f) then TSF_pure_newton newton (Psub f T) T (f_gas f :: f_liquids f) (f_solids f)
  else TSF_pure_newton newton 1000000 T (f_liquids f) (f_solids f).
(* lines 582-591 *)
Definition flash_PSF (newton : newton_t) (f : flasher) (P : R) : res (R * state * state * R) :=
  if Rltb P (f_Pt f) then PSF_pure_newton newton (Tsub f P) P (f_gas f :: f_liquids f) (f_solids f)
  else PSF_pure_newton newton 1000000 P (f_liquids f) (f_solids f).
