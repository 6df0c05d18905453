(* thermo/flash/flash_utils.py 1967-2136 (dew_bubble_Michelsen_Mollerup) and 2289-2584 (bubble_T_, dew_T_, bubble_P_ and
   dew_P_Michelsen_Mollerup): saturation points of a mixture by Newton steps on one variable with successive substitution of the
   composition. Phase objects are an abstract type; compositions are functions on the component numbers below N. *)
From Coq Require Import Reals List Bool Arith ZArith.
From Verif Require Import Base.
Open Scope R_scope.

Definition vec := nat -> R.
Inductive exn :=
| Undefined           (* a phase could not be evaluated at the first guess *)
| BadSteps            (* "Stopped convergence procedure after multiple bad steps" *)
| Trivial             (* "Converged to trivial condition, compositions of both phases equal" *)
| NotConverged        (* "Did not converge to specified tolerance" *)
| ZeroDivision        (* the derivative, or the sum of the new composition, is zero *)
| NoneSubtracted      (* guess - guess_old with guess_old None: no iteration was made *).
Inductive res (A : Type) := Ret (a : A) | Exn (e : exn).
Arguments Ret {A} a.
Arguments Exn {A} e.
(* what one pass through the loop body does: continue (or reach its end), break, or raise *)
Inductive pass (S : Type) := Go (s : S) | Break (s : S) | Raise (e : exn).
Arguments Go {S} s.
Arguments Break {S} s.
Arguments Raise {S} e.

(* math.copysign(a, s), the sign of a zero s taken as positive *)
Definition copysign (a s : R) : R := if Rltb s 0 then - Rabs a else Rabs a.
(* the label eos_mix.phase of a phase *)
Inductive label := Lliq | Lgas | Lboth.
Definition same_label (a b : label) : bool :=
  match a, b with Lliq, Lliq => true | Lgas, Lgas => true | Lboth, Lboth => true | _, _ => false end.

(* ---- the general function, 1967-2136 ---- *)
Section General.
  Variable Ph : Type.
  Variables (N : nat) (zs : vec).
  (* const_phase.to_TP_zs(zs=zs, guess) and iter_phase.to_TP_zs(zs=comp, guess), and `.to` with the same arguments; None: an exception *)
  Variables (const_to : R -> option Ph) (iter_to : R -> vec -> option Ph).
  (* lnphis() and dlnphis_dT() or dlnphis_dP() of a phase *)
  Variable props : Ph -> option (vec * vec).
  (* V(), eos_mix.phase, and min(P_discriminant_zeros()) or T_discriminant_zero_l(). Simplified: volumes are not zero, V() and the label
     do not raise *)
  Variables (V : Ph -> R) (lab : Ph -> label) (split0 : Ph -> option R).
  (* V_over_F = 0: bubble; V_over_F = 1: dew. Other values raise at once (1986-1987) and are not modelled *)
  Variable bubble : bool.
  Variables (xtol max_step : R) (freq : nat) (V_diff : option R) (damping0 : R).

  Record gst := G {
    g_guess : R; g_old : option R; g_step : R; g_fails : nat; g_skip : Z; g_damp : R; g_comp : vec; g_vlast : option R;
    g_tol : R; g_iter : Ph; g_const : Ph }.

  Definition expect : label := if bubble then Lgas else Lliq.   (* 2007 *)
  Definition unwanted : label := if bubble then Lliq else Lgas. (* 2008 *)

  (* 2017-2021 and 2087-2091: the handlers. guess: the value of the variable when the exception is caught (it can be the split) *)
  Definition handler (s : gst) (guess : R) (skip : Z) (damp : R) (it co : Ph) : pass gst :=
    match g_old s with
    | None => Raise Undefined
    | Some old => Go (G (old + copysign (Rmin (max_step * guess) (Rabs (g_step s))) (g_step s)) (g_old s) (g_step s) (S (g_fails s)) skip
                        damp (g_comp s) (g_vlast s) (g_tol s) it co)
    end.

  (* 2029: the condition of the adjustment; it, co: the phases *)
  Definition adjusts (d : R) (skip : Z) (vlast : option R) (it co : Ph) : bool :=
    let ratio := V it / V co in
    (Rltb (1 - d) ratio && Rltb ratio (1 + d)) || (0 <? skip)%Z
    || match vlast with
       | None => false
       | Some v => negb (Reqb v 0) && Rltb (Rabs (Rmin (V it) v / Rmax (V it) v)) 0.8
       end.
  (* 2038-2049 and 2061-2073: the split of a phase, moved off the boundary *)
  Definition moved (p : Ph) : option R :=
    match split0 p with None => None | Some sp => Some (sp * (if bubble then 0.999999999 else 1.000000001)) end.
  (* 2025-2082. Out: guess, skip and damping as they are left (also after an exception), and the phases with the properties of the
     constant one, None after an exception. Simplified: after an exception in here the two phase variables hold what they held before *)
  Definition adjust (guess : R) (skip : Z) (damp : R) (s : gst) (it co : Ph) (lc dc : vec)
    : R * Z * R * option (Ph * Ph * vec * vec) :=
    let keep := (guess, skip, damp, Some (it, co, lc, dc)) in
    match V_diff with
    | None => keep
    | Some d =>
        if adjusts d skip (g_vlast s) it co then
          let which := if same_label (lab it) unwanted then Some it else if same_label (lab co) expect then Some co else None in
          match which with
          | None => keep
          | Some p =>
              let '(skip', damp') := if (skip <? 0)%Z then (4%Z, 0.15) else (skip, damp) in (* 2035-2037, 2058-2060 *)
              match moved p with
              | None => (guess, skip', damp', None)
              | Some sp =>
                  match iter_to sp (g_comp s), const_to sp with
                  | Some it', Some co' =>
                      match props co' with
                      | Some (lc', dc') => (sp, skip', damp', Some (it', co', lc', dc'))
                      | None => (sp, skip', damp', None)
                      end
                  | _, _ => (sp, skip', damp', None)
                  end
              end
          end
        else keep
    end.

  (* 2098: Ks *)
  Definition K_of (lc li : vec) : vec := fun i => exp (lc i - li i).
  (* 2099: the new composition before it is normalised; 2100 its sum *)
  Definition raw (K : vec) : vec := fun i => zs i * K i.
  Definition total (K : vec) : R := loop N (fun i s => s + raw K i) 0.
  (* 2107-2111 *)
  Definition f_k (K : vec) : R := loop N (fun i s => s + zs i * K i) 0 - 1.
  Definition df_k (K dc di : vec) : R := loop N (fun i s => s + zs i * K i * (dc i - di i)) 0.
  (* 2117-2119 *)
  Definition adj_step (guess step damp : R) : R :=
    let a := copysign (Rmin (max_step * guess) (Rmin (Rabs step) (Rabs step * damp))) step in
    if Rleb (guess + a) 0 then a * 0.5 else a.
  (* 2124-2125 *)
  Definition comp_difference (c : vec) : R := loop N (fun i s => s + Rabs (zs i - c i)) 0.
  (* 2128-2131: some z is exactly 1 *)
  Definition has_pure : bool := existsb (fun i => Reqb (zs i) 1) (seq 0 N).

  (* 2092-2132: after both phases have been evaluated *)
  Definition update (iteration : nat) (s : gst) (guess : R) (skip : Z) (damp : R) (it co : Ph) (lc dc li di : vec) : pass gst :=
    if (2 <? g_fails s)%nat then Raise BadSteps else
    let K := K_of lc li in
    if Reqb (total K) 0 then Raise ZeroDivision else
    let comp := fun i => raw K i / total K in
    if negb (iteration mod freq =? 0)%nat then Go (G guess (g_old s) (g_step s) 0 skip damp comp (g_vlast s) (g_tol s) it co) else
    let damp := if (skip =? 0)%Z then damping0 else damp in
    if Reqb (df_k K dc di) 0 then Raise ZeroDivision else
    let step := - f_k K / df_k K dc di in
    let guess' := guess + adj_step guess step damp in
    let low := Rltb (comp_difference comp) (g_tol s) && negb (iteration =? 0)%nat in
    let tol := if low && has_pure then -1 else g_tol s in
    if low && Rltb (comp_difference comp) tol then Raise Trivial else
    if Rltb (Rabs (guess' - guess)) xtol then Break (G guess (Some guess) step 0 skip damp comp (g_vlast s) tol it co) else
    let vlast := match V_diff with None => g_vlast s | Some _ => Some (V it) end in
    Go (G guess' (Some guess) step 0 skip damp comp vlast tol it co).

  (* 2012-2132: one pass *)
  Definition body (iteration : nat) (s : gst) : pass gst :=
    match const_to (g_guess s) with
    | None => handler s (g_guess s) (g_skip s) (g_damp s) (g_iter s) (g_const s)
    | Some co =>
        match props co with
        | None => handler s (g_guess s) (g_skip s) (g_damp s) (g_iter s) co
        | Some (lc, dc) =>
            let skip := (g_skip s - 1)%Z in
            match iter_to (g_guess s) (g_comp s) with
            | None => handler s (g_guess s) skip (g_damp s) (g_iter s) co
            | Some it =>
                let '(guess, skip, damp, ph) := adjust (g_guess s) skip (g_damp s) s it co lc dc in
                match ph with
                | None => handler s guess skip damp it co
                | Some (it, co, lc, dc) =>
                    match props it with
                    | None => handler s guess skip damp it co
                    | Some (li, di) => update iteration s guess skip damp it co lc dc li di
                    end
                end
            end
        end
    end.

  (* 2134-2136: guess, composition, iterated phase, constant phase, number of the last iteration, error *)
  Definition finish (iteration : nat) (s : gst) : res (R * vec * Ph * Ph * nat * R) :=
    match g_old s with
    | None => Exn NoneSubtracted
    | Some old => if Rltb xtol (Rabs (g_guess s - old)) then Exn NotConverged
                  else Ret (g_guess s, g_comp s, g_iter s, g_const s, iteration, Rabs (g_guess s - old))
    end.
  Fixpoint iterate (todo iteration : nat) (s : gst) : res (R * vec * Ph * Ph * nat * R) :=
    match todo with
    | O => finish (iteration - 1) s
    | S todo => match body iteration s with
                | Go s' => iterate todo (S iteration) s'
                | Break s' => finish iteration s'
                | Raise e => Exn e
                end
    end.
  (* 1967-2010; guess, comp_guess (zs when not given), trivial_solution_tol, maxiter, the two phases given *)
  Definition dew_bubble (maxiter : nat) (guess : R) (comp : vec) (tol : R) (it co : Ph) : res (R * vec * Ph * Ph * nat * R) :=
    iterate maxiter 0 (G guess None (10 ^ 300) 0 0 damping0 comp None tol it co).
End General.

(* ---- the four direct functions, 2289-2584 ---- *)
Section Direct.
  Variable Ph : Type.
  Variables (N : nat) (zs : vec).
  (* gas_phase.to_TP_zs and liquid_phase.to_TP_zs for a value of the iterated variable and a composition *)
  Variables (gas_to liquid_to : R -> vec -> option Ph).
  Variable props : Ph -> option (vec * vec).
  (* bubble_T, bubble_P: true; dew_T, dew_P: false *)
  Variable bubble : bool.
  (* bubble_P, dew_P: true. Their handler of a failed liquid (2481, 2553) assigns T_guess, a variable nothing reads *)
  Variable over_P : bool.
  Variables (xtol max_step tol : R) (freq : nat).

  Record dst := D {
    d_guess : R; d_old : option R; d_step : R; d_fails : nat; d_comp : vec; d_liquid : option Ph; d_gas : option Ph }.

  (* 2311, 2322, ...: guess_old + copysign(min(max_step_damping, abs(step)), step) *)
  Definition damped (old step : R) : R := old + copysign (Rmin max_step (Rabs step)) step.
  Definition d_handler (assigns : bool) (s : dst) (liq gas : option Ph) : pass dst :=
    match d_old s with
    | None => Raise Undefined
    | Some old => Go (D (if assigns then damped old (d_step s) else d_guess s) (d_old s) (d_step s) (S (d_fails s)) (d_comp s) liq gas)
    end.

  Definition gas_comp (s : dst) : vec := if bubble then d_comp s else zs.
  Definition liquid_comp (s : dst) : vec := if bubble then zs else d_comp s.

  (* 2330-2331, 2406-2407: the new composition of the phase that appears, not normalised *)
  Definition d_raw (ll lg : vec) : vec := fun i => if bubble then zs i * exp (ll i - lg i) else zs i / exp (ll i - lg i).
  Definition d_total (w : vec) : R := loop N (fun i s => s + w i) 0.
  (* 2335-2339, 2412-2416 *)
  Definition d_df (w dl dg : vec) : R := loop N (fun i s => s + w i * (if bubble then dl i - dg i else dg i - dl i)) 0.
  Definition d_difference (w : vec) : R := loop N (fun i s => s + Rabs (zs i - w i)) 0.

  Definition d_update (iteration : nat) (s : dst) (liq gas : Ph) (ll dl lg dg : vec) : pass dst :=
    if (2 <? d_fails s)%nat then Raise BadSteps else
    let w := d_raw ll lg in
    if negb (iteration mod freq =? 0)%nat then Go (D (d_guess s) (d_old s) (d_step s) 0 w (Some liq) (Some gas)) else
    if Reqb (d_df w dl dg) 0 then Raise ZeroDivision else
    let step := - (d_total w - 1) / d_df w dl dg in
    let guess := damped (d_guess s) step in
    if Rltb (d_difference w) tol then Raise Trivial else
    if Reqb (d_total w) 0 then Raise ZeroDivision else
    let comp := fun i => w i / d_total w in
    if Rltb (Rabs (guess - d_guess s)) xtol then Break (D (d_guess s) (Some (d_guess s)) step 0 comp (Some liq) (Some gas))
    else Go (D guess (Some (d_guess s)) step 0 comp (Some liq) (Some gas)).

  Definition d_body (iteration : nat) (s : dst) : pass dst :=
    match gas_to (d_guess s) (gas_comp s) with
    | None => d_handler true s (d_liquid s) (d_gas s)
    | Some gas =>
        match props gas with
        | None => d_handler true s (d_liquid s) (Some gas)
        | Some (lg, dg) =>
            match liquid_to (d_guess s) (liquid_comp s) with
            | None => d_handler (negb over_P) s (d_liquid s) (Some gas)
            | Some liq =>
                match props liq with
                | None => d_handler (negb over_P) s (Some liq) (Some gas)
                | Some (ll, dl) => d_update iteration s liq gas ll dl lg dg
                end
            end
        end
    end.

  (* the last lines: guess, composition, l, g, iteration, error *)
  Definition d_finish (iteration : nat) (s : dst) : res (R * vec * option Ph * option Ph * nat * R) :=
    match d_old s with
    | None => Exn NoneSubtracted
    | Some old => if Rltb xtol (Rabs (d_guess s - old)) then Exn NotConverged
                  else Ret (d_guess s, d_comp s, d_liquid s, d_gas s, iteration, Rabs (d_guess s - old))
    end.
  Fixpoint d_iterate (todo iteration : nat) (s : dst) : res (R * vec * option Ph * option Ph * nat * R) :=
    match todo with
    | O => d_finish (iteration - 1) s
    | S todo => match d_body iteration s with
                | Go s' => d_iterate todo (S iteration) s'
                | Break s' => d_finish iteration s'
                | Raise e => Exn e
                end
    end.
  Definition saturation (maxiter : nat) (guess : R) (comp : vec) : res (R * vec * option Ph * option Ph * nat * R) :=
    d_iterate maxiter 0 (D guess None (10 ^ 300) 0 comp None None).
End Direct.
