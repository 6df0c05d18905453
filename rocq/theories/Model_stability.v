(* thermo/flash/flash_utils.py: stability_iteration_Michelsen (lines 3914-4086); thermo/flash/flash_vl.py:
   FlashVL.stability_test_Michelsen (lines 527-654). Compositions are functions of the component index, N is their length. Floats are
   reals: nothing is infinite or not a number (the isinf and isnan branches, lines 3968-3972, 4040-4044, 4067, 4073-4074 and in line 587
   of flash_vl.py, are not modelled), trunc_exp is exp and trunc_log is ln. *)
From Coq Require Import Reals List Bool Arith.
From Verif Require Import Base Model_ss.
Import ListNotations.
Open Scope R_scope.

(* what one trial gives: the returned tuple, or UnconvergedError. t_zs_test is also what the caller's zs_test list holds afterwards. *)
Record trial := { t_sum : R; t_Ks : vec; t_zs_test : vec; t_V : R; t_trial_zs : vec; t_appearing_zs : vec; t_dG : R }.

Section Stability.
Variable N : nat.
(* flash_inner_loop(zs, Ks): may raise *)
Variable inner : vec -> vec -> option R -> option (R * vec * vec).

(* lines 4008-4012: the corrections; components without test fugacity keep their K *)
Definition correct (fugacities_trial fugacities_test : vec) (sum_inv : R) (Ks : vec) : vec * R :=
  loop N (fun i st => let '(Ks, err) := st in
    if Reqb (fugacities_test i) 0 then (Ks, err)
    else let ci := fugacities_trial i / fugacities_test i * sum_inv in (upd Ks i (Ks i * ci), err + (ci - 1) * (ci - 1))) (Ks, 0).

(* lines 4046-4084, after the loop *)
Definition finish (zs Ks zs_test lnphis_test : vec) (sum : R) : trial :=
  let '(V, x, y) := match inner zs Ks None with Some r => r | None => (0, zs, zs) end in
  let dG := if Reqb V 0 then 0 else loop N (fun i s => s + zs_test i * (ln (zs_test i) + lnphis_test i)) 0 * V in
  {| t_sum := sum; t_Ks := Ks; t_zs_test := zs_test; t_V := V; t_trial_zs := x; t_appearing_zs := y; t_dG := dG |}.

(* lines 3987-4044; None is the UnconvergedError of line 4086 *)
Fixpoint stability_loop (fuel : nat) (P : R) (zs fugacities_trial : vec) (lnphi_test : vec -> vec) (xtol : R)
  (Ks zs_test : vec) (sum sum_inv : R) : option trial :=
  match fuel with
  | O => None
  | S fuel' =>
      let lnphis_test := lnphi_test zs_test in
      let fugacities_test := fun i => P * zs_test i * exp (lnphis_test i) in
      let '(Ks1, err) := correct fugacities_trial fugacities_test sum_inv Ks in
      if Rltb err xtol then Some (finish zs Ks1 zs_test lnphis_test sum)
      else
        let raw := fun i => Ks1 i * zs i in
        let sum1 := loop N (fun i s => s + raw i) 0 in
        (* lines 4032-4037: a zero sum counts as converged *)
        if Reqb sum1 0 then Some (finish zs Ks1 raw lnphis_test sum1)
        else let sum_inv1 := 1 / sum1 in
             stability_loop fuel' P zs fugacities_trial lnphi_test xtol Ks1 (fun i => raw i * sum_inv1) sum1 sum_inv1
  end.
(* lines 3966-3985 *)
Definition stability_iteration_Michelsen (P : R) (zs_trial fugacities_trial zs_test : vec) (lnphi_test : vec -> vec) (maxiter : nat) (xtol : R) : option trial :=
  stability_loop maxiter P zs_trial fugacities_trial lnphi_test xtol
    (fun i => if Reqb (zs_trial i) 0 then 0 else zs_test i / zs_trial i) zs_test 1 1.

(* ---- FlashVL.stability_test_Michelsen ---- *)
(* the options of lines 527-532 *)
Record stab_options := { o_skip : option nat; o_handle_iffy : bool; o_lowest_dG : bool; o_highest_comp_diff : bool; o_min_comp_diff : option R; o_all_solutions : bool }.
(* the tuples collected: trial_zs, appearing_zs, V_over_F, i, sum_criteria, lnK_2_tot, dG_RT *)
Record stab_solution := { w_trial_zs : vec; w_appearing_zs : vec; w_V : R; w_i : nat; w_sum_criteria : R; w_lnK2 : R; w_dG : R }.
(* the returned pair, the returned list (all_solutions), or the TypeError of unpacking None, or the NameError of min_diff not set *)
Inductive stab_outcome := Verdict (stable : bool) (s : option stab_solution) | All (l : list stab_solution) | Type_error | Name_error.

(* line 576: zs == trial_zs *)
Definition same_list (a b : vec) : bool := forallb (fun i => Reqb (a i) (b i)) (seq 0 N).
(* lines 578-581 *)
Definition lnK_2_tot (Ks : vec) : R := loop N (fun k s => s + ln (Ks k) * ln (Ks k)) 0.
(* line 589 *)
Definition mean_diff (e a : vec) : R := loop N (fun i s => s + Rabs (e i - a i)) 0 / INR N.
(* lines 594-595 *)
Definition mean_rel_diff (e a : vec) : R := loop N (fun i s => s + Rabs (1 - e i / (if Reqb (a i) 0 then 1 else a i))) 0 / INR N.
(* lines 585-598: Some min_diff, or None when the appearing phase is one of the existing ones *)
Fixpoint scan_existing (existing : list vec) (a : vec) (min_diff : R) : option R :=
  match existing with
  | [] => Some min_diff
  | e :: rest =>
      let diff := mean_diff e a in
      let m := if Rltb diff min_diff then diff else min_diff in
      if Rltb diff (1 / 10000) then None
      else if Rltb (mean_rel_diff e a) (2 / 100) then None
      else scan_existing rest a m
  end.

(* the loop of lines 568-636: the state is always_stable, stable, iffy_solution, lowest_solution with dG_min, comp_diff_solution with
   comp_diff_max and all_solutions_list; the result adds the solution of the iteration that broke off and whether highest_comp_diff was
   switched off (line 613) *)
Record stab_state := { z_always : bool; z_stable : bool; z_iffy : option stab_solution; z_lowest : option stab_solution; z_dG_min : R;
  z_far : option stab_solution; z_far_max : R; z_all : list stab_solution; z_last : option stab_solution; z_far_off : bool; z_name_error : bool }.
Definition stab_start : stab_state := {| z_always := true; z_stable := true; z_iffy := None; z_lowest := None; z_dG_min := - 10 ^ 100;
  z_far := None; z_far_max := 0; z_all := []; z_last := None; z_far_off := false; z_name_error := false |}.

Fixpoint stab_loop (o : stab_options) (zs : vec) (existing : list vec) (i : nat) (trials : list (option trial)) (st : stab_state) : stab_state :=
  match trials with
  | [] => st
  | None :: rest => stab_loop o zs existing (S i) rest st                      (* UnconvergedError: lines 638-639 *)
  | Some t :: rest =>
      if same_list zs (t_trial_zs t) then stab_loop o zs existing (S i) rest st
      else
        let lnK2 := lnK_2_tot (t_Ks t) in
        let sum_criteria := Rabs (t_sum t - 1) in
        if (Rltb sum_criteria (1 / 10 ^ 9) || Rltb lnK2 (1 / 10 ^ 7) || Rltb (10 ^ 20) sum_criteria)%bool then stab_loop o zs existing (S i) rest st
        else
          match (if Nat.eqb (length existing) 0 then Some 0 else scan_existing existing (t_appearing_zs t) (10 ^ 100)) with
          | None => stab_loop o zs existing (S i) rest st
          | Some min_diff =>
              let stable := (Rltb (t_V t) (- (1 / 10 ^ 6)) || Rltb (1 + 1 / 10 ^ 6) (t_V t))%bool in
              let sol := {| w_trial_zs := t_trial_zs t; w_appearing_zs := t_appearing_zs t; w_V := t_V t; w_i := i;
                            w_sum_criteria := sum_criteria; w_lnK2 := lnK2; w_dG := t_dG t |} in
              let st := {| z_always := if stable then z_always st else false; z_stable := stable; z_iffy := z_iffy st; z_lowest := z_lowest st; z_dG_min := z_dG_min st;
                           z_far := z_far st; z_far_max := z_far_max st; z_all := if o_all_solutions o then z_all st ++ [sol] else z_all st; z_last := Some sol;
                           z_far_off := z_far_off st; z_name_error := z_name_error st |} in
              if stable then stab_loop o zs existing (S i) rest st
              else if o_highest_comp_diff o then
                (* min_diff is only set when there are existing compositions *)
                if Nat.eqb (length existing) 0 then
                  {| z_always := z_always st; z_stable := z_stable st; z_iffy := z_iffy st; z_lowest := z_lowest st; z_dG_min := z_dG_min st; z_far := z_far st;
                     z_far_max := z_far_max st; z_all := z_all st; z_last := z_last st; z_far_off := z_far_off st; z_name_error := true |}
                else if Rltb (z_far_max st) min_diff then
                  if (match o_min_comp_diff o with Some m => Rltb m min_diff | None => false end && negb (o_all_solutions o))%bool then
                    {| z_always := z_always st; z_stable := z_stable st; z_iffy := z_iffy st; z_lowest := z_lowest st; z_dG_min := z_dG_min st; z_far := z_far st;
                       z_far_max := z_far_max st; z_all := z_all st; z_last := z_last st; z_far_off := true; z_name_error := z_name_error st |}
                  else stab_loop o zs existing (S i) rest
                    {| z_always := z_always st; z_stable := z_stable st; z_iffy := z_iffy st; z_lowest := z_lowest st; z_dG_min := z_dG_min st; z_far := Some sol;
                       z_far_max := min_diff; z_all := z_all st; z_last := z_last st; z_far_off := z_far_off st; z_name_error := z_name_error st |}
                else stab_loop o zs existing (S i) rest st
              else if o_lowest_dG o then
                if Rltb (z_dG_min st) (t_dG t) then stab_loop o zs existing (S i) rest
                    {| z_always := z_always st; z_stable := z_stable st; z_iffy := z_iffy st; z_lowest := Some sol; z_dG_min := t_dG t; z_far := z_far st;
                       z_far_max := z_far_max st; z_all := z_all st; z_last := z_last st; z_far_off := z_far_off st; z_name_error := z_name_error st |}
                else stab_loop o zs existing (S i) rest st
              else if (o_handle_iffy o && Rltb sum_criteria (1 / 10 ^ 5))%bool then stab_loop o zs existing (S i) rest
                    {| z_always := z_always st; z_stable := z_stable st; z_iffy := Some sol; z_lowest := z_lowest st; z_dG_min := z_dG_min st; z_far := z_far st;
                       z_far_max := z_far_max st; z_all := z_all st; z_last := z_last st; z_far_off := z_far_off st; z_name_error := z_name_error st |}
              else if o_all_solutions o then stab_loop o zs existing (S i) rest st
              else st                                                          (* break *)
          end
  end.

(* line 649-650: i += skip *)
Definition number (o : stab_options) (s : stab_solution) : stab_solution :=
  match o_skip o with
  | None => s
  | Some k => {| w_trial_zs := w_trial_zs s; w_appearing_zs := w_appearing_zs s; w_V := w_V s; w_i := w_i s + k; w_sum_criteria := w_sum_criteria s;
                 w_lnK2 := w_lnK2 s; w_dG := w_dG s |}
  end.
(* lines 527-654. trials are the results of stability_iteration_Michelsen for the guesses in order: line 546, (gen() for i in
   range(skip)), makes a generator that is never run, so no guess is skipped. existing: existing_comps, [zs] for None (line 551). *)
Definition stability_test_Michelsen (o : stab_options) (zs : vec) (existing_comps : option (list vec)) (trials : list (option trial)) : stab_outcome :=
  let existing := match existing_comps with Some l => l | None => [zs] end in
  let st := stab_loop o zs existing 0 trials stab_start in
  if z_name_error st then Name_error
  else if o_all_solutions o then All (z_all st)
  else if z_always st then Verdict (z_stable st) None
  else
    let far := (o_highest_comp_diff o && negb (z_far_off st))%bool in
    match (if (negb (o_lowest_dG o) && negb far && negb (o_handle_iffy o))%bool then z_last st
           else if far then z_far st else if o_lowest_dG o then z_lowest st else z_iffy st) with
    | Some s => Verdict false (Some (number o s))
    | None => Type_error
    end.
End Stability.
