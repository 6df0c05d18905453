(* thermo/flash/flash_utils.py 4525-4579, 4794-4911, 4928-5205 and flash_base.py 575-618: mixing one stream with another until a phase
   appears: compositions, checks of a result, bounds, and the choice of what is returned. Floats are reals, lists are lists. *)
From Coq Require Import Reals List Bool Arith.
From Verif Require Import Base.
Import ListNotations.
Open Scope R_scope.

Inductive exn := FlashError | ZeroDivision | Unbounded | Unrecognized | NoMethod | UnboundVariable.
Inductive res (A : Type) := Ret (a : A) | Exn (e : exn).
Arguments Ret {A} a.
Arguments Exn {A} e.

Definition lsum (l : list R) : R := fold_left Rplus l 0.
(* chemicals.utils.normalize: every value divided by the sum *)
Definition normalize (l : list R) : res (list R) := if Reqb (lsum l) 0 then Exn ZeroDivision else Ret (map (fun x => x / lsum l) l).

(* ---- removing as much of the added stream as possible ---- *)
(* 4547-4563; the pairs (existing, added) *)
Fixpoint factor_loop (l : list (R * R)) (factor : option R) : option R :=
  match l with
  | [] => factor
  | (z, a) :: l =>
      if Rltb 0 a then
        let c := - z / a in
        factor_loop l (match factor with None => Some c | Some f => if Rltb f c then Some c else factor end)
      else factor_loop l factor
  end.
Definition minimum_factor (zs added : list R) : R :=
  let l := combine zs added in
  if existsb (fun p => Rltb 0 (snd p) && Reqb (fst p) 0) l then 0
  else match factor_loop l None with None => 0 | Some f => f end.
(* 4565-4579 *)
Definition remove_overlap (zs added : list R) : res (list R) :=
  let factor := minimum_factor zs added in
  normalize (map (fun p => fst p + factor * snd p) (combine zs added)).
(* 4946-4948 and the same lines elsewhere: the mixture for a ratio *)
Definition mixture (zs added : list R) (ratio : R) : res (list R) :=
  normalize (map (fun p => fst p + ratio * snd p) (combine zs added)).

(* ---- 4525-4539: results of the stability test without repetitions: (xs, ys, V_over_F) ---- *)
Definition stab := (list R * list R * R)%type.
Definition s_xs (t : stab) : list R := fst (fst t).
Definition s_ys (t : stab) : list R := snd (fst t).
(* the sort key (xs[0], V_over_F), compared lexicographically; simplified: xs is not empty *)
Definition key_le (a b : stab) : bool :=
  let xa := hd 0 (s_xs a) in let xb := hd 0 (s_xs b) in
  Rltb xa xb || (Reqb xa xb && Rleb (snd a) (snd b)).
(* list.sort is stable; insertion from the right is *)
Fixpoint insert (x : stab) (l : list stab) : list stab :=
  match l with [] => [x] | y :: t => if key_le x y then x :: l else y :: insert x t end.
Fixpoint sort (l : list stab) : list stab := match l with [] => [] | x :: t => insert x (sort t) end.
Definition mean_difference (a b : list R) (N : nat) : R := lsum (map (fun p => Rabs (fst p - snd p)) (combine a b)) / INR N.
Definition differs (tol : R) (N : nat) (t last : stab) : bool :=
  Rltb tol (mean_difference (s_xs t) (s_xs last) N) || Rltb tol (mean_difference (s_ys t) (s_ys last) N).
(* good: the results kept so far, the last one first *)
Fixpoint dedup_loop (tol : R) (N : nat) (l : list stab) (last : stab) : list stab :=
  match l with
  | [] => []
  | t :: l => if differs tol N t last then t :: dedup_loop tol N l t else dedup_loop tol N l last
  end.
Definition deduplicate (tol : R) (results : list stab) : list stab :=
  match results with
  | [] => []
  | r0 :: _ => let N := length (s_xs r0) in
               match sort results with [] => [] | r :: l => r :: dedup_loop tol N l r end
  end.

(* ---- 4826-4911: checks of a result. A result: has a gas, the numbers of liquids and solids, the phase fractions, VF and LF ---- *)
Record eq_state := E { e_gas : bool; e_liquids : nat; e_solids : nat; e_betas : list R; e_VF : R; e_LF : R }.
Definition phase_count (s : eq_state) : nat := (if e_gas s then 1 else 0) + e_liquids s + e_solids s.
Definition lmin (l : list R) : R := match l with [] => 0 | x :: t => fold_left Rmin t x end.
Definition has_liquid (s : eq_state) : bool := negb (e_liquids s =? 0)%nat.
Definition dew_err (s : eq_state) : R := if e_gas s && has_liquid s then e_LF s else -1.                 (* 4841-4844 *)
Definition bubble_err (s : eq_state) : R := if e_gas s && has_liquid s then e_VF s else -1.              (* 4846-4849 *)
Definition sat_err (s : eq_state) : R := if e_gas s && has_liquid s then lmin (e_betas s) else -1.       (* 4851-4854 *)
(* 4856-4862, 4864-4873: res.liquids is a list, never None *)
Definition VLN_bubble_check (s : eq_state) : R :=
  if e_gas s && (2 <=? phase_count s)%nat && (e_solids s =? 0)%nat then Rmin (e_LF s) (e_VF s)
  else if (e_liquids s =? 1)%nat && (phase_count s =? 1)%nat then -1 else -10000.
Definition VL_dew_check (s : eq_state) : R :=
  if e_gas s && (phase_count s =? 2)%nat && (e_solids s =? 0)%nat then Rmin (e_LF s) (e_VF s)
  else if e_gas s && (phase_count s =? 1)%nat then -1 else -10000.
Definition VL_check (s : eq_state) : R := if e_gas s && (phase_count s =? 2)%nat && (e_solids s =? 0)%nat then 1 else -1.
Definition LL_check (s : eq_state) : R := if (phase_count s =? 2)%nat && (e_liquids s =? 2)%nat then 1 else -1.
Definition VLN_or_LN_check (s : eq_state) : R := if (1 <? phase_count s)%nat && (e_solids s =? 0)%nat then 1 else -1.
Definition VLL_or_LL_check (s : eq_state) : R :=
  if (1 <? phase_count s)%nat && (e_solids s =? 0)%nat && (e_liquids s =? 2)%nat then 1 else -1.
Definition VLL_check (s : eq_state) : R :=
  if (phase_count s =? 3)%nat && (e_solids s =? 0)%nat && (e_liquids s =? 2)%nat then 1 else -1.

(* ---- 4978-5018: bounds ---- *)
Section Bounds.
  Variable Res : Type.
  (* incipient_phase_status without the check: the flash of the mixture of a ratio; None: an exception *)
  Variables (status : R -> option Res) (check : Res -> R).
  Definition bst := (option (R * Res) * option (R * Res))%type.
  Definition note (s : bst) (f : R) (r : Res) : bst :=
    if Reqb (check r) (-1) then (Some (f, r), snd s) else if Reqb (check r) 1 then (fst s, Some (f, r)) else s.
  (* negative bound, positive bound, their results, the number of flashes *)
  Definition answer := (R * R * Res * Res * nat)%type.
  Definition both (s : bst) (n : nat) : option answer :=
    match s with (Some (nf, nr), Some (pf, pr)) => Some (nf, pf, nr, pr, n) | _ => None end.
  Fixpoint bounds_loop (l : list R) (n : nat) (s : bst) : res answer :=
    match l with
    | [] => Exn Unbounded
    | f :: l => match status f with
                | None => Exn FlashError
                | Some r => let s' := note s f r in
                            match both s' (S n) with Some a => Ret a | None => bounds_loop l (S n) s' end
                end
    end.
  (* factors: all_factors, 4962-4972 (the last forty in an order drawn at import) *)
  Definition generate_incipient (factors : list R) : res answer :=
    match status 0 with
    | None => Exn FlashError
    | Some r0 =>
        let s0 := note (None, None) 0 r0 in
        match status 1 with
        | None => Exn FlashError
        | Some r1 => let s1 := note s0 1 r1 in
                     match both s1 2 with Some a => Ret a | None => bounds_loop factors 2 s1 end
        end
    end.

  (* 5057-5060, 5140-5143, 5200-5203: for v in store[::-1]: if check(v) == 1: break; then v is returned *)
  Fixpoint pick (reversed : list Res) (v : option Res) : res Res :=
    match reversed with
    | [] => match v with Some v => Ret v | None => Exn UnboundVariable end
    | x :: l => if Reqb (check x) 1 then Ret x else pick l (Some x)
    end.
  Definition last_matching (store : list Res) : res Res := pick (rev store) None.
End Bounds.

(* ---- 5085-5101: the starting point of the one sided secant for the boundary VL. removed: the composition was changed; neg_eq, pos_eq:
   the result of the bound has the original composition ---- *)
Definition start_of (Res : Type) (removed neg_eq pos_eq : bool) (neg pos : Res) (flash_existing : option Res) : option Res :=
  if negb removed then
    if neg_eq then Some neg else if pos_eq then Some neg else flash_existing
  else flash_existing.
Inductive vmode := LF0 | LF | VF.
Inductive checkname := CVL | CLL | CVLL | CVLN_LN | CVLL_LL.
(* None: mode is left unbound and used by the first evaluation *)
Definition mode_of (check : checkname) (start_VF : R) : option vmode :=
  match check with CLL => Some LF0 | CVL => Some (if Rltb 0.5 start_VF then LF else VF) | _ => None end.

(* ---- 5176-5182: the vapour fraction taken from the solutions (V_over_F, dG) of the stability test ---- *)
Definition pseudo_fraction (slns : list (R * R)) : R :=
  fst (fold_left (fun '(frac, lowest) '(vf, dG) => if Rltb dG lowest then (vf, lowest) else (frac, lowest)) slns (- / 10 ^ 10, 10 ^ 100)).

(* ---- flash_base.py 575-618: the methods in order, and what the loop over them does ---- *)
Inductive method := OneSidedSecant | BoundedNaive | BoundedSat.
Definition methods : list method := [OneSidedSecant; BoundedNaive; BoundedSat].
Section Dispatch.
  Variable Res : Type.
  (* what a method answers for a boundary; an exception of it is not caught *)
  Variable run : method -> checkname -> res Res.
  Fixpoint try_methods (b : checkname) (l : list method) : res Res :=
    match l with
    | [] => Exn NoMethod
    | OneSidedSecant :: l => match b with CVL => run OneSidedSecant b | _ => try_methods b l end
    | BoundedNaive :: _ => run BoundedNaive b
    | BoundedSat :: l => match b with CVL => run BoundedSat b | _ => Exn UnboundVariable end
    end.
  Definition mixing_phase_boundary (b : option checkname) : res Res :=
    match b with None => Exn Unrecognized | Some b => try_methods b methods end.
End Dispatch.
