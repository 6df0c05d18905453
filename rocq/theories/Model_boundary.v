(* thermo/flash/flash_utils.py 4590-4751: generate_phase_boundaries_naive, the search for two points between which a phase appears. *)
From Coq Require Import Reals List Bool Arith.
From Verif Require Import Base.
Import ListNotations.
Open Scope R_scope.

Inductive exn := FlashError | Unperturbable | ZeroDivision | Unbounded.
Inductive res (A : Type) := Ret (a : A) | Exn (e : exn).
Arguments Ret {A} a.
Arguments Exn {A} e.

Section Boundary.
  Variable Res : Type.
  (* flasher.flash(zs=zs, spec_var: spec_val, iter_var: v), None: an exception; check; res.value(iter_var) *)
  Variables (flash : R -> option Res) (check value : Res -> R).
  Variables (non_integral ignore_der0 : bool).
  Definition ignore_der : bool := non_integral || ignore_der0. (* 4627-4628 *)

  (* 4588: phase_boundary_perturbation_factors *)
  Definition factors : list R := [/ 10 ^ 4; / 10 ^ 5; / 10 ^ 6; / 10 ^ 7; / 10 ^ 8; / 10 ^ 9; / 10 ^ 10].
  (* 4680-4690 and 4715-4725: the perturbed flash kept and whether the check grows. An exception of the flash is not caught *)
  Fixpoint perturb (fs : list R) (r : Res) (cv : R) : res (Res * bool) :=
    match fs with
    | [] => Exn Unperturbable
    | fact :: fs =>
        let x := value r * (1 + fact) in
        match flash x with
        | None => Exn FlashError
        | Some p =>
            if Reqb (x - value r) 0 then Exn ZeroDivision else
            let der := (check p - cv) / (x - value r) in
            if Rleb 0 (check p) then Ret (p, Rltb 0 der) else perturb fs r cv
        end
    end.

  (* what has been found so far: points without the phase, points with it (value, result, check), the point kept, its perturbation *)
  Record bst := B { b_non : list (R * Res); b_all : list (R * Res * R); b_phase : option (R * Res * R); b_pert : option (Res * bool) }.

  Definition is_non (c : R) : bool := if non_integral then Rleb c 0 else Reqb c (-1).  (* 4655 *)
  Definition is_phase (c : R) : bool := if non_integral then Rltb 0 c else Rleb 0 c.   (* 4662 *)

  (* 4655-4682: a point is recorded; the comparison of 4675 is with itself *)
  Definition record (s : bst) (iv : R) (r : Res) : bst :=
    let c := check r in
    if is_non c then B (b_non s ++ [(iv, r)]) (b_all s) (b_phase s) (b_pert s)
    else if is_phase c then
      let all := b_all s ++ [(iv, r, c)] in
      match b_phase s with
      | None => B (b_non s) all (Some (iv, r, c)) None
      | Some (_, _, cp) => if Rltb cp cp then B (b_non s) all (Some (iv, r, cp)) None else B (b_non s) all (b_phase s) (b_pert s)
      end
    else s.

  (* 4693-4705: the nearest of the points without the phase on the wanted side *)
  Fixpoint nearest (dir : bool) (pv : R) (pr : Res) (l : list (R * Res)) (best : option (R * Res)) (dist : R) : option (R * Res) :=
    match l with
    | [] => best
    | (nv, nr) :: l =>
        let d := Rabs (value nr - value pr) in
        if (ignore_der || (negb dir && Rltb pv nv) || (dir && Rltb nv pv)) && Rltb d dist
        then nearest dir pv pr l (Some (nv, nr)) d
        else nearest dir pv pr l best dist
    end.

  Definition answer := (R * R * Res * Res * option Res * nat)%type.
  (* 4684-4708: try to answer with what has been found; None: go on *)
  Definition attempt (s : bst) (i : nat) : res (option answer * bst) :=
    match b_non s, b_phase s with
    | _ :: _, Some (pv, pr, cp) =>
        let pert := match b_pert s with
                    | Some p => Ret (Some p)
                    | None => if non_integral then Ret None
                              else match perturb factors pr cp with Ret p => Ret (Some p) | Exn e => Exn e end
                    end in
        match pert with
        | Exn e => Exn e
        | Ret pt =>
            let s' := B (b_non s) (b_all s) (b_phase s) pt in
            let dir := match pt with Some (_, d) => d | None => false end in
            match nearest dir pv pr (b_non s) None (10 ^ 100) with
            | Some (nv, nr) => Ret (Some (nv, pv, nr, pr, option_map fst pt, S i), s')
            | None => Ret (None, s')
            end
        end
    | _, _ => Ret (None, s)
    end.

  (* 4714-4731: perturbations of all points with the phase *)
  Fixpoint perturb_all (l : list (R * Res * R)) : res (list (R * Res * Res * bool)) :=
    match l with
    | [] => Ret []
    | (v, r, c) :: l => match perturb factors r c with
                        | Exn e => Exn e
                        | Ret (p, d) => match perturb_all l with Exn e => Exn e | Ret t => Ret ((v, r, p, d) :: t) end
                        end
    end.
  (* 4738-4748: for one point without the phase; the side is judged with the first point pv that had it, not with the point at hand *)
  Fixpoint nearest_phase (pv nv : R) (nr : Res) (l : list (R * Res * Res * bool)) (best : option (R * Res * Res)) (dist : R)
    : option (R * Res * Res) :=
    match l with
    | [] => best
    | (v, r, p, dir) :: l =>
        let d := Rabs (value nr - value r) in
        if ((negb dir && Rltb pv nv) || (dir && Rltb nv pv)) && Rltb d dist
        then nearest_phase pv nv nr l (Some (v, r, p)) d
        else nearest_phase pv nv nr l best dist
    end.
  Fixpoint last_resort (pv : R) (n : nat) (l : list (R * Res * Res * bool)) (nons : list (R * Res)) : res answer :=
    match nons with
    | [] => Exn Unbounded
    | (nv, nr) :: nons => match nearest_phase pv nv nr l None (10 ^ 100) with
                          | Some (v, r, p) => Ret (nv, v, nr, r, Some p, n)
                          | None => last_resort pv n l nons
                          end
    end.
  (* 4711-4751 *)
  Definition fallback (s : bst) (n : nat) : res answer :=
    match b_non s, b_phase s with
    | _ :: _, Some (pv, _, _) => match perturb_all (b_all s) with
                                 | Exn e => Exn e
                                 | Ret l => last_resort pv n l (b_non s)
                                 end
    | _, _ => Exn Unbounded
    end.

  (* 4644-4708; i: the number of the guess; n: how many there are. A flash that fails skips the guess *)
  Fixpoint search (guesses : list R) (i n : nat) (s : bst) : res answer :=
    match guesses with
    | [] => fallback s n
    | iv :: guesses =>
        match flash iv with
        | None => search guesses (S i) n s
        | Some r => match attempt (record s iv r) i with
                    | Exn e => Exn e
                    | Ret (Some a, _) => Ret a
                    | Ret (None, s') => search guesses (S i) n s'
                    end
        end
    end.
  Definition generate (guesses : list R) : res answer := search guesses 0 (length guesses) (B [] [] None None).
End Boundary.

(* 4613-4618: the guesses tried: a hot start, the caller's, then the fixed ones of the variable (4581-4586) *)
Definition all_guesses (hot : option R) (caller : option (list R)) (fixed : list R) : list R :=
  match hot with None => [] | Some h => [h] end ++ match caller with None => [] | Some l => l end ++ fixed.
