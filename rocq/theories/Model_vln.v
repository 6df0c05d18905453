(* thermo/flash/flash_vln.py 203-237, 339-619: the flash with several liquids at T and P: how the results of the two phase flashes, stability
   tests and N phase iterations are combined. Those are parameters; Res: a result or an exception. Floats are reals. *)
From Coq Require Import Reals List Bool Arith.
From Verif Require Import Base.
Import ListNotations.
Open Scope R_scope.

(* Unconverged and the three exceptions the last resort catches; Other: any other one *)
Inductive exn := Trivial | OscillationE | PhaseCountReduced | Unconverged | Other.
Inductive res (A : Type) := Ret (a : A) | Exn (e : exn).
Arguments Ret {A} a.
Arguments Exn {A} e.

Section VLN.
  Variable Phase : Type.
  (* G() or, when all phases have the ideal gas basis, G_min_criteria() *)
  Variable G : Phase -> R.

  (* what a two phase flash returns: one phase, or two with their fractions *)
  Inductive two := One | Two (a b : Phase) (ba bb : R).
  (* answers: a single phase (None when no phase has a Gibbs energy below 1e100); gas and liquid; two liquids; a list of phases *)
  Inductive answer := AOne (p : option Phase) | AVL (g l : Phase) (bg bl : R) | ALL (l0 l1 : Phase) (b0 b1 : R) | AMany (ps : list Phase) (betas : list R).

  (* 373-385 *)
  Definition min_phase_1P (phases : list Phase) : option Phase * R :=
    fold_left (fun '(m, g) p => if Rltb (G p) g then (Some p, G p) else (m, g)) phases (None, 10 ^ 100).
  (* 422-425, 518-521 *)
  Definition total (ps : list Phase) (betas : list R) : R := fold_left Rplus (map (fun x => fst x * G (snd x)) (combine betas ps)) 0.
  Definition total2 (a b : Phase) (ba bb : R) : R := total [a; b] [ba; bb].

  (* 403-416: the liquids against the first; the first two phase result ends the search *)
  Fixpoint search_LL (test : Phase -> res two) (ls : list Phase) : option (Phase * Phase * R * R) :=
    match ls with
    | [] => None
    | l :: ls => match test l with Ret (Two a b ba bb) => Some (a, b, ba, bb) | _ => search_LL test ls end
    end.
  (* whether sln_2P is not None after 392-416 *)
  Definition has_2P (vl : res two) (ll : Phase -> res two) (others : list Phase) : bool :=
    match vl with Ret _ => true | Exn _ => existsb (fun l => match ll l with Ret _ => true | Exn _ => false end) others end.

  (* 438-458: the candidates with a phase fraction in range: their two phase flash, or an exception. Only three kinds are skipped *)
  Definition skipped (e : exn) : bool := match e with Unconverged | OscillationE | PhaseCountReduced => true | _ => false end.
  Fixpoint double_check (cands : list (res two)) (s : answer) (g2 : R) : res (answer * R) :=
    match cands with
    | [] => Ret (s, g2)
    | Exn e :: l => if skipped e then double_check l s g2 else Exn e
    | Ret One :: l => double_check l s g2
    | Ret (Two a b ba bb) :: l =>
        if Rltb (total2 a b ba bb) g2 then double_check l (ALL a b ba bb) (total2 a b ba bb) else double_check l s g2
    end.
  Definition found (s : answer) : list Phase * list R :=
    match s with
    | AVL a b ba bb | ALL a b ba bb => ([a; b], [ba; bb])
    | AOne (Some p) => ([p], [1])
    | AOne None => ([], [])
    | AMany ps bs => (ps, bs)
    end.

  (* 492-498: the liquids from the third on, until one makes the state unstable. The phase tested last and the verdict *)
  Fixpoint others_test (test : Phase -> res bool) (ls : list Phase) (last : Phase) : res (bool * Phase) :=
    match ls with
    | [] => Ret (true, last)
    | l :: ls => match test l with Exn e => Exn e | Ret false => Ret (false, l) | Ret true => others_test test ls l end
    end.
  Definition caught (e : exn) : bool := match e with Trivial | OscillationE | PhaseCountReduced => true | _ => false end. (* 561 *)
  Definition good_betas (bs : list R) : bool := forallb (fun b => negb (Rltb b 0 || Rltb 1 b)) bs.                          (* 523-526 *)

  (* 583-619; the state of the loop is the phases and fractions *)
  Fixpoint more_phases (stab : list Phase -> Phase -> res bool) (np : list Phase -> res (list Phase * list R)) (max_phases : nat)
      (liquids : list Phase) (ps : list Phase) (bs : list R) : res answer :=
    match liquids with
    | [] => Ret (AMany ps bs)
    | l :: ls =>
        if (length bs <? max_phases)%nat then
          match stab ps l with
          | Exn e => Exn e
          | Ret true => more_phases stab np max_phases ls ps bs
          | Ret false =>
              match np (ps ++ [l]) with
              | Exn _ => more_phases stab np max_phases ls ps bs
              | Ret (ps', bs') => if (max_phases =? length bs')%nat then Ret (AMany ps' bs') else more_phases stab np max_phases ls ps' bs'
              end
          end
        else Ret (AMany ps bs)
    end.

  (* the parameters of the flash *)
  Variables (gas : Phase) (liquids : list Phase) (N unique_liquids : nat).
  Variable vl : res two.                                  (* 393: first liquid and gas *)
  Variable ll : Phase -> res two.                         (* 407: first liquid and another *)
  Variables (double : bool) (candidates : answer -> res (list (res two))).  (* 427-445, an exception of the stability tests *)
  Variable stab : list Phase -> Phase -> Phase -> res bool.   (* 489-496: compositions found, base phase, phase tested *)
  Variable np : list Phase -> res (list Phase * list R).      (* 513 *)
  Variable last_resort : res (Phase * Phase * R).             (* 541: l, g, V_over_F *)

  Definition max_liquids : nat := length liquids.
  Definition max_phases : nat := S max_liquids.

  (* 510-570 *)
  Inductive third := Accepted (ps : list Phase) (bs : list R) | Failed | Continue (ps : list Phase) (bs : list R).
  Definition three_phase (flash_phases : list Phase) (G_2P : R) : third :=
    match np flash_phases with
    | Exn _ => Failed
    | Ret (ps, bs) =>
        if ((length ps <? 3)%nat || (length bs <? 3)%nat) then Failed   (* IndexError in 519-521 *)
        else
          let G_3P := total (firstn 3 ps) (firstn 3 bs) in
          if (max_phases =? 3)%nat && good_betas bs then (if Rltb G_2P G_3P then Failed else Accepted ps bs)
          else if negb (good_betas bs) || Rltb G_2P G_3P then Failed else Continue ps bs
    end.
  Definition try_last (s : answer) (G_2P : R) : res answer :=
    match last_resort with
    | Ret (l, g, vf) => if Rltb (vf * G g + (1 - vf) * G l) G_2P then Ret (ALL l g (1 - vf) vf) else Ret s
    | Exn e => if caught e then Ret s else Exn e
    end.

  Definition flash_TPV : res answer :=
    let '(min1, G1) := min_phase_1P (gas :: liquids) in
    let VL := match vl with Ret (Two g l bg bl) => Some (g, l, bg, bl) | _ => None end in
    let LL := match VL with
              | Some _ => None
              | None => if (1 <? max_liquids)%nat then search_LL ll (tl liquids) else None
              end in
    let start := match VL, LL with
                 | Some (g, l, bg, bl), _ => AVL g l bg bl
                 | None, Some (a, b, ba, bb) => ALL a b ba bb
                 | None, None => AOne min1
                 end in
    (* 417-425: without a phase below 1e100 found_phases[0] is None *)
    match start with
    | AOne None => Exn Other
    | _ =>
        let G_2P := total (fst (found start)) (snd (found start)) in
        let checked :=
          if double && has_2P vl ll (tl liquids) then
            match candidates start with Exn e => Exn e | Ret l => double_check l start G_2P end
          else Ret (start, G_2P) in
        match checked with
        | Exn e => Exn e
        | Ret (s, G_2P) =>
            let vl_solved := match VL with Some _ => true | None => false end in
            let ll_solved := match LL with Some _ => true | None => false end in
            if ((ll_solved && (max_liquids =? 2)%nat) || (vl_solved && (max_liquids =? 1)%nat) || ((N <? 3)%nat && (vl_solved || ll_solved))) then
              (if Rltb G_2P G1 then Ret s else Ret (AOne min1))
            else if negb ll_solved && negb vl_solved then Ret (AOne min1)
            else
              match fst (found s), (if ll_solved then Some gas else nth_error liquids 1) with
              | base :: _, Some other =>
                  let fnd := fst (found s) in
                  let verdict := match stab fnd base other with
                                 | Exn e => Exn e
                                 | Ret true => if (2 <? unique_liquids)%nat then others_test (stab fnd base) (skipn 2 liquids) other else Ret (true, other)
                                 | Ret false => Ret (false, other)
                                 end in
                  match verdict with
                  | Exn e => Exn e
                  | Ret (true, _) => Ret s
                  | Ret (false, other) =>
                      match three_phase (fnd ++ [other]) G_2P with
                      | Accepted ps bs => Ret (AMany ps bs)
                      | Failed => if vl_solved then try_last s G_2P else Ret s
                      | Continue ps bs =>
                          if (N =? 3)%nat then Ret (AMany ps bs)
                          else more_phases (fun ps l => match ps with [] => Exn Other | b :: _ => stab ps b l end) np max_phases (skipn 2 liquids) ps bs
                      end
                  end
              | _, _ => Exn Other
              end
        end
    end.

  (* 339-353: the entry. hot: the flash from the hot start, if there is one with more than one phase and no solution was asked for; indep: the
     flash of composition independent phases, if they are and no solution was asked for *)
  Definition entry (hot : option (res answer)) (indep : option (res answer)) : res answer :=
    match hot with
    | Some (Ret a) => Ret a
    | _ => match indep with Some r => r | None => flash_TPV end
    end.
End VLN.

(* ---- 203-237: flash at a vapour fraction with several liquids. A solution: (value, liquid, gas) ---- *)
Section VF.
  Variable Phase : Type.
  Variable G : Phase -> R.
  Variable VF : R.
  Definition sln := (R * Phase * Phase)%type.
  Variable flash : Phase -> res sln.
  Definition sln_G (s : sln) : R := let '(_, l, g) := s in G l * (1 - VF) + G g * VF.
  Fixpoint best (ls : list Phase) (m : option sln) (g : R) : option sln :=
    match ls with
    | [] => m
    | l :: ls => match flash l with
                 | Exn _ => best ls m g
                 | Ret s => if Rltb (sln_G s) g then best ls (Some s) (sln_G s) else best ls m g
                 end
    end.
  (* None: the value None is returned *)
  Definition flash_VF (liquids unique : list Phase) (idx : option nat) : res (option sln) :=
    let one l := match flash l with Ret s => Ret (Some s) | Exn e => Exn e end in
    if (length unique =? 1)%nat then match liquids with l :: _ => one l | [] => Exn Other end
    else match idx with
         | Some i => match nth_error liquids i with Some l => one l | None => Exn Other end
         | None => Ret (best unique None (10 ^ 100))
         end.
End VF.
