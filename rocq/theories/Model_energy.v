(* energy_balance, thermo/stream.py 3400-3650. *)
From Coq Require Import Reals List Bool Arith.
From Verif Require Import Base Model_stream Model_balance.
Import ListNotations.
Open Scope R_scope.

(* What energy_balance sees of a StreamArgs. `energy` and `H` stand for the specs energy and H, or energy_reactive and
   H_reactive when reactive=True. `others` is the number of other state specs stored (T, P, VF, ...); when two are stored
   and neither energy nor an enthalpy is, `flash_H` is the molar enthalpy of their flash.
   Simplifications: the composition is specified and a flasher is attached, so that MW is known; a flow given in
   another basis (ns, ms, ws, Q...) is represented by the molar flow it amounts to (C31). *)
Inductive flow : Type := Molar (n : R) | Mass (m : R).
Record sargs := mkargs { energy : option R; H : option R; H_mass : option R; flo : option flow; MW : R; others : nat; flash_H : R }.
Inductive estream : Type :=
| EnergyStream (Q : option R)                 (* thermo/stream.py 2967-3026: energy, energy_calc and energy.setter are Q *)
| EquilibriumStream (E h m : R)               (* thermo/stream.py 2440-2961: energy, H(), m are fixed *)
| Args (a : sargs).                           (* thermo/stream.py 57-1894 *)

Definition one {A} (o : option A) : nat := if isSome o then 1%nat else 0%nat.
(* thermo/stream.py 1552-1565, without H_reactive, and 1569-1619, with it *)
Definition state_vars (reactive : bool) (a : sargs) : nat :=
  (others a + one (energy a) + one (H_mass a) + (if reactive then 0 else one (H a)))%nat.
Definition state_specified (a : sargs) : bool := Nat.eqb (others a + one (energy a) + one (H_mass a) + one (H a)) 2.
(* n_calc 1129-1162 and m_calc 1098-1109 *)
Definition n_calc (a : sargs) : option R := match flo a with Some (Molar n) => Some n | Some (Mass m) => Some (m * 1000 / MW a) | None => None end.
Definition m_calc (a : sargs) : option R := match flo a with Some (Molar n) => Some (n * MW a / 1000) | Some (Mass m) => Some m | None => None end.
(* molar enthalpy of flash_state(), 1790-1882; None when the state is not specified, and for an energy without a flow *)
Definition flashed (a : sargs) : option R :=
  if state_specified a then
    match H a, H_mass a, energy a with
    | Some h, _, _ => Some h
    | None, Some hm, _ => Some (hm * MW a / 1000)
    | None, None, Some e => match n_calc a with Some n => Some (e / n) | None => None end
    | None, None, None => Some (flash_H a)
    end
  else None.
(* energy_calc 1236-1272; energy_reactive_calc 1275-1277 returns the stored spec only *)
Definition energy_calc (a : sargs) : option R :=
  match energy a with Some e => Some e | None =>
  match H a, n_calc a with Some h, Some n => Some (n * h) | _, _ =>
  match H_mass a, m_calc a with Some hm, Some m => Some (m * hm) | _, _ =>
  match n_calc a, flashed a with Some n, Some h => Some (h * n) | _, _ => None end end end end.
Definition energy_of (reactive : bool) (s : estream) : option R :=
  match s with
  | EnergyStream Q => Q
  | EquilibriumStream E _ _ => Some E
  | Args a => if reactive then energy a else energy_calc a
  end.
(* H_calc 558-566 and H_reactive_calc 583-591; H() of an EquilibriumStream *)
Definition H_of (s : estream) : option R :=
  match s with
  | EnergyStream _ => None
  | EquilibriumStream _ h _ => Some h
  | Args a => match H a with Some h => Some h | None => flashed a end
  end.
Definition is_energy (s : estream) : bool := match s with EnergyStream _ => true | _ => false end.

(* setters: None is an exception *)
(* energy.setter 396-405 (energy_reactive 412-421) *)
Definition set_energy (reactive : bool) (s : estream) (e : R) : option estream :=
  match s with
  | EnergyStream _ => Some (EnergyStream (Some e))
  | EquilibriumStream _ _ _ => None
  | Args a => if (Nat.ltb 1 (state_vars reactive a) && isSome (flo a) && negb (isSome (energy a)))%bool then None
              else Some (Args (mkargs (Some e) (H a) (H_mass a) (flo a) (MW a) (others a) (flash_H a)))
  end.
(* H.setter 548-555 (H_reactive 573-580) *)
Definition set_H (s : estream) (h : R) : option estream :=
  match s with
  | Args a => if (state_specified a && negb (isSome (H a)))%bool then None
              else Some (Args (mkargs (energy a) (Some h) (H_mass a) (flo a) (MW a) (others a) (flash_H a)))
  | _ => None
  end.
(* m.setter 1085-1095 *)
Definition set_m (s : estream) (m : R) : option estream :=
  match s with
  | Args a => match flo a with
              | Some (Molar _) => None
              | _ => Some (Args (mkargs (energy a) (H a) (H_mass a) (Some (Mass m)) (MW a) (others a) (flash_H a)))
              end
  | _ => None
  end.
(* v.m: the stored mass flow; None makes sum() raise. EnergyStreams are skipped *)
Definition m_attr (s : estream) : option R :=
  match s with
  | EnergyStream _ => Some 0
  | EquilibriumStream _ _ m => Some m
  | Args a => match flo a with Some (Mass m) => Some m | _ => None end
  end.

Definition osum (l : list (option R)) : option R :=
  fold_right (fun o acc => match o, acc with Some x, Some y => Some (x + y) | _, _ => None end) (Some 0) l.
Definition known_sum (l : list (option R)) : R := lsum (vals l).
Definition edflt : estream := EnergyStream None.
(* positions of streams with unknown energy *)
Definition unknowns (reactive : bool) (l : list estream) : list nat := positions (fun s => negb (isSome (energy_of reactive s))) edflt l.
Definition specified_args (s : estream) : bool := match s with Args a => state_specified a | _ => false end.
(* H_mass() of the flash state of stream i: molar enthalpy * 1000/MW *)
Definition flash_H_mass (s : estream) : option R :=
  match s with Args a => match flashed a with Some h => Some (h * 1000 / MW a) | None => None end | _ => None end.
Definition others_m (l : list estream) (skip : list nat) : option R :=
  osum (map (fun i => if existsb (Nat.eqb i) skip then Some 0 else m_attr (nth i l edflt)) (seq 0 (length l))).

(* result: an exception, or the returned flag with the streams afterwards *)
Inductive result : Type := Raises | Returns (progress : bool) (ins outs : list estream).
Definition replace (l : list estream) (i : nat) (o : option estream) (k : list estream -> result) : result :=
  match o with Some s => k (lset l i s) | None => Raises end.
Definition bindo {A} (o : option A) (k : A -> result) : result := match o with Some x => k x | None => Raises end.

(* lines 3610-3630 and 3638-3648: two unknowns on one side *)
Definition two_unknown (mine other : list estream) (reactive : bool) (other_energy : R) (fin : list estream -> result) (no : result) : result :=
  match positions specified_args edflt mine with
  | [i; k] =>
      bindo (flash_H_mass (nth i mine edflt)) (fun h0 => bindo (flash_H_mass (nth k mine edflt)) (fun h1 =>
      let e := known_sum (map (energy_of reactive) mine) in
      bindo (others_m mine [i; k]) (fun m => bindo (others_m other []) (fun mo =>
      if Reqb (h0 - h1) 0 then Raises else
      replace mine i (set_m (nth i mine edflt) ((h1 * m - h1 * mo - e + other_energy) / (h0 - h1))) (fun mine1 =>
      replace mine1 k (set_m (nth k mine1 edflt) ((- h0 * m + h0 * mo + e - other_energy) / (h0 - h1))) fin)))))
  | _ => no
  end.

(* lines 3506-3650, everything after the one-in one-out shortcut *)
Definition balance_energies (reactive use_mass : bool) (ins outs : list estream) : result :=
  let ein := known_sum (map (energy_of reactive) ins) in
  let eout := known_sum (map (energy_of reactive) outs) in
  match unknowns reactive ins, unknowns reactive outs with
  | [], [] => Returns false ins outs
  | [], [i] => replace outs i (set_energy reactive (nth i outs edflt) (ein - eout)) (fun outs' => Returns true ins outs')
  | [i], [] => replace ins i (set_energy reactive (nth i ins edflt) (eout - ein)) (fun ins' => Returns true ins' outs)
  | [i], [k] =>
      if (use_mass && specified_args (nth i ins edflt) && specified_args (nth k outs edflt))%bool then
        bindo (flash_H_mass (nth i ins edflt)) (fun hi => bindo (flash_H_mass (nth k outs edflt)) (fun ho =>
        bindo (others_m ins [i]) (fun mi => bindo (others_m outs [k]) (fun mo =>
        if Reqb (hi - ho) 0 then Raises else
        replace ins i (set_m (nth i ins edflt) ((ho * mi - ho * mo - ein + eout) / (hi - ho))) (fun ins' =>
        replace outs k (set_m (nth k outs edflt) ((hi * mi - hi * mo - ein + eout) / (hi - ho))) (fun outs' => Returns true ins' outs'))))))
      else Returns false ins outs
  | [_; _], [] => if use_mass then two_unknown ins outs reactive eout (fun ins' => Returns true ins' outs) (Returns false ins outs) else Returns false ins outs
  | [], [_; _] => if use_mass then two_unknown outs ins reactive ein (fun outs' => Returns true ins outs') (Returns false ins outs) else Returns false ins outs
  | _, _ => Returns false ins outs
  end.
(* energy_balance: lines 3470-3504 and the rest *)
Definition energy_balance (reactive use_mass : bool) (ins outs : list estream) : result :=
  match ins, outs with
  | [fin], [fout] =>
      if (is_energy fin || is_energy fout)%bool then balance_energies reactive use_mass ins outs
      else match H_of fin, H_of fout with
           | Some h, None => bindo (set_H fout h) (fun s => Returns true [fin] [s])
           | None, Some h => bindo (set_H fin h) (fun s => Returns true [s] [fout])
           | _, _ => balance_energies reactive use_mass ins outs
           end
  | _, _ => balance_energies reactive use_mass ins outs
  end.
