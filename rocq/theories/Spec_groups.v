(* What the estimates from groups are compared with; nothing here uses the functions of Model_groups.v
   (only the records describing a molecule, and the table record of Gen_joback.v). *)
From Coq Require Import Reals List Arith ZArith String Bool.
From Verif Require Import Base Gen_joback Model_groups.
Import ListNotations.
Local Open Scope R_scope.

(* [adds_up c cs t]: every group of cs has a contribution and t is the sum of count times contribution *)
Inductive adds_up (c : nat -> option R) : list (nat * nat) -> R -> Prop :=
| adds_nil : adds_up c [] 0
| adds_cons : forall g n cs x t, c g = Some x -> adds_up c cs t -> adds_up c ((g, n) :: cs) (INR n * x + t).

(* the contribution of group g to one property *)
Definition contrib (tbl : nat -> option jgroup) (f : jgroup -> option R) (g : nat) : option R :=
  match tbl g with Some r => f r | None => None end.

(* the polynomial of a group *)
Definition poly_of (tbl : nat -> option (R * R * R * R)) (T : R) (g : nat) : option R :=
  match tbl g with Some (a0, a1, a2, a3) => Some (a0 + a1 * T + a2 * T ^ 2 + a3 * T ^ 3) | None => None end.

(* how many elements of a list equal x *)
Definition how_many (x : nat) (l : list nat) : nat := count_occ Nat.eq_dec l x.

(* the number of atoms of an element in a formula *)
Fixpoint atoms_of (e : string) (l : list (string * nat)) : nat :=
  match l with
  | [] => 0%nat
  | (k, n) :: r => ((if string_dec k e then n else 0) + atoms_of e r)%nat
  end.
Definition bonds_of (b : bond) (l : list bond) : nat :=
  count_occ (fun x y : bond => ltac:(decide equality) : {x = y} + {x <> y}) l b.

(* sums over lists *)
Definition lsum {A} (l : list A) (f : A -> R) : R := fold_right (fun x s => f x + s) 0 l.

(* is there an atom entry for the element *)
Definition has_element (m : wmol) (e : string) : bool := existsb (String.eqb e) (map fst (wm_atoms m)).
Definition Rif (b : bool) (x : R) : R := if b then x else 0.

(* the second order sums of Wilson and Jasperson, written out *)
Definition wj_order2_Tc (m : wmol) : R :=
  Rif (has_element m "C")
      ((if (5 <=? atoms_of "C" (wm_atoms m))%nat then 0.01 else 0.035) * INR (wm_OH m))
  - 0.0075 * INR (wm_ether m)
  + Rif (has_element m "N") (0.017 * INR (wm_nitrile m) - 0.02 * INR (wm_nitro m) - 0.004 * INR (wm_amine m))
  + Rif (has_element m "O" && has_element m "C")
        (- 0.055 * INR (wm_ketone m) + 0.017 * INR (wm_acid m) - 0.015 * INR (wm_ester m))
  + Rif (wm_haloalkane m) 0.002
  - Rif (has_element m "Si") (0.025 * INR (wm_siloxane m)).
Definition wj_order2_Pc (m : wmol) : R :=
  Rif (has_element m "N") (1.5 * INR (wm_nitrile m) + 1 * INR (wm_nitro m))
  + Rif (has_element m "O" && has_element m "C") (0.5 * INR (wm_aldehyde m) + 0.5 * INR (wm_acid m))
  - Rif (has_element m "Si") (0.5 * INR (wm_siloxane m)).

(* the parameters of the 1978 Peng-Robinson equation: co-volume and attraction *)
Definition b_PR78 (Tc Pc : R) : R := 0.0777960739038884559718447100373331839711 * Rgas * Tc / Pc.
Definition a_PR78 (T Tc Pc omega : R) : R :=
  let m := if Rle_dec omega 0.491 then 0.37464 + 1.54226 * omega - 0.26992 * omega ^ 2
           else 0.379642 + 1.48503 * omega - 0.164423 * omega ^ 2 + 0.016666 * omega ^ 3 in
  0.4572355289213821893834601962251837888504 * Rgas ^ 2 * Tc ^ 2 / Pc * (1 + m * (1 - sqrt (T / Tc))) ^ 2.

(* the fraction of group g in a molecule *)
Definition fraction (mol : list (nat * R)) (g : nat) : R :=
  lsum mol (fun gn => if Nat.eq_dec (fst gn) g then snd gn else 0) / lsum mol snd.

(* the group contribution E of PPR78 for the groups gs, in Pa (the table is in MPa) *)
Definition E_PPR78 (d : nat -> nat -> option (R * R)) (T : R) (mol1 mol2 : list (nat * R)) (gs : list nat) : R :=
  - / 2 * 1000000 *
  lsum gs (fun k => lsum gs (fun l =>
    match d k l with
    | Some (A, B) => if Req_EM_T A 0 then 0
                     else (fraction mol1 k - fraction mol2 k) * (fraction mol1 l - fraction mol2 l)
                          * A * Rpower (298.15 / T) (B / A - 1)
    | None => 0
    end)).
