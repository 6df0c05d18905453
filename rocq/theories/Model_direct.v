(* Model of thermo/phases/phase_utils.py 68-121 (activity_lnphis, lnphis_direct, fugacities_direct) and of gammas_infinite_dilution
   (thermo/activity.py 824-854, thermo/phases/phase.py 2542-2577).
   Simplifications: numbers are reals; trunc_exp is exp; the functions that compute ln(phi) or gamma of one model are a parameter. *)
From Coq Require Import Reals ZArith List Bool.
From Verif Require Import Base.
Import ListNotations.
Open Scope R_scope.

(* the functions among which the numerical code of a model chooses *)
Inductive kernel := Zeros | PR_fastest | SRK_fastest | RK_fastest | VDW_fastest | PR_translated_fastest | SRK_translated_fastest | Activity (a : activity)
with activity := Ones | nrtl | wilson | uniquac | regular | unifac.

(* 20000 <= model <= 20099 and the like *)
Definition within (a m b : Z) : bool := Z.leb a m && Z.leb m b.
(* model in (…): phase_utils.py 99, 101, 107, 109 *)
Definition one_of (m : Z) (l : list Z) : bool := existsb (Z.eqb m) l.

(* the choice in activity_lnphis: phase_utils.py 72-85; None is the ValueError *)
Definition activity_choice (model : Z) : option activity :=
  if within 20000 model 20099 then Some Ones
  else if within 20100 model 20199 then Some nrtl
  else if within 20200 model 20299 then Some wilson
  else if within 20300 model 20399 then Some uniquac
  else if within 20400 model 20499 then Some regular
  else if within 20500 model 20599 then Some unifac
  else None.

(* the choice in lnphis_direct: phase_utils.py 94-114; None is the ValueError *)
Definition direct_choice (model : Z) : option kernel :=
  if Z.eqb model 0 then Some Zeros
  else if one_of model [10200; 10201; 10204; 10205; 10206]%Z then Some PR_fastest
  else if one_of model [10100; 10104; 10105]%Z then Some SRK_fastest
  else if Z.eqb model 10002 then Some RK_fastest
  else if Z.eqb model 10001 then Some VDW_fastest
  else if one_of model [11202; 11203; 11207]%Z then Some PR_translated_fastest
  else if one_of model [11101; 11102; 11103]%Z then Some SRK_translated_fastest
  else if within 20000 model 29999 then match activity_choice model with Some a => Some (Activity a) | None => None end
  else None.

(* activity_lnphis: phase_utils.py 87-90 *)
Definition activity_lnphis (gammas Poyntings phis_sat lnPsats : nat -> R) (P : R) (i : nat) : R :=
  let P_inv := 1 / P in
  ln (gammas i * Poyntings i * phis_sat i * P_inv) + lnPsats i.

(* fugacities_direct: phase_utils.py 116-121 *)
Definition fugacities_direct (lnphis zs : nat -> R) (P : R) (i : nat) : R := P * zs i * exp (lnphis i).

(* gammas_infinite_dilution for component i: activity.py 849-853, phase.py 2569-2576; None is the ZeroDivisionError of normalize *)
Definition diluted (n : nat) (xs : nat -> R) (x_inf : R) (i : nat) : option (nat -> R) :=
  let xs := upd xs i x_inf in
  let s := rsum n xs in
  if Reqb s 0 then None else Some (fun j => xs j / s).
Definition gamma_infinite_dilution (n : nat) (gammas : (nat -> R) -> nat -> R) (xs : nat -> R) (x_inf : R) (i : nat) : option R :=
  match diluted n xs x_inf i with Some x => Some (gammas x i) | None => None end.
