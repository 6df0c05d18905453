(* Specification for C76. *)
From Coq Require Import Reals ZArith List String.
From Coquelicot Require Import Coquelicot.
From Verif Require Import Base.
Import ListNotations.
Open Scope R_scope.

(* the mixtures in which the amount of component i is t and the others keep their proportions: x_i = t, and x_j = (1 - t) x_j / (sum over j other than i) *)
Definition dilution_path (n i : nat) (x : nat -> R) (t : R) (j : nat) : R :=
  if Nat.eqb j i then t else (1 - t) * x j / rsum n (fun k => if Nat.eqb k i then 0 else x k).

(* cubic equations of state with the numbers they carry (model_id in eos_mix.py) and their family *)
Inductive family := ideal | van_der_Waals | Redlich_Kwong | Soave | Peng_Robinson | Soave_translated | Peng_Robinson_translated.
Definition cubic_models : list (string * Z * family) :=
  [("IGMIX", 0%Z, ideal); ("VDWMIX", 10001%Z, van_der_Waals); ("RKMIX", 10002%Z, Redlich_Kwong);
   ("PRMIX", 10200%Z, Peng_Robinson); ("PR78MIX", 10201%Z, Peng_Robinson); ("TWUPRMIX", 10204%Z, Peng_Robinson); ("PRSVMIX", 10205%Z, Peng_Robinson);
   ("PRSV2MIX", 10206%Z, Peng_Robinson); ("SRKMIX", 10100%Z, Soave); ("TWUSRKMIX", 10104%Z, Soave); ("APISRKMIX", 10105%Z, Soave);
   ("PRMIXTranslated", 11202%Z, Peng_Robinson_translated); ("PRMIXTranslatedConsistent", 11203%Z, Peng_Robinson_translated);
   ("PRMIXTranslatedPPJP", 11207%Z, Peng_Robinson_translated); ("SRKMIXTranslated", 11101%Z, Soave_translated);
   ("SRKMIXTranslatedConsistent", 11102%Z, Soave_translated); ("MSRKMIXTranslated", 11103%Z, Soave_translated)]%string.
