(* Vocabulary for two phase equilibrium at given T, P: fugacity ratios, the residual, the Rachford-Rice equations and a
   successive substitution as a sequence. Written with finite sums only. *)
From Coq Require Import Reals List Bool Arith.
From Verif Require Import Base.
Import ListNotations.
Open Scope R_scope.

Definition comp := nat -> R.

(* a composition: nonnegative entries that add to one *)
Definition composition (N : nat) (x : comp) : Prop := (forall i, (i < N)%nat -> 0 <= x i) /\ rsum N x = 1.

(* K_i = phi_i(first phase at x) / phi_i(second phase at y), from the logarithms *)
Definition K_values (lnphi_x lnphi_y : comp -> comp) (x y : comp) : comp := fun i => exp (lnphi_x x i - lnphi_y y i).

(* the fugacity of component i in the first phase over the one in the second, less one: phi_x x / (phi_y y) - 1 *)
Definition fugacity_mismatch (lnphi_x lnphi_y : comp -> comp) (x y : comp) (i : nat) : R :=
  exp (lnphi_x x i) * x i / (exp (lnphi_y y i) * y i) - 1.

(* the sum of their squares over the components present in the second phase *)
Definition squared_mismatch (N : nat) (lnphi_x lnphi_y : comp -> comp) (x y : comp) : R :=
  rsum N (fun i => if Req_EM_T (y i) 0 then 0 else Rsqr (fugacity_mismatch lnphi_x lnphi_y x y i)).

(* total difference of two compositions *)
Definition distance (N : nat) (x y : comp) : R := rsum N (fun i => Rabs (x i - y i)).

(* the material balance of a split of z into 1 - V of x and V of y *)
Definition split_balance (N : nat) (z : comp) (V : R) (x y : comp) : Prop := forall i, (i < N)%nat -> z i = V * y i + (1 - V) * x i.

(* a solution of the Rachford-Rice problem with equilibrium ratios K *)
Definition Rachford_Rice (N : nat) (z K : comp) (V : R) (x y : comp) : Prop :=
  split_balance N z V x y /\ (forall i, (i < N)%nat -> y i = K i * x i) /\ rsum N x = 1 /\ rsum N y = 1.

(* what is done with fractions that come back negative: absolute values, divided by their sum *)
Definition normalised (N : nat) (raw v : comp) : Prop :=
  ((forall i, (i < N)%nat -> 0 <= raw i) /\ v = raw) \/
  ((exists i, (i < N)%nat /\ raw i < 0) /\ v = fun i => Rabs (raw i) / rsum N (fun j => Rabs (raw j))).

(* a substitution: vapour fractions (None: no guess), liquid and vapour compositions; inner is the Rachford-Rice solver *)
Definition substitution_step (N : nat) (inner : comp -> comp -> option R -> option (R * comp * comp)) (lnphi_l lnphi_g : comp -> comp)
  (z : comp) (Vs : nat -> option R) (X Y : nat -> comp) (j : nat) : Prop :=
  exists V xr yr, inner z (K_values lnphi_l lnphi_g (X j) (Y j)) (Vs j) = Some (V, xr, yr) /\
    Vs (S j) = Some V /\ normalised N xr (X (S j)) /\ normalised N yr (Y (S j)).

(* how often, up to j, the error grew more than twentyfold from one iteration to the next *)
Fixpoint jumps (E : nat -> R) (j : nat) : nat :=
  match j with
  | O => O
  | S i => (jumps E i + (if Nat.eqb i 0 then 0 else if Req_EM_T (E (i - 1)%nat) 0 then 0 else if Rlt_dec (20 * E (i - 1)%nat) (E i) then 1 else 0))%nat
  end.
(* a positive error equal to one of the three before it, or more than three such jumps, counts as a cycle *)
Definition calm (E : nat -> R) (j : nat) : Prop :=
  (forall m, (1 <= m <= 3)%nat -> (m <= j)%nat -> 0 < E j -> E j <> E (j - m)%nat) /\ (jumps E j <= 3)%nat.
