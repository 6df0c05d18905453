(* The UNIFAC model (Fredenslund, Jones and Prausnitz 1975) and its modifications, written from the literature:
   version 0 original, 1 modified (Dortmund), 2 PSRK, 3 VTPR, 4 modified (Lyngby), 5 UNIFAC KT.
   n components, g groups; nu k i groups of kind k in a molecule of component i; Q k surface of group k;
   r i, q i volume and surface of component i; a, b, c interaction coefficients. *)
From Coq Require Import Reals Arith Bool.
From Verif Require Import Base.
Open Scope R_scope.

Section Unifac.
Context (n g : nat) (Q : nat -> R) (nu : nat -> nat -> R).
(* interaction terms: exp(-(a + b T + c T^2)/T); Lyngby and KT: exp(-(a + b (T - T0) + c (T ln(T0/T) + T - T0))/T) with T0 = 298.15 K *)
Definition psi_form (version : nat) (a b c T : R) : R :=
  match version with
  | 4%nat | 5%nat => exp (- (a + b * (T - 29815 / 100) + c * (T * ln (29815 / 100 / T) + T - 29815 / 100)) / T)
  | _ => exp (- (a + b * T + c * T ^ 2) / T)
  end.
(* amount of group m in an amount x of the mixture, its fraction, and its surface fraction *)
Definition group_amount (x : nat -> R) (m : nat) : R := rsum n (fun j => nu m j * x j).
Definition group_fraction (x : nat -> R) (m : nat) : R := group_amount x m / rsum g (group_amount x).
Definition surface_fraction (x : nat -> R) (m : nat) : R := Q m * group_fraction x m / rsum g (fun l => Q l * group_fraction x l).
(* ln of the activity coefficient of group k in a mixture with surface fractions th *)
Definition ln_Gamma (th : nat -> R) (psi : nat -> nat -> R) (k : nat) : R :=
  Q k * (1 - ln (rsum g (fun m => th m * psi m k)) - rsum g (fun m => th m * psi k m / rsum g (fun l => th l * psi l m))).
(* the composition of the pure component i *)
Definition only (i : nat) : nat -> R := fun j => if Nat.eqb j i then 1 else 0.
Definition ln_gamma_residual (psi : nat -> nat -> R) (x : nat -> R) (i : nat) : R :=
  rsum g (fun k => nu k i * (ln_Gamma (surface_fraction x) psi k - ln_Gamma (surface_fraction (only i)) psi k)).
(* combinatorial part *)
Definition ln_gamma_combinatorial (version : nat) (r q : nat -> R) (x : nat -> R) (i : nat) : R :=
  let V p := Rpower (r i) p / rsum n (fun j => x j * Rpower (r j) p) in
  let W := r i / rsum n (fun j => x j * r j) in
  let F := q i / rsum n (fun j => x j * q j) in
  match version with
  | 3%nat => 0
  | 4%nat => ln (V (2 / 3)) + 1 - V (2 / 3)
  | 1%nat => 1 - V (3 / 4) + ln (V (3 / 4)) - 5 * q i * (1 - W / F + ln (W / F))
  | _ => 1 - W + ln W - 5 * q i * (1 - W / F + ln (W / F))
  end.
Definition ln_gamma (version : nat) (r q : nat -> R) (psi : nat -> nat -> R) (x : nat -> R) (i : nat) : R :=
  ln_gamma_combinatorial version r q x i + ln_gamma_residual psi x i.
(* the excess Gibbs energy R T sum x_i ln gamma_i *)
Definition excess_gibbs (version : nat) (r q : nat -> R) (a b c : nat -> nat -> R) (T : R) (x : nat -> R) : R :=
  Rgas * T * rsum n (fun i => x i * ln_gamma version r q (fun m k => psi_form version (a m k) (b m k) (c m k) T) x i).
(* admissible groups: counts and surfaces are non-negative and every component has some group with a surface *)
Definition groups_ok : Prop :=
  (forall k, (k < g)%nat -> 0 <= Q k) /\ (forall k i, (k < g)%nat -> (i < n)%nat -> 0 <= nu k i) /\
  (forall i, (i < n)%nat -> exists k, (k < g)%nat /\ 0 < nu k i /\ 0 < Q k).
(* component volumes and surfaces are positive, except in VTPR which has none *)
Definition sizes_ok (version : nat) (r q : nat -> R) : Prop := version <> 3%nat -> forall i, (i < n)%nat -> 0 < r i /\ 0 < q i.
(* the combinatorial part as first published, in volume fractions phi and surface fractions theta with coordination number 10 *)
Definition published_combinatorial (r q : nat -> R) (x : nat -> R) (i : nat) : R :=
  let phi j := x j * r j / rsum n (fun m => x m * r m) in
  let theta j := x j * q j / rsum n (fun m => x m * q m) in
  let l j := 10 / 2 * (r j - q j) - (r j - 1) in
  ln (phi i / x i) + 10 / 2 * q i * ln (theta i / phi i) + l i - phi i / x i * rsum n (fun j => x j * l j).
End Unifac.
