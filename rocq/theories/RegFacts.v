(* Regular solution and Flory-Huggins excess energies: derivatives in the amounts. *)
From Coq Require Import Reals Lra Lia Arith Bool FunctionalExtensionality.
From Coquelicot Require Import Coquelicot.
From Verif Require Import Base BaseFacts Spec_mix Spec_activity MixFacts MixDeriv LnphiFacts NrtlFacts ActFacts UniquacFacts.
Open Scope R_scope.

Section Reg.
Variables (n : nat) (V : nat -> R) (A : nat -> nat -> R).
Notation S x := (UL n V x).
Definition RQ (x : nat -> R) : R := rsum n (fun i => x i * V i * rsum n (fun j => x j * V j * A i j)).
Definition Hm (i j : nat) : R := A i j + A j i.
Definition Rh (x : nat -> R) (k : nat) : R := V k * rsum n (fun j => x j * V j * Hm k j).
Definition RE (x : nat -> R) : R := RQ x / S x.
Definition Rg (x : nat -> R) (k : nat) : R := (Rh x k - RE x * V k) / S x.
Definition RH (x : nat -> R) (k m : nat) : R := (V k * V m * Hm k m - Rg x m * V k) / S x - (Rh x k - RE x * V k) * V m / S x ^ 2.
Definition RT3 (x : nat -> R) (k m p : nat) : R :=
  - RH x m p * V k / S x - V p * (V k * V m * Hm k m - Rg x m * V k) / S x ^ 2 - V m * (V k * V p * Hm k p - Rg x p * V k) / S x ^ 2 + 2 * V m * V p * (Rh x k - RE x * V k) / S x ^ 3.
Lemma S_partial x k : (k < n)%nat -> partial (fun y => S y) x k (V k).
Proof. intros Hk. now apply (partial_lin n x k V). Qed.
Lemma RQ_partial x k : (k < n)%nat -> partial RQ x k (Rh x k).
Proof.
  intros Hk. unfold RQ, Rh. eapply partial_val. { apply (partial_sum n (fun i y => y i * V i * rsum n (fun j => y j * V j * A i j))). intros i Hi. apply (partial_mult (fun y => y i * V i) (fun y => rsum n (fun j => y j * V j * A i j))).
    apply (partial_mult (fun y => y i) (fun _ => V i)). apply partial_coord. apply partial_const. apply (partial_ext (fun y => rsum n (fun j => y j * (V j * A i j)))). intros; apply rsum_ext; intros; ring. apply (partial_lin n x k (fun j => V j * A i j) Hk). }
  cbv beta. rewrite (rsum_ext n _ (fun i => dl k i * (V i * rsum n (fun j => x j * V j * A i j)) + V k * (x i * V i * A i k))) by (intros; ring).
  rewrite rsum_plus, rsum_dl, rsum_scal_l by auto. rewrite <- Rmult_plus_distr_l, <- rsum_plus. f_equal. apply rsum_ext. intros. unfold Hm. ring.
Qed.
Lemma Rh_partial x k m : (m < n)%nat -> partial (fun y => Rh y k) x m (V k * V m * Hm k m).
Proof. intros Hk. unfold Rh. eapply partial_val. apply (partial_scal (V k)). apply (partial_ext (fun y => rsum n (fun j => y j * (V j * Hm k j)))). intros; apply rsum_ext; intros; ring. apply (partial_lin n x m (fun j => V j * Hm k j) Hk). cbv beta. ring. Qed.
Lemma partial_div' f g x k u v w : g x <> 0 -> partial f x k u -> partial g x k v -> (u * g x - f x * v) / g x ^ 2 = w -> partial (fun y => f y / g y) x k w.
Proof. intros. eapply partial_val. now apply partial_div; eauto. assumption. Qed.
Context (x : nat -> R) (HS : 0 < S x).
Lemma RE_partial k : (k < n)%nat -> partial RE x k (Rg x k).
Proof. intros Hk. unfold RE at 1. eapply partial_div'. lra. now apply RQ_partial. now apply S_partial. unfold Rg, RE. field. lra. Qed.
Lemma Rnum_partial k m : (m < n)%nat -> partial (fun y => Rh y k - RE y * V k) x m (V k * V m * Hm k m - Rg x m * V k).
Proof. intros Hm0. eapply partial_val. apply (partial_minus (fun y => Rh y k) (fun y => RE y * V k)). now apply Rh_partial. apply (partial_mult RE (fun _ => V k)). now apply RE_partial. apply partial_const. cbv beta. ring. Qed.
Lemma Rg_partial k m : (m < n)%nat -> partial (fun y => Rg y k) x m (RH x k m).
Proof. intros Hm0. unfold Rg at 1. eapply (partial_div' (fun y => Rh y k - RE y * V k) (fun y => S y)). lra. now apply Rnum_partial. now apply S_partial. unfold RH. field. lra. Qed.
Lemma RH_partial k m p : (m < n)%nat -> (p < n)%nat -> partial (fun y => RH y k m) x p (RT3 x k m p).
Proof.
  intros Hm0 Hp. unfold RH at 1. eapply partial_val. { apply (partial_minus (fun y => (V k * V m * Hm k m - Rg y m * V k) / S y) (fun y => (Rh y k - RE y * V k) * V m / S y ^ 2)).
    eapply (partial_div' (fun y => V k * V m * Hm k m - Rg y m * V k) (fun y => S y)). lra. apply (partial_minus (fun _ => V k * V m * Hm k m) (fun y => Rg y m * V k)). apply partial_const. apply (partial_mult (fun y => Rg y m) (fun _ => V k)). now apply Rg_partial. apply partial_const. now apply S_partial. reflexivity.
    eapply (partial_div' (fun y => (Rh y k - RE y * V k) * V m) (fun y => S y ^ 2)). apply pow_nonzero; lra. apply (partial_mult (fun y => Rh y k - RE y * V k) (fun _ => V m)). now apply Rnum_partial. apply partial_const.
    apply (partial_ext (fun y => S y * S y)). intros; ring. apply (partial_mult (fun y => S y) (fun y => S y)). now apply S_partial. now apply S_partial. reflexivity. }
  cbv beta. unfold RT3. generalize (Rg x m) (RH x m p) (Rh x k) (RE x) (Rg x p). intros. field. lra.
Qed.
Lemma Rg_sum : rsum n (fun k => x k * Rg x k) = RE x.
Proof.
  rewrite (rsum_ext n _ (fun k => (x k * Rh x k) * / S x - (x k * V k) * (RE x / S x))) by (intros; unfold Rg; field; lra). rewrite rsum_minus, !rsum_scal_r.
  assert (E : rsum n (fun k => x k * Rh x k) = 2 * RQ x). { unfold Rh, RQ.
    rewrite (rsum_ext n _ (fun k => rsum n (fun j => x k * V k * (x j * V j * A k j)) + rsum n (fun j => x k * V k * (x j * V j * A j k)))). 2:{ intros i Hi. rewrite <- rsum_plus, <- Rmult_assoc, <- rsum_scal_l. apply rsum_ext. intros. unfold Hm. ring. }
    rewrite rsum_plus. rewrite (rsum_swap n n (fun k j => x k * V k * (x j * V j * A j k))).
    replace (2 * rsum n (fun i => x i * V i * rsum n (fun j => x j * V j * A i j))) with (rsum n (fun i => x i * V i * rsum n (fun j => x j * V j * A i j)) + rsum n (fun i => x i * V i * rsum n (fun j => x j * V j * A i j))) by ring.
    f_equal; apply rsum_ext; intros; rewrite <- rsum_scal_l; apply rsum_ext; intros; ring. }
  rewrite E. change (rsum n (fun k => x k * V k)) with (S x). unfold RE. field. lra.
Qed.
Lemma RE_scal c : c <> 0 -> RE (fun j => x j * c) = RE x * c.
Proof.
  intros Hc. unfold RE. rewrite UL_scal. assert (E : RQ (fun j => x j * c) = RQ x * (c * c)). { unfold RQ. rewrite <- rsum_scal_r. apply rsum_ext. intros. rewrite (rsum_ext n _ (fun j => x j * V j * A i j * c)) by (intros; ring). rewrite rsum_scal_r. ring. }
  rewrite E. field. lra.
Qed.
Lemma Rh_scal c k : Rh (fun j => x j * c) k = Rh x k * c.
Proof. unfold Rh. rewrite Rmult_assoc. f_equal. rewrite <- rsum_scal_r. apply rsum_ext; intros; ring. Qed.
Lemma Rg_scal c k : c <> 0 -> Rg (fun j => x j * c) k = Rg x k.
Proof. intros. unfold Rg. rewrite RE_scal, Rh_scal, UL_scal by auto. field. lra. Qed.
End Reg.

(* the Flory-Huggins combinatorial term *)
Section FH.
Variables (n : nat) (V : nat -> R).
Notation S x := (UL n V x).
Definition FE (x : nat -> R) : R := rsum n (fun i => x i * ln (V i)) - rsum n x * ln (S x).
Definition Fg (x : nat -> R) (k : nat) : R := ln (V k) - ln (S x) - rsum n x * V k / S x.
Definition FH (x : nat -> R) (k m : nat) : R := - V m / S x - V k / S x + rsum n x * V k * V m / S x ^ 2.
Definition F3 (x : nat -> R) (k m p : nat) : R := (V m * V p + V k * V p + V k * V m) / S x ^ 2 - 2 * rsum n x * V k * V m * V p / S x ^ 3.
Context (x : nat -> R) (HS : 0 < S x).
Lemma FE_partial k : (k < n)%nat -> partial FE x k (Fg x k).
Proof.
  intros Hk. unfold FE. eapply partial_val. { apply (partial_minus (fun y => rsum n (fun i => y i * ln (V i))) (fun y => rsum n y * ln (S y))). now apply (partial_lin n x k (fun i => ln (V i))). apply (partial_mult (fun y => rsum n y) (fun y => ln (S y))). now apply tot_partial. apply partial_ln. exact HS. now apply S_partial. }
  cbv beta. unfold Fg. field. lra.
Qed.
Lemma Fg_partial k m : (m < n)%nat -> partial (fun y => Fg y k) x m (FH x k m).
Proof.
  intros Hk. unfold Fg. eapply partial_val. { apply (partial_minus (fun y => ln (V k) - ln (S y)) (fun y => rsum n y * V k / S y)). apply (partial_minus (fun _ => ln (V k)) (fun y => ln (S y))). apply partial_const. apply partial_ln. exact HS. now apply S_partial.
    eapply (partial_div' (fun y => rsum n y * V k) (fun y => S y)). lra. apply (partial_mult (fun y => rsum n y) (fun _ => V k)). now apply tot_partial. apply partial_const. now apply S_partial. reflexivity. }
  cbv beta. unfold FH. field. lra.
Qed.
Lemma FH_partial k m p : (p < n)%nat -> partial (fun y => FH y k m) x p (F3 x k m p).
Proof.
  intros Hk. unfold FH. eapply partial_val. { apply (partial_plus (fun y => - V m / S y - V k / S y) (fun y => rsum n y * V k * V m / S y ^ 2)). apply (partial_minus (fun y => - V m / S y) (fun y => V k / S y)).
    eapply (partial_div' (fun _ => - V m) (fun y => S y)). lra. apply partial_const. now apply S_partial. reflexivity. eapply (partial_div' (fun _ => V k) (fun y => S y)). lra. apply partial_const. now apply S_partial. reflexivity.
    eapply (partial_div' (fun y => rsum n y * V k * V m) (fun y => S y ^ 2)). apply pow_nonzero; lra. apply (partial_mult (fun y => rsum n y * V k) (fun _ => V m)). apply (partial_mult (fun y => rsum n y) (fun _ => V k)). now apply tot_partial. apply partial_const. apply partial_const.
    apply (partial_ext (fun y => S y * S y)). intros; ring. apply (partial_mult (fun y => S y) (fun y => S y)). now apply S_partial. now apply S_partial. reflexivity. }
  cbv beta. unfold F3. field. lra.
Qed.
Lemma Fg_sum : rsum n (fun k => x k * Fg x k) = FE x - rsum n x.
Proof.
  rewrite (rsum_ext n _ (fun k => (x k * ln (V k) - x k * ln (S x)) - (x k * V k) * (rsum n x / S x))) by (intros; unfold Fg; field; lra). rewrite !rsum_minus, !rsum_scal_r. change (rsum n (fun k => x k * V k)) with (S x). unfold FE. field. lra.
Qed.
Lemma FE_frac : 0 < rsum n x -> rsum n x * FE (fractions n x) = FE x + rsum n x * ln (rsum n x).
Proof.
  intros Hs. change (fractions n x) with (fun j => x j * / rsum n x). pose proof (Rinv_0_lt_compat _ Hs). unfold FE. rewrite UL_scal, ln_mult, ln_Rinv, rsum_scal_r by auto. rewrite (rsum_ext n (fun i => x i * / rsum n x * ln (V i)) (fun i => x i * ln (V i) * / rsum n x)) by (intros; ring). rewrite rsum_scal_r. field. lra.
Qed.
Lemma Fg_frac k : 0 < rsum n x -> Fg (fractions n x) k = Fg x k + ln (rsum n x).
Proof.
  intros Hs. change (fractions n x) with (fun j => x j * / rsum n x). pose proof (Rinv_0_lt_compat _ Hs). unfold Fg. rewrite UL_scal, ln_mult, ln_Rinv, rsum_scal_r by auto. field. lra.
Qed.
End FH.
