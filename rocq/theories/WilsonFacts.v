(* Calculus of Wilson's sums, for an arbitrary matrix L. *)
From Coq Require Import Reals Lra Lia Arith FunctionalExtensionality.
From Coquelicot Require Import Coquelicot.
From Verif Require Import Base BaseFacts Spec_mix Spec_activity MixFacts MixDeriv LnphiFacts NrtlFacts ActFacts.
Open Scope R_scope.

Section Sums.
Context (n : nat) (L : nat -> nat -> R).
Definition WS (x : nat -> R) (i : nat) : R := rsum n (fun j => x j * L i j).
Definition WE (x : nat -> R) : R := rsum n (fun i => x i * ln (WS x i)).
Definition Wg (x : nat -> R) (k : nat) : R := ln (WS x k) + rsum n (fun i => x i * L i k / WS x i).
Definition WH (x : nat -> R) (k m : nat) : R := L k m / WS x k + L m k / WS x m - rsum n (fun i => x i * L i k * L i m / WS x i ^ 2).
Definition W3 (x : nat -> R) (k m q : nat) : R := - L k m * L k q / WS x k ^ 2 - L m k * L m q / WS x m ^ 2 - L q k * L q m / WS x q ^ 2 + 2 * rsum n (fun i => x i * L i k * L i m * L i q / WS x i ^ 3).
Definition wpos x := forall i, (i < n)%nat -> 0 < WS x i.
Lemma WS_partial x k i : (k < n)%nat -> partial (fun y => WS y i) x k (L i k).
Proof. intros. now apply (partial_lin n x k (L i)). Qed.
Lemma WE_partial x k : (k < n)%nat -> wpos x -> partial WE x k (Wg x k).
Proof.
  intros Hk Hp. eapply partial_val. { apply (partial_sum n (fun i y => y i * ln (WS y i))). intros i Hi. apply (partial_mult (fun y => y i) (fun y => ln (WS y i))). apply partial_coord. apply partial_ln. now apply Hp. now apply WS_partial. }
  cbv beta. unfold Wg. rewrite <- (rsum_dl n k (fun i => ln (WS x i)) Hk). rewrite <- rsum_plus. apply rsum_ext. intros i Hi. pose proof (Hp i Hi). field. lra.
Qed.
Lemma Wg_partial x k m : (k < n)%nat -> (m < n)%nat -> wpos x -> partial (fun y => Wg y k) x m (WH x k m).
Proof.
  intros Hk Hm Hp. eapply partial_val. { apply (partial_plus (fun y => ln (WS y k)) (fun y => rsum n (fun i => y i * L i k / WS y i))). apply partial_ln. now apply Hp. now apply WS_partial.
    apply (partial_sum n (fun i y => y i * L i k / WS y i)). intros i Hi. apply (partial_div (fun y => y i * L i k) (fun y => WS y i)). apply Rgt_not_eq, Hp; auto.
    apply (partial_mult (fun y => y i) (fun _ => L i k)). apply partial_coord. apply partial_const. now apply WS_partial. }
  cbv beta. unfold WH. rewrite <- (rsum_dl n m (fun i => L i k / WS x i) Hm). unfold Rminus. rewrite Rplus_assoc. f_equal. rewrite <- rsum_opp, <- rsum_plus. apply rsum_ext. intros i Hi. pose proof (Hp i Hi). field. lra.
Qed.
Lemma WH_partial x k m q : (k < n)%nat -> (m < n)%nat -> (q < n)%nat -> wpos x -> partial (fun y => WH y k m) x q (W3 x k m q).
Proof.
  intros Hk Hm Hq Hp. pose proof (Hp k Hk). pose proof (Hp m Hm). pose proof (Hp q Hq). eapply partial_val. { apply (partial_minus (fun y => L k m / WS y k + L m k / WS y m) (fun y => rsum n (fun i => y i * L i k * L i m / WS y i ^ 2))).
    apply (partial_plus (fun y => L k m / WS y k) (fun y => L m k / WS y m)).
    apply (partial_div (fun _ => L k m) (fun y => WS y k)). lra. apply partial_const. now apply WS_partial.
    apply (partial_div (fun _ => L m k) (fun y => WS y m)). lra. apply partial_const. now apply WS_partial.
    apply (partial_sum n (fun i y => y i * L i k * L i m / WS y i ^ 2)). intros i Hi. apply (partial_div (fun y => y i * L i k * L i m) (fun y => WS y i ^ 2)). apply pow_nonzero. apply Rgt_not_eq, Hp; auto.
    apply (partial_mult (fun y => y i * L i k) (fun _ => L i m)). apply (partial_mult (fun y => y i) (fun _ => L i k)). apply partial_coord. apply partial_const. apply partial_const.
    apply (partial_comp (fun y => WS y i) (fun t => t ^ 2)). now apply WS_partial. auto_derive; trivial. }
  cbv beta. unfold W3. match goal with |- _ - ?s = _ => assert (s = L q k * L q m / WS x q ^ 2 - 2 * rsum n (fun i => x i * L i k * L i m * L i q / WS x i ^ 3)) as -> end.
  { rewrite <- (rsum_dl n q (fun i => L i k * L i m / WS x i ^ 2) Hq). rewrite <- rsum_scal_l, <- rsum_minus. apply rsum_ext. intros i Hi. pose proof (Hp i Hi). field. lra. }
  field. lra.
Qed.
Lemma near_wpos x : wpos x -> near n x wpos.
Proof. intros H. apply near_all. intros i Hi. apply near_pos. now apply H. Qed.
Lemma WS_scal c x i : WS (fun j => x j * c) i = WS x i * c.
Proof. unfold WS. rewrite <- rsum_scal_r. apply rsum_ext; intros; ring. Qed.
(* sum rule and behaviour under scaling *)
Lemma Wg_sum x : wpos x -> rsum n (fun k => x k * Wg x k) = WE x + rsum n x.
Proof.
  intros Hp. unfold Wg, WE. rewrite (rsum_ext n _ (fun k => x k * ln (WS x k) + rsum n (fun i => x i / WS x i * (x k * L i k)))).
  2:{ intros k Hk. rewrite Rmult_plus_distr_l. f_equal. rewrite <- rsum_scal_l. apply rsum_ext. intros. unfold Rdiv. ring. }
  rewrite rsum_plus. f_equal. rewrite rsum_swap. apply rsum_ext. intros i Hi. rewrite rsum_scal_l. fold (WS x i). pose proof (Hp i Hi). field. lra.
Qed.
Lemma WE_frac x : 0 < rsum n x -> wpos x -> rsum n x * WE (fractions n x) = WE x - rsum n x * ln (rsum n x).
Proof.
  intros Hs Hp. unfold WE. change (fractions n x) with (fun j => x j * / rsum n x). rewrite <- rsum_scal_l.
  rewrite (Rmult_comm (rsum n x) (ln _)). rewrite <- (rsum_scal_l n (ln _)). rewrite <- rsum_minus. apply rsum_ext. intros i Hi. rewrite WS_scal. rewrite ln_mult, ln_Rinv. field. lra. auto. now apply Hp. now apply Rinv_0_lt_compat.
Qed.
Lemma Wg_frac x k : 0 < rsum n x -> wpos x -> (k < n)%nat -> Wg (fractions n x) k = Wg x k - ln (rsum n x).
Proof.
  intros Hs Hp Hk. unfold Wg. change (fractions n x) with (fun j => x j * / rsum n x). rewrite WS_scal, ln_mult, ln_Rinv; auto. 2: now apply Rinv_0_lt_compat.
  rewrite (rsum_ext n (fun i => x i * / rsum n x * L i k / WS (fun j => x j * / rsum n x) i) (fun i => x i * L i k / WS x i)). ring. intros i Hi. rewrite WS_scal. pose proof (Hp i Hi). field. lra.
Qed.
End Sums.
