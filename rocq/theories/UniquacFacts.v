(* Calculus of the UNIQUAC sums, for arbitrary size parameters r, q and interaction matrix tau. *)
From Coq Require Import Reals Lra Lia Arith FunctionalExtensionality.
From Coquelicot Require Import Coquelicot.
From Verif Require Import Base BaseFacts Spec_mix Spec_activity MixFacts MixDeriv LnphiFacts NrtlFacts ActFacts.
Open Scope R_scope.

Section Sums.
Context (n : nat) (r q : nat -> R) (tau : nat -> nat -> R).
Definition pos (x : nat -> R) : Prop := forall i, (i < n)%nat -> 0 < x i.
Context (Hr : pos r) (Hq : pos q) (Ht : forall i j, (i < n)%nat -> (j < n)%nat -> 0 < tau i j).
Definition UL (c x : nat -> R) : R := rsum n (fun j => x j * c j).
Definition UV (x : nat -> R) (i : nat) : R := rsum n (fun j => x j * (q j * tau j i)).
Definition ucst (i : nat) : R := ln (r i) + 5 * q i * (ln (q i) - ln (r i)).
Definition UE (x : nat -> R) : R := UL ucst x - rsum n x * ln (UL r x) + 5 * (UL q x * ln (UL r x)) - 4 * (UL q x * ln (UL q x)) - rsum n (fun i => x i * (q i * ln (UV x i))).
Definition Ug (x : nat -> R) (k : nat) : R :=
  ucst k - (ln (UL r x) + rsum n x * r k / UL r x) + 5 * (q k * ln (UL r x) + UL q x * r k / UL r x) - 4 * (q k * ln (UL q x) + q k)
  - (q k * ln (UV x k) + rsum n (fun i => x i * (q i * (q k * tau k i / UV x i)))).
Definition UH (x : nat -> R) (k m : nat) : R :=
  - (r m / UL r x + r k / UL r x - rsum n x * r k * r m / UL r x ^ 2) + 5 * (q k * r m / UL r x + q m * r k / UL r x - UL q x * r k * r m / UL r x ^ 2) - 4 * (q k * q m / UL q x)
  - (q k * (q m * tau m k) / UV x k + q m * (q k * tau k m) / UV x m - rsum n (fun i => x i * (q i * (q k * tau k i) * (q m * tau m i) / UV x i ^ 2))).
Lemma pos_sum c x k : (k < n)%nat -> pos c -> pos x -> 0 < UL c x.
Proof. intros Hk Hc Hx. unfold UL. apply rsum_pos. lia. intros i Hi. apply Rmult_lt_0_compat; auto. Qed.
Lemma pos_V x i : (i < n)%nat -> pos x -> 0 < UV x i.
Proof. intros Hi Hx. unfold UV. apply rsum_pos. lia. intros j Hj. apply Rmult_lt_0_compat; auto. apply Rmult_lt_0_compat; auto. Qed.
Lemma pos_tot x k : (k < n)%nat -> pos x -> 0 < rsum n x.
Proof. intros Hk Hx. apply rsum_pos. lia. exact Hx. Qed.
Lemma near_pos_x x : pos x -> near n x pos.
Proof. intros H. apply near_all. intros i Hi. exists (x i). split. now apply H. intros y Hy. pose proof (Hy i Hi) as B. apply Rabs_def2 in B. lra. Qed.
Lemma tot_partial x k : (k < n)%nat -> partial (fun y => rsum n y) x k 1.
Proof. intros Hk. pose proof (partial_lin n x k (fun _ => 1) Hk) as H. unfold partial in *. eapply is_derive_ext. 2: exact H. intros t. cbv beta. apply rsum_ext; intros; ring. Qed.
Lemma UE_partial x k : (k < n)%nat -> pos x -> partial UE x k (Ug x k).
Proof.
  intros Hk Hp. pose proof (pos_sum r x k Hk Hr Hp) as P1. pose proof (pos_sum q x k Hk Hq Hp) as P2.
  eapply partial_val.
  { apply (partial_minus (fun y => UL ucst y - rsum n y * ln (UL r y) + 5 * (UL q y * ln (UL r y)) - 4 * (UL q y * ln (UL q y))) (fun y => rsum n (fun i => y i * (q i * ln (UV y i))))).
    apply (partial_minus (fun y => UL ucst y - rsum n y * ln (UL r y) + 5 * (UL q y * ln (UL r y))) (fun y => 4 * (UL q y * ln (UL q y)))).
    apply (partial_plus (fun y => UL ucst y - rsum n y * ln (UL r y)) (fun y => 5 * (UL q y * ln (UL r y)))).
    apply (partial_minus (fun y => UL ucst y) (fun y => rsum n y * ln (UL r y))).
    now apply (partial_lin n x k ucst).
    apply (partial_mult (fun y => rsum n y) (fun y => ln (UL r y))). now apply tot_partial. apply partial_ln. exact P1. now apply (partial_lin n x k r).
    apply (partial_scal 5 (fun y => UL q y * ln (UL r y))). apply (partial_mult (fun y => UL q y) (fun y => ln (UL r y))). now apply (partial_lin n x k q). apply partial_ln. exact P1. now apply (partial_lin n x k r).
    apply (partial_scal 4 (fun y => UL q y * ln (UL q y))). apply (partial_mult (fun y => UL q y) (fun y => ln (UL q y))). now apply (partial_lin n x k q). apply partial_ln. exact P2. now apply (partial_lin n x k q).
    apply (partial_sum n (fun i y => y i * (q i * ln (UV y i)))). intros i Hi. apply (partial_mult (fun y => y i) (fun y => q i * ln (UV y i))). apply partial_coord.
    apply (partial_scal (q i) (fun y => ln (UV y i))). apply partial_ln. now apply pos_V. now apply (partial_lin n x k (fun j => q j * tau j i)). }
  cbv beta. unfold Ug. rewrite <- (rsum_dl n k (fun i => q i * ln (UV x i)) Hk). rewrite <- rsum_plus. apply f_equal2. field. lra. apply rsum_ext. intros i Hi. pose proof (pos_V x i Hi Hp). field. lra.
Qed.
Lemma Ug_partial x k m : (k < n)%nat -> (m < n)%nat -> pos x -> partial (fun y => Ug y k) x m (UH x k m).
Proof.
  intros Hk Hm Hp. pose proof (pos_sum r x k Hk Hr Hp) as P1. pose proof (pos_sum q x k Hk Hq Hp) as P2.
  pose proof (partial_lin n x m r Hm) as D1. pose proof (partial_lin n x m q Hm) as D2.
  eapply partial_val.
  { apply (partial_minus (fun y => ucst k - (ln (UL r y) + rsum n y * r k / UL r y) + 5 * (q k * ln (UL r y) + UL q y * r k / UL r y) - 4 * (q k * ln (UL q y) + q k)) (fun y => q k * ln (UV y k) + rsum n (fun i => y i * (q i * (q k * tau k i / UV y i))))).
    apply (partial_minus (fun y => ucst k - (ln (UL r y) + rsum n y * r k / UL r y) + 5 * (q k * ln (UL r y) + UL q y * r k / UL r y)) (fun y => 4 * (q k * ln (UL q y) + q k))).
    apply (partial_plus (fun y => ucst k - (ln (UL r y) + rsum n y * r k / UL r y)) (fun y => 5 * (q k * ln (UL r y) + UL q y * r k / UL r y))).
    apply (partial_minus (fun _ => ucst k) (fun y => ln (UL r y) + rsum n y * r k / UL r y)). apply partial_const.
    apply (partial_plus (fun y => ln (UL r y)) (fun y => rsum n y * r k / UL r y)). apply partial_ln; [auto|exact D1].
    apply (partial_div (fun y => rsum n y * r k) (fun y => UL r y)). lra. apply (partial_mult (fun y => rsum n y) (fun _ => r k)). now apply tot_partial. apply partial_const. exact D1.
    apply (partial_scal 5 (fun y => q k * ln (UL r y) + UL q y * r k / UL r y)). apply (partial_plus (fun y => q k * ln (UL r y)) (fun y => UL q y * r k / UL r y)). apply (partial_scal (q k) (fun y => ln (UL r y))). apply partial_ln; [auto|exact D1].
    apply (partial_div (fun y => UL q y * r k) (fun y => UL r y)). lra. apply (partial_mult (fun y => UL q y) (fun _ => r k)). exact D2. apply partial_const. exact D1.
    apply (partial_scal 4 (fun y => q k * ln (UL q y) + q k)). apply (partial_plus (fun y => q k * ln (UL q y)) (fun _ => q k)). apply (partial_scal (q k) (fun y => ln (UL q y))). apply partial_ln; [auto|exact D2]. apply partial_const.
    apply (partial_plus (fun y => q k * ln (UV y k)) (fun y => rsum n (fun i => y i * (q i * (q k * tau k i / UV y i))))).
    apply (partial_scal (q k) (fun y => ln (UV y k))). apply partial_ln. now apply pos_V. now apply (partial_lin n x m (fun j => q j * tau j k)).
    apply (partial_sum n (fun i y => y i * (q i * (q k * tau k i / UV y i)))). intros i Hi. apply (partial_mult (fun y => y i) (fun y => q i * (q k * tau k i / UV y i))). apply partial_coord. apply (partial_scal (q i) (fun y => q k * tau k i / UV y i)).
    apply (partial_div (fun _ => q k * tau k i) (fun y => UV y i)). apply Rgt_not_eq. now apply pos_V. apply partial_const. now apply (partial_lin n x m (fun j => q j * tau j i)). }
  cbv beta. unfold UH. pose proof (pos_V x m Hm Hp). pose proof (pos_V x k Hk Hp). pose proof (rsum_dl n m (fun i => q i * (q k * tau k i / UV x i)) Hm) as E. cbv beta in E.
  match goal with |- _ - (_ + ?s) = _ => assert (s = q m * (q k * tau k m) / UV x m - rsum n (fun i => x i * (q i * (q k * tau k i) * (q m * tau m i) / UV x i ^ 2))) as -> end.
  { replace (q m * (q k * tau k m) / UV x m) with (q m * (q k * tau k m / UV x m)) by (field; lra). rewrite <- E. rewrite <- rsum_minus. apply rsum_ext. intros i Hi. pose proof (pos_V x i Hi Hp). field. lra. }
  field. lra.
Qed.
Lemma UV_sum x k : (k < n)%nat -> pos x -> rsum n (fun k => x k * rsum n (fun i => x i * (q i * (q k * tau k i / UV x i)))) = UL q x.
Proof.
  intros Hk Hp. rewrite (rsum_ext n _ (fun k => rsum n (fun i => x i * q i / UV x i * (x k * (q k * tau k i))))).
  2:{ intros m Hm. rewrite <- rsum_scal_l. apply rsum_ext. intros. unfold Rdiv. ring. }
  rewrite rsum_swap. unfold UL. apply rsum_ext. intros i Hi. rewrite rsum_scal_l. fold (UV x i). pose proof (pos_V x i Hi Hp). field. lra.
Qed.
Lemma Ug_sum x k : (k < n)%nat -> pos x -> rsum n (fun k => x k * Ug x k) = UE x - rsum n x.
Proof.
  intros Hk Hp. pose proof (pos_sum r x k Hk Hr Hp) as P1. pose proof (pos_sum q x k Hk Hq Hp) as P2. pose proof (UV_sum x k Hk Hp) as E.
  rewrite (rsum_ext n _ (fun k => x k * ucst k + x k * (- ln (UL r x)) + x k * r k * (- rsum n x / UL r x + 5 * UL q x / UL r x) + x k * q k * (5 * ln (UL r x) - 4 * ln (UL q x) - 4) - x k * (q k * ln (UV x k)) - x k * rsum n (fun i => x i * (q i * (q k * tau k i / UV x i))))).
  2:{ intros i Hi. unfold Ug. field. lra. }
  rewrite !rsum_minus, !rsum_plus, !rsum_scal_r, E. fold (UL ucst x) (UL r x) (UL q x). unfold UE. field. lra.
Qed.
Lemma UL_scal c s x : UL c (fun j => x j * s) = UL c x * s.
Proof. unfold UL. rewrite <- rsum_scal_r. apply rsum_ext; intros; ring. Qed.
Lemma UV_scal s x i : UV (fun j => x j * s) i = UV x i * s.
Proof. unfold UV. rewrite <- rsum_scal_r. apply rsum_ext; intros; ring. Qed.
Lemma UE_frac x k : (k < n)%nat -> pos x -> rsum n x * UE (fractions n x) = UE x + rsum n x * ln (rsum n x).
Proof.
  intros Hk Hp. pose proof (pos_sum r x k Hk Hr Hp) as P1. pose proof (pos_sum q x k Hk Hq Hp) as P2. pose proof (pos_tot x k Hk Hp) as P3. pose proof (Rinv_0_lt_compat _ P3) as P4.
  unfold UE. change (fractions n x) with (fun j => x j * / rsum n x). rewrite !UL_scal. rewrite (rsum_scal_r n (/ rsum n x) x). rewrite !ln_mult, !ln_Rinv by auto.
  rewrite (rsum_ext n (fun i => x i * / rsum n x * (q i * ln (UV (fun j => x j * / rsum n x) i))) (fun i => / rsum n x * (x i * (q i * ln (UV x i)) - x i * q i * ln (rsum n x)))).
  2:{ intros i Hi. rewrite UV_scal. rewrite ln_mult, ln_Rinv; auto. ring. now apply pos_V. }
  rewrite rsum_scal_l, rsum_minus, rsum_scal_r. fold (UL q x). field. lra.
Qed.
Lemma Ug_frac x k : (k < n)%nat -> pos x -> Ug (fractions n x) k = Ug x k + ln (rsum n x).
Proof.
  intros Hk Hp. pose proof (pos_sum r x k Hk Hr Hp) as P1. pose proof (pos_sum q x k Hk Hq Hp) as P2. pose proof (pos_tot x k Hk Hp) as P3. pose proof (Rinv_0_lt_compat _ P3) as P4. pose proof (pos_V x k Hk Hp) as P5.
  unfold Ug. change (fractions n x) with (fun j => x j * / rsum n x). rewrite !UL_scal, UV_scal. rewrite (rsum_scal_r n (/ rsum n x) x). rewrite !ln_mult, !ln_Rinv by auto.
  rewrite (rsum_ext n (fun i => x i * / rsum n x * (q i * (q k * tau k i / UV (fun j => x j * / rsum n x) i))) (fun i => x i * (q i * (q k * tau k i / UV x i)))).
  field. lra. intros i Hi. rewrite UV_scal. pose proof (pos_V x i Hi Hp). field. lra.
Qed.
End Sums.
