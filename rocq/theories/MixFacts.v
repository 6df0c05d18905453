(* Lemmas about triangular loops, quadratic sums and pair derivatives used by the mixing-rule proofs. *)
From Coq Require Import Reals Lra Lia Arith Bool FunctionalExtensionality.
From Coquelicot Require Import Coquelicot.
From Verif Require Import Base BaseFacts Spec_mix.
Open Scope R_scope.

Lemma ltb_lt' a b : (a < b)%nat -> Nat.ltb a b = true. Proof. apply Nat.ltb_lt. Qed.
Lemma ltb_ge' a b : (b <= a)%nat -> Nat.ltb a b = false. Proof. apply Nat.ltb_ge. Qed.
Lemma eqb_ne' a b : a <> b -> Nat.eqb a b = false. Proof. apply Nat.eqb_neq. Qed.

Ltac bcase :=
  repeat match goal with
  | |- context [Nat.ltb ?a ?b] => destruct (Nat.ltb_spec a b)
  | |- context [Nat.eqb ?a ?b] => destruct (Nat.eqb_spec a b)
  end; try lia; subst; try lia.

Lemma tri_rows i (f g : nat -> R) n r : (n <= i)%nat -> forall k,
  loop n (fun j r => upd (upd r j (r j + f j)) i (upd r j (r j + f j) i + g j)) r k
  = r k + (if (k <? n)%nat then f k else 0) + (if (k =? i)%nat then rsum n g else 0).
Proof.
  induction n; intros Hn k.
  - simpl. destruct (Nat.eqb k i); ring.
  - cbn [loop]. unfold upd at 1. specialize (IHn ltac:(lia)).
    destruct (Nat.eqb_spec k i).
    + subst. unfold upd. replace (i =? n)%nat with false by (symmetry; apply eqb_ne'; lia).
      rewrite IHn. rewrite (ltb_ge' i n), (ltb_ge' i (S n)) by lia. rewrite Nat.eqb_refl. simpl. ring.
    + unfold upd. destruct (Nat.eqb_spec k n).
      * subst. rewrite IHn. rewrite (ltb_ge' n n), (ltb_lt' n (S n)) by lia. rewrite (eqb_ne' n i) by lia. ring.
      * rewrite IHn. rewrite (eqb_ne' k i) by lia. bcase; ring.
Qed.

Lemma rsum_S n f : rsum (S n) f = rsum n f + f n. Proof. reflexivity. Qed.

Lemma quad_tri n (f : nat -> nat -> R) : (forall i j, (i < n)%nat -> (j < n)%nat -> f i j = f j i) ->
  rsum n (fun i => rsum n (fun j => f i j)) = rsum n (fun i => (rsum i (f i) + rsum i (f i)) + f i i).
Proof.
  induction n; intros Hs; auto.
  rewrite !rsum_S. rewrite <- IHn by (intros; apply Hs; lia).
  rewrite (rsum_ext n (fun i => rsum (S n) (fun j => f i j)) (fun i => rsum n (fun j => f i j) + f n i)).
  - rewrite rsum_plus. rewrite (rsum_ext n (f n) (fun i => f n i)) by auto. ring.
  - intros. rewrite rsum_S. f_equal. apply Hs; lia.
Qed.

Lemma quad_tri_up n (f : nat -> nat -> R) : (forall i j, (i < n)%nat -> (j < n)%nat -> f i j = f j i) ->
  rsum n (fun i => rsum n (fun j => f i j)) =
  rsum n (fun i => (rsum (n - (i + 1)) (fun k => f i (i + 1 + k)%nat) + rsum (n - (i + 1)) (fun k => f i (i + 1 + k)%nat)) + f i i).
Proof.
  induction n; intros Hs; auto.
  rewrite !rsum_S.
  rewrite (rsum_ext n (fun i => rsum (S n - (i + 1)) (fun k => f i (i + 1 + k)%nat) + rsum (S n - (i + 1)) (fun k => f i (i + 1 + k)%nat) + f i i)
     (fun i => (rsum (n - (i + 1)) (fun k => f i (i + 1 + k)%nat) + rsum (n - (i + 1)) (fun k => f i (i + 1 + k)%nat) + f i i) + (f i n + f i n))).
  - rewrite rsum_plus, <- IHn by (intros; apply Hs; lia).
    replace (S n - (n + 1))%nat with 0%nat by lia. cbn [rsum].
    rewrite (rsum_ext n (fun i => rsum n (fun j => f i j) + f i n) (fun i => rsum n (fun j => f i j) + f n i)) by (intros; rewrite (Hs i n); auto).
    rewrite !rsum_plus. rewrite (rsum_ext n (fun i => f n i) (fun i => f i n)) by (intros; apply Hs; lia).
    rewrite (rsum_ext n (f n) (fun i => f i n)) by (intros; apply Hs; lia). ring.
  - intros. replace (S n - (i + 1))%nat with (S (n - (i + 1))) by lia. rewrite rsum_S.
    replace (i + 1 + (n - (i + 1)))%nat with n by lia. ring.
Qed.

(* the rows accumulated by a triangular double loop *)
Lemma row_tri n k (h : nat -> nat -> R) : (forall i j, (i < n)%nat -> (j < n)%nat -> h i j = h j i) -> 
  rsum n (fun i => if (k <? i)%nat then h i k else if (k =? i)%nat then rsum i (h i) + h i i else 0)
  = if (k <? n)%nat then rsum n (h k) else 0.
Proof.
  induction n; intros Hs; [reflexivity|].
  rewrite rsum_S, IHn by (intros; apply Hs; lia). rewrite rsum_S.
  destruct (Nat.ltb_spec k n).
  - rewrite (ltb_lt' k (S n)) by lia. rewrite (Hs n k); auto; lia.
  - destruct (Nat.eqb_spec k n).
    + subst. rewrite (ltb_lt' n (S n)) by lia. ring.
    + rewrite (ltb_ge' k (S n)) by lia. ring.
Qed.

(* ---- derivatives of sqrt(a_i a_j) ---- *)
Section Pair.
Variables (p q dp dq : R -> R) (T d2p d2q : R).
Hypotheses (Hp : locally T (fun t => is_derive p t (dp t))) (Hq : locally T (fun t => is_derive q t (dq t))).
Hypotheses (Hdp : is_derive dp T d2p) (Hdq : is_derive dq T d2q) (Pp : 0 < p T) (Pq : 0 < q T).

Lemma ev_pos (f df : R -> R) : locally T (fun t => is_derive f t (df t)) -> 0 < f T -> locally T (fun t => 0 < f t).
Proof.
  intros H P. apply locally_singleton in H. cbv beta in H.
  assert (C : continuous f T) by (apply (ex_derive_continuous f); eexists; eauto).
  apply (C (fun y => 0 < y)). apply (open_gt 0). exact P.
Qed.

Definition pair_d1 (t : R) : R := (dp t * q t + p t * dq t) / (2 * sqrt (p t * q t)).

Lemma pair_derive1 : locally T (fun t => is_derive (fun t => sqrt (p t * q t)) t (pair_d1 t)).
Proof.
  pose proof (ev_pos _ _ Hp Pp) as E1. pose proof (ev_pos _ _ Hq Pq) as E2.
  generalize (filter_and _ _ (filter_and _ _ E1 E2) (filter_and _ _ Hp Hq)).
  apply filter_imp. intros t [[A B] [C D]]. unfold pair_d1.
  assert (0 < p t * q t) by (apply Rmult_lt_0_compat; auto).
  assert (sqrt (p t * q t) <> 0) by (apply Rgt_not_eq, sqrt_lt_R0; auto).
  auto_derive; [splits; auto; eexists; eauto|].
  dv C. dv D. field. auto.
Qed.

Lemma pair_derive2 : is_derive pair_d1 T
  ((d2p * q T + 2 * dp T * dq T + p T * d2q) / (2 * sqrt (p T * q T))
   - (dp T * q T + p T * dq T) ^ 2 / (4 * (p T * q T * sqrt (p T * q T)))).
Proof.
  apply locally_singleton in Hp. apply locally_singleton in Hq. cbv beta in Hp, Hq. unfold pair_d1.
  assert (0 < p T * q T) by (apply Rmult_lt_0_compat; auto).
  assert (S0 : sqrt (p T * q T) <> 0) by (apply Rgt_not_eq, sqrt_lt_R0; auto).
  assert (S1 : sqrt (p T * q T) * sqrt (p T * q T) = p T * q T) by (apply sqrt_sqrt; lra).
  auto_derive; [splits; auto; try (eexists; eassumption); nz|].
  dv Hp. dv Hq. dv Hdp. dv Hdq.
  set (s := sqrt (p T * q T)) in *. 
  replace (q T) with (s * s / p T) by (rewrite S1; field; nz).
  field. splits; auto; nz.
Qed.
End Pair.

Definition pd1 (a da : nat -> R) (omk : nat -> nat -> R) (i j : nat) : R :=
  (da i * a j + a i * da j) / (2 * sqrt (a i * a j)) * omk i j.
Definition pd2 (a da d2 : nat -> R) (omk : nat -> nat -> R) (i j : nat) : R :=
  ((d2 i * a j + 2 * da i * da j + a i * d2 j) / (2 * sqrt (a i * a j))
   - (da i * a j + a i * da j) ^ 2 / (4 * (a i * a j * sqrt (a i * a j)))) * omk i j.

Lemma locally_all (T : R) n (Q : nat -> R -> Prop) : (forall i, (i < n)%nat -> locally T (Q i)) -> locally T (fun t => forall i, (i < n)%nat -> Q i t).
Proof.
  induction n; intros H.
  - apply filter_forall. intros; lia.
  - assert (A := IHn (fun i Hi => H i (Nat.lt_trans _ _ _ Hi (Nat.lt_succ_diag_r n)))). assert (B := H n (Nat.lt_succ_diag_r n)).
    generalize (filter_and _ _ A B). clear A B. apply filter_imp. intros t [A B] i Hi. destruct (Nat.eq_dec i n); [subst; auto|apply A; lia].
Qed.

Section Quad.
Variables (n : nat) (zs : nat -> R) (omk : nat -> nat -> R) (a da : nat -> R -> R) (T : R) (d2 : nat -> R).
Hypotheses (Hs : smooth2_at n a da T d2) (Hp : forall i, (i < n)%nat -> 0 < a i T).

Lemma pair_a_derive i j : (i < n)%nat -> (j < n)%nat ->
  locally T (fun t => is_derive (fun t => pair_a (fun k => a k t) omk i j) t (pd1 (fun k => a k t) (fun k => da k t) omk i j)).
Proof.
  intros Hi Hj. destruct (Hs i Hi) as [A1 A2], (Hs j Hj) as [B1 B2].
  generalize (pair_derive1 _ _ _ _ T A1 B1 (Hp i Hi) (Hp j Hj)). apply filter_imp. intros t D.
  unfold pair_a, pd1. unfold pair_d1 in D.
  apply (is_derive_scal_l (K := R_AbsRing) (V := R_NormedModule)) with (k := omk i j) in D. exact D.
Qed.
Lemma pair_a_derive2 i j : (i < n)%nat -> (j < n)%nat ->
  is_derive (fun t => pd1 (fun k => a k t) (fun k => da k t) omk i j) T (pd2 (fun k => a k T) (fun k => da k T) d2 omk i j).
Proof.
  intros Hi Hj. destruct (Hs i Hi) as [A1 A2], (Hs j Hj) as [B1 B2].
  pose proof (pair_derive2 _ _ _ _ T _ _ A1 B1 A2 B2 (Hp i Hi) (Hp j Hj)) as D. unfold pair_d1 in D.
  apply (is_derive_scal_l (K := R_AbsRing) (V := R_NormedModule)) with (k := omk i j) in D. exact D.
Qed.

Lemma quad_mix_sum_derive (f : nat -> nat -> R -> R) (df : nat -> nat -> R) t :
  (forall i j, (i < n)%nat -> (j < n)%nat -> is_derive (f i j) t (df i j)) ->
  is_derive (fun t => quad_mix n zs (fun i j => f i j t)) t (quad_mix n zs df).
Proof.
  intros H. unfold quad_mix.
  apply (is_derive_rsum n (fun i t => rsum n (fun j => zs i * zs j * f i j t)) (fun i => rsum n (fun j => zs i * zs j * df i j))).
  intros i Hi. apply (is_derive_rsum n (fun j t => zs i * zs j * f i j t) (fun j => zs i * zs j * df i j)).
  intros j Hj. apply is_derive_scal. auto.
Qed.

Lemma quad_mix_derive_loc :
  locally T (fun t => is_derive (fun t => quad_mix n zs (pair_a (fun k => a k t) omk)) t (quad_mix n zs (pd1 (fun k => a k t) (fun k => da k t) omk))).
Proof.
  assert (L : locally T (fun t => forall i, (i < n)%nat -> forall j, (j < n)%nat -> is_derive (fun t => pair_a (fun k => a k t) omk i j) t (pd1 (fun k => a k t) (fun k => da k t) omk i j))).
  { apply locally_all. intros i Hi. apply locally_all. intros j Hj. apply pair_a_derive; auto. }
  generalize L. apply filter_imp. intros t D.
  apply (quad_mix_sum_derive (fun i j t => pair_a (fun k => a k t) omk i j)). auto.
Qed.
Lemma quad_mix_derive : is_derive (fun t => quad_mix n zs (pair_a (fun k => a k t) omk)) T (quad_mix n zs (pd1 (fun k => a k T) (fun k => da k T) omk)).
Proof. exact (locally_singleton _ _ quad_mix_derive_loc). Qed.
Lemma quad_mix_derive2 : is_derive_n (fun t => quad_mix n zs (pair_a (fun k => a k t) omk)) 2 T (quad_mix n zs (pd2 (fun k => a k T) (fun k => da k T) d2 omk)).
Proof.
  simpl. apply is_derive_ext_loc with (fun t => quad_mix n zs (pd1 (fun k => a k t) (fun k => da k t) omk)).
  - generalize quad_mix_derive_loc. apply filter_imp. intros t D. symmetry. apply is_derive_unique. exact D.
  - apply (quad_mix_sum_derive (fun i j t => pd1 (fun k => a k t) (fun k => da k t) omk i j)). intros. apply pair_a_derive2; auto.
Qed.
End Quad.

Lemma quad_mix_ext n zs f g : (forall i j, (i < n)%nat -> (j < n)%nat -> f i j = g i j) -> quad_mix n zs f = quad_mix n zs g.
Proof. intros. unfold quad_mix. apply rsum_ext. intros. apply rsum_ext. intros. rewrite H; auto. Qed.
Lemma quad_mix_rows n zs f : quad_mix n zs f = rsum n (fun i => zs i * rsum n (fun j => zs j * f i j)).
Proof. unfold quad_mix. apply rsum_ext. intros. rewrite <- rsum_scal_l. apply rsum_ext. intros. ring. Qed.
