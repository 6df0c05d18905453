(* C06, continued: alpha functions with a restricted domain or with branches. *)
From Coq Require Import Reals Lra Psatz.
From Coquelicot Require Import Coquelicot.
From Verif Require Import Base BaseFacts Gen_eosclass Gen_alpha Prop_C06.
Open Scope R_scope.

(* ---------------- functions with a restricted domain or with branches *)
Lemma locally_pos (f : R -> R) (T : R) : continuous f T -> 0 < f T -> locally T (fun t => 0 < f t).
Proof. intros C H. apply (C (fun v => 0 < v)). exact (open_gt 0 (f T) H). Qed.
Lemma ex_derive_locally_pos (f : R -> R) (T : R) : ex_derive f T -> 0 < f T -> locally T (fun t => 0 < f t).
Proof. intros D. apply locally_pos. exact (ex_derive_continuous f T D). Qed.

Lemma alpha_ok_on (C : R -> Prop) f g (T : R) : locally T C -> (forall t, C t -> p1 (g t) = f t) ->
  (forall t, C t -> is_derive f t (p2 (g t))) ->
  (forall t, C t -> is_derive (fun t => p2 (g t)) t (p3 (g t))) -> alpha_ok f T (g T).
Proof.
  intros HC H1 H2 H3. assert (C T) by (apply locally_singleton in HC; exact HC). apply alpha_ok_loc; auto.
  eapply filter_imp; [|exact HC]. auto.
Qed.

(* f and g may be replaced by functions agreeing with them around T *)
Lemma alpha_ok_agree (f f' : R -> R) (g g' : R -> R * R * R) (T : R) : locally T (fun t => f t = f' t /\ g t = g' t) -> alpha_ok f' T (g' T) -> alpha_ok f T (g T).
Proof.
  intros L H. assert (E := locally_singleton _ _ L). cbv beta in E. destruct E as [E1 E2]. rewrite E2.
  unfold alpha_ok in *. destruct (g' T) as [[v d] d2]. destruct H as [H1 [H2 H3]]. rewrite E1. split; [auto|split].
  - apply (is_derive_ext_loc f'); auto. eapply filter_imp; [|exact L]. intros t [A B]; auto.
  - apply (is_derive_ext_loc (Derive f')); auto.
    assert (L2 := locally_locally _ _ L). eapply filter_imp; [|exact L2]. intros t Ht.
    symmetry. apply Derive_ext_loc. eapply filter_imp; [|exact Ht]. intros t' [A B]; auto.
Qed.

Ltac lns := repeat match goal with |- context [ln ?a] => match goal with |- context [ln ?b] =>
  tryif constr_eq a b then fail else (replace (ln b) with (ln a) by (f_equal; field; side)) end end.

Theorem C06_Chen_Yang (T Tc a : R) (omega : R) (alpha_coeffs : nat -> R) : 0 < T -> 0 < Tc ->
  0 < (1 - sqrt (T / Tc)) * (alpha_coeffs 4%nat + alpha_coeffs 5%nat * omega + alpha_coeffs 6%nat * omega ^ 2) + 1 ->
  alpha_ok (fun T => Chen_Yang_a_alpha_pure T a Tc omega alpha_coeffs) T (Chen_Yang_a_alpha_and_derivatives_pure T alpha_coeffs Tc a omega).
Proof.
  intros HT HTc. set (K := alpha_coeffs 4%nat + alpha_coeffs 5%nat * omega + alpha_coeffs 6%nat * omega ^ 2). intros HK.
  apply (alpha_ok_on (fun t => 0 < t /\ 0 < (1 - sqrt (t / Tc)) * K + 1) _ (fun T => Chen_Yang_a_alpha_and_derivatives_pure T alpha_coeffs Tc a omega)).
  { apply filter_and. exact (open_gt 0 T HT). apply (ex_derive_locally_pos (fun t => (1 - sqrt (t / Tc)) * K + 1)); auto.
    auto_derive. side. }
  all: intros t [Ht Hl]; unfold p1, p2, p3, Chen_Yang_a_alpha_and_derivatives_pure, Chen_Yang_a_alpha_pure, Chen_Yang_alpha_pure; cbv zeta; fold K;
    set (M := alpha_coeffs 0%nat + alpha_coeffs 1%nat * omega + alpha_coeffs 2%nat * omega ^ 2);
    set (c4 := alpha_coeffs 3%nat); clearbody K M c4.
  - roots t Tc. exps. field.
  - assert (Hl' : 0 < sqrt Tc + (sqrt Tc - sqrt t) * K).
    { rewrite sqrt_div_alt in Hl by auto. assert (Hu : 0 < sqrt Tc) by (apply sqrt_lt_R0; auto).
      replace (sqrt Tc + (sqrt Tc - sqrt t) * K) with (sqrt Tc * ((1 - sqrt t / sqrt Tc) * K + 1)) by (field; nz). apply Rmult_lt_0_compat; auto. }
    auto_derive. { side. }
    clear HK Hl. roots t Tc. lns. exps. field. side.
  - assert (Hl' : 0 < sqrt Tc + (sqrt Tc - sqrt t) * K).
    { rewrite sqrt_div_alt in Hl by auto. assert (Hu : 0 < sqrt Tc) by (apply sqrt_lt_R0; auto).
      replace (sqrt Tc + (sqrt Tc - sqrt t) * K) with (sqrt Tc * ((1 - sqrt t / sqrt Tc) * K + 1)) by (field; nz). apply Rmult_lt_0_compat; auto. }
    auto_derive. { side; assert (E : 0 < (- sqrt (t / Tc) + 1) * K + 1) by lra; unfold Rdiv in *; try exact E; try (apply Rmult_integral_contrapositive_currified; lra). }
    clear HK Hl. roots t Tc. lns. exps. field. side.
Qed.

Lemma Tr_gt t Tc : 0 < Tc -> Tc < t -> 1 < t / Tc.
Proof. intros. apply Rmult_lt_reg_r with Tc; auto. unfold Rdiv. rewrite Rmult_assoc, Rinv_l by lra. lra. Qed.
Lemma Tr_lt t Tc : 0 < Tc -> t < Tc -> t / Tc < 1.
Proof. intros. apply Rmult_lt_reg_r with Tc; auto. unfold Rdiv. rewrite Rmult_assoc, Rinv_l by lra. lra. Qed.

(* Almeida: everywhere except at the critical temperature (where the code divides by zero). *)
Theorem C06_Almeida (T Tc a : R) (alpha_coeffs : nat -> R) : 0 < T -> 0 < Tc -> T <> Tc ->
  alpha_ok (fun T => Almeida_a_alpha_pure T a Tc alpha_coeffs) T (Almeida_a_alpha_and_derivatives_pure T alpha_coeffs Tc a).
Proof.
  intros HT HTc HN. set (c1 := alpha_coeffs 0%nat). set (c2 := alpha_coeffs 1%nat). set (c3 := alpha_coeffs 2%nat).
  destruct (Rlt_or_le Tc T) as [HG|HL].
  - apply (alpha_ok_on (fun t => Tc < t) _ (fun T => Almeida_a_alpha_and_derivatives_pure T alpha_coeffs Tc a)).
    { exact (open_gt Tc T HG). }
    + intros t Ht. unfold p1, Almeida_a_alpha_and_derivatives_pure, Almeida_a_alpha_pure, Almeida_alpha_pure. pose proof (Tr_gt t Tc HTc Ht).
      cbv zeta. rewrite Rltb_true by auto. fold c1 c2 c3. rewrite Rabs_right by lra.
      replace (t * (1 / Tc)) with (t / Tc) by (field; nz). f_equal. f_equal. field. split; nz.
    + intros t Ht. pose proof (Tr_gt t Tc HTc Ht).
      apply (is_derive_ext_loc (fun t => a * exp (c1 * (- t / Tc + 1) * exp ((c2 - 1) * ln (t / Tc - 1)) + c3 * (-1 + Tc / t)))).
      { eapply filter_imp; [|exact (open_gt Tc t Ht)]. intros y Hy. pose proof (Tr_gt y Tc HTc Hy). unfold Almeida_a_alpha_pure, Almeida_alpha_pure, Rpower. rewrite Rabs_right by lra.
        fold c1 c2 c3. reflexivity. }
      unfold p2, Almeida_a_alpha_and_derivatives_pure. cbv zeta. rewrite Rltb_true by auto. fold c1 c2 c3. unfold Rpower.
      assert (0 < t) by lra. assert (t - Tc <> 0) by lra.
      auto_derive. { side; try (unfold Rdiv in *; lra). }
      replace (t * (1 / Tc)) with (t / Tc) by (field; nz). unfold Rdiv. set (l := ln (t * / Tc - 1)). 
      lns. exps. field. splits; nz.
    + intros t Ht. pose proof (Tr_gt t Tc HTc Ht). assert (0 < t) by lra. assert (t - Tc <> 0) by lra.
      set (g := fun t => - (exp (- (c3 * (1 - (Tc / t))) - ((t * (1 / Tc) - 1) * (c1 * exp ((c2 - 1) * ln (t * (1 / Tc) - 1)))))) *
         ((c2 - 1) * (1 / Tc * (c1 * exp ((c2 - 1) * ln (t * (1 / Tc) - 1)))) + 1 / Tc * (c1 * exp ((c2 - 1) * ln (t * (1 / Tc) - 1))) + Tc * c3 / t ^ 2)).
      apply (is_derive_ext_loc (fun t => a * g t)).
      { eapply filter_imp; [|exact (open_gt Tc t Ht)]. intros y Hy. pose proof (Tr_gt y Tc HTc Hy).
        unfold p2, Almeida_a_alpha_and_derivatives_pure. cbv zeta. rewrite Rltb_true by auto. reflexivity. }
      unfold p3, Almeida_a_alpha_and_derivatives_pure. cbv zeta. rewrite Rltb_true by auto. fold c1 c2 c3. unfold Rpower, g.
      assert (E0 : t * (1 / Tc) - 1 = t / Tc - 1) by (field; nz).
      auto_derive. { side; try (unfold Rdiv in *; lra). }
      rewrite !E0. unfold Rdiv. lns. exps. field. splits; nz. 
  - assert (HL' : T < Tc) by lra.
    apply (alpha_ok_on (fun t => t < Tc /\ 0 < t) _ (fun T => Almeida_a_alpha_and_derivatives_pure T alpha_coeffs Tc a)).
    { apply filter_and. exact (open_lt Tc T HL'). exact (open_gt 0 T HT). }
    + intros t [Ht Hp]. unfold p1, Almeida_a_alpha_and_derivatives_pure, Almeida_a_alpha_pure, Almeida_alpha_pure. pose proof (Tr_lt t Tc HTc Ht).
      cbv zeta. rewrite Rltb_false by lra. fold c1 c2 c3. rewrite Rabs_left by lra.
      replace (- (t / Tc - 1)) with (1 - t * (1 / Tc)) by (field; nz). f_equal. f_equal. field. split; nz.
    + intros t [Ht Hp]. pose proof (Tr_lt t Tc HTc Ht).
      apply (is_derive_ext_loc (fun t => a * exp (c1 * (- t / Tc + 1) * exp ((c2 - 1) * ln (1 - t * (1 / Tc))) + c3 * (-1 + Tc / t)))).
      { eapply filter_imp; [|exact (open_lt Tc t Ht)]. intros y Hy. pose proof (Tr_lt y Tc HTc Hy). unfold Almeida_a_alpha_pure, Almeida_alpha_pure, Rpower. rewrite Rabs_left by lra.
        replace (- (y / Tc - 1)) with (1 - y * (1 / Tc)) by (field; nz).
        fold c1 c2 c3. reflexivity. }
      unfold p2, Almeida_a_alpha_and_derivatives_pure. cbv zeta. rewrite Rltb_false by lra. fold c1 c2 c3. unfold Rpower.
      assert (t - Tc <> 0) by lra. assert (Tc - t <> 0) by lra. assert (E0 : 1 - t * (1 / Tc) = 1 - t / Tc) by (field; nz).
      auto_derive. { side; try (unfold Rdiv in *; lra). }
      rewrite !E0. unfold Rdiv.
      lns. exps. field. splits; nz.
    + intros t [Ht Hp]. pose proof (Tr_lt t Tc HTc Ht). assert (t - Tc <> 0) by lra. assert (Tc - t <> 0) by lra.
      set (X := fun t => c1 * exp ((c2 - 1) * ln (1 - t * (1 / Tc)))).
      set (g := fun t => - ((c2 - 1) * (1 / Tc * X t) + 1 / Tc * X t + Tc * c3 / t ^ 2) * exp (- (c3 * (1 - (Tc / t))) - ((t * (1 / Tc) - 1) * X t))).
      apply (is_derive_ext_loc (fun t => a * g t)).
      { eapply filter_imp; [|exact (open_lt Tc t Ht)]. intros y Hy. pose proof (Tr_lt y Tc HTc Hy).
        unfold p2, Almeida_a_alpha_and_derivatives_pure. cbv zeta. rewrite Rltb_false by lra. reflexivity. }
      unfold p3, Almeida_a_alpha_and_derivatives_pure. cbv zeta. rewrite Rltb_false by lra. fold c1 c2 c3. unfold Rpower, g, X.
      assert (E0 : 1 - t * (1 / Tc) = 1 - t / Tc) by (field; nz).
      auto_derive. { side; try (unfold Rdiv in *; lra). }
      rewrite ?E0. unfold Rdiv. lns. exps. field. splits; nz.
Qed.
