(* C06, continued: piecewise alpha functions, polynomial alpha functions, the Twu 1995 correlations. *)
From Coq Require Import Reals Lra Psatz List.
From Coquelicot Require Import Coquelicot.
From Verif Require Import Base BaseFacts Numerics Gen_eosclass Gen_alpha Prop_C06 Prop_C06b.
Import ListNotations.
Open Scope R_scope.

Theorem C06_VDW T a : alpha_ok (fun T => VDW_a_alpha_pure T a) T (VDW_a_alpha_and_derivatives_pure T a).
Proof.
  unfold alpha_ok, VDW_a_alpha_pure, VDW_a_alpha_and_derivatives_pure. split; [reflexivity|split].
  - apply (is_derive_const (K := R_AbsRing) (V := R_NormedModule) a).
  - apply (is_derive_ext (fun _ => 0)). { intros. symmetry. apply (Derive_const a). }
    apply (is_derive_const (K := R_AbsRing) (V := R_NormedModule) 0).
Qed.

(* third derivative of the Peng-Robinson a*alpha *)
Theorem C06_PR_third T Tc a kappa : 0 < T -> 0 < Tc ->
  is_derive (fun t => p3 (PR_a_alpha_and_derivatives_pure t Tc kappa a)) T (PR_d3a_alpha_dT3_pure T kappa Tc a).
Proof.
  intros. unfold p3, PR_a_alpha_and_derivatives_pure, PR_d3a_alpha_dT3_pure. cbv zeta. alpha_d T Tc.
Qed.

(* ---- Mathias-Copeman (piecewise at Tc) *)
Lemma MC_lo t Tc a c : 0 < Tc -> t < Tc -> Mathias_Copeman_a_alpha_pure t a Tc c = Mathias_Copeman_untruncated_a_alpha_pure t c Tc a.
Proof. intros. unfold Mathias_Copeman_a_alpha_pure, Mathias_Copeman_original_alpha_pure. rewrite Rltb_true by auto. reflexivity. Qed.
Lemma MC_hi t Tc a c : Tc <= t -> Mathias_Copeman_a_alpha_pure t a Tc c = PR_a_alpha_pure t (c 0%nat) Tc a.
Proof.
  intros. unfold Mathias_Copeman_a_alpha_pure, Mathias_Copeman_original_alpha_pure. rewrite Rltb_false by auto. unfold PR_a_alpha_pure. cbv zeta. ring.
Qed.
Lemma MC_g_lo t Tc a c : 0 < Tc -> t <= Tc -> Mathias_Copeman_a_alpha_and_derivatives_pure t c Tc a = Mathias_Copeman_untruncated_a_alpha_and_derivatives_pure t c Tc a.
Proof.
  intros. unfold Mathias_Copeman_a_alpha_and_derivatives_pure. cbv zeta.
  rewrite Rltb_false. reflexivity. apply Rmult_le_reg_r with Tc; auto. unfold Rdiv. rewrite Rmult_assoc, Rinv_l by lra. lra.
Qed.
Lemma MC_g_hi t Tc a c : 0 < Tc -> Tc < t -> Mathias_Copeman_a_alpha_and_derivatives_pure t c Tc a = PR_a_alpha_and_derivatives_pure t Tc (c 0%nat) a.
Proof.
  intros. unfold Mathias_Copeman_a_alpha_and_derivatives_pure, PR_a_alpha_and_derivatives_pure. cbv zeta.
  rewrite Rltb_true by (apply Tr_gt; auto). assert (0 < t) by lra.
  f_equal; [f_equal|]; roots t Tc; field; side.
Qed.

Theorem C06_Mathias_Copeman (T Tc a : R) (alpha_coeffs : nat -> R) : 0 < T -> 0 < Tc -> T <> Tc ->
  alpha_ok (fun T => Mathias_Copeman_a_alpha_pure T a Tc alpha_coeffs) T (Mathias_Copeman_a_alpha_and_derivatives_pure T alpha_coeffs Tc a).
Proof.
  intros HT HTc HN. destruct (Rlt_or_le Tc T).
  - apply (alpha_ok_agree _ (fun T => PR_a_alpha_pure T (alpha_coeffs 0%nat) Tc a)
      (fun T => Mathias_Copeman_a_alpha_and_derivatives_pure T alpha_coeffs Tc a) (fun T => PR_a_alpha_and_derivatives_pure T Tc (alpha_coeffs 0%nat) a)).
    + eapply filter_imp; [|exact (open_gt Tc T H)]. intros t Ht. split. apply MC_hi; lra. apply MC_g_hi; auto.
    + apply C06_PR; auto.
  - assert (HL : T < Tc) by lra.
    apply (alpha_ok_agree _ (fun T => Mathias_Copeman_untruncated_a_alpha_pure T alpha_coeffs Tc a)
      (fun T => Mathias_Copeman_a_alpha_and_derivatives_pure T alpha_coeffs Tc a) (fun T => Mathias_Copeman_untruncated_a_alpha_and_derivatives_pure T alpha_coeffs Tc a)).
    + eapply filter_imp; [|exact (open_lt Tc T HL)]. intros t Ht. split. apply MC_lo; auto. apply MC_g_lo; lra.
    + apply C06_Mathias_Copeman_untruncated; auto.
Qed.

(* at the critical temperature the value and the first derivative are right *)
Theorem C06_Mathias_Copeman_at_Tc (Tc a : R) (alpha_coeffs : nat -> R) : 0 < Tc ->
  let '(v, d, _) := Mathias_Copeman_a_alpha_and_derivatives_pure Tc alpha_coeffs Tc a in
  v = Mathias_Copeman_a_alpha_pure Tc a Tc alpha_coeffs /\ is_derive (fun T => Mathias_Copeman_a_alpha_pure T a Tc alpha_coeffs) Tc d.
Proof.
  intros HTc. rewrite MC_g_lo by lra.
  pose proof (C06_Mathias_Copeman_untruncated Tc Tc a alpha_coeffs HTc HTc) as L.
  pose proof (C06_PR Tc Tc a (alpha_coeffs 0%nat) HTc HTc) as H. unfold alpha_ok in *.
  destruct (Mathias_Copeman_untruncated_a_alpha_and_derivatives_pure Tc alpha_coeffs Tc a) as [[v1 d1] dd1] eqn:E1.
  destruct (PR_a_alpha_and_derivatives_pure Tc Tc (alpha_coeffs 0%nat) a) as [[v2 d2] dd2] eqn:E2.
  destruct L as [L1 [L2 _]]. destruct H as [H1 [H2 _]].
  assert (S1 : sqrt (Tc / Tc) = 1). { replace (Tc / Tc) with 1 by (field; lra). apply sqrt_1. }
  assert (EV : Mathias_Copeman_untruncated_a_alpha_pure Tc alpha_coeffs Tc a = PR_a_alpha_pure Tc (alpha_coeffs 0%nat) Tc a).
  { unfold Mathias_Copeman_untruncated_a_alpha_pure, Mathias_Copeman_untruncated_alpha_pure, PR_a_alpha_pure. cbv zeta. rewrite S1. ring. }
  assert (ED : d1 = d2).
  { unfold Mathias_Copeman_untruncated_a_alpha_and_derivatives_pure in E1. cbv zeta in E1. rewrite S1 in E1. inversion E1 as [[A1 A2 A3]].
    unfold PR_a_alpha_and_derivatives_pure in E2. cbv zeta in E2. inversion E2 as [[B1 B2 B3]].
    assert (0 < sqrt Tc) by (apply sqrt_lt_R0; auto). assert (Q : Tc = sqrt Tc * sqrt Tc) by (rewrite sqrt_sqrt; lra).
    set (u := sqrt Tc) in *. clearbody u. subst Tc. field. nz. }
  split.
  - rewrite MC_hi by lra. rewrite L1. exact EV.
  - apply (glue_derive _ (fun t => Mathias_Copeman_untruncated_a_alpha_pure t alpha_coeffs Tc a) (fun t => PR_a_alpha_pure t (alpha_coeffs 0%nat) Tc a)); auto.
    + intros. apply MC_lo; auto.
    + intros. apply MC_hi; auto.
    + rewrite ED. exact H2.
Qed.

(* ---- polynomial alpha functions *)
(* thermo/eos_alpha_functions.py, lines 1379-1396: Poly_a_alpha.a_alpha_pure *)
Definition Poly_a_alpha_pure (T a : R) (alpha_coeffs : list R) : R := a * horner alpha_coeffs T.
(* thermo/eos_alpha_functions.py, lines 1350-1377: Poly_a_alpha.a_alpha_and_derivatives_pure *)
Definition Poly_a_alpha_and_derivatives_pure (T a : R) (alpha_coeffs : list R) : R * R * R :=
  let '(r0, r1, r2) := horner_and_der2 alpha_coeffs T in (a * r0, a * r1, a * r2).
(* Python's alpha_coeffs[-2] *)
Definition second_last (c : list R) : R := nth (length c - 2) c 0.
(* thermo/eos_alpha_functions.py, lines 1647-1662: Mathias_Copeman_poly_a_alpha.a_alpha_pure *)
Definition MC_poly_a_alpha_pure (T a Tc : R) (alpha_coeffs : list R) : R :=
  let rt := sqrt (T / Tc) in let tau := 1 - rt in
  if Rltb T Tc then let x0 := horner alpha_coeffs tau in x0 * x0 * a
  else let x := 1 + second_last alpha_coeffs * tau in a * x * x.
(* thermo/eos_alpha_functions.py, lines 1664-1696: Mathias_Copeman_poly_a_alpha.a_alpha_and_derivatives_pure *)
Definition MC_poly_a_alpha_and_derivatives_pure (T a Tc : R) (alpha_coeffs : list R) : R * R * R :=
  let rt := sqrt (T / Tc) in let tau := 1 - rt in
  if Rltb T Tc then
    let '(x0, x1, x2) := horner_and_der2 alpha_coeffs tau in
    (x0 * x0 * a, - a * (rt * x0 * x1 / T), a * ((x0 * x2 / Tc + x1 * x1 / Tc + rt * x0 * x1 / T) / (2 * T)))
  else
    let c1 := second_last alpha_coeffs in
    let x0 := 1 / T in let x1 := 1 / Tc in let x2 := rt in let x3 := c1 * (x2 - 1) - 1 in let x4 := x0 * x2 * x3 in
    (a * x3 * x3, a * c1 * x4, 1 / 2 * a * c1 * x0 * (c1 * x1 - x4)).

Theorem C06_Poly T a alpha_coeffs : alpha_ok (fun T => Poly_a_alpha_pure T a alpha_coeffs) T (Poly_a_alpha_and_derivatives_pure T a alpha_coeffs).
Proof.
  apply (alpha_ok_on (fun _ => True) _ (fun T => Poly_a_alpha_and_derivatives_pure T a alpha_coeffs)).
  { apply filter_true. }
  all: intros t _; unfold p1, p2, p3, Poly_a_alpha_pure, Poly_a_alpha_and_derivatives_pure.
  - rewrite horner_and_der2_value. reflexivity.
  - rewrite horner_and_der2_value. pose proof (horner_derive alpha_coeffs t) as H. 
    apply (is_derive_scal (horner alpha_coeffs) t a _ H).
  - rewrite horner_and_der2_value. apply (is_derive_ext (fun t => a * h_d alpha_coeffs t)).
    { intros y. rewrite horner_and_der2_value. reflexivity. }
    pose proof (h_d_derive alpha_coeffs t) as H. apply (is_derive_scal (h_d alpha_coeffs) t a _ H).
Qed.

Theorem C06_Mathias_Copeman_poly (T Tc a : R) (alpha_coeffs : list R) : 0 < T -> 0 < Tc -> T <> Tc ->
  alpha_ok (fun T => MC_poly_a_alpha_pure T a Tc alpha_coeffs) T (MC_poly_a_alpha_and_derivatives_pure T a Tc alpha_coeffs).
Proof.
  intros HT HTc HN. destruct (Rlt_or_le Tc T) as [HG|HL].
  - apply (alpha_ok_agree _ (fun T => PR_a_alpha_pure T (second_last alpha_coeffs) Tc a)
      (fun T => MC_poly_a_alpha_and_derivatives_pure T a Tc alpha_coeffs) (fun T => PR_a_alpha_and_derivatives_pure T Tc (second_last alpha_coeffs) a)).
    + eapply filter_imp; [|exact (open_gt Tc T HG)]. intros t Ht. unfold MC_poly_a_alpha_pure, MC_poly_a_alpha_and_derivatives_pure. cbv zeta.
      rewrite Rltb_false by lra. assert (0 < t) by lra. split. { unfold PR_a_alpha_pure; cbv zeta; ring. }
      unfold PR_a_alpha_and_derivatives_pure. cbv zeta. f_equal; [f_equal|]; roots t Tc; field; side.
    + apply C06_PR; auto.
  - assert (HL' : T < Tc) by lra.
    apply (alpha_ok_on (fun t => t < Tc /\ 0 < t) _ (fun T => MC_poly_a_alpha_and_derivatives_pure T a Tc alpha_coeffs)).
    { apply filter_and. exact (open_lt Tc T HL'). exact (open_gt 0 T HT). }
    + intros t [H1 H2]. unfold p1, MC_poly_a_alpha_pure, MC_poly_a_alpha_and_derivatives_pure. cbv zeta.
      rewrite !Rltb_true by lra. rewrite horner_and_der2_value. reflexivity.
    + intros t [H1 H2]. unfold p2, MC_poly_a_alpha_and_derivatives_pure. cbv zeta.
      rewrite !Rltb_true by lra. rewrite horner_and_der2_value.
      apply (is_derive_ext_loc (fun t => horner alpha_coeffs (1 - sqrt (t / Tc)) * horner alpha_coeffs (1 - sqrt (t / Tc)) * a)).
      { eapply filter_imp; [|exact (open_lt Tc t H1)]. intros y Hy. unfold MC_poly_a_alpha_pure. cbv zeta. rewrite Rltb_true by auto. reflexivity. }
      pose proof (horner_derive alpha_coeffs (1 - sqrt (t / Tc))) as D.
      set (h := horner alpha_coeffs) in *.
      auto_derive. { change (1 + - sqrt (t * / Tc)) with (1 - sqrt (t / Tc)). side; exists (h_d alpha_coeffs (1 - sqrt (t / Tc))); exact D. }
      change (1 + - sqrt (t * / Tc)) with (1 - sqrt (t / Tc)). change (fun x : R => h x) with h. dv D.
      clearbody h. clear HT HN HL HL'. set (hv := h (1 - sqrt (t / Tc))). set (hd := h_d alpha_coeffs (1 - sqrt (t / Tc))). clearbody hv hd. clear D h.
      roots t Tc. field. side.
    + intros t [H1 H2]. unfold p3, MC_poly_a_alpha_and_derivatives_pure. cbv zeta.
      rewrite !Rltb_true by lra. rewrite horner_and_der2_value.
      pose proof (horner_derive alpha_coeffs (1 - sqrt (t / Tc))) as D. pose proof (h_d_derive alpha_coeffs (1 - sqrt (t / Tc))) as D2.
      set (h := horner alpha_coeffs) in *. set (k := h_d alpha_coeffs) in *.
      apply (is_derive_ext_loc (fun t => - a * (sqrt (t / Tc) * h (1 - sqrt (t / Tc)) * k (1 - sqrt (t / Tc)) / t))).
      { eapply filter_imp; [|exact (open_lt Tc t H1)]. intros y Hy. unfold p2. cbv zeta. rewrite Rltb_true by auto. rewrite horner_and_der2_value. reflexivity. }
      auto_derive. { change (1 + - sqrt (t * / Tc)) with (1 - sqrt (t / Tc)). side; try (eexists; exact D); try (eexists; exact D2). }
      change (1 + - sqrt (t * / Tc)) with (1 - sqrt (t / Tc)). change (fun x : R => h x) with h. change (fun x : R => k x) with k. dv D. dv D2.
      set (hv := h (1 - sqrt (t / Tc))) in *. set (hd := k (1 - sqrt (t / Tc))) in *. set (hd2 := h_d2 alpha_coeffs (1 - sqrt (t / Tc))) in *.
      clearbody hv hd hd2. clear D D2 h k HT HN HL HL'.
      roots t Tc. field. side.
Qed.
