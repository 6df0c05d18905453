(* C07: alpha(Tc) = 1 for every alpha function, and continuity across the switches of the piecewise ones. *)
From Coq Require Import Reals Lra Psatz List Lia.
From Coquelicot Require Import Coquelicot.
From Verif Require Import Base BaseFacts Numerics Gen_eosclass Gen_alpha Prop_C06 Prop_C06b Prop_C06c Prop_C06d.
Open Scope R_scope.

Section AtTc.
Variables (Tc a : R) (c : nat -> R).
Hypothesis HTc : 0 < Tc.
Lemma rr1 : Tc / Tc = 1. Proof. field; lra. Qed.
Lemma rr2 : - Tc / Tc = -1. Proof. field; lra. Qed.
Lemma Rpower_1_x x : Rpower 1 x = 1. Proof. unfold Rpower. rewrite ln_1, Rmult_0_r. apply exp_0. Qed.

Ltac tc := cbv zeta; repeat (rewrite rr1 || rewrite rr2); repeat rewrite sqrt_1; repeat rewrite Rpower_1_x; repeat rewrite ln_1;
  first [ring | field; lra | match goal with |- context [exp ?e] => replace e with 0 by (first [ring | field; lra]); rewrite exp_0; ring end ].

Theorem C07_PR kappa : PR_a_alpha_pure Tc kappa Tc a = a. Proof. unfold PR_a_alpha_pure. tc. Qed.
Theorem C07_PRSV k0 k1 : PRSV_a_alpha_pure Tc Tc a k0 k1 = a. Proof. unfold PRSV_a_alpha_pure. tc. Qed.
Theorem C07_PRSV2 k0 k1 k2 k3 : PRSV2_a_alpha_pure Tc Tc a k0 k1 k2 k3 = a. Proof. unfold PRSV2_a_alpha_pure. tc. Qed.
Theorem C07_VDW : VDW_a_alpha_pure Tc a = a. Proof. reflexivity. Qed.
Theorem C07_RK : RK_a_alpha_pure Tc Tc a = a. Proof. unfold RK_a_alpha_pure. tc. Qed.
Theorem C07_SRK m : SRK_a_alpha_pure Tc a Tc m = a. Proof. unfold SRK_a_alpha_pure. tc. Qed.
Theorem C07_APISRK S1 S2 : APISRK_a_alpha_pure Tc a Tc S1 S2 = a. Proof. unfold APISRK_a_alpha_pure. tc. Qed.
Theorem C07_Soave_1972 : Soave_1972_a_alpha_pure Tc c Tc a = a. Proof. unfold Soave_1972_a_alpha_pure, Soave_1972_alpha_pure. tc. Qed.
Theorem C07_Heyen : Heyen_a_alpha_pure Tc c Tc a = a. Proof. unfold Heyen_a_alpha_pure, Heyen_alpha_pure. tc. Qed.
Theorem C07_Harmens_Knapp : Harmens_Knapp_a_alpha_pure Tc c Tc a = a. Proof. unfold Harmens_Knapp_a_alpha_pure, Harmens_Knapp_alpha_pure. tc. Qed.
Theorem C07_Mathias_1983 : Mathias_1983_a_alpha_pure Tc c Tc a = a. Proof. unfold Mathias_1983_a_alpha_pure, Mathias_1983_alpha_pure. tc. Qed.
Theorem C07_Mathias_Copeman_untruncated : Mathias_Copeman_untruncated_a_alpha_pure Tc c Tc a = a. Proof. unfold Mathias_Copeman_untruncated_a_alpha_pure, Mathias_Copeman_untruncated_alpha_pure. tc. Qed.
Theorem C07_Mathias_Copeman : Mathias_Copeman_a_alpha_pure Tc a Tc c = a. Proof. rewrite MC_hi by lra. apply C07_PR. Qed.
Theorem C07_Gibbons_Laughton : Gibbons_Laughton_a_alpha_pure Tc c Tc a = a. Proof. unfold Gibbons_Laughton_a_alpha_pure, Gibbons_Laughton_alpha_pure. tc. Qed.
Theorem C07_Soave_1984 : Soave_1984_a_alpha_pure Tc c Tc a = a. Proof. unfold Soave_1984_a_alpha_pure, Soave_1984_alpha_pure. tc. Qed.
Theorem C07_Yu_Lu : Yu_Lu_a_alpha_pure Tc a Tc c = a. Proof. unfold Yu_Lu_a_alpha_pure, Yu_Lu_alpha_pure, Rpower. tc. Qed.
Theorem C07_Trebble_Bishnoi : Trebble_Bishnoi_a_alpha_pure Tc a Tc c = a. Proof. unfold Trebble_Bishnoi_a_alpha_pure, Trebble_Bishnoi_alpha_pure. tc. Qed.
Theorem C07_Melhem : Melhem_a_alpha_pure Tc a Tc c = a. Proof. unfold Melhem_a_alpha_pure, Melhem_alpha_pure. tc. Qed.
Theorem C07_Androulakis : Androulakis_a_alpha_pure Tc a Tc c = a. Proof. unfold Androulakis_a_alpha_pure, Androulakis_alpha_pure. tc. Qed.
Theorem C07_Schwartzentruber : Schwartzentruber_a_alpha_pure Tc a Tc c = a. Proof. unfold Schwartzentruber_a_alpha_pure, Schwartzentruber_alpha_pure. tc. Qed.
Theorem C07_Almeida : Almeida_a_alpha_pure Tc a Tc c = a. Proof. unfold Almeida_a_alpha_pure, Almeida_alpha_pure. tc. Qed.
Theorem C07_Twu91 : Twu91_a_alpha_pure Tc c Tc a = a. Proof. unfold Twu91_a_alpha_pure, Twu91_alpha_pure. tc. Qed.
Theorem C07_Soave_1993 : Soave_1993_a_alpha_pure Tc a Tc c = a. Proof. unfold Soave_1993_a_alpha_pure, Soave_1993_alpha_pure. tc. Qed.
Theorem C07_Gasem : Gasem_a_alpha_pure Tc a Tc c = a. Proof. unfold Gasem_a_alpha_pure, Gasem_alpha_pure. tc. Qed.
Theorem C07_Coquelet : Coquelet_a_alpha_pure Tc a Tc c = a. Proof. unfold Coquelet_a_alpha_pure, Coquelet_alpha_pure. tc. Qed.
Theorem C07_Haghtalab : Haghtalab_a_alpha_pure Tc a Tc c = a.
Proof. unfold Haghtalab_a_alpha_pure, Haghtalab_alpha_pure. cbv zeta. rewrite rr1, ln_1. replace (Rpower (c 2%nat) 0) with 1 by (unfold Rpower; rewrite Rmult_0_l, exp_0; auto). tc. Qed.
Theorem C07_Chen_Yang omega : Chen_Yang_a_alpha_pure Tc a Tc omega c = a.
Proof.
  unfold Chen_Yang_a_alpha_pure, Chen_Yang_alpha_pure. cbv zeta. rewrite rr1, rr2, sqrt_1.
  match goal with |- context [ln ?e] => replace e with 1 by ring end. rewrite ln_1.
  match goal with |- context [exp ?e] => replace e with 0 by ring end. rewrite exp_0. ring.
Qed.
Theorem C07_Soave_1979 : Soave_1979_a_alpha_pure Tc c Tc a = a. Proof. unfold Soave_1979_a_alpha_pure, Soave_1979_alpha_pure. tc. Qed.
Theorem C07_Mathias_Copeman_poly (l : list R) : MC_poly_a_alpha_pure Tc a Tc l = a. Proof. unfold MC_poly_a_alpha_pure. rewrite Rltb_false by lra. tc. Qed.

(* Saffari: alpha(Tc) = exp(c1), not 1 *)
Theorem C07_Saffari_value : Saffari_a_alpha_pure Tc a Tc c = a * exp (c 0%nat).
Proof. unfold Saffari_a_alpha_pure, Saffari_alpha_pure. cbv zeta. rewrite rr1, sqrt_1, ln_1. f_equal. f_equal. field; lra. Qed.

Lemma twu1 L M N : twu L M N 1 = 1. Proof. unfold twu. rewrite !Rpower_1_x. replace (L * (1 - 1)) with 0 by ring. rewrite exp_0. ring. Qed.
Lemma twua1 s om : twu_alpha s om 1 = 1. Proof. unfold twu_alpha. rewrite !twu1. ring. Qed.
(* the Twu (1995) functions, up to their documented floor of 1/1000 *)
Theorem C07_TwuPR95 omega : 1 / 1000 <= a -> TwuPR95_a_alpha_pure Tc Tc omega a = a.
Proof.
  intros Ha. destruct TwuPR95_version as [V _]. rewrite V by auto. rewrite rr1, !Rltb_false by lra. unfold twu_val. rewrite twua1, Rmult_1_r, Rltb_false by lra. auto.
Qed.
Theorem C07_TwuSRK95 omega : 1 / 1000 <= a -> TwuSRK95_a_alpha_pure Tc Tc omega a = a.
Proof.
  intros Ha. destruct TwuSRK95_version as [V _]. rewrite V by auto. rewrite rr1, !Rltb_false by lra. unfold twu_val. rewrite twua1, Rmult_1_r, Rltb_false by lra. auto.
Qed.

(* ---- continuity across the switch at Tc *)
Theorem C07_Mathias_Copeman_continuous : continuous (fun T => Mathias_Copeman_a_alpha_pure T a Tc c) Tc.
Proof.
  pose proof (C06_Mathias_Copeman_at_Tc Tc a c HTc) as H. destruct (Mathias_Copeman_a_alpha_and_derivatives_pure Tc c Tc a) as [[v d] d2].
  apply @ex_derive_continuous. exists d. apply H.
Qed.

Lemma MC_poly_left_continuous (l : list R) : continuous (fun t => let x0 := horner l (1 - sqrt (t / Tc)) in x0 * x0 * a) Tc.
Proof.
  apply @ex_derive_continuous. cbv zeta. pose proof (horner_derive l (1 - sqrt (Tc / Tc))) as D. set (h := horner l) in *.
  auto_derive. change (1 + - sqrt (Tc * / Tc)) with (1 - sqrt (Tc / Tc)). side; eexists; eassumption.
Qed.
Lemma horner_0 l : horner l 0 = last l 0.
Proof.
  rewrite horner_poly. induction l as [|x l IH]; auto. 
  destruct l as [|y l]; [simpl; ring|]. change (poly (x :: y :: l) 0) with (x * 0 ^ length (y :: l) + poly (y :: l) 0). rewrite IH. simpl. ring.
Qed.
(* polynomial Mathias-Copeman: continuous exactly when the constant coefficient is 1 (or -1) *)
Theorem C07_Mathias_Copeman_poly_continuous (l : list R) : a <> 0 -> 
  (continuous (fun T => MC_poly_a_alpha_pure T a Tc l) Tc <-> last l 0 = 1 \/ last l 0 = -1).
Proof.
  intros Ha.
  assert (EL : horner l (1 - sqrt (Tc / Tc)) = last l 0). { rewrite rr1, sqrt_1, Rminus_diag_eq by auto. apply horner_0. }
  split.
  - intros C. pose proof (MC_poly_left_continuous l) as L. set (g := fun t => let x0 := horner l (1 - sqrt (t / Tc)) in x0 * x0 * a) in *.
    set (f := fun T => MC_poly_a_alpha_pure T a Tc l) in *.
    assert (LG : filterlim g (at_left Tc) (locally (g Tc))). { eapply filterlim_filter_le_1; [|exact L]. apply filter_le_within. }
    assert (LF : filterlim f (at_left Tc) (locally (f Tc))). { eapply filterlim_filter_le_1; [|exact C]. apply filter_le_within. }
    assert (LF' : filterlim g (at_left Tc) (locally (f Tc))).
    { eapply filterlim_ext_loc; [|exact LF]. unfold at_left, within. apply filter_forall. intros t Ht. unfold f, g, MC_poly_a_alpha_pure. cbv zeta. rewrite Rltb_true by auto. reflexivity. }
    assert (E : g Tc = f Tc). { eapply (filterlim_locally_unique (F := at_left Tc) g); eauto. }
    unfold f in E. rewrite C07_Mathias_Copeman_poly in E. unfold g in E. cbv zeta in E. rewrite EL in E.
    assert (Q : (last l 0 - 1) * (last l 0 + 1) = 0). { apply Rmult_eq_reg_r with a; auto. lra. }
    apply Rmult_integral in Q. destruct Q; [left|right]; lra.
  - intros Q. apply (glue_continuous _ (fun t => let x0 := horner l (1 - sqrt (t / Tc)) in x0 * x0 * a) (fun t => PR_a_alpha_pure t (second_last l) Tc a)).
    + intros t Ht. unfold MC_poly_a_alpha_pure. cbv zeta. rewrite Rltb_true by auto. reflexivity.
    + intros t Ht. unfold MC_poly_a_alpha_pure. cbv zeta. rewrite Rltb_false by auto. unfold PR_a_alpha_pure. cbv zeta. ring.
    + cbv zeta. rewrite EL, C07_PR. destruct Q as [-> | ->]; ring.
    + apply MC_poly_left_continuous.
    + pose proof (C06_PR Tc Tc a (second_last l) HTc HTc) as H. destruct (PR_a_alpha_and_derivatives_pure Tc Tc (second_last l) a) as [[v d] d2].
      apply @ex_derive_continuous. exists d. apply H.
Qed.

Lemma twu_val_continuous s om x : 0 < x -> continuous (fun t => twu_val s om a (t / Tc)) (x * Tc).
Proof.
  intros Hx. apply (continuous_ext (fun t => Rmax (1 / 1000) (a * twu_alpha s om (t / Tc)))).
  { intros t. unfold twu_val. destruct (Rltb_spec (a * twu_alpha s om (t / Tc)) (1 / 1000)). rewrite Rmax_left; lra. rewrite Rmax_right; lra. }
  apply (continuous_comp (fun t => a * twu_alpha s om (t / Tc)) (Rmax (1 / 1000))).
  - apply @ex_derive_continuous. assert (H : 0 < x * Tc / Tc) by (replace (x * Tc / Tc) with x by (field; lra); auto).
    pose proof (al_derive s om _ H) as D. set (f := twu_alpha s om) in *. auto_derive. eexists. exact D.
  - apply continuity_pt_filterlim. intros eps He. exists eps. split; auto. intros y [_ Hy]. simpl in *. unfold R_dist in *.
    unfold Rmax. destruct (Rle_dec _ y), (Rle_dec _ (a * twu_alpha s om (x * Tc / Tc))); unfold Rabs in *; repeat destruct (Rcase_abs _); lra.
Qed.
Lemma twu_cont val full sub sup om : version val full sub sup -> continuous (fun T => val T Tc om a) Tc.
Proof.
  intros [V _].
  apply (continuous_ext_loc _ (fun t => if Rltb (t / Tc) 1 then twu_val sub om a (t / Tc) else twu_val sup om a (t / Tc))).
  - assert (HL : Tc / 200 < Tc) by lra. eapply filter_imp; [|exact (open_gt _ Tc HL)]. intros t Ht. rewrite V by lra.
    rewrite (Rltb_false (t / Tc) (1 / 200)) by (apply Rlt_le, mul_gt_div; lra). reflexivity.
  - apply (glue_continuous _ (fun t => twu_val sub om a (t / Tc)) (fun t => twu_val sup om a (t / Tc))).
    + intros t Ht. rewrite Rltb_true by (apply mul_lt_div; lra). auto.
    + intros t Ht. destruct Ht as [Ht|Ht]. { rewrite Rltb_false by (apply Rlt_le, mul_gt_div; lra). auto. } subst t. rewrite rr1, Rltb_false by lra. auto.
    + rewrite rr1. unfold twu_val. rewrite !twua1. reflexivity.
    + pose proof (twu_val_continuous sub om 1 Rlt_0_1) as H. rewrite Rmult_1_l in H. exact H.
    + pose proof (twu_val_continuous sup om 1 Rlt_0_1) as H. rewrite Rmult_1_l in H. exact H.
Qed.
Theorem C07_TwuPR95_continuous omega : continuous (fun T => TwuPR95_a_alpha_pure T Tc omega a) Tc.
Proof. apply (twu_cont _ _ _ _ omega TwuPR95_version). Qed.
Theorem C07_TwuSRK95_continuous omega : continuous (fun T => TwuSRK95_a_alpha_pure T Tc omega a) Tc.
Proof. apply (twu_cont _ _ _ _ omega TwuSRK95_version). Qed.
End AtTc.

Theorem C07_Saffari_refuted : exists Tc a c, 0 < Tc /\ Saffari_a_alpha_pure Tc a Tc c <> a.
Proof.
  exists 500, 1, (fun _ => 1). split; [lra|]. rewrite C07_Saffari_value by lra. pose proof (exp_gt1 1 Rlt_0_1). lra.
Qed.
(* a coefficient list whose constant term is not 1 makes the polynomial Mathias-Copeman function jump at Tc *)
Theorem C07_Mathias_Copeman_poly_refuted : exists Tc a l, 0 < Tc /\ ~ continuous (fun T => MC_poly_a_alpha_pure T a Tc l) Tc.
Proof.
  exists 500, 1, (cons 1 (cons 2 nil)). split; [lra|]. intro C. apply C07_Mathias_Copeman_poly_continuous in C; simpl in C; lra.
Qed.
