(* The values computed by the UNIFAC class in terms of the closed forms of UnifacFacts, and their derivatives in T and in the composition. *)
From Coq Require Import Reals Lra Lia Arith Bool FunctionalExtensionality.
From Coquelicot Require Import Coquelicot.
From Verif Require Import Base BaseFacts MixFacts MixDeriv Spec_mix Spec_activity Spec_unifac NrtlFacts ActFacts LnphiFacts Gen_unifac UnifacForms UnifacFacts.
Open Scope R_scope.

(* interaction terms *)
Lemma psi_of version a b c T : 0 < T ->
  (if lyngby version then exp (- 1 / T * (a + b * (T - 5963 / 20) + c * (T * ln (5963 / 20 / T) + T - 5963 / 20))) else exp (a * (- 1 / T) - b - c * T)) = psi_form version a b c T.
Proof.
  intros HT. unfold psi_form, lyngby. replace (29815 / 100) with (5963 / 20) by field.
  destruct version as [|[|[|[|[|[|v]]]]]]; cbn [Nat.eqb orb]; f_equal; field; lra.
Qed.
Lemma psi_pos version a b c T : 0 < psi_form version a b c T.
Proof. unfold psi_form. destruct version as [|[|[|[|[|[|v]]]]]]; apply exp_pos. Qed.
Section Psi.
Context (version : nat) (a b c : R).
Definition psi1f T := if lyngby version then psi_form version a b c T * ((- 1 / T + (T - 5963 / 20) * (- 1 / T * (- 1 / T))) * b + c * (ln (5963 / 20 / T) * (- 1 / T) + (T * ln (5963 / 20 / T) + T - 5963 / 20) * (- 1 / T * (- 1 / T))) + a * (- 1 / T * (- 1 / T)))
  else psi_form version a b c T * (a * (1 / (T * T)) - c).
Definition psi2f T := if lyngby version then let tf2 := a + b * (T - 5963 / 20) + c * (T * ln (5963 / 20 / T) + T - 5963 / 20) in let tf3 := b + c * ln (5963 / 20 / T) in
    1 / T * (1 / T) * psi_form version a b c T * (c + 2 * tf3 + (tf3 - tf2 * (1 / T)) * (tf3 - tf2 * (1 / T)) - 2 * tf2 * (1 / T))
  else ((c + - 1 / (T * T) * a) * (c + - 1 / (T * T) * a) + - 2 / (T * T * T) * a) * psi_form version a b c T.
Definition psi3f T := if lyngby version then let tf2 := a + b * (T - 5963 / 20) + c * (T * ln (5963 / 20 / T) + T - 5963 / 20) in let tf3 := b + c * ln (5963 / 20 / T) in let x6 := tf2 * (1 / T) in let x5 := tf3 - x6 in
    - (1 / T) * (1 / T) * (1 / T) * psi_form version a b c T * (4 * c + 6 * tf3 + x5 * x5 * x5 + 3 * x5 * (c + tf3 + tf3 - 2 * x6) - 6 * x6)
  else let x0 := c + - 1 / (T * T) * a in (x0 * (6 / (T * T * T) * a - x0 * x0) + 6 / (T * T * T * T) * a) * psi_form version a b c T.
Lemma psi_lyngby : lyngby version = true -> forall T, psi_form version a b c T = exp (- (a + b * (T - 29815 / 100) + c * (T * ln (29815 / 100 / T) + T - 29815 / 100)) / T).
Proof. unfold lyngby, psi_form. destruct version as [|[|[|[|[|[|v]]]]]]; cbn; intros; congruence. Qed.
Lemma psi_plain : lyngby version = false -> forall T, psi_form version a b c T = exp (- (a + b * T + c * T ^ 2) / T).
Proof. unfold lyngby, psi_form. destruct version as [|[|[|[|[|[|v]]]]]]; cbn; intros; congruence. Qed.
Lemma psi_d1 T : 0 < T -> is_derive (psi_form version a b c) T (psi1f T).
Proof.
  intros HT. unfold psi1f. destruct (lyngby version) eqn:E.
  - rewrite (psi_lyngby E). eapply is_derive_ext; [intros u; symmetry; apply (psi_lyngby E)|]. replace (29815 / 100) with (5963 / 20) by field.
    assert (0 < 5963 / 20 / T) by (apply Rdiv_lt_0_compat; lra).
    auto_derive. splits; auto; lra. chR. unfold Rdiv, Rminus. field. lra.
  - rewrite (psi_plain E). eapply is_derive_ext; [intros u; symmetry; apply (psi_plain E)|]. auto_derive. lra. chR. match goal with |- _ * exp ?u = exp ?w * _ => replace u with w by (field; lra) end. set (ee := exp _). field. lra.
Qed.
Lemma psi_d2 T : 0 < T -> is_derive psi1f T (psi2f T).
Proof.
  intros HT. pose proof (psi_d1 T HT) as D. revert D. unfold psi1f, psi2f. set (P := psi_form version a b c). intros D. destruct (lyngby version) eqn:E; cbv zeta.
  - assert (0 < 5963 / 20 / T) by (apply Rdiv_lt_0_compat; lra). clearbody P. auto_derive. splits; try (eexists; eassumption); auto; lra. dv D. chR. unfold Rdiv, Rminus. field. lra.
  - clearbody P. assert (T * T <> 0) by nra. auto_derive. splits; try (eexists; eassumption); auto; lra. dv D. chR. unfold Rdiv, Rminus. field. lra.
Qed.
Lemma psi_d3 T : 0 < T -> is_derive psi2f T (psi3f T).
Proof.
  intros HT. pose proof (psi_d1 T HT) as D. revert D. unfold psi1f, psi2f, psi3f. set (P := psi_form version a b c). intros D. destruct (lyngby version) eqn:E; cbv zeta.
  - assert (0 < 5963 / 20 / T) by (apply Rdiv_lt_0_compat; lra). clearbody P. auto_derive. splits; try (eexists; eassumption); auto; lra. dv D. chR. unfold Rdiv, Rminus. field. lra.
  - clearbody P. assert (T * T <> 0) by nra. assert (T * T * T <> 0) by (apply Rmult_integral_contrapositive; split; auto; lra). auto_derive. splits; try (eexists; eassumption); auto; lra. dv D. chR. unfold Rdiv, Rminus. field. lra.
Qed.
End Psi.

(* surface fractions *)
Section Theta.
Context (n g : nat) (Q : nat -> R) (v : nat -> nat -> R).
Definition am (m : nat) (y : nat -> R) := Q m * rsum n (fun j => v m j * y j).
Definition Sm (y : nat -> R) := rsum g (fun m => am m y).
Definition Nm (y : nat -> R) := rsum g (fun m => rsum n (fun j => v m j * y j)).
Definition SA (i : nat) := rsum g (fun m => Q m * v m i).
Definition theta (y : nat -> R) (m : nat) := am m y / Sm y.
Definition dtheta (y : nat -> R) (i m : nat) := (Q m * v m i - theta y m * SA i) / Sm y.
Definition d2theta (y : nat -> R) (i j m : nat) := (2 * theta y m * SA i * SA j - Q m * v m i * SA j - Q m * v m j * SA i) / Sm y ^ 2.

Lemma let_fst {A B} (p : A * B) : (let '(a, b) := p in a) = fst p. Proof. now destruct p. Qed.
Lemma let_snd {A B} (p : A * B) : (let '(a, b) := p in b) = snd p. Proof. now destruct p. Qed.
Lemma Xs_val y m : (m < g)%nat -> UNIFAC_Xs n g y v m = rsum n (fun j => v m j * y j) / Nm y.
Proof. intros Hm. destruct (Xs_form n g y v (fun _ => 0)) as [_ E]. unfold UNIFAC_Xs. cbv zeta. rewrite let_fst, E by auto. fold (Nm y). unfold Rdiv. ring. Qed.
Lemma Xsi_val y : UNIFAC_Xs_sum_inv n g y v = 1 / Nm y.
Proof. destruct (Xs_form n g y v (fun _ => 0)) as [E _]. unfold UNIFAC_Xs_sum_inv. cbv zeta. rewrite let_snd, E by auto. reflexivity. Qed.
Lemma Th_sum y : rsum g (fun k => UNIFAC_Xs n g y v k * Q k) = Sm y / Nm y.
Proof. unfold Sm. rewrite <- rsum_div_r. apply rsum_ext. intros k Hk. rewrite Xs_val by auto. unfold am, Rdiv. ring. Qed.
Lemma Theta_val y m : Nm y <> 0 -> Sm y <> 0 -> (m < g)%nat -> UNIFAC_Thetas n g y Q v m = theta y m.
Proof.
  intros HN HS Hm. destruct (Thetas_form g (UNIFAC_Xs n g y v) Q (fun _ => 0)) as [_ E]. unfold UNIFAC_Thetas. cbv zeta. rewrite let_fst, E by auto. rewrite Th_sum, Xs_val by auto.
  unfold theta, am. field. auto.
Qed.
Lemma Thetai_val y : Nm y <> 0 -> Sm y <> 0 -> UNIFAC_Thetas_sum_inv n g y Q v = Nm y / Sm y.
Proof.
  intros HN HS. destruct (Thetas_form g (UNIFAC_Xs n g y v) Q (fun _ => 0)) as [E _]. unfold UNIFAC_Thetas_sum_inv. cbv zeta. rewrite let_snd, E by auto. rewrite Th_sum by auto. field. auto.
Qed.
Lemma VS_val i : UNIFAC_cmp_v_count g v i = rsum g (fun m => v m i).
Proof. unfold UNIFAC_cmp_v_count. rewrite loop_rsum. ring. Qed.
Lemma VX_val y m : (m < g)%nat -> UNIFAC_VSXS n g y v m = rsum n (fun j => v m j * y j).
Proof. intros Hm. apply VSXS_form; auto. Qed.
Lemma QVX y : rsum g (fun k => Q k * UNIFAC_VSXS n g y v k) = Sm y.
Proof. apply rsum_ext. intros k Hk. rewrite VX_val by auto. reflexivity. Qed.
Lemma dTheta_val y m i : Nm y <> 0 -> Sm y <> 0 -> (m < g)%nat -> (i < n)%nat -> UNIFAC_dThetas_dxs n g y Q v m i = dtheta y i m.
Proof.
  intros HN HS Hm Hi. unfold UNIFAC_dThetas_dxs. cbv zeta. rewrite dThetas_form by auto.
  rewrite Xsi_val, Thetai_val, QVX, VX_val by auto. fold (SA i). unfold dtheta, theta, am. field. auto.
Qed.
Lemma d2Theta_val y i j m : Nm y <> 0 -> Sm y <> 0 -> (m < g)%nat -> (i < n)%nat -> (j < n)%nat -> UNIFAC_d2Thetas_dxixjs n g y Q v i j m = d2theta y i j m.
Proof.
  intros HN HS Hm Hi Hj. unfold UNIFAC_d2Thetas_dxixjs. cbv zeta. rewrite d2Thetas_form by auto. cbv beta zeta.
  set (VS := UNIFAC_cmp_v_count g v).
  assert (E1 : forall j, rsum g (fun k => Q k * (- UNIFAC_Xs_sum_inv n g y v * VS j * UNIFAC_VSXS n g y v k + v k j)) = - UNIFAC_Xs_sum_inv n g y v * VS j * Sm y + SA j).
  { intros l. rewrite <- (QVX y), <- rsum_scal_l. unfold SA. rewrite <- rsum_plus. apply rsum_ext. intros; ring. }
  assert (E2 : rsum g (fun k => Q k * (VS i * (- 2 * UNIFAC_Xs_sum_inv n g y v * VS j * UNIFAC_VSXS n g y v k + v k j) + VS j * v k i)) = - 2 * UNIFAC_Xs_sum_inv n g y v * VS i * VS j * Sm y + VS i * SA j + VS j * SA i).
  { rewrite <- (QVX y), <- rsum_scal_l. unfold SA. rewrite <- !rsum_scal_l, <- !rsum_plus. apply rsum_ext. intros; ring. }
  rewrite !E1, E2, QVX, Xsi_val, VX_val by auto. unfold d2theta, theta, am. field. auto.
Qed.
(* their derivatives *)
Lemma lin_partial (c : nat -> R) y i : (i < n)%nat -> partial (fun y => rsum n (fun j => c j * y j)) y i (c i).
Proof. intros Hi. eapply is_derive_ext; [|apply (partial_lin n y i c Hi)]. intros t. apply rsum_ext. intros; ring. Qed.
Lemma am_partial m y i : (i < n)%nat -> partial (am m) y i (Q m * v m i).
Proof. intros Hi. unfold am. apply (is_derive_scal (fun t => rsum n (fun j => v m j * upd y i t j)) (y i) (Q m) (v m i)). now apply (lin_partial (fun j => v m j) y i). Qed.
Lemma Sm_partial y i : (i < n)%nat -> partial Sm y i (SA i).
Proof. intros Hi. unfold Sm, SA. apply (partial_sum g (fun m y => am m y)). intros. now apply am_partial. Qed.
Lemma theta_partial y i m : Sm y <> 0 -> (i < n)%nat -> partial (fun y => theta y m) y i (dtheta y i m).
Proof.
  intros HS Hi. unfold theta. eapply partial_val. apply (partial_div (am m) Sm y i _ _ HS (am_partial m y i Hi) (Sm_partial y i Hi)).
  unfold dtheta, theta. field. auto.
Qed.
Lemma dtheta_partial y i j m : Sm y <> 0 -> (i < n)%nat -> (j < n)%nat -> partial (fun y => dtheta y i m) y j (d2theta y i j m).
Proof.
  intros HS Hi Hj. unfold dtheta. eapply partial_val.
  apply (partial_div (fun y => Q m * v m i - theta y m * SA i) Sm y j (0 - dtheta y j m * SA i) (SA j) HS). 2:now apply Sm_partial.
  apply (partial_minus (fun _ => Q m * v m i) (fun y => theta y m * SA i)). exact (is_derive_const _ _).
  pose proof (theta_partial y j m HS Hj) as D. unfold partial in *. asf ff D. change (is_derive (fun t => ff t * SA i) (y j) (dtheta y j m * SA i)). clearbody ff. ad. ring.
  unfold dtheta, d2theta, theta. field. auto.
Qed.
(* where everything is defined *)
Definition pos (psi : nat -> nat -> R) (y : nat -> R) := 0 < Nm y /\ 0 < Sm y /\ forall k, (k < g)%nat -> 0 < Us g (theta y) psi k.
Lemma Us_theta psi y k : Us g (theta y) psi k = rsum n (fun j => y j * rsum g (fun m => Q m * v m j * psi m k)) / Sm y.
Proof.
  unfold Us, theta. rewrite (rsum_ext n _ (fun j => rsum g (fun m => v m j * y j * Q m * psi m k))).
  rewrite (rsum_swap n g), <- rsum_div_r. apply rsum_ext. intros m Hm. unfold am.
  replace (rsum n (fun j => v m j * y j * Q m * psi m k)) with (Q m * psi m k * rsum n (fun j => v m j * y j)). unfold Rdiv; ring.
  rewrite <- rsum_scal_l. apply rsum_ext; intros; ring.
  intros j Hj. rewrite <- rsum_scal_l. apply rsum_ext; intros; ring.
Qed.
Lemma Nm_alt y : Nm y = rsum n (fun j => y j * rsum g (fun m => v m j)).
Proof. unfold Nm. rewrite (rsum_swap g n). apply rsum_ext. intros. rewrite <- rsum_scal_l. apply rsum_ext; intros; ring. Qed.
Lemma Sm_alt y : Sm y = rsum n (fun j => y j * SA j).
Proof. unfold Sm, am, SA. rewrite (rsum_ext g _ (fun m => rsum n (fun j => Q m * (v m j * y j)))) by (intros; now rewrite rsum_scal_l). rewrite (rsum_swap g n). apply rsum_ext. intros. rewrite <- rsum_scal_l. apply rsum_ext; intros; ring. Qed.
Lemma rsum_pos_one (f : nat -> R) m : (forall k, (k < g)%nat -> 0 <= f k) -> (m < g)%nat -> 0 < f m -> 0 < rsum g f.
Proof.
  intros H Hm Hp. apply Rlt_le_trans with (rsum g (fun k => if Nat.eqb k m then f m else 0)).
  rewrite (rsum_single g m) by (auto; intros k _ Hne; destruct (Nat.eqb_spec k m); congruence). now rewrite Nat.eqb_refl.
  apply rsum_le. intros k Hk. destruct (Nat.eqb_spec k m); subst; auto; lra.
Qed.
Hypothesis Hg : groups_ok n g Q v.
Lemma coef_N j : (j < n)%nat -> 0 < rsum g (fun m => v m j).
Proof. destruct Hg as (H1 & H2 & H3). intros Hj. destruct (H3 j Hj) as (k & Hk & A & B). apply (rsum_pos_one _ k); auto. Qed.
Lemma coef_S j : (j < n)%nat -> 0 < SA j.
Proof. destruct Hg as (H1 & H2 & H3). intros Hj. destruct (H3 j Hj) as (k & Hk & A & B). apply (rsum_pos_one _ k); auto. intros; apply Rmult_le_pos; auto. nra. Qed.
Lemma coef_E (psi : nat -> nat -> R) k j : (forall m k, 0 < psi m k) -> (j < n)%nat -> 0 < rsum g (fun m => Q m * v m j * psi m k).
Proof. destruct Hg as (H1 & H2 & H3). intros Hp Hj. destruct (H3 j Hj) as (m & Hm & A & B). apply (rsum_pos_one _ m); auto. intros l Hl; pose proof (Hp l k). apply Rmult_le_pos; [apply Rmult_le_pos; auto|lra]. pose proof (Hp m k). apply Rmult_lt_0_compat; nra. Qed.
Lemma pos_amounts (psi : nat -> nat -> R) x : (forall m k, 0 < psi m k) -> amounts n x -> near n x (pos psi).
Proof.
  intros Hp Hx.
  apply (near_impl n x (fun y => (0 < rsum n (fun j => y j * rsum g (fun m => v m j)) /\ 0 < rsum n (fun j => y j * SA j)) /\ forall k, (k < g)%nat -> 0 < rsum n (fun j => y j * rsum g (fun m => Q m * v m j * psi m k)))).
  - intros y [[A B] C]. unfold pos. rewrite Nm_alt, Sm_alt. splits; auto. intros k Hk. rewrite Us_theta, Sm_alt. apply Rdiv_lt_0_compat; auto.
  - apply near_and. apply near_and. apply near_pos. apply amounts_pos; auto. intros; now apply coef_N. apply near_pos. apply amounts_pos; auto. intros; now apply coef_S.
    apply near_all. intros k Hk. apply near_pos. apply amounts_pos; auto. intros; now apply coef_E.
Qed.
End Theta.

(* equality of two expressions of the same shape *)
Ltac cong := lazymatch goal with
  | |- ?x = ?x => reflexivity
  | |- rsum _ _ = rsum _ _ => apply rsum_ext; intros; cong
  | |- ?a + ?b = ?c + ?d => apply (f_equal2 Rplus); cong
  | |- ?a - ?b = ?c - ?d => apply (f_equal2 Rminus); cong
  | |- ?a * ?b = ?c * ?d => apply (f_equal2 Rmult); cong
  | |- ?a / ?b = ?c / ?d => apply (f_equal2 Rdiv); cong
  | |- ?a ^ ?b = ?c ^ ?b => apply (f_equal (fun u => u ^ b)); cong
  | |- - ?a = - ?c => apply (f_equal Ropp); cong
  | |- ln ?a = ln ?c => apply (f_equal ln); cong
  | |- _ => auto
  end.
(* the group routines in terms of the closed forms, for arrays that agree with given ones on the groups *)
Section Arrays.
Context (n g : nat) (Q : nat -> R) (th : nat -> R) (psi psi1 psi2 psi3 : nat -> nat -> R).
Context (th' : nat -> R) (psi' psi1' psi2' psi3' : nat -> nat -> R) (U' Z' F' G' H' : nat -> R).
Hypothesis Hth : forall m, (m < g)%nat -> th' m = th m.
Hypothesis H0 : forall m k, (m < g)%nat -> (k < g)%nat -> psi' m k = psi m k.
Hypothesis H1 : forall m k, (m < g)%nat -> (k < g)%nat -> psi1' m k = psi1 m k.
Hypothesis H2 : forall m k, (m < g)%nat -> (k < g)%nat -> psi2' m k = psi2 m k.
Hypothesis H3 : forall m k, (m < g)%nat -> (k < g)%nat -> psi3' m k = psi3 m k.
Hypothesis HU : forall m, (m < g)%nat -> U' m = Us g th psi m.
Hypothesis HZ : forall m, (m < g)%nat -> Z' m = 1 / Us g th psi m.
Hypothesis HF : forall m, (m < g)%nat -> F' m = Us g th psi1 m.
Hypothesis HG : forall m, (m < g)%nat -> G' m = Us g th psi2 m.
Hypothesis HH : forall m, (m < g)%nat -> H' m = Us g th psi3 m.
Lemma Us_arr o k : (k < g)%nat -> unifac_Theta_Psi_sums g th' psi' o k = Us g th psi k.
Proof. intros. rewrite TPS_form by auto. unfold Us. cong. Qed.
Lemma G0_arr o k : (k < g)%nat -> unifac_lnGammas_subgroups g Q psi' th' U' Z' o k = G0 g Q th psi k.
Proof. intros. rewrite lnG_form by auto. unfold G0. cong. Qed.
Lemma G1_arr o k : (k < g)%nat -> unifac_dlnGammas_subgroups_dT g Q psi' psi1' th' Z' F' o k = G1 g Q th psi psi1 k.
Proof. intros. rewrite dlnG_dT_form by auto. unfold G1. cong. Qed.
Lemma G2_arr o o1 k : (k < g)%nat -> unifac_d2lnGammas_subgroups_dT2 g Q psi' psi1' psi2' th' Z' F' G' o o1 k = G2 g Q th psi psi1 psi2 k.
Proof. intros. rewrite d2lnG_dT_form by auto. unfold G2. cong. Qed.
Lemma G3_arr o k : (k < g)%nat -> unifac_d3lnGammas_subgroups_dT3 g Q psi' psi1' psi2' psi3' th' Z' F' G' H' o k = G3 g Q th psi psi1 psi2 psi3 k.
Proof. intros. rewrite d3lnG_dT_form by auto. unfold G3. cong. Qed.
Context (d : nat -> nat -> R) (d2 : nat -> nat -> nat -> R) (d' : nat -> nat -> R) (d2' : nat -> nat -> nat -> R) (W' : nat -> nat -> R).
Hypothesis Hd : forall m i, (m < g)%nat -> (i < n)%nat -> d' m i = d i m.
Hypothesis Hd2 : forall i j m, (m < g)%nat -> (i < n)%nat -> (j < n)%nat -> d2' i j m = d2 i j m.
Hypothesis HW : forall k i, (k < g)%nat -> (i < n)%nat -> W' k i = Wx g psi (d i) k.
Lemma Wx_arr o k i : (k < g)%nat -> (i < n)%nat -> unifac_ws n g psi' d' o k i = Wx g psi (d i) k.
Proof. intros. rewrite ws_form by auto. unfold Wx. cong. Qed.
Lemma Gx_arr o k i : (k < g)%nat -> (i < n)%nat -> unifac_dlnGammas_subgroups_dxs n g Q W' psi' th' Z' d' o k i = Gx g Q th psi (d i) k.
Proof. intros. rewrite dlnG_dx_form by auto. unfold Gx. cong. Qed.
Lemma GTx_arr o o1 o2 o3 k i : (k < g)%nat -> (i < n)%nat -> unifac_d2lnGammas_subgroups_dTdxs n g Q F' Z' W' psi' psi1' th' d' o o1 o2 o3 k i = GTx g Q th psi psi1 (d i) k.
Proof. intros. rewrite d2lnG_dTdx_form by auto. unfold GTx. cbv zeta. cong. Qed.
Lemma Gxx_arr o o1 i j k : (k < g)%nat -> (i < n)%nat -> (j < n)%nat -> unifac_d2lnGammas_subgroups_dxixjs n g Q Z' W' psi' th' d' d2' o o1 i j k = Gxx g Q th psi (d i) (d j) (d2 i j) k.
Proof. intros. rewrite d2lnG_dxx_form by auto. unfold Gxx. cbv zeta. cong. Qed.
End Arrays.

Section Values.
Context (n g : nat) (version : nat) (Q : nat -> R) (v a b c : nat -> nat -> R) (T : R).
Hypothesis HT : 0 < T.
Hypothesis Hg : groups_ok n g Q v.
Definition psiT t : nat -> nat -> R := fun m k => psi_form version (a m k) (b m k) (c m k) t.
Definition psi1T t : nat -> nat -> R := fun m k => psi1f version (a m k) (b m k) (c m k) t.
Definition psi2T t : nat -> nat -> R := fun m k => psi2f version (a m k) (b m k) (c m k) t.
Definition psi3T t : nat -> nat -> R := fun m k => psi3f version (a m k) (b m k) (c m k) t.
Lemma psi0_val m k : (m < g)%nat -> (k < g)%nat -> UNIFAC_psis g T version a b c m k = psiT T m k.
Proof. intros. unfold UNIFAC_psis. cbv zeta. rewrite psis_form by auto. now apply psi_of. Qed.
Lemma psi1_val m k : (m < g)%nat -> (k < g)%nat -> UNIFAC_dpsis_dT g T version a b c m k = psi1T T m k.
Proof. intros. unfold UNIFAC_dpsis_dT. cbv zeta. rewrite dpsis_form, psi0_val by auto. reflexivity. Qed.
Lemma psi2_val m k : (m < g)%nat -> (k < g)%nat -> UNIFAC_d2psis_dT2 g T version a b c m k = psi2T T m k.
Proof. intros. unfold UNIFAC_d2psis_dT2. cbv zeta. rewrite d2psis_form, psi0_val by auto. reflexivity. Qed.
Lemma psi3_val m k : (m < g)%nat -> (k < g)%nat -> UNIFAC_d3psis_dT3 g T version a b c m k = psi3T T m k.
Proof. intros. unfold UNIFAC_d3psis_dT3. cbv zeta. rewrite d3psis_form, psi0_val by auto. reflexivity. Qed.
Local Notation Th y := (theta n g Q v y).
Local Notation P := (psiT T).
Hint Resolve psi0_val psi1_val psi2_val psi3_val : core.
Section At.
Context (y : nat -> R).
Hypothesis Hy : pos n g Q v P y.
Lemma HyN : Nm n g v y <> 0. Proof. destruct Hy as (A & _). lra. Qed.
Lemma HyS : Sm n g Q v y <> 0. Proof. destruct Hy as (_ & A & _). lra. Qed.
Hint Resolve HyN HyS : core.
Lemma th_val m : (m < g)%nat -> UNIFAC_Thetas n g y Q v m = Th y m. Proof. intros. apply Theta_val; auto. Qed.
Hint Resolve th_val : core.
Lemma U_val m : (m < g)%nat -> UNIFAC_Theta_Psi_sums n g T y version Q v a b c m = Us g (Th y) P m.
Proof. intros. unfold UNIFAC_Theta_Psi_sums. cbv zeta. apply Us_arr; auto. Qed.
Lemma Z_val m : (m < g)%nat -> UNIFAC_Theta_Psi_sum_invs n g T y version Q v a b c m = 1 / Us g (Th y) P m.
Proof. intros. unfold UNIFAC_Theta_Psi_sum_invs. cbv zeta. now rewrite U_val. Qed.
Lemma F_val m : (m < g)%nat -> UNIFAC_Fs n g T y version Q v a b c m = Us g (Th y) (psi1T T) m.
Proof. intros. unfold UNIFAC_Fs. cbv zeta. apply Us_arr; auto. Qed.
Lemma Gs_val m : (m < g)%nat -> UNIFAC_Gs n g T y version Q v a b c m = Us g (Th y) (psi2T T) m.
Proof. intros. unfold UNIFAC_Gs. cbv zeta. apply Us_arr; auto. Qed.
Lemma Hs_val m : (m < g)%nat -> UNIFAC_Hs n g T y version Q v a b c m = Us g (Th y) (psi3T T) m.
Proof. intros. unfold UNIFAC_Hs. cbv zeta. apply Us_arr; auto. Qed.
Lemma d_val m i : (m < g)%nat -> (i < n)%nat -> UNIFAC_dThetas_dxs n g y Q v m i = dtheta n g Q v y i m.
Proof. intros. apply dTheta_val; auto. Qed.
Lemma d2_val i j m : (m < g)%nat -> (i < n)%nat -> (j < n)%nat -> UNIFAC_d2Thetas_dxixjs n g y Q v i j m = d2theta n g Q v y i j m.
Proof. intros. apply d2Theta_val; auto. Qed.
Hint Resolve U_val Z_val F_val Gs_val Hs_val d_val d2_val : core.
Lemma W_val k i : (k < g)%nat -> (i < n)%nat -> UNIFAC_Ws n g T y version Q v a b c k i = Wx g P (dtheta n g Q v y i) k.
Proof. intros. unfold UNIFAC_Ws. cbv zeta. apply Wx_arr with (d := dtheta n g Q v y); auto. Qed.
Hint Resolve W_val : core.
Lemma G0_val k : (k < g)%nat -> UNIFAC_lnGammas_subgroups n g T y version Q v a b c k = G0 g Q (Th y) P k.
Proof. intros. unfold UNIFAC_lnGammas_subgroups. cbv zeta. apply G0_arr; auto. Qed.
Lemma G1_val k : (k < g)%nat -> UNIFAC_dlnGammas_subgroups_dT n g T y version Q v a b c k = G1 g Q (Th y) P (psi1T T) k.
Proof. intros. unfold UNIFAC_dlnGammas_subgroups_dT. cbv zeta. apply G1_arr; auto. Qed.
Lemma G2_val k : (k < g)%nat -> UNIFAC_d2lnGammas_subgroups_dT2 n g T y version Q v a b c k = G2 g Q (Th y) P (psi1T T) (psi2T T) k.
Proof. intros. unfold UNIFAC_d2lnGammas_subgroups_dT2. cbv zeta. apply G2_arr; auto. Qed.
Lemma G3_val k : (k < g)%nat -> UNIFAC_d3lnGammas_subgroups_dT3 n g T y version Q v a b c k = G3 g Q (Th y) P (psi1T T) (psi2T T) (psi3T T) k.
Proof. intros. unfold UNIFAC_d3lnGammas_subgroups_dT3. cbv zeta. apply G3_arr; auto. Qed.
Lemma Gx_val k i : (k < g)%nat -> (i < n)%nat -> UNIFAC_dlnGammas_subgroups_dxs n g T y version Q v a b c k i = Gx g Q (Th y) P (dtheta n g Q v y i) k.
Proof. intros. unfold UNIFAC_dlnGammas_subgroups_dxs. cbv zeta. apply Gx_arr with (d := dtheta n g Q v y); auto. Qed.
Lemma GTx_val k i : (k < g)%nat -> (i < n)%nat -> UNIFAC_d2lnGammas_subgroups_dTdxs n g T y version Q v a b c k i = GTx g Q (Th y) P (psi1T T) (dtheta n g Q v y i) k.
Proof. intros. unfold UNIFAC_d2lnGammas_subgroups_dTdxs. cbv zeta. apply GTx_arr with (d := dtheta n g Q v y); auto. Qed.
Lemma Gxx_val i j k : (k < g)%nat -> (i < n)%nat -> (j < n)%nat -> UNIFAC_d2lnGammas_subgroups_dxixjs n g T y version Q v a b c i j k = Gxx g Q (Th y) P (dtheta n g Q v y i) (dtheta n g Q v y j) (d2theta n g Q v y i j) k.
Proof. intros. unfold UNIFAC_d2lnGammas_subgroups_dxixjs. cbv zeta. apply Gxx_arr with (d := dtheta n g Q v y) (d2 := d2theta n g Q v y); auto. Qed.
End At.
(* pure components *)
Lemma only_lin (f : nat -> R) i : (i < n)%nat -> rsum n (fun j => f j * only i j) = f i.
Proof. intros Hi. rewrite (rsum_single n i); auto. unfold only. rewrite Nat.eqb_refl. ring. intros j _ Hne. unfold only. destruct (Nat.eqb_spec j i); [congruence|ring]. Qed.
Lemma only_pos i : (i < n)%nat -> pos n g Q v P (only i).
Proof.
  intros Hi. apply (near_self n). apply pos_amounts; auto. intros; apply psi_pos. split.
  intros j _. unfold only. destruct (Nat.eqb j i); lra.
  rewrite (rsum_ext n _ (fun j => 1 * only i j)) by (intros; ring). rewrite (only_lin (fun _ => 1)) by auto. lra.
Qed.
Lemma theta_only i m : (i < n)%nat -> Th (only i) m = Q m * v m i / SA g Q v i.
Proof.
  intros Hi. unfold theta, am. rewrite (only_lin (fun j => v m j)) by auto. f_equal. unfold Sm, SA. apply rsum_ext. intros k Hk. unfold am. now rewrite (only_lin (fun j => v k j)).
Qed.
Lemma thp_val i m : (i < n)%nat -> (m < g)%nat -> UNIFAC_Thetas_pure n g Q v i m = Th (only i) m.
Proof.
  intros Hi Hm. rewrite theta_only by auto. unfold UNIFAC_Thetas_pure. cbv zeta. rewrite Thetas_pure_form by auto.
  assert (E : forall k, (k < g)%nat -> UNIFAC_Xs_pure n g v k i = v k i / rsum g (fun m => v m i)).
  { intros k Hk. unfold UNIFAC_Xs_pure. cbv zeta. rewrite Xs_pure_form by auto. unfold UNIFAC_cmp_v_count_inv. rewrite VS_val. unfold Rdiv. ring. }
  rewrite E by auto. rewrite (rsum_ext g (fun j => Q j * UNIFAC_Xs_pure n g v j i) (fun j => Q j * v j i / rsum g (fun m => v m i))) by (intros; rewrite E by auto; unfold Rdiv; ring).
  rewrite rsum_div_r. fold (SA g Q v i). pose proof (coef_S n g Q v Hg i Hi). pose proof (coef_N n g Q v Hg i Hi). field. split; lra.
Qed.
Lemma thp_zero i m : (i < n)%nat -> (m < g)%nat -> v m i = 0 -> UNIFAC_Thetas_pure n g Q v i m = 0.
Proof. intros Hi Hm E. rewrite thp_val, theta_only, E by auto. unfold Rdiv. ring. Qed.
Hint Resolve thp_val : core.
Section Pure.
Context (i : nat) (Hi : (i < n)%nat).
Lemma Up_val k : (k < g)%nat -> UNIFAC_Theta_pure_Psi_sums n g T version Q v a b c i k = Us g (Th (only i)) P k.
Proof. intros. unfold UNIFAC_Theta_pure_Psi_sums. cbv zeta. rewrite TpPS_form by auto. unfold Us. cong. Qed.
Lemma Zp_val k : (k < g)%nat -> UNIFAC_Theta_pure_Psi_sum_invs n g T version Q v a b c i k = 1 / Us g (Th (only i)) P k.
Proof. intros. unfold UNIFAC_Theta_pure_Psi_sum_invs. cbv zeta. now rewrite Up_val. Qed.
Lemma Fp_val k : (k < g)%nat -> UNIFAC_Fs_pure n g T version Q v a b c i k = Us g (Th (only i)) (psi1T T) k.
Proof. intros. unfold UNIFAC_Fs_pure. cbv zeta. rewrite TpPS_form by auto. unfold Us. cong. Qed.
Lemma Gp_val k : (k < g)%nat -> UNIFAC_Gs_pure n g T version Q v a b c i k = Us g (Th (only i)) (psi2T T) k.
Proof. intros. unfold UNIFAC_Gs_pure. cbv zeta. rewrite TpPS_form by auto. unfold Us. cong. Qed.
Lemma Hp_val k : (k < g)%nat -> UNIFAC_Hs_pure n g T version Q v a b c i k = Us g (Th (only i)) (psi3T T) k.
Proof. intros. unfold UNIFAC_Hs_pure. cbv zeta. rewrite TpPS_form by auto. unfold Us. cong. Qed.
Hint Resolve Zp_val Fp_val Gp_val Hp_val : core.
Lemma G0p_val k : (k < g)%nat -> v k i <> 0 -> UNIFAC_lnGammas_subgroups_pure n g T version Q v a b c k i = G0 g Q (Th (only i)) P k.
Proof.
  intros Hk Hv. unfold UNIFAC_lnGammas_subgroups_pure. cbv zeta. rewrite lnGp_form; auto. 2:{ intros; now apply thp_zero. }
  assert (E : forall k, (k < g)%nat -> rsum g (fun m => UNIFAC_Thetas_pure n g Q v i m * UNIFAC_psis g T version a b c m k) = Us g (Th (only i)) P k) by (intros; unfold Us; cong).
  unfold G0. rewrite E by auto. rewrite (rsum_ext g _ (fun m => Th (only i) m * (1 / Us g (Th (only i)) P m) * P k m)). ring.
  intros m Hm. rewrite E, thp_val, psi0_val by auto. unfold Rdiv. ring.
Qed.
Lemma G1p_val k : (k < g)%nat -> v k i <> 0 -> UNIFAC_dlnGammas_subgroups_pure_dT n g T version Q v a b c k i = G1 g Q (Th (only i)) P (psi1T T) k.
Proof. intros. unfold UNIFAC_dlnGammas_subgroups_pure_dT. cbv zeta. rewrite dlnGp_form by auto. apply G1_arr; auto. Qed.
Lemma G2p_val k : (k < g)%nat -> v k i <> 0 -> UNIFAC_d2lnGammas_subgroups_pure_dT2 n g T version Q v a b c k i = G2 g Q (Th (only i)) P (psi1T T) (psi2T T) k.
Proof. intros. unfold UNIFAC_d2lnGammas_subgroups_pure_dT2. cbv zeta. rewrite d2lnGp_form by auto. apply G2_arr; auto. Qed.
Lemma G3p_val k : (k < g)%nat -> v k i <> 0 -> UNIFAC_d3lnGammas_subgroups_pure_dT3 n g T version Q v a b c k i = G3 g Q (Th (only i)) P (psi1T T) (psi2T T) (psi3T T) k.
Proof. intros. unfold UNIFAC_d3lnGammas_subgroups_pure_dT3. cbv zeta. rewrite d3lnGp_form by auto. apply G3_arr; auto. Qed.
End Pure.
(* the residual part of ln gamma *)
Definition LR y i := rsum g (fun k => v k i * (G0 g Q (Th y) P k - G0 g Q (Th (only i)) P k)).
Definition LRT y i := rsum g (fun k => v k i * (G1 g Q (Th y) P (psi1T T) k - G1 g Q (Th (only i)) P (psi1T T) k)).
Definition LRTT y i := rsum g (fun k => v k i * (G2 g Q (Th y) P (psi1T T) (psi2T T) k - G2 g Q (Th (only i)) P (psi1T T) (psi2T T) k)).
Definition LRTTT y i := rsum g (fun k => v k i * (G3 g Q (Th y) P (psi1T T) (psi2T T) (psi3T T) k - G3 g Q (Th (only i)) P (psi1T T) (psi2T T) (psi3T T) k)).
Definition LRx y i j := rsum g (fun k => v k i * Gx g Q (Th y) P (dtheta n g Q v y j) k).
Definition LRTx y i j := rsum g (fun k => v k i * GTx g Q (Th y) P (psi1T T) (dtheta n g Q v y j) k).
Definition LRxx y i j l := rsum g (fun k => v k i * Gxx g Q (Th y) P (dtheta n g Q v y j) (dtheta n g Q v y l) (d2theta n g Q v y j l) k).
Lemma skip0 (f f' : nat -> R) i : (forall k, (k < g)%nat -> v k i <> 0 -> f k = f' k) -> rsum g (fun k => v k i * f k) = rsum g (fun k => v k i * f' k).
Proof. intros H. apply rsum_ext. intros k Hk. destruct (Req_dec (v k i) 0) as [E|E]. rewrite E; ring. now rewrite H. Qed.
Section Res.
Context (y : nat -> R) (i : nat).
Hypothesis Hy : pos n g Q v P y.
Hypothesis Hi : (i < n)%nat.
Lemma LR_val : n <> 1%nat -> UNIFAC_lngammas_r n g T y version Q v a b c i = LR y i.
Proof.
  intros Hn. unfold UNIFAC_lngammas_r. cbv zeta. destruct (Nat.eqb_spec n 1); [congruence|]. cbn [negb]. rewrite lngr_form by auto. apply skip0. intros k Hk Hv. now rewrite G0_val, G0p_val.
Qed.
Lemma LRT_val : UNIFAC_dlngammas_r_dT n g T y version Q v a b c i = LRT y i.
Proof. unfold UNIFAC_dlngammas_r_dT. cbv zeta. rewrite lngr_form by auto. apply skip0. intros k Hk Hv. now rewrite G1_val, G1p_val. Qed.
Lemma LRTT_val : UNIFAC_d2lngammas_r_dT2 n g T y version Q v a b c i = LRTT y i.
Proof. unfold UNIFAC_d2lngammas_r_dT2. cbv zeta. rewrite lngr_form by auto. apply skip0. intros k Hk Hv. now rewrite G2_val, G2p_val. Qed.
Lemma LRTTT_val : UNIFAC_d3lngammas_r_dT3 n g T y version Q v a b c i = LRTTT y i.
Proof. unfold UNIFAC_d3lngammas_r_dT3. cbv zeta. rewrite lngr_form by auto. apply skip0. intros k Hk Hv. now rewrite G3_val, G3p_val. Qed.
Context (j : nat) (Hj : (j < n)%nat).
Lemma LRx_val : UNIFAC_dlngammas_r_dxs n g T y version Q v a b c i j = LRx y i j.
Proof. unfold UNIFAC_dlngammas_r_dxs. ents. apply skip0. intros k Hk Hv. now rewrite Gx_val. Qed.
Lemma LRTx_val : UNIFAC_d2lngammas_r_dTdxs n g T y version Q v a b c i j = LRTx y i j.
Proof. unfold UNIFAC_d2lngammas_r_dTdxs. cbv zeta. rewrite dlngr_form by auto. apply skip0. intros k Hk Hv. now rewrite GTx_val. Qed.
Lemma LRxx_val l : (l < n)%nat -> UNIFAC_d2lngammas_r_dxixjs n g T y version Q v a b c i j l = LRxx y i j l.
Proof. intros. unfold UNIFAC_d2lngammas_r_dxixjs. cbv zeta. rewrite d2lngr_form by auto. apply skip0. intros k Hk Hv. now rewrite Gxx_val. Qed.
End Res.
End Values.
