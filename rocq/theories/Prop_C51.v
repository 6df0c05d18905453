(* C51: the UNIFAC activity coefficient model: its published equations, its derivatives in temperature and composition, and its thermodynamic consistency. *)
From Coq Require Import Reals Lra Lia Arith Bool.
From Coquelicot Require Import Coquelicot.
From Verif Require Import Base BaseFacts Spec_mix Spec_activity Spec_gradient Spec_unifac MixDeriv NrtlFacts ActFacts GradFacts Gen_unifac UnifacForms UnifacFacts UnifacModel UnifacComb UnifacDeriv.
Open Scope R_scope.

Section C51.
Context (n g version : nat) (r q Q : nat -> R) (v a b c : nat -> nat -> R).
(* the model with its groups and interaction coefficients at temperature t and composition y *)
Local Notation code_GE t y := (UNIFAC_GE n g t y version r q Q v a b c).
Local Notation code_gammas t y := (UNIFAC_gammas n g t y version r q Q v a b c).
Local Notation psi t := (fun m k => psi_form version (a m k) (b m k) (c m k) t).
Local Notation LL := (L n g version r q Q v a b c).
Local Notation GEL := (GEc n g version r q Q v a b c).
Local Notation OK := (ok n g version r q Q v a b c).

(* interaction terms and their first three temperature derivatives *)
Theorem C51_psis T m k : 0 < T -> (m < g)%nat -> (k < g)%nat ->
  UNIFAC_psis g T version a b c m k = psi_form version (a m k) (b m k) (c m k) T /\
  is_derive (fun t => UNIFAC_psis g t version a b c m k) T (UNIFAC_dpsis_dT g T version a b c m k) /\
  is_derive (fun t => UNIFAC_dpsis_dT g t version a b c m k) T (UNIFAC_d2psis_dT2 g T version a b c m k) /\
  is_derive (fun t => UNIFAC_d2psis_dT2 g t version a b c m k) T (UNIFAC_d3psis_dT3 g T version a b c m k).
Proof.
  intros HT Hm Hk. rewrite psi1_val, psi2_val, psi3_val by auto. split; [now rewrite psi0_val|]. splits.
  - apply (is_derive_ext_loc (fun t => psiT version a b c t m k)). apply (open_loc 0); auto. intros u Hu. symmetry. now apply psi0_val. now apply D_psi.
  - apply (is_derive_ext_loc (fun t => psi1T version a b c t m k)). apply (open_loc 0); auto. intros u Hu. symmetry. now apply psi1_val. now apply D_psi1.
  - apply (is_derive_ext_loc (fun t => psi2T version a b c t m k)). apply (open_loc 0); auto. intros u Hu. symmetry. now apply psi2_val. now apply D_psi2.
Qed.

Hypothesis Hg : groups_ok n g Q v.
Hypothesis Hs : sizes_ok n version r q.

Lemma lc30 y i : version = 3%nat -> LC n version r q y i = 0. Proof. intros E. unfold LC. now rewrite (proj2 (Nat.eqb_eq _ _) E). Qed.
Lemma lc31 y i j : version = 3%nat -> LCx n version r q y i j = 0. Proof. intros E. unfold LCx. now rewrite (proj2 (Nat.eqb_eq _ _) E). Qed.
Lemma lc32 y i j k : version = 3%nat -> LCxx n version r q y i j k = 0. Proof. intros E. unfold LCxx. now rewrite (proj2 (Nat.eqb_eq _ _) E). Qed.
Lemma okpos T y : OK T y -> pos n g Q v (psiT version a b c T) y. Proof. intros [H _]. exact H. Qed.
Lemma gam_val T y i : 0 < T -> OK T y -> n <> 1%nat -> (i < n)%nat -> code_gammas T y i = exp (LL T y i).
Proof.
  intros HT [Hy Hc] Hn Hi. unfold UNIFAC_gammas, L. cbv zeta. destruct (Nat.eqb_spec version 3) as [E|E].
  - rewrite (LR_val n g version Q v a b c T HT Hg) by auto. now rewrite lc30, Rplus_0_r.
  - rewrite gammas_form by auto. rewrite (LR_val n g version Q v a b c T HT Hg), LC_val by auto. reflexivity.
Qed.
Lemma GE_val T y : 0 < T -> OK T y -> n <> 1%nat -> code_GE T y = GEL T y.
Proof.
  intros HT [Hy Hc] Hn. unfold UNIFAC_GE, GEc, L. cbv zeta. destruct (Nat.eqb_spec n 1); [congruence|]. destruct (Nat.eqb_spec version 3) as [E|E].
  - rewrite GE_sc_form. rewrite Rmult_comm. f_equal. apply rsum_ext. intros i Hi. rewrite (LR_val n g version Q v a b c T HT Hg) by auto. rewrite lc30 by auto. ring.
  - rewrite GE_form. rewrite Rmult_comm. f_equal. apply rsum_ext. intros i Hi. rewrite (LR_val n g version Q v a b c T HT Hg), LC_val by auto. ring.
Qed.
Lemma sf_theta T y m : pos n g Q v (psiT version a b c T) y -> (m < g)%nat -> surface_fraction n g Q v y m = theta n g Q v y m.
Proof.
  intros (HN & HS & _) Hm. unfold surface_fraction, group_fraction, group_amount, theta, am.
  change (rsum g (fun m => rsum n (fun j => v m j * y j))) with (Nm n g v y).
  replace (rsum g (fun l => Q l * (rsum n (fun j => v l j * y j) / Nm n g v y))) with (Sm n g Q v y / Nm n g v y). field. lra.
  unfold Sm, am. rewrite <- rsum_div_r. apply rsum_ext. intros; unfold Rdiv; ring.
Qed.
Lemma lnG_spec T y k : pos n g Q v (psiT version a b c T) y -> (k < g)%nat -> ln_Gamma g Q (surface_fraction n g Q v y) (psi T) k = G0 g Q (theta n g Q v y) (psiT version a b c T) k.
Proof.
  intros Hy Hk.
  assert (E : forall k, (k < g)%nat -> rsum g (fun m => surface_fraction n g Q v y m * psi T m k) = Us g (theta n g Q v y) (psiT version a b c T) k) by (intros; apply rsum_ext; intros; rewrite (sf_theta T) by auto; reflexivity).
  unfold ln_Gamma, G0. rewrite E by auto.
  rewrite (rsum_ext g _ (fun m => theta n g Q v y m * (1 / Us g (theta n g Q v y) (psiT version a b c T) m) * psiT version a b c T k m)). ring.
  intros m Hm. rewrite E, (sf_theta T) by auto. unfold psiT, Rdiv. ring.
Qed.
Lemma L_spec T y i : OK T y -> (i < n)%nat -> ln_gamma n g Q v version r q (psi T) y i = LL T y i.
Proof.
  intros [Hy Hc] Hi. unfold ln_gamma, L. rewrite LC_spec, Rplus_comm by auto. f_equal. unfold ln_gamma_residual, LR. apply rsum_ext. intros k Hk. rewrite !lnG_spec; auto. apply only_pos; auto.
Qed.

(* the activity coefficients and the excess Gibbs energy are those of the published model *)
Theorem C51_gammas T x i : (2 <= n)%nat -> 0 < T -> amounts n x -> (i < n)%nat -> code_gammas T x i = exp (ln_gamma n g Q v version r q (psi T) x i).
Proof. intros Hn HT Hx Hi. pose proof (ok_at n g version r q Q v a b c Hg Hs T x Hx). rewrite gam_val, L_spec by (auto; lia). reflexivity. Qed.
Theorem C51_GE T x : (2 <= n)%nat -> 0 < T -> amounts n x -> code_GE T x = excess_gibbs n g Q v version r q a b c T x.
Proof.
  intros Hn HT Hx. pose proof (ok_at n g version r q Q v a b c Hg Hs T x Hx). rewrite GE_val by (auto; lia). unfold GEc, excess_gibbs. f_equal. apply rsum_ext. intros i Hi. now rewrite L_spec.
Qed.
(* activity coefficients computed from the arguments exported by the object *)
Theorem C51_gammas_from_args T x i o : (2 <= n)%nat -> 0 < T -> amounts n x -> (i < n)%nat ->
  unifac_gammas_from_args x n g v r q Q (UNIFAC_psis g T version a b c) (UNIFAC_lnGammas_subgroups_pure n g T version Q v a b c) version (UNIFAC_rs_34 version r) o i = code_gammas T x i.
Proof.
  intros Hn HT Hx Hi. pose proof (ok_at n g version r q Q v a b c Hg Hs T x Hx) as [Hy Hc].
  unfold unifac_gammas_from_args, UNIFAC_gammas. cbv zeta.
  assert (EX : unifac_Xs n g x v (fun _ => 0) = (UNIFAC_Xs n g x v, UNIFAC_Xs_sum_inv n g x v)) by (unfold UNIFAC_Xs, UNIFAC_Xs_sum_inv; cbv zeta; destruct (unifac_Xs n g x v (fun _ => 0)); reflexivity). rewrite EX.
  assert (ET : unifac_Thetas g (UNIFAC_Xs n g x v) Q (fun _ => 0) = (UNIFAC_Thetas n g x Q v, UNIFAC_Thetas_sum_inv n g x Q v)) by (unfold UNIFAC_Thetas, UNIFAC_Thetas_sum_inv; cbv zeta; destruct (unifac_Thetas g (UNIFAC_Xs n g x v) Q (fun _ => 0)); reflexivity). rewrite ET.
  change (unifac_Theta_Psi_sums g (UNIFAC_Thetas n g x Q v) (UNIFAC_psis g T version a b c) (fun _ => 0)) with (UNIFAC_Theta_Psi_sums n g T x version Q v a b c).
  set (Z := loop g _ (fun _ => 0)).
  assert (EG : forall k, (k < g)%nat -> unifac_lnGammas_subgroups g Q (UNIFAC_psis g T version a b c) (UNIFAC_Thetas n g x Q v) (UNIFAC_Theta_Psi_sums n g T x version Q v a b c) Z (fun _ => 0) k = UNIFAC_lnGammas_subgroups n g T x version Q v a b c k).
  { intros k Hk. rewrite (G0_val n g version Q v a b c T HT x Hy) by auto. apply G0_arr; auto; intros.
    - now apply th_val with (version := version) (a := a) (b := b) (c := c) (T := T). - now apply psi0_val. - now apply U_val. - unfold Z. rewrite (loop_upd_lt g (fun i => 1 / UNIFAC_Theta_Psi_sums n g T x version Q v a b c i)) by auto. rewrite U_val; auto. }
  set (GG := unifac_lnGammas_subgroups g Q (UNIFAC_psis g T version a b c) (UNIFAC_Thetas n g x Q v) (UNIFAC_Theta_Psi_sums n g T x version Q v a b c) Z (fun _ => 0)) in *.
  assert (ER : unifac_lngammas_r n g (UNIFAC_lnGammas_subgroups_pure n g T version Q v a b c) GG v (fun _ => 0) i = UNIFAC_lngammas_r n g T x version Q v a b c i).
  { unfold UNIFAC_lngammas_r. cbv zeta. destruct (Nat.eqb_spec n 1); [lia|]. cbn [negb]. rewrite !lngr_form by auto. apply rsum_ext. intros k Hk. now rewrite EG. }
  destruct (Nat.eqb_spec version 3) as [E|E].
  - rewrite (loop_upd_lt n (fun i => exp (unifac_lngammas_r n g (UNIFAC_lnGammas_subgroups_pure n g T version Q v a b c) GG v (fun _ => 0) i))) by auto. now rewrite ER.
  - assert (EV : forall w, unifac_Vis w x n (fun _ => 0) = (UNIFAC_Vis n x w, UNIFAC_rx_sum_inv n x w)) by (intros w; unfold UNIFAC_Vis, UNIFAC_rx_sum_inv; cbv zeta; destruct (unifac_Vis w x n (fun _ => 0)); reflexivity).
    rewrite !EV. rewrite gammas_form by auto. rewrite (loop_upd_lt n (fun i => exp (unifac_lngammas_r n g (UNIFAC_lnGammas_subgroups_pure n g T version Q v a b c) GG v (fun _ => 0) i + _))) by auto. rewrite ER. do 2 f_equal.
    unfold UNIFAC_lngammas_c. cbv zeta. destruct (Nat.eqb_spec n 1); [lia|]. cbn [negb]. destruct (Nat.eqb_spec version 3); [congruence|]. rewrite orb_false_r. destruct (_ || _); reflexivity.
Qed.

(* temperature derivatives of the excess Gibbs energy *)
Lemma GEd_val T x : 0 < T -> OK T x -> n <> 1%nat ->
  UNIFAC_dGE_dT n g T x version r q Q v a b c = Rgas * T * rsum n (fun i => x i * LRT n g version Q v a b c T x i) + Rgas * rsum n (fun i => x i * LL T x i).
Proof.
  intros HT Ho Hn. unfold UNIFAC_dGE_dT. cbv zeta. rewrite dGEdT_form, GE_val by auto. rewrite (rsum_ext n _ (fun i => x i * LRT n g version Q v a b c T x i)) by (intros; rewrite (LRT_val n g version Q v a b c T HT Hg) by (auto; apply okpos; auto); reflexivity).
  unfold GEc. field. lra.
Qed.
Lemma GEd2_val T x : 0 < T -> OK T x -> UNIFAC_d2GE_dT2 n g T x version Q v a b c = Rgas * T * rsum n (fun i => x i * LRTT n g version Q v a b c T x i) + 2 * Rgas * rsum n (fun i => x i * LRT n g version Q v a b c T x i).
Proof.
  intros HT Ho. unfold UNIFAC_d2GE_dT2. cbv zeta. rewrite d2GEdT_form.
  rewrite (rsum_ext n (fun i => x i * UNIFAC_d2lngammas_r_dT2 n g T x version Q v a b c i) (fun i => x i * LRTT n g version Q v a b c T x i)) by (intros; rewrite (LRTT_val n g version Q v a b c T HT Hg) by (auto; apply okpos; auto); reflexivity).
  rewrite (rsum_ext n (fun i => x i * UNIFAC_dlngammas_r_dT n g T x version Q v a b c i) (fun i => x i * LRT n g version Q v a b c T x i)) by (intros; rewrite (LRT_val n g version Q v a b c T HT Hg) by (auto; apply okpos; auto); reflexivity). ring.
Qed.
Lemma GEd3_val T x : 0 < T -> OK T x -> UNIFAC_d3GE_dT3 n g T x version Q v a b c = Rgas * T * rsum n (fun i => x i * LRTTT n g version Q v a b c T x i) + 3 * Rgas * rsum n (fun i => x i * LRTT n g version Q v a b c T x i).
Proof.
  intros HT Ho. unfold UNIFAC_d3GE_dT3. cbv zeta. rewrite d3GEdT_form.
  rewrite (rsum_ext n (fun i => x i * UNIFAC_d2lngammas_r_dT2 n g T x version Q v a b c i) (fun i => x i * LRTT n g version Q v a b c T x i)) by (intros; rewrite (LRTT_val n g version Q v a b c T HT Hg) by (auto; apply okpos; auto); reflexivity).
  rewrite (rsum_ext n (fun i => x i * UNIFAC_d3lngammas_r_dT3 n g T x version Q v a b c i) (fun i => x i * LRTTT n g version Q v a b c T x i)) by (intros; rewrite (LRTTT_val n g version Q v a b c T HT Hg) by (auto; apply okpos; auto); reflexivity). ring.
Qed.
Theorem C51_dGE_dT T x : (2 <= n)%nat -> 0 < T -> amounts n x ->
  is_derive (fun t => code_GE t x) T (UNIFAC_dGE_dT n g T x version r q Q v a b c) /\
  is_derive (fun t => UNIFAC_dGE_dT n g t x version r q Q v a b c) T (UNIFAC_d2GE_dT2 n g T x version Q v a b c) /\
  is_derive (fun t => UNIFAC_d2GE_dT2 n g t x version Q v a b c) T (UNIFAC_d3GE_dT3 n g T x version Q v a b c).
Proof.
  intros Hn HT Hx. pose proof (fun t => ok_at n g version r q Q v a b c Hg Hs t x Hx) as Ho. pose proof (okpos T x (Ho T)) as Hp.
  rewrite GEd_val, GEd2_val, GEd3_val by (auto; lia). splits.
  - eapply is_derive_ext_loc. 2:exact (GE_T n g version r q Q v a b c Hg T x HT Hp). apply (open_loc 0); auto. intros u Hu. symmetry. apply GE_val; auto; lia.
  - eapply is_derive_ext_loc. 2:exact (GET_T n g version r q Q v a b c Hg T x HT Hp). apply (open_loc 0); auto. intros u Hu. symmetry. apply GEd_val; auto; lia.
  - eapply is_derive_ext_loc. 2:exact (GETT_T n g version Q v a b c Hg T x HT Hp). apply (open_loc 0); auto. intros u Hu. symmetry. apply GEd2_val; auto.
Qed.
(* composition derivatives of the excess Gibbs energy *)
Lemma GEx_val T y j : 0 < T -> OK T y -> n <> 1%nat -> (j < n)%nat -> UNIFAC_dGE_dxs n g T y version r q Q v a b c j = GEx n g version r q Q v a b c T y j.
Proof.
  intros HT Ho Hn Hj. pose proof Ho as [Hy Hc]. unfold UNIFAC_dGE_dxs, GEx, L. cbv zeta. rewrite (Rmult_comm (Rgas * T)). destruct (Nat.eqb_spec version 3) as [E|E].
  - rewrite dGEdx_sc_form by auto. f_equal. rewrite (LR_val n g version Q v a b c T HT Hg) by auto.
    rewrite lc30, Rplus_0_r by auto. f_equal. apply rsum_ext. intros i Hi. rewrite (LRx_val n g version Q v a b c T HT) by auto. unfold Lx. rewrite lc31 by auto. ring.
  - rewrite dGEdx_form by auto. f_equal. rewrite (LR_val n g version Q v a b c T HT Hg), LC_val by auto. f_equal. apply rsum_ext. intros i Hi. rewrite (LRx_val n g version Q v a b c T HT), LCx_val by auto. unfold Lx. ring.
Qed.
Lemma GExx_val T y i j : 0 < T -> OK T y -> n <> 1%nat -> (i < n)%nat -> (j < n)%nat -> UNIFAC_d2GE_dxixjs n g T y version r q Q v a b c i j = GExx n g version r q Q v a b c T y i j.
Proof.
  intros HT Ho Hn Hi Hj. pose proof Ho as [Hy Hc]. unfold UNIFAC_d2GE_dxixjs, GExx. cbv zeta. rewrite (Rmult_comm (Rgas * T)). destruct (Nat.eqb_spec n 1); [congruence|]. cbn [negb]. destruct (Nat.eqb_spec version 3) as [E|E].
  - rewrite d2GEdxx_sc_form by auto. f_equal. rewrite !(LRx_val n g version Q v a b c T HT) by auto. rewrite (rsum_ext n _ (fun k => y k * Lxx n g version r q Q v a b c T y k i j)).
    unfold Lx. rewrite !lc31 by auto. ring. intros k Hk. rewrite (LRxx_val n g version Q v a b c T HT) by auto. unfold Lxx. rewrite lc32 by auto. ring.
  - rewrite d2GEdxx_form by auto. f_equal. rewrite !(LRx_val n g version Q v a b c T HT), !LCx_val by auto. rewrite (rsum_ext n _ (fun k => y k * Lxx n g version r q Q v a b c T y k i j)).
    unfold Lx. ring. intros k Hk. rewrite (LRxx_val n g version Q v a b c T HT), LCxx_val by auto. unfold Lxx. ring.
Qed.
Theorem C51_dGE_dxs T x i : (2 <= n)%nat -> 0 < T -> amounts n x -> (i < n)%nat -> partial (fun y => code_GE T y) x i (UNIFAC_dGE_dxs n g T x version r q Q v a b c i).
Proof.
  intros Hn HT Hx Hi. pose proof (ok_near n g version r q Q v a b c Hg Hs T x Hx) as Ho. pose proof (near_self _ _ _ Ho) as H0. rewrite GEx_val by (auto; lia).
  apply (partial_near n _ (GEL T)); auto. revert Ho. apply near_impl. intros y Hy. apply GE_val; auto; lia. now apply GE_partial.
Qed.
Theorem C51_d2GE_dxixjs T x i j : (2 <= n)%nat -> 0 < T -> amounts n x -> (i < n)%nat -> (j < n)%nat -> second_partial n (fun y => code_GE T y) x i j (UNIFAC_d2GE_dxixjs n g T x version r q Q v a b c i j).
Proof.
  intros Hn HT Hx Hi Hj. pose proof (ok_near n g version r q Q v a b c Hg Hs T x Hx) as Ho. pose proof (near_self _ _ _ Ho) as H0. rewrite GExx_val by (auto; lia).
  exists (fun y => GEx n g version r q Q v a b c T y i). split; [|now apply GEx_partial].
  apply (near_impl n x (fun y => near n y (OK T))). 2:now apply near_near. intros y Hy. apply (partial_near n _ (GEL T)); auto. revert Hy. apply near_impl. intros z Hz. apply GE_val; auto; lia. apply GE_partial; auto. exact (near_self _ _ _ Hy).
Qed.
Theorem C51_d2GE_dTdxs T x i : (2 <= n)%nat -> 0 < T -> amounts n x -> (i < n)%nat -> mixed_partial (fun t y => code_GE t y) T x i (UNIFAC_d2GE_dTdxs n g T x version r q Q v a b c i).
Proof.
  intros Hn HT Hx Hi. exists (fun t => GEx n g version r q Q v a b c t x i). pose proof (fun t => ok_at n g version r q Q v a b c Hg Hs t x Hx) as Ho. split.
  - apply (open_loc 0); auto. intros u Hu. rewrite <- GEx_val by (auto; lia). now apply C51_dGE_dxs.
  - pose proof (Ho T) as [Hy Hc]. eapply is_derive_eq. apply (GEx_T n g version r q Q v a b c Hg T x HT Hy i Hi).
    unfold UNIFAC_d2GE_dTdxs. cbv zeta. destruct (Nat.eqb_spec version 3) as [E|E].
    + rewrite d2GEdTdx_sc_form by auto. rewrite (LR_val n g version Q v a b c T HT Hg), (LRT_val n g version Q v a b c T HT Hg) by (auto; lia).
      rewrite (rsum_ext n (fun j => x j * (UNIFAC_dlngammas_r_dxs n g T x version Q v a b c j i + _)) (fun j => x j * LRx n g version Q v a b c T x j i + T * (x j * LRTx n g version Q v a b c T x j i))).
      2:{ intros j Hj. rewrite (LRx_val n g version Q v a b c T HT), (LRTx_val n g version Q v a b c T HT) by auto. ring. }
      rewrite rsum_plus, rsum_scal_l. unfold L. rewrite lc30 by auto. rewrite (rsum_ext n (fun i0 => x i0 * Lx n g version r q Q v a b c T x i0 i) (fun j => x j * LRx n g version Q v a b c T x j i)). ring.
      intros j Hj. unfold Lx. rewrite lc31 by auto. ring.
    + rewrite d2GEdTdx_form by auto. rewrite (LR_val n g version Q v a b c T HT Hg), (LRT_val n g version Q v a b c T HT Hg), LC_val by (auto; lia).
      rewrite (rsum_ext n (fun j => x j * (UNIFAC_dlngammas_c_dxs n x version r q j i + _) + _) (fun j => x j * Lx n g version r q Q v a b c T x j i + T * (x j * LRTx n g version Q v a b c T x j i))).
      2:{ intros j Hj. rewrite (LRx_val n g version Q v a b c T HT), (LRTx_val n g version Q v a b c T HT), LCx_val by auto. unfold Lx. ring. }
      rewrite rsum_plus, rsum_scal_l. unfold L. ring.
Qed.
(* derivatives of the activity coefficients *)
Lemma Lx_val T y i j : 0 < T -> OK T y -> (i < n)%nat -> (j < n)%nat -> Lx n g version r q Q v a b c T y i j = UNIFAC_dlngammas_r_dxs n g T y version Q v a b c i j + (if (version =? 3)%nat then 0 else UNIFAC_dlngammas_c_dxs n y version r q i j).
Proof.
  intros HT [Hy Hc] Hi Hj. rewrite (LRx_val n g version Q v a b c T HT) by auto. unfold Lx. f_equal. destruct (Nat.eqb_spec version 3) as [E|E]. now apply lc31. now rewrite LCx_val.
Qed.
Lemma dgx_val T y i j : 0 < T -> OK T y -> n <> 1%nat -> (i < n)%nat -> (j < n)%nat -> UNIFAC_dgammas_dxs n g T y version r q Q v a b c i j = Lx n g version r q Q v a b c T y i j * exp (LL T y i).
Proof.
  intros HT Ho Hn Hi Hj. rewrite Lx_val by auto. unfold UNIFAC_dgammas_dxs. cbv zeta. destruct (version =? 3)%nat.
  rewrite dgdx_sc_form, gam_val by auto. ring. rewrite dgdx_form, gam_val by auto. ring.
Qed.
Theorem C51_dgammas_dT T x i : (2 <= n)%nat -> 0 < T -> amounts n x -> (i < n)%nat -> is_derive (fun t => code_gammas t x i) T (UNIFAC_dgammas_dT n g T x version r q Q v a b c i).
Proof.
  intros Hn HT Hx Hi. pose proof (fun t => ok_at n g version r q Q v a b c Hg Hs t x Hx) as Ho. pose proof (okpos T x (Ho T)) as Hp.
  unfold UNIFAC_dgammas_dT. cbv zeta. rewrite (LRT_val n g version Q v a b c T HT Hg), gam_val by (auto; lia).
  apply (is_derive_ext_loc (fun t => exp (LL t x i))). apply (open_loc 0); auto. intros u Hu. symmetry. apply gam_val; auto; lia.
  pose proof (L_T n g version r q Q v a b c Hg T x HT Hp i Hi) as D. asf ff D. change (LL T x i) with (ff T). change (is_derive (fun t => exp (ff t)) T (LRT n g version Q v a b c T x i * exp (ff T))). clearbody ff. ad. ring.
Qed.
Theorem C51_dgammas_dxs T x i j : (2 <= n)%nat -> 0 < T -> amounts n x -> (i < n)%nat -> (j < n)%nat -> partial (fun y => code_gammas T y i) x j (UNIFAC_dgammas_dxs n g T x version r q Q v a b c i j).
Proof.
  intros Hn HT Hx Hi Hj. pose proof (ok_near n g version r q Q v a b c Hg Hs T x Hx) as Ho. pose proof (near_self _ _ _ Ho) as H0. rewrite dgx_val by (auto; lia).
  apply (partial_near n _ (fun y => exp (LL T y i))); auto. revert Ho. apply near_impl. intros y Hy. apply gam_val; auto; lia.
  eapply partial_val. apply partial_exp. apply L_partial; auto. cbv beta. ring.
Qed.
Theorem C51_dgammas_dns T x i j : (2 <= n)%nat -> 0 < T -> mole_fractions n x -> (i < n)%nat -> (j < n)%nat -> partial (intensive n (fun y => code_gammas T y i)) x j (UNIFAC_dgammas_dns n g T x version r q Q v a b c i j).
Proof.
  intros Hn HT Hm Hi Hj. assert (Hx : amounts n x) by (destruct Hm as [A B]; split; [auto|lra]).
  pose proof (ok_near n g version r q Q v a b c Hg Hs T x Hx) as Ho. pose proof (near_self _ _ _ Ho) as H0.
  unfold UNIFAC_dgammas_dns. cbv zeta. rewrite dgdn_form, dgx_val by (auto; lia). rewrite (rsum_ext n _ (fun k => x k * Lx n g version r q Q v a b c T x i k * exp (LL T x i))) by (intros; rewrite dgx_val by (auto; lia); ring). rewrite rsum_scal_r.
  apply (partial_near n _ (fun ns => exp (LL T (fractions n ns) i))); auto.
  { pose proof (near_frac n x _ (proj2 Hm) Ho) as N. revert N. apply near_impl. intros y [_ Hy]. unfold intensive. apply gam_val; auto; lia. }
  pose proof (L_curve n g version r q Q v a b c Hs T x _ _ _ i H0 (frac_curve n x j (proj2 Hm) Hj) Hi) as D.
  unfold partial. asf ff D. assert (E : LL T x i = ff (x j)). { unfold ff. rewrite upd_self. f_equal. symmetry. change (fractions n x = x). now apply fractions_of_fractions. }
  rewrite E. change (is_derive (fun t => exp (ff t)) (x j) (Lx n g version r q Q v a b c T x i j * exp (ff (x j)) - rsum n (fun k => x k * Lx n g version r q Q v a b c T x i k) * exp (ff (x j)))). clear E. clearbody ff.
  eapply is_derive_eq. ad. reflexivity.
  rewrite (rsum_ext n (fun j0 => Lx n g version r q Q v a b c T x i j0 * _) (fun k => dl j k * Lx n g version r q Q v a b c T x i k - x k * Lx n g version r q Q v a b c T x i k)) by (intros; ring). rewrite rsum_minus, rsum_dl by auto. ring.
Qed.
(* derivatives of the combinatorial part, and temperature derivatives of the residual part *)
Theorem C51_combinatorial x i j k l : (2 <= n)%nat -> version <> 3%nat -> amounts n x -> (i < n)%nat -> (j < n)%nat -> (k < n)%nat -> (l < n)%nat ->
  UNIFAC_lngammas_c n x version r q i = ln_gamma_combinatorial n version r q x i /\
  partial (fun y => UNIFAC_lngammas_c n y version r q i) x j (UNIFAC_dlngammas_c_dxs n x version r q i j) /\
  partial (fun y => UNIFAC_dlngammas_c_dxs n y version r q i j) x k (UNIFAC_d2lngammas_c_dxixjs n x version r q i j k) /\
  partial (fun y => UNIFAC_d2lngammas_c_dxixjs n y version r q i j k) x l (UNIFAC_d3lngammas_c_dxixjxks n x version r q i j k l).
Proof.
  intros Hn Hv Hx Hi Hj Hk Hl. pose proof (okc_near n version r q Hs x Hx) as Ho. pose proof (near_self _ _ _ Ho) as H0.
  rewrite LCx_val, LCxx_val, LCxxx_val, LC_val by (auto; lia). split; [now rewrite LC_spec|]. splits.
  - apply (partial_near n _ (fun y => LC n version r q y i)); auto. revert Ho. apply near_impl. intros y Hy. apply LC_val; auto; lia. now apply LC_partial.
  - apply (partial_near n _ (fun y => LCx n version r q y i j)); auto. revert Ho. apply near_impl. intros y Hy. now apply LCx_val. now apply LCx_partial.
  - apply (partial_near n _ (fun y => LCxx n version r q y i j k)); auto. revert Ho. apply near_impl. intros y Hy. now apply LCxx_val. now apply LCxx_partial.
Qed.
Theorem C51_residual T x i : (2 <= n)%nat -> 0 < T -> amounts n x -> (i < n)%nat ->
  UNIFAC_lngammas_r n g T x version Q v a b c i = ln_gamma_residual n g Q v (psi T) x i /\
  is_derive (fun t => UNIFAC_lngammas_r n g t x version Q v a b c i) T (UNIFAC_dlngammas_r_dT n g T x version Q v a b c i) /\
  is_derive (fun t => UNIFAC_dlngammas_r_dT n g t x version Q v a b c i) T (UNIFAC_d2lngammas_r_dT2 n g T x version Q v a b c i) /\
  is_derive (fun t => UNIFAC_d2lngammas_r_dT2 n g t x version Q v a b c i) T (UNIFAC_d3lngammas_r_dT3 n g T x version Q v a b c i).
Proof.
  intros Hn HT Hx Hi. pose proof (fun t => okpos t x (ok_at n g version r q Q v a b c Hg Hs t x Hx)) as Hp.
  rewrite (LRT_val n g version Q v a b c T HT Hg), (LRTT_val n g version Q v a b c T HT Hg), (LRTTT_val n g version Q v a b c T HT Hg), (LR_val n g version Q v a b c T HT Hg) by (auto; lia). split.
  - unfold ln_gamma_residual, LR. apply rsum_ext. intros k Hk. rewrite !lnG_spec; auto. apply only_pos; auto.
  - splits.
    + eapply is_derive_ext_loc. 2:exact (lr_T n g version Q v a b c Hg T x i HT (Hp T) Hi). apply (open_loc 0); auto. intros u Hu. symmetry. apply LR_val; auto; lia.
    + eapply is_derive_ext_loc. 2:exact (lrT_T n g version Q v a b c Hg T x i HT (Hp T) Hi). apply (open_loc 0); auto. intros u Hu. symmetry. apply LRT_val; auto; lia.
    + eapply is_derive_ext_loc. 2:exact (lrTT_T n g version Q v a b c Hg T x i HT (Hp T) Hi). apply (open_loc 0); auto. intros u Hu. symmetry. apply LRTT_val; auto; lia.
Qed.
Theorem C51_residual_dxs T x i j k : (2 <= n)%nat -> 0 < T -> amounts n x -> (i < n)%nat -> (j < n)%nat -> (k < n)%nat ->
  partial (fun y => UNIFAC_lngammas_r n g T y version Q v a b c i) x j (UNIFAC_dlngammas_r_dxs n g T x version Q v a b c i j) /\
  partial (fun y => UNIFAC_dlngammas_r_dxs n g T y version Q v a b c i j) x k (UNIFAC_d2lngammas_r_dxixjs n g T x version Q v a b c i j k) /\
  is_derive (fun t => UNIFAC_dlngammas_r_dxs n g t x version Q v a b c i j) T (UNIFAC_d2lngammas_r_dTdxs n g T x version Q v a b c i j).
Proof.
  intros Hn HT Hx Hi Hj Hk. assert (Ho : near n x (pos n g Q v (psiT version a b c T))) by (apply pos_amounts; auto; intros; apply psi_pos). pose proof (near_self _ _ _ Ho) as H0.
  rewrite (LRx_val n g version Q v a b c T HT), (LRxx_val n g version Q v a b c T HT), (LRTx_val n g version Q v a b c T HT) by auto. splits.
  - apply (partial_near n _ (fun y => LR n g version Q v a b c T y i)); auto. revert Ho. apply near_impl. intros y Hy. apply LR_val; auto; lia. now apply lr_partial.
  - apply (partial_near n _ (fun y => LRx n g version Q v a b c T y i j)); auto. revert Ho. apply near_impl. intros y Hy. now apply LRx_val. now apply lrx_partial.
  - eapply is_derive_ext_loc. 2:exact (lrx_T n g version Q v a b c T x i HT H0 j Hj). apply (open_loc 0); auto. intros u Hu. symmetry. apply LRx_val; auto. apply (okpos u x). now apply ok_at.
Qed.
(* consistency: ln gamma is the partial molar excess Gibbs energy over R T, and obeys the Gibbs-Duhem relation *)
Theorem C51_partial_molar T x i : (2 <= n)%nat -> 0 < T -> mole_fractions n x -> (i < n)%nat -> is_ln_gamma n (fun y => code_GE T y) (Rgas * T) x i (ln (code_gammas T x i)).
Proof.
  intros Hn HT Hm Hi. assert (Hx : amounts n x) by (destruct Hm as [A B]; split; [auto|lra]).
  pose proof (ok_near n g version r q Q v a b c Hg Hs T x Hx) as Ho. pose proof (near_self _ _ _ Ho) as H0.
  rewrite gam_val by (auto; lia). rewrite ln_exp. unfold is_ln_gamma.
  apply (partial_near n _ (fun ns => Rgas * T * rsum n (fun j => ns j * LL T (fractions n ns) j))); auto.
  { pose proof (near_frac n x _ (proj2 Hm) Ho) as N. revert N. apply near_impl. intros y [Hp Hy]. unfold total_GE. rewrite GE_val by (auto; lia). unfold GEc.
    rewrite (rsum_ext n (fun i0 => fractions n y i0 * _) (fun j => y j * LL T (fractions n y) j / rsum n y)) by (intros; unfold fractions; field; lra). rewrite rsum_div_r. field. lra. }
  apply (partial_scal (Rgas * T) (fun ns => rsum n (fun j => ns j * LL T (fractions n ns) j))).
  eapply partial_val. apply (partial_wsum n (fun ns j => LL T (fractions n ns) j) (fun j => rsum n (fun k => Lx n g version r q Q v a b c T x j k * (dl i k - x k))) x i Hi).
  - intros j Hj. exact (L_curve n g version r q Q v a b c Hs T x _ _ _ j H0 (frac_curve n x i (proj2 Hm) Hi) Hj).
  - cbv beta. rewrite (L_gd n g version r q Q v a b c Hs T x (fun k => dl i k - x k) H0 (proj2 Hm)). rewrite fractions_of_fractions by auto. ring.
Qed.
Theorem C51_gibbs_duhem T x : (2 <= n)%nat -> 0 < T -> mole_fractions n x -> gibbs_duhem n (fun y i => ln (code_gammas T y i)) x.
Proof.
  intros Hn HT Hm cv t dc Hc Hsum. assert (Hx : amounts n x) by (destruct Hm as [A B]; split; [auto|lra]).
  pose proof (ok_near n g version r q Q v a b c Hg Hs T x Hx) as Ho. pose proof (near_self _ _ _ Ho) as H0.
  exists (fun i => rsum n (fun j => Lx n g version r q Q v a b c T x i j * dc j)). split.
  - intros i Hi. eapply is_derive_ext_loc. 2:exact (L_curve n g version r q Q v a b c Hs T x cv t dc i H0 Hc Hi).
    pose proof (curve_near n x cv t dc _ Hc Ho) as N. revert N. apply filter_imp. intros s Hs'. rewrite gam_val by (auto; lia). now rewrite ln_exp.
  - apply L_gd; auto. apply Hm.
Qed.
(* a pure component has activity coefficient one; so does a single component model *)
Theorem C51_pure T i : (2 <= n)%nat -> 0 < T -> (i < n)%nat -> code_gammas T (pure i) i = 1.
Proof.
  intros Hn HT Hi. change (pure i) with (only i). assert (Hx : amounts n (only i)).
  { split. intros j _. unfold only. destruct (Nat.eqb j i); lra. rewrite (rsum_ext n _ (fun j => 1 * only i j)) by (intros; ring). rewrite (only_lin n (fun _ => 1)) by auto. lra. }
  rewrite gam_val; auto; [|now apply ok_at|lia]. unfold L. rewrite LC_only; auto. 2:{ intros w. unfold lin. now apply only_lin. }
  unfold LR. rewrite rsum_eq_0. rewrite Rplus_0_l. apply exp_0. intros; ring.
Qed.
End C51.

Section Single.
Context (g version : nat) (r q Q : nat -> R) (v a b c : nat -> nat -> R).
Hypothesis Hg : groups_ok 1 g Q v.
Hypothesis Hs : sizes_ok 1 version r q.
(* one component: no excess properties at all, and no derivatives *)
Theorem C51_single T x : 0 < T -> x 0%nat = 1 ->
  UNIFAC_gammas 1 g T x version r q Q v a b c 0%nat = 1 /\ UNIFAC_GE 1 g T x version r q Q v a b c = 0 /\
  UNIFAC_dGE_dT 1 g T x version r q Q v a b c = 0 /\ UNIFAC_d2GE_dT2 1 g T x version Q v a b c = 0 /\ UNIFAC_d3GE_dT3 1 g T x version Q v a b c = 0 /\
  UNIFAC_dGE_dxs 1 g T x version r q Q v a b c 0%nat = 0 /\ UNIFAC_d2GE_dxixjs 1 g T x version r q Q v a b c 0%nat 0%nat = 0 /\
  UNIFAC_dgammas_dT 1 g T x version r q Q v a b c 0%nat = 0 /\ UNIFAC_dgammas_dxs 1 g T x version r q Q v a b c 0%nat 0%nat = 0.
Proof.
  intros HT E.
  assert (Hx : amounts 1 x) by (split; [intros i Hi; replace i with 0%nat by lia; lra|cbn [rsum]; lra]).
  pose proof (ok_at 1 g version r q Q v a b c Hg Hs T x Hx) as [Hy Hc].
  assert (Et : theta 1 g Q v x = theta 1 g Q v (only 0)).
  { apply FunctionalExtensionality.functional_extensionality. intros m. unfold theta, Sm, am. cbn [rsum]. rewrite E. unfold only. cbn [Nat.eqb]. reflexivity. }
  assert (Z1 : LRT 1 g version Q v a b c T x 0%nat = 0) by (unfold LRT; rewrite Et; apply rsum_eq_0; intros; ring).
  assert (Z2 : LRTT 1 g version Q v a b c T x 0%nat = 0) by (unfold LRTT; rewrite Et; apply rsum_eq_0; intros; ring).
  assert (Z3 : LRTTT 1 g version Q v a b c T x 0%nat = 0) by (unfold LRTTT; rewrite Et; apply rsum_eq_0; intros; ring).
  assert (R0 : UNIFAC_lngammas_r 1 g T x version Q v a b c 0%nat = 0) by reflexivity.
  assert (K0 : UNIFAC_lngammas_c 1 x version r q 0%nat = 0) by reflexivity.
  assert (Zg : UNIFAC_gammas 1 g T x version r q Q v a b c 0%nat = 1).
  { unfold UNIFAC_gammas. cbv zeta. destruct (version =? 3)%nat. rewrite R0. apply exp_0. rewrite gammas_form by lia. rewrite R0, K0, Rplus_0_r. apply exp_0. }
  assert (ZG : UNIFAC_GE 1 g T x version r q Q v a b c = 0) by reflexivity.
  assert (Zx : UNIFAC_dlngammas_r_dxs 1 g T x version Q v a b c 0%nat 0%nat = 0).
  { rewrite (LRx_val 1 g version Q v a b c T HT) by (auto; lia). pose proof (lr_gd 1 g version Q v a b c T x (fun _ => 1) Hy) as H. cbn [rsum] in H. rewrite E in H. lra. }
  assert (Zc : version <> 3%nat -> UNIFAC_dlngammas_c_dxs 1 x version r q 0%nat 0%nat = 0).
  { intros Hv. rewrite LCx_val by (auto; lia). pose proof (LC_gd 1 version r q Hs x (fun _ => 1) Hc) as H. cbn [rsum] in H. rewrite E in H. specialize (H ltac:(lra)). lra. }
  split; [exact Zg|]. split; [exact ZG|]. splits.
  - unfold UNIFAC_dGE_dT. cbv zeta. rewrite ZG, dGEdT_form. cbn [rsum]. rewrite (LRT_val 1 g version Q v a b c T HT Hg) by (auto; lia). rewrite Z1. unfold Rdiv. ring.
  - unfold UNIFAC_d2GE_dT2. cbv zeta. rewrite d2GEdT_form. cbn [rsum]. rewrite (LRT_val 1 g version Q v a b c T HT Hg), (LRTT_val 1 g version Q v a b c T HT Hg) by (auto; lia). rewrite Z1, Z2. ring.
  - unfold UNIFAC_d3GE_dT3. cbv zeta. rewrite d3GEdT_form. cbn [rsum]. rewrite (LRTT_val 1 g version Q v a b c T HT Hg), (LRTTT_val 1 g version Q v a b c T HT Hg) by (auto; lia). rewrite Z3, Z2. ring.
  - unfold UNIFAC_dGE_dxs. cbv zeta. destruct (Nat.eqb_spec version 3) as [E3|E3]. rewrite dGEdx_sc_form by lia. cbn [rsum]. rewrite R0, Zx. ring. rewrite dGEdx_form by lia. cbn [rsum]. rewrite R0, K0, Zx, Zc by auto. ring.
  - reflexivity.
  - unfold UNIFAC_dgammas_dT. cbv zeta. rewrite (LRT_val 1 g version Q v a b c T HT Hg) by (auto; lia). rewrite Z1. ring.
  - unfold UNIFAC_dgammas_dxs. cbv zeta. destruct (Nat.eqb_spec version 3) as [E3|E3]. rewrite dgdx_sc_form by lia. rewrite Zx. ring. rewrite dgdx_form by lia. rewrite Zx, Zc by auto. ring.
Qed.
End Single.

(* the combinatorial part of the original model, PSRK and the KT variant is the published one *)
Theorem C51_published n version r q x i : (version = 0 \/ version = 2 \/ version = 5)%nat -> (forall j, (j < n)%nat -> 0 < r j /\ 0 < q j) -> mole_fractions n x -> (i < n)%nat -> 0 < x i ->
  ln_gamma_combinatorial n version r q x i = published_combinatorial n r q x i.
Proof.
  intros Hv Hs [Hx H1] Hi Hxi. assert (Ha : amounts n x) by (split; [auto|lra]).
  assert (A : 0 < rsum n (fun j => x j * r j)) by (apply amounts_pos; auto; intros; now apply Hs). assert (B : 0 < rsum n (fun j => x j * q j)) by (apply amounts_pos; auto; intros; now apply Hs).
  destruct (Hs i Hi) as [Hr Hq].
  transitivity (let W := r i / rsum n (fun j => x j * r j) in let F := q i / rsum n (fun j => x j * q j) in 1 - W + ln W - 5 * q i * (1 - W / F + ln (W / F))).
  { unfold ln_gamma_combinatorial. destruct Hv as [->|[->| ->]]; reflexivity. }
  cbv zeta. unfold published_combinatorial. cbv zeta.
  set (SR := rsum n (fun j => x j * r j)) in *. set (SQ := rsum n (fun j => x j * q j)) in *.
  replace (rsum n (fun j => x j * (10 / 2 * (r j - q j) - (r j - 1)))) with (5 * (SR - SQ) - (SR - 1)).
  2:{ rewrite (rsum_ext n _ (fun j => 4 * (x j * r j) - 5 * (x j * q j) + x j)) by (intros; field). rewrite rsum_plus, rsum_minus, !rsum_scal_l, H1. fold SR SQ. ring. }
  replace (x i * r i / SR / x i) with (r i / SR) by (field; lra).
  replace (x i * q i / SQ / (x i * r i / SR)) with (/ (r i / SR / (q i / SQ))) by (field; lra).
  rewrite ln_Rinv. field. lra. apply Rdiv_lt_0_compat; apply Rdiv_lt_0_compat; auto.
Qed.

(* the hypotheses are met: ethanol-like (groups CH3, CH2, OH) and alkane-like (CH3, CH2) molecules, for every version *)
Example C51_hypotheses_met version : groups_ok 2 3 (pair2 (848 / 1000) 1) (fun k i => match k, i with 0%nat, 0%nat => 1 | 0%nat, _ => 2 | 1%nat, 0%nat => 1 | 1%nat, _ => 4 | _, 0%nat => 1 | _, _ => 0 end) /\
  sizes_ok 2 version (pair2 (25 / 10) (45 / 10)) (pair2 (25 / 10) (39 / 10)) /\ mole_fractions 2 (pair2 (3 / 10) (7 / 10)) /\ amounts 2 (pair2 (3 / 10) (7 / 10)).
Proof.
  unfold groups_ok, sizes_ok, mole_fractions, amounts. splits.
  - intros k _. unfold pair2. destruct k; lra.
  - intros k i _ _. destruct k as [|[|]], i; lra.
  - intros i Hi. exists 0%nat. unfold pair2. destruct i; splits; try lia; lra.
  - intros _ i _. unfold pair2. destruct i; split; lra.
  - intros i _. unfold pair2. destruct i; lra.
  - cbn [rsum pair2]. lra.
  - intros i _. unfold pair2. destruct i; lra.
  - cbn [rsum pair2]. lra.
Qed.
