(* C24: activity coefficients of a GibbsExcess model: sum rule, Gibbs-Duhem relation, temperature and mole-number derivatives. *)
From Coq Require Import Reals Lra Lia Arith Bool FunctionalExtensionality.
From Coquelicot Require Import Coquelicot.
From Verif Require Import Base BaseFacts Spec_mix Spec_activity Spec_gradient MixFacts MixDeriv LnphiFacts NrtlFacts ActFacts GradFacts Gen_uniquac Gen_activity Prop_C28.
Open Scope R_scope.

Lemma RT_neq T : 0 < T -> Rgas * T <> 0. Proof. intros. pose proof Rgas_pos. apply Rgt_not_eq. now apply Rmult_lt_0_compat. Qed.
(* the three ways the code computes gammas agree: lists (GibbsExcess.gammas), numpy arrays, and gibbs_excess_gammas with any output list *)
Theorem C24_gammas_vectorized n T x GE g i : 0 < T -> (i < n)%nat -> GibbsExcess_gammas_vectorized n T x GE g i = GibbsExcess_gammas n T x GE g i.
Proof.
  intros HT Hi. pose proof Rgas_pos. unfold GibbsExcess_gammas_vectorized, gibbs_excess_gammas_new, gibbs_excess_gammas, GibbsExcess_gammas, ext_dxs_to_dn_partials. cbv zeta. rewrite (loop_upd_lt n), loop_rsub by auto. f_equal. field. lra.
Qed.
Theorem C24_gibbs_excess_gammas n T x GE g buf i : 0 < T -> (i < n)%nat -> gibbs_excess_gammas x g GE T buf n i = GibbsExcess_gammas n T x GE g i.
Proof.
  intros HT Hi. rewrite <- C24_gammas_vectorized by auto. unfold GibbsExcess_gammas_vectorized, gibbs_excess_gammas_new, gibbs_excess_gammas. cbv zeta. now rewrite !(loop_upd_lt n) by auto.
Qed.
Theorem C24_lngammas n T x GE g i : GibbsExcess_lngammas n T x GE g i = ln (GibbsExcess_gammas n T x GE g i).
Proof. unfold GibbsExcess_lngammas, GibbsExcess_gammas. now rewrite ln_exp. Qed.
Lemma gam_ln n T x GE g i : 0 < T -> GibbsExcess_gammas n T x GE g i = exp ((g i + GE - rsum n (fun j => x j * g j)) / (Rgas * T)).
Proof. intros HT. unfold GibbsExcess_gammas, ext_dxs_to_dn_partials, Rdiv. cbv zeta. f_equal. rewrite Rmult_1_l. reflexivity. Qed.

Section Model.
(* the excess Gibbs energy G of a model and what its dGE_dxs returns *)
Variables (n : nat) (G : R -> (nat -> R) -> R) (dG : R -> (nat -> R) -> nat -> R).
Let gammas T x := GibbsExcess_gammas n T x (G T x) (dG T x).
(* GE = R T sum x_i ln(gamma_i): for any gradient, because the fractions sum to one *)
Theorem C24_GE_sum T x : 0 < T -> rsum n x = 1 -> G T x = Rgas * T * rsum n (fun i => x i * ln (gammas T x i)).
Proof.
  intros HT Hs. pose proof (RT_neq T HT). rewrite (rsum_ext n _ (fun i => (x i * dG T x i + x i * (G T x - rsum n (fun j => x j * dG T x j))) * / (Rgas * T))).
  rewrite rsum_scal_r, rsum_plus, rsum_scal_r. change (rsum n (fun i => x i)) with (rsum n x). rewrite Hs. field. pose proof Rgas_pos; lra.
  intros i Hi. unfold gammas. rewrite gam_ln, ln_exp by auto. unfold Rdiv. ring.
Qed.
(* ln(gamma_i) is the partial molar excess Gibbs energy over RT *)
Theorem C24_ln_gamma T ns i : 0 < T -> 0 < rsum n ns -> (i < n)%nat -> has_gradient n (G T) (fractions n ns) (dG T (fractions n ns)) -> is_ln_gamma n (G T) (Rgas * T) ns i (ln (gammas T (fractions n ns) i)).
Proof.
  intros HT Hs Hi Hg. pose proof (RT_neq T HT). unfold is_ln_gamma. eapply partial_val. apply (C28_dxs_to_dn_partials n (G T) ns _ Hs Hg i Hi). unfold gammas. rewrite gam_ln, ln_exp by auto. unfold ext_dxs_to_dn_partials. field. pose proof Rgas_pos; lra.
Qed.
Lemma GD c T x t dc : 0 < T -> rsum n x = 1 -> curve_through n c t x dc -> is_derive (fun s => G T (fun i => c i s)) t (rsum n (fun i => dG T x i * dc i)) -> (forall i, (i < n)%nat -> dG T (fun i => c i t) i = dG T x i) ->
  (forall i, (i < n)%nat -> ex_derive (fun s => dG T (fun j => c j s) i) t) ->
  exists L, (forall i, (i < n)%nat -> is_derive (fun s => ln (gammas T (fun j => c j s) i)) t (L i)) /\ rsum n (fun i => x i * L i) = 0.
Proof.
  intros HT Hs Hc HG HE HD. pose proof (RT_neq T HT) as HR. pose (D := fun i => Derive (fun s => dG T (fun j => c j s) i) t).
  assert (HD' : forall i, (i < n)%nat -> is_derive (fun s => dG T (fun j => c j s) i) t (D i)) by (intros; now apply Derive_correct, HD).
  pose (S := rsum n (fun j => dc j * dG T x j + x j * D j)).
  exists (fun i => (D i + rsum n (fun i => dG T x i * dc i) - S) / (Rgas * T)). split.
  - intros i Hi. apply (is_derive_ext (fun s => (dG T (fun j => c j s) i + G T (fun j => c j s) - rsum n (fun j => c j s * dG T (fun j => c j s) j)) * / (Rgas * T))). intros s. change ((dG T (fun j => c j s) i + G T (fun j => c j s) - rsum n (fun j => c j s * dG T (fun j => c j s) j)) * / (Rgas * T) = ln (gammas T (fun j => c j s) i)). unfold gammas. now rewrite gam_ln, ln_exp by auto.
    unfold Rdiv. rewrite (Rmult_comm (D i + _ - _)). eapply (is_derive_ext (fun s => / (Rgas * T) * (dG T (fun j => c j s) i + G T (fun j => c j s) - rsum n (fun j => c j s * dG T (fun j => c j s) j)))). intros; apply Rmult_comm. apply is_derive_scal. apply (is_derive_minus (fun s => dG T (fun j => c j s) i + G T (fun j => c j s)) (fun s => rsum n (fun j => c j s * dG T (fun j => c j s) j))). apply (is_derive_plus (fun s => dG T (fun j => c j s) i)); auto.
    apply is_derive_rsum. intros j Hj. destruct (Hc j Hj) as [E Dc]. eapply is_derive_eq. apply (is_derive_mult (c j)). exact Dc. apply HD'; auto. intros; apply Rmult_comm. rewrite E, HE by auto. reflexivity.
  - rewrite (rsum_ext n _ (fun i => (x i * D i + x i * (rsum n (fun i => dG T x i * dc i) - S)) * / (Rgas * T))) by (intros; unfold Rdiv; ring). rewrite rsum_scal_r, rsum_plus, rsum_scal_r. change (rsum n (fun i => x i)) with (rsum n x). rewrite Hs. unfold S. rewrite rsum_plus. rewrite (rsum_ext n (fun i => dG T x i * dc i) (fun j => dc j * dG T x j)) by (intros; ring). ring.
Qed.
(* the Gibbs-Duhem relation follows when dGE_dxs is the gradient of GE, itself differentiable *)
Theorem C24_gibbs_duhem T x : 0 < T -> rsum n x = 1 -> has_gradient n (G T) x (dG T x) -> (forall i, (i < n)%nat -> exists h, has_gradient n (fun y => dG T y i) x h) ->
  gibbs_duhem n (fun y i => ln (gammas T y i)) x.
Proof.
  intros HT Hs HG HD c t dc Hc Hl. apply (GD c T x t dc); auto.
  - intros i Hi. exact (diff_at n x (fun y => dG T y i) (HD i Hi) c t dc Hc).
  - intros i Hi. destruct (HD i Hi) as [h Hh]. eexists. apply (Hh c t dc Hc).
Qed.
(* temperature derivatives: values g, g1, h, h1 of GE, dGE_dT, dGE_dxs, d2GE_dTdxs *)
Theorem C24_dgammas_dT (G1 : R) (h : nat -> R) T x i : 0 < T -> (i < n)%nat -> is_derive (fun t => G t x) T G1 -> (forall j, (j < n)%nat -> is_derive (fun t => dG t x j) T (h j)) ->
  is_derive (fun t => gammas t x i) T (GibbsExcess_dgammas_dT n T x (G T x) G1 (dG T x) h i).
Proof.
  intros HT Hi D1 D2. pose proof Rgas_pos as HR. apply (is_derive_ext_loc (fun t => exp ((dG t x i + G t x - rsum n (fun j => x j * dG t x j)) / (Rgas * t)))).
  apply (locally_interval _ T (Finite 0) p_infty). exact HT. exact I. intros t Ht _. cbn in Ht. symmetry. apply (gam_ln n t x (G t x) (dG t x) i Ht).
  eapply is_derive_eq. apply (is_derive_comp exp (fun t => (dG t x i + G t x - rsum n (fun j => x j * dG t x j)) / (Rgas * t))). apply is_derive_Reals. apply derivable_pt_lim_exp.
  apply (is_derive_div (fun t => dG t x i + G t x - rsum n (fun j => x j * dG t x j)) (fun t => Rgas * t)).
  apply (is_derive_minus (fun t => dG t x i + G t x)). apply (is_derive_plus (fun t => dG t x i)). apply D2; auto. exact D1. apply is_derive_rsum. intros j Hj. apply (is_derive_scal (fun t => dG t x j)). apply D2; auto.
  apply (is_derive_scal (fun t : R => t) T Rgas 1). apply @is_derive_id. now apply RT_neq.
  unfold GibbsExcess_dgammas_dT, gibbs_excess_dgammas_dT. cbv zeta. rewrite (loop_upd_lt n), !loop_rsub by auto.
  match goal with |- scal _ (exp ?u) = _ * exp ?v => replace v with u by (field; lra); generalize (exp u) end. intros z. unfold scal, minus, plus, opp; cbn. unfold mult; cbn. change (rsum n (fun i0 => x i0 * h i0)) with (rsum n (fun j => x j * h j)). field. lra.
Qed.
Theorem C24_dlngammas_dT (G1 : R) (h : nat -> R) T x i : 0 < T -> (i < n)%nat -> is_derive (fun t => G t x) T G1 -> (forall j, (j < n)%nat -> is_derive (fun t => dG t x j) T (h j)) ->
  is_derive (fun t => ln (gammas t x i)) T (GibbsExcess_dlngammas_dT n T x (G T x) G1 (dG T x) h i).
Proof.
  intros HT Hi D1 D2. pose proof (C24_dgammas_dT G1 h T x i HT Hi D1 D2) as D. assert (P : 0 < gammas T x i) by (unfold gammas; rewrite gam_ln by auto; apply exp_pos). eapply is_derive_eq. apply (is_derive_comp ln). apply is_derive_Reals. apply derivable_pt_lim_ln. exact P. exact D. unfold GibbsExcess_dlngammas_dT. cbv zeta. fold (gammas T x). unfold scal; cbn. unfold mult; cbn. reflexivity.
Qed.
(* mole-number derivatives of gammas, at mole fractions, when the rows of the Hessian times x have one and the same sum *)
Section Dns.
Variables (T : R) (x : nat -> R) (H : nat -> nat -> R).
Hypotheses (HT : 0 < T) (Hs : rsum n x = 1) (HG : has_gradient n (G T) x (dG T x)) (HH : forall i, (i < n)%nat -> has_gradient n (fun y => dG T y i) x (H i)).
Lemma lng_dn i j : (i < n)%nat -> (j < n)%nat -> partial (intensive n (fun y => dG T y i + G T y - rsum n (fun k => y k * dG T y k))) x j (H i j - rsum n (fun l => x l * H i l) - rsum n (fun k => x k * H k j) + rsum n (fun k => x k * rsum n (fun l => x l * H k l))).
Proof.
  intros Hi Hj. pose proof (frac_curve n x j Hs Hj) as Hc. unfold partial, intensive.
  assert (E : forall k, (k < n)%nat -> rsum n (fun l => H k l * (dl j l - x l)) = H k j - rsum n (fun l => x l * H k l)).
  { intros k Hk. rewrite (rsum_ext n _ (fun l => dl j l * H k l - x l * H k l)) by (intros; ring). now rewrite rsum_minus, rsum_dl. }
  eapply is_derive_eq. apply (is_derive_minus (fun t => dG T (fractions n (upd x j t)) i + G T (fractions n (upd x j t)))). apply (is_derive_plus (fun t => dG T (fractions n (upd x j t)) i)). apply (HH i Hi _ _ _ Hc). apply (HG _ _ _ Hc).
  apply is_derive_rsum. intros k Hk. destruct (Hc k Hk) as [Ec Dc]. apply (is_derive_mult (fun t => fractions n (upd x j t) k)). exact Dc. apply (HH k Hk _ _ _ Hc). intros; apply Rmult_comm.
  assert (F : fractions n (upd x j (x j)) = x) by (apply functional_extensionality; intros; rewrite upd_self; unfold fractions; rewrite Hs; field). cbv beta. rewrite F.
  unfold minus, plus, opp, mult; cbn. rewrite E by auto. rewrite (rsum_ext n (fun k => (dl j k - x k) * _ + _) (fun k => (dG T x k * (dl j k - x k) + x k * H k j) - x k * rsum n (fun l => x l * H k l))).
  2:{ intros k Hk. change (fun i0 => H k i0 * (dl j i0 - x i0)) with (fun l => H k l * (dl j l - x l)). rewrite E by auto. ring. }
  rewrite rsum_minus, rsum_plus. ring.
Qed.
Hypotheses (Hsym : forall i j, (i < n)%nat -> (j < n)%nat -> H i j = H j i) (s : R) (Hrow : forall i, (i < n)%nat -> rsum n (fun l => x l * H i l) = s).
Lemma lng_dn' i j : (i < n)%nat -> (j < n)%nat -> partial (intensive n (fun y => dG T y i + G T y - rsum n (fun k => y k * dG T y k))) x j (H i j - s).
Proof.
  intros Hi Hj. eapply partial_val. apply lng_dn; auto. rewrite Hrow by auto. rewrite (rsum_ext n (fun k => x k * H k j) (fun k => x k * H j k)) by (intros; rewrite Hsym; auto). rewrite Hrow by auto. rewrite (rsum_ext n (fun k => x k * rsum n (fun l => x l * H k l)) (fun k => x k * s)) by (intros; rewrite Hrow; auto). rewrite rsum_scal_r. change (rsum n (fun i => x i)) with (rsum n x). rewrite Hs. ring.
Qed.
Theorem C24_dgammas_dns i j : (i < n)%nat -> (j < n)%nat -> partial (intensive n (fun y => gammas T y i)) x j (GibbsExcess_dgammas_dns n T x (G T x) (dG T x) H i j).
Proof.
  intros Hi Hj. pose proof (RT_neq T HT) as HR. pose proof Rgas_pos.
  apply (partial_ext (fun ns => exp (intensive n (fun y => dG T y i + G T y - rsum n (fun k => y k * dG T y k)) ns * / (Rgas * T)))). intros y. unfold intensive, gammas. rewrite gam_ln by auto. reflexivity.
  eapply partial_val. apply (partial_exp (fun ns => intensive n (fun y => dG T y i + G T y - rsum n (fun k => y k * dG T y k)) ns * / (Rgas * T))). apply (partial_comp (intensive n (fun y => dG T y i + G T y - rsum n (fun k => y k * dG T y k))) (fun z => z * / (Rgas * T)) x j (H i j - s) (/ (Rgas * T))). apply lng_dn'; auto. auto_derive; trivial. ring.
  assert (F : fractions n x = x) by (apply functional_extensionality; intros; unfold fractions; rewrite Hs; field).
  unfold GibbsExcess_dgammas_dns, gibbs_excess_dgammas_dns, intensive. cbv zeta. rewrite loop_updm_lt, (loop_upd_lt n), loop_rsum by auto. rewrite F, gam_ln, Rplus_0_l, Hrow by auto. change (rsum n (fun k => x k * dG T x k)) with (rsum n (fun j => x j * dG T x j)). unfold Rdiv at 1. match goal with |- exp ?u * _ = _ => generalize (exp u) end. intros z. field. split; lra.
Qed.
(* second mole-number derivatives of n GE, when moreover dGE_dxs is the gradient around x *)
Theorem C24_d2nGE_dninjs i j : near n x (fun y => has_gradient n (G T) y (dG T y)) -> (i < n)%nat -> (j < n)%nat -> second_partial n (extensive n (G T)) x i j (GibbsExcess_d2nGE_dninjs n x H i j).
Proof.
  intros Hn Hi Hj. exists (intensive n (fun y => dG T y i + G T y - rsum n (fun k => y k * dG T y k))). split.
  - eapply near_impl. 2: apply (near_frac n x _ Hs Hn). intros y [Py Gy]. apply (C28_dxs_to_dn_partials n (G T) y _ Py Gy i Hi).
  - eapply partial_val. apply lng_dn'; auto. unfold GibbsExcess_d2nGE_dninjs, ext_d2xs_to_dxdn_partials. cbv zeta. now rewrite Hrow.
Qed.
End Dns.
End Model.
(* Euler: if sum x_k g_k = G - c sum x_k around x, the rows of the Hessian of G times x all sum to -c *)
Lemma euler_row n (G : (nat -> R) -> R) (g : (nat -> R) -> nat -> R) c x m (H : nat -> R) : (m < n)%nat -> near n x (fun y => rsum n (fun k => y k * g y k) = G y - c * rsum n y) ->
  partial G x m (g x m) -> (forall k, (k < n)%nat -> partial (fun y => g y k) x m (H k)) -> rsum n (fun k => x k * H k) = - c.
Proof.
  intros Hm E D1 D2. assert (P : partial (fun y => rsum n (fun k => y k * g y k)) x m (rsum n (fun k => dl m k * g x k + x k * H k))).
  { apply partial_sum. intros i Hi. apply (partial_mult (fun y => y i) (fun y => g y i)). apply partial_coord. now apply D2. }
  assert (Q : partial (fun y => rsum n (fun k => y k * g y k)) x m (g x m - c * 1)).
  { apply (partial_near n _ (fun y => G y - c * rsum n y) x m); auto. apply (partial_minus G (fun y => c * rsum n y)); auto. apply (partial_scal c (fun y => rsum n y)). unfold partial. apply tot_derive; auto. }
  apply is_derive_unique in P. apply is_derive_unique in Q. rewrite P in Q. rewrite rsum_plus, rsum_dl in Q by auto. lra.
Qed.
(* without the row-sum condition the code's dgammas_dns is not the derivative: GE = x_0^2 x_1 *)
Theorem C24_dgammas_dns_refuted : exists (G : R -> (nat -> R) -> R) dG T x H, 0 < T /\ mole_fractions 2 x /\ has_gradient 2 (G T) x (dG T x) /\ (forall i, (i < 2)%nat -> has_gradient 2 (fun y => dG T y i) x (H i)) /\ (forall i j, H i j = H j i) /\
  exists v, partial (intensive 2 (fun y => GibbsExcess_gammas 2 T y (G T y) (dG T y) 0%nat)) x 0 v /\ v <> GibbsExcess_dgammas_dns 2 T x (G T x) (dG T x) H 0%nat 0%nat.
Proof.
  pose (G := fun (_ : R) (y : nat -> R) => y 0%nat ^ 2 * y 1%nat). pose (dG := fun (_ : R) (y : nat -> R) => pair2 (2 * y 0%nat * y 1%nat) (y 0%nat ^ 2)). pose (x := pair2 (1 / 2) (1 / 2)). pose (H := fun i j : nat => match i, j with O, O => 1 | O, _ => 1 | _, O => 1 | _, _ => 0 end).
  assert (HG : has_gradient 2 (G 1) x (dG 1 x)). { intros c t dc Hc. destruct (Hc 0%nat ltac:(lia)) as [E0 D0], (Hc 1%nat ltac:(lia)) as [E1 D1]. unfold G. eapply is_derive_eq. apply (is_derive_mult (fun s => c 0%nat s ^ 2) (c 1%nat)). apply (is_derive_pow (c 0%nat) 2 t _ D0). exact D1. intros; apply Rmult_comm. rewrite E0, E1. unfold dG, x, pair2, rsum, plus, mult; cbn. field. }
  assert (HH : forall i, (i < 2)%nat -> has_gradient 2 (fun y => dG 1 y i) x (H i)).
  { intros i Hi c t dc Hc. destruct (Hc 0%nat ltac:(lia)) as [E0 D0], (Hc 1%nat ltac:(lia)) as [E1 D1]. destruct i as [|[|i]]; [| |lia]; unfold dG, pair2.
    - eapply is_derive_eq. apply (is_derive_mult (fun s => 2 * c 0%nat s) (c 1%nat)). apply is_derive_scal. exact D0. exact D1. intros; apply Rmult_comm. rewrite E0, E1. unfold H, x, pair2, rsum, plus, mult; cbn. field.
    - eapply is_derive_eq. apply (is_derive_pow (c 0%nat) 2 t _ D0). rewrite E0. unfold H, x, pair2, rsum; cbn. field. }
  assert (Hs : rsum 2 x = 1) by (unfold x, rsum; cbn; lra). pose proof Rgas_pos as HR.
  exists G, dG, 1, x, H. split. lra. split. split. intros [|[|i]] Hi; cbn; lra || lia. exact Hs. split. exact HG. split. exact HH. split. intros [|i] [|j]; reflexivity.
  pose proof (lng_dn 2 G dG 1 x H Hs HG HH 0 0 ltac:(lia) ltac:(lia)) as D.
  assert (F : fractions 2 x = x) by (apply functional_extensionality; intros; unfold fractions; rewrite Hs; field).
  eexists. split. apply (partial_ext (fun ns => exp (intensive 2 (fun y => dG 1 y 0%nat + G 1 y - rsum 2 (fun k => y k * dG 1 y k)) ns * / (Rgas * 1)))). intros y. unfold intensive. rewrite gam_ln by lra. reflexivity.
  apply (partial_exp (fun ns => intensive 2 (fun y => dG 1 y 0%nat + G 1 y - rsum 2 (fun k => y k * dG 1 y k)) ns * / (Rgas * 1))). apply (partial_comp _ (fun z => z * / (Rgas * 1)) x 0 _ (/ (Rgas * 1)) D). auto_derive; trivial. ring.
  unfold GibbsExcess_dgammas_dns, gibbs_excess_dgammas_dns, intensive. cbv zeta. rewrite loop_updm_lt, (loop_upd_lt 2), loop_rsum by lia. rewrite F, gam_ln by lra. change (rsum 2 (fun k => x k * dG 1 x k)) with (rsum 2 (fun j => x j * dG 1 x j)). unfold Rdiv at 1.
  match goal with |- exp ?u * _ <> _ => pose proof (exp_pos u); generalize dependent (exp u) end. intros z Hz. unfold H, x, pair2, rsum. cbn [loop]. intros E. assert (E' : z * / Rgas * (1 / 4) = 0). { match type of E with ?a = ?b => replace a with (z * / Rgas * - (1 / 4)) in E by (field; lra); replace b with 0 in E by (field; lra) end. lra. }
  assert (0 < / Rgas) by now apply Rinv_0_lt_compat. assert (0 < z * / Rgas) by now apply Rmult_lt_0_compat. lra.
Qed.
