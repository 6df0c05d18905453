(* C24 for the activity models of the package: their gammas are the general ones of their GE and dGE_dxs, GE is differentiable with gradient dGE_dxs, Gibbs-Duhem holds,
   and dgammas_dns and d2nGE_dninjs of GibbsExcess are the mole-number derivatives. *)
From Coq Require Import Reals Lra Lia Arith Bool FunctionalExtensionality.
From Coquelicot Require Import Coquelicot.
From Verif Require Import Base BaseFacts Spec_mix Spec_activity Spec_gradient MixFacts MixDeriv LnphiFacts NrtlFacts WilsonFacts UniquacFacts RegFacts ActFacts GradFacts Gen_nrtl Gen_wilson Gen_uniquac Gen_regular Gen_activity Prop_C28 Prop_C24 Prop_C18 Prop_C19 Prop_C20 Prop_C21 Prop_C22.
Open Scope R_scope.

Lemma frac_sum n y : 0 < rsum n y -> rsum n (fractions n y) = 1.
Proof. intros H. unfold fractions, Rdiv. rewrite rsum_scal_r. change (rsum n (fun i => y i)) with (rsum n y). field. lra. Qed.
Section Core.
Context (n : nat) (T : R) (HT : 0 < T) (x : nat -> R) (Hs : rsum n x = 1) (E : (nat -> R) -> R) (g : (nat -> R) -> nat -> R) (H : nat -> nat -> R) (cst : R).
Context (HE : near n x (fun y => has_gradient n E y (g y))) (HH : forall i, (i < n)%nat -> has_gradient n (fun y => g y i) x (H i)).
Context (Heul : near n x (fun y => rsum n (fun k => y k * g y k) = E y - cst * rsum n y)) (Hsym : forall i j, (i < n)%nat -> (j < n)%nat -> H i j = H j i).
Context (G : (nat -> R) -> R) (dG : nat -> R) (d2 : nat -> nat -> R) (gam : (nat -> R) -> nat -> R).
Context (EG : near n x (fun y => G y = E y)) (Egam : near n x (fun y => rsum n y = 1 -> forall i, (i < n)%nat -> gam y i = exp ((g y i + cst) / (Rgas * T)))).
Context (Ed : forall i, (i < n)%nat -> dG i = g x i).
Lemma core_grad : has_gradient n G x dG.
Proof. apply (grad_near n x G E). exact EG. apply (grad_ext n x E (g x)). intros; now rewrite Ed. exact (near_self _ _ _ HE). Qed.
Lemma core_row i : (i < n)%nat -> rsum n (fun l => x l * H i l) = - cst.
Proof.
  intros Hi. rewrite (rsum_ext n _ (fun l => x l * H l i)) by (intros; rewrite Hsym; auto). apply (euler_row n E g cst x i (fun l => H l i)); auto. apply (grad_partial n x E (g x)); auto. exact (near_self _ _ _ HE). intros k Hk. apply (grad_partial n x (fun y => g y k) (H k)); auto.
Qed.
Lemma core_gam i : (i < n)%nat -> gam x i = GibbsExcess_gammas n T x (G x) dG i.
Proof.
  intros Hi. rewrite (near_self _ _ _ Egam Hs i Hi), gam_ln by auto. f_equal. f_equal. rewrite (near_self _ _ _ EG), (rsum_ext n _ (fun k => x k * g x k)) by (intros; now rewrite Ed). rewrite (near_self _ _ _ Heul), Hs, Ed by auto. ring.
Qed.
Lemma core_gd : gibbs_duhem n (fun y i => ln (gam y i)) x.
Proof.
  assert (D := C24_gibbs_duhem n (fun _ => E) (fun _ => g) T x HT Hs (near_self _ _ _ HE) (fun i Hi => ex_intro _ _ (HH i Hi))).
  intros c t dc Hc Hl. destruct (D c t dc Hc Hl) as (L & HL & S). exists L. split; auto. intros i Hi. eapply is_derive_ext_loc. 2: apply (HL i Hi).
  pose proof (curve_near n x c t dc _ Hc Egam) as L1. pose proof (curve_near n x c t dc _ Hc Heul) as L2. eapply filter_imp. 2: apply (filter_and _ _ Hl (filter_and _ _ L1 L2)). intros s (S1 & S2 & S3). cbv beta in *. rewrite S2 by auto. rewrite gam_ln by auto. do 3 f_equal. rewrite S3. change (rsum n (fun i => c i s)) with (rsum n (fun i => c i s)). rewrite S1. ring.
Qed.
Context (Ed2 : forall i j, (i < n)%nat -> (j < n)%nat -> d2 i j = H i j).
Lemma core_dns i j : (i < n)%nat -> (j < n)%nat -> partial (intensive n (fun y => gam y i)) x j (GibbsExcess_dgammas_dns n T x (G x) dG d2 i j).
Proof.
  intros Hi Hj. pose proof (C24_dgammas_dns n (fun _ => E) (fun _ => g) T x H HT Hs (near_self _ _ _ HE) HH Hsym (- cst) core_row i j Hi Hj) as D.
  replace (GibbsExcess_dgammas_dns n T x (G x) dG d2 i j) with (GibbsExcess_dgammas_dns n T x (E x) (g x) H i j).
  apply (partial_near n _ (intensive n (fun y => GibbsExcess_gammas n T y (E y) (g y) i)) x j); auto.
  - eapply near_impl. 2: apply (near_frac n x _ Hs (near_and _ _ _ _ Egam Heul)). intros y (Py & Q1 & Q2). assert (Sy : rsum n (fractions n y) = 1) by (now apply frac_sum). unfold intensive. rewrite Q1, gam_ln by auto. do 2 f_equal. rewrite Q2, Sy. ring.
  - unfold GibbsExcess_dgammas_dns, gibbs_excess_dgammas_dns. cbv zeta. rewrite !loop_updm_lt, !(loop_upd_lt n), !loop_rsum by auto.
 rewrite (rsum_ext n (fun k => x k * H j k) (fun k => x k * d2 j k)) by (intros; now rewrite Ed2). rewrite Ed2 by auto. rewrite <- core_gam by auto. do 2 f_equal. rewrite (near_self _ _ _ Egam Hs i Hi), gam_ln by auto. f_equal. f_equal. rewrite (near_self _ _ _ Heul), Hs. ring.
Qed.
Lemma core_d2n i j : (i < n)%nat -> (j < n)%nat -> second_partial n (extensive n G) x i j (GibbsExcess_d2nGE_dninjs n x d2 i j).
Proof.
  intros Hi Hj. replace (GibbsExcess_d2nGE_dninjs n x d2 i j) with (GibbsExcess_d2nGE_dninjs n x H i j).
  2:{ unfold GibbsExcess_d2nGE_dninjs, ext_d2xs_to_dxdn_partials. cbv zeta. rewrite (rsum_ext n (fun k => x k * H j k) (fun k => x k * d2 j k)) by (intros; now rewrite Ed2). now rewrite Ed2. }
  destruct (C24_d2nGE_dninjs n (fun _ => E) (fun _ => g) T x H Hs (near_self _ _ _ HE) HH Hsym (- cst) core_row i j HE Hi Hj) as (f & F1 & F2).
  exists f. split; auto. pose proof (near_near n x _ (near_frac n x _ Hs EG)) as Nn. eapply near_impl. 2: apply (near_and _ _ _ _ F1 Nn). intros y (P & Q). apply (partial_near n _ (extensive n E) y i); auto. eapply near_impl. 2: exact Q. intros z [_ Z]. unfold extensive. now rewrite Z.
Qed.
End Core.
Lemma mf_amounts n x : mole_fractions n x -> amounts n x /\ rsum n x = 1.
Proof. intros [H0 H1]. split; auto. split; auto. lra. Qed.
(* scaling a gradient *)
Lemma grad_scal n x f g k : has_gradient n f x g -> has_gradient n (fun y => k * f y) x (fun i => k * g i).
Proof. intros H c t dc Hc. rewrite (rsum_ext n _ (fun i => k * (g i * dc i))) by (intros; ring). rewrite rsum_scal_l. apply is_derive_scal. now apply H. Qed.

(* ---------- NRTL ---------- *)
Section NRTL.
Variables (N : nat) (tau_as tau_bs tau_es tau_fs tau_gs tau_hs alpha_cs alpha_ds : nat -> nat -> R).
Let flag := NRTL_alpha_temperature_independent N alpha_ds.
Let GE T x := NRTL_GE N T x tau_as tau_bs tau_es tau_fs tau_gs tau_hs alpha_cs alpha_ds flag.
Let dGE_dxs T x := NRTL_dGE_dxs N T x tau_as tau_bs tau_es tau_fs tau_gs tau_hs alpha_cs alpha_ds flag.
Let d2GE_dxixjs T x := NRTL_d2GE_dxixjs N T x tau_as tau_bs tau_es tau_fs tau_gs tau_hs alpha_cs alpha_ds flag.
Let gammas T x := NRTL_gammas N T x tau_as tau_bs tau_es tau_fs tau_gs tau_hs alpha_cs alpha_ds flag.
Notation GG T := (fun j i => Gf tau_as tau_bs tau_es tau_fs tau_gs tau_hs alpha_cs alpha_ds j i T). Notation TT T := (fun j i => tauf tau_as tau_bs tau_es tau_fs tau_gs tau_hs j i T).
Lemma S_grad x Gm tau : (forall i, (i < N)%nat -> SA N x Gm i <> 0) -> has_gradient N (fun y => SE N y Gm tau) x (Sg N x Gm tau).
Proof. intros HA. apply grad_uniq. unfold SE, SB, SA. dsm; auto. apply (HA i); auto. intros k Hk. now apply SE_partial. Qed.
Lemma Sg_grad x Gm tau i : (i < N)%nat -> (forall i, (i < N)%nat -> SA N x Gm i <> 0) -> has_gradient N (fun y => Sg N y Gm tau i) x (Shess N x Gm tau i).
Proof. intros Hi HA. apply grad_uniq. unfold Sg, SB, SA. dsm; auto; try (apply (HA i); now auto); apply (HA i0); auto. intros k Hk. now apply Sg_partial. Qed.
Lemma Sh_sym x Gm tau i j : Shess N x Gm tau i j = Shess N x Gm tau j i.
Proof. unfold Shess. rewrite (rsum_ext N _ (fun k => x k / SA N x Gm k ^ 2 * Gm j k * Gm i k * (tau j k + tau i k - 2 * (SB N x Gm tau k / SA N x Gm k)))) by (intros; ring). unfold Rdiv. ring. Qed.
Section At.
Variables (T : R) (x : nat -> R). Hypotheses (HT : 0 < T) (Hx : mole_fractions N x).
Lemma nSA : forall i, (i < N)%nat -> SA N x (GG T) i <> 0.
Proof. intros i Hi. apply Rgt_not_eq. apply amounts_pos. apply (mf_amounts N x Hx). intros; apply exp_pos. Qed.
Let E y := Rgas * T * SE N y (GG T) (TT T). Let g y k := Rgas * T * Sg N y (GG T) (TT T) k. Let H i j := Rgas * T * Shess N x (GG T) (TT T) i j.
Lemma n1 : near N x (fun y => has_gradient N E y (g y)).
Proof. eapply near_impl. 2: apply (near_SA N x (GG T) nSA). intros y Hy. apply grad_scal. now apply S_grad. Qed.
Lemma n2 i : (i < N)%nat -> has_gradient N (fun y => g y i) x (H i).
Proof. intros Hi. apply (grad_scal N x (fun y => Sg N y (GG T) (TT T) i)). apply Sg_grad; auto. apply nSA. Qed.
Lemma n3 : near N x (fun y => rsum N (fun k => y k * g y k) = E y - 0 * rsum N y).
Proof. eapply near_impl. 2: apply (near_SA N x (GG T) nSA). intros y Hy. unfold g, E. rewrite (rsum_ext N _ (fun k => Rgas * T * (y k * Sg N y (GG T) (TT T) k))) by (intros; ring). rewrite rsum_scal_l, Sg_sum by auto. ring. Qed.
Lemma n4 i j : (i < N)%nat -> (j < N)%nat -> H i j = H j i. Proof. intros _ _. unfold H. now rewrite Sh_sym. Qed.
Lemma n5 : near N x (fun y => GE T y = E y).
Proof. eapply near_impl. 2: apply (near_SA N x (GG T) nSA). intros y Hy. unfold GE, E. now apply Prop_C18.GE_eq. Qed.
Lemma n6 : near N x (fun y => rsum N y = 1 -> forall i, (i < N)%nat -> gammas T y i = exp ((g y i + 0) / (Rgas * T))).
Proof. eapply near_impl. 2: apply (near_SA N x (GG T) nSA). intros y Hy _ i Hi. unfold gammas. rewrite Prop_C19.gam_eq by auto. f_equal. unfold g. field. pose proof Rgas_pos; lra. Qed.
Lemma n7 i : (i < N)%nat -> dGE_dxs T x i = g x i. Proof. intros Hi. now apply Prop_C19.dx_eq. Qed.
Lemma n8 i j : (i < N)%nat -> (j < N)%nat -> d2GE_dxixjs T x i j = H i j. Proof. intros Hi Hj. apply Prop_C19.d2x_eq; auto. apply nSA. Qed.
Let Hs : rsum N x = 1 := proj2 (mf_amounts N x Hx).
Theorem C24_NRTL_gammas i : (i < N)%nat -> gammas T x i = GibbsExcess_gammas N T x (GE T x) (dGE_dxs T x) i.
Proof. intros. eapply core_gam; eauto using n3, n5, n6, n7. Qed.
Theorem C24_NRTL_gradient : has_gradient N (GE T) x (dGE_dxs T x).
Proof. eapply core_grad; eauto using n1, n5, n7. Qed.
Theorem C24_NRTL_gibbs_duhem : gibbs_duhem N (fun y i => ln (gammas T y i)) x.
Proof. eapply core_gd; eauto using n1, n2, n3, n6. Qed.
Theorem C24_NRTL_dgammas_dns i j : (i < N)%nat -> (j < N)%nat -> partial (intensive N (fun y => gammas T y i)) x j (GibbsExcess_dgammas_dns N T x (GE T x) (dGE_dxs T x) (d2GE_dxixjs T x) i j).
Proof. intros. eapply core_dns; eauto using n1, n2, n3, n4, n5, n6, n7, n8. Qed.
Theorem C24_NRTL_d2nGE_dninjs i j : (i < N)%nat -> (j < N)%nat -> second_partial N (extensive N (GE T)) x i j (GibbsExcess_d2nGE_dninjs N x (d2GE_dxixjs T x) i j).
Proof. intros. eapply core_d2n; eauto using n1, n2, n3, n4, n5, n8. Qed.
End At.
End NRTL.

(* ---------- Wilson ---------- *)
Section Wilson.
Variables (N : nat) (lambda_as lambda_bs lambda_cs lambda_ds lambda_es lambda_fs : nat -> nat -> R).
Let GE T x := Wilson_GE N T x lambda_as lambda_bs lambda_cs lambda_ds lambda_es lambda_fs.
Let dGE_dxs T x := Wilson_dGE_dxs N T x lambda_as lambda_bs lambda_cs lambda_ds lambda_es lambda_fs.
Let d2GE_dxixjs T x := Wilson_d2GE_dxixjs N T x lambda_as lambda_bs lambda_cs lambda_ds lambda_es lambda_fs.
Let gammas T x := Wilson_gammas N T x lambda_as lambda_bs lambda_cs lambda_ds lambda_es lambda_fs.
Notation L := (lam lambda_as lambda_bs lambda_cs lambda_ds lambda_es lambda_fs).
Lemma W_grad x l : wpos N l x -> has_gradient N (WE N l) x (Wg N l x).
Proof. intros HA. apply grad_uniq. unfold WE, WS. dsm; auto. apply (HA i); auto. intros k Hk. now apply WE_partial. Qed.
Lemma Wg_grad x l i : (i < N)%nat -> wpos N l x -> has_gradient N (fun y => Wg N l y i) x (WH N l x i).
Proof. intros Hi HA. apply grad_uniq. unfold Wg, WS. dsm; auto; try (apply (HA i); now auto). apply Rgt_not_eq, (HA i0); auto. intros k Hk. now apply Wg_partial. Qed.
Lemma WH_sym x l i j : WH N l x i j = WH N l x j i.
Proof. unfold WH. rewrite (rsum_ext N _ (fun k => x k * l k j * l k i / WS N l x k ^ 2)) by (intros; unfold Rdiv; ring). ring. Qed.
Section At.
Variables (T : R) (x : nat -> R). Hypotheses (HT : 0 < T) (Hx : mole_fractions N x).
Lemma wP : wpos N (L T) x. Proof. apply amounts_wpos. apply (mf_amounts N x Hx). Qed.
Let E y := - (Rgas * T) * WE N (L T) y. Let g y k := - (Rgas * T) * Wg N (L T) y k. Let H i j := - (Rgas * T) * WH N (L T) x i j.
Lemma wi1 : near N x (fun y => has_gradient N E y (g y)).
Proof. eapply near_impl. 2: apply (near_wpos N (L T) x wP). intros y Hy. apply grad_scal. now apply W_grad. Qed.
Lemma wi2 i : (i < N)%nat -> has_gradient N (fun y => g y i) x (H i).
Proof. intros Hi. apply (grad_scal N x (fun y => Wg N (L T) y i)). apply Wg_grad; auto. apply wP. Qed.
Lemma wi3 : near N x (fun y => rsum N (fun k => y k * g y k) = E y - (Rgas * T) * rsum N y).
Proof. eapply near_impl. 2: apply (near_wpos N (L T) x wP). intros y Hy. unfold g, E. rewrite (rsum_ext N _ (fun k => - (Rgas * T) * (y k * Wg N (L T) y k))) by (intros; ring). rewrite rsum_scal_l, Wg_sum by auto. ring. Qed.
Lemma wi4 i j : (i < N)%nat -> (j < N)%nat -> H i j = H j i. Proof. intros _ _. unfold H. now rewrite WH_sym. Qed.
Lemma wi5 : near N x (fun y => GE T y = E y).
Proof. eapply near_impl. 2: apply (near_wpos N (L T) x wP). intros y Hy. unfold GE, E. now apply Prop_C20.GE_eq. Qed.
Lemma wi6 : near N x (fun y => rsum N y = 1 -> forall i, (i < N)%nat -> gammas T y i = exp ((g y i + Rgas * T) / (Rgas * T))).
Proof. eapply near_impl. 2: apply (near_wpos N (L T) x wP). intros y Hy _ i Hi. unfold gammas. rewrite Prop_C20.gam_eq by auto. f_equal. unfold g. field. pose proof Rgas_pos; lra. Qed.
Lemma wi7 i : (i < N)%nat -> dGE_dxs T x i = g x i. Proof. intros Hi. now apply Prop_C20.dx_eq. Qed.
Lemma wi8 i j : (i < N)%nat -> (j < N)%nat -> d2GE_dxixjs T x i j = H i j. Proof. intros Hi Hj. apply Prop_C20.d2x_eq; auto. apply wP. Qed.
Let Hs : rsum N x = 1 := proj2 (mf_amounts N x Hx).
Theorem C24_Wilson_gammas i : (i < N)%nat -> gammas T x i = GibbsExcess_gammas N T x (GE T x) (dGE_dxs T x) i.
Proof. intros. eapply core_gam; eauto using wi3, wi5, wi6, wi7. Qed.
Theorem C24_Wilson_gradient : has_gradient N (GE T) x (dGE_dxs T x).
Proof. eapply core_grad; eauto using wi1, wi5, wi7. Qed.
Theorem C24_Wilson_gibbs_duhem : gibbs_duhem N (fun y i => ln (gammas T y i)) x.
Proof. eapply core_gd; eauto using wi1, wi2, wi3, wi6. Qed.
Theorem C24_Wilson_dgammas_dns i j : (i < N)%nat -> (j < N)%nat -> partial (intensive N (fun y => gammas T y i)) x j (GibbsExcess_dgammas_dns N T x (GE T x) (dGE_dxs T x) (d2GE_dxixjs T x) i j).
Proof. intros. eapply core_dns; eauto using wi1, wi2, wi3, wi4, wi5, wi6, wi7, wi8. Qed.
Theorem C24_Wilson_d2nGE_dninjs i j : (i < N)%nat -> (j < N)%nat -> second_partial N (extensive N (GE T)) x i j (GibbsExcess_d2nGE_dninjs N x (d2GE_dxixjs T x) i j).
Proof. intros. eapply core_d2n; eauto using wi1, wi2, wi3, wi4, wi5, wi8. Qed.
End At.
End Wilson.

(* ---------- UNIQUAC: positive mole fractions ---------- *)
Section UNIQUAC.
Variables (N : nat) (rs qs : nat -> R) (tau_as tau_bs tau_cs tau_ds tau_es tau_fs : nat -> nat -> R).
Hypotheses (Hr : positive N rs) (Hq : positive N qs).
Let GE T x := UNIQUAC_GE N T x rs qs tau_as tau_bs tau_cs tau_ds tau_es tau_fs.
Let dGE_dxs T x := UNIQUAC_dGE_dxs N T x rs qs tau_as tau_bs tau_cs tau_ds tau_es tau_fs.
Let d2GE_dxixjs T x := UNIQUAC_d2GE_dxixjs N T x rs qs tau_as tau_bs tau_cs tau_ds tau_es tau_fs.
Let gammas T x := UNIQUAC_gammas N T x rs qs tau_as tau_bs tau_cs tau_ds tau_es tau_fs.
Notation L := (lam tau_as tau_bs tau_cs tau_ds tau_es tau_fs).
Section Form.
Variables (x : nat -> R) (tau : nat -> nat -> R) (Hx : pos N x) (Ht : forall i j, (i < N)%nat -> (j < N)%nat -> 0 < tau i j) (HN : (0 < N)%nat).
Lemma U_grad : has_gradient N (UE N rs qs tau) x (Ug N rs qs tau x).
Proof.
  apply grad_uniq. pose proof (pos_sum N rs x 0 HN Hr Hx). pose proof (pos_sum N qs x 0 HN Hq Hx). unfold UE, UL, UV in *. dsm; auto. apply (pos_V N qs tau Hq Ht x i); auto. intros k Hk. apply UE_partial; auto.
Qed.
Lemma Ug_grad i : (i < N)%nat -> has_gradient N (fun y => Ug N rs qs tau y i) x (UH N rs qs tau x i).
Proof.
  intros Hi. apply grad_uniq. pose proof (pos_sum N rs x 0 HN Hr Hx). pose proof (pos_sum N qs x 0 HN Hq Hx). pose proof (pos_V N qs tau Hq Ht x i Hi Hx). unfold Ug, UL, UV in *. dsm; auto using Rgt_not_eq. apply Rgt_not_eq, (pos_V N qs tau Hq Ht x i0); auto. intros k Hk. apply Ug_partial; auto.
Qed.
Lemma UH_sym i j : UH N rs qs tau x i j = UH N rs qs tau x j i.
Proof. unfold UH. rewrite (rsum_ext N (fun k => x k * (qs k * (qs i * tau i k) * (qs j * tau j k) / UV N qs tau x k ^ 2)) (fun k => x k * (qs k * (qs j * tau j k) * (qs i * tau i k) / UV N qs tau x k ^ 2))) by (intros; unfold Rdiv; ring). unfold Rdiv. ring. Qed.
End Form.
Section At.
Variables (T : R) (x : nat -> R). Hypotheses (HT : 0 < T) (Hx : positive N x) (Hs : rsum N x = 1).
Lemma N_pos : (0 < N)%nat. Proof. destruct N; [unfold rsum in Hs; cbn in Hs; lra | lia]. Qed.
Lemma uP : near N x (pos N). Proof. apply near_pos_x. exact Hx. Qed.
Lemma tP : forall i j, (i < N)%nat -> (j < N)%nat -> 0 < L T i j. Proof. intros; apply lam_pos. Qed.
Let E y := Rgas * T * UE N rs qs (L T) y. Let g y k := Rgas * T * Ug N rs qs (L T) y k. Let H i j := Rgas * T * UH N rs qs (L T) x i j.
Lemma u1 : near N x (fun y => has_gradient N E y (g y)).
Proof. eapply near_impl. 2: apply uP. intros y Hy. apply grad_scal. apply U_grad; auto using tP, N_pos. Qed.
Lemma u2 i : (i < N)%nat -> has_gradient N (fun y => g y i) x (H i).
Proof. intros Hi. apply (grad_scal N x (fun y => Ug N rs qs (L T) y i)). apply Ug_grad; auto using tP, N_pos. Qed.
Lemma u3 : near N x (fun y => rsum N (fun k => y k * g y k) = E y - (Rgas * T) * rsum N y).
Proof. eapply near_impl. 2: apply uP. intros y Hy. unfold g, E. rewrite (rsum_ext N _ (fun k => (Rgas * T) * (y k * Ug N rs qs (L T) y k))) by (intros; ring). rewrite rsum_scal_l, (Ug_sum N rs qs (L T) Hr Hq tP y 0 N_pos Hy). ring. Qed.
Lemma u4 i j : (i < N)%nat -> (j < N)%nat -> H i j = H j i. Proof. intros _ _. unfold H. now rewrite UH_sym. Qed.
Lemma u5 : near N x (fun y => GE T y = E y).
Proof. eapply near_impl. 2: apply uP. intros y Hy. unfold GE, E. now apply uGE_eq. Qed.
Lemma u6 : near N x (fun y => rsum N y = 1 -> forall i, (i < N)%nat -> gammas T y i = exp ((g y i + Rgas * T) / (Rgas * T))).
Proof. eapply near_impl. 2: apply uP. intros y Hy Sy i Hi. unfold gammas. rewrite ugam_eq by auto. f_equal. unfold g. field. pose proof Rgas_pos; lra. Qed.
Lemma u7 i : (i < N)%nat -> dGE_dxs T x i = g x i. Proof. intros Hi. now apply udx_eq. Qed.
Lemma u8 i j : (i < N)%nat -> (j < N)%nat -> d2GE_dxixjs T x i j = H i j. Proof. intros Hi Hj. now apply ud2x_eq. Qed.
Theorem C24_UNIQUAC_gammas i : (i < N)%nat -> gammas T x i = GibbsExcess_gammas N T x (GE T x) (dGE_dxs T x) i.
Proof. intros. eapply core_gam; eauto using u3, u5, u6, u7. Qed.
Theorem C24_UNIQUAC_gradient : has_gradient N (GE T) x (dGE_dxs T x).
Proof. eapply core_grad; eauto using u1, u5, u7. Qed.
Theorem C24_UNIQUAC_gibbs_duhem : gibbs_duhem N (fun y i => ln (gammas T y i)) x.
Proof. eapply core_gd; eauto using u1, u2, u3, u6. Qed.
Theorem C24_UNIQUAC_dgammas_dns i j : (i < N)%nat -> (j < N)%nat -> partial (intensive N (fun y => gammas T y i)) x j (GibbsExcess_dgammas_dns N T x (GE T x) (dGE_dxs T x) (d2GE_dxixjs T x) i j).
Proof. intros. eapply core_dns; eauto using u1, u2, u3, u4, u5, u6, u7, u8. Qed.
Theorem C24_UNIQUAC_d2nGE_dninjs i j : (i < N)%nat -> (j < N)%nat -> second_partial N (extensive N (GE T)) x i j (GibbsExcess_d2nGE_dninjs N x (d2GE_dxixjs T x) i j).
Proof. intros. eapply core_d2n; eauto using u1, u2, u3, u4, u5, u8. Qed.
End At.
End UNIQUAC.

(* ---------- regular solution, Flory-Huggins, Hansen ---------- *)
Section EReg.
Variables (N : nat) (Vs : nat -> R) (HV : positive N Vs) (A : nat -> nat -> R) (c : R) (x : nat -> R) (HS : 0 < UL N Vs x).
Lemma E_grad : has_gradient N (EE N Vs A c) x (Eg N Vs A c x).
Proof. apply grad_uniq. unfold EE, FE, RE, RQ, UL in *. dsm; auto using Rgt_not_eq. intros k Hk. now apply EE_p. Qed.
Lemma Eg_grad i : (i < N)%nat -> has_gradient N (fun y => Eg N Vs A c y i) x (EH N Vs A c x i).
Proof. intros Hi. apply grad_uniq. unfold Eg, Fg, Rg, Rh, RE, RQ, UL in *. dsm; auto using Rgt_not_eq. intros k Hk. now apply Eg_p. Qed.
Lemma EH_sym i j : EH N Vs A c x i j = EH N Vs A c x j i.
Proof. unfold EH, FH, RH, Rg, Hm. field. lra. Qed.
Lemma E_eul : near N x (fun y => rsum N (fun k => y k * Eg N Vs A c y k) = EE N Vs A c y - c * rsum N y).
Proof. eapply near_impl. 2: apply near_S; exact HS. intros y Hy. now apply Eg_s. Qed.
Lemma E_near : near N x (fun y => has_gradient N (EE N Vs A c) y (Eg N Vs A c y)).
Proof. eapply near_impl. 2: apply near_S; exact HS. intros y Hy. apply grad_uniq. unfold EE, FE, RE, RQ, UL in *. dsm; auto using Rgt_not_eq. intros k Hk. now apply EE_p. Qed.
End EReg.
Section Regular.
Variables (N : nat) (Vs SPs : nat -> R) (lambda_coeffs : nat -> nat -> R).
Hypothesis HV : positive N Vs.
Let GE x := RegularSolution_GE N x Vs SPs lambda_coeffs.
Let dGE_dxs x := RegularSolution_dGE_dxs N x Vs SPs lambda_coeffs.
Let d2GE_dxixjs x := RegularSolution_d2GE_dxixjs N x Vs SPs lambda_coeffs.
Let gammas T x := RegularSolution_gammas N T x Vs SPs lambda_coeffs.
Notation A := (regular_A SPs lambda_coeffs).
Section At.
Variables (T : R) (x : nat -> R). Hypotheses (HT : 0 < T) (Hx : mole_fractions N x).
Lemma rS : 0 < UL N Vs x. Proof. apply am_S; auto. apply (mf_amounts N x Hx). Qed.
Lemma r5 : near N x (fun y => GE y = EE N Vs A 0 y).
Proof. eapply near_impl. 2: apply near_S; exact rS. intros y Hy. unfold GE. now apply rEE. Qed.
Lemma r6 : near N x (fun y => rsum N y = 1 -> forall i, (i < N)%nat -> gammas T y i = exp ((Eg N Vs A 0 y i + 0) / (Rgas * T))).
Proof. eapply near_impl. 2: apply near_S; exact rS. intros y Hy Sy i Hi. unfold gammas. rewrite rgam by auto. f_equal. f_equal. unfold Eg. ring. Qed.
Lemma r7 i : (i < N)%nat -> dGE_dxs x i = Eg N Vs A 0 x i. Proof. intros Hi. unfold dGE_dxs. rewrite rdx by auto. unfold Eg. ring. Qed.
Lemma r8 i j : (i < N)%nat -> (j < N)%nat -> d2GE_dxixjs x i j = EH N Vs A 0 x i j. Proof. intros Hi Hj. unfold d2GE_dxixjs. rewrite rd2 by auto using rS. unfold EH. ring. Qed.
Let Hs : rsum N x = 1 := proj2 (mf_amounts N x Hx).
Theorem C24_Regular_gammas i : (i < N)%nat -> gammas T x i = GibbsExcess_gammas N T x (GE x) (dGE_dxs x) i.
Proof. intros. eapply core_gam; eauto using E_eul, r5, r6, r7, rS. Qed.
Theorem C24_Regular_gradient : has_gradient N GE x (dGE_dxs x).
Proof. eapply core_grad; eauto using E_near, r5, r7, rS. Qed.
Theorem C24_Regular_gibbs_duhem : gibbs_duhem N (fun y i => ln (gammas T y i)) x.
Proof. eapply core_gd; eauto using E_near, Eg_grad, E_eul, r6, rS. Qed.
Theorem C24_Regular_dgammas_dns i j : (i < N)%nat -> (j < N)%nat -> partial (intensive N (fun y => gammas T y i)) x j (GibbsExcess_dgammas_dns N T x (GE x) (dGE_dxs x) (d2GE_dxixjs x) i j).
Proof. intros. eapply core_dns; eauto using E_near, Eg_grad, E_eul, EH_sym, r5, r6, r7, r8, rS. Qed.
Theorem C24_Regular_d2nGE_dninjs i j : (i < N)%nat -> (j < N)%nat -> second_partial N (extensive N GE) x i j (GibbsExcess_d2nGE_dninjs N x (d2GE_dxixjs x) i j).
Proof. intros. eapply core_d2n; eauto using E_near, Eg_grad, E_eul, EH_sym, r5, r8, rS. Qed.
End At.
End Regular.
Section FloryHuggins.
Variables (N : nat) (Vs SPs : nat -> R) (lambda_coeffs : nat -> nat -> R).
Hypothesis HV : positive N Vs.
Let GE T x := FloryHuggins_GE N T x Vs SPs lambda_coeffs.
Let dGE_dxs T x := FloryHuggins_dGE_dxs N T x Vs SPs lambda_coeffs.
Let d2GE_dxixjs T x := FloryHuggins_d2GE_dxixjs N T x Vs SPs lambda_coeffs.
Let gammas T x := FloryHuggins_gammas N T x Vs SPs lambda_coeffs.
Notation A := (regular_A SPs lambda_coeffs).
Section At.
Variables (T : R) (x : nat -> R). Hypotheses (HT : 0 < T) (Hx : mole_fractions N x).
Lemma fS : 0 < UL N Vs x. Proof. apply am_S; auto. apply (mf_amounts N x Hx). Qed.
Lemma f5 : near N x (fun y => GE T y = EE N Vs A (Rgas * T) y).
Proof. eapply near_impl. 2: apply near_S; exact fS. intros y Hy. now apply fGE. Qed.
Lemma f6 : near N x (fun y => rsum N y = 1 -> forall i, (i < N)%nat -> gammas T y i = exp ((Eg N Vs A (Rgas * T) y i + Rgas * T) / (Rgas * T))).
Proof.
  eapply near_impl. 2: apply near_S; exact fS. intros y Hy Sy i Hi. unfold gammas, FloryHuggins_gammas, ext_dxs_to_dn_partials. cbv zeta. f_equal. fold (GE T y). fold (dGE_dxs T y). rewrite (rsum_ext N _ (fun j => y j * Eg N Vs A (Rgas * T) y j)) by (intros; unfold dGE_dxs; rewrite fdx by auto; reflexivity). unfold GE, dGE_dxs. rewrite Eg_s, fdx, fGE, Sy by auto. field. pose proof Rgas_pos. lra.
Qed.
Let Hs : rsum N x = 1 := proj2 (mf_amounts N x Hx).
Lemma f7 i : (i < N)%nat -> dGE_dxs T x i = Eg N Vs A (Rgas * T) x i. Proof. intros Hi. apply fdx; auto. apply fS. Qed.
Lemma f8 i j : (i < N)%nat -> (j < N)%nat -> d2GE_dxixjs T x i j = EH N Vs A (Rgas * T) x i j.
Proof. intros Hi Hj. pose proof fS. unfold d2GE_dxixjs, FloryHuggins_d2GE_dxixjs. cbv zeta. apply f_d2; auto. apply si_eq. intros; now apply fHi. now apply fGE. Qed.
Theorem C24_FloryHuggins_gammas i : (i < N)%nat -> gammas T x i = GibbsExcess_gammas N T x (GE T x) (dGE_dxs T x) i.
Proof. intros. eapply core_gam; eauto using E_eul, f5, f6, f7, fS. Qed.
Theorem C24_FloryHuggins_gradient : has_gradient N (GE T) x (dGE_dxs T x).
Proof. eapply core_grad; eauto using E_near, f5, f7, fS. Qed.
Theorem C24_FloryHuggins_gibbs_duhem : gibbs_duhem N (fun y i => ln (gammas T y i)) x.
Proof. eapply core_gd; eauto using E_near, Eg_grad, E_eul, f6, fS. Qed.
Theorem C24_FloryHuggins_dgammas_dns i j : (i < N)%nat -> (j < N)%nat -> partial (intensive N (fun y => gammas T y i)) x j (GibbsExcess_dgammas_dns N T x (GE T x) (dGE_dxs T x) (d2GE_dxixjs T x) i j).
Proof. intros. eapply core_dns; eauto using E_near, Eg_grad, E_eul, EH_sym, f5, f6, f7, f8, fS. Qed.
Theorem C24_FloryHuggins_d2nGE_dninjs i j : (i < N)%nat -> (j < N)%nat -> second_partial N (extensive N (GE T)) x i j (GibbsExcess_d2nGE_dninjs N x (d2GE_dxixjs T x) i j).
Proof. intros. eapply core_d2n; eauto using E_near, Eg_grad, E_eul, EH_sym, f5, f8, fS. Qed.
End At.
End FloryHuggins.
Section Hansen.
Variables (N : nat) (Vs delta_d delta_p delta_h : nat -> R) (alpha : R).
Hypothesis HV : positive N Vs.
Let GE T x := Hansen_GE N T x Vs delta_d delta_p delta_h alpha.
Let dGE_dxs T x := Hansen_dGE_dxs N T x Vs delta_d delta_p delta_h alpha.
Let gammas T x := Hansen_gammas N T x Vs delta_d delta_p delta_h alpha.
Notation A := (hansen_A delta_d delta_p delta_h alpha).
Section At.
Variables (T : R) (x : nat -> R). Hypotheses (HT : 0 < T) (Hx : mole_fractions N x).
Lemma hS : 0 < UL N Vs x. Proof. apply am_S; auto. apply (mf_amounts N x Hx). Qed.
Lemma h5 : near N x (fun y => GE T y = EE N Vs A (Rgas * T) y).
Proof. eapply near_impl. 2: apply near_S; exact hS. intros y Hy. now apply hGE. Qed.
Lemma h6 : near N x (fun y => rsum N y = 1 -> forall i, (i < N)%nat -> gammas T y i = exp ((Eg N Vs A (Rgas * T) y i + Rgas * T) / (Rgas * T))).
Proof.
  eapply near_impl. 2: apply near_S; exact hS. intros y Hy Sy i Hi. unfold gammas, Hansen_gammas, ext_dxs_to_dn_partials. cbv zeta. f_equal. fold (GE T y). fold (dGE_dxs T y). rewrite (rsum_ext N _ (fun j => y j * Eg N Vs A (Rgas * T) y j)) by (intros; unfold dGE_dxs; rewrite hdx by auto; reflexivity). unfold GE, dGE_dxs. rewrite Eg_s, hdx, hGE, Sy by auto. field. pose proof Rgas_pos. lra.
Qed.
Let Hs : rsum N x = 1 := proj2 (mf_amounts N x Hx).
Lemma h7 i : (i < N)%nat -> dGE_dxs T x i = Eg N Vs A (Rgas * T) x i. Proof. intros Hi. apply hdx; auto. apply hS. Qed.
Theorem C24_Hansen_gammas i : (i < N)%nat -> gammas T x i = GibbsExcess_gammas N T x (GE T x) (dGE_dxs T x) i.
Proof. intros. eapply core_gam; eauto using E_eul, h5, h6, h7, hS. Qed.
Theorem C24_Hansen_gradient : has_gradient N (GE T) x (dGE_dxs T x).
Proof. eapply core_grad; eauto using E_near, h5, h7, hS. Qed.
Theorem C24_Hansen_gibbs_duhem : gibbs_duhem N (fun y i => ln (gammas T y i)) x.
Proof. eapply core_gd; eauto using E_near, Eg_grad, E_eul, h6, hS. Qed.
End At.
End Hansen.
Example C24_hypotheses_met : mole_fractions 3 (fun i => match i with O => 0 | S O => 1 / 4 | _ => 3 / 4 end) /\ positive 2 (pair2 (1 / 3) (2 / 3)) /\ rsum 2 (pair2 (1 / 3) (2 / 3)) = 1.
Proof. splits. split. intros [|[|[|i]]] Hi; lra || lia. unfold rsum; cbn; lra. intros [|[|i]] Hi; cbn; lra || lia. unfold rsum; cbn; lra. Qed.
