(* C26: excess enthalpy, entropy and heat capacity of a GibbsExcess model are those thermodynamics derives from GE(T, x). *)
From Coq Require Import Reals Lra Lia Arith Bool FunctionalExtensionality.
From Coquelicot Require Import Coquelicot.
From Verif Require Import Base BaseFacts Spec_mix Spec_activity Spec_gradient MixFacts MixDeriv LnphiFacts NrtlFacts ActFacts GradFacts Gen_uniquac Gen_activity Prop_C28.
Open Scope R_scope.

Section Excess.
(* G is the excess Gibbs energy of a model, G1 and G2 what its dGE_dT and d2GE_dT2 return *)
Variables (n : nat) (G G1 G2 : R -> (nat -> R) -> R).
Let HE T x := GibbsExcess_HE T (G T x) (G1 T x).
Let SE T x := GibbsExcess_SE T (G T x) (G1 T x).
Section AtT.
Variables (T : R) (x : nat -> R).
Hypotheses (HT : T <> 0) (D1 : is_derive (fun t => G t x) T (G1 T x)).
Theorem C26_SE : is_derive (fun t => G t x) T (- SE T x).
Proof. eapply is_derive_eq. exact D1. unfold SE, GibbsExcess_SE, GibbsExcess_HE. field. exact HT. Qed.
Theorem C26_GE_HE_TSE : G T x = HE T x - T * SE T x.
Proof. unfold SE, HE, GibbsExcess_SE, GibbsExcess_HE. field. exact HT. Qed.
(* Gibbs-Helmholtz *)
Theorem C26_HE : is_derive (fun t => G t x / t) T (- HE T x / T ^ 2).
Proof.
  eapply is_derive_eq. apply (is_derive_div (fun t => G t x) (fun t => t) T). exact D1. apply @is_derive_id. exact HT. change one with 1. unfold HE, GibbsExcess_HE. field. exact HT.
Qed.
Hypothesis D2 : is_derive (fun t => G1 t x) T (G2 T x).
Theorem C26_dHE_dT : is_derive (fun t => HE t x) T (GibbsExcess_dHE_dT T (G2 T x)).
Proof.
  unfold HE, GibbsExcess_HE, GibbsExcess_dHE_dT. eapply is_derive_eq. apply (is_derive_plus (fun t => - t * G1 t x) (fun t => G t x)). apply (is_derive_mult Ropp (fun t => G1 t x)). apply (is_derive_opp (fun t : R => t) T 1). apply @is_derive_id. exact D2. intros; apply Rmult_comm. exact D1. unfold plus, mult, opp, one; cbn. ring.
Qed.
Theorem C26_dSE_dT : locally T (fun t => t <> 0) -> is_derive (fun t => SE t x) T (GibbsExcess_dSE_dT T (G T x) (G1 T x) (G2 T x)).
Proof.
  intros HL. apply (is_derive_ext_loc (fun t => - G1 t x)). eapply filter_imp. 2: exact HL. intros t Ht. change (- G1 t x = SE t x). unfold SE, GibbsExcess_SE, GibbsExcess_HE. field. exact Ht.
  eapply is_derive_eq. apply (is_derive_opp (fun t => G1 t x)). exact D2. unfold GibbsExcess_dSE_dT, GibbsExcess_dHE_dT, GibbsExcess_HE, opp; cbn. field. exact HT.
Qed.
(* CpE = T dSE/dT *)
Theorem C26_CpE_TdSE : GibbsExcess_dHE_dT T (G2 T x) = T * GibbsExcess_dSE_dT T (G T x) (G1 T x) (G2 T x).
Proof. unfold GibbsExcess_dSE_dT, GibbsExcess_dHE_dT, GibbsExcess_HE. field. exact HT. Qed.
End AtT.
Section AtX.
(* ns are mole numbers, x their mole fractions; g and h are what dGE_dxs and d2GE_dTdxs return *)
Variables (T : R) (ns g h : nat -> R).
Let x := fractions n ns.
Hypotheses (HT : T <> 0) (Hns : 0 < rsum n ns) (Hg : has_gradient n (G T) x g) (Hh : has_gradient n (G1 T) x h).
Theorem C26_dHE_dxs : has_gradient n (HE T) x (GibbsExcess_dHE_dxs n T g h).
Proof.
  apply (grad_ext n x _ (fun i => - T * h i + g i)). intros k Hk. unfold GibbsExcess_dHE_dxs, gibbs_excess_dHE_dxs. cbv zeta. now rewrite (loop_upd_lt n).
  intros c t dc Hc. rewrite (rsum_ext n _ (fun i => - T * (h i * dc i) + g i * dc i)) by (intros; ring). rewrite rsum_plus, rsum_scal_l. unfold HE, GibbsExcess_HE. apply @is_derive_plus. 2: now apply Hg. apply is_derive_scal. now apply Hh.
Qed.
Theorem C26_dSE_dxs : has_gradient n (SE T) x (GibbsExcess_dSE_dxs h).
Proof.
  intros c t dc Hc. unfold GibbsExcess_dSE_dxs. rewrite (rsum_ext n _ (fun i => - (h i * dc i))) by (intros; ring). rewrite rsum_opp. apply (is_derive_ext (fun s => - G1 T (fun i => c i s))). intros s. change (- G1 T (fun i => c i s) = SE T (fun i => c i s)). unfold SE, GibbsExcess_SE, GibbsExcess_HE. field. exact HT. apply (is_derive_opp (fun s => G1 T (fun i => c i s))). now apply Hh.
Qed.
Theorem C26_dHE_dns i : (i < n)%nat -> partial (intensive n (HE T)) ns i (GibbsExcess_dHE_dns n T x g h i / rsum n ns).
Proof. intros. apply (C28_dxs_to_dns n (HE T) ns (GibbsExcess_dHE_dxs n T g h)); auto. apply C26_dHE_dxs. Qed.
Theorem C26_dnHE_dns i : (i < n)%nat -> partial (extensive n (HE T)) ns i (GibbsExcess_dnHE_dns n T x (G T x) (G1 T x) g h i).
Proof. intros. apply (C28_dxs_to_dn_partials n (HE T) ns (GibbsExcess_dHE_dxs n T g h)); auto. apply C26_dHE_dxs. Qed.
Theorem C26_dSE_dns i : (i < n)%nat -> partial (intensive n (SE T)) ns i (GibbsExcess_dSE_dns n x h i / rsum n ns).
Proof. intros. apply (C28_dxs_to_dns n (SE T) ns (GibbsExcess_dSE_dxs h)); auto. apply C26_dSE_dxs. Qed.
Theorem C26_dnSE_dns i : (i < n)%nat -> partial (extensive n (SE T)) ns i (GibbsExcess_dnSE_dns n T x (G T x) (G1 T x) h i).
Proof. intros. apply (C28_dxs_to_dn_partials n (SE T) ns (GibbsExcess_dSE_dxs h)); auto. apply C26_dSE_dxs. Qed.
Theorem C26_dGE_dns i : (i < n)%nat -> partial (intensive n (G T)) ns i (GibbsExcess_dGE_dns n x g i / rsum n ns).
Proof. intros. now apply (C28_dxs_to_dns n (G T) ns g). Qed.
Theorem C26_dnGE_dns i : (i < n)%nat -> partial (extensive n (G T)) ns i (GibbsExcess_dnGE_dns n x (G T x) g i).
Proof. intros. now apply (C28_dxs_to_dn_partials n (G T) ns g). Qed.
Theorem C26_d2GE_dTdns i : (i < n)%nat -> partial (intensive n (G1 T)) ns i (GibbsExcess_d2GE_dTdns n x h i / rsum n ns).
Proof. intros. now apply (C28_dxs_to_dns n (G1 T) ns h). Qed.
Theorem C26_d2nGE_dTdns i : (i < n)%nat -> partial (extensive n (G1 T)) ns i (GibbsExcess_d2nGE_dTdns n x (G1 T x) h i).
Proof. intros. eapply partial_val. apply (C28_dxs_to_dn_partials n (G1 T) ns h); auto. unfold GibbsExcess_d2nGE_dTdns, GibbsExcess_d2GE_dTdns, ext_dns_to_dn_partials, ext_dxs_to_dns, ext_dxs_to_dn_partials. fold x. ring. Qed.
End AtX.
End Excess.
(* a two-suffix Margules model with a temperature dependent constant meets all the hypotheses *)
Example C26_hypotheses_met : exists (G G1 G2 : R -> (nat -> R) -> R) (T : R) (ns g h : nat -> R), T <> 0 /\ locally T (fun t => t <> 0) /\ 0 < rsum 2 ns /\
  is_derive (fun t => G t (fractions 2 ns)) T (G1 T (fractions 2 ns)) /\ is_derive (fun t => G1 t (fractions 2 ns)) T (G2 T (fractions 2 ns)) /\ G2 T (fractions 2 ns) <> 0 /\
  has_gradient 2 (G T) (fractions 2 ns) g /\ has_gradient 2 (G1 T) (fractions 2 ns) h /\ g 0%nat <> g 1%nat.
Proof.
  exists (fun T x => x 0%nat * x 1%nat * (T * ln T)), (fun T x => x 0%nat * x 1%nat * (ln T + 1)), (fun T x => x 0%nat * x 1%nat * / T), (exp 1), (pair2 1 3), (pair2 (3 / 4 * (exp 1 * 1)) (1 / 4 * (exp 1 * 1))), (pair2 (3 / 4 * 2) (1 / 4 * 2)).
  pose proof (exp_pos 1) as P. split. lra. split. apply (locally_interval _ _ (Finite 0) p_infty). exact P. exact I. intros y H _. cbn in H. lra. split. unfold rsum; cbn; lra.
  assert (F0 : fractions 2 (pair2 1 3) 0%nat = 1 / 4) by (unfold fractions, rsum; cbn; field). assert (F1 : fractions 2 (pair2 1 3) 1%nat = 3 / 4) by (unfold fractions, rsum; cbn; field).
  split. rewrite F0, F1. auto_derive. exact P. field. lra. split. rewrite F0, F1. auto_derive. exact P. field. lra. split. rewrite F0, F1. assert (0 < / exp 1) by now apply Rinv_0_lt_compat. nra.
  assert (HG : forall k, has_gradient 2 (fun x => x 0%nat * x 1%nat * k) (fractions 2 (pair2 1 3)) (pair2 (3 / 4 * k) (1 / 4 * k))).
  { intros k c t dc Hc. destruct (Hc 0%nat ltac:(lia)) as [E0 D0], (Hc 1%nat ltac:(lia)) as [E1 D1]. eapply is_derive_eq. apply (is_derive_mult (fun s => c 0%nat s * c 1%nat s) (fun _ => k)). apply (is_derive_mult (c 0%nat) (c 1%nat)). exact D0. exact D1. intros; apply Rmult_comm. apply @is_derive_const. intros; apply Rmult_comm. rewrite E0, E1, F0, F1. unfold rsum, plus, mult, zero, pair2; cbn. field. }
  rewrite ln_exp. split. apply HG. split. replace (1 + 1) with 2 by ring. apply HG. unfold pair2. lra.
Qed.
