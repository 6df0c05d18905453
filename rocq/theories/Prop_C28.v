(* C28: conversions between mole-fraction derivatives and mole-number derivatives. *)
From Coq Require Import Reals Lra Lia Arith Bool FunctionalExtensionality.
From Coquelicot Require Import Coquelicot.
From Verif Require Import Base BaseFacts Spec_mix Spec_activity Spec_gradient MixFacts MixDeriv LnphiFacts NrtlFacts ActFacts GradFacts Gen_uniquac Gen_activity.
Open Scope R_scope.

(* mole fractions as functions of one mole number, at any amounts *)
Lemma frac_curve_n n ns k : rsum n ns <> 0 -> (k < n)%nat -> curve_through n (fun i t => fractions n (upd ns k t) i) (ns k) (fractions n ns) (fun i => (dl k i - fractions n ns i) / rsum n ns).
Proof.
  intros Hs Hk i Hi. split. now rewrite upd_self. unfold fractions.
  assert (D1 : is_derive (fun t : R => upd ns k t i) (ns k) (dl k i)) by apply upd_derive.
  assert (D2 : is_derive (fun t : R => rsum n (upd ns k t)) (ns k) 1). { pose proof (partial_lin n ns k (fun _ => 1) Hk) as D. unfold partial in D. eapply is_derive_ext. 2: exact D. intros t. cbn. apply rsum_ext. intros; ring. }
  pose proof (is_derive_div _ _ (ns k) _ _ D1 D2) as D. cbv beta in D. rewrite !upd_self in D. apply (is_derive_eq _ _ _ _ (D Hs)). field. exact Hs.
Qed.
Lemma tot_derive n ns k : (k < n)%nat -> is_derive (fun t : R => rsum n (upd ns k t)) (ns k) 1.
Proof. intros Hk. pose proof (partial_lin n ns k (fun _ => 1) Hk) as D. unfold partial in D. eapply is_derive_ext. 2: exact D. intros t. cbn. apply rsum_ext. intros; ring. Qed.
Section Conv.
Variables (n : nat) (f : (nat -> R) -> R) (ns g : nat -> R).
Hypotheses (Hns : 0 < rsum n ns) (Hg : has_gradient n f (fractions n ns) g).
(* dxs_to_dns: at amounts ns, the result over the total amount is the mole-number derivative of the intensive property *)
Theorem C28_dxs_to_dns i : (i < n)%nat -> partial (intensive n f) ns i (ext_dxs_to_dns n g (fractions n ns) i / rsum n ns).
Proof.
  intros Hi. unfold partial, intensive. pose proof (Hg _ _ _ (frac_curve_n n ns i ltac:(lra) Hi)) as D. eapply is_derive_eq. exact D.
  unfold ext_dxs_to_dns. rewrite (rsum_ext n _ (fun j => (dl i j * g j - fractions n ns j * g j) * / rsum n ns)) by (intros; unfold Rdiv; ring). rewrite rsum_scal_r, rsum_minus, rsum_dl by auto. reflexivity.
Qed.
(* dxs_to_dn_partials: the mole-number derivative of the extensive property n f(x) *)
Theorem C28_dxs_to_dn_partials i : (i < n)%nat -> partial (extensive n f) ns i (ext_dxs_to_dn_partials n g (fractions n ns) (f (fractions n ns)) i).
Proof.
  intros Hi. pose proof (C28_dxs_to_dns i Hi) as D. unfold partial, intensive in D. unfold partial, extensive.
  pose proof (is_derive_mult _ _ (ns i) _ _ (tot_derive n ns i Hi) D (fun a b => Rmult_comm a b)) as E. eapply is_derive_eq. exact E. cbv beta. rewrite !upd_self. unfold ext_dxs_to_dns, ext_dxs_to_dn_partials, plus, mult; cbn. field. lra.
Qed.
(* dns_to_dn_partials: from the mole-number derivatives of the intensive property at unit total amount *)
Theorem C28_dns_to_dn_partials dns i : rsum n ns = 1 -> (i < n)%nat -> partial (intensive n f) ns i (dns i) -> partial (extensive n f) ns i (ext_dns_to_dn_partials dns (f (fractions n ns)) i).
Proof.
  intros Hs Hi D. unfold partial, intensive in D. unfold partial, extensive.
  pose proof (is_derive_mult _ _ (ns i) _ _ (tot_derive n ns i Hi) D (fun a b => Rmult_comm a b)) as E. eapply is_derive_eq. exact E. cbv beta. rewrite !upd_self, Hs. unfold ext_dns_to_dn_partials, plus, mult; cbn. ring.
Qed.
End Conv.
(* d2xs_to_dxdn_partials: if row i of d2 is the gradient of the quantity h i, then, for symmetric d2, entry i j is the mole-number derivative of h i; the row sums are those of the transposed entry *)
Theorem C28_d2xs_to_dxdn_partials n (h : nat -> (nat -> R) -> R) x d2 i j : rsum n x = 1 -> (i < n)%nat -> (j < n)%nat ->
  has_gradient n (h i) x (d2 i) -> rsum n (fun k => x k * d2 i k) = rsum n (fun k => x k * d2 j k) ->
  partial (intensive n (h i)) x j (ext_d2xs_to_dxdn_partials n d2 x i j).
Proof.
  intros Hs Hi Hj Hg E. assert (F : fractions n x = x) by (apply functional_extensionality; intros; unfold fractions; rewrite Hs; field). rewrite <- F in Hg.
  pose proof (C28_dxs_to_dns n (h i) x (d2 i) ltac:(lra) Hg j Hj) as D. eapply partial_val. exact D. unfold ext_dxs_to_dns, ext_d2xs_to_dxdn_partials. rewrite F, Hs, E. field.
Qed.
(* the row-sum condition is needed: for h_0 = x_0^2 and h_1 = 0 the entry is not the derivative *)
Theorem C28_d2xs_to_dxdn_partials_refuted : exists (h : nat -> (nat -> R) -> R) x d2, mole_fractions 2 x /\ (forall i, (i < 2)%nat -> has_gradient 2 (h i) x (d2 i)) /\ (forall i j, d2 i j = d2 j i) /\
  exists v, partial (intensive 2 (h 0%nat)) x 1 v /\ v <> ext_d2xs_to_dxdn_partials 2 d2 x 0 1.
Proof.
  pose (h := fun (i : nat) (y : nat -> R) => match i with O => y 0%nat ^ 2 | _ => 0 end). pose (d2 := fun i j : nat => match i, j with O, O => 1 | _, _ => 0 end). pose (x := pair2 (1 / 2) (1 / 2)).
  assert (Hx : mole_fractions 2 x). { split. intros [|[|i]] H; cbn; try lra. unfold x, rsum. cbn. lra. }
  assert (Hg : forall i, (i < 2)%nat -> has_gradient 2 (h i) x (d2 i)).
  { intros i Hi c t dc Hc. destruct i as [|[|i]]; [| |lia]; unfold h, d2, rsum; cbn [loop].
    - destruct (Hc 0%nat ltac:(lia)) as [E D]. eapply is_derive_eq. apply (is_derive_pow (c 0%nat) 2 t _ D). rewrite E. unfold x, pair2. cbn. lra.
    - eapply is_derive_eq. apply @is_derive_const. cbn. change zero with 0. ring. }
  exists h, x, d2. split. exact Hx. split. exact Hg. split. intros [|i] [|j]; reflexivity.
  assert (F : fractions 2 x = x) by now apply fractions_of_fractions. exists (ext_dxs_to_dns 2 (d2 0%nat) (fractions 2 x) 1 / rsum 2 x). split.
  apply C28_dxs_to_dns. destruct Hx as [_ ->]; lra. rewrite F. apply Hg. lia. lia.
  rewrite F. destruct Hx as [_ ->]. unfold ext_dxs_to_dns, ext_d2xs_to_dxdn_partials, d2, x, pair2, rsum. cbn. lra.
Qed.
(* d2ns_to_dn2_partials (thermo/utils/functional.py): second mole-number derivatives of n f from the first and second mole-number derivatives of f, at unit total amount *)
Theorem C28_d2ns_to_dn2_partials n (f : (nat -> R) -> R) (ns : nat -> R) (d : nat -> (nat -> R) -> R) (d2 : nat -> nat -> R) i j : rsum n ns = 1 -> (i < n)%nat -> (j < n)%nat ->
  near n ns (fun y => partial f y i (d i y)) -> partial f ns j (d j ns) -> partial (d i) ns j (d2 i j) ->
  second_partial n (fun y => rsum n y * f y) ns i j (d2ns_to_dn2_partials d2 (fun k => d k ns) n i j).
Proof.
  intros Hs Hi Hj H1 H2 H3. exists (fun y => f y + rsum n y * d i y). split.
  - eapply near_impl. 2: exact H1. intros y Hy. unfold partial in *. pose proof (is_derive_mult _ _ (y i) _ _ (tot_derive n y i Hi) Hy (fun a b => Rmult_comm a b)) as E. eapply is_derive_eq. exact E. cbv beta. rewrite !upd_self. unfold plus, mult; cbn. ring.
  - unfold d2ns_to_dn2_partials. cbv zeta. rewrite loop_updm_lt by auto. unfold partial in *. pose proof (is_derive_mult _ _ (ns j) _ _ (tot_derive n ns j Hj) H3 (fun a b => Rmult_comm a b)) as E. eapply is_derive_eq. apply @is_derive_plus. exact H2. exact E. cbv beta. rewrite !upd_self, Hs. unfold plus, mult; cbn. ring.
Qed.
(* ideal mixing entropy x_0 ln x_0 + x_1 ln x_1 at x = (1/4, 3/4): the hypotheses hold with a gradient that is not zero *)
Example C28_hypotheses_met : has_gradient 2 (fun y => rsum 2 (fun i => y i * ln (y i))) (fractions 2 (pair2 1 3)) (fun i => ln (fractions 2 (pair2 1 3) i) + 1) /\ 0 < rsum 2 (pair2 1 3).
Proof.
  split; [|unfold rsum; cbn; lra]. assert (P : forall i, (i < 2)%nat -> 0 < fractions 2 (pair2 1 3) i) by (intros [|[|i]] H; unfold fractions, rsum; cbn; lra || lia).
  intros c t dc Hc. apply is_derive_rsum. intros i Hi. destruct (Hc i Hi) as [E D]. specialize (P i Hi). rewrite <- E in *. eapply is_derive_eq. apply (is_derive_mult (c i) (fun s => ln (c i s))). exact D. apply (is_derive_comp ln). apply is_derive_Reals. now apply derivable_pt_lim_ln. exact D. intros; apply Rmult_comm. unfold plus, mult, scal; cbn. unfold mult; cbn. field. lra.
Qed.
