(* Closed forms of the generated methods of the activity coefficient liquid. *)
From Coq Require Import Reals Lra Lia Bool.
From Coquelicot Require Import Coquelicot.
From Verif Require Import Base BaseFacts Spec_phase PhaseFacts Spec_gex Gen_gex Model_gex.
Open Scope R_scope.
Ltac asR := match goal with |- @eq _ ?a ?b => change (@eq R a b) end.
Lemma near_pos (t : R -> R) s t' : is_derive t s t' -> 0 < t s -> locally s (fun x => 0 < t x).
Proof. intros H P. apply (ex_derive_continuous t s (ex_intro _ _ H)). now apply open_gt. Qed.
(* properties that agree at positive temperatures and pressures have the same differentials there *)
Lemma D_pos X Y T P a b : 0 < T -> 0 < P -> (forall T P, 0 < T -> 0 < P -> X T P = Y T P) -> differential X T P a b -> differential Y T P a b.
Proof.
  intros PT PP E H t v s t' v' E1 E2 Ht Hv. eapply is_derive_ext_loc; [|apply (H t v s t' v'); auto].
  assert (L1 : locally s (fun x => 0 < t x)) by (apply (near_pos t s t'); [exact Ht|now rewrite E1]).
  assert (L2 : locally s (fun x => 0 < v x)) by (apply (near_pos v s v'); [exact Hv|now rewrite E2]).
  generalize (filter_and (F := locally s) _ _ L1 L2). apply filter_imp. intros x [A B]. now apply E.
Qed.
Section Facts.
Variable L : liquid.
Hypothesis HC : consistent L.
Notation N := (n_comp L). Notation z := (zs_ L).
Notation RT T := (Rgas * T).
Definition w i T P := if poynting L then vsat L i T * (P - psat L i T) / (RT T) else 0.
Definition wT i T P := if poynting L then (vsat1 L i T * (P - psat L i T) - vsat L i T * psat1 L i T) / (RT T) - vsat L i T * (P - psat L i T) / (RT T * T) else 0.
Definition wP i T := if poynting L then vsat L i T / (RT T) else 0.
Definition wTT i T P := if poynting L then (vsat2 L i T * (P - psat L i T) - 2 * (vsat1 L i T * psat1 L i T) - vsat L i T * psat2 L i T) / (RT T)
  - 2 * (vsat1 L i T * (P - psat L i T) - vsat L i T * psat1 L i T) / (RT T * T) + 2 * vsat L i T * (P - psat L i T) / (RT T * T * T) else 0.
Definition wTP i T := if poynting L then vsat1 L i T / (RT T) - vsat L i T / (RT T * T) else 0.
Notation f := (phis_sat L). Notation f1 := (dphis_sat_dT L). Notation f2 := (d2phis_sat_dT2 L).
(* the logarithm of the fugacity of the pure liquid, and its derivatives *)
Definition u i T P := ln (psat L i T) + w i T P + ln (f T i).
Definition uT i T P := psat1 L i T / psat L i T + wT i T P + f1 T i / f T i.
Definition uTT i T P := psat2 L i T / psat L i T - (psat1 L i T / psat L i T) ^ 2 + wTT i T P + (f2 T i / f T i - (f1 T i / f T i) ^ 2).
Variables (T P : R).
Hypothesis (PT : 0 < T) (PP : 0 < P).
Lemma Rg_pos : 0 < Rgas. Proof. exact Rgas_pos. Qed.
Lemma f_pos i : (i < N)%nat -> 0 < f T i.
Proof. intros Hi. unfold phis_sat. destruct (phi_sat L); [apply (c_fs L HC i T Hi PT)|lra]. Qed.
Lemma Poy_eq i : (i < N)%nat -> Poyntings L T P i = exp (w i T P).
Proof.
  intros Hi. unfold Poyntings, GX_Poyntings, w. destruct (poynting L); cbn [negb]; cbv zeta; [|now rewrite exp_0].
  f_equal. pose proof Rgas_neq. field. split; [lra|assumption].
Qed.
Lemma dPoy_eq i : (i < N)%nat -> dPoyntings_dT L T P i = wT i T P * exp (w i T P).
Proof.
  intros Hi. unfold dPoyntings_dT, GX_dPoyntings_dT, wT, w. pose proof Rgas_neq. destruct (poynting L); cbn [negb]; cbv zeta; [|ring].
  rewrite loop_upd_lt by auto. replace (1 / Rgas * (1 / T * vsat L i T * (P - psat L i T))) with (vsat L i T * (P - psat L i T) / (RT T)) by (field; split; lra).
  generalize (exp (vsat L i T * (P - psat L i T) / (RT T))). intros e. field. split; lra.
Qed.
Lemma d2Poy_eq i : (i < N)%nat -> d2Poyntings_dT2 L T P i = (wTT i T P + wT i T P ^ 2) * exp (w i T P).
Proof.
  intros Hi. unfold d2Poyntings_dT2, GX_d2Poyntings_dT2, wTT, wT, w. pose proof Rgas_neq. destruct (poynting L); cbn [negb]; cbv zeta; [|ring].
  rewrite loop_upd_lt by auto. replace (vsat L i T * (P - psat L i T) * (1 / T) * (1 / Rgas)) with (vsat L i T * (P - psat L i T) / (RT T)) by (field; split; lra).
  generalize (exp (vsat L i T * (P - psat L i T) / (RT T))). intros e. field. split; lra.
Qed.
Lemma dPoyP_eq i : (i < N)%nat -> dPoyntings_dP L T P i = wP i T * exp (w i T P).
Proof.
  intros Hi. unfold dPoyntings_dP, GX_dPoyntings_dP, wP, w. pose proof Rgas_neq. destruct (poynting L); cbn [negb]; cbv zeta; [|ring].
  rewrite loop_upd_lt by auto. replace (vsat L i T / (RT T) * (P - psat L i T)) with (vsat L i T * (P - psat L i T) / (RT T)) by (field; split; lra). reflexivity.
Qed.
Lemma d2PoyPT_eq i : (i < N)%nat -> d2Poyntings_dPdT L T P i = (wTP i T + wP i T * wT i T P) * exp (w i T P).
Proof.
  intros Hi. pose proof Rgas_neq. pose proof (Poy_eq i Hi) as E. unfold Poyntings in E. unfold d2Poyntings_dPdT, GX_d2Poyntings_dPdT, wTP, wP, wT. destruct (poynting L) eqn:Eb; cbn [negb]; cbv zeta; [|ring].
  rewrite loop_upd_lt by auto. rewrite E. generalize (exp (w i T P)). intros e. field. split; lra.
Qed.
Lemma phi_eq i : (i < N)%nat -> phis L T P i = gam L i T * psat L i T * exp (w i T P) * f T i / P.
Proof. intros Hi. unfold phis, GX_phis. cbv zeta. fold (Poyntings L T P). rewrite (Poy_eq i Hi). field. lra. Qed.
Lemma dphi_eq i : (i < N)%nat -> dphis_dT L T P i = (gam L i T * psat L i T * exp (w i T P) * f1 T i + f T i * (psat L i T * exp (w i T P)) * gam1 L i T
   + psat L i T * (gam L i T * f T i) * (wT i T P * exp (w i T P)) + exp (w i T P) * (gam L i T * f T i) * psat1 L i T) / P.
Proof.
  intros Hi. unfold dphis_dT, GX_dphis_dT. cbv zeta. rewrite loop_upd_lt by auto. fold (Poyntings L T P) (dPoyntings_dT L T P).
  assert (E1 : (if poynting L then Poyntings L T P else fun _ => 1) i = exp (w i T P)) by (destruct (poynting L) eqn:E; [apply Poy_eq; auto|unfold w; rewrite E; now rewrite exp_0]).
  assert (E2 : (if poynting L then dPoyntings_dT L T P else fun _ => 0) i = wT i T P * exp (w i T P)) by (destruct (poynting L) eqn:E; [apply dPoy_eq; auto|unfold wT; rewrite E; ring]).
  assert (E3 : (if phi_sat L then phis_sat L T else fun _ => 1) i = f T i) by (unfold phis_sat; destruct (phi_sat L); reflexivity).
  assert (E4 : (if phi_sat L then dphis_sat_dT L T else fun _ => 0) i = f1 T i) by (unfold dphis_sat_dT; destruct (phi_sat L); reflexivity).
  rewrite E1, E2, E3, E4. field. lra.
Qed.
Lemma exp_nz x : exp x <> 0. Proof. pose proof (exp_pos x). lra. Qed.
Ltac cmp := let i := fresh "i" in let Hi := fresh "Hi" in apply rsum_ext; intros i Hi; pose proof (exp_nz (w i T P)); pose proof (f_pos i Hi); pose proof (proj1 (c_ps L HC i T Hi PT));
  rewrite ?(Poy_eq i Hi), ?(dPoy_eq i Hi), ?(d2Poy_eq i Hi), ?(dPoyP_eq i Hi), ?(d2PoyPT_eq i Hi).
Lemma H_eq : hvap_caloric L = false -> lq_H L T P = rsum N (fun i => z i * (cpig_int L i T - Rgas * T * T * uT i T P)) + (if ideal L then 0 else HE L T).
Proof.
  intros E0. unfold lq_H, GX_H. rewrite E0. cbv zeta. fold (Poyntings L T P) (dPoyntings_dT L T P). rewrite !loop_rsum.
  match goal with |- (if negb (ideal L) then ?X + _ else ?X) = _ => assert (EX : X = rsum N (fun i => z i * (cpig_int L i T - Rgas * T * T * uT i T P))) end.
  - destruct (poynting L) eqn:Ea, (phi_sat L) eqn:Eb; cbn [andb]; rewrite Rplus_0_l; cmp; unfold uT, dPsats_dT_over_Psats.
    + field. repeat split; lra.
    + assert (Ef : f1 T i = 0) by (unfold dphis_sat_dT; now rewrite Eb). rewrite Ef. field. repeat split; lra.
    + assert (Ew : wT i T P = 0) by (unfold wT; now rewrite Ea). rewrite Ew. field. repeat split; lra.
    + assert (Ef : f1 T i = 0) by (unfold dphis_sat_dT; now rewrite Eb). assert (Ew : wT i T P = 0) by (unfold wT; now rewrite Ea). rewrite Ef, Ew. field. repeat split; lra.
  - rewrite EX. destruct (ideal L); cbn [negb]; lra.
Qed.
Lemma lnP_inv : ln (1 / P) = - ln P. Proof. unfold Rdiv. rewrite Rmult_1_l. now apply ln_Rinv. Qed.
Lemma S_eq : hvap_caloric L = false -> lq_S L T P = Rgas * (- rsum N (fun i => z i * log_z L i) - ln (P / P_ref L))
   - rsum N (fun i => z i * (Rgas * (T * uT i T P + u i T P - ln P) - cpig_int_T L i T)) + (if ideal L then 0 else SE L T).
Proof.
  intros E0. unfold lq_S, GX_S. rewrite E0. cbv zeta. fold (Poyntings L T P) (dPoyntings_dT L T P). rewrite !loop_rsub.
  replace (P * (1 / P_ref L)) with (P / P_ref L) by (field; pose proof (c_P L HC); lra).
  match goal with |- (if negb (ideal L) then ?X + _ else ?X) = _ => assert (EX : X = Rgas * (- rsum N (fun i => z i * log_z L i) - ln (P / P_ref L))
   - rsum N (fun i => z i * (Rgas * (T * uT i T P + u i T P - ln P) - cpig_int_T L i T))) end.
  - destruct (poynting L) eqn:Ea, (phi_sat L) eqn:Eb; cbn [andb]; (replace ((0 - rsum N (fun i => z i * log_z L i) - ln (P / P_ref L)) * Rgas) with (Rgas * (- rsum N (fun i => z i * log_z L i) - ln (P / P_ref L))) by ring); f_equal; cmp; unfold uT, u, dPsats_dT_over_Psats, lnPsats.
    + rewrite ln_mult, ln_mult, ln_exp, lnP_inv; [|apply exp_pos|assumption|apply Rmult_lt_0_compat; [apply exp_pos|assumption]|apply Rdiv_lt_0_compat; lra]. field. repeat split; lra.
    + assert (Ef : f1 T i = 0) by (unfold dphis_sat_dT; now rewrite Eb). assert (Eg : f T i = 1) by (unfold phis_sat; now rewrite Eb). rewrite Ef, Eg, ln_1.
      rewrite ln_mult, ln_exp, lnP_inv; [|apply exp_pos|apply Rdiv_lt_0_compat; lra]. field. repeat split; lra.
    + assert (Ew : wT i T P = 0) by (unfold wT; now rewrite Ea). assert (Ew' : w i T P = 0) by (unfold w; now rewrite Ea). rewrite Ew, Ew'.
      rewrite ln_mult, lnP_inv; [|assumption|apply Rdiv_lt_0_compat; lra]. field. repeat split; lra.
    + assert (Ef : f1 T i = 0) by (unfold dphis_sat_dT; now rewrite Eb). assert (Eg : f T i = 1) by (unfold phis_sat; now rewrite Eb). rewrite Ef, Eg, ln_1.
      assert (Ew : wT i T P = 0) by (unfold wT; now rewrite Ea). assert (Ew' : w i T P = 0) by (unfold w; now rewrite Ea). rewrite Ew, Ew', lnP_inv. field. repeat split; lra.
  - rewrite EX. destruct (ideal L); cbn [negb]; lra.
Qed.
Lemma sum_flip n g h : (forall i, (i < n)%nat -> - g i = h i) -> 0 - rsum n g = rsum n h.
Proof. intros E. rewrite Rminus_0_l, <- rsum_opp. now apply rsum_ext. Qed.
Ltac cmpf := let i := fresh "i" in let Hi := fresh "Hi" in apply sum_flip; intros i Hi; pose proof (exp_nz (w i T P)); pose proof (f_pos i Hi); pose proof (proj1 (c_ps L HC i T Hi PT));
  rewrite ?(Poy_eq i Hi), ?(dPoy_eq i Hi), ?(d2Poy_eq i Hi), ?(dPoyP_eq i Hi), ?(d2PoyPT_eq i Hi).
Lemma Cp_eq : lq_Cp L T P = rsum N (fun i => z i * (cpig L i T - Rgas * T * T * uTT i T P - 2 * Rgas * T * uT i T P)) + (if ideal L then 0 else CpE L T).
Proof.
  unfold lq_Cp, GX_Cp. cbv zeta. fold (Poyntings L T P) (dPoyntings_dT L T P) (d2Poyntings_dT2 L T P). rewrite !loop_rsub.
  match goal with |- (if negb (ideal L) then ?X + _ else ?X) = _ => assert (EX : X = rsum N (fun i => z i * (cpig L i T - Rgas * T * T * uTT i T P - 2 * Rgas * T * uT i T P))) end.
  - destruct (poynting L) eqn:Ea, (phi_sat L) eqn:Eb; cbn [andb]; cmpf; unfold uT, uTT, dPsats_dT_over_Psats, d2Psats_dT2_over_Psats;
    try (assert (Ef : f1 T i = 0) by (unfold dphis_sat_dT; now rewrite Eb); assert (Eg : f2 T i = 0) by (unfold d2phis_sat_dT2; now rewrite Eb); rewrite Ef, Eg);
    try (assert (Ew : wT i T P = 0) by (unfold wT; now rewrite Ea); assert (Ew' : wTT i T P = 0) by (unfold wTT; now rewrite Ea); rewrite Ew, Ew');
    field; repeat split; lra.
  - rewrite EX. destruct (ideal L); cbn [negb]; lra.
Qed.
Lemma dS_dT_eq : lq_dS_dT L T P = rsum N (fun i => z i * (cpig L i T / T - Rgas * T * uTT i T P - 2 * Rgas * uT i T P)) + (if ideal L then 0 else dSE_dT L T).
Proof.
  unfold lq_dS_dT, GX_dS_dT. cbv zeta. fold (Poyntings L T P) (dPoyntings_dT L T P) (d2Poyntings_dT2 L T P). rewrite !loop_rsub.
  match goal with |- (if negb (ideal L) then ?X + _ else ?X) = _ => assert (EX : X = rsum N (fun i => z i * (cpig L i T / T - Rgas * T * uTT i T P - 2 * Rgas * uT i T P))) end.
  - destruct (poynting L) eqn:Ea, (phi_sat L) eqn:Eb; cbn [andb]; cmpf; unfold uT, uTT, dPsats_dT_over_Psats, d2Psats_dT2_over_Psats;
    try (assert (Ef : f1 T i = 0) by (unfold dphis_sat_dT; now rewrite Eb); assert (Eg : f2 T i = 0) by (unfold d2phis_sat_dT2; now rewrite Eb); rewrite Ef, Eg);
    try (assert (Ew : wT i T P = 0) by (unfold wT; now rewrite Ea); assert (Ew' : wTT i T P = 0) by (unfold wTT; now rewrite Ea); rewrite Ew, Ew');
    field; repeat split; lra.
  - rewrite EX. destruct (ideal L); cbn [negb]; lra.
Qed.
Lemma dH_dP_eq : lq_dH_dP L T P = rsum N (fun i => z i * (- Rgas * T * T * wTP i T)).
Proof.
  unfold lq_dH_dP, GX_dH_dP. cbv zeta. fold (Poyntings L T P) (dPoyntings_dT L T P) (dPoyntings_dP L T P) (d2Poyntings_dPdT L T P).
  destruct (poynting L) eqn:Ea.
  - rewrite loop_rsum, Rplus_0_l. cmp. field. lra.
  - symmetry. apply rsum_eq_0. intros i Hi. unfold wTP. rewrite Ea. ring.
Qed.
Lemma dS_dP_eq : lq_dS_dP L T P = - rsum N (fun i => z i * (Rgas * (wP i T + T * wTP i T))).
Proof.
  unfold lq_dS_dP, GX_dS_dP. cbv zeta. fold (Poyntings L T P) (dPoyntings_dT L T P) (dPoyntings_dP L T P) (d2Poyntings_dPdT L T P).
  destruct (poynting L) eqn:Ea.
  - rewrite loop_rsub. assert (Ez : rsum N (fun i => z i * (Rgas / P)) = Rgas / P) by (rewrite rsum_scal_r, (c_z L HC); ring).
    replace (- Rgas * (1 / P)) with (- rsum N (fun i => z i * (Rgas / P))) by (rewrite Ez; field; lra).
    match goal with |- - ?a - ?b = - ?c => replace c with (a + b); [ring|] end. rewrite <- rsum_plus. cmp. field. split; lra.
  - symmetry. apply Ropp_eq_0_compat. apply rsum_eq_0. intros i Hi. unfold wP, wTP. rewrite Ea. ring.
Qed.
(* derivatives of the pieces *)
Lemma D_fun (g : R -> R) g' : is_derive g T g' -> differential (fun T P => g T) T P g' 0.
Proof. intros Hg. eapply D_eq; [apply (D_comp T P g g' (fun T P => T)); [exact Hg|apply D_T]|ring|ring]. Qed.
Section One.
Variable i : nat. Hypothesis Hi : (i < N)%nat.
Lemma D_w : differential (w i) T P (wT i T P) (wP i T).
Proof.
  pose proof Rgas_neq. unfold w, wT, wP. destruct (poynting L).
  - pose proof (D_fun _ _ (proj1 (proj2 (c_ps L HC i T Hi PT)))) as L1. pose proof (D_fun _ _ (proj1 (c_vs L HC i T Hi PT))) as L2.
    eapply D_eq; [dif; cbv beta; apply Rmult_integral_contrapositive_currified; lra|cbv beta; field; lra|cbv beta; field; lra].
  - apply D_const.
Qed.
Lemma D_wT : differential (wT i) T P (wTT i T P) (wTP i T).
Proof.
  pose proof Rgas_pos. unfold wT, wTT, wTP. destruct (poynting L).
  - pose proof (D_fun _ _ (proj1 (proj2 (c_ps L HC i T Hi PT)))) as L1. pose proof (D_fun _ _ (proj1 (c_vs L HC i T Hi PT))) as L2.
    pose proof (D_fun _ _ (proj2 (proj2 (c_ps L HC i T Hi PT)))) as L3. pose proof (D_fun _ _ (proj2 (c_vs L HC i T Hi PT))) as L4.
    eapply D_eq; [dif; cbv beta; apply Rgt_not_eq; repeat apply Rmult_lt_0_compat; assumption|cbv beta; field; lra|cbv beta; field; lra].
  - apply D_const.
Qed.
Lemma D_f : differential (fun T P => f T i) T P (f1 T i) 0 /\ differential (fun T P => f1 T i) T P (f2 T i) 0.
Proof.
  unfold phis_sat, dphis_sat_dT, d2phis_sat_dT2. destruct (phi_sat L).
  - split; [apply (D_fun (fsat L i))|apply (D_fun (fsat1 L i))]; apply (c_fs L HC i T Hi PT).
  - split; apply D_const.
Qed.
Lemma D_u : differential (u i) T P (uT i T P) (wP i T).
Proof.
  pose proof (D_fun _ _ (proj1 (proj2 (c_ps L HC i T Hi PT)))) as L1. pose proof D_w as L2. destruct D_f as [L3 _]. pose proof (f_pos i Hi). pose proof (proj1 (c_ps L HC i T Hi PT)).
  unfold u, uT. eapply D_eq; [dif; cbv beta; assumption|cbv beta; field; lra|cbv beta; field; lra].
Qed.
Lemma D_uT : differential (uT i) T P (uTT i T P) (wTP i T).
Proof.
  pose proof (D_fun _ _ (proj1 (proj2 (c_ps L HC i T Hi PT)))) as L1. pose proof (D_fun _ _ (proj2 (proj2 (c_ps L HC i T Hi PT)))) as L1'.
  pose proof D_wT as L2. destruct D_f as [L3 L4]. pose proof (f_pos i Hi). pose proof (proj1 (c_ps L HC i T Hi PT)).
  unfold uT, uTT. eapply D_eq; [dif; cbv beta; lra|cbv beta; field; lra|cbv beta; field; lra].
Qed.
End One.
End Facts.
