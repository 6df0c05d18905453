(* C03: derivatives of the enthalpy and entropy departures. *)
From Coq Require Import Reals Lra.
From Coquelicot Require Import Coquelicot.
From Verif Require Import Base BaseFacts Spec_eos Gen_eos EosFacts EosCurve EosDep Prop_C04.
Open Scope R_scope.

(* H_dep and S_dep as the code computes them from (T, P, V). *)
Definition H_dep (a da d2a : R -> R) (b delta eps T P V : R) : R :=
  let '(_, _, _, _, _, h, _, _) := main_derivatives_and_departures T P V b delta eps (a T) (da T) (d2a T) in h.
Definition S_dep (a da d2a : R -> R) (b delta eps T P V : R) : R :=
  let '(_, _, _, _, _, _, s, _) := main_derivatives_and_departures T P V b delta eps (a T) (da T) (d2a T) in s.
Lemma H_dep_eq a da d2a b delta eps T P V : 0 < delta * delta - 4 * eps -> H_dep a da d2a b delta eps T P V = cH a da delta eps T P V.
Proof. apply Hcode_eq. Qed.
Lemma S_dep_eq a da d2a b delta eps T P V : 0 < delta * delta - 4 * eps -> S_dep a da d2a b delta eps T P V = cS da b delta eps T P V.
Proof. apply Scode_eq. Qed.

Section Aux.
Variables (a da d2a : R -> R) (b delta eps : R).
Hypothesis HE : 0 < delta * delta - 4 * eps.
Lemma H_curve Tf Pf Vf s T' P' V' : is_derive Tf s T' -> is_derive Pf s P' -> is_derive Vf s V' ->
  is_derive a (Tf s) (da (Tf s)) -> is_derive da (Tf s) (d2a (Tf s)) -> regular_V b delta eps (Vf s) ->
  is_derive (fun x => H_dep a da d2a b delta eps (Tf x) (Pf x) (Vf x)) s
  (- V' / Dn delta eps (Vf s) * (Tf s * da (Tf s) - a (Tf s)) + Kf delta eps (Vf s) * (Tf s * d2a (Tf s) * T') - Rgas * T' + (P' * Vf s + Pf s * V')).
Proof.
  intros. apply is_derive_ext with (fun x => cH a da delta eps (Tf x) (Pf x) (Vf x)).
  { intros; symmetry. apply H_dep_eq; auto. }
  apply (curve_cH a da d2a b delta eps HE); auto.
Qed.
Lemma S_curve Tf Pf Vf s T' P' V' : is_derive Tf s T' -> is_derive Pf s P' -> is_derive Vf s V' ->
  is_derive da (Tf s) (d2a (Tf s)) -> regular_V b delta eps (Vf s) ->
  0 < Tf s -> 0 < Pf s -> b < Vf s ->
  is_derive (fun x => S_dep a da d2a b delta eps (Tf x) (Pf x) (Vf x)) s
  (- Rgas * (T' / Tf s - V' / (Vf s - b) - P' / Pf s) + (d2a (Tf s) * T' * Kf delta eps (Vf s) - da (Tf s) * V' / Dn delta eps (Vf s))).
Proof.
  intros. apply is_derive_ext with (fun x => cS da b delta eps (Tf x) (Pf x) (Vf x)).
  { intros; symmetry. apply S_dep_eq; auto. }
  apply (curve_cS da d2a b delta eps HE); auto.
Qed.
Lemma gt_along (f : R -> R) s c : ex_derive f s -> c < f s -> locally s (fun x => c < f x).
Proof.
  intros E H. apply (ex_derive_continuous (K := R_AbsRing) (V := R_NormedModule)) in E.
  apply (E (fun v => c < v)). apply (open_gt c); auto.
Qed.
Lemma Vpos_ne V : 0 < V -> V <> 0. Proof. intros; lra. Qed.
End Aux.

(* constant P, V following the equation of state *)
Theorem C03_H_isobar :
  forall (a da d2a d3a : R -> R) (b delta eps T P : R) (Vf : R -> R),
  0 < delta * delta - 4 * eps -> smooth3 a da d2a d3a T ->
  regular_V b delta eps (Vf T) ->
  locally T (fun t => ex_derive Vf t /\ P_cubic a b delta eps t (Vf t) = P) ->
  Derive (fun v => P_cubic a b delta eps T v) (Vf T) <> 0 ->
  let o := dd a da d2a b delta eps T P (Vf T) in
  let H := fun t => H_dep a da d2a b delta eps t P (Vf t) in
  is_derive H T (eos_dH_dep_dT_l (Vf T) (dV_dT o) (a T) delta eps P T (d2a T) (da T)) /\
  (Vf T <= 10 ^ 50 -> is_derive H T (eos_dH_dep_dT_g (Vf T) (dV_dT o) (a T) delta eps P T (d2a T) (da T) (H T))) /\
  is_derive (Derive H) T (eos_d2H_dep_dT2 T P delta eps (Vf T) (d2V_dT2 o) (a T) (d2a T) (dV_dT o) (da T) (d3a T)).
Proof.
  intros a da d2a d3a b delta eps T P Vf HE (Sa & Sda & Sd2a) Hr L Hne o H.
  pose proof (locally_singleton _ _ Sa) as Ha. pose proof (locally_singleton _ _ Sda) as Hda. pose proof (locally_singleton _ _ Sd2a) as Hd2a.
  cbv beta in Ha, Hda, Hd2a.
  destruct (C04_V_of_T a da d2a b delta eps T P Vf Sa Hda Hr L Hne) as (DV & DV2 & _). fold o in DV, DV2.
  rewrite dH_dT_l_eq with (b := b) by auto.
  assert (G : is_derive H T (P * dV_dT o - Rgas + T * Kf delta eps (Vf T) * d2a T - dV_dT o * (T * da T - a T) / Dn delta eps (Vf T))).
  { eapply is_derive_eq. apply (H_curve a da d2a b delta eps HE (fun t => t) (fun _ => P) Vf T 1 0 _ (is_derive_id T) (is_derive_cst P T) DV); auto.
    destruct Hr. unfold Dn. field. nz. }
  splits; auto.
  { intros HV. rewrite dH_dT_g_eq with (b := b) by auto. exact G. }
  rewrite d2H_dT2_eq with (b := b) by auto.
  assert (Rl := reg_along b delta eps Vf T (ex_intro _ _ DV) Hr).
  pose (F := fun t => P * Derive Vf t - Rgas + t * Kf delta eps (Vf t) * d2a t - Derive Vf t * (t * da t - a t) / Dn delta eps (Vf t)).
  apply is_derive_ext_loc with F.
  { generalize (filter_and _ _ L (filter_and _ _ Sa (filter_and _ _ Sda Rl))). apply filter_imp. intros t ((A1 & _) & A2 & A3 & A4).
    symmetry. apply is_derive_unique. eapply is_derive_eq.
    apply (H_curve a da d2a b delta eps HE (fun t => t) (fun _ => P) Vf t 1 0 _ (is_derive_id t) (is_derive_cst P t) (Derive_correct _ _ A1)); auto.
    unfold F. destruct A4. unfold Dn. field. nz. }
  unfold F. pose proof (curve_K b delta eps Vf T _ DV Hr HE) as CK.
  pose proof (is_derive_unique _ _ _ DV) as EV.
  set (k := fun t => Kf delta eps (Vf t)) in *.
  change (is_derive (fun t => P * Derive Vf t - Rgas + t * k t * d2a t - Derive Vf t * (t * da t - a t) / Dn delta eps (Vf t)) T
    (P * d2V_dT2 o + k T * (d2a T + T * d3a T) - 2 * dV_dT o * T * d2a T / Dn delta eps (Vf T) - (d2V_dT2 o / Dn delta eps (Vf T) - dV_dT o ^ 2 * (2 * Vf T + delta) / Dn delta eps (Vf T) ^ 2) * (T * da T - a T))).
  destruct Hr. unfold Dn. set (V1 := Derive Vf) in *. auto_derive. splits; try exd; auto; try nz.
  unfold V1 in *. dv CK. dv DV2. dv Hda. dv Ha. dv Hd2a. dv DV. unfold Dn. field. nz.
Qed.

Theorem C03_S_isobar :
  forall (a da d2a d3a : R -> R) (b delta eps T P : R) (Vf : R -> R),
  0 < delta * delta - 4 * eps -> smooth3 a da d2a d3a T ->
  regular_V b delta eps (Vf T) -> 0 < T -> 0 < P -> 0 < Vf T -> b < Vf T ->
  locally T (fun t => ex_derive Vf t /\ P_cubic a b delta eps t (Vf t) = P) ->
  Derive (fun v => P_cubic a b delta eps T v) (Vf T) <> 0 ->
  let o := dd a da d2a b delta eps T P (Vf T) in
  let S := fun t => S_dep a da d2a b delta eps t P (Vf t) in
  is_derive S T (eos_dS_dep_dT_l (Vf T) (dV_dT o) (a T) delta eps T (da T) b (d2a T)) /\
  (Vf T <= 10 ^ 50 -> is_derive S T (eos_dS_dep_dT_g (Vf T) (dV_dT o) (a T) delta eps T (da T) b (d2a T) (S T))) /\
  is_derive (Derive S) T (eos_d2S_dep_dT2 T P b delta eps (Vf T) (d2V_dT2 o) (dV_dT o) (a T) (da T) (d2a T) (d3a T)).
Proof.
  intros a da d2a d3a b delta eps T P Vf HE (Sa & Sda & Sd2a) Hr HT HP HV0 HVb L Hne o S.
  pose proof (locally_singleton _ _ Sa) as Ha. pose proof (locally_singleton _ _ Sda) as Hda. pose proof (locally_singleton _ _ Sd2a) as Hd2a.
  cbv beta in Ha, Hda, Hd2a.
  destruct (C04_V_of_T a da d2a b delta eps T P Vf Sa Hda Hr L Hne) as (DV & DV2 & _). fold o in DV, DV2.
  rewrite dS_dT_l_eq by (auto; lra).
  assert (G : is_derive S T (- Rgas * (1 / T - dV_dT o / (Vf T - b)) + d2a T * Kf delta eps (Vf T) - da T * dV_dT o / Dn delta eps (Vf T))).
  { eapply is_derive_eq. apply (S_curve a da d2a b delta eps HE (fun t => t) (fun _ => P) Vf T 1 0 _ (is_derive_id T) (is_derive_cst P T) DV); auto.
    destruct Hr. unfold Dn. field. splits; nz. }
  splits; auto.
  { intros HV. rewrite dS_dT_g_eq by (auto; lra). exact G. }
  rewrite d2S_dT2_eq by (auto; lra).
  assert (Rl := reg_along b delta eps Vf T (ex_intro _ _ DV) Hr).
  assert (Gl := gt_along Vf T b (ex_intro _ _ DV) HVb).
  assert (Tl := gt_along (fun t => t) T 0 (ex_intro _ _ (is_derive_id T)) HT).
  pose (F := fun t => - Rgas * (1 / t - Derive Vf t / (Vf t - b)) + d2a t * Kf delta eps (Vf t) - da t * Derive Vf t / Dn delta eps (Vf t)).
  apply is_derive_ext_loc with F.
  { generalize (filter_and _ _ L (filter_and _ _ Sa (filter_and _ _ Sda (filter_and _ _ Rl (filter_and _ _ Gl Tl))))). apply filter_imp. intros t ((A1 & _) & A2 & A3 & A4 & A5 & A6).
    symmetry. apply is_derive_unique. eapply is_derive_eq.
    apply (S_curve a da d2a b delta eps HE (fun t => t) (fun _ => P) Vf t 1 0 _ (is_derive_id t) (is_derive_cst P t) (Derive_correct _ _ A1)); auto.
    unfold F. destruct A4. unfold Dn. field. splits; nz. }
  unfold F. pose proof (curve_K b delta eps Vf T _ DV Hr HE) as CK.
  pose proof (is_derive_unique _ _ _ DV) as EV.
  set (k := fun t => Kf delta eps (Vf t)) in *.
  change (is_derive (fun t => - Rgas * (1 / t - Derive Vf t / (Vf t - b)) + d2a t * k t - da t * Derive Vf t / Dn delta eps (Vf t)) T
    (Rgas * (1 / T ^ 2 + d2V_dT2 o / (Vf T - b) - dV_dT o ^ 2 / (Vf T - b) ^ 2) + d3a T * k T - 2 * d2a T * dV_dT o / Dn delta eps (Vf T) - da T * (d2V_dT2 o / Dn delta eps (Vf T) - dV_dT o ^ 2 * (2 * Vf T + delta) / Dn delta eps (Vf T) ^ 2))).
  destruct Hr. unfold Dn. set (V1 := Derive Vf) in *. auto_derive. splits; try exd; auto; try nz.
  unfold V1 in *. dv CK. dv DV2. dv Hda. dv Hd2a. dv DV. unfold Dn. field. splits; nz.
Qed.

(* constant T, V following the equation of state *)
Theorem C03_HS_isotherm :
  forall (a da d2a : R -> R) (b delta eps T P : R) (Vf : R -> R),
  0 < delta * delta - 4 * eps -> is_derive a T (da T) -> is_derive da T (d2a T) ->
  regular_V b delta eps (Vf P) ->
  locally P (fun p => ex_derive Vf p /\ P_cubic a b delta eps T (Vf p) = p) ->
  Derive (fun v => P_cubic a b delta eps T v) (Vf P) <> 0 ->
  let o := dd a da d2a b delta eps T P (Vf P) in
  is_derive (fun p => H_dep a da d2a b delta eps T p (Vf p)) P (eos_dH_dep_dP delta (Vf P) eps (dV_dP o) P T (da T) (a T)) /\
  (0 < T -> 0 < P -> 0 < Vf P -> b < Vf P ->
   is_derive (fun p => S_dep a da d2a b delta eps T p (Vf p)) P (eos_dS_dep_dP_l (Vf P) (dV_dP o) delta eps (da T) b P) /\
   is_derive (fun p => S_dep a da d2a b delta eps T p (Vf p)) P (eos_dS_dep_dP_g (Vf P) (dV_dP o) delta eps (da T) b P)).
Proof.
  intros a da d2a b delta eps T P Vf HE Ha Hda Hr L Hne o.
  destruct (C04_V_of_P a da d2a b delta eps T P Vf Ha Hr L Hne) as (DV & _). fold o in DV.
  rewrite dH_dP_eq with (b := b) by auto.
  split.
  - eapply is_derive_eq. apply (H_curve a da d2a b delta eps HE (fun _ => T) (fun p => p) Vf P 0 1 _ (is_derive_cst T P) (is_derive_id P) DV); auto.
    destruct Hr. unfold Dn. field. nz.
  - intros HT HP HV0 HVb. rewrite dS_dP_l_eq, dS_dP_g_eq by (auto; lra).
    assert (G : is_derive (fun p => S_dep a da d2a b delta eps T p (Vf p)) P (Rgas * (dV_dP o / (Vf P - b) + 1 / P) - da T * dV_dP o / Dn delta eps (Vf P))).
    { eapply is_derive_eq. apply (S_curve a da d2a b delta eps HE (fun _ => T) (fun p => p) Vf P 0 1 _ (is_derive_cst T P) (is_derive_id P) DV); auto.
      destruct Hr. unfold Dn. field. splits; nz. }
    split; exact G.
Qed.

(* constant V, P following the equation of state *)
Theorem C03_HS_isochore_T :
  forall (a da d2a d3a : R -> R) (b delta eps T V : R),
  0 < delta * delta - 4 * eps -> smooth3 a da d2a d3a T -> regular_V b delta eps V ->
  let Pf := fun t => P_cubic a b delta eps t V in
  let o := dd a da d2a b delta eps T (Pf T) V in
  let H := fun t => H_dep a da d2a b delta eps t (Pf t) V in
  let S := fun t => S_dep a da d2a b delta eps t (Pf t) V in
  is_derive H T (eos_dH_dep_dT_V T delta eps V (dP_dT o) (d2a T)) /\
  is_derive (Derive H) T (eos_d2H_dep_dT2_V V T delta eps (d2a T) (d3a T) (d2P_dT2 o)) /\
  (0 < T -> 0 < Pf T -> b < V ->
   is_derive S T (eos_dS_dep_dT_V T (Pf T) delta eps V (dP_dT o) (d2a T)) /\
   is_derive (Derive S) T (eos_d2S_dep_dT2_V V T delta eps (d2a T) (d3a T) (d2P_dT2 o) (Pf T) (dP_dT o))).
Proof.
  intros a da d2a d3a b delta eps T V HE (Sa & Sda & Sd2a) Hr Pf o H S.
  pose proof (locally_singleton _ _ Sa) as Ha. pose proof (locally_singleton _ _ Sda) as Hda. pose proof (locally_singleton _ _ Sd2a) as Hd2a.
  cbv beta in Ha, Hda, Hd2a.
  assert (Eo : dP_dT o = cPT da b delta eps T V /\ d2P_dT2 o = cPTT d2a delta eps T V) by (unfold o; rewrite dd_eq by auto; split; reflexivity).
  destruct Eo as [-> ->].
  assert (DPl : locally T (fun t => is_derive Pf t (cPT da b delta eps t V))).
  { eapply filter_imp; [|exact Sa]. intros t A. apply P_cubic_dT; auto. }
  pose proof (locally_singleton _ _ DPl) as DP. cbv beta in DP.
  pose proof (curve_PT da d2a b delta eps (fun t => t) (fun _ => V) T 1 0 (is_derive_id T) (is_derive_cst V T) Hr Hda) as DP2. cbv beta in DP2.
  rewrite (dH_dT_V_eq b), (d2H_dT2_V_eq b) by auto.
  assert (GH : locally T (fun t => is_derive H t (V * cPT da b delta eps t V - Rgas + t * Kf delta eps V * d2a t))).
  { generalize (filter_and _ _ DPl (filter_and _ _ Sa Sda)). apply filter_imp. intros t (A1 & A2 & A3).
    eapply is_derive_eq. apply (H_curve a da d2a b delta eps HE (fun t => t) Pf (fun _ => V) t 1 _ 0 (is_derive_id t) A1 (is_derive_cst V t)); auto.
    destruct Hr. unfold Dn. field. nz. }
  split; [|split].
  - apply (locally_singleton _ _ GH).
  - apply is_derive_ext_loc with (fun t => V * cPT da b delta eps t V - Rgas + t * Kf delta eps V * d2a t).
    { eapply filter_imp; [|exact GH]. intros t A. symmetry. apply is_derive_unique. exact A. }
    set (f := fun t => cPT da b delta eps t V) in *.
    change (is_derive (fun t => V * f t - Rgas + t * Kf delta eps V * d2a t) T (V * cPTT d2a delta eps T V + Kf delta eps V * (d2a T + T * d3a T))).
    auto_derive. splits; try exd; auto. dv DP2. dv Hd2a. ring.
  - intros HT HP HVb. rewrite (dS_dT_V_eq b), (d2S_dT2_V_eq b) by (auto; lra).
    assert (Pl := gt_along Pf T 0 (ex_intro _ _ DP) HP).
    assert (Tl := gt_along (fun t => t) T 0 (ex_intro _ _ (is_derive_id T)) HT).
    assert (GS : locally T (fun t => is_derive S t (- Rgas * (1 / t - cPT da b delta eps t V / Pf t) + d2a t * Kf delta eps V))).
    { generalize (filter_and _ _ DPl (filter_and _ _ Sa (filter_and _ _ Sda (filter_and _ _ Pl Tl)))). apply filter_imp. intros t (A1 & A2 & A3 & A4 & A5).
      eapply is_derive_eq. apply (S_curve a da d2a b delta eps HE (fun t => t) Pf (fun _ => V) t 1 _ 0 (is_derive_id t) A1 (is_derive_cst V t)); auto.
      destruct Hr. unfold Dn. field. splits; nz. }
    split.
    + apply (locally_singleton _ _ GS).
    + apply is_derive_ext_loc with (fun t => - Rgas * (1 / t - cPT da b delta eps t V / Pf t) + d2a t * Kf delta eps V).
      { eapply filter_imp; [|exact GS]. intros t A. symmetry. apply is_derive_unique. exact A. }
      set (f := fun t => cPT da b delta eps t V) in *.
      change (is_derive (fun t => - Rgas * (1 / t - f t / Pf t) + d2a t * Kf delta eps V) T (Rgas * (1 / T ^ 2 + cPTT d2a delta eps T V / Pf T - f T ^ 2 / Pf T ^ 2) + d3a T * Kf delta eps V)).
      auto_derive. splits; try exd; auto; try nz. dv DP2. dv Hd2a. dv DP. change (cPT da b delta eps T V) with (f T). field. splits; nz.
Qed.

(* constant V, T following the equation of state *)
Theorem C03_HS_isochore_P :
  forall (a da d2a : R -> R) (b delta eps V P : R) (Tf : R -> R),
  0 < delta * delta - 4 * eps ->
  locally (Tf P) (fun t => is_derive a t (da t)) -> is_derive da (Tf P) (d2a (Tf P)) ->
  regular_V b delta eps V ->
  locally P (fun p => ex_derive Tf p /\ P_cubic a b delta eps (Tf p) V = p) ->
  Derive (fun t => P_cubic a b delta eps t V) (Tf P) <> 0 ->
  let T := Tf P in
  let o := dd a da d2a b delta eps T P V in
  is_derive (fun p => H_dep a da d2a b delta eps (Tf p) p V) P (eos_dH_dep_dP_V T V delta eps (da T) (d2a T) (dT_dP o)) /\
  (0 < T -> 0 < P -> b < V ->
   is_derive (fun p => S_dep a da d2a b delta eps (Tf p) p V) P (eos_dS_dep_dP_V T P delta eps (d2a T) V (dT_dP o))).
Proof.
  intros a da d2a b delta eps V P Tf HE Sa Hda Hr L Hne T o.
  destruct (C04_T_of_P a da d2a b delta eps V P Tf Sa Hda Hr L Hne) as (DT & _). fold T in DT. fold o in DT.
  pose proof (locally_singleton _ _ Sa) as Ha. cbv beta in Ha.
  rewrite (dH_dP_V_eq b) by auto.
  split.
  - eapply is_derive_eq. apply (H_curve a da d2a b delta eps HE Tf (fun p => p) (fun _ => V) P _ 1 0 DT (is_derive_id P) (is_derive_cst V P)); auto.
    fold T. destruct Hr. unfold Dn. field. nz.
  - intros HT HP HVb. rewrite (dS_dP_V_eq b) by (auto; lra).
    eapply is_derive_eq. apply (S_curve a da d2a b delta eps HE Tf (fun p => p) (fun _ => V) P _ 1 0 DT (is_derive_id P) (is_derive_cst V P)); auto.
    fold T. destruct Hr. unfold Dn. field. splits; nz.
Qed.

(* volume derivatives at constant T *)
Theorem C03_HS_volume_T :
  forall (a da d2a : R -> R) (b delta eps T V : R),
  0 < delta * delta - 4 * eps -> is_derive a T (da T) -> is_derive da T (d2a T) -> regular_V b delta eps V ->
  let Pf := fun v => P_cubic a b delta eps T v in
  Derive Pf V <> 0 ->
  let o := dd a da d2a b delta eps T (Pf V) V in
  is_derive (fun v => H_dep a da d2a b delta eps T (Pf v) v) V
    (eos_dH_dep_dV_T (eos_dH_dep_dP delta V eps (dV_dP o) (Pf V) T (da T) (a T)) (dP_dV o)) /\
  (0 < T -> 0 < Pf V -> 0 < V -> b < V ->
   is_derive (fun v => S_dep a da d2a b delta eps T (Pf v) v) V
    (eos_dS_dep_dV_T (eos_dS_dep_dP_l V (dV_dP o) delta eps (da T) b (Pf V)) (dP_dV o)) /\
   is_derive (fun v => S_dep a da d2a b delta eps T (Pf v) v) V
    (eos_dS_dep_dV_T (eos_dS_dep_dP_g V (dV_dP o) delta eps (da T) b (Pf V)) (dP_dV o))).
Proof.
  intros a da d2a b delta eps T V HE Ha Hda Hr Pf Hne o.
  pose proof (P_cubic_dV a b delta eps T V Hr) as DP0.
  assert (DP : is_derive Pf V (cPV a b delta eps T V)) by exact DP0.
  assert (N : cPV a b delta eps T V <> 0).
  { intro Q. apply Hne. erewrite is_derive_unique by exact DP. exact Q. }
  assert (Eo : dP_dV o = cPV a b delta eps T V /\ dV_dP o = 1 / cPV a b delta eps T V) by (unfold o; rewrite dd_eq by auto; split; reflexivity).
  destruct Eo as [-> ->].
  unfold eos_dH_dep_dV_T, eos_dS_dep_dV_T. rewrite (dH_dP_eq b) by auto.
  split.
  - eapply is_derive_eq. apply (H_curve a da d2a b delta eps HE (fun _ => T) Pf (fun v => v) V 0 _ 1 (is_derive_cst T V) DP (is_derive_id V)); auto.
    destruct Hr. unfold Dn in *. field. splits; nz.
  - intros HT HP HV0 HVb. rewrite dS_dP_l_eq, dS_dP_g_eq by (auto; lra).
    assert (G : is_derive (fun v => S_dep a da d2a b delta eps T (Pf v) v) V ((Rgas * (1 / cPV a b delta eps T V / (V - b) + 1 / Pf V) - da T * (1 / cPV a b delta eps T V) / Dn delta eps V) * cPV a b delta eps T V)).
    { eapply is_derive_eq. apply (S_curve a da d2a b delta eps HE (fun _ => T) Pf (fun v => v) V 0 _ 1 (is_derive_cst T V) DP (is_derive_id V)); auto.
      destruct Hr. unfold Dn in *. field. splits; nz. }
    split; exact G.
Qed.

(* volume derivatives at constant P, T following the equation of state *)
Theorem C03_HS_volume_P :
  forall (a da d2a : R -> R) (b delta eps V P : R) (Tf : R -> R),
  0 < delta * delta - 4 * eps ->
  locally (Tf V) (fun t => is_derive a t (da t)) -> is_derive da (Tf V) (d2a (Tf V)) ->
  regular_V b delta eps V ->
  locally V (fun v => ex_derive Tf v /\ P_cubic a b delta eps (Tf v) v = P) ->
  Derive (fun t => P_cubic a b delta eps t V) (Tf V) <> 0 ->
  Derive (fun v => P_cubic a b delta eps (Tf V) v) V <> 0 ->
  let T := Tf V in
  let o := dd a da d2a b delta eps T P V in
  is_derive (fun v => H_dep a da d2a b delta eps (Tf v) P v) V
    (eos_dH_dep_dV_P (eos_dH_dep_dT_l V (dV_dT o) (a T) delta eps P T (d2a T) (da T)) (dT_dV o)) /\
  (V <= 10 ^ 50 -> is_derive (fun v => H_dep a da d2a b delta eps (Tf v) P v) V
    (eos_dH_dep_dV_P (eos_dH_dep_dT_g V (dV_dT o) (a T) delta eps P T (d2a T) (da T) (H_dep a da d2a b delta eps T P V)) (dT_dV o))) /\
  (0 < T -> 0 < P -> 0 < V -> b < V ->
   is_derive (fun v => S_dep a da d2a b delta eps (Tf v) P v) V
    (eos_dS_dep_dV_P (eos_dS_dep_dT_l V (dV_dT o) (a T) delta eps T (da T) b (d2a T)) (dT_dV o)) /\
   (V <= 10 ^ 50 -> is_derive (fun v => S_dep a da d2a b delta eps (Tf v) P v) V
    (eos_dS_dep_dV_P (eos_dS_dep_dT_g V (dV_dT o) (a T) delta eps T (da T) b (d2a T) (S_dep a da d2a b delta eps T P V)) (dT_dV o)))).
Proof.
  intros a da d2a b delta eps V P Tf HE Sa Hda Hr L Hne Hne2 T o.
  destruct (C04_T_of_V a da d2a b delta eps V P Tf Sa Hda Hr L Hne Hne2) as (DT & _). fold T in DT. fold o in DT.
  pose proof (locally_singleton _ _ Sa) as Ha. cbv beta in Ha.
  pose proof (P_cubic_dV a b delta eps (Tf V) V Hr) as DP2.
  assert (N2 : cPV a b delta eps T V <> 0) by (intro Q; apply Hne2; erewrite is_derive_unique by exact DP2; exact Q).
  pose proof (P_cubic_dT a da b delta eps (Tf V) V Hr Ha) as DP1.
  assert (N1 : cPT da b delta eps T V <> 0) by (intro Q; apply Hne; erewrite is_derive_unique by exact DP1; exact Q).
  assert (Eo : dT_dV o * dV_dT o = 1).
  { unfold o. rewrite dd_eq by auto. cbn [dT_dV dV_dT]. field. splits; auto. }
  unfold eos_dH_dep_dV_P, eos_dS_dep_dV_P. rewrite (dH_dT_l_eq b) by auto.
  assert (GH : is_derive (fun v => H_dep a da d2a b delta eps (Tf v) P v) V ((P * dV_dT o - Rgas + T * Kf delta eps V * d2a T - dV_dT o * (T * da T - a T) / Dn delta eps V) * dT_dV o)).
  { eapply is_derive_eq. apply (H_curve a da d2a b delta eps HE Tf (fun _ => P) (fun v => v) V _ 0 1 DT (is_derive_cst P V) (is_derive_id V)); auto.
    fold T. destruct Hr. unfold Dn.
    transitivity (- (dT_dV o * dV_dT o) / (V ^ 2 + delta * V + eps) * (T * da T - a T) + Kf delta eps V * (T * d2a T * dT_dV o) - Rgas * dT_dV o + (0 * V + P * (dT_dV o * dV_dT o))).
    { rewrite Eo. reflexivity. } field. nz. }
  split; [exact GH|]. split. { intro. rewrite (dH_dT_g_eq b) by auto. exact GH. }
  intros HT HP HV0 HVb. rewrite dS_dT_l_eq by (auto; lra).
  assert (GS : is_derive (fun v => S_dep a da d2a b delta eps (Tf v) P v) V ((- Rgas * (1 / T - dV_dT o / (V - b)) + d2a T * Kf delta eps V - da T * dV_dT o / Dn delta eps V) * dT_dV o)).
  { eapply is_derive_eq. apply (S_curve a da d2a b delta eps HE Tf (fun _ => P) (fun v => v) V _ 0 1 DT (is_derive_cst P V) (is_derive_id V)); auto.
    fold T. destruct Hr. unfold Dn.
    transitivity (- Rgas * (dT_dV o / T - (dT_dV o * dV_dT o) / (V - b) - 0 / P) + (d2a T * dT_dV o * Kf delta eps V - da T * (dT_dV o * dV_dT o) / (V ^ 2 + delta * V + eps))).
    { rewrite Eo. reflexivity. } field. splits; nz. }
  split; [exact GS|]. intro. rewrite dS_dT_g_eq by (auto; lra). exact GS.
Qed.

(* mixed second derivatives: V = W(T,P) *)
Theorem C03_HS_mixed :
  forall (a da d2a : R -> R) (b delta eps T P : R) (W : R -> R -> R),
  0 < delta * delta - 4 * eps ->
  locally T (fun t => is_derive a t (da t)) -> locally T (fun t => is_derive da t (d2a t)) ->
  regular_V b delta eps (W T P) ->
  locally T (fun t => ex_derive (fun t' => W t' P) t) ->
  locally T (fun t => locally P (fun p => ex_derive (W t) p /\ P_cubic a b delta eps t (W t p) = p)) ->
  Derive (fun v => P_cubic a b delta eps T v) (W T P) <> 0 ->
  let o := dd a da d2a b delta eps T P (W T P) in
  is_derive (fun t => Derive (fun p => H_dep a da d2a b delta eps t p (W t p)) P) T
    (eos_d2H_dep_dTdP (W T P) T P delta eps (dV_dT o) (d2V_dPdT o) (dV_dP o) (a T) (d2a T) (da T)) /\
  (0 < T -> 0 < P -> 0 < W T P -> b < W T P ->
   is_derive (fun t => Derive (fun p => S_dep a da d2a b delta eps t p (W t p)) P) T
    (eos_d2S_dep_dTdP (W T P) T P b delta eps (dV_dT o) (d2V_dPdT o) (dV_dP o) (a T) (da T) (d2a T))).
Proof.
  intros a da d2a b delta eps T P W HE Sa Sda Hr E1 L Hne o.
  pose proof (locally_singleton _ _ Sa) as Ha. pose proof (locally_singleton _ _ Sda) as Hda. cbv beta in Ha, Hda.
  destruct (C04_V_mixed a da d2a b delta eps T P W Sa Hda Hr E1 L Hne) as [DM _]. fold o in DM.
  pose (Vf := fun t => W t P).
  assert (LV : locally T (fun t => ex_derive Vf t /\ P_cubic a b delta eps t (Vf t) = P)).
  { generalize (filter_and _ _ E1 L). apply filter_imp. intros t [A1 A2]. split; auto.
    apply locally_singleton in A2. apply A2. }
  destruct (C04_V_of_T a da d2a b delta eps T P Vf Sa Hda Hr LV Hne) as (DV & _ & _).
  change (dd a da d2a b delta eps T P (Vf T)) with o in DV.
  destruct (C04_V_of_P a da d2a b delta eps T P (W T) Ha Hr (locally_singleton _ _ L) Hne) as (DVP & _ & _).
  change (dd a da d2a b delta eps T P (W T P)) with o in DVP.
  pose proof (is_derive_unique _ _ _ DVP) as EVP.
  assert (Rl := reg_along b delta eps Vf T (ex_intro _ _ DV) Hr).
  set (w := fun t => Derive (fun p => W t p) P) in *. change (w T = dV_dP o) in EVP.
  pose proof (curve_K b delta eps Vf T _ DV Hr HE) as CK.
  rewrite (d2H_dTdP_eq b) by auto.
  split.
  - apply is_derive_ext_loc with (fun t => Vf t + P * w t - w t * (t * da t - a t) / Dn delta eps (Vf t)).
    { generalize (filter_and _ _ L (filter_and _ _ Sa (filter_and _ _ Sda Rl))). apply filter_imp. intros t (A1 & A2 & A3 & A4).
      symmetry. apply is_derive_unique. apply locally_singleton in A1. destruct A1 as [A1 _].
      eapply is_derive_eq. apply (H_curve a da d2a b delta eps HE (fun _ => t) (fun p => p) (W t) P 0 1 _ (is_derive_cst t P) (is_derive_id P) (Derive_correct _ _ A1)); auto.
      change (Derive (W t) P) with (w t). change (W t P) with (Vf t). destruct A4. unfold Dn. field. nz. }
    rewrite <- EVP. change (W T P) with (Vf T). destruct Hr. change (W T P) with (Vf T) in *. unfold Dn.
    auto_derive. splits; try exd; auto; try nz.
    dv DV. dv DM. dv Hda. dv Ha. field. nz.
  - intros HT HP HV0 HVb. rewrite d2S_dTdP_eq by (auto; lra).
    assert (Gl := gt_along Vf T b (ex_intro _ _ DV) HVb).
    assert (Tl := gt_along (fun t => t) T 0 (ex_intro _ _ (is_derive_id T)) HT).
    apply is_derive_ext_loc with (fun t => Rgas * (w t / (Vf t - b) + 1 / P) - da t * w t / Dn delta eps (Vf t)).
    { generalize (filter_and _ _ L (filter_and _ _ Sa (filter_and _ _ Sda (filter_and _ _ Rl (filter_and _ _ Gl Tl))))). apply filter_imp. intros t (A1 & A2 & A3 & A4 & A5 & A6).
      symmetry. apply is_derive_unique. apply locally_singleton in A1. destruct A1 as [A1 _].
      eapply is_derive_eq. apply (S_curve a da d2a b delta eps HE (fun _ => t) (fun p => p) (W t) P 0 1 _ (is_derive_cst t P) (is_derive_id P) (Derive_correct _ _ A1)); auto.
      change (Derive (W t) P) with (w t). change (W t P) with (Vf t). destruct A4. unfold Dn. field. splits; nz. }
    rewrite <- EVP. change (W T P) with (Vf T). destruct Hr. change (W T P) with (Vf T) in *. unfold Dn.
    auto_derive. splits; try exd; auto; try nz.
    dv DV. dv DM. dv Hda. field. splits; nz.
Qed.

(* Van der Waals (delta = epsilon = 0, constant a): the code replaces delta^2 - 4*epsilon = 0
   by 1e-100, so the entropy and pressure derivatives are exact while the temperature derivative of
   H_dep carries a relative error of about 2.5e-101/V^2 in the attraction term. *)
Definition H_dep_VDW (a0 b T P V : R) : R := out_H (main_derivatives_and_departures_VDW T P V b 0 0 a0 0 0).
Definition S_dep_VDW (a0 b T P V : R) : R := out_S (main_derivatives_and_departures_VDW T P V b 0 0 a0 0 0).
Theorem C03_VDW :
  forall (a0 b T P : R) (Vf Vg : R -> R) (V' Vp : R), 0 < T -> 0 < P ->
  (0 < Vf T -> b < Vf T -> is_derive Vf T V' ->
   is_derive (fun t => S_dep_VDW a0 b t P (Vf t)) T (eos_dS_dep_dT_l (Vf T) V' a0 0 0 T 0 b 0) /\
   (exists exact, is_derive (fun t => H_dep_VDW a0 b t P (Vf t)) T exact /\
      ((/ 10) ^ 20 <= Vf T -> Rabs (eos_dH_dep_dT_l (Vf T) V' a0 0 0 P T 0 0 - exact) <= (/ 10) ^ 60 * Rabs (a0 * V' / (Vf T) ^ 2)))) /\
  (0 < Vg P -> b < Vg P -> is_derive Vg P Vp ->
   is_derive (fun p => S_dep_VDW a0 b T p (Vg p)) P (eos_dS_dep_dP_l (Vg P) Vp 0 0 0 b P) /\
   is_derive (fun p => S_dep_VDW a0 b T p (Vg p)) P (eos_dS_dep_dP_g (Vg P) Vp 0 0 0 b P) /\
   is_derive (fun p => H_dep_VDW a0 b T p (Vg p)) P (eos_dH_dep_dP 0 (Vg P) 0 Vp P T 0 a0)).
Proof.
  intros a0 b T P Vf Vg V' Vp HT HP. pose proof Rgas_pos as HR.
  assert (RT : 0 < Rgas * T) by (apply Rmult_lt_0_compat; auto).
  unfold H_dep_VDW, S_dep_VDW, main_derivatives_and_departures_VDW, out_H, out_S. cbv zeta.
  split.
  - intros HV HVb DV. split.
    + auto_derive. { splits; try exd; auto; try lra; try nz. apply Rmult_lt_0_compat. nra. apply Rinv_0_lt_compat; auto. }
      dv DV. unfold eos_dS_dep_dT_l. cbv zeta. unfold Rdiv. rewrite !Rmult_0_r, !Rmult_0_l. field. splits; nz.
    + exists (P * V' - Rgas + a0 * V' / (Vf T) ^ 2). split.
      * auto_derive. { splits; try exd; auto; nz. } dv DV. field. nz.
      * intros HVl. unfold eos_dH_dep_dT_l. cbv zeta. rewrite Reqb_true by ring.
        set (v := Vf T) in *.
        set (E := 10000000000000000000000000000000000000000000000000000000000000000000000000000000000000000000000000000).
        assert (HE : E = 10 ^ 100) by (unfold E; lra). clearbody E.
        assert (HE0 : 0 < E) by (subst; apply pow_lt; lra).
        assert (V2 : 10 ^ 40 * (v * v) >= 1).
        { assert ((/ 10) ^ 20 * (/ 10) ^ 20 <= v * v) by (apply Rmult_le_compat; auto; apply Rlt_le, pow_lt; lra).
          rewrite <- pow_add in H. change (20 + 20)%nat with 40%nat in H. assert (10 ^ 40 * (/ 10) ^ 40 = 1).
          { rewrite <- Rpow_mult_distr. replace (10 * / 10) with 1 by field. apply pow1. }
          assert (0 < 10 ^ 40) by (apply pow_lt; lra).
          apply Rmult_le_compat_l with (r := 10 ^ 40) in H; [|lra]. lra. }
        assert (V3 : 4 * E * (v * v) >= 4 * 10 ^ 60).
        { subst E. replace (10 ^ 100) with (10 ^ 60 * 10 ^ 40) by (rewrite <- pow_add; reflexivity).
          assert (0 < 10 ^ 60) by (apply pow_lt; lra). nra. }
        assert (B60 : 1 <= 10 ^ 60) by (apply pow_R1_Rle; lra).
        replace (P * V' - Rgas + 2 * T * / sqrt (1 / E) * re_catanh (/ sqrt (1 / E) * (0 + v + v)) * 0 - 4 * V' * (1 / (1 / E)) * (T * 0 - a0) / ((0 + v + v) * (0 + v + v) * (1 / (1 / E)) - 1) - (P * V' - Rgas + a0 * V' / v ^ 2))
          with ((a0 * V' / v ^ 2) * (1 / (4 * E * (v * v) - 1))).
        2:{ assert (4 * E * (v * v) - 1 <> 0) by (apply Rgt_not_eq; lra).
            rewrite Rmult_0_r. field. splits; try nz; try (apply Rgt_not_eq; lra); intro Q; apply H; lra. }
        rewrite Rabs_mult, Rmult_comm. apply Rmult_le_compat_r. apply Rabs_pos.
        rewrite Rabs_pos_eq.
        2:{ apply Rlt_le, Rdiv_lt_0_compat; lra. }
        rewrite pow_inv. unfold Rdiv. rewrite Rmult_1_l. apply Rinv_le_contravar; [apply pow_lt; lra|]. lra.
  - intros HV HVb DV. splits.
    + auto_derive. { splits; try exd; auto; try lra; try nz. apply Rmult_lt_0_compat. nra. apply Rinv_0_lt_compat; auto. }
      dv DV. unfold eos_dS_dep_dP_l. cbv zeta. unfold Rdiv. rewrite !Rmult_0_r, !Rmult_0_l. field. splits; nz.
    + auto_derive. { splits; try exd; auto; try lra; try nz. apply Rmult_lt_0_compat. nra. apply Rinv_0_lt_compat; auto. }
      dv DV. unfold eos_dS_dep_dP_g. cbv zeta. unfold Rdiv. rewrite !Rmult_0_r, !Rmult_0_l. field. splits; nz.
    + auto_derive. { splits; try exd; auto; nz. } dv DV. unfold eos_dH_dep_dP. cbv zeta. field. splits; nz.
Qed.

(* hypotheses: the witness of C04 (b = 1, delta = -1, epsilon = 0, a = R*T, P = R*T/V) at T = 1, V = 3 *)
Example C03_hypotheses_met :
  0 < (-1) * (-1) - 4 * 0 /\ smooth3 (fun t => Rgas * t) (fun _ => Rgas) (fun _ => 0) (fun _ => 0) 1 /\
  regular_V 1 (-1) 0 3 /\ 0 < Rgas / 3 /\ 1 < 3 <= 10 ^ 50.
Proof.
  pose proof Rgas_pos. splits; try lra.
  - unfold smooth3. splits; apply filter_forall; intros; auto_derive; auto; ring.
  - split; lra.
Qed.
