(* C44: bulk properties of a state with several phases (thermo/bulk.py and thermo/equilibrium.py) *)
From Coq Require Import Reals Arith List Bool String Ascii Lra Lia Permutation.
From Coquelicot Require Import Coquelicot.
From Verif Require Import Base BaseFacts Model_pyerr Gen_phase Spec_bulk Model_bulk BulkFacts.
From Verif Require ActFacts.
From Coq Require Import List.
Import ListNotations.
Open Scope R_scope.

(* the values of a method over the phases of a bulk *)
Notation vals a b := (map (fun p => get p a) (b_phases b)).
(* a bulk whose list of phase fractions has one entry per phase, as EquilibriumState makes them *)
Definition well_formed (b : bulk) : Prop := List.length (b_phases b) = List.length (b_betas b).
(* the same phases in the same amounts, listed in another order *)
Definition reordered (b b' : bulk) : Prop := Permutation (combine (b_betas b) (b_phases b)) (combine (b_betas b') (b_phases b')).

(* ---- molar properties are the mole-weighted sums of those of the phases *)
Theorem C44_molar_properties b :
  Bulk_V b = weighted (b_betas b) (vals aV b) /\ Bulk_H b = weighted (b_betas b) (vals aH b) /\ Bulk_S b = weighted (b_betas b) (vals aS b) /\
  Bulk_Cp b = weighted (b_betas b) (vals aCp b) /\ Bulk_dH_dP b = weighted (b_betas b) (vals adH_dP b) /\ Bulk_dS_dP b = weighted (b_betas b) (vals adS_dP b) /\
  Bulk_dS_dT b = weighted (b_betas b) (vals adS_dT b) /\ Bulk_dG_dT b = weighted (b_betas b) (vals adG_dT b) /\ Bulk_dG_dP b = weighted (b_betas b) (vals adG_dP b) /\
  Bulk_dU_dT b = weighted (b_betas b) (vals adU_dT b) /\ Bulk_dU_dP b = weighted (b_betas b) (vals adU_dP b) /\ Bulk_dA_dT b = weighted (b_betas b) (vals adA_dT b) /\
  Bulk_dA_dP b = weighted (b_betas b) (vals adA_dP b) /\ Bulk_H_reactive b = weighted (b_betas b) (vals aH_reactive b) /\ Bulk_S_reactive b = weighted (b_betas b) (vals aS_reactive b) /\
  Bulk_dP_dT_frozen b = weighted (b_betas b) (vals adP_dT b) /\ Bulk_dP_dV_frozen b = weighted (b_betas b) (vals adP_dV b) /\
  Bulk_d2P_dT2_frozen b = weighted (b_betas b) (vals ad2P_dT2 b) /\ Bulk_d2P_dV2_frozen b = weighted (b_betas b) (vals ad2P_dV2 b) /\
  Bulk_d2P_dTdV_frozen b = weighted (b_betas b) (vals ad2P_dTdV b) /\ Bulk_Tmc b = weighted (b_betas b) (vals aTmc b) /\ Bulk_Pmc b = weighted (b_betas b) (vals aPmc b) /\
  Bulk_Vmc b = weighted (b_betas b) (vals aVmc b) /\ Bulk_Zmc b = weighted (b_betas b) (vals aZmc b) /\ Bulk_G_min_criteria b = weighted (b_betas b) (vals aG_min_criteria b) /\
  Bulk_beta b = total (b_betas b).
Proof. splits; try apply pwsum_weighted. apply psum_total. Qed.

(* U, G and A of the bulk are computed from H, S, V of the bulk and agree with those of the phases *)
Theorem C44_energies T P b :
  Bulk_G T b = weighted (b_betas b) (map (fun p => get p aH - T * get p aS) (b_phases b)) /\
  Bulk_U P b = weighted (b_betas b) (map (fun p => get p aH - P * get p aV) (b_phases b)) /\
  Bulk_A T P b = weighted (b_betas b) (map (fun p => get p aH - P * get p aV - T * get p aS) (b_phases b)).
Proof.
  unfold Bulk_G, Bulk_U, Bulk_A, Ph_A, Ph_G, Ph_U, Bulk_H, Bulk_S, Bulk_V, mole_sum. cbv zeta. rewrite !pwsum_weighted. splits.
  - rewrite (weighted_lin _ (fun p => get p aH) (fun p => get p aS) (fun p => get p aH - T * get p aS) 1 (- T)) by (intros; ring). ring.
  - rewrite (weighted_lin _ (fun p => get p aH) (fun p => get p aV) (fun p => get p aH - P * get p aV) 1 (- P)) by (intros; ring). ring.
  - rewrite (weighted_lin _ (fun p => get p aH - P * get p aV) (fun p => get p aS) (fun p => get p aH - P * get p aV - T * get p aS) 1 (- T)) by (intros; ring).
    rewrite (weighted_lin _ (fun p => get p aH) (fun p => get p aV) (fun p => get p aH - P * get p aV) 1 (- P)) by (intros; ring). ring.
Qed.

(* a bulk of one phase in amount one has the properties of the phase *)
Theorem C44_single_phase p zs k a K : let b := {| b_zs := zs; b_phases := [p]; b_betas := [1]; b_kind := k |} in
  mole_sum b a = get p a /\
  (0 < MW_of K (p_zs p) -> Bulk_betas_mass K b = [1]) /\ (0 < get p aV -> Bulk_betas_volume b = [1]).
Proof.
  cbv zeta. unfold mole_sum, Bulk_betas_mass, Bulk_betas_volume. rewrite !weight_fractions_shares, pwsum_weighted. unfold shares. simpl. splits.
  - ring.
  - intros H. f_equal. field. lra.
  - intros H. f_equal. field. lra.
Qed.

(* the order of the phases is immaterial, for the sums and for every mixing rule *)
Theorem C44_order K b b' a m e as_one : well_formed b -> well_formed b' -> reordered b b' -> b_zs b = b_zs b' ->
  mole_sum b a = mole_sum b' a /\ Bulk_MW K b = Bulk_MW K b' /\ property_mixing_rule K b m e as_one a = property_mixing_rule K b' m e as_one a.
Proof.
  intros W W' Hp Hz. unfold mole_sum. rewrite !pwsum_weighted. splits. now apply weighted_perm. unfold Bulk_MW. now rewrite Hz.
  assert (PM := shares_perm (fun p => MW_of K (p_zs p)) _ _ _ _ Hp). assert (PV := shares_perm (fun p => get p aV) _ _ _ _ Hp).
  rewrite <- weight_fractions_shares in PM, PV. rewrite <- weight_fractions_shares in PM, PV.
  change (Permutation (combine (Bulk_betas_mass K b) (b_phases b)) (combine (Bulk_betas_mass K b') (b_phases b'))) in PM.
  change (Permutation (combine (Bulk_betas_volume b) (b_phases b)) (combine (Bulk_betas_volume b') (b_phases b'))) in PV.
  assert (PP : Permutation (vals a b) (vals a b')).
  { apply Permutation_map. apply (Permutation_map snd) in Hp. assert (S' : forall (u : list R) (v : list phase), List.length v = List.length u -> map snd (combine u v) = v).
    { induction u as [|x u IH]; intros [|y v] L; simpl in *; try discriminate; auto. now rewrite IH by lia. } now rewrite !S' in Hp. }
  destruct m; unfold property_mixing_rule; cbn [mole_methods mass_methods volume_methods linear_methods prop_power_methods log_prop_methods]; try reflexivity;
    rewrite ?pwsum_weighted; try (f_equal; now apply weighted_perm); try (f_equal; now apply posum_perm); try (now apply pmin_perm); try (now apply pmax_perm).
Qed.

(* ---- consistency with the composition: under the material balance the molecular weight (and every property mixed from the composition) is also
   the mole-weighted sum, densities and specific properties follow the volume and mass fractions of the phases *)
Lemma composition_sum n b f : material_balance n (b_betas b) (map p_zs (b_phases b)) (b_zs b) ->
  csum n (b_zs b) f = weighted (b_betas b) (map (fun p => csum n (p_zs p) f) (b_phases b)).
Proof.
  intros H. rewrite csum_rsum. rewrite (weighted_ext _ (fun p => csum n (p_zs p) f) (fun p => rsum n (fun i => p_zs p i * f i))) by (intros; apply csum_rsum).
  rewrite (weighted_rsum n (b_betas b) (fun p i => p_zs p i * f i)). apply rsum_ext. intros i Hi. rewrite (H i Hi), map_map.
  rewrite (weighted_lin _ (fun p => p_zs p i) (fun p => p_zs p i) (fun p => p_zs p i * f i) (f i) 0) by (intros; ring). ring.
Qed.
Theorem C44_composition K b : material_balance (N K) (b_betas b) (map p_zs (b_phases b)) (b_zs b) ->
  Bulk_MW K b = weighted (b_betas b) (map (fun p => MW_of K (p_zs p)) (b_phases b)) /\
  V_liquid_ref_of K (b_zs b) = weighted (b_betas b) (map (fun p => V_liquid_ref_of K (p_zs p)) (b_phases b)) /\
  state_H_ideal_gas K (b_zs b) = weighted (b_betas b) (map (fun p => state_H_ideal_gas K (p_zs p)) (b_phases b)) /\
  state_Cp_ideal_gas K (b_zs b) = weighted (b_betas b) (map (fun p => state_Cp_ideal_gas K (p_zs p)) (b_phases b)).
Proof. intros H. splits; now apply composition_sum. Qed.

Theorem C44_specific_properties K b X : well_formed b -> material_balance (N K) (b_betas b) (map p_zs (b_phases b)) (b_zs b) ->
  is_fractions (b_betas b) -> Forall (fun p => 0 < MW_of K (p_zs p) /\ 0 < get p aV) (b_phases b) ->
  (* per mass, weighted with the mass fractions of the phases *)
  per_mass (mole_sum b X) (Bulk_MW K b) = weighted (Bulk_betas_mass K b) (map (fun p => per_mass (get p X) (MW_of K (p_zs p))) (b_phases b)) /\
  (* density, weighted with the volume fractions *)
  Bulk_rho_mass K b = weighted (Bulk_betas_volume b) (map (fun p => Ph_rho_mass (get p aV) (MW_of K (p_zs p))) (b_phases b)) /\
  Bulk_rho b * total (b_betas b) = weighted (Bulk_betas_volume b) (map (fun p => Ph_rho (get p aV)) (b_phases b)).
Proof.
  intros W HB HF HP. rewrite Forall_forall in HP.
  assert (PM : 0 < weighted (b_betas b) (map (fun p => MW_of K (p_zs p)) (b_phases b))). { apply weighted_pos; auto. now rewrite map_length. rewrite Forall_map. apply Forall_forall. intros. now apply HP. }
  assert (PV : 0 < weighted (b_betas b) (map (fun p => get p aV) (b_phases b))). { apply weighted_pos; auto. now rewrite map_length. rewrite Forall_map. apply Forall_forall. intros. now apply HP. }
  unfold per_mass, Bulk_rho_mass, Bulk_rho, Bulk_betas_mass, Bulk_betas_volume, Bulk_V, mole_sum, Ph_rho_mass, Ph_rho, Ph_MW_inv. cbv zeta.
  rewrite !weight_fractions_shares, !pwsum_weighted. destruct (C44_composition K b HB) as (-> & _). rewrite !weighted_shares.
  set (MW := weighted _ (map (fun p => MW_of K (p_zs p)) _)) in *. set (V := weighted _ (map (fun p => get p aV) _)) in *. splits.
  - rewrite (weighted_ext _ (fun p => MW_of K (p_zs p) * (get p X * 1000 * (1 / MW_of K (p_zs p)))) (fun p => 1000 * get p X + 0 * get p X)). 2:{ intros p Hp. specialize (HP p Hp). field. lra. }
    rewrite (weighted_lin _ (fun p => get p X) (fun p => get p X) (fun p => 1000 * get p X + 0 * get p X) 1000 0) by (intros; ring). field. lra.
  - rewrite (weighted_ext _ (fun p => get p aV * (MW_of K (p_zs p) / (1000 * get p aV))) (fun p => / 1000 * MW_of K (p_zs p) + 0 * MW_of K (p_zs p))). 2:{ intros p Hp. specialize (HP p Hp). field. lra. }
    rewrite (weighted_lin _ (fun p => MW_of K (p_zs p)) (fun p => MW_of K (p_zs p)) (fun p => / 1000 * MW_of K (p_zs p) + 0 * MW_of K (p_zs p)) (/ 1000) 0) by (intros; ring). fold MW. field. lra.
  - rewrite (weighted_ext _ (fun p => get p aV * (1 / get p aV)) (fun p => 1)). 2:{ intros p Hp. specialize (HP p Hp). field. lra. }
    rewrite (weighted_const _ 1). 2: now rewrite map_length. 2:{ intros x Hx. apply in_map_iff in Hx. destruct Hx as (p & <- & _). reflexivity. } field. lra.
Qed.

(* ---- phase fractions on a mass, volume and reference-volume basis *)
Theorem C44_phase_fractions K b : well_formed b -> is_fractions (b_betas b) ->
  Forall (fun p => 0 < MW_of K (p_zs p) /\ 0 < get p aV /\ 0 < V_liquid_ref_of K (p_zs p)) (b_phases b) ->
  is_fractions (Bulk_betas_mass K b) /\ Bulk_betas_mass K b = shares (b_betas b) (map (fun p => MW_of K (p_zs p)) (b_phases b)) /\ Bulk_beta_mass K b = 1 /\
  is_fractions (Bulk_betas_volume b) /\ Bulk_betas_volume b = shares (b_betas b) (vals aV b) /\ Bulk_beta_volume b = 1 /\
  is_fractions (Bulk_betas_volume_liquid_ref K b) /\ Bulk_betas_volume_liquid_ref K b = shares (b_betas b) (map (fun p => V_liquid_ref_of K (p_zs p)) (b_phases b)) /\ Bulk_beta_volume_liquid_ref K b = 1.
Proof.
  intros W HF HP. unfold Bulk_beta_mass, Bulk_beta_volume, Bulk_beta_volume_liquid_ref, Bulk_betas_mass, Bulk_betas_volume, Bulk_betas_volume_liquid_ref. rewrite !psum_total, !weight_fractions_shares.
  assert (G : forall f : phase -> R, (forall p, In p (b_phases b) -> 0 < f p) -> is_fractions (shares (b_betas b) (map f (b_phases b))) /\ shares (b_betas b) (map f (b_phases b)) = shares (b_betas b) (map f (b_phases b)) /\ total (shares (b_betas b) (map f (b_phases b))) = 1).
  { intros f Hf. assert (is_fractions (shares (b_betas b) (map f (b_phases b)))). { apply shares_fractions; auto. now rewrite map_length. rewrite Forall_map. now apply Forall_forall. } splits; auto. apply H. }
  rewrite Forall_forall in HP.
  pose proof (G (fun p => MW_of K (p_zs p)) (fun p Hp => proj1 (HP p Hp))). pose proof (G (fun p => get p aV) (fun p Hp => proj1 (proj2 (HP p Hp)))). pose proof (G (fun p => V_liquid_ref_of K (p_zs p)) (fun p Hp => proj2 (proj2 (HP p Hp)))). tauto.
Qed.

(* ---- mixing rules give a value between the lowest and the highest of the phases (and so the common value when they agree) *)
(* a rule names its weights (mole, mass or volume fractions of the phases) and its mean (of the values, their logarithms or their powers) *)
Definition named_weights (m : method) (mole mass volume : list R) : list R := match m with
  | MOLE_WEIGHTED | LOG_PROP_MOLE_WEIGHTED | POWER_PROP_MOLE_WEIGHTED => mole | MASS_WEIGHTED | LOG_PROP_MASS_WEIGHTED | POWER_PROP_MASS_WEIGHTED => mass
  | VOLUME_WEIGHTED | LOG_PROP_VOLUME_WEIGHTED | POWER_PROP_VOLUME_WEIGHTED => volume | _ => [] end.
Definition named_mean (m : method) (e v : R) (ws xs : list R) : Prop := match m with
  | MOLE_WEIGHTED | MASS_WEIGHTED | VOLUME_WEIGHTED => v = weighted ws xs
  | LOG_PROP_MOLE_WEIGHTED | LOG_PROP_MASS_WEIGHTED | LOG_PROP_VOLUME_WEIGHTED => ln v = weighted ws (map ln xs)
  | POWER_PROP_MOLE_WEIGHTED | POWER_PROP_MASS_WEIGHTED | POWER_PROP_VOLUME_WEIGHTED => Rpower v e = weighted ws (map (fun x => Rpower x e) xs)
  | MINIMUM_PHASE_PROP => In v xs /\ Forall (fun x => v <= x) xs | MAXIMUM_PHASE_PROP => In v xs /\ Forall (fun x => x <= v) xs | _ => True end.
Definition a_mixing_rule (m : method) : Prop := In m [MOLE_WEIGHTED; MASS_WEIGHTED; VOLUME_WEIGHTED; LOG_PROP_MOLE_WEIGHTED; LOG_PROP_MASS_WEIGHTED; LOG_PROP_VOLUME_WEIGHTED;
  POWER_PROP_MOLE_WEIGHTED; POWER_PROP_MASS_WEIGHTED; POWER_PROP_VOLUME_WEIGHTED; MINIMUM_PHASE_PROP; MAXIMUM_PHASE_PROP].
Definition fractions_used K (b : bulk) (m : method) : list R := if mole_methods m then b_betas b else if mass_methods m then Bulk_betas_mass K b else Bulk_betas_volume b.
Lemma mixing_rules K b m e as_one a lo hi : well_formed b -> b_phases b <> [] -> MU_LL_METHODS_set m = true -> m <> AS_ONE_LIQUID ->
  is_fractions (b_betas b) -> Forall (fun p => 0 < MW_of K (p_zs p) /\ 0 < get p aV) (b_phases b) ->
  between lo hi (vals a b) -> 0 < lo -> e <> 0 ->
  exists v, property_mixing_rule K b m (Some e) as_one a = Some v /\ lo <= v <= hi /\
    (linear_methods m = true -> v = weighted (fractions_used K b m) (vals a b)) /\
    (log_prop_methods m = true -> ln v = weighted (fractions_used K b m) (map ln (vals a b))) /\
    (prop_power_methods m = true -> Rpower v e = weighted (fractions_used K b m) (map (fun x => Rpower x e) (vals a b))).
Proof.
  intros W Hne Hm HA HF HP HB Hlo He.
  assert (Lv : List.length (vals a b) = List.length (b_betas b)) by now rewrite map_length.
  assert (Hne' : vals a b <> []). { intros E. apply Hne. destruct (b_phases b); auto. discriminate. }
  assert (FU : is_fractions (fractions_used K b m) /\ List.length (vals a b) = List.length (fractions_used K b m)).
  { rewrite Forall_forall in HP. unfold fractions_used, Bulk_betas_mass, Bulk_betas_volume. rewrite !weight_fractions_shares.
    destruct (mole_methods m); [split; auto|]. destruct (mass_methods m); (split; [apply shares_fractions; auto; [now rewrite map_length | rewrite Forall_map; apply Forall_forall; intros; now apply HP] | rewrite shares_length; [auto | now rewrite map_length]]). }
  destruct FU as [FU LU].
  assert (HB' : forall x, In x (vals a b) -> lo <= x <= hi) by (unfold between in HB; now rewrite Forall_forall in HB).
  assert (Elog : posum py_log (fractions_used K b m) (vals a b) = Some (weighted (fractions_used K b m) (map ln (vals a b)))).
  { apply posum_some. intros x Hx. unfold py_log. rewrite Rltb_true. reflexivity. specialize (HB' x Hx). lra. }
  assert (Epow : posum (fun x => ppow x (Some e)) (fractions_used K b m) (vals a b) = Some (weighted (fractions_used K b m) (map (fun x => Rpower x e) (vals a b)))).
  { apply posum_some. intros x Hx. unfold ppow. rewrite Rltb_true. reflexivity. specialize (HB' x Hx). lra. }
  destruct (power_mean _ _ lo hi e LU FU Hlo HB He Hne') as [PP PB]. pose proof (log_mean _ _ lo hi LU FU Hlo HB Hne') as LB. pose proof (weighted_between1 _ lo hi _ LU FU HB) as WB.
  assert (EI : pinv (Some e) = Some (1 / e)) by (unfold pinv, py_div; rewrite Reqb_false by auto; reflexivity).
  assert (RI : Rpower (Rpower (weighted (fractions_used K b m) (map (fun x => Rpower x e) (vals a b))) (1 / e)) e = weighted (fractions_used K b m) (map (fun x => Rpower x e) (vals a b))).
  { rewrite Rpower_mult. replace (1 / e * e) with 1 by (field; auto). now apply Rpower_1. }
  unfold fractions_used in *. unfold property_mixing_rule.
  destruct m; cbn [mole_methods mass_methods volume_methods linear_methods prop_power_methods log_prop_methods MU_LL_METHODS_set orb] in *; try discriminate; try congruence;
  try (rewrite pwsum_weighted; eexists; split; [reflexivity|]; splits; try tauto; try discriminate; auto);
  try (rewrite Elog; cbn [bindo]; eexists; split; [reflexivity|]; splits; try tauto; try discriminate; intros _; apply ln_exp);
  try (rewrite Epow; cbn [bindo]; rewrite EI; cbn [bindo]; unfold ppow; rewrite Rltb_true by auto; eexists; split; [reflexivity|]; splits; try tauto; try discriminate; auto).
  - destruct (pmin (vals a b)) as [w|] eqn:E. 2:{ destruct (vals a b); try discriminate. congruence. }
    exists w. apply pmin_spec in E. destruct E as [Ei _]. specialize (HB' _ Ei). splits; try lra; auto; try discriminate.
  - destruct (pmax (vals a b)) as [w|] eqn:E. 2:{ destruct (vals a b); try discriminate. congruence. }
    exists w. apply pmax_spec in E. destruct E as [Ei _]. specialize (HB' _ Ei). splits; try lra; auto; try discriminate.
Qed.
Theorem C44_mixing_rules K b m e as_one a lo hi : well_formed b -> b_phases b <> [] -> a_mixing_rule m ->
  is_fractions (b_betas b) -> Forall (fun p => 0 < MW_of K (p_zs p) /\ 0 < get p aV) (b_phases b) ->
  between lo hi (vals a b) -> 0 < lo -> e <> 0 ->
  exists v, property_mixing_rule K b m (Some e) as_one a = Some v /\ lo <= v <= hi /\
    named_mean m e v (named_weights m (b_betas b) (shares (b_betas b) (map (fun p => MW_of K (p_zs p)) (b_phases b))) (shares (b_betas b) (vals aV b))) (vals a b).
Proof.
  intros W Hne Hm HF HP HB Hlo He.
  assert (HM : MU_LL_METHODS_set m = true /\ m <> AS_ONE_LIQUID) by (repeat (destruct Hm as [<-|Hm]; [split; [reflexivity|discriminate]|]); destruct Hm).
  destruct (mixing_rules K b m e as_one a lo hi W Hne (proj1 HM) (proj2 HM) HF HP HB Hlo He) as (v & E & BV & V1 & V2 & V3). exists v. splits; auto; try lra.
  unfold fractions_used, Bulk_betas_mass, Bulk_betas_volume in *. rewrite !weight_fractions_shares in *.
  repeat (destruct Hm as [<-|Hm]; [cbn [named_mean named_weights]; first [exact (V1 eq_refl) | exact (V2 eq_refl) | exact (V3 eq_refl) | apply pmin_spec; exact E | apply pmax_spec; exact E]|]). destruct Hm.
Qed.
(* the two extreme rules *)
Theorem C44_extreme_rules K b e as_one a v :
  (property_mixing_rule K b MINIMUM_PHASE_PROP e as_one a = Some v -> In v (vals a b) /\ Forall (fun x => v <= x) (vals a b)) /\
  (property_mixing_rule K b MAXIMUM_PHASE_PROP e as_one a = Some v -> In v (vals a b) /\ Forall (fun x => x <= v) (vals a b)).
Proof. split; cbn. apply pmin_spec. apply pmax_spec. Qed.
(* the logarithmic rules, listed as valid for dP_dV, raise for every bulk of mechanically stable phases *)
Theorem C44_log_rules_for_dP_dV_raise K S_ eqd b : log_prop_methods (s_dP_dV S_) = true -> well_formed b -> b_phases b <> [] ->
  Forall (fun p => get p adP_dV < 0) (b_phases b) -> Bulk_dP_dV K S_ eqd b = None.
Proof.
  intros Hm W Hne HP. unfold Bulk_dP_dV.
  assert (G : forall ws, List.length ws = List.length (b_betas b) -> posum py_log ws (vals adP_dV b) = None).
  { intros ws L. apply posum_none. rewrite map_length. unfold well_formed in W. lia. destruct (b_phases b) as [|p ps] eqn:E; try congruence.
    exists (get p adP_dV). simpl. split; auto. inversion HP; subst. unfold py_log. now rewrite Rltb_false by lra. }
  assert (LM : List.length (Bulk_betas_mass K b) = List.length (b_betas b)) by (unfold Bulk_betas_mass; rewrite weight_fractions_shares; apply shares_length; now rewrite map_length).
  assert (LV : List.length (Bulk_betas_volume b) = List.length (b_betas b)) by (unfold Bulk_betas_volume; rewrite weight_fractions_shares; apply shares_length; now rewrite map_length).
  destruct (s_dP_dV S_); try discriminate; unfold property_mixing_rule; cbn [mole_methods mass_methods volume_methods linear_methods prop_power_methods log_prop_methods]; rewrite G by auto; reflexivity.
Qed.

(* ---- the lists of an EquilibriumState *)
Ltac isf := split; [repeat (constructor; [lra|]); constructor | simpl; lra].
Definition state_ok (s : state) : Prop := List.length (e_betas s) = phase_count s.
Lemma betas_split s : state_ok s -> exists g, List.length g = gas_count s /\ e_betas s = g ++ liquids_betas s ++ solids_betas s /\ (gas_count s = 1%nat -> g = [gas_beta s]) /\
  List.length (liquids_betas s) = liquid_count s /\ List.length (solids_betas s) = solid_count s.
Proof.
  unfold state_ok, phase_count, liquids_betas, solids_betas. intros H. exists (firstn (gas_count s) (e_betas s)). splits.
  - rewrite firstn_length. lia.
  - rewrite <- (firstn_skipn (gas_count s) (e_betas s)) at 1. f_equal. rewrite <- (firstn_skipn (liquid_count s) (skipn (gas_count s) (e_betas s))) at 1. f_equal.
    generalize (e_betas s). generalize (gas_count s). clear. induction n as [|n IH]; intros l; simpl; auto. destruct l; simpl; auto. now rewrite skipn_nil.
  - intros E. unfold gas_beta. rewrite E. destruct (e_betas s); simpl in *; auto. lia.
  - rewrite firstn_length, skipn_length. lia.
  - rewrite skipn_length. lia.
Qed.
Lemma total_app a b : total (a ++ b) = total a + total b.
Proof. induction a; simpl. ring. rewrite IHa. ring. Qed.
Lemma betas_total s : state_ok s -> total (e_betas s) = gas_beta s + total (liquids_betas s) + total (solids_betas s).
Proof.
  intros H. destruct (betas_split s H) as (g & L & E & G & _). rewrite E. rewrite !total_app. destruct (e_gas s) as [gp|] eqn:Eg; unfold gas_count in *; rewrite Eg in *.
  - rewrite (G eq_refl). simpl. ring.
  - destruct g; try discriminate. simpl. unfold gas_beta, gas_count. rewrite Eg. ring.
Qed.
Lemma betas_weighted s f : state_ok s -> weighted (e_betas s) (map f (phases s)) = (match e_gas s with Some g => f g | None => 0 end) * gas_beta s + weighted (liquids_betas s) (map f (e_liquids s)) + weighted (solids_betas s) (map f (e_solids s)).
Proof.
  intros H. destruct (betas_split s H) as (g & L & E & G & L1 & L2). rewrite E at 1. unfold phases, gas_count, liquid_count, solid_count in *.
  destruct (e_gas s) as [gp|] eqn:Eg.
  - rewrite (G eq_refl). simpl. rewrite map_app, weighted_app by now rewrite map_length. ring.
  - destruct g; try discriminate. simpl. rewrite map_app, weighted_app by now rewrite map_length. ring.
Qed.
Theorem C44_state_lists s : state_ok s ->
  List.length (phases s) = List.length (e_betas s) /\ VF s = gas_beta s /\ LF s = total (liquids_betas s) /\
  List.length (liquids_betas s) = List.length (e_liquids s) /\ List.length (solids_betas s) = List.length (e_solids s) /\
  (exists g, e_betas s = g ++ liquids_betas s ++ solids_betas s /\ match e_gas s with Some _ => g = [VF s] | None => g = [] end) /\
  total (betas_states s) = total (e_betas s) /\ (is_fractions (e_betas s) -> is_fractions (betas_states s)).
Proof.
  intros H. destruct (betas_split s H) as (g & L & E & G & L1 & L2). pose proof (betas_total s H) as T.
  assert (HV : VF s = gas_beta s) by (unfold VF, gas_beta, gas_count; destruct (e_gas s); auto).
  assert (T2 : total (betas_states s) = total (e_betas s)) by (rewrite T; unfold betas_states; simpl; rewrite !psum_total; ring).
  splits; auto.
  - unfold phases, state_ok, phase_count, gas_count, liquid_count, solid_count in *. destruct (e_gas s); simpl; rewrite app_length; lia.
  - apply psum_total.
  - exists g. split; auto. unfold gas_count in *. rewrite HV. destruct (e_gas s). now apply G. destruct g; auto; discriminate.
  - intros [F1 F2]. split. 2: now rewrite T2. rewrite E in F1. apply Forall_app in F1. destruct F1 as [Fg F1]. apply Forall_app in F1. destruct F1 as [Fl Fs].
    assert (TN : forall l, Forall (fun b => 0 <= b) l -> 0 <= total l) by (induction 1; simpl; lra).
    assert (Pg : 0 <= gas_beta s). { unfold gas_count in *. destruct (e_gas s) eqn:Eg. rewrite (G eq_refl) in Fg. now inversion Fg. unfold gas_beta, gas_count. rewrite Eg. lra. }
    unfold betas_states. rewrite !psum_total. constructor; auto.
Qed.
(* mass and volume fractions of the gas, all liquids and all solids together *)
Theorem C44_state_fractions K s : state_ok s ->
  (forall f, state_shares s f = map (fun x => x / weighted (e_betas s) (map f (phases s)))
     [ (match e_gas s with Some g => gas_beta s * f g | None => 0 end); weighted (liquids_betas s) (map f (e_liquids s)); weighted (solids_betas s) (map f (e_solids s)) ]) /\
  (forall f, weighted (e_betas s) (map f (phases s)) <> 0 -> total (state_shares s f) = 1) /\
  betas_mass_states K s = state_shares s (fun p => MW_of K (p_zs p)) /\ betas_volume_states s = state_shares s (fun p => get p aV).
Proof.
  intros H.
  assert (A : forall f, state_shares s f = map (fun x => x / weighted (e_betas s) (map f (phases s)))
     [ (match e_gas s with Some g => gas_beta s * f g | None => 0 end); weighted (liquids_betas s) (map f (e_liquids s)); weighted (solids_betas s) (map f (e_solids s)) ]).
  { intros f. unfold state_shares. cbv zeta. rewrite !pwsum_weighted, !(weighted_comm (map f _)). rewrite (betas_weighted s f H). simpl. destruct (e_gas s); repeat (f_equal; try (unfold Rdiv; ring)). }
  splits; auto. intros f Hf. rewrite A. simpl. rewrite (betas_weighted s f H) in *. destruct (e_gas s); field; lra.
Qed.

(* ---- the bulk of several liquids *)
Lemma Rinv_scal_total c l : total (map (fun v => v * c) l) = total l * c. Proof. apply total_map_scal. Qed.
Theorem C44_liquid_bulk K s b : liquid_bulk K s = Some (IsBulk b) -> state_ok s -> 0 < LF s -> Forall (fun p => rsum (N K) (p_zs p) = 1) (e_liquids s) ->
  b_phases b = e_liquids s /\ total (betas_liquids s) = 1 /\
  rsum (N K) (b_zs b) = 1 /\ material_balance (N K) (betas_liquids s) (map p_zs (e_liquids s)) (b_zs b) /\
  Bulk_MW K b = weighted (betas_liquids s) (map (fun p => MW_of K (p_zs p)) (e_liquids s)) /\
  (forall a, mole_sum b a = LF s * weighted (betas_liquids s) (map (fun p => get p a) (e_liquids s))).
Proof.
  intros E H HL HZ. pose proof (betas_split s H) as (g & _ & _ & _ & L1 & _). unfold liquid_count in L1.
  assert (HLF : LF s = total (liquids_betas s)) by apply psum_total.
  assert (EB : betas_liquids s = map (fun v => v * (1 / LF s)) (liquids_betas s)). { unfold betas_liquids. cbv zeta. change (psum (liquids_betas s)) with (LF s). rewrite Reqb_false by lra. reflexivity. }
  assert (Eb : b = {| b_zs := mixed_zs (N K) (liquids_betas s) (e_liquids s); b_phases := e_liquids s; b_betas := liquids_betas s; b_kind := Some "l"%string |}).
  { unfold liquid_bulk in E. destruct (e_liquids s) as [|l [|l' ls]]; try discriminate. injection E as E. now symmetry. }
  subst b. cbn [b_phases b_zs b_betas]. set (raw := fun i => weighted (liquids_betas s) (map (fun p => p_zs p i) (e_liquids s))).
  assert (ER : rsum (N K) raw = LF s).
  { unfold raw. rewrite <- (weighted_rsum (N K) (liquids_betas s) (fun p i => p_zs p i)). rewrite (weighted_const _ 1). rewrite HLF; ring. now rewrite map_length.
    intros x Hx. apply in_map_iff in Hx. destruct Hx as (p & <- & Hp). rewrite Forall_forall in HZ. now apply HZ. }
  assert (EZ : forall i, mixed_zs (N K) (liquids_betas s) (e_liquids s) i = raw i * / LF s).
  { intros i. unfold mixed_zs. cbv zeta. rewrite pwsum_weighted. rewrite (rsum_ext (N K) _ raw) by (intros; apply pwsum_weighted). now rewrite ER. }
  assert (EW : forall xs, weighted (betas_liquids s) xs = 1 / LF s * weighted (liquids_betas s) xs) by (intros; rewrite EB; apply weighted_wscal).
  assert (HM : material_balance (N K) (betas_liquids s) (map p_zs (e_liquids s)) (mixed_zs (N K) (liquids_betas s) (e_liquids s))).
  { intros i Hi. rewrite EZ, EW, map_map. unfold raw. field. lra. }
  splits; auto.
  - rewrite EB, Rinv_scal_total, <- HLF. field. lra.
  - rewrite (rsum_ext (N K) _ (fun i => raw i * / LF s)) by auto. rewrite rsum_scal_r, ER. field. lra.
  - apply (composition_sum (N K) {| b_zs := mixed_zs (N K) (liquids_betas s) (e_liquids s); b_phases := e_liquids s; b_betas := betas_liquids s; b_kind := None |} (MWs K) HM).
  - intros a. unfold mole_sum. cbn [b_betas b_phases]. rewrite pwsum_weighted, EW. field. lra.
Qed.
(* so when there is a gas, V, H, S ... of the liquid bulk are not molar: for identical liquids they differ from those of the liquid *)
Definition wp (v : R) : phase := {| p_zs := fun _ => 1; get := fun a => match a with aV => v | _ => v end |}.
Definition wK : package := {| N := 1; MWs := fun _ => 18; Vls := fun _ => 1; atomss := []; CpI := fun _ => 0; CpIT := fun _ => 0; Cpig := fun _ => 0 |}.
Definition w3 : state := {| e_T := 300; e_P := 100000; e_zs := fun _ => 1; e_gas := Some (wp 25); e_liquids := [wp 2; wp 2]; e_solids := []; e_betas := [1 / 2; 1 / 4; 1 / 4] |}.
Theorem C44_liquid_bulk_V_refuted : exists K s b l, state_ok s /\ is_fractions (e_betas s) /\ liquid_bulk K s = Some (IsBulk b) /\
  Forall (fun p => rsum (N K) (p_zs p) = 1) (e_liquids s) /\ (forall p, In p (e_liquids s) -> p = l) /\ 0 < get l aV /\
  Bulk_V b <> get l aV /\ Bulk_MW K b = MW_of K (p_zs l) /\ Bulk_rho_mass K b = 2 * Ph_rho_mass (get l aV) (MW_of K (p_zs l)).
Proof.
  exists wK, w3, {| b_zs := mixed_zs 1 [1 / 4; 1 / 4] [wp 2; wp 2]; b_phases := [wp 2; wp 2]; b_betas := [1 / 4; 1 / 4]; b_kind := Some "l"%string |}, (wp 2).
  splits; try reflexivity.
  - isf.
  - repeat (constructor; [unfold rsum; simpl; ring|]); constructor.
  - intros p [<-|[<-|[]]]; reflexivity.
  - simpl. lra.
  - unfold Bulk_V, mole_sum. simpl. unfold pwsum. simpl. lra.
  - unfold Bulk_MW, MW_of, csum, mixed_zs, pwsum, rsum. simpl. field.
  - unfold Bulk_rho_mass, Ph_rho_mass, Bulk_V, mole_sum, Bulk_MW, MW_of, csum, mixed_zs, pwsum, rsum. simpl. field.
Qed.

(* ---- quality *)
Theorem C44_quality K s g : state_ok s -> e_gas s = Some g -> e_liquids s <> [] -> e_solids s = [] -> is_fractions (e_betas s) -> 0 < LF s ->
  0 < MW_of K (p_zs g) -> Forall (fun p => rsum (N K) (p_zs p) = 1 /\ 0 < MW_of K (p_zs p)) (e_liquids s) ->
  quality K s = nth 0 (betas_mass_states K s) 0 /\ quality K s = nth 0 (state_betas_mass K s) 0 /\ 0 <= quality K s <= 1.
Proof.
  intros H Eg Hl Es [F1 F2] HL HG HP. pose proof (betas_split s H) as (g0 & _ & E0 & G0 & L1 & L2).
  assert (HLF : LF s = total (liquids_betas s)) by apply psum_total.
  assert (Sb : solids_betas s = []). { unfold solid_count in L2. rewrite Es in L2. now destruct (solids_betas s). }
  assert (HB : 1 - gas_beta s = LF s). { pose proof (betas_total s H). rewrite Sb in H0. simpl in H0. lra. }
  assert (Gg : g0 = [gas_beta s]) by (apply G0; unfold gas_count; now rewrite Eg).
  assert (Hg0 : 0 <= gas_beta s). { rewrite E0, Gg in F1. now inversion F1. }
  assert (Fl : Forall (fun b => 0 <= b) (liquids_betas s)). { rewrite E0 in F1. apply Forall_app in F1. destruct F1 as [_ F1]. now apply Forall_app in F1. }
  set (ML := weighted (liquids_betas s) (map (fun p => MW_of K (p_zs p)) (e_liquids s))).
  assert (PL : 0 < ML). { assert (FR : is_fractions (map (fun v => v * (1 / LF s)) (liquids_betas s))).
    { assert (0 < 1 / LF s) by (apply Rdiv_lt_0_compat; lra). split.
      - apply Forall_forall. intros x Hx. apply in_map_iff in Hx. destruct Hx as (v & <- & Hv). pose proof (proj1 (Forall_forall _ _) Fl v Hv) as Hv'. apply Rmult_le_pos. exact Hv'. now left.
      - rewrite total_map_scal, <- HLF. field. clear - HL. lra. }
    assert (HW := weighted_pos (map (fun v => v * (1 / LF s)) (liquids_betas s)) (map (fun p => MW_of K (p_zs p)) (e_liquids s)) ltac:(rewrite !map_length; unfold liquid_count in L1; now rewrite L1) FR). rewrite weighted_wscal in HW. fold ML in HW.
    assert (0 < 1 / LF s * ML). { apply HW. rewrite Forall_map. eapply Forall_impl; [|exact HP]. intros ? [_ X]; exact X. }
    assert (0 < LF s * (1 / LF s * ML)) by (now apply Rmult_lt_0_compat). replace (LF s * (1 / LF s * ML)) with ML in H1 by (field; lra). auto. }
  assert (EM : forall l, liquid_bulk K s = Some l -> LF s * body_MW K l = ML).
  { intros l El. destruct l as [b|p].
    - destruct (C44_liquid_bulk K s b El H HL) as (_ & _ & _ & _ & E & _). { eapply Forall_impl; [|exact HP]. intros ? [X _]; exact X. }
      simpl. rewrite E. unfold betas_liquids. cbv zeta. change (psum (liquids_betas s)) with (LF s). rewrite Reqb_false by lra. rewrite weighted_wscal. fold ML. field. lra.
    - unfold liquid_bulk in El. unfold ML. unfold liquid_count in L1. revert HLF L1. destruct (e_liquids s) as [|q [|q' qs]]; try discriminate. intros HLF L1. injection El as ->. simpl.
      destruct (liquids_betas s) as [|x [|? ?]]; try discriminate. simpl in *. rewrite HLF. ring. }
  assert (LBn : exists l, liquid_bulk K s = Some l). { unfold liquid_bulk. destruct (e_liquids s) as [|q [|q' qs]]; try congruence; eexists; reflexivity. }
  destruct LBn as [l El]. specialize (EM l El).
  assert (WT : weighted (e_betas s) (map (fun p => MW_of K (p_zs p)) (phases s)) = MW_of K (p_zs g) * gas_beta s + ML). { rewrite (betas_weighted s _ H), Eg, Es. simpl. destruct (solids_betas s); simpl; fold ML; ring. }
  assert (PG : 0 <= MW_of K (p_zs g) * gas_beta s) by (apply Rmult_le_pos; lra).
  assert (Q : quality K s = gas_beta s * MW_of K (p_zs g) / (MW_of K (p_zs g) * gas_beta s + ML)).
  { unfold quality. rewrite Eg, El. unfold ext_vapor_mass_quality. rewrite HB, EM. f_equal. f_equal. ring. }
  splits.
  - destruct (C44_state_fractions K s H) as (A & _ & -> & _). rewrite A, WT, Eg. simpl. exact Q.
  - unfold state_betas_mass. rewrite weight_fractions_shares. unfold shares. rewrite WT. unfold phases. rewrite Eg, E0, Gg. simpl. exact Q.
  - rewrite Q. apply Rmult_le_pos. rewrite Rmult_comm; lra. left. apply Rinv_0_lt_compat. lra.
  - rewrite Q. apply (Rmult_le_reg_r (MW_of K (p_zs g) * gas_beta s + ML)). lra. unfold Rdiv. rewrite Rmult_assoc, Rinv_l by lra. lra.
Qed.
(* with a solid present the quality is not the mass share of the gas, nor its share in gas and liquid *)
Theorem C44_quality_with_solids_refuted : exists K s g l x, state_ok s /\ is_fractions (e_betas s) /\ e_gas s = Some g /\ e_liquids s = [l] /\ e_solids s = [x] /\
  let m := betas_mass_states K s in quality K s <> nth 0 m 0 /\ quality K s <> nth 0 m 0 / (nth 0 m 0 + nth 1 m 0).
Proof.
  exists {| N := 2; MWs := fun i => match i with O => 1 | _ => 4 end; Vls := fun _ => 1; atomss := []; CpI := fun _ => 0; CpIT := fun _ => 0; Cpig := fun _ => 0 |}.
  set (q := fun k : nat => {| p_zs := fun i => if Nat.eqb i k then 1 else 0; get := fun _ => 1 |}).
  exists {| e_T := 300; e_P := 100000; e_zs := fun i => match i with O => 2 / 3 | _ => 1 / 3 end; e_gas := Some (q 0%nat); e_liquids := [q 0%nat]; e_solids := [q 1%nat]; e_betas := [1 / 3; 1 / 3; 1 / 3] |}, (q 0%nat), (q 0%nat), (q 1%nat).
  splits; try reflexivity.
  - isf.
  - cbv zeta. unfold quality, betas_mass_states, state_shares, ext_vapor_mass_quality, pwsum, gas_beta, gas_count, liquids_betas, solids_betas, liquid_count, liquid_bulk, body_MW, MW_of, csum. simpl. split; intros E; field_simplify in E; lra.
Qed.

(* ---- the lists of fractions kept by an EquilibriumState *)
Fixpoint first_volume_reading (rs : list reading) : option reading := match rs with [] => None | READ_betas_mass :: rs' => first_volume_reading rs' | r :: _ => Some r end.
Lemma read_all_spec K s : forall rs c, let c' := read_all K s c rs in
  (k_mass c = None \/ k_mass c = Some (state_betas_mass K s)) ->
  (k_mass c' = None \/ k_mass c' = Some (state_betas_mass K s)) /\
  k_volume_liquid_ref c' = match k_volume_liquid_ref c with Some l => Some l | None => match first_volume_reading rs with Some READ_betas_volume => Some (state_betas_volume s) | Some READ_betas_volume_liquid_ref => Some (state_betas_volume_liquid_ref K s) | _ => None end end.
Proof.
  induction rs as [|r rs IH]; intros c; cbv zeta; intros Hc; simpl. split; auto. destruct (k_volume_liquid_ref c); auto.
  destruct r; simpl.
  - destruct (k_mass c) eqn:E; simpl; specialize (IH _ (or_intror (f_equal Some eq_refl))) || idtac.
    + destruct (IH c) as [A B]. now rewrite E. split; auto.
    + destruct (IH {| k_mass := Some (state_betas_mass K s); k_volume_liquid_ref := k_volume_liquid_ref c |}) as [A B]. simpl; auto. split; auto.
  - destruct (k_volume_liquid_ref c) eqn:E; simpl.
    + destruct (IH c) as [A B]; auto. split; auto. now rewrite B, E.
    + destruct (IH {| k_mass := k_mass c; k_volume_liquid_ref := Some (state_betas_volume s) |}) as [A B]. simpl; auto. split; auto.
  - destruct (k_volume_liquid_ref c) eqn:E; simpl.
    + destruct (IH c) as [A B]; auto. split; auto. now rewrite B, E.
    + destruct (IH {| k_mass := k_mass c; k_volume_liquid_ref := Some (state_betas_volume_liquid_ref K s) |}) as [A B]. simpl; auto. split; auto.
Qed.
Theorem C44_kept_fractions K s rs : let c := read_all K s nothing_kept rs in
  fst (read K s c READ_betas_mass) = state_betas_mass K s /\
  (first_volume_reading rs <> Some READ_betas_volume_liquid_ref -> fst (read K s c READ_betas_volume) = state_betas_volume s) /\
  (first_volume_reading rs <> Some READ_betas_volume -> fst (read K s c READ_betas_volume_liquid_ref) = state_betas_volume_liquid_ref K s) /\
  (first_volume_reading rs = Some READ_betas_volume_liquid_ref -> fst (read K s c READ_betas_volume) = state_betas_volume_liquid_ref K s) /\
  (first_volume_reading rs = Some READ_betas_volume -> fst (read K s c READ_betas_volume_liquid_ref) = state_betas_volume s).
Proof.
  cbv zeta. destruct (read_all_spec K s rs nothing_kept (or_introl eq_refl)) as [A B]. simpl in B.
  assert (NM : first_volume_reading rs <> Some READ_betas_mass) by (clear; induction rs as [|[] rs IH]; simpl; auto; discriminate).
  splits.
  - simpl. destruct A as [-> | ->]; reflexivity.
  - intros H. simpl. rewrite B. destruct (first_volume_reading rs) as [[]|]; try congruence; reflexivity.
  - intros H. simpl. rewrite B. destruct (first_volume_reading rs) as [[]|]; try congruence; reflexivity.
  - intros H. simpl. rewrite B, H. reflexivity.
  - intros H. simpl. rewrite B, H. reflexivity.
Qed.
Theorem C44_betas_volume_refuted : exists K s, state_ok s /\ is_fractions (e_betas s) /\
  fst (read K s (read_all K s nothing_kept [READ_betas_volume_liquid_ref]) READ_betas_volume) = [1 / 2; 1 / 2] /\ state_betas_volume s = [25 / 27; 2 / 27].
Proof.
  exists wK, {| e_T := 300; e_P := 100000; e_zs := fun _ => 1; e_gas := Some (wp 25); e_liquids := [wp 2]; e_solids := []; e_betas := [1 / 2; 1 / 2] |}.
  splits.
  - reflexivity.
  - isf.
  - simpl. unfold state_betas_volume_liquid_ref. rewrite weight_fractions_shares. unfold shares, V_liquid_ref_of, csum. simpl. f_equal; [field | f_equal; field].
  - unfold state_betas_volume. rewrite weight_fractions_shares. unfold shares. simpl. f_equal; [field | f_equal; field].
Qed.

(* ---- viscosity and thermal conductivity: a result between the values of the phases *)
Lemma VL_range K s g m pg pl e lo hi : state_ok s -> e_gas s = Some g -> e_solids s = [] -> is_fractions (e_betas s) ->
  Forall (fun p => 0 < MW_of K (p_zs p) /\ 0 < get p aV) (phases s) ->
  MU_LL_METHODS_set m = true -> m <> AS_ONE_LIQUID -> 0 < lo -> lo <= pg <= hi -> lo <= pl <= hi -> e <> 0 ->
  exists v, mu_k_VL K s m pg pl e = Some v /\ lo <= v <= hi.
Proof.
  intros H Eg Es [F1 F2] HP Hm HA Hlo Hg Hl He.
  pose proof (betas_split s H) as (g0 & _ & E0 & G0 & L1 & L2).
  assert (Sb : solids_betas s = []). { unfold solid_count in L2. rewrite Es in L2. now destruct (solids_betas s). }
  assert (Gg : g0 = [gas_beta s]) by (apply G0; unfold gas_count; now rewrite Eg).
  assert (VFg : VF s = gas_beta s) by (unfold VF, gas_beta, gas_count; now rewrite Eg).
  assert (Hg0 : 0 <= gas_beta s /\ Forall (fun b => 0 <= b) (liquids_betas s)).
  { rewrite E0, Gg in F1. inversion F1 as [|? ? A B]; subst. split; auto. now apply Forall_app in B. }
  destruct Hg0 as [Hg0 Fl].
  assert (TN : forall l, Forall (fun b => 0 <= b) l -> 0 <= total l) by (induction 1; simpl; lra).
  assert (Hmole : is_fractions [VF s; 1 - VF s]).
  { rewrite VFg. pose proof (betas_total s H) as T. rewrite Sb in T. simpl in T. pose proof (TN _ Fl). split. constructor. auto. constructor. lra. constructor. simpl. ring. }
  assert (Hsh : forall f, (forall p, In p (phases s) -> 0 < f p) -> is_fractions (firstn 2 (state_shares s f))).
  { intros f Hf. destruct (C44_state_fractions K s H) as (A & B & _).
    assert (P : 0 < weighted (e_betas s) (map f (phases s))).
    { apply weighted_pos. rewrite map_length. pose proof (C44_state_lists s H) as (X & _). exact X. split; auto. apply Forall_forall. intros x Hx. apply in_map_iff in Hx. destruct Hx as (p & <- & Hp). auto. }
    specialize (B f (Rgt_not_eq _ _ P)). rewrite A in *. rewrite Eg, Es in *. revert B. rewrite Sb. simpl. intros B.
    assert (P' : 0 <= / weighted (e_betas s) (map f (phases s))) by (left; now apply Rinv_0_lt_compat).
    assert (0 <= gas_beta s * f g). { apply Rmult_le_pos; auto. left. apply Hf. unfold phases. rewrite Eg. simpl; auto. }
    assert (0 <= weighted (liquids_betas s) (map f (e_liquids s))). { apply weighted_nonneg; auto. apply Forall_forall. intros x Hx. apply in_map_iff in Hx. destruct Hx as (p & <- & Hp). left. apply Hf. unfold phases. rewrite Eg. simpl. right. apply in_or_app; auto. }
    split. constructor. now apply Rmult_le_pos. constructor. now apply Rmult_le_pos. constructor. simpl. unfold Rdiv in *. rewrite Rmult_0_l in B. lra. }
  rewrite Forall_forall in HP. unfold mu_k_VL.
  set (bs := if mole_methods m then [VF s; 1 - VF s] else if mass_methods m then firstn 2 (betas_mass_states K s) else if volume_methods m then firstn 2 (betas_volume_states s) else []).
  assert (FB : linear_methods m || prop_power_methods m || log_prop_methods m = true -> is_fractions bs /\ exists b0 b1, bs = [b0; b1]).
  { intros Q. subst bs. destruct m; simpl in *; try discriminate; (split; [|eexists; eexists; reflexivity]); auto; apply (Hsh (fun p => MW_of K (p_zs p))) || apply (Hsh (fun p => get p aV)); intros p Hp; apply HP; auto. }
  assert (BT : between lo hi [pg; pl]) by (constructor; [exact Hg | constructor; [exact Hl | constructor]]).
  destruct (linear_methods m) eqn:ML.
  { destruct (FB eq_refl) as (FBs & b0 & b1 & Eb). rewrite Eb in *. simpl. eexists; split; [reflexivity|]. pose proof (weighted_between1 [b0; b1] lo hi [pg; pl] eq_refl FBs BT) as W. simpl in W. lra. }
  destruct (prop_power_methods m) eqn:MP.
  { destruct (FB eq_refl) as (FBs & b0 & b1 & Eb). rewrite Eb in *. simpl.
    destruct (power_mean [b0; b1] [pg; pl] lo hi e eq_refl FBs Hlo BT He) as [PP PB]. discriminate. simpl in PP, PB. replace (b0 * Rpower pg e + (b1 * Rpower pl e + 0)) with (b0 * Rpower pg e + b1 * Rpower pl e) in * by ring.
    unfold ppow. rewrite !(Rltb_true 0 pg), !(Rltb_true 0 pl) by lra. cbn [bindo]. unfold py_div. rewrite Reqb_false by auto. cbn [bindo]. rewrite Rltb_true by auto. eexists; split; [reflexivity|]. exact PB. }
  destruct (log_prop_methods m) eqn:MG.
  { destruct (FB eq_refl) as (FBs & b0 & b1 & Eb). rewrite Eb in *. simpl.
    pose proof (log_mean [b0; b1] [pg; pl] lo hi eq_refl FBs Hlo BT ltac:(discriminate)) as LB. simpl in LB. replace (b0 * ln pg + (b1 * ln pl + 0)) with (b0 * ln pg + b1 * ln pl) in * by ring.
    unfold py_log. rewrite !(Rltb_true 0 pg), !(Rltb_true 0 pl) by lra. cbn [bindo]. eexists; split; [reflexivity|]. exact LB. }
  destruct m; simpl in *; try discriminate; try congruence; unfold pmin, pmax; simpl.
  - destruct (Rltb pl pg); eexists; split; try reflexivity; lra.
  - destruct (Rltb pg pl); eexists; split; try reflexivity; lra.
Qed.
Definition viscosity_or_conductivity (a : attr) : Prop := a = amu \/ a = ak.
Definition Bulk_transport K S_ s al ag corr (a : attr) (b : bulk) := match a with amu => Bulk_mu K S_ s al ag corr b | _ => Bulk_k K S_ s al ag b end.
Definition VL_method (S_ : settings) (a : attr) : method * R := match a with amu => (mu_VL S_, mu_VL_power_exponent S_) | _ => (k_VL S_, k_VL_power_exponent S_) end.
Theorem C44_transport K x S_ s al ag corr a lo hi : viscosity_or_conductivity a -> BulkSettings x = Some S_ ->
  state_ok s -> phases s <> [] -> e_solids s = [] -> is_fractions (e_betas s) -> Forall (fun p => 0 < MW_of K (p_zs p) /\ 0 < get p aV) (phases s) ->
  between lo hi (map (fun p => get p a) (phases s)) -> 0 < lo ->
  fst (LL_method S_ a) <> AS_ONE_LIQUID -> snd (LL_method S_ a) <> 0 ->
  fst (VL_method S_ a) <> AS_ONE_LIQUID -> fst (VL_method S_ a) <> AS_ONE_GAS -> MU_VL_CORRELATIONS_SET (fst (VL_method S_ a)) = false -> snd (VL_method S_ a) <> 0 ->
  (* no gas phase, or at most one liquid *)
  (e_gas s = None \/ (liquid_count s <= 1)%nat) ->
  exists v, Bulk_transport K S_ s al ag corr a (overall_bulk s) = Some v /\ lo <= v <= hi.
Proof.
  intros Ha HS H Hne Es HF HP HB Hlo HL HLe HV1 HV2 HV3 HVe HC.
  assert (ES : x = S_ /\ MU_LL_METHODS_set (mu_LL x) = true /\ MU_VL_METHODS_SET (mu_VL x) = true /\ MU_LL_METHODS_set (k_LL x) = true /\ K_VL_METHODS_SET (k_VL x) = true).
  { unfold BulkSettings in HS. destruct (MU_LL_METHODS_set (mu_LL x)), (MU_VL_METHODS_SET (mu_VL x)), (MU_LL_METHODS_set (k_LL x)), (K_VL_METHODS_SET (k_VL x)), (MU_LL_METHODS_set (sigma_LL x)); simpl in HS; try discriminate. injection HS as <-. auto. }
  destruct ES as (<- & S1 & S2 & S3 & S4).
  assert (W : well_formed (overall_bulk s)). { unfold well_formed, overall_bulk. simpl. pose proof (C44_state_lists s H) as (X & _). now rewrite X. }
  assert (LLv : exists v, LL_rule K x al (overall_bulk s) a = Some v /\ lo <= v <= hi).
  { unfold LL_rule. destruct (mixing_rules K (overall_bulk s) (fst (LL_method x a)) (snd (LL_method x a)) (al a) a lo hi W Hne) as (v & E & R_ & _); auto.
    destruct Ha as [-> | ->]; auto. exists v; auto. }
  destruct (List.length (phases s)) as [|[|n]] eqn:EL.
  { destruct (phases s); congruence || discriminate. }
  { (* one phase *)
    assert (Lb : List.length (e_betas s) = 1%nat) by (pose proof (C44_state_lists s H) as (X & _); lia).
    destruct (phases s) as [|p [|? ?]] eqn:Ep; try discriminate. assert (lo <= get p a <= hi) by (inversion HB; auto).
    exists (get p a). split; auto. destruct Ha as [-> | ->]; unfold Bulk_transport, Bulk_mu, Bulk_k, overall_bulk; cbn [b_betas b_phases b_kind]; rewrite Lb, Ep; reflexivity. }
  assert (Lb : List.length (e_betas s) = S (S n)) by (pose proof (C44_state_lists s H) as (X & _); lia).
  destruct (e_gas s) as [g|] eqn:Eg.
  2:{ destruct LLv as (v & E & R_). exists v. split; auto. destruct Ha as [-> | ->]; unfold Bulk_transport, Bulk_mu, Bulk_k, no_gas; cbn [b_betas b_phases b_kind overall_bulk]; rewrite Lb, Eg; cbn; exact E. }
  destruct HC as [HC | HC]; [discriminate|].
  assert (Ep : exists l, e_liquids s = [l]).
  { unfold liquid_count in HC. unfold phases in EL. rewrite Eg, Es in EL. destruct (e_liquids s) as [|l [|? ?]]; simpl in *; try lia. eauto. }
  destruct Ep as [l Ep]. assert (n = 0%nat) by (unfold phases in EL; rewrite Eg, Es, Ep in EL; simpl in EL; lia). subst n.
  assert (PH : phases s = [g; l]) by (unfold phases; rewrite Eg, Es, Ep; reflexivity).
  rewrite PH in HB. assert (Bg : lo <= get g a <= hi) by (inversion HB; auto). assert (Bl : lo <= get l a <= hi) by (inversion HB as [|? ? ? B]; inversion B; auto).
  assert (Hm : MU_LL_METHODS_set (fst (VL_method x a)) = true).
  { destruct Ha as [-> | ->]; simpl in *. unfold MU_VL_METHODS_SET in S2. 2: unfold K_VL_METHODS_SET in S4.
    destruct (mu_VL x); simpl in *; auto; congruence. destruct (k_VL x); simpl in *; auto; congruence. }
  destruct (VL_range K s g (fst (VL_method x a)) (get g a) (get l a) (snd (VL_method x a)) lo hi H Eg Es HF HP Hm HV1 Hlo Bg Bl HVe) as (v & E & R_).
  exists v. split; auto. rewrite <- E.
  destruct Ha as [-> | ->]; unfold Bulk_transport, Bulk_mu, Bulk_k, no_gas, the_liquid; cbn [b_betas b_phases b_kind overall_bulk is_l]; rewrite Lb, Eg, Ep; cbn [VL_method fst snd] in *; cbn.
  - destruct (mu_VL x); simpl in *; try discriminate; try congruence; reflexivity.
  - destruct (k_VL x); simpl in *; try discriminate; try congruence; reflexivity.
Qed.
(* with a gas and two liquids the bulk of the liquids is weighted with fractions that do not add up to one: three phases of equal viscosity
   give half that viscosity *)
Definition w4 : state := {| e_T := 300; e_P := 100000; e_zs := fun _ => 1; e_gas := Some (wp 2); e_liquids := [wp 2; wp 2]; e_solids := []; e_betas := [1 / 2; 1 / 4; 1 / 4] |}.
Definition wS (m : method) (e : R) : settings := {| mu_LL := m; mu_LL_power_exponent := e; mu_VL := MINIMUM_PHASE_PROP; mu_VL_power_exponent := e; k_LL := m; k_LL_power_exponent := e;
  k_VL := MINIMUM_PHASE_PROP; k_VL_power_exponent := e; sigma_LL := m; sigma_LL_power_exponent := e; s_dP_dT := MOLE_WEIGHTED; s_dP_dV := MOLE_WEIGHTED; s_d2P_dV2 := MOLE_WEIGHTED;
  s_d2P_dT2 := MOLE_WEIGHTED; s_d2P_dTdV := MOLE_WEIGHTED; s_speed_of_sound := MOLE_WEIGHTED; s_kappa := MOLE_WEIGHTED; s_isobaric_expansion := MOLE_WEIGHTED; s_Joule_Thomson := MOLE_WEIGHTED; equilibrium_perturbation := 1 / 10 |}.
Theorem C44_transport_three_phases_refuted : exists K x s v, BulkSettings x = Some x /\ state_ok s /\ is_fractions (e_betas s) /\ e_solids s = [] /\
  Forall (fun p => get p amu = 2) (phases s) /\ (forall al ag corr, Bulk_mu K x s al ag corr (overall_bulk s) = Some v) /\ v = 1.
Proof.
  exists wK, (wS MOLE_WEIGHTED 1), w4, (fold_left (fun m y => if Rltb y m then y else m) [0 + 1 / 4 * 2 + 1 / 4 * 2] 2). splits; try reflexivity.
  - isf.
  - repeat (constructor; [reflexivity|]). constructor.
  - simpl. rewrite Rltb_true by lra. field.
Qed.
(* the rules with a power, which the setting of dP_dT accepts, raise for every bulk, since no exponent is given *)
Theorem C44_power_rules_for_derivatives_raise K S_ eqd b : well_formed b -> b_phases b <> [] ->
  (prop_power_methods (s_dP_dT S_) = true -> Bulk_dP_dT K S_ eqd b = None) /\ (prop_power_methods (s_dP_dV S_) = true -> Bulk_dP_dV K S_ eqd b = None) /\
  (prop_power_methods (s_d2P_dT2 S_) = true -> Bulk_d2P_dT2 K S_ b = None) /\ (prop_power_methods (s_d2P_dV2 S_) = true -> Bulk_d2P_dV2 K S_ b = None) /\
  (prop_power_methods (s_d2P_dTdV S_) = true -> Bulk_d2P_dTdV K S_ b = None).
Proof.
  intros W Hne.
  assert (G : forall m a, prop_power_methods m = true -> property_mixing_rule K b m None None a = None).
  { intros m a Hm.
    assert (LM : List.length (Bulk_betas_mass K b) = List.length (b_betas b)) by (unfold Bulk_betas_mass; rewrite weight_fractions_shares; apply shares_length; now rewrite map_length).
    assert (LV : List.length (Bulk_betas_volume b) = List.length (b_betas b)) by (unfold Bulk_betas_volume; rewrite weight_fractions_shares; apply shares_length; now rewrite map_length).
    assert (P : forall ws, List.length ws = List.length (b_betas b) -> posum (fun x => ppow x None) ws (vals a b) = None).
    { intros ws L. apply posum_none. rewrite map_length. unfold well_formed in W. lia. destruct (b_phases b) as [|p ps]; try congruence. exists (get p a). simpl; auto. }
    destruct m; try discriminate; unfold property_mixing_rule; cbn [mole_methods mass_methods volume_methods linear_methods prop_power_methods]; rewrite P by auto; reflexivity. }
  splits; intros Hm; [unfold Bulk_dP_dT; destruct (s_dP_dT S_) | unfold Bulk_dP_dV; destruct (s_dP_dV S_) | unfold Bulk_d2P_dT2; destruct (s_d2P_dT2 S_) | unfold Bulk_d2P_dV2; destruct (s_d2P_dV2 S_) | unfold Bulk_d2P_dTdV; destruct (s_d2P_dTdV S_)]; try discriminate; now apply G.
Qed.

(* ---- departures of a bulk phase *)
Lemma sum_z_ln_z_rsum n zs : rsum n (fun i => zs i * ln (zs i)) = sum_z_ln_z n zs.
Proof. induction n; simpl. reflexivity. now rewrite IHn. Qed.
Lemma S_ig_eq K P_REF P b : Bulk_S_ideal_gas K P_REF P b = csum (N K) (b_zs b) (CpIT K) - Rgas * ln (P / P_REF) - Rgas * sum_z_ln_z (N K) (b_zs b).
Proof. unfold Bulk_S_ideal_gas. cbv zeta. rewrite (loop_rsum (N K) (fun i => b_zs b i * CpIT K i)). rewrite csum_rsum, sum_z_ln_z_rsum. replace (P * (1 / P_REF)) with (P / P_REF) by (unfold Rdiv; ring). ring. Qed.
Definition as_bulk (p : phase) : bulk := {| b_zs := p_zs p; b_phases := [p]; b_betas := [1]; b_kind := None |}.
Theorem C44_departures K P_REF P b : well_formed b -> total (b_betas b) = 1 -> material_balance (N K) (b_betas b) (map p_zs (b_phases b)) (b_zs b) ->
  (* each phase: H = H_ideal_gas + H_dep and S = S_ideal_gas + S_dep *)
  Forall (fun p => get p aH = state_H_ideal_gas K (p_zs p) + get p aH_dep /\ get p aS = Bulk_S_ideal_gas K P_REF P (as_bulk p) + get p aS_dep) (b_phases b) ->
  state_H_dep K b = weighted (b_betas b) (map (fun p => get p aH_dep) (b_phases b)) /\
  state_S_dep b = weighted (b_betas b) (map (fun p => get p aS_dep) (b_phases b)) /\
  (* the entropy departure leaves out the entropy of mixing of the phases *)
  Bulk_S b - Bulk_S_ideal_gas K P_REF P b = state_S_dep b + Rgas * (sum_z_ln_z (N K) (b_zs b) - weighted (b_betas b) (map (fun p => sum_z_ln_z (N K) (p_zs p)) (b_phases b))).
Proof.
  intros W HT HB HP. rewrite Forall_forall in HP.
  assert (ES : state_S_dep b = weighted (b_betas b) (map (fun p => get p aS_dep) (b_phases b))).
  { unfold state_S_dep. rewrite <- pwsum_weighted. unfold pwsum. generalize (combine (b_betas b) (map (fun p => get p aS_dep) (b_phases b))). generalize 0.
    intros z l. revert z. induction l as [|q l IH]; simpl; auto. intros z. replace (z + snd q * fst q) with (z + fst q * snd q) by ring. apply IH. }
  splits; auto.
  - unfold state_H_dep, Bulk_H, mole_sum. rewrite pwsum_weighted. destruct (C44_composition K b HB) as (_ & _ & -> & _).
    rewrite (weighted_ext _ (fun p => get p aH) (fun p => 1 * state_H_ideal_gas K (p_zs p) + 1 * get p aH_dep)). 2:{ intros p Hp. destruct (HP p Hp) as [-> _]. ring. }
    rewrite (weighted_lin _ (fun p => state_H_ideal_gas K (p_zs p)) (fun p => get p aH_dep) (fun p => 1 * state_H_ideal_gas K (p_zs p) + 1 * get p aH_dep) 1 1) by (intros; ring). ring.
  - rewrite ES, S_ig_eq. unfold Bulk_S, mole_sum. rewrite pwsum_weighted.
    rewrite (weighted_ext _ (fun p => get p aS) (fun p => 1 * (1 * csum (N K) (p_zs p) (CpIT K) + (- Rgas * ln (P / P_REF)) * 1) + 1 * (1 * get p aS_dep + (- Rgas) * sum_z_ln_z (N K) (p_zs p)))). 2:{ intros p Hp. destruct (HP p Hp) as [_ ->]. rewrite S_ig_eq. cbn [as_bulk b_zs]. ring. }
    rewrite (weighted_lin _ (fun p => 1 * csum (N K) (p_zs p) (CpIT K) + (- Rgas * ln (P / P_REF)) * 1) (fun p => 1 * get p aS_dep + (- Rgas) * sum_z_ln_z (N K) (p_zs p)) (fun p => 1 * (1 * csum (N K) (p_zs p) (CpIT K) + (- Rgas * ln (P / P_REF)) * 1) + 1 * (1 * get p aS_dep + (- Rgas) * sum_z_ln_z (N K) (p_zs p))) 1 1) by (intros; ring).
    rewrite (weighted_lin _ (fun p => csum (N K) (p_zs p) (CpIT K)) (fun p => 1) (fun p => 1 * csum (N K) (p_zs p) (CpIT K) + (- Rgas * ln (P / P_REF)) * 1) 1 (- Rgas * ln (P / P_REF))) by (intros; ring).
    rewrite (weighted_lin _ (fun p => get p aS_dep) (fun p => sum_z_ln_z (N K) (p_zs p)) (fun p => 1 * get p aS_dep + (- Rgas) * sum_z_ln_z (N K) (p_zs p)) 1 (- Rgas)) by (intros; ring).
    rewrite (weighted_const _ 1 (map (fun _ => 1) _)). 2: now rewrite map_length. 2:{ intros x Hx. apply in_map_iff in Hx. destruct Hx as (p & <- & _). reflexivity. }
    rewrite HT. rewrite (composition_sum (N K) b (CpIT K) HB). ring.
Qed.
(* so S_dep of a bulk is not S - S_ideal_gas: two phases of ideal gas properties *)
Definition zq (q : R) : nat -> R := fun i => match i with O => q | _ => 1 - q end.
Definition K2 : package := {| N := 2; MWs := fun i => match i with O => 2 | _ => 30 end; Vls := fun _ => 1; atomss := [[("H", 2)]; [("C", 1); ("H", 4)]]%string; CpI := fun _ => 0; CpIT := fun _ => 0; Cpig := fun _ => 30 |}.
Definition igp (q : R) : phase := {| p_zs := zq q; get := fun a => match a with aS => - Rgas * (q * ln q + (1 - q) * ln (1 - q)) | aH | aH_dep | aS_dep => 0 | _ => 1 end |}.
Definition b2 : bulk := {| b_zs := zq (1 / 2); b_phases := [igp (1 / 4); igp (3 / 4)]; b_betas := [1 / 2; 1 / 2]; b_kind := None |}.
Lemma b2_ok : well_formed b2 /\ total (b_betas b2) = 1 /\ is_fractions (b_betas b2) /\ material_balance (N K2) (b_betas b2) (map p_zs (b_phases b2)) (b_zs b2) /\
  Forall (fun p => get p aH = state_H_ideal_gas K2 (p_zs p) + get p aH_dep /\ get p aS = Bulk_S_ideal_gas K2 1 1 (as_bulk p) + get p aS_dep) (b_phases b2).
Proof.
  splits.
  - reflexivity.
  - simpl. lra.
  - isf.
  - intros i Hi. simpl in Hi. destruct i as [|[|i]]; simpl. lra. lra. lia.
  - constructor; [|constructor; [|constructor]]; (split; [unfold state_H_ideal_gas, csum; simpl; ring|]); rewrite S_ig_eq; unfold csum; simpl; replace (1 / 1) with 1 by field; rewrite ln_1; ring.
Qed.
Lemma ln27_16 : 3 / 4 * ln 3 <> ln 2.
Proof.
  intros E. assert (ln (3 ^ 3) = ln (2 ^ 4)). { simpl. rewrite !Rmult_1_r. rewrite !ln_mult by lra. lra. }
  apply ln_inv in H; simpl in *; lra.
Qed.
Theorem C44_S_dep_refuted : exists K P_REF P b, well_formed b /\ is_fractions (b_betas b) /\ material_balance (N K) (b_betas b) (map p_zs (b_phases b)) (b_zs b) /\
  Forall (fun p => get p aH = state_H_ideal_gas K (p_zs p) + get p aH_dep /\ get p aS = Bulk_S_ideal_gas K P_REF P (as_bulk p) + get p aS_dep) (b_phases b) /\
  state_S_dep b <> Bulk_S b - Bulk_S_ideal_gas K P_REF P b.
Proof.
  exists K2, 1, 1, b2. destruct b2_ok as (W & T & F & B & P). splits; auto.
  destruct (C44_departures K2 1 1 b2 W T B P) as (_ & _ & ->). intros E.
  assert (E' : sum_z_ln_z (N K2) (b_zs b2) - weighted (b_betas b2) (map (fun p => sum_z_ln_z (N K2) (p_zs p)) (b_phases b2)) = 0).
  { pose proof Rgas_pos. assert (Rgas * (sum_z_ln_z (N K2) (b_zs b2) - weighted (b_betas b2) (map (fun p => sum_z_ln_z (N K2) (p_zs p)) (b_phases b2))) = 0) by lra. apply Rmult_integral in H0. destruct H0; lra. }
  simpl in E'. replace (1 - 1 / 2) with (1 / 2) in E' by field. replace (1 - 1 / 4) with (3 / 4) in E' by field. replace (1 - 3 / 4) with (1 / 4) in E' by field.
  unfold Rdiv in E'. rewrite !Rmult_1_l in E'. rewrite (ln_mult 3) in E' by lra. rewrite !ln_Rinv in E' by lra. replace 4 with (2 * 2) in E' at 2 3 4 5 6 7 8 by ring.
  apply ln27_16. assert (L4 : ln 4 = 2 * ln 2). { replace 4 with (2 * 2) by ring. rewrite ln_mult by lra. ring. }
  replace (2 * 2) with 4 in E' by ring. rewrite L4 in E'. lra.
Qed.
(* the ideal gas entropy that the state gives for a bulk phase uses the mole fractions of the whole state inside the logarithm *)
Theorem C44_state_S_ideal_gas K P_REF s b : (forall i, (i < N K)%nat -> b_zs b i = e_zs s i) -> state_S_ideal_gas K P_REF s b = Bulk_S_ideal_gas K P_REF (e_P s) b.
Proof. intros H. unfold state_S_ideal_gas, Bulk_S_ideal_gas. cbv zeta. f_equal. f_equal. f_equal. f_equal. apply rsum_ext. intros i Hi. now rewrite (H i Hi). Qed.
Theorem C44_state_S_ideal_gas_refuted : exists K P_REF s b, state_ok s /\ is_fractions (e_betas s) /\ material_balance (N K) (e_betas s) (map p_zs (phases s)) (e_zs s) /\
  liquid_bulk K s = Some (IsBulk b) /\ state_S_ideal_gas K P_REF s b <> Bulk_S_ideal_gas K P_REF (e_P s) b.
Proof.
  exists K2, 1, {| e_T := 300; e_P := 1; e_zs := zq (1 / 2); e_gas := Some (igp (1 / 4)); e_liquids := [igp (3 / 4); igp (3 / 4)]; e_solids := []; e_betas := [1 / 2; 1 / 4; 1 / 4] |}.
  eexists. splits; try reflexivity.
  - isf.
  - intros i Hi. simpl in Hi. destruct i as [|[|i]]; simpl. lra. lra. lia.
  - rewrite S_ig_eq. unfold state_S_ideal_gas. cbv zeta. rewrite (loop_rsum (N K2) _). cbn [b_zs e_zs e_P e_liquids N K2 CpIT].
    set (z := mixed_zs _ _ _). assert (Z0 : z 0%nat = 3 / 4) by (unfold z, mixed_zs, pwsum, rsum; simpl; field). assert (Z1 : z 1%nat = 1 / 4) by (unfold z, mixed_zs, pwsum, rsum; simpl; field).
    unfold csum. simpl. rewrite Z0, Z1. intros E. replace (1 * (1 / 1)) with 1 in E by field. replace (1 / 1) with 1 in E by field. rewrite ln_1 in E. replace (1 - 1 / 2) with (1 / 2) in E by field.
    assert (E' : Rgas * (3 / 4 * ln (1 / 2) + 1 / 4 * ln (1 / 2) - (3 / 4 * ln (3 / 4) + 1 / 4 * ln (1 / 4))) = 0) by lra.
    pose proof Rgas_pos. apply Rmult_integral in E'. destruct E' as [E' | E']; [lra|].
    unfold Rdiv in E'. rewrite !Rmult_1_l in E'. rewrite (ln_mult 3) in E' by lra. rewrite !ln_Rinv in E' by lra. assert (L4 : ln 4 = 2 * ln 2). { replace 4 with (2 * 2) by ring. rewrite ln_mult by lra. ring. }
    rewrite L4 in E'. apply ln27_16. lra.
Qed.

(* ---- atoms *)
Lemma item_add_get d k v : forall k', item_get (item_add d k v) k' = item_get d k' + (if String.eqb k k' then v else 0).
Proof.
  induction d as [|[k0 v0] d IH]; intros k'; simpl. destruct (String.eqb k k'); ring.
  destruct (String.eqb_spec k0 k) as [->|n]; simpl. destruct (String.eqb k k'); ring.
  rewrite IH. destruct (String.eqb_spec k0 k') as [->|n']; auto. destruct (String.eqb_spec k k') as [->|]; [congruence|ring].
Qed.
Lemma item_add_keys d k v : NoDup (map fst d) -> NoDup (map fst (item_add d k v)) /\ (forall x, In x (map fst (item_add d k v)) -> In x (map fst d) \/ x = k).
Proof.
  induction d as [|[k0 v0] d IH]; simpl; intros H. split. repeat constructor; auto. intros x [<-|[]]; auto.
  inversion H as [|? ? A B]; subst. destruct (String.eqb_spec k0 k) as [->|n]; simpl. split. constructor; auto. intros; auto.
  destruct (IH B) as [C D]. split. constructor; auto. intros X. destruct (D _ X); congruence. intros x [<-|X]; auto. destruct (D _ X); auto.
Qed.
Lemma atoms_get (zs : nat -> R) : forall atoms d i, let d' := fold_left (fun d (p : string * R) => item_add d (fst p) (zs i * snd p)) atoms d in
  (forall k, item_get d' k = item_get d k + zs i * count_atoms k atoms) /\ (NoDup (map fst d) -> NoDup (map fst d')).
Proof.
  induction atoms as [|[k0 v0] atoms IH]; intros d i; cbv zeta; simpl. split; auto. intros; ring.
  destruct (IH (item_add d k0 (zs i * v0)) i) as [A B]. split.
  - intros k. rewrite A, item_add_get. destruct (String.eqb k0 k); ring.
  - intros H. apply B. now apply item_add_keys.
Qed.
Lemma content_get (zs : nat -> R) : forall fs d m, let d' := snd (fold_left (fun (st : nat * list (string * R)) atoms => let (i, things) := st in
        (S i, fold_left (fun d (p : string * R) => item_add d (fst p) (zs i * snd p)) atoms things)) fs (m, d)) in
  (forall k, item_get d' k = item_get d k + element_amount k zs m fs) /\ (NoDup (map fst d) -> NoDup (map fst d')).
Proof.
  induction fs as [|f fs IH]; intros d m; cbv zeta; simpl. split; auto. intros; ring.
  destruct (atoms_get zs f d m) as [A B]. destruct (IH (fold_left (fun d (p : string * R) => item_add d (fst p) (zs m * snd p)) f d) (S m)) as [C D]. split.
  - intros k. rewrite C, A. ring.
  - auto.
Qed.
Lemma item_get_scal c d k : item_get (map (fun p => (fst p, snd p * c)) d) k = item_get d k * c.
Proof. induction d as [|[k0 v0] d IH]; simpl. ring. destruct (String.eqb k0 k); auto. Qed.
Theorem C44_atoms K zs :
  (forall k, item_get (atom_content K zs) k = element_amount k zs 0 (atomss K)) /\ NoDup (map fst (atom_content K zs)) /\
  (let t := total (map snd (atom_content K zs)) in t <> 0 ->
     total (map snd (atom_fractions K zs)) = 1 /\ map fst (atom_fractions K zs) = map fst (atom_content K zs) /\ forall k, item_get (atom_fractions K zs) k = element_amount k zs 0 (atomss K) / t).
Proof.
  destruct (content_get zs (atomss K) [] 0%nat) as [A B]. fold (atom_content K zs) in A, B.
  assert (A' : forall k, item_get (atom_content K zs) k = element_amount k zs 0 (atomss K)) by (intros k; rewrite A; simpl; ring).
  splits; auto. apply B. constructor. cbv zeta. intros Ht. unfold atom_fractions. cbv zeta. rewrite psum_total. splits.
  - rewrite map_map. simpl. rewrite <- (map_map snd (fun v => v * (1 / total (map snd (atom_content K zs))))). rewrite total_map_scal. field. auto.
  - now rewrite map_map.
  - intros k. rewrite item_get_scal, A'. unfold Rdiv. ring.
Qed.
(* elements are conserved between the phases *)
Theorem C44_element_balance K b k : material_balance (List.length (atomss K)) (b_betas b) (map p_zs (b_phases b)) (b_zs b) ->
  item_get (atom_content K (b_zs b)) k = weighted (b_betas b) (map (fun p => item_get (atom_content K (p_zs p)) k) (b_phases b)).
Proof.
  intros H. rewrite (proj1 (C44_atoms K (b_zs b))). rewrite (weighted_ext _ (fun p => item_get (atom_content K (p_zs p)) k) (fun p => element_amount k (p_zs p) 0 (atomss K))) by (intros; apply C44_atoms).
  assert (G : forall fs m, (m + List.length fs <= List.length (atomss K))%nat -> element_amount k (b_zs b) m fs = weighted (b_betas b) (map (fun p => element_amount k (p_zs p) m fs) (b_phases b))).
  { induction fs as [|f fs IH]; intros m Hm; simpl in *.
    - symmetry. clear. generalize (b_betas b), (b_phases b). induction l as [|w l IH]; intros [|p ps]; simpl; auto. rewrite IH. ring.
    - rewrite IH by lia. rewrite (H m) by lia. rewrite map_map.
      rewrite (weighted_lin _ (fun p => p_zs p m) (fun p => element_amount k (p_zs p) (S m) fs) (fun p => p_zs p m * count_atoms k f + element_amount k (p_zs p) (S m) fs) (count_atoms k f) 1) by (intros; ring). ring. }
  apply G. lia.
Qed.
(* the ratio of hydrogen to carbon, of the whole state whatever the phase asked for *)
Theorem C44_H_C_ratio K s : let a := fun k => element_amount k (e_zs s) 0 (atomss K) in total (map snd (atom_content K (e_zs s))) <> 0 ->
  forall ph, H_C_ratio K s ph = if Reqb (a "C"%string) 0 then None else Some (a "H"%string / a "C"%string).
Proof.
  cbv zeta. intros Ht ph. unfold H_C_ratio. cbv zeta. destruct (C44_atoms K (e_zs s)) as (_ & _ & G). destruct (G Ht) as (_ & _ & ->). rewrite (proj2 (proj2 (G Ht))).
  unfold py_div. destruct (Reqb_spec (element_amount "C" (e_zs s) 0 (atomss K)) 0) as [E|E].
  - rewrite E. rewrite Reqb_true. reflexivity. unfold Rdiv. ring.
  - rewrite Reqb_false. f_equal. field. auto. intros X. apply E. apply (f_equal (fun y => y * total (map snd (atom_content K (e_zs s))))) in X. unfold Rdiv in X. rewrite Rmult_assoc, Rinv_l, Rmult_1_r, Rmult_0_l in X; auto.
Qed.
Definition s2 : state := {| e_T := 300; e_P := 1; e_zs := zq (1 / 2); e_gas := Some (igp (1 / 4)); e_liquids := [igp (3 / 4)]; e_solids := []; e_betas := [1 / 2; 1 / 2] |}.
Lemma s2_ok : state_ok s2 /\ is_fractions (e_betas s2) /\ material_balance (N K2) (e_betas s2) (map p_zs (phases s2)) (e_zs s2).
Proof. splits. reflexivity. isf. intros i Hi. simpl in Hi. destruct i as [|[|i]]; simpl. lra. lra. lia. Qed.
Theorem C44_H_C_ratio_of_phase_refuted : exists K s p, state_ok s /\ is_fractions (e_betas s) /\ material_balance (N K) (e_betas s) (map p_zs (phases s)) (e_zs s) /\ In p (phases s) /\
  H_C_ratio K s (Some (p_zs p)) = Some 6 /\ item_get (atom_content K (p_zs p)) "H" / item_get (atom_content K (p_zs p)) "C" = 14 / 3.
Proof.
  exists K2, s2, (igp (1 / 4)). destruct s2_ok as (A & B & C). splits; auto.
  - simpl. auto.
  - rewrite C44_H_C_ratio. 2:{ unfold atom_content. simpl. lra. } simpl. rewrite Reqb_false by lra. f_equal. field.
  - rewrite !(proj1 (C44_atoms _ _)). simpl. field.
Qed.
Theorem C44_humidity_ratio K s w ph : rsum (N K) (fun j => e_zs s j * MWs K j) <> 0 -> (w < N K)%nat ->
  let m := fun i => e_zs s i * MWs K i in rsum (N K) m - m w <> 0 ->
  humidity_ratio K s (Some w) ph = m w / (rsum (N K) m - m w) /\ humidity_ratio K s None ph = 0.
Proof. cbv zeta. intros Ht Hw Hd. split; auto. unfold humidity_ratio, ws_of. cbv zeta. field. split; auto. Qed.
Theorem C44_humidity_ratio_of_phase_refuted : exists K s p w, state_ok s /\ is_fractions (e_betas s) /\ material_balance (N K) (e_betas s) (map p_zs (phases s)) (e_zs s) /\ In p (phases s) /\ (w < N K)%nat /\
  humidity_ratio K s (Some w) (Some (p_zs p)) = 1 / 15 /\ p_zs p w * MWs K w / (rsum (N K) (fun j => p_zs p j * MWs K j) - p_zs p w * MWs K w) = 1 / 45.
Proof.
  exists K2, s2, (igp (1 / 4)), 0%nat. destruct s2_ok as (A & B & C). splits; auto.
  - simpl. auto.
  - simpl. lia.
  - unfold humidity_ratio, ws_of. simpl. field.
  - simpl. field.
Qed.
(* ---- compositions derived from the state *)
Theorem C44_zs_no_water K zs w : (w < N K)%nat -> rsum (N K) zs = 1 -> zs w <> 1 ->
  rsum (N K) (zs_no_water K zs (Some w)) = 1 /\ zs_no_water K zs (Some w) w = 0 /\
  (forall i j, (i < N K)%nat -> (j < N K)%nat -> i <> w -> j <> w -> zs_no_water K zs (Some w) i * zs j = zs_no_water K zs (Some w) j * zs i) /\ zs_no_water K zs None = zs.
Proof.
  intros Hw HZ H1. unfold zs_no_water. cbv zeta. set (z := loop (N K) _ zs).
  assert (Z : forall i, (i < N K)%nat -> z i = zs i * (1 / (1 - zs w))) by (intros i Hi; unfold z; apply (ActFacts.loop_upd_self (N K) (fun i v => v * (1 / (1 - zs w))) zs i Hi)).
  assert (W : upd z w 0 w = 0) by (unfold upd; now rewrite Nat.eqb_refl).
  assert (O : forall i, i <> w -> upd z w 0 i = z i) by (intros i Hi; unfold upd; destruct (Nat.eqb_spec i w); congruence).
  splits; auto.
  - rewrite (rsum_ext _ _ (fun i => zs i * (1 / (1 - zs w)) - (if Nat.eqb i w then zs w * (1 / (1 - zs w)) else 0))).
    + rewrite rsum_minus, rsum_scal_r, HZ. rewrite (rsum_single (N K) w (fun i => if Nat.eqb i w then zs w * (1 / (1 - zs w)) else 0) Hw). 2:{ intros j _ Hj. destruct (Nat.eqb_spec j w); congruence. } rewrite Nat.eqb_refl. field. lra.
    + intros i Hi. destruct (Nat.eqb_spec i w) as [->|n]. rewrite W. ring. rewrite O, Z by auto. ring.
  - intros i j Hi Hj Ni Nj. rewrite !O, !Z by auto. ring.
Qed.
Theorem C44_Vfls K zs : csum (N K) zs (Vls K) <> 0 -> rsum (N K) (Vfls K zs) = 1 /\ forall i, Vfls K zs i * V_liquid_ref_of K zs = zs i * Vls K i.
Proof.
  intros H. unfold Vfls, V_liquid_ref_of. cbv zeta. split.
  - rewrite (rsum_ext _ _ (fun i => 1 / csum (N K) zs (Vls K) * (zs i * Vls K i))) by (intros; ring). rewrite rsum_scal_l, <- csum_rsum. field. auto.
  - intros i. field. auto.
Qed.
Theorem C44_Ks ref zs i : ref i <> 0 -> Ks ref zs i * ref i = zs i.
Proof. intros H. unfold Ks. field. auto. Qed.
(* the liquid with the most water; the first one of those; none when no liquid has any *)
Theorem C44_water_phase_index s w : match water_phase_index s w with
  | Some i => exists l, nth_error (e_liquids s) i = Some l /\ 0 < p_zs l w /\ (forall j l', nth_error (e_liquids s) j = Some l' -> p_zs l' w <= p_zs l w) /\ (forall j l', (j < i)%nat -> nth_error (e_liquids s) j = Some l' -> p_zs l' w < p_zs l w)
  | None => forall l, In l (e_liquids s) -> p_zs l w <= 0 end.
Proof.
  unfold water_phase_index. set (step := fun (st : R * option nat * nat) (l : phase) => _).
  assert (G : forall done todo m best, 
     match best with Some i => exists l, nth_error done i = Some l /\ m = p_zs l w /\ 0 < m /\ (forall j l', nth_error done j = Some l' -> p_zs l' w <= m) /\ (forall j l', (j < i)%nat -> nth_error done j = Some l' -> p_zs l' w < m)
     | None => m = 0 /\ forall l, In l done -> p_zs l w <= 0 end ->
     let '(m', best', _) := fold_left step todo (m, best, List.length done) in
     match best' with Some i => exists l, nth_error (done ++ todo) i = Some l /\ m' = p_zs l w /\ 0 < m' /\ (forall j l', nth_error (done ++ todo) j = Some l' -> p_zs l' w <= m') /\ (forall j l', (j < i)%nat -> nth_error (done ++ todo) j = Some l' -> p_zs l' w < m')
     | None => m' = 0 /\ forall l, In l (done ++ todo) -> p_zs l w <= 0 end).
  { intros done todo. revert done. induction todo as [|l todo IH]; intros done m best Hb; simpl.
    - rewrite app_nil_r. exact Hb.
    - assert (LEN : S (List.length done) = List.length (done ++ [l])) by (rewrite app_length; simpl; lia).
      assert (NL : nth_error (done ++ [l]) (List.length done) = Some l) by (rewrite nth_error_app2, Nat.sub_diag by lia; reflexivity).
      assert (NS : forall j l', nth_error (done ++ [l]) j = Some l' -> nth_error done j = Some l' /\ (j < List.length done)%nat \/ l' = l).
      { intros j l' E. destruct (Nat.lt_ge_cases j (List.length done)) as [L|L]. rewrite nth_error_app1 in E by auto. auto. rewrite nth_error_app2 in E by auto. destruct (j - List.length done)%nat as [|q]; simpl in E. right. congruence. destruct q; discriminate. }
      assert (M0 : 0 <= m) by (destruct best; [destruct Hb as (? & _ & _ & ? & _); lra | destruct Hb; lra]).
      replace (done ++ l :: todo) with ((done ++ [l]) ++ todo) by (rewrite <- app_assoc; reflexivity).
      destruct (Rltb m (p_zs l w)) eqn:E; rewrite LEN; apply IH.
      + apply Rltb_spec in E || (unfold Rltb in E; destruct (Rlt_dec m (p_zs l w)) as [E'|]; [|discriminate]); try rename E' into E.
        exists l. splits; auto; try lra.
        * intros j l' H. destruct (NS _ _ H) as [[H' _] | ->]; [|lra]. destruct best; [destruct Hb as (? & _ & _ & _ & Q & _); specialize (Q _ _ H'); lra | destruct Hb as [-> Q]; apply nth_error_In in H'; specialize (Q _ H'); lra].
        * intros j l' Hj H. rewrite nth_error_app1 in H by auto. destruct best; [destruct Hb as (? & _ & _ & _ & Q & _); specialize (Q _ _ H); lra | destruct Hb as [-> Q]; apply nth_error_In in H; specialize (Q _ H); lra].
      + assert (E' : p_zs l w <= m) by (unfold Rltb in E; destruct (Rlt_dec m (p_zs l w)); [discriminate|lra]).
        destruct best as [i|].
        * destruct Hb as (l0 & A & B & C & D & F). assert (Hi : (i < List.length done)%nat) by (apply nth_error_Some; congruence).
          exists l0. splits; auto. rewrite nth_error_app1; auto. intros j l' H. destruct (NS _ _ H) as [[H' _] | ->]; auto; [now apply (D j)]. intros j l' Hj H. rewrite nth_error_app1 in H by lia. now apply (F j).
        * destruct Hb as [-> Q]. split; auto. intros x Hx. apply in_app_or in Hx. destruct Hx as [Hx|[<-|[]]]; auto. }
  specialize (G [] (e_liquids s) 0 None). simpl in G. specialize (G (conj eq_refl (fun l (F : False) => match F with end))).
  change (List.length (@nil phase)) with 0%nat in G. destruct (fold_left step (e_liquids s) (0, None, 0%nat)) as [[m' best'] n']. simpl.
  destruct best' as [i|]. destruct G as (l & A & -> & B & C & D). exists l. splits; auto. apply G.
Qed.
Theorem C44_phase_string s : String.length (phase_string s) = phase_count s /\ (phase_string s = EmptyString <-> phases s = []) /\
  (String.get 0 (phase_string s) = Some "V"%char <-> e_gas s <> None).
Proof.
  assert (A : forall x n, String.length (String.concat "" (repeat (String x EmptyString) n)) = n).
  { intros x. induction n as [|n IH]; auto. simpl. destruct n; auto. simpl in *. now rewrite IH. }
  assert (B : forall a b, String.length (a ++ b)%string = (String.length a + String.length b)%nat) by (induction a; intros; simpl; auto).
  assert (C : forall x n, String.concat "" (repeat (String x EmptyString) (S n)) = String x (String.concat "" (repeat (String x EmptyString) n))) by (intros x n; simpl; destruct n; reflexivity).
  assert (L : String.length (phase_string s) = phase_count s).
  { unfold phase_string, phase_count. rewrite !B, !A. unfold no_gas, gas_count. destruct (e_gas s); simpl; lia. }
  splits; auto.
  - split; intros E.
    + rewrite E in L. simpl in L. unfold phase_count, gas_count, liquid_count, solid_count, phases in *. destruct (e_gas s), (e_liquids s), (e_solids s); simpl in *; try lia; auto.
    + unfold phases in E. unfold phase_string, no_gas, liquid_count, solid_count. destruct (e_gas s), (e_liquids s), (e_solids s); try discriminate. reflexivity.
  - unfold phase_string, no_gas. destruct (e_gas s); simpl; split; intros E; try congruence.
    exfalso. destruct (liquid_count s) as [|n]. destruct (solid_count s) as [|n]. discriminate. rewrite C in E. discriminate. rewrite C in E. discriminate.
Qed.

(* ---- derivatives at equilibrium *)
(* the value is that of the derivative somewhere between the state and the perturbed state *)
Theorem C44_equilibrium_derivative_mean_value f f' pert x : x * pert <> 0 ->
  (forall y, Rmin x (x * (1 + pert)) <= y <= Rmax x (x * (1 + pert)) -> is_derive f y (f' y)) ->
  exists c, Rmin x (x * (1 + pert)) <= c <= Rmax x (x * (1 + pert)) /\ equilibrium_derivative f pert x = f' c.
Proof.
  intros H HD. destruct (MVT_gen f x (x * (1 + pert)) f') as (c & Hc & E).
  - intros y Hy. apply HD. lra.
  - intros y Hy. apply continuity_pt_filterlim. apply (@ex_derive_continuous _ R_NormedModule f y). exists (f' y). apply HD. lra.
  - exists c. split; auto. unfold equilibrium_derivative. cbv zeta. rewrite E. field. intros X. apply H. lra.
Qed.
Theorem C44_equilibrium_derivative_limit f x (d : R) : x <> 0 -> is_derive f x d -> is_lim (fun pert => equilibrium_derivative f pert x) 0 d.
Proof.
  intros Hx HD. apply is_derive_Reals in HD. apply is_lim_spec. intros eps. destruct (HD eps (cond_pos eps)) as [del Hdel].
  assert (P : 0 < del / Rabs x) by (apply Rdiv_lt_0_compat; [apply cond_pos | now apply Rabs_pos_lt]).
  exists (mkposreal _ P). intros p Hp Hn. change (Rabs (p + - 0) < del / Rabs x) in Hp. rewrite Ropp_0, Rplus_0_r in Hp.
  unfold equilibrium_derivative. cbv zeta. assert (E : x * (1 + p) = x + x * p) by ring. rewrite E.
  replace (x + x * p - x) with (x * p) by ring. apply Hdel. now apply Rmult_integral_contrapositive. rewrite Rabs_mult.
  apply (Rmult_lt_compat_l (Rabs x)) in Hp. 2: now apply Rabs_pos_lt. replace (Rabs x * (del / Rabs x)) with (pos del) in Hp; auto. field. now apply Rabs_no_R0.
Qed.
Theorem C44_equilibrium_derivative_affine a c pert x : x * pert <> 0 -> equilibrium_derivative (fun y => a + c * y) pert x = c.
Proof. intros H. unfold equilibrium_derivative. cbv zeta. field. intros X. apply H. lra. Qed.
(* the two expressions for the speed of sound at constant entropy: V is the molar volume as a function of pressure *)
Theorem C44_speeds_of_sound V P dV drho : 0 < V P -> dV < 0 -> is_derive V P dV -> is_derive (fun p => 1 / V p) P drho ->
  speed_of_sound_Firoozabadi_Pan (V P) dV = speed_of_sound_equilibrium (1 / drho) /\ 0 < speed_of_sound_equilibrium (1 / drho).
Proof.
  intros HV HdV DV Dr. assert (E : drho = - dV / (V P) ^ 2).
  { assert (G : is_derive (fun p => 1 / V p) P (- dV / (V P) ^ 2)). { auto_derive. split. eexists; eauto. lra. match goal with |- context [Derive ?g P] => replace (Derive g P) with dV by (symmetry; now apply is_derive_unique) end. field. lra. }
    rewrite <- (is_derive_unique _ _ _ Dr). apply is_derive_unique. exact G. }
  unfold speed_of_sound_Firoozabadi_Pan, speed_of_sound_equilibrium. cbv zeta. rewrite E. split.
  - f_equal. field. lra.
  - apply sqrt_lt_R0. replace (1 / (- dV / V P ^ 2)) with (V P ^ 2 / - dV) by (field; lra). apply Rdiv_lt_0_compat. apply pow_lt; lra. lra.
Qed.

(* ---- cases that meet the hypotheses *)
Example C44_bulk_hypotheses_met : well_formed b2 /\ is_fractions (b_betas b2) /\ material_balance (N K2) (b_betas b2) (map p_zs (b_phases b2)) (b_zs b2) /\
  Forall (fun p => 0 < MW_of K2 (p_zs p) /\ 0 < get p aV /\ 0 < V_liquid_ref_of K2 (p_zs p)) (b_phases b2) /\ between (1 / 2) 2 (vals aV b2) /\ Bulk_MW K2 b2 = 16 /\ Bulk_betas_mass K2 b2 = [23 / 32; 9 / 32].
Proof.
  destruct b2_ok as (A & B & C & D & _). splits; auto.
  - constructor; [|constructor; [|constructor]]; unfold MW_of, V_liquid_ref_of, csum; simpl; lra.
  - constructor; [|constructor; [|constructor]]; simpl; lra.
  - unfold Bulk_MW, MW_of, csum. simpl. field.
  - unfold Bulk_betas_mass. rewrite weight_fractions_shares. unfold shares, MW_of, csum. simpl. f_equal; [field | f_equal; field].
Qed.
Example C44_state_hypotheses_met : state_ok s2 /\ is_fractions (e_betas s2) /\ e_solids s2 = [] /\ 0 < LF s2 /\ Forall (fun p => 0 < MW_of K2 (p_zs p) /\ 0 < get p aV) (phases s2) /\
  Forall (fun p => rsum (N K2) (p_zs p) = 1 /\ 0 < MW_of K2 (p_zs p)) (e_liquids s2) /\ quality K2 s2 = 23 / 32 /\
  BulkSettings (wS LOG_PROP_MASS_WEIGHTED (- 1)) = Some (wS LOG_PROP_MASS_WEIGHTED (- 1)).
Proof.
  destruct s2_ok as (A & B & C). splits; auto.
  - unfold LF, psum, liquids_betas. simpl. lra.
  - constructor; [|constructor; [|constructor]]; unfold MW_of, csum; simpl; lra.
  - constructor; [|constructor]; unfold MW_of, csum; simpl; lra.
  - unfold quality, ext_vapor_mass_quality, gas_beta, body_MW, liquid_bulk, MW_of, csum. simpl. field.
Qed.
Example C44_three_phases_hypotheses_met : state_ok w3 /\ 0 < LF w3 /\ (exists b, liquid_bulk wK w3 = Some (IsBulk b)) /\ Forall (fun p => rsum (N wK) (p_zs p) = 1) (e_liquids w3).
Proof. splits. reflexivity. unfold LF, psum, liquids_betas; simpl; lra. eexists; reflexivity. constructor; [simpl; ring|constructor; [simpl; ring|constructor]]. Qed.
