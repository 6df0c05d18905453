# proof scripts of the statements written by mk_buffers.py
PROOF = {
    'gibbs_excess_gammas': 'intros; unfold gibbs_excess_gammas; cbv zeta; b1; reflexivity.',
    'gibbs_excess_dHE_dxs': 'intros; unfold gibbs_excess_dHE_dxs; cbv zeta; b1; reflexivity.',
    'gibbs_excess_dgammas_dT': 'intros; unfold gibbs_excess_dgammas_dT; cbv zeta; b1; reflexivity.',
    'interaction_exp': 'intros; unfold interaction_exp; cbv zeta; b1; reflexivity.',
    'dinteraction_exp_dT': 'intros; unfold dinteraction_exp_dT; cbv zeta; b1; reflexivity.',
    'd2interaction_exp_dT2': 'intros; unfold d2interaction_exp_dT2; cbv zeta; b1; reflexivity.',
    'd3interaction_exp_dT3': 'intros; unfold d3interaction_exp_dT3; cbv zeta; b1; reflexivity.',
    'nrtl_taus': 'intros; unfold nrtl_taus; cbv zeta; b1; reflexivity.',
    'nrtl_dtaus_dT': 'intros; unfold nrtl_dtaus_dT; cbv zeta; b1; reflexivity.',
    'nrtl_d2taus_dT2': 'intros; unfold nrtl_d2taus_dT2; cbv zeta; b1; reflexivity.',
    'nrtl_d3taus_dT3': 'intros; unfold nrtl_d3taus_dT3; cbv zeta; b1; reflexivity.',
    'nrtl_alphas': 'intros; unfold nrtl_alphas; cbv zeta; b1; reflexivity.',
    'nrtl_Gs': 'intros; unfold nrtl_Gs; cbv zeta; b1; reflexivity.',
    'nrtl_dGs_dT': 'intros; unfold nrtl_dGs_dT; cbv zeta; b1; reflexivity.',
    'nrtl_d2Gs_dT2': 'intros; unfold nrtl_d2Gs_dT2; cbv zeta; b1; reflexivity.',
    'nrtl_d3Gs_dT3': 'intros; unfold nrtl_d3Gs_dT3; cbv zeta; b1; reflexivity.',
    'nrtl_xj_Gs_jis': 'intros; unfold nrtl_xj_Gs_jis; cbv zeta; b1; reflexivity.',
    'nrtl_xj_Gs_taus_jis': 'intros; unfold nrtl_xj_Gs_taus_jis; cbv zeta; b1; reflexivity.',
    'nrtl_dGE_dxs': 'intros; unfold nrtl_dGE_dxs; cbv zeta; b1; reflexivity.',
    'nrtl_d2GE_dxixjs': 'intros; unfold nrtl_d2GE_dxixjs; cbv zeta; b1; reflexivity.',
    'wilson_xj_Lambda_ijs': 'intros; unfold wilson_xj_Lambda_ijs; cbv zeta; b1; reflexivity.',
    'wilson_dGE_dxs': 'intros; unfold wilson_dGE_dxs; cbv zeta; b1; reflexivity.',
    'wilson_d2GE_dxixjs': 'intros; unfold wilson_d2GE_dxixjs; cbv zeta; b1; reflexivity.',
    'wilson_d3GE_dxixjxks': 'intros; unfold wilson_d3GE_dxixjxks; cbv zeta; b1; reflexivity.',
    'uniquac_thetaj_taus_jis': 'intros; unfold uniquac_thetaj_taus_jis; cbv zeta; b1; reflexivity.',
    'uniquac_thetaj_taus_ijs': 'intros; unfold uniquac_thetaj_taus_ijs; cbv zeta; b1; reflexivity.',
    'uniquac_dGE_dxs': 'intros; unfold uniquac_dGE_dxs; cbv zeta; b1; reflexivity.',
    'uniquac_d2GE_dxixjs': 'intros; unfold uniquac_d2GE_dxixjs; cbv zeta; b1; reflexivity.',
    'regular_solution_His': 'intros; unfold regular_solution_His; cbv zeta; b1; reflexivity.',
    'regular_solution_Hi_sums': 'intros; unfold regular_solution_Hi_sums; cbv zeta; b1; reflexivity.',
    'regular_solution_Hi_sums_fast': 'intros; unfold regular_solution_Hi_sums_fast; cbv zeta; b1; reflexivity.',
    'regular_solution_Aijs': 'intros; unfold regular_solution_Aijs; cbv zeta; b1; reflexivity.',
    'regular_solution_dGE_dxs': 'intros; unfold regular_solution_dGE_dxs; cbv zeta; b1; reflexivity.',
    'regular_solution_d2GE_dxixjs': 'intros; unfold regular_solution_d2GE_dxixjs; cbv zeta; b1; reflexivity.',
    'regular_solution_d3GE_dxixjxks': 'intros; unfold regular_solution_d3GE_dxixjxks; cbv zeta; b1; reflexivity.',
    'flory_huggins_d2GE_dTdxs': 'intros; unfold flory_huggins_d2GE_dTdxs; cbv zeta; b1; reflexivity.',
    'hansen_Aijs_His': 'intros; unfold hansen_Aijs_His; cbv zeta; b1; reflexivity.',
    'eos_mix_dV_dzs': 'intros; unfold eos_mix_dV_dzs; cbv zeta; b1; reflexivity.',
    'eos_mix_db_dns': 'intros; unfold eos_mix_db_dns; cbv zeta; b1; reflexivity.',
    'eos_mix_da_alpha_dns': 'intros; unfold eos_mix_da_alpha_dns; cbv zeta; b1; reflexivity.',
    'RK_d3delta_dninjnks': 'intros; unfold RK_d3delta_dninjnks; cbv zeta; b1; reflexivity.',
    'PR_ddelta_dzs': 'intros; unfold PR_ddelta_dzs; cbv zeta; b1; reflexivity.',
    'PR_ddelta_dns': 'intros; unfold PR_ddelta_dns; cbv zeta; b1; reflexivity.',
    'PR_depsilon_dns': 'intros; unfold PR_depsilon_dns; cbv zeta; b1; reflexivity.',
    'PR_d2delta_dninjs': 'intros; unfold PR_d2delta_dninjs; cbv zeta; b1; reflexivity.',
    'PR_d3delta_dninjnks': 'intros; unfold PR_d3delta_dninjnks; cbv zeta; b1; reflexivity.',
    'PR_d2epsilon_dzizjs': 'intros; unfold PR_d2epsilon_dzizjs; cbv zeta; b1; reflexivity.',
    'PR_depsilon_dzs': 'intros; unfold PR_depsilon_dzs; cbv zeta; b1; reflexivity.',
    'PR_d2epsilon_dninjs': 'intros; unfold PR_d2epsilon_dninjs; cbv zeta; b1; reflexivity.',
    'PR_d3epsilon_dninjnks': 'intros; unfold PR_d3epsilon_dninjnks; cbv zeta; b1; reflexivity.',
    'PR_translated_ddelta_dzs': 'intros; unfold PR_translated_ddelta_dzs; cbv zeta; b1; reflexivity.',
    'PR_translated_d2epsilon_dzizjs': 'intros; unfold PR_translated_d2epsilon_dzizjs; cbv zeta; b1; reflexivity.',
    'PR_translated_d2epsilon_dninjs': 'intros; unfold PR_translated_d2epsilon_dninjs; cbv zeta; b1; reflexivity.',
    'PR_translated_ddelta_dns': 'intros; unfold PR_translated_ddelta_dns; cbv zeta; b1; reflexivity.',
    'SRK_translated_ddelta_dns': 'intros; unfold SRK_translated_ddelta_dns; cbv zeta; b1; reflexivity.',
    'SRK_translated_depsilon_dns': 'intros; unfold SRK_translated_depsilon_dns; cbv zeta; b1; reflexivity.',
    'SRK_translated_depsilon_dzs': 'intros; unfold SRK_translated_depsilon_dzs; cbv zeta; b1; reflexivity.',
    'SRK_translated_d2epsilon_dzizjs': 'intros; unfold SRK_translated_d2epsilon_dzizjs; cbv zeta; b1; reflexivity.',
    'SRK_translated_d2delta_dninjs': 'intros; unfold SRK_translated_d2delta_dninjs; cbv zeta; b1; reflexivity.',
    'SRK_translated_d3delta_dninjnks': 'intros; unfold SRK_translated_d3delta_dninjnks; cbv zeta; b1; reflexivity.',
    'SRK_translated_d2epsilon_dninjs': 'intros; unfold SRK_translated_d2epsilon_dninjs; cbv zeta; b1; reflexivity.',
    'SRK_translated_d3epsilon_dninjnks': 'intros; unfold SRK_translated_d3epsilon_dninjnks; cbv zeta; b1; reflexivity.',
    'PR_translated_depsilon_dzs': 'intros; unfold PR_translated_depsilon_dzs; cbv zeta; b1; reflexivity.',
    'PR_translated_depsilon_dns': 'intros; unfold PR_translated_depsilon_dns; cbv zeta; b1; reflexivity.',
    'PR_translated_d2delta_dninjs': 'intros; unfold PR_translated_d2delta_dninjs; cbv zeta; b1; reflexivity.',
    'PR_translated_d3delta_dninjnks': 'intros; unfold PR_translated_d3delta_dninjnks; cbv zeta; b1; reflexivity.',
    'PR_translated_d3epsilon_dninjnks': 'intros; unfold PR_translated_d3epsilon_dninjnks; cbv zeta; b1; reflexivity.',
    'SRK_lnphis': 'intros; unfold SRK_lnphis; cbv zeta; b1; reflexivity.',
    'VDW_lnphis': 'intros; unfold VDW_lnphis; cbv zeta; b1; reflexivity.',
    'eos_mix_lnphis_general': 'intros; unfold eos_mix_lnphis_general; cbv zeta; b1; reflexivity.',
    'PR_a_alphas_vectorized': 'intros; unfold PR_a_alphas_vectorized; cbv zeta; b1; reflexivity.',
    'SRK_a_alphas_vectorized': 'intros; unfold SRK_a_alphas_vectorized; cbv zeta; b1; reflexivity.',
    'RK_a_alphas_vectorized': 'intros; unfold RK_a_alphas_vectorized; cbv zeta; b1; reflexivity.',
    'PRSV_a_alphas_vectorized': 'intros; unfold PRSV_a_alphas_vectorized; cbv zeta; b1; reflexivity.',
    'PRSV2_a_alphas_vectorized': 'intros; unfold PRSV2_a_alphas_vectorized; cbv zeta; b1; reflexivity.',
    'APISRK_a_alphas_vectorized': 'intros; unfold APISRK_a_alphas_vectorized; cbv zeta; b1; reflexivity.',
    'PR_a_alpha_and_derivatives_vectorized': r'''unfold PR_a_alpha_and_derivatives_vectorized; cbv zeta.
  match goal with |- context[loop N_ ?f (a_alphas, da_alpha_dTs, d2a_alpha_dT2s)] => pose proof (fill3 N_ f a_alphas da_alpha_dTs d2a_alpha_dT2s a_alphas' da_alpha_dTs' d2a_alpha_dT2s') as H end.
  match type of H with ?P -> _ => assert (HP : P) by (intros ?; do 3 eexists; intros; cbv beta iota zeta; reflexivity) end. specialize (H HP). clear HP. cbv zeta in H.
  destruct (loop N_ _ (a_alphas, da_alpha_dTs, d2a_alpha_dT2s)) as [[? ?] ?], (loop N_ _ (a_alphas', da_alpha_dTs', d2a_alpha_dT2s')) as [[? ?] ?]. cbn [fst snd] in H |- *. splits; intros i Hi; apply (H i Hi).''',
    'SRK_a_alpha_and_derivatives_vectorized': r'''unfold SRK_a_alpha_and_derivatives_vectorized; cbv zeta.
  match goal with |- context[loop N_ ?f (a_alphas, da_alpha_dTs, d2a_alpha_dT2s)] => pose proof (fill3 N_ f a_alphas da_alpha_dTs d2a_alpha_dT2s a_alphas' da_alpha_dTs' d2a_alpha_dT2s') as H end.
  match type of H with ?P -> _ => assert (HP : P) by (intros ?; do 3 eexists; intros; cbv beta iota zeta; reflexivity) end. specialize (H HP). clear HP. cbv zeta in H.
  destruct (loop N_ _ (a_alphas, da_alpha_dTs, d2a_alpha_dT2s)) as [[? ?] ?], (loop N_ _ (a_alphas', da_alpha_dTs', d2a_alpha_dT2s')) as [[? ?] ?]. cbn [fst snd] in H |- *. splits; intros i Hi; apply (H i Hi).''',
    'RK_a_alpha_and_derivatives_vectorized': r'''unfold RK_a_alpha_and_derivatives_vectorized; cbv zeta.
  match goal with |- context[loop N_ ?f (a_alphas, da_alpha_dTs, d2a_alpha_dT2s)] => pose proof (fill3 N_ f a_alphas da_alpha_dTs d2a_alpha_dT2s a_alphas' da_alpha_dTs' d2a_alpha_dT2s') as H end.
  match type of H with ?P -> _ => assert (HP : P) by (intros ?; do 3 eexists; intros; cbv beta iota zeta; reflexivity) end. specialize (H HP). clear HP. cbv zeta in H.
  destruct (loop N_ _ (a_alphas, da_alpha_dTs, d2a_alpha_dT2s)) as [[? ?] ?], (loop N_ _ (a_alphas', da_alpha_dTs', d2a_alpha_dT2s')) as [[? ?] ?]. cbn [fst snd] in H |- *. splits; intros i Hi; apply (H i Hi).''',
    'PRSV_a_alpha_and_derivatives_vectorized': r'''unfold PRSV_a_alpha_and_derivatives_vectorized; cbv zeta.
  match goal with |- context[loop N_ ?f (a_alphas, da_alpha_dTs, d2a_alpha_dT2s)] => pose proof (fill3 N_ f a_alphas da_alpha_dTs d2a_alpha_dT2s a_alphas' da_alpha_dTs' d2a_alpha_dT2s') as H end.
  match type of H with ?P -> _ => assert (HP : P) by (intros ?; do 3 eexists; intros; cbv beta iota zeta; reflexivity) end. specialize (H HP). clear HP. cbv zeta in H.
  destruct (loop N_ _ (a_alphas, da_alpha_dTs, d2a_alpha_dT2s)) as [[? ?] ?], (loop N_ _ (a_alphas', da_alpha_dTs', d2a_alpha_dT2s')) as [[? ?] ?]. cbn [fst snd] in H |- *. splits; intros i Hi; apply (H i Hi).''',
    'PRSV2_a_alpha_and_derivatives_vectorized': r'''unfold PRSV2_a_alpha_and_derivatives_vectorized; cbv zeta.
  match goal with |- context[loop N_ ?f (a_alphas, da_alpha_dTs, d2a_alpha_dT2s)] => pose proof (fill3 N_ f a_alphas da_alpha_dTs d2a_alpha_dT2s a_alphas' da_alpha_dTs' d2a_alpha_dT2s') as H end.
  match type of H with ?P -> _ => assert (HP : P) by (intros ?; do 3 eexists; intros; cbv beta iota zeta; reflexivity) end. specialize (H HP). clear HP. cbv zeta in H.
  destruct (loop N_ _ (a_alphas, da_alpha_dTs, d2a_alpha_dT2s)) as [[? ?] ?], (loop N_ _ (a_alphas', da_alpha_dTs', d2a_alpha_dT2s')) as [[? ?] ?]. cbn [fst snd] in H |- *. splits; intros i Hi; apply (H i Hi).''',
    'APISRK_a_alpha_and_derivatives_vectorized': r'''unfold APISRK_a_alpha_and_derivatives_vectorized; cbv zeta.
  match goal with |- context[loop N_ ?f (a_alphas, da_alpha_dTs, d2a_alpha_dT2s)] => pose proof (fill3 N_ f a_alphas da_alpha_dTs d2a_alpha_dT2s a_alphas' da_alpha_dTs' d2a_alpha_dT2s') as H end.
  match type of H with ?P -> _ => assert (HP : P) by (intros ?; do 3 eexists; intros; cbv beta iota zeta; reflexivity) end. specialize (H HP). clear HP. cbv zeta in H.
  destruct (loop N_ _ (a_alphas, da_alpha_dTs, d2a_alpha_dT2s)) as [[? ?] ?], (loop N_ _ (a_alphas', da_alpha_dTs', d2a_alpha_dT2s')) as [[? ?] ?]. cbn [fst snd] in H |- *. splits; intros i Hi; apply (H i Hi).''',
    'gibbs_excess_dgammas_dns': 'intros; unfold gibbs_excess_dgammas_dns; cbv zeta; rewrite !loop_updm_lt by assumption; rewrite !loop_upd_lt by assumption; reflexivity.',
    'nrtl_gammas': 'intros; unfold nrtl_gammas; cbv zeta; rewrite !(loop_upd_lt N_) by assumption; apply f_equal; apply loop_ext; intros; rewrite !(loop_upd_lt N_) by assumption; reflexivity.',
    'nrtl_xj_Gs_jis_and_Gs_taus_jis': 'splits; intros; unfold nrtl_xj_Gs_jis_and_Gs_taus_jis; cbv zeta; cbn [fst snd]; rewrite !(loop_upd_lt N_) by assumption; reflexivity.',
    'nrtl_gammas_from_args': r'''intros. unfold nrtl_gammas_from_args.
  destruct (C27_nrtl_xj_Gs_jis_and_Gs_taus_jis N_ xs Gs taus Gs_transposed Gs_taus_transposed xj_Gs_jis xj_Gs_taus_jis xj_Gs_jis' xj_Gs_taus_jis') as [H1 H2].
  destruct (nrtl_xj_Gs_jis_and_Gs_taus_jis N_ xs Gs taus Gs_transposed Gs_taus_transposed xj_Gs_jis xj_Gs_taus_jis) as [a b], (nrtl_xj_Gs_jis_and_Gs_taus_jis N_ xs Gs taus Gs_transposed Gs_taus_transposed xj_Gs_jis' xj_Gs_taus_jis') as [a' b'].
  cbn [fst snd] in H1, H2. cbv zeta. unfold nrtl_gammas. cbv zeta. rewrite !(loop_upd_lt N_) by assumption. rewrite !(loop_upd_self N_ (fun _ z => 1 / z)) by assumption.
  apply f_equal. rewrite H1, H2 by assumption. apply loop_ext. intros. rewrite !(loop_upd_lt N_) by assumption. rewrite !(loop_upd_self N_ (fun _ z => 1 / z)) by assumption. rewrite H1, H2 by assumption. reflexivity.''',
    'nrtl_d2GE_dTdxs': r'''intros i0 Hi0. unfold nrtl_d2GE_dTdxs. cbv zeta.
  match goal with |- ?a i0 = ?b i0 => assert (E : agV (fun i => (i < N_)%nat) a b); [|apply E; auto] end.
  apply (loop_rel (fun m u v => agV (fun i => (i < m)%nat) u v)); [intros ? ?; lia|].
  intros i u v Hi H. cbv beta iota zeta. rewrite ?(loop_upd_lt N_) by assumption.
  match goal with |- agV _ (let '_ := loop N_ ?f ?s in _) (let '_ := loop N_ ?g _ in _) => assert (H' : loop N_ f s = loop N_ g s); [| try rewrite H'; destruct (loop N_ g s) as [? ?]; eapply agV_upd; [exact H | reflexivity | cbv beta; intros; lia]] end.
  apply loop_ext. intros ? [? ?] ?. rewrite ?(loop_upd_lt N_) by assumption.  reflexivity.''',
    'wilson_d2GE_dTdxs': r'''intros i0 Hi0. unfold wilson_d2GE_dTdxs. cbv zeta.
  match goal with |- ?a i0 = ?b i0 => assert (E : agV (fun i => (i < N_)%nat) a b); [|apply E; auto] end.
  apply (loop_rel (fun m u v => agV (fun i => (i < m)%nat) u v)); [intros ? ?; lia|].
  intros i u v Hi H. cbv beta iota zeta. rewrite ?(loop_upd_lt N_) by assumption.
  match goal with |- agV _ (let '_ := loop N_ ?f ?s in _) (let '_ := loop N_ ?g _ in _) => assert (H' : loop N_ f s = loop N_ g s); [| try rewrite H'; destruct (loop N_ g s) as [? ?]; eapply agV_upd; [exact H | reflexivity | cbv beta; intros; lia]] end.
  apply loop_ext. intros ? [? ?] ?.  reflexivity.''',
    'wilson_gammas': r'''intros. unfold wilson_gammas. cbv zeta. rewrite !(loop_upd_self N_ (fun i z => exp (1 - z) * xj_Lambda_ijs_inv i)) by assumption.
  match goal with |- exp (1 - loop N_ ?f ?s _) * _ = exp (1 - loop N_ ?g _ _) * _ => assert (H' : loop N_ f s = loop N_ g s) end.
  { apply loop_ext. intros. rewrite !(loop_upd_lt N_) by assumption. reflexivity. }
  rewrite H'. reflexivity.''',
    'uniquac_phis': "destruct (phis_eq N_ xs rs phis) as [A B], (phis_eq N_ xs rs phis') as [A' B']. split; [intros; now rewrite B, B' by assumption | now rewrite A, A'].",
    'uniquac_dphis_dxs': r'''intros i0 j0 Hi0 Hj0. unfold uniquac_dphis_dxs. cbv zeta.
  match goal with |- ?a i0 j0 = ?b i0 j0 => assert (E : agM (fun i j => (i < N_ /\ j < N_)%nat) a b); [|apply E; auto] end.
  apply (loop_rel (fun m u v => agM (fun i j => (i < N_ /\ j < m)%nat) u v)); [intros ? ? ?; lia|].
  intros m u v Hm H.
  match goal with |- agM _ (updm ?a _ _ _) (updm ?b _ _ _) => assert (E : agM (fun i j => (i < N_ /\ j < S m)%nat) a b) end.
  { eapply agM_mono; [apply (loop_rel (fun p u v => agM (fun i j => (i < N_ /\ j < m \/ i < p /\ j = m)%nat) u v))|cbv beta; intros; lia].
    - intros i j ?. apply H. lia.
    - intros p a b Hp K. eapply agM_upd; [exact K| |cbv beta; intros; lia]. rewrite !(loop_upd_lt N_) by auto. reflexivity. }
  eapply agM_upd; [exact E| |cbv beta; intros; tauto]. now rewrite (E m m) by lia.''',
    'uniquac_d2phis_dxixjs': r'''intros i0 j0 k0 Hi0 Hj0 Hk0. unfold uniquac_d2phis_dxixjs. cbv zeta.
  match goal with |- ?a i0 j0 k0 = ?b i0 j0 k0 => assert (E : agT (fun i j k => (i < N_ /\ j < N_ /\ k < N_)%nat) a b); [|apply E; auto] end.
  apply (loop_rel (fun m u v => agT (fun i j k => (i < m /\ j < N_ /\ k < N_)%nat) u v)); [intros ? ? ? ?; lia|].
  intros m u v Hm H.
  match goal with |- agT _ (updt ?a _ _ _ _) (updt ?b _ _ _ _) => assert (E : agT (fun i j k => (i < S m /\ j < N_ /\ k < N_)%nat) a b) end.
  { eapply agT_mono; [apply (loop_rel (fun p u v => agT (fun i j k => (i < m /\ j < N_ /\ k < N_ \/ i = m /\ j < p /\ k < N_)%nat) u v))|cbv beta; intros; lia].
    - intros i j k ?. apply H. lia.
    - intros p a b Hp K.
      match goal with |- context[if _ then updt (updt ?a _ _ _ _) _ _ _ _ else _] => match goal with |- agT _ _ (if _ then updt (updt ?b _ _ _ _) _ _ _ _ else _) => assert (E : agT (fun i j k => (i < m /\ j < N_ /\ k < N_ \/ i = m /\ j < S p /\ k < N_)%nat) a b) end end.
      { eapply agT_mono; [apply (loop_rel (fun q u v => agT (fun i j k => (i < m /\ j < N_ /\ k < N_ \/ i = m /\ j < p /\ k < N_ \/ i = m /\ j = p /\ k < q)%nat) u v))|cbv beta; intros; lia].
        - intros i j k ?. apply K. lia.
        - intros q s t Hq L. eapply agT_upd; [exact L| |cbv beta; intros; lia]. rewrite !(loop_upd_lt N_) by auto. reflexivity. }
      destruct (p =? m)%nat; [exact E|]. cbv [negb]. eapply agT_upd; [apply (agT_upd _ (fun i j k => (i < m /\ j < N_ /\ k < N_ \/ i = m /\ j < S p /\ k < N_)%nat) _ _ _ _ _ _ _ E); [|cbv beta; intros; tauto]| |cbv beta; intros; tauto]; rewrite !(loop_upd_lt N_) by auto; reflexivity. }
  eapply agT_upd; [exact E| |cbv beta; intros; tauto]. now rewrite (E m m m) by lia.''',
    'uniquac_d2GE_dTdxs': r'''intros i0 Hi0. unfold uniquac_d2GE_dTdxs. cbv zeta.
  match goal with |- ?a i0 = ?b i0 => assert (E : agV (fun i => (i < N_)%nat) a b); [|apply E; auto] end.
  apply (loop_rel (fun m u v => agV (fun i => (i < m)%nat) u v)); [intros ? ?; lia|].
  intros i u v Hi H. cbv beta iota zeta. rewrite ?(loop_upd_lt N_) by assumption.
  match goal with |- agV _ (let '_ := loop N_ ?f ?s in _) (let '_ := loop N_ ?g _ in _) => assert (H' : loop N_ f s = loop N_ g s); [| try rewrite H'; destruct (loop N_ g s) as [[[[? ?] ?] ?] ?]; eapply agV_upd; [exact H | reflexivity | cbv beta; intros; lia]] end.
  apply loop_ext. intros ? [[[[? ?] ?] ?] ?] ?. rewrite ?(loop_upd_lt N_) by assumption. rewrite ?(loop_upd_lt N_) by assumption.  reflexivity.''',
    'flory_huggins_dGE_dxs': "intros. unfold flory_huggins_dGE_dxs. cbv zeta. rewrite !(loop_upd_self N_ (fun i z => z + Rgas * T * (ln (Vs i * xsVs_sum_inv) - Vs i * xsVs_sum_inv))) by assumption. rewrite (C27_regular_solution_dGE_dxs _ _ _ _ _ dGE_dxs dGE_dxs') by assumption. reflexivity.",
    'flory_huggins_d2GE_dxixjs': "intros. unfold flory_huggins_d2GE_dxixjs. cbv zeta. rewrite !(loop_updm_self N_ (fun i j z => z + Rgas * T * xsVs_sum_inv * (Vs i * xsVs_sum_inv * Vs j - Vs i - Vs j))) by assumption. rewrite (C27_regular_solution_d2GE_dxixjs _ _ _ _ _ _ _ _ d2GE_dxixjs d2GE_dxixjs') by assumption. reflexivity.",
    'flory_huggins_d3GE_dxixjxks': r'''intros i0 j0 k0 Hi0 Hj0 Hk0. unfold flory_huggins_d3GE_dxixjxks. cbv zeta.
  match goal with |- ?a i0 j0 k0 = ?b i0 j0 k0 => assert (E : agT (fun i j k => (i < N_ /\ j < N_ /\ k < N_)%nat) a b); [|apply E; auto] end.
  apply (loop_rel (fun _ u v => agT (fun i j k => (i < N_ /\ j < N_ /\ k < N_)%nat) u v)).
  - intros i j k (? & ? & ?). apply C27_regular_solution_d3GE_dxixjxks; assumption.
  - intros i u v Hi H. apply (loop_rel (fun _ u v => agT (fun i j k => (i < N_ /\ j < N_ /\ k < N_)%nat) u v)); [exact H|]. clear u v H. intros j u v Hj H.
    apply (loop_rel (fun _ u v => agT (fun i j k => (i < N_ /\ j < N_ /\ k < N_)%nat) u v)); [exact H|]. clear u v H. intros k u v Hk H.
    eapply agT_upd; [exact H| |cbv beta; intros; tauto]. now rewrite (H i j k) by auto.''',
    'regular_solution_gammas': r'''intros. unfold regular_solution_gammas. cbv zeta.
  rewrite !(loop_upd_self N_ (fun _ z => exp z)) by assumption. rewrite !(loop_upd_self N_ (fun _ z => z * (1 / (Rgas * T)))) by assumption. rewrite !(loop_upd_lt N_ (fun i => _ i + _)) by assumption.
  set (w := loop N_ _ xsVs). set (w' := loop N_ _ xsVs'). assert (HW : forall i, (i < N_)%nat -> w i = w' i) by (intros; unfold w, w'; rewrite !(loop_upd_lt N_) by assumption; reflexivity). clearbody w w'.
  replace (loop N_ (fun i s => s + w i) 0) with (loop N_ (fun i s => s + w' i) 0) by (apply loop_ext; intros; rewrite HW by assumption; reflexivity).
  set (q := 1 / _). replace (regular_solution_GE SPs w lambda_coeffs N_ q) with (regular_solution_GE SPs w' lambda_coeffs N_ q).
  2: { unfold regular_solution_GE. cbv zeta. apply f_equal2; [|reflexivity]. apply loop_ext. intros k s Hk. rewrite !(loop_upd_lt N_) by assumption. rewrite !loop_rsum. rewrite (HW k) by assumption. rewrite (rsum_ext N_ (fun i => w i * _ * _) (fun j => w' j * (SPs k - SPs j) * (SPs k - SPs j))) by (intros; rewrite HW by assumption; reflexivity). rewrite (rsum_ext N_ (fun j => w j * _ * _) (fun j => w' j * SPs j * lambda_coeffs k j)) by (intros; rewrite HW by assumption; reflexivity). reflexivity. }
  set (g := regular_solution_GE _ _ _ _ _).
  set (d := regular_solution_dGE_dxs _ _ _ _ _ dGE_dxs). set (d' := regular_solution_dGE_dxs _ _ _ _ _ dGE_dxs').
  assert (HD : forall i, (i < N_)%nat -> d i = d' i). { intros k Hk. unfold d, d', regular_solution_dGE_dxs. cbv zeta. rewrite !(loop_upd_lt N_) by assumption. unfold regular_solution_Hi_sums. cbv zeta. rewrite !(loop_upd_lt N_) by assumption.
    apply f_equal2; [|reflexivity]. apply f_equal2; [|reflexivity]. apply f_equal. apply loop_ext. intros. rewrite HW by assumption. reflexivity. }
  clearbody d d'. rewrite !HD by assumption. replace (loop N_ (fun i s => s - xs i * d i) g) with (loop N_ (fun i s => s - xs i * d' i) g) by (apply loop_ext; intros; rewrite HD by assumption; reflexivity). reflexivity.''',
    'G_dep_lnphi_d_helper': 'intros i0 Hi0. unfold G_dep_lnphi_d_helper. cbv zeta. destruct G; cbv beta iota; apply (loop_rel (fun m u v => agV (fun i => (i < m)%nat) u v)); try assumption; try (intros ? ?; lia); intros i u v Hi H; eapply agV_upd; [exact H | reflexivity | cbv beta; intros; lia | exact H | reflexivity | cbv beta; intros; lia].',
}
