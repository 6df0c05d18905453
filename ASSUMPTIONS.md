# Axioms of each theorem

Made by tools/assumptions.py from `Print Assumptions`, for every theorem named in MANIFEST.json. All axioms are of the Coq standard library:

* **A** `ClassicalDedekindReals.sig_forall_dec`
* **B** `ClassicalDedekindReals.sig_not_dec`
* **C** `Classical_Prop.classic`
* **D** `FunctionalExtensionality.functional_extensionality_dep`

"none" means: closed under the global context.

| property | theorem | axioms |
|---|---|---|
| C01 | C01_pressure_derivatives | A B C D |
| C01 | C01_pressure_derivatives_VDW | A B C D |
| C02 | C02_H_dep | A B C D |
| C02 | C02_S_dep | A B C D |
| C02 | C02_Cv_dep | A B C D |
| C02 | C02_lnphi | A B C D |
| C02 | C02_departures_VDW | A B C D |
| C03 | C03_H_isobar | A B C D |
| C03 | C03_S_isobar | A B C D |
| C03 | C03_HS_isotherm | A B C D |
| C03 | C03_HS_isochore_T | A B C D |
| C03 | C03_HS_isochore_P | A B C D |
| C03 | C03_HS_volume_T | A B C D |
| C03 | C03_HS_volume_P | A B C D |
| C03 | C03_HS_mixed | A B C D |
| C03 | C03_VDW | A B C D |
| C04 | C04_V_of_T | A B C D |
| C04 | C04_V_of_P | A B C D |
| C04 | C04_T_of_P | A B C D |
| C04 | C04_T_of_V | A B C D |
| C04 | C04_V_mixed | A B C D |
| C04 | C04_T_mixed | A B C D |
| C05 | C05_any_departures | A B C D |
| C05 | C05_dT_on_eos | A B C D |
| C05 | C05_dP_on_eos | A B C D |
| C06 | C06_PR | A B C D |
| C06 | C06_PRSV | A B C D |
| C06 | C06_PRSV2 | A B C D |
| C06 | C06_RK | A B C D |
| C06 | C06_SRK | A B C D |
| C06 | C06_APISRK | A B C D |
| C06 | C06_Soave_1972 | A B C D |
| C06 | C06_Harmens_Knapp | A B C D |
| C06 | C06_Mathias_1983 | A B C D |
| C06 | C06_Mathias_Copeman_untruncated | A B C D |
| C06 | C06_Gibbons_Laughton | A B C D |
| C06 | C06_Soave_1984 | A B C D |
| C06 | C06_Schwartzentruber | A B C D |
| C06 | C06_Soave_1993 | A B C D |
| C06 | C06_Soave_1979 | A B C D |
| C06 | C06_Heyen | A B C D |
| C06 | C06_Yu_Lu | A B C D |
| C06 | C06_Trebble_Bishnoi | A B C D |
| C06 | C06_Melhem | A B C D |
| C06 | C06_Androulakis | A B C D |
| C06 | C06_Twu91 | A B C D |
| C06 | C06_Gasem | A B C D |
| C06 | C06_Coquelet | A B C D |
| C06 | C06_Haghtalab | A B C D |
| C06 | C06_Saffari | A B C D |
| C06 | C06_Chen_Yang | A B C D |
| C06 | C06_Almeida | A B C D |
| C06 | C06_VDW | A B D |
| C06 | C06_PR_third | A B C D |
| C06 | C06_Mathias_Copeman | A B C D |
| C06 | C06_Mathias_Copeman_at_Tc | A B C D |
| C06 | C06_Poly | A B C D |
| C06 | C06_Mathias_Copeman_poly | A B C D |
| C06 | C06_TwuPR95 | A B C D |
| C06 | C06_TwuSRK95 | A B C D |
| C06 | C06_TwuPR95_low | A B C D |
| C06 | C06_TwuSRK95_low | A B C D |
| C06 | C06_TwuPR95_low_refuted | A B C D |
| C07 | C07_PR | A B D |
| C07 | C07_PRSV | A B D |
| C07 | C07_PRSV2 | A B D |
| C07 | C07_VDW | none |
| C07 | C07_RK | A B D |
| C07 | C07_SRK | A B D |
| C07 | C07_APISRK | A B D |
| C07 | C07_Soave_1972 | A B D |
| C07 | C07_Heyen | A B C D |
| C07 | C07_Harmens_Knapp | A B D |
| C07 | C07_Mathias_1983 | A B D |
| C07 | C07_Mathias_Copeman_untruncated | A B D |
| C07 | C07_Mathias_Copeman | A B D |
| C07 | C07_Gibbons_Laughton | A B D |
| C07 | C07_Soave_1984 | A D |
| C07 | C07_Yu_Lu | A B C D |
| C07 | C07_Trebble_Bishnoi | A B D |
| C07 | C07_Melhem | A B D |
| C07 | C07_Androulakis | A B C D |
| C07 | C07_Schwartzentruber | A B D |
| C07 | C07_Almeida | A B C D |
| C07 | C07_Twu91 | A B C D |
| C07 | C07_Soave_1993 | A B D |
| C07 | C07_Gasem | A B C D |
| C07 | C07_Coquelet | A B D |
| C07 | C07_Haghtalab | A B C D |
| C07 | C07_Chen_Yang | A B C D |
| C07 | C07_Soave_1979 | A D |
| C07 | C07_Mathias_Copeman_poly | A B D |
| C07 | C07_Saffari_value | A B C D |
| C07 | C07_TwuPR95 | A B C D |
| C07 | C07_TwuSRK95 | A B C D |
| C07 | C07_Mathias_Copeman_continuous | A B C D |
| C07 | C07_Mathias_Copeman_poly_continuous | A B C D |
| C07 | C07_TwuPR95_continuous | A B C D |
| C07 | C07_TwuSRK95_continuous | A B C D |
| C07 | C07_Saffari_refuted | A B C D |
| C07 | C07_Mathias_Copeman_poly_refuted | A B C D |
| C08 | C08_PR | A B D |
| C08 | C08_PR_full | A B D |
| C08 | C08_SRK | A B D |
| C08 | C08_SRK_full | A B D |
| C08 | C08_RK | A B D |
| C08 | C08_RK_full | A B D |
| C08 | C08_PRSV | A B D |
| C08 | C08_PRSV_full | A B D |
| C08 | C08_PRSV2 | A B D |
| C08 | C08_PRSV2_full | A B D |
| C08 | C08_APISRK | A B D |
| C08 | C08_APISRK_full | A B D |
| C08 | C08_Twu91 | A B C D |
| C08 | C08_Twu91_full | A B C D |
| C08 | C08_Soave_1979 | A D |
| C08 | C08_Soave_1979_full | A D |
| C08 | C08_Mathias_Copeman_poly | A B D |
| C08 | C08_Mathias_Copeman_poly_full | A B D |
| C09 | C09_IG | A D |
| C09 | C09_VDW | A D |
| C09 | C09_VDW_unique | A D |
| C09 | C09_a_alpha_for_V | A D |
| C09 | C09_PR | A B D |
| C09 | C09_PR_roundtrip | A B D |
| C09 | C09_SRK | A B D |
| C09 | C09_PRSV | A B D |
| C09 | C09_PRSV2 | A B D |
| C09 | C09_APISRK | A B D |
| C09 | C09_SRKTranslatedPPJP_refuted | A B D |
| C10 | C10_cubic_iff | A B D |
| C10 | C10_Cardano | A B D |
| C10 | C10_fast | A B D |
| C10 | C10_halley_terms | A B C D |
| C10 | C10_newton_stalls | A B C D |
| C10 | C10_polish_fixes_solutions | A B C D |
| C10 | C10_high_alpha | A B C D |
| C10 | C10_doubledouble_float_defect | A B C D |
| C10 | C10_doubledouble_float_refuted | A B C D |
| C10 | C10_ideal | A D |
| C11 | C11_raises | A D |
| C11 | C11_two | A D |
| C11 | C11_single | A D |
| C11 | C11_only_admissible | A D |
| C11 | C11_permutation | A D |
| C11 | C11_specified_volume | A D |
| C11 | C11_negative_covolume_refuted | A D |
| C11 | C11_more_stable | A D |
| C12 | C12_Zcubic_is_EOS | A B D |
| C12 | C12_value | A D |
| C12 | C12_other_T | A D |
| C12 | C12_requested_T_refuted | A D |
| C12 | C12_three_roots | A B C D |
| C12 | C12_one_root | A B C D |
| C12 | C12_double_root | A B C D |
| C12 | C12_discriminant_sign | A B C D |
| C13 | C13_VDW | A B C D |
| C13 | C13_RK | A B C D |
| C13 | C13_SRK | A B C D |
| C13 | C13_PR | A B C D |
| C13 | C13_PRTranslated_shift | A D |
| C13 | C13_SRKTranslated_shift | A D |
| C13 | C13_PRTranslated | A B C D |
| C13 | C13_SRKTranslated | A B C D |
| C13 | C13_MSRKTranslated | A B C D |
| C13 | C13_RK_exact | A B C D |
| C13 | C13_PR_exact | A B C D |
| C14 | C14_composition_independent | A B D |
| C14 | C14_value | A D |
| C14 | C14_full | A B C D |
| C14 | C14_full_matrices_refuted | A B C D |
| C14 | C14_quadratic_terms | A B D |
| C14 | C14_workspace | A B C D |
| C14 | C14_workspace_rows | A B D |
| C14 | C14_workspace_rows_refuted | A B D |
| C14 | C14_workspace_reuse_refuted | A B D |
| C15 | C15_pure_params | A D |
| C15 | C15_permuted_params | A D |
| C15 | C15_fast_params | A D |
| C15 | C15_pure_a_alpha | A B C D |
| C15 | C15_permuted_a_alpha | A B C D |
| C15 | C15_permuted_rows | A D |
| C16 | C16_RKMIX | A B C D |
| C16 | C16_SRKMIX | A B C D |
| C16 | C16_PRMIX | A B C D |
| C16 | C16_PRMIXTranslated | A B C D |
| C16 | C16_SRKMIXTranslated | A B C D |
| C16 | C16_VDWMIX | A B C D |
| C16 | C16_a_alpha | A B C D |
| C16 | C16_a_alpha_T | A B C D |
| C17 | C17_PR | A B C D |
| C17 | C17_SRK | A B C D |
| C17 | C17_RK | A B C D |
| C17 | C17_PR_translated | A B C D |
| C17 | C17_SRK_translated | A B C D |
| C17 | C17_PR_average | A B C D |
| C17 | C17_SRK_average | A B C D |
| C17 | C17_PR_pure | A B C D |
| C17 | C17_SRK_pure | A B C D |
| C17 | C17_general_average | A B C D |
| C17 | C17_volume_derivative | A B C D |
| C17 | C17_fastest_root | A B C D |
| C17 | C17_PR_fastest | A B C D |
| C17 | C17_SRK_fastest | A B C D |
| C17 | C17_RK_fastest | A B C D |
| C17 | C17_PR_translated_fastest | A B C D |
| C17 | C17_SRK_translated_fastest | A B C D |
| C17 | C17_VDW | A B C D |
| C17 | C17_VDW_kij_refuted | A B C D |
| C17 | C17_VDW_fastest | A B C D |
| C18 | C18_NRTL_GE_form | A B C D |
| C18 | C18_NRTL_dGE_dT | A B C D |
| C18 | C18_NRTL_d2GE_dT2 | A B C D |
| C18 | C18_NRTL_taus | A B C D |
| C18 | C18_NRTL_alphas | A B C D |
| C18 | C18_NRTL_Gs | A B C D |
| C18 | C18_alpha_flag | A D |
| C19 | C19_NRTL_dGE_dxs | A B C D |
| C19 | C19_NRTL_d2GE_dxixjs | A B C D |
| C19 | C19_NRTL_d2GE_dTdxs | A B C D |
| C19 | C19_NRTL_GE_sum | A B C D |
| C19 | C19_NRTL_gammas_positive | A B C D |
| C19 | C19_NRTL_ln_gamma | A B C D |
| C19 | C19_gammas_from_args | A B C D |
| C19 | C19_NRTL_gammas_function | A B C D |
| C19 | C19_NRTL_gammas_binaries | A B D |
| C19 | C19_NRTL_gammas_binaries_jac | A B C D |
| C19 | C19_binaries_jac_below_limit_refuted | A B C D |
| C20 | C20_Wilson_lambdas | A B C D |
| C20 | C20_Wilson_GE_form | A B C D |
| C20 | C20_Wilson_dGE_dT | A B C D |
| C20 | C20_Wilson_d2GE_dT2 | A B C D |
| C20 | C20_Wilson_d3GE_dT3 | A B C D |
| C20 | C20_Wilson_dGE_dxs | A B C D |
| C20 | C20_Wilson_d2GE_dxixjs | A B C D |
| C20 | C20_Wilson_d3GE_dxixjxks | A B C D |
| C20 | C20_Wilson_d2GE_dTdxs | A B C D |
| C20 | C20_Wilson_ln_gamma | A B C D |
| C20 | C20_Wilson_GE_sum | A B C D |
| C20 | C20_gammas_from_args | A B C D |
| C20 | C20_Wilson_gammas_function | A B C D |
| C20 | C20_wilson_gammas_binaries | A B C D |
| C20 | C20_wilson_gammas_binaries_jac | A B C D |
| C20 | C20_gammas_from_args_buffer_refuted | A B C D |
| C21 | C21_UNIQUAC_taus | A B C D |
| C21 | C21_UNIQUAC_theta_tau_sums | A B C D |
| C21 | C21_UNIQUAC_GE_form | A B C D |
| C21 | C21_UNIQUAC_dGE_dT | A B C D |
| C21 | C21_UNIQUAC_d2GE_dT2 | A B C D |
| C21 | C21_UNIQUAC_d3GE_dT3 | A B C D |
| C21 | C21_UNIQUAC_dGE_dxs | A B C D |
| C21 | C21_UNIQUAC_d2GE_dxixjs | A B C D |
| C21 | C21_UNIQUAC_d2GE_dTdxs | A B C D |
| C21 | C21_UNIQUAC_ln_gamma | A B C D |
| C21 | C21_UNIQUAC_GE_sum | A B C D |
| C21 | C21_gammas_from_args | A B C D |
| C21 | C21_UNIQUAC_gammas_function | A B C D |
| C21 | C21_UNIQUAC_gammas_binary | A B C D |
| C21 | C21_UNIQUAC_gammas_binaries | A B C D |
| C21 | C21_UNIQUAC_gammas_binaries_clip | A B C D |
| C22 | C22_Regular_GE_form | A D |
| C22 | C22_Regular_dGE_dxs | A B C D |
| C22 | C22_Regular_d2GE_dxixjs | A B C D |
| C22 | C22_Regular_d3GE_dxixjxks | A B C D |
| C22 | C22_Regular_ln_gamma | A B C D |
| C22 | C22_Regular_GE_sum | A B C D |
| C22 | C22_regular_solution_gammas | A B D |
| C22 | C22_FloryHuggins_GE_form | A B C D |
| C22 | C22_FloryHuggins_dGE_dT | A B C D |
| C22 | C22_FloryHuggins_dGE_dxs | A B C D |
| C22 | C22_FloryHuggins_d2GE_dxixjs | A B C D |
| C22 | C22_FloryHuggins_d3GE_dxixjxks | A B C D |
| C22 | C22_FloryHuggins_d2GE_dTdxs | A B C D |
| C22 | C22_FloryHuggins_GE_sum | A B C D |
| C22 | C22_FloryHuggins_ln_gamma | A B C D |
| C22 | C22_Hansen_GE_form | A B C D |
| C22 | C22_Hansen_dGE_dT | A B C D |
| C22 | C22_Hansen_dGE_dxs | A B C D |
| C22 | C22_Hansen_d2GE_dTdxs | A B C D |
| C22 | C22_Hansen_GE_sum | A B C D |
| C22 | C22_Hansen_ln_gamma | A B C D |
| C22 | C22_regular_solution_gammas_binaries | A B D |
| C22 | C22_regular_solution_gammas_binaries_jac | A B C D |
| C22 | C22_binaries_jac_above_cap_refuted | A B C D |
| C23 | C23_excess_formula | A D |
| C23 | C23_binary_formula | A D |
| C23 | C23_reverse_coefficients | A D |
| C23 | C23_reverse_length | A |
| C23 | C23_reverse_involutive | A D |
| C23 | C23_reverse_binary | A D |
| C23 | C23_excess_of_pairs | A D |
| C23 | C23_two_components | A D |
| C23 | C23_two_components_swapped | A D |
| C23 | C23_pure | A D |
| C23 | C23_diagonal_refuted | A D |
| C23 | C23_both_orders_refuted | A D |
| C23 | C23_length_error | A |
| C23 | C23_T_dependence | A B C D |
| C23 | C23_T_dependence_terms | A B C D |
| C23 | C23_excess_binary | A B C D |
| C23 | C23_fitting_to_use | A |
| C23 | C23_reverse_2d | A D |
| C23 | C23_excess_of_pairs_T | A B C D |
| C23 | C23_fitted_binary | A B C D |
| C23 | C23_terms_4_5_refuted | A B C D |
| C24 | C24_gammas_vectorized | A B D |
| C24 | C24_gibbs_excess_gammas | A B D |
| C24 | C24_lngammas | A B C D |
| C24 | C24_GE_sum | A B C D |
| C24 | C24_ln_gamma | A B C D |
| C24 | C24_gibbs_duhem | A B C D |
| C24 | C24_dgammas_dT | A B D |
| C24 | C24_dlngammas_dT | A B C D |
| C24 | C24_dgammas_dns | A B C D |
| C24 | C24_d2nGE_dninjs | A B C D |
| C24 | C24_dgammas_dns_refuted | A B C D |
| C24 | C24_NRTL_gammas | A B C D |
| C24 | C24_NRTL_gradient | A B C D |
| C24 | C24_NRTL_gibbs_duhem | A B C D |
| C24 | C24_NRTL_dgammas_dns | A B C D |
| C24 | C24_NRTL_d2nGE_dninjs | A B C D |
| C24 | C24_Wilson_gammas | A B C D |
| C24 | C24_Wilson_gradient | A B C D |
| C24 | C24_Wilson_gibbs_duhem | A B C D |
| C24 | C24_Wilson_dgammas_dns | A B C D |
| C24 | C24_Wilson_d2nGE_dninjs | A B C D |
| C24 | C24_UNIQUAC_gammas | A B C D |
| C24 | C24_UNIQUAC_gradient | A B C D |
| C24 | C24_UNIQUAC_gibbs_duhem | A B C D |
| C24 | C24_UNIQUAC_dgammas_dns | A B C D |
| C24 | C24_UNIQUAC_d2nGE_dninjs | A B C D |
| C24 | C24_Regular_gammas | A B C D |
| C24 | C24_Regular_gradient | A B C D |
| C24 | C24_Regular_gibbs_duhem | A B C D |
| C24 | C24_Regular_dgammas_dns | A B C D |
| C24 | C24_Regular_d2nGE_dninjs | A B C D |
| C24 | C24_FloryHuggins_gammas | A B C D |
| C24 | C24_FloryHuggins_gradient | A B C D |
| C24 | C24_FloryHuggins_gibbs_duhem | A B C D |
| C24 | C24_FloryHuggins_dgammas_dns | A B C D |
| C24 | C24_FloryHuggins_d2nGE_dninjs | A B C D |
| C24 | C24_Hansen_gammas | A B C D |
| C24 | C24_Hansen_gradient | A B C D |
| C24 | C24_Hansen_gibbs_duhem | A B C D |
| C25 | C25_NRTL | A B C D |
| C25 | C25_Wilson | A B C D |
| C25 | C25_NRTL_standard | A B C D |
| C25 | C25_Wilson_standard | A B C D |
| C25 | C25_Regular | A B D |
| C25 | C25_Regular_standard | A B D |
| C25 | C25_FloryHuggins | A B C D |
| C25 | C25_FloryHuggins_standard | A B C D |
| C25 | C25_Hansen | A B C D |
| C25 | C25_IdealSolution | A B D |
| C25 | C25_UNIQUAC_limit | A B C D |
| C25 | C25_UNIQUAC_standard | A B C D |
| C25 | C25_UNIQUAC_py | A B C D |
| C25 | C25_UNIQUAC_absent_raises | A B C D |
| C25 | C25_UNIQUAC_pure_refuted | A B C D |
| C26 | C26_SE | A D |
| C26 | C26_GE_HE_TSE | A D |
| C26 | C26_HE | A B D |
| C26 | C26_dHE_dT | A B D |
| C26 | C26_dSE_dT | A D |
| C26 | C26_CpE_TdSE | A D |
| C26 | C26_dHE_dxs | A B D |
| C26 | C26_dSE_dxs | A D |
| C26 | C26_dHE_dns | A B C D |
| C26 | C26_dnHE_dns | A B C D |
| C26 | C26_dSE_dns | A B C D |
| C26 | C26_dnSE_dns | A B C D |
| C26 | C26_dGE_dns | A B C D |
| C26 | C26_dnGE_dns | A B C D |
| C26 | C26_d2GE_dTdns | A B C D |
| C26 | C26_d2nGE_dTdns | A B C D |
| C27 | C27_gibbs_excess_gammas | A B D |
| C27 | C27_gibbs_excess_dHE_dxs | A |
| C27 | C27_gibbs_excess_dgammas_dns | A D |
| C27 | C27_gibbs_excess_dgammas_dT | A B D |
| C27 | C27_interaction_exp | A B C D |
| C27 | C27_dinteraction_exp_dT | A D |
| C27 | C27_d2interaction_exp_dT2 | A D |
| C27 | C27_d3interaction_exp_dT3 | A D |
| C27 | C27_nrtl_gammas | A B D |
| C27 | C27_nrtl_taus | A B C D |
| C27 | C27_nrtl_dtaus_dT | A D |
| C27 | C27_nrtl_d2taus_dT2 | A D |
| C27 | C27_nrtl_d3taus_dT3 | A D |
| C27 | C27_nrtl_alphas | A |
| C27 | C27_nrtl_Gs | A B D |
| C27 | C27_nrtl_dGs_dT | A |
| C27 | C27_nrtl_d2Gs_dT2 | A |
| C27 | C27_nrtl_d3Gs_dT3 | A |
| C27 | C27_nrtl_xj_Gs_jis_and_Gs_taus_jis | A |
| C27 | C27_nrtl_xj_Gs_jis | A |
| C27 | C27_nrtl_xj_Gs_taus_jis | A |
| C27 | C27_nrtl_dGE_dxs | A D |
| C27 | C27_nrtl_d2GE_dxixjs | A D |
| C27 | C27_nrtl_d2GE_dTdxs | A D |
| C27 | C27_wilson_xj_Lambda_ijs | A |
| C27 | C27_wilson_d2GE_dTdxs | A D |
| C27 | C27_wilson_dGE_dxs | A D |
| C27 | C27_wilson_d2GE_dxixjs | A D |
| C27 | C27_wilson_d3GE_dxixjxks | A D |
| C27 | C27_wilson_gammas | A B D |
| C27 | C27_uniquac_phis | A D |
| C27 | C27_uniquac_dphis_dxs | A |
| C27 | C27_uniquac_thetaj_taus_jis | A |
| C27 | C27_uniquac_thetaj_taus_ijs | A |
| C27 | C27_uniquac_d2phis_dxixjs | A |
| C27 | C27_uniquac_dGE_dxs | A B C D |
| C27 | C27_uniquac_d2GE_dTdxs | A B C D |
| C27 | C27_uniquac_d2GE_dxixjs | A D |
| C27 | C27_regular_solution_His | A |
| C27 | C27_regular_solution_Hi_sums | A |
| C27 | C27_regular_solution_Hi_sums_fast | A |
| C27 | C27_regular_solution_Aijs | A D |
| C27 | C27_regular_solution_dGE_dxs | A |
| C27 | C27_regular_solution_gammas | A B D |
| C27 | C27_regular_solution_d2GE_dxixjs | A |
| C27 | C27_regular_solution_d3GE_dxixjxks | A |
| C27 | C27_flory_huggins_d2GE_dTdxs | A B C D |
| C27 | C27_hansen_Aijs_His | A D |
| C27 | C27_eos_mix_dV_dzs | A D |
| C27 | C27_G_dep_lnphi_d_helper | A B C D |
| C27 | C27_eos_mix_db_dns | A |
| C27 | C27_eos_mix_da_alpha_dns | A |
| C27 | C27_RK_d3delta_dninjnks | A |
| C27 | C27_PR_ddelta_dzs | A |
| C27 | C27_PR_ddelta_dns | A |
| C27 | C27_PR_depsilon_dns | A |
| C27 | C27_PR_d2delta_dninjs | A |
| C27 | C27_PR_d3delta_dninjnks | A |
| C27 | C27_PR_d2epsilon_dzizjs | A |
| C27 | C27_PR_depsilon_dzs | A |
| C27 | C27_PR_d2epsilon_dninjs | A D |
| C27 | C27_PR_d3epsilon_dninjnks | A |
| C27 | C27_PR_translated_ddelta_dzs | A |
| C27 | C27_PR_translated_d2epsilon_dzizjs | A |
| C27 | C27_PR_translated_d2epsilon_dninjs | A |
| C27 | C27_PR_translated_ddelta_dns | A |
| C27 | C27_SRK_translated_ddelta_dns | A |
| C27 | C27_SRK_translated_depsilon_dns | A |
| C27 | C27_SRK_translated_depsilon_dzs | A |
| C27 | C27_SRK_translated_d2epsilon_dzizjs | A |
| C27 | C27_SRK_translated_d2delta_dninjs | A |
| C27 | C27_SRK_translated_d3delta_dninjnks | A |
| C27 | C27_SRK_translated_d2epsilon_dninjs | A |
| C27 | C27_SRK_translated_d3epsilon_dninjnks | A |
| C27 | C27_PR_translated_depsilon_dzs | A |
| C27 | C27_PR_translated_depsilon_dns | A |
| C27 | C27_PR_translated_d2delta_dninjs | A |
| C27 | C27_PR_translated_d3delta_dninjnks | A |
| C27 | C27_PR_translated_d3epsilon_dninjnks | A |
| C27 | C27_SRK_lnphis | A B C D |
| C27 | C27_VDW_lnphis | A B C D |
| C27 | C27_eos_mix_lnphis_general | A B C D |
| C27 | C27_PR_a_alphas_vectorized | A B D |
| C27 | C27_PR_a_alpha_and_derivatives_vectorized | A B D |
| C27 | C27_SRK_a_alphas_vectorized | A B D |
| C27 | C27_SRK_a_alpha_and_derivatives_vectorized | A B D |
| C27 | C27_RK_a_alphas_vectorized | A B D |
| C27 | C27_RK_a_alpha_and_derivatives_vectorized | A B D |
| C27 | C27_PRSV_a_alphas_vectorized | A B D |
| C27 | C27_PRSV_a_alpha_and_derivatives_vectorized | A B D |
| C27 | C27_PRSV2_a_alphas_vectorized | A B D |
| C27 | C27_PRSV2_a_alpha_and_derivatives_vectorized | A B D |
| C27 | C27_APISRK_a_alphas_vectorized | A B D |
| C27 | C27_APISRK_a_alpha_and_derivatives_vectorized | A B D |
| C27 | C27_nrtl_gammas_from_args | A B D |
| C27 | C27_flory_huggins_dGE_dxs | A B C D |
| C27 | C27_flory_huggins_d2GE_dxixjs | A B C D |
| C27 | C27_flory_huggins_d3GE_dxixjxks | A B C D |
| C27 | C27_PR_lnphis | A B C D |
| C27 | C27_PR_lnphis_refuted | A B C D |
| C27 | C27_wilson_gammas_refuted | A B C D |
| C28 | C28_dxs_to_dns | A B C D |
| C28 | C28_dxs_to_dn_partials | A B C D |
| C28 | C28_dns_to_dn_partials | A B C D |
| C28 | C28_d2xs_to_dxdn_partials | A B C D |
| C28 | C28_d2xs_to_dxdn_partials_refuted | A B C D |
| C28 | C28_d2ns_to_dn2_partials | A B C D |
| C29 | C29_flow_specified | none |
| C29 | C29_state_specified | none |
| C29 | C29_specified_state_vars | none |
| C29 | C29_specified_flow_vars | none |
| C29 | C29_non_pressure_spec_specified | none |
| C29 | C29_composition_specified | A D |
| C29 | C29_composition_spec | none |
| C29 | C29_flow_spec | none |
| C29 | C29_exception_changes_nothing | none |
| C29 | C29_assign_stores | none |
| C29 | C29_assign_list_stores | none |
| C29 | C29_assign_None | none |
| C29 | C29_assign_list_None | none |
| C29 | C29_composition_count | A D |
| C29 | C29_composition_raises | A D |
| C29 | C29_flow_count | A D |
| C29 | C29_flow_raises | A D |
| C29 | C29_state_count | A D |
| C29 | C29_state_raises | none |
| C29 | C29_update | none |
| C29 | C29_copy | A D |
| C29 | C29_clear_composition | none |
| C29 | C29_clear_flow | none |
| C29 | C29_clear_state | none |
| C29 | C29_reconcile_total | A D |
| C29 | C29_reconcile_both | A D |
| C29 | C29_constructor_tolerance | A D |
| C29 | C29_constructor_flow_refuted | A D |
| C29 | C29_constructor_n_ns_refuted | A D |
| C29 | C29_state_refuted | A D |
| C29 | C29_H_reactive_refuted | A D |
| C29 | C29_mass_refuted | A |
| C29 | C29_update_refuted | A |
| C30 | C30_stale_only_in_H_mass | A D |
| C30 | C30_flash_state_current | A D |
| C30 | C30_read_idempotent | A D |
| C30 | C30_arguments | A D |
| C30 | C30_energy | A D |
| C30 | C30_energy_without_flow | A D |
| C30 | C30_H_mass_refuted | A D |
| C30 | C30_flasher_refuted | A D |
| C30 | C30_energy_Q_refuted | A D |
| C31 | C31_fractions_and_total | A D |
| C31 | C31_fractions_and_Q | A D |
| C31 | C31_component_flows | A D |
| C31 | C31_equilibrium_stream | A D |
| C31 | C31_equilibrium_stream_readback | A D |
| C31 | C31_unknown | A D |
| C31 | C31_unknown_component | A D |
| C31 | C31_unnormalized_refuted | A D |
| C32 | C32_single_outlet | A D |
| C32 | C32_single_inlet | A D |
| C32 | C32_mole_balance | A D |
| C32 | C32_completed_total | A D |
| C32 | C32_no_progress | A D |
| C32 | C32_total_flow_outlet | A D |
| C32 | C32_total_flow_inlet | A D |
| C32 | C32_partly_known_refuted | A D |
| C32 | C32_no_change_refuted | A D |
| C32 | C32_use_mass_refuted | A D |
| C33 | C33_single | A D |
| C33 | C33_single_energy | A D |
| C33 | C33_single_returns | A D |
| C33 | C33_no_progress | A D |
| C33 | C33_in_out_with_mass | A D |
| C33 | C33_two_inlets_with_mass | A D |
| C33 | C33_two_outlets_with_mass | A D |
| C33 | C33_one_in_one_out | A D |
| C33 | C33_energy_stream | A D |
| C33 | C33_general | A D |
| C33 | C33_enthalpy_from_energy | A D |
| C33 | C33_one_in_one_out_refuted | A D |
| C33 | C33_reactive_refuted | A D |
| C33 | C33_known_mass_refuted | A D |
| C34 | C34_two_specifications | A D |
| C34 | C34_two_specifications_refused | A D |
| C34 | C34_underspecified | A D |
| C34 | C34_composition_missing | A D |
| C34 | C34_accepted | A D |
| C34 | C34_retry | A D |
| C34 | C34_iteration_variable | A D |
| C34 | C34_T_P_V_refuted | A D |
| C34 | C34_T_P_H_refuted | A D |
| C34 | C34_VF_V_H_refuted | A D |
| C34 | C34_V_rho_refuted | A D |
| C34 | C34_T_H_G_refuted | A D |
| C34 | C34_phase_boundary | A |
| C35 | C35_phases_and_fractions_aligned | A D |
| C35 | C35_states | A D |
| C35 | C35_gas_is_best | A D |
| C35 | C35_solids_in_order | A D |
| C35 | C35_liquids_in_order | A D |
| C35 | C35_water | A D |
| C35 | C35_completes | A D |
| C35 | C35_equal_density_refuted | A D |
| C35 | C35_two_forced_gases_refuted | A D |
| C35 | C35_forced_gas_refuted | A D |
| C35 | C35_no_fractions_refuted | A D |
| C36 | C36_continuous | A B C D |
| C36 | C36_value_at_limits | A B C D |
| C36 | C36_slope_at_limits | A B C D |
| C36 | C36_derivative | A B C D |
| C36 | C36_second_derivative | A B C D |
| C36 | C36_higher_derivatives_beyond | A B C D |
| C36 | C36_Watson_two_points | A B C D |
| C36 | C36_transforms | A B C D |
| C36 | C36_continuous_with_clamp_refuted | A B C D |
| C36 | C36_derivative_with_clamp_refuted | A B C D |
| C36 | C36_constant_slope_refuted | A B C D |
| C36 | C36_bounds_respected_refuted | A B C D |
| C36 | C36_bounds_inside | A B C D |
| C36 | C36_clamped | A B C D |
| C37 | C37_integral | A B C D |
| C37 | C37_integral_over_T | A B C D |
| C37 | C37_additive | A B C D |
| C37 | C37_additive_over_T | A B C D |
| C37 | C37_antisymmetric | A B C D |
| C37 | C37_no_extrapolation | A B C D |
| C37 | C37_no_value_at_limit | A B C D |
| C37 | C37_piecewise | A B D |
| C37 | C37_integral_with_clamp_refuted | A B C D |
| C38 | C38_history_independent | A B C D |
| C38 | C38_evaluation_has_no_effect | A B C D |
| C38 | C38_selected | A B C D |
| C38 | C38_local | A B C D |
| C38 | C38_correlation | A B C D |
| C38 | C38_tabular | A B C D |
| C38 | C38_piecewise | A B C D |
| C38 | C38_call | A B C D |
| C38 | C38_extrapolation | A B C D |
| C38 | C38_tabular_accepted | A D |
| C38 | C38_piecewise_accepted | A D |
| C38 | C38_refused_unchanged | A D |
| C38 | C38_no_extrapolation | A B C D |
| C38 | C38_tabular_resupplied_refuted | A B C D |
| C38 | C38_local_resupplied_refuted | A B C D |
| C38 | C38_shadowed_refuted | A B C D |
| C38 | C38_call_after_extrapolation_refuted | A B C D |
| C38 | C38_extrapolation_setter_refuted | A D |
| C38 | C38_failed_correlation_refuted | A D |
| C39 | C39_value_of_correlation | A B C D |
| C39 | C39_value_of_constructor | A B C D |
| C39 | C39_constructor_agrees_with_correlation_refuted | A B C D |
| C39 | C39_derivative_of_constructor | A B C D |
| C39 | C39_derivative_of_correlation | A B C D |
| C39 | C39_closed_forms | A B C D |
| C39 | C39_polynomial_correlation_derivative_refuted | A B C D |
| C39 | C39_polynomial_integral | A B C D |
| C39 | C39_polynomial_integral_over_T | A B C D |
| C39 | C39_polynomial_continued | A B C D |
| C39 | C39_smooth_constructor | A B C D |
| C39 | C39_smooth_correlation | A B C D |
| C39 | C39_integral_of_constructor | A B C D |
| C39 | C39_stable_polynomial_integral | A B C D |
| C39 | C39_stable_polynomial_integral_over_T | A B C D |
| C39 | C39_integral_of_correlation | A B C D |
| C39 | C39_polynomial_correlation_integral_refuted | A B C D |
| C39 | C39_integral_of_calculate_refuted | A B C D |
| C40 | C40_round_trip | none |
| C40 | C40_json_is_plain | none |
| C40 | C40_input_is_consumed | none |
| C40 | C40_text_refuted | none |
| C40 | C40_vectorized_list_refuted | none |
| C40 | C40_recalculable_refuted | none |
| C40 | C40_recalculable | none |
| C41 | C41_symmetric_order | none |
| C41 | C41_lookup | none |
| C41 | C41_has | none |
| C41 | C41_load | none |
| C41 | C41_succeeds | none |
| C41 | C41_asymmetric_matrix | A |
| C41 | C41_symmetric_matrix | A |
| C41 | C41_matrices_agree | A |
| C41 | C41_tables_with_type | none |
| C41 | C41_automatic | none |
| C41 | C41_validated | none |
| C41 | C41_scalar_lookup | none |
| C41 | C41_scalar_vector | none |
| C41 | C41_scalar_vector_succeeds | none |
| C41 | C41_scalar_has | none |
| C41 | C41_scalar_automatic | none |
| C41 | C41_automatic_refuted | A |
| C41 | C41_decreasing_key_refuted | A |
| C41 | C41_symmetric_matrix_refuted | A |
| C42 | C42_electroneutral | A D |
| C42 | C42_dominant | A D |
| C42 | C42_proportional | A D |
| C42 | C42_selected_ion | A D |
| C42 | C42_adjust_succeeds | A D |
| C42 | C42_concentrations | A D |
| C42 | C42_tolerance_refuted | A D |
| C42 | C42_dominant_largest_fraction_refuted | A D |
| C43 | C43_PVT | A B D |
| C43 | C43_density | A B D |
| C43 | C43_compressibility | A B D |
| C43 | C43_gibbs | A B D |
| C43 | C43_internal_energy | A B D |
| C43 | C43_helmholtz | A B D |
| C43 | C43_entropy | A B D |
| C43 | C43_jacobian | A B D |
| C43 | C43_mass | A D |
| C43 | C43_mass_density | A B D |
| C43 | C43_heat_capacity | A B D |
| C43 | C43_Cp_minus_Cv | A B D |
| C43 | C43_relations | A B D |
| C43 | C43_Joule_Thomson | A B D |
| C43 | C43_isentropic_bulk | A B D |
| C43 | C43_speed_of_sound | A B D |
| C43 | C43_isentropic_exponents | A B D |
| C43 | C43_second_PVT | A B D |
| C43 | C43_second_density | A B D |
| C43 | C43_second_coefficients | A B D |
| C43 | C43_second_Cv | A B D |
| C43 | C43_second_sound | A B D |
| C43 | C43_departure_H | A B D |
| C43 | C43_departure_S | A B C D |
| C43 | C43_departure_second | A B D |
| C43 | C43_departure_composition | A B C D |
| C43 | C43_speed_of_sound_mass | A B D |
| C43 | C43_dP_dT_zero_refuted | A B D |
| C43 | C43_dV_dP_total | A D |
| C43 | C43_ideal_gas_PVT | A B D |
| C43 | C43_ideal_gas_energies | A B C D |
| C43 | C43_ideal_gas_consistent | A D |
| C43 | C43_ideal_gas_second | A B D |
| C43 | C43_ideal_gas_mixed_refuted | A B D |
| C43 | C43_ideal_gas_Cv_refuted | A B D |
| C43 | C43_ideal_gas_sound_refuted | A B D |
| C44 | C44_molar_properties | A D |
| C44 | C44_energies | A D |
| C44 | C44_single_phase | A D |
| C44 | C44_order | A B C D |
| C44 | C44_composition | A D |
| C44 | C44_specific_properties | A D |
| C44 | C44_phase_fractions | A D |
| C44 | C44_mixing_rules | A B C D |
| C44 | C44_extreme_rules | A B C D |
| C44 | C44_log_rules_for_dP_dV_raise | A B C D |
| C44 | C44_state_lists | A D |
| C44 | C44_state_fractions | A D |
| C44 | C44_liquid_bulk | A D |
| C44 | C44_liquid_bulk_V_refuted | A D |
| C44 | C44_quality | A D |
| C44 | C44_quality_with_solids_refuted | A D |
| C44 | C44_kept_fractions | A D |
| C44 | C44_betas_volume_refuted | A D |
| C44 | C44_transport | A B C D |
| C44 | C44_transport_three_phases_refuted | A B C D |
| C44 | C44_power_rules_for_derivatives_raise | A B C D |
| C44 | C44_departures | A B C D |
| C44 | C44_S_dep_refuted | A B C D |
| C44 | C44_state_S_ideal_gas | A B C D |
| C44 | C44_state_S_ideal_gas_refuted | A B C D |
| C44 | C44_atoms | A D |
| C44 | C44_element_balance | A D |
| C44 | C44_H_C_ratio | A D |
| C44 | C44_H_C_ratio_of_phase_refuted | A B C D |
| C44 | C44_humidity_ratio | A D |
| C44 | C44_humidity_ratio_of_phase_refuted | A B C D |
| C44 | C44_zs_no_water | A D |
| C44 | C44_Vfls | A D |
| C44 | C44_Ks | A D |
| C44 | C44_water_phase_index | A D |
| C44 | C44_phase_string | none |
| C44 | C44_equilibrium_derivative_mean_value | A B C D |
| C44 | C44_equilibrium_derivative_limit | A D |
| C44 | C44_equilibrium_derivative_affine | A D |
| C44 | C44_speeds_of_sound | A B C D |
| C45 | C45_construct | none |
| C45 | C45_water_index | none |
| C45 | C45_atom_counts | none |
| C45 | C45_plain_slice | none |
| C45 | C45_subset | none |
| C45 | C45_subset_fails | none |
| C45 | C45_add | none |
| C45 | C45_add_subset | none |
| C45 | C45_with_new_constants | none |
| C45 | C45_compound_index | none |
| C45 | C45_correlations_subset | none |
| C45 | C45_correlations_construct | none |
| C45 | C45_correlations_commute | none |
| C45 | C45_correlations_add | none |
| C45 | C45_atom_fractions_refuted | none |
| C45 | C45_documented_error_refuted | none |
| C45 | C45_repeated_component_refuted | none |
| C45 | C45_lengths_refuted | none |
| C45 | C45_subset_none_refuted | none |
| C45 | C45_mixture_objects_refuted | none |
| C45 | C45_add_missing_refuted | none |
| C45 | C45_gas_viscosity_refuted | none |
| C46 | C46_pressure | A B D |
| C46 | C46_departures_at_constant_volume | A B C D |
| C46 | C46_departure_derivatives | A B C D |
| C46 | C46_thermodynamic | A B C D |
| C46 | C46_constant_pressure | A B C D |
| C46 | C46_Cp_dep_refuted | A B C D |
| C46 | C46_ideal_limit | A B C D |
| C46 | C46_dV_dzs | A B C D |
| C46 | C46_dG_dep_dzs | A B C D |
| C46 | C46_fugacity | A B C D |
| C46 | C46_coefficients | A D |
| C46 | C46_state | A D |
| C46 | C46_dB_dT | A B D |
| C46 | C46_dC_dT | A B D |
| C46 | C46_newton_slope | A B C D |
| C46 | C46_dB_dzs | A B D |
| C46 | C46_dB_dns | A B C D |
| C46 | C46_dC_dzs | A B D |
| C46 | C46_relabel | A D |
| C46 | C46_cross_model_ignored | A |
| C46 | C46_Zeros_refuted | A D |
| C47 | C47_isobar | A B C D |
| C47 | C47_isotherm | A B C D |
| C47 | C47_density_variable | A B C D |
| C47 | C47_density_mixed | A B C D |
| C47 | C47_density_cross | A B C D |
| C47 | C47_pressure_derivatives_along | A B C D |
| C47 | C47_heat_capacities | A B C D |
| C47 | C47_energies | A B C D |
| C48 | C48_PR | A B D |
| C48 | C48_SRK | A B D |
| C49 | C49_energy | A B C D |
| C49 | C49_pressure | A B C D |
| C49 | C49_thermodynamic | A B C D |
| C49 | C49_entropy | A B C D |
| C49 | C49_enthalpy | A B C D |
| C49 | C49_fugacity | A B C D |
| C49 | C49_fugacity_derivatives | A B C D |
| C49 | C49_departure | A B C D |
| C49 | C49_reduced | A B C D |
| C49 | C49_entropy_departure_refuted | A B C D |
| C49 | C49_energy_method_refuted | A B C D |
| C49 | C49_virial | A D |
| C49 | C49_virial_derivatives | A B C D |
| C49 | C49_gibbs_energies | A B D |
| C49 | C49_gibbs_derivatives | A B D |
| C49 | C49_gibbs_inverses | A B D |
| C50 | C50_saturation | A B D |
| C50 | C50_poynting | A B C D |
| C50 | C50_fugacity_derivatives | A B C D |
| C50 | C50_departure | A B C D |
| C50 | C50_hvap | A B C D |
| C50 | C50_caloric | A B C D |
| C50 | C50_volume | A B C D |
| C50 | C50_maxwell | A B C D |
| C50 | C50_no_poynting | A B D |
| C50 | C50_no_poynting_refuted | A B C D |
| C50 | C50_hvap_refuted | A B C D |
| C50 | C50_caloric_basis | none |
| C50 | C50_caloric_basis_refuted | A B C D |
| C50 | C50_basis_names | none |
| C50 | C50_to | none |
| C50 | C50_to_refuted | none |
| C50 | C50_Tait | A B C D |
| C51 | C51_psis | A B C D |
| C51 | C51_gammas | A B C D |
| C51 | C51_GE | A B C D |
| C51 | C51_gammas_from_args | A B C D |
| C51 | C51_dGE_dT | A B C D |
| C51 | C51_dGE_dxs | A B C D |
| C51 | C51_d2GE_dxixjs | A B C D |
| C51 | C51_d2GE_dTdxs | A B C D |
| C51 | C51_dgammas_dT | A B C D |
| C51 | C51_dgammas_dxs | A B C D |
| C51 | C51_dgammas_dns | A B C D |
| C51 | C51_combinatorial | A B C D |
| C51 | C51_residual | A B C D |
| C51 | C51_residual_dxs | A B C D |
| C51 | C51_partial_molar | A B C D |
| C51 | C51_gibbs_duhem | A B C D |
| C51 | C51_pure | A B C D |
| C51 | C51_single | A B C D |
| C51 | C51_published | A B C D |
| C52 | C52_iterations | A B D |
| C52 | C52_returned | A B D |
| C52 | C52_start_irrelevant | A B D |
| C52 | C52_ideal_exact | A B D |
| C52 | C52_first_iteration_refuted | A B C D |
| C52 | C52_functional_iterations | A B D |
| C52 | C52_flasher_returned | A B D |
| C52 | C52_functional_trivial_refuted | A B C D |
| C52 | C52_phases_returned | A B D |
| C52 | C52_callers_lists | A B D |
| C52 | C52_earlier_result_changed_refuted | A B C D |
| C52 | C52_phases_not_those_of_the_fractions_refuted | A B C D |
| C53 | C53_converged | A B C D |
| C53 | C53_tangent_plane | A B C D |
| C53 | C53_tangent_plane_exact | A B C D |
| C53 | C53_fraction_means_unstable | A D |
| C53 | C53_split_is_real | A B C D |
| C53 | C53_ideal_exact | A B C D |
| C53 | C53_deep_instability_dropped_refuted | A B C D |
| C53 | C53_verdict | A B C D |
| C53 | C53_first_reported | A B C D |
| C53 | C53_farthest_reported | A B C D |
| C53 | C53_far_enough_reported | A B C D |
| C53 | C53_all_solutions | A B C D |
| C53 | C53_unstable_sound | A B C D |
| C53 | C53_lowest_dG_refuted | A B C D |
| C53 | C53_handle_iffy_refuted | A B C D |
| C53 | C53_no_known_phases_refuted | A B C D |
| C53 | C53_skip_refuted | A B C D |
| C53 | C53_unstable_feed_stable_refuted | A B C D |
| C54 | C54_flash_2P | A B D |
| C54 | C54_answer | A B C D |
| C54 | C54_equilibrium | A B C D |
| C54 | C54_stable_single | A B C D |
| C54 | C54_hot_start_fallback | A B C D |
| C54 | C54_polish_trivial_refuted | A B C D |
| C54 | C54_hot_start_refuted | A B C D |
| C54 | C54_ideal_split | A B C D |
| C54 | C54_ideal_single | A B C D |
| C55 | C55_guesses | A B C D |
| C55 | C55_random_repeated_refuted | A B C D |
| C55 | C55_wilson_names | A B C D |
| C55 | C55_pure_names_refuted | A B C D |
| C55 | C55_aqueous_names_refuted | A B C D |
| C55 | C55_unlikely_names_refuted | A B C D |
| C55 | C55_single_component_refuted | A B C D |
| C55 | C55_all_guesses | A B C D |
| C55 | C55_generator_refuted | A B C D |
| C55 | C55_random_number_refuted | A B C D |
| C55 | C55_water | none |
| C56 | C56_derivative_T | A B C D |
| C56 | C56_derivative_P | A B C D |
| C56 | C56_split_T | A B C D |
| C56 | C56_split_P | A D |
| C56 | C56_range | A B C D |
| C56 | C56_Raoult | A B C D |
| C56 | C56_start | A B C D |
| C56 | C56_temperature | A D |
| C56 | C56_range_refuted | A B C D |
| C57 | C57_TVF | A D |
| C57 | C57_PVF | A D |
| C57 | C57_TSF | A D |
| C57 | C57_PSF | A D |
| C57 | C57_derivatives | A B D |
| C57 | C57_same_EOS | A D |
| C57 | C57_IG_activity | A D |
| C57 | C57_lowest_liquid_refuted | A B C D |
| C57 | C57_no_liquid_refuted | A D |
| C57 | C57_melting_start_refuted | A D |
| C57 | C57_too_low | A D |
| C58 | C58_lowest | A D |
| C58 | C58_same_EOS | A D |
| C58 | C58_activity | A B C D |
| C58 | C58_other | A D |
| C58 | C58_one_phase | A D |
| C58 | C58_volume_refuted | A D |
| C58 | C58_minimum_refuted | A D |
| C58 | C58_HSGUA | A D |
| C58 | C58_solid_fluid_refuted | A D |
| C58 | C58_error | A D |
| C58 | C58_bound_first | A D |
| C58 | C58_returns_None_refuted | A D |
| C59 | C59_answer | A B D |
| C59 | C59_residual | A B D |
| C59 | C59_boundary | A B D |
| C59 | C59_no_boundary | A B D |
| C59 | C59_recovers_refuted | A B D |
| C59 | C59_trivial_refuted | A B C D |
| C59 | C59_slope | A B C D |
| C60 | C60_answer | A B D |
| C60 | C60_residual | A B D |
| C60 | C60_pure_refuted | A B D |
| C60 | C60_recovers_refuted | A B D |
| C60 | C60_normalised_refuted | A B D |
| C61 | C61_bounds | A D |
| C61 | C61_direct | A D |
| C61 | C61_found | A D |
| C61 | C61_guesses | none |
| C61 | C61_lowest_refuted | A D |
| C61 | C61_late_refuted | A D |
| C62 | C62_factor | A D |
| C62 | C62_factor_range | A D |
| C62 | C62_removed | A D |
| C62 | C62_same_mixtures | A D |
| C62 | C62_same_composition_refuted | A D |
| C62 | C62_deduplicated | A D |
| C62 | C62_duplicates_refuted | A D |
| C62 | C62_check_VL | A D |
| C62 | C62_check_LL | A D |
| C62 | C62_check_VLL | A D |
| C62 | C62_check_VLN_or_LN | A D |
| C62 | C62_check_VLL_or_LL_refuted | A D |
| C62 | C62_check_values | A |
| C62 | C62_one_sided | A D |
| C62 | C62_saturation_error | A D |
| C62 | C62_bubble_check | A D |
| C62 | C62_dew_check | A D |
| C62 | C62_bounds | A D |
| C62 | C62_last_matching | A D |
| C62 | C62_criterion_refuted | A D |
| C62 | C62_start_refuted | none |
| C62 | C62_start | none |
| C62 | C62_method | none |
| C62 | C62_next_method_refuted | none |
| C62 | C62_unrecognized | none |
| C62 | C62_mode | A D |
| C62 | C62_lowest_refuted | A D |
| C63 | C63_answer | A D |
| C63 | C63_phase_at_value | A D |
| C63 | C63_bracket | A D |
| C63 | C63_bracket_solution | A B D |
| C63 | C63_guess_inside | A D |
| C63 | C63_between_refuted | A D |
| C63 | C63_high_side | none |
| C63 | C63_unbounded_refuted | A D |
| C63 | C63_other_errors | A D |
| C63 | C63_physical | A D |
| C63 | C63_PH | A |
| C63 | C63_ideal_gas | A B C D |
| C63 | C63_T_and_V_refuted | A B C D |
| C63 | C63_liquid_refuted | A B C D |
| C63 | C63_guess | A D |
| C63 | C63_models_refuted | A D |
| C63 | C63_tolerance | A D |
| C63 | C63_state | A D |
| C64 | C64_not_above_single | A D |
| C64 | C64_single | A D |
| C64 | C64_not_above_first | A D |
| C64 | C64_three_fractions | A D |
| C64 | C64_double_check_refuted | A D |
| C64 | C64_above_single_refuted | A D |
| C64 | C64_four_phases_refuted | A D |
| C64 | C64_no_third_refuted | A D |
| C64 | C64_unconverged_refuted | A D |
| C64 | C64_hot_start | A D |
| C64 | C64_fraction | A D |
| C64 | C64_fraction_refuted | A D |
| C65 | C65_assigned | none |
| C65 | C65_success | none |
| C65 | C65_left_out | none |
| C65 | C65_no_overlap | none |
| C65 | C65_fragment_success | none |
| C65 | C65_fragment_counts | none |
| C65 | C65_stale_counts_refuted | none |
| C65 | C65_deletion_refuted | none |
| C65 | C65_wrong_deletion_refuted | none |
| C65 | C65_unreadable_refuted | none |
| C65 | C65_search_refuted | none |
| C65 | C65_priority_of_parts | none |
| C65 | C65_other_atoms_refuted | none |
| C65 | C65_round_trip | none |
| C66 | C66_call | A D |
| C66 | C66_property | A D |
| C66 | C66_table | A D |
| C66 | C66_series_kept | A D |
| C66 | C66_method_P | A D |
| C66 | C66_refused | A D |
| C66 | C66_accepted | A D |
| C66 | C66_fallback | A D |
| C66 | C66_no_exception | A D |
| C66 | C66_valid_methods | A D |
| C66 | C66_default | none |
| C66 | C66_stale_refuted | A D |
| C66 | C66_P_correlation_refuted | A D |
| C66 | C66_unnamed_refuted | A D |
| C66 | C66_replaced_refuted | A D |
| C66 | C66_ends_refuted | A D |
| C66 | C66_added_not_listed_refuted | A D |
| C66 | C66_fallback_refuted | A D |
| C67 | C67_linear | A B C D |
| C67 | C67_logarithmic | A B C D |
| C67 | C67_correlation | A B C D |
| C67 | C67_excess_linear | A B C D |
| C67 | C67_excess_logarithmic | A B C D |
| C67 | C67_excess_correlation | A B C D |
| C67 | C67_value | A B C D |
| C67 | C67_composition | A B C D |
| C67 | C67_partial_linear | A B C D |
| C67 | C67_call | A B C D |
| C67 | C67_memory_unused | A B C D |
| C67 | C67_validity_refuted | A B C D |
| C67 | C67_components_refuted | A B C D |
| C67 | C67_terms_refuted | A B C D |
| C67 | C67_order_refuted | A B C D |
| C67 | C67_padding_refuted | A B C D |
| C67 | C67_method_refuted | A B C D |
| C68 | C68_joback_linear | A D |
| C68 | C68_joback_missing | A D |
| C68 | C68_joback_order | A D |
| C68 | C68_joback_Tc | A D |
| C68 | C68_joback_Tc_above_Tb | A D |
| C68 | C68_joback_Pc | A D |
| C68 | C68_joback_homologue | A D |
| C68 | C68_joback_object | A B D |
| C68 | C68_joback_construct | A D |
| C68 | C68_joback_table | A D |
| C68 | C68_joback_Tc_positive_refuted | A D |
| C68 | C68_joback_report_Tb_refuted | A B D |
| C68 | C68_joback_atom_count_refuted | none |
| C68 | C68_diky | A D |
| C68 | C68_diky_none | A D |
| C68 | C68_fedors_volume | A D |
| C68 | C68_fedors_status | A D |
| C68 | C68_wilson_jasperson | A B C D |
| C68 | C68_wilson_flag_refuted | A B C D |
| C68 | C68_ppr_table | A |
| C68 | C68_ppr_equation | A B C D |
| C68 | C68_ppr_swap | A B C D |
| C68 | C68_ppr_same | A B C D |
| C68 | C68_ppr_matrix | A B C D |
| C68 | C68_ppr_version | A B C D |
| C68 | C68_ppr_not_available_refuted | A |
| C69 | C69_PRMIX | A B C D |
| C69 | C69_d3P_refuted | A B C D |
| C69 | C69_dP_dns | A B C D |
| C69 | C69_d2P_dns | A B C D |
| C69 | C69_d3P_dns | A B C D |
| C69 | C69_d3P_right | A B C D |
| C69 | C69_dH_dep | A B C D |
| C69 | C69_d2A_dep | A B C D |
| C69 | C69_dA_dep_Vt | A B C D |
| C69 | C69_d2A_dep_Vt | A B C D |
| C69 | C69_d2V | A B C D |
| C69 | C69_dScomp | A B C D |
| C69 | C69_d2Scomp | A B C D |
| C70 | C70_methods | none |
| C70 | C70_methods_no_root | none |
| C70 | C70_same_interface | none |
| C70 | C70_failures | none |
| C70 | C70_silent_fallback_refuted | A D |
| C70 | C70_stable | A D |
| C70 | C70_extreme_root | A D |
| C70 | C70_raises | A D |
| C70 | C70_phase | A D |
| C70 | C70_TV | A D |
| C70 | C70_PV | A D |
| C70 | C70_missing | A D |
| C70 | C70_T_only_refuted | A D |
| C70 | C70_G_min | A D |
| C70 | C70_lowest_Gibbs | A D |
| C70 | C70_resolve_one | A D |
| C70 | C70_resolve_both_refuted | A D |
| C70 | C70_lowest_Gibbs_refuted | A D |
| C70 | C70_at_zs | A D |
| C70 | C70_at_zs_no_root_refuted | A D |
| C70 | C70_most_stable_refuted | A D |
| C71 | C71_curve | A B C D |
| C71 | C71_amounts | A B C D |
| C71 | C71_SRK_P | A B C D |
| C71 | C71_SRK_T | A B C D |
| C71 | C71_VDW_P | A B C D |
| C71 | C71_VDW_T | A B C D |
| C71 | C71_PR_P | A B C D |
| C71 | C71_PR_T | A B C D |
| C71 | C71_general_P | A B C D |
| C71 | C71_general_T | A B C D |
| C72 | C72_volume_hessian | A B C D |
| C72 | C72_gibbs_hessian | A B C D |
| C72 | C72_symmetric | A B C D |
| C72 | C72_dfugacities | A B C D |
| C72 | C72_dlnfugacities | A B C D |
| C73 | C73_gradients | A B C D |
| C73 | C73_mole_numbers | A B C D |
| C73 | C73_partial_molar | A B C D |
| C73 | C73_departures | A B C D |
| C73 | C73_component_derivatives | A B C D |
| C74 | C74_formation | A B D |
| C74 | C74_unsupported | A B D |
| C74 | C74_store | A B D |
| C74 | C74_no_cache_refuted | none |
| C74 | C74_bromine | A B D |
| C74 | C74_reference_refuted | A B D |
| C74 | C74_standard_entropy | A B D |
| C74 | C74_solid_entropy_refuted | A B D |
| C74 | C74_basis | A B D |
| C75 | C75_K_flash | A D |
| C75 | C75_phase_count | A D |
| C75 | C75_one_phase | A D |
| C75 | C75_phases_at | none |
| C75 | C75_hot_start | none |
| C75 | C75_hot_one_phase_refuted | none |
| C76 | C76_mixture | A D |
| C76 | C76_limit | A D |
| C76 | C76_content_free | A D |
| C76 | C76_pure_error | A D |
| C76 | C76_activity_fugacity | A B C D |
| C76 | C76_cubic_choice | none |
| C76 | C76_activity_choice | none |
| C76 | C76_other_models_refuted | none |
| C77 | C77_GDEM3 | A B D |
| C77 | C77_GDEM3_arguments_refuted | A B D |
| C77 | C77_Mehra | A B C D |
| C77 | C77_Mehra_step | A B C D |
| C77 | C77_default_guess | A B C D |
| C77 | C77_Mehra_plain | A B C D |
