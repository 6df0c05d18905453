{
 "claims": [
  {
   "property": "C01",
   "status": "proved",
   "theorems": [
    "C01_pressure_derivatives",
    "C01_pressure_derivatives_VDW"
   ],
   "note": "First and second derivatives of P(T,V) returned by main_derivatives_and_departures (generic and VDW forms)."
  },
  {
   "property": "C02",
   "status": "proved",
   "theorems": [
    "C02_H_dep",
    "C02_S_dep",
    "C02_Cv_dep",
    "C02_lnphi",
    "C02_departures_VDW"
   ],
   "note": "Departure functions equal their defining integrals/limits for delta^2 > 4*epsilon and for the VDW form."
  },
  {
   "property": "C03",
   "status": "proved",
   "theorems": [
    "C03_H_isobar",
    "C03_S_isobar",
    "C03_HS_isotherm",
    "C03_HS_isochore_T",
    "C03_HS_isochore_P",
    "C03_HS_volume_T",
    "C03_HS_volume_P",
    "C03_HS_mixed",
    "C03_VDW"
   ],
   "note": "Every reported first and second derivative of H_dep and S_dep along isobar, isotherm, isochore. delta^2 > 4*epsilon exactly; for VDW (delta^2 = 4*epsilon) exact for S and dH/dP and within a proved relative bound for dH/dT, because the code replaces 0 by 1e-100."
  },
  {
   "property": "C04",
   "status": "proved",
   "theorems": [
    "C04_V_of_T",
    "C04_V_of_P",
    "C04_T_of_P",
    "C04_T_of_V",
    "C04_V_mixed",
    "C04_T_mixed"
   ],
   "note": "All implicit first and second derivatives among T, P, V."
  },
  {
   "property": "C05",
   "status": "proved",
   "theorems": [
    "C05_any_departures",
    "C05_dT_on_eos",
    "C05_dP_on_eos"
   ],
   "note": "Derivatives of fugacity and phi, for arbitrary departures and end to end on the cubic EOS, where they also equal -phi*H/(RT^2) and f*V/(RT)."
  },
  {
   "property": "C06",
   "status": "proved",
   "theorems": [
    "C06_PR",
    "C06_PRSV",
    "C06_PRSV2",
    "C06_RK",
    "C06_SRK",
    "C06_APISRK",
    "C06_Soave_1972",
    "C06_Harmens_Knapp",
    "C06_Mathias_1983",
    "C06_Mathias_Copeman_untruncated",
    "C06_Gibbons_Laughton",
    "C06_Soave_1984",
    "C06_Schwartzentruber",
    "C06_Soave_1993",
    "C06_Soave_1979",
    "C06_Heyen",
    "C06_Yu_Lu",
    "C06_Trebble_Bishnoi",
    "C06_Melhem",
    "C06_Androulakis",
    "C06_Twu91",
    "C06_Gasem",
    "C06_Coquelet",
    "C06_Haghtalab",
    "C06_Saffari",
    "C06_Chen_Yang",
    "C06_Almeida",
    "C06_VDW",
    "C06_PR_third",
    "C06_Mathias_Copeman",
    "C06_Mathias_Copeman_at_Tc",
    "C06_Poly",
    "C06_Mathias_Copeman_poly",
    "C06_TwuPR95",
    "C06_TwuSRK95",
    "C06_TwuPR95_low",
    "C06_TwuSRK95_low",
    "C06_TwuPR95_low_refuted"
   ],
   "note": "Every alpha-function class in eos.py and eos_alpha_functions.py. Restrictions: Chen-Yang needs a positive logarithm argument, Almeida T <> Tc (the code divides by zero there), Mathias-Copeman second derivative away from Tc, Twu 1995 above Tc/200 and away from its 1/1000 floor. C06_TwuPR95_low_refuted exhibits the wrong derivative below Tc/200."
  },
  {
   "property": "C07",
   "status": "proved",
   "theorems": [
    "C07_PR",
    "C07_PRSV",
    "C07_PRSV2",
    "C07_VDW",
    "C07_RK",
    "C07_SRK",
    "C07_APISRK",
    "C07_Soave_1972",
    "C07_Heyen",
    "C07_Harmens_Knapp",
    "C07_Mathias_1983",
    "C07_Mathias_Copeman_untruncated",
    "C07_Mathias_Copeman",
    "C07_Gibbons_Laughton",
    "C07_Soave_1984",
    "C07_Yu_Lu",
    "C07_Trebble_Bishnoi",
    "C07_Melhem",
    "C07_Androulakis",
    "C07_Schwartzentruber",
    "C07_Almeida",
    "C07_Twu91",
    "C07_Soave_1993",
    "C07_Gasem",
    "C07_Coquelet",
    "C07_Haghtalab",
    "C07_Chen_Yang",
    "C07_Soave_1979",
    "C07_Mathias_Copeman_poly",
    "C07_Saffari_value",
    "C07_TwuPR95",
    "C07_TwuSRK95",
    "C07_Mathias_Copeman_continuous",
    "C07_Mathias_Copeman_poly_continuous",
    "C07_TwuPR95_continuous",
    "C07_TwuSRK95_continuous",
    "C07_Saffari_refuted",
    "C07_Mathias_Copeman_poly_refuted"
   ],
   "note": "All classes; Saffari and non-normalised polynomial Mathias-Copeman are refuted by witnesses."
  },
  {
   "property": "C08",
   "status": "proved",
   "theorems": [
    "C08_PR",
    "C08_PR_full",
    "C08_SRK",
    "C08_SRK_full",
    "C08_RK",
    "C08_RK_full",
    "C08_PRSV",
    "C08_PRSV_full",
    "C08_PRSV2",
    "C08_PRSV2_full",
    "C08_APISRK",
    "C08_APISRK_full",
    "C08_Twu91",
    "C08_Twu91_full",
    "C08_Soave_1979",
    "C08_Soave_1979_full",
    "C08_Mathias_Copeman_poly",
    "C08_Mathias_Copeman_poly_full"
   ],
   "note": "All vectorised routines that exist, for any number of components and any buffer contents."
  },
  {
   "property": "C09",
   "status": "proved",
   "theorems": [
    "C09_IG",
    "C09_VDW",
    "C09_VDW_unique",
    "C09_a_alpha_for_V",
    "C09_PR",
    "C09_PR_roundtrip",
    "C09_SRK",
    "C09_PRSV",
    "C09_PRSV2",
    "C09_APISRK",
    "C09_SRKTranslatedPPJP_refuted"
   ],
   "note": "RK.solve_T (complex arithmetic with truncated constants) is not modelled. C09_SRKTranslatedPPJP_refuted: that class inherits a solve_T built for other delta and epsilon."
  },
  {
   "property": "C10",
   "status": "proved",
   "theorems": [
    "C10_cubic_iff",
    "C10_Cardano",
    "C10_fast",
    "C10_halley_terms",
    "C10_newton_stalls",
    "C10_polish_fixes_solutions",
    "C10_high_alpha",
    "C10_doubledouble_float_defect",
    "C10_doubledouble_float_refuted",
    "C10_ideal"
   ],
   "note": "fluids.numerics root finders (roots_cubic, newton, brenth) are outside the repository: Cardano takes any correct cubic root finder, the fast solver any complex square and cube root; C10_doubledouble_float_refuted and _defect show the sign error in volume_solutions_doubledouble_float; floating point is idealised"
  },
  {
   "property": "C11",
   "status": "proved",
   "theorems": [
    "C11_raises",
    "C11_two",
    "C11_single",
    "C11_only_admissible",
    "C11_permutation",
    "C11_specified_volume",
    "C11_negative_covolume_refuted",
    "C11_more_stable"
   ],
   "note": "roots in floating-point range (below 1e100); C11_negative_covolume_refuted exhibits the behaviour for b < 0"
  },
  {
   "property": "C12",
   "status": "proved",
   "theorems": [
    "C12_Zcubic_is_EOS",
    "C12_value",
    "C12_other_T",
    "C12_requested_T_refuted",
    "C12_three_roots",
    "C12_one_root",
    "C12_double_root",
    "C12_discriminant_sign"
   ],
   "note": "C12_requested_T_refuted: discriminant(T) with T different from the object temperature has the wrong sign for a witness"
  },
  {
   "property": "C13",
   "status": "proved",
   "theorems": [
    "C13_VDW",
    "C13_RK",
    "C13_SRK",
    "C13_PR",
    "C13_PRTranslated_shift",
    "C13_SRKTranslated_shift",
    "C13_PRTranslated",
    "C13_SRKTranslated",
    "C13_MSRKTranslated",
    "C13_RK_exact",
    "C13_PR_exact"
   ],
   "note": "decimal class constants taken as written in the source"
  },
  {
   "property": "C14",
   "status": "proved",
   "theorems": [
    "C14_composition_independent",
    "C14_value",
    "C14_full",
    "C14_full_matrices_refuted",
    "C14_quadratic_terms",
    "C14_workspace",
    "C14_workspace_rows",
    "C14_workspace_rows_refuted",
    "C14_workspace_reuse_refuted"
   ],
   "note": "three findings (absent components, uncleared buffers) proved as _refuted theorems"
  },
  {
   "property": "C15",
   "status": "proved",
   "theorems": [
    "C15_pure_params",
    "C15_permuted_params",
    "C15_fast_params",
    "C15_pure_a_alpha",
    "C15_permuted_a_alpha",
    "C15_permuted_rows"
   ],
   "note": "b, delta, epsilon and c for every mixture class; a_alpha and its two temperature derivatives for the four implementations of the mixing rule"
  },
  {
   "property": "C16",
   "status": "proved",
   "theorems": [
    "C16_RKMIX",
    "C16_SRKMIX",
    "C16_PRMIX",
    "C16_PRMIXTranslated",
    "C16_SRKMIXTranslated",
    "C16_VDWMIX",
    "C16_a_alpha",
    "C16_a_alpha_T"
   ],
   "note": "first, second and third derivatives of b, delta, epsilon for the RK, SRK, PR, VDW and translated PR/SRK classes and of a_alpha; first composition derivatives of its temperature derivatives"
  },
  {
   "property": "C17",
   "status": "proved",
   "theorems": [
    "C17_PR",
    "C17_SRK",
    "C17_RK",
    "C17_PR_translated",
    "C17_SRK_translated",
    "C17_PR_average",
    "C17_SRK_average",
    "C17_PR_pure",
    "C17_SRK_pure",
    "C17_general_average",
    "C17_volume_derivative",
    "C17_fastest_root",
    "C17_PR_fastest",
    "C17_SRK_fastest",
    "C17_RK_fastest",
    "C17_PR_translated_fastest",
    "C17_SRK_translated_fastest",
    "C17_VDW",
    "C17_VDW_kij_refuted",
    "C17_VDW_fastest"
   ],
   "note": "PR, SRK, RK, translated PR/SRK, VDW; the class methods and the *_fastest routines with the root they select; C17_VDW_kij_refuted: the VDW routine ignores k_ij"
  },
  {
   "property": "C18",
   "status": "proved",
   "theorems": [
    "C18_NRTL_GE_form",
    "C18_NRTL_dGE_dT",
    "C18_NRTL_d2GE_dT2",
    "C18_NRTL_taus",
    "C18_NRTL_alphas",
    "C18_NRTL_Gs",
    "C18_alpha_flag"
   ],
   "note": "any number of components, any parameter matrices; the alpha shortcut flag is the one computed by the constructor"
  },
  {
   "property": "C19",
   "status": "proved",
   "theorems": [
    "C19_NRTL_dGE_dxs",
    "C19_NRTL_d2GE_dxixjs",
    "C19_NRTL_d2GE_dTdxs",
    "C19_NRTL_GE_sum",
    "C19_NRTL_gammas_positive",
    "C19_NRTL_ln_gamma",
    "C19_gammas_from_args",
    "C19_NRTL_gammas_function",
    "C19_NRTL_gammas_binaries",
    "C19_NRTL_gammas_binaries_jac",
    "C19_binaries_jac_below_limit_refuted"
   ],
   "note": "class methods, gammas_from_args with any work lists, the stand-alone NRTL_gammas, and NRTL_gammas_binaries with its Jacobian strictly above the clipping limits; below them the Jacobian is wrong (_refuted witness)"
  },
  {
   "property": "C20",
   "status": "proved",
   "theorems": [
    "C20_Wilson_lambdas",
    "C20_Wilson_GE_form",
    "C20_Wilson_dGE_dT",
    "C20_Wilson_d2GE_dT2",
    "C20_Wilson_d3GE_dT3",
    "C20_Wilson_dGE_dxs",
    "C20_Wilson_d2GE_dxixjs",
    "C20_Wilson_d3GE_dxixjxks",
    "C20_Wilson_d2GE_dTdxs",
    "C20_Wilson_ln_gamma",
    "C20_Wilson_GE_sum",
    "C20_gammas_from_args",
    "C20_Wilson_gammas_function",
    "C20_wilson_gammas_binaries",
    "C20_wilson_gammas_binaries_jac",
    "C20_gammas_from_args_buffer_refuted"
   ],
   "note": "class methods, gammas_from_args, the stand-alone Wilson_gammas, wilson_gammas_binaries with its Jacobian; an output list that is not zero is added to, proved as a _refuted witness"
  },
  {
   "property": "C21",
   "status": "proved",
   "theorems": [
    "C21_UNIQUAC_taus",
    "C21_UNIQUAC_theta_tau_sums",
    "C21_UNIQUAC_GE_form",
    "C21_UNIQUAC_dGE_dT",
    "C21_UNIQUAC_d2GE_dT2",
    "C21_UNIQUAC_d3GE_dT3",
    "C21_UNIQUAC_dGE_dxs",
    "C21_UNIQUAC_d2GE_dxixjs",
    "C21_UNIQUAC_d2GE_dTdxs",
    "C21_UNIQUAC_ln_gamma",
    "C21_UNIQUAC_GE_sum",
    "C21_gammas_from_args",
    "C21_UNIQUAC_gammas_function",
    "C21_UNIQUAC_gammas_binary",
    "C21_UNIQUAC_gammas_binaries",
    "C21_UNIQUAC_gammas_binaries_clip"
   ],
   "note": "class methods for any number of components, gammas_from_args, stand-alone UNIQUAC_gammas, UNIQUAC_gammas_binary and UNIQUAC_gammas_binaries"
  },
  {
   "property": "C22",
   "status": "proved",
   "theorems": [
    "C22_Regular_GE_form",
    "C22_Regular_dGE_dxs",
    "C22_Regular_d2GE_dxixjs",
    "C22_Regular_d3GE_dxixjxks",
    "C22_Regular_ln_gamma",
    "C22_Regular_GE_sum",
    "C22_regular_solution_gammas",
    "C22_FloryHuggins_GE_form",
    "C22_FloryHuggins_dGE_dT",
    "C22_FloryHuggins_dGE_dxs",
    "C22_FloryHuggins_d2GE_dxixjs",
    "C22_FloryHuggins_d3GE_dxixjxks",
    "C22_FloryHuggins_d2GE_dTdxs",
    "C22_FloryHuggins_GE_sum",
    "C22_FloryHuggins_ln_gamma",
    "C22_Hansen_GE_form",
    "C22_Hansen_dGE_dT",
    "C22_Hansen_dGE_dxs",
    "C22_Hansen_d2GE_dTdxs",
    "C22_Hansen_GE_sum",
    "C22_Hansen_ln_gamma",
    "C22_regular_solution_gammas_binaries",
    "C22_regular_solution_gammas_binaries_jac",
    "C22_binaries_jac_above_cap_refuted"
   ],
   "note": "any number of components; Hansen second and third composition derivatives are numerical in the code and not modelled; the Jacobian of the binary form is wrong above the cap on gamma (_refuted witness)"
  },
  {
   "property": "C23",
   "status": "proved",
   "theorems": [
    "C23_excess_formula",
    "C23_binary_formula",
    "C23_reverse_coefficients",
    "C23_reverse_length",
    "C23_reverse_involutive",
    "C23_reverse_binary",
    "C23_excess_of_pairs",
    "C23_two_components",
    "C23_two_components_swapped",
    "C23_pure",
    "C23_diagonal_refuted",
    "C23_both_orders_refuted",
    "C23_length_error",
    "C23_T_dependence",
    "C23_T_dependence_terms",
    "C23_excess_binary",
    "C23_fitting_to_use",
    "C23_reverse_2d",
    "C23_excess_of_pairs_T",
    "C23_fitted_binary",
    "C23_terms_4_5_refuted"
   ],
   "note": "any number of components, terms and pairs; a diagonal pair, a pair given in both orders and 4 or 5 temperature terms are _refuted witnesses"
  },
  {
   "property": "C24",
   "status": "proved",
   "theorems": [
    "C24_gammas_vectorized",
    "C24_gibbs_excess_gammas",
    "C24_lngammas",
    "C24_GE_sum",
    "C24_ln_gamma",
    "C24_gibbs_duhem",
    "C24_dgammas_dT",
    "C24_dlngammas_dT",
    "C24_dgammas_dns",
    "C24_d2nGE_dninjs",
    "C24_dgammas_dns_refuted",
    "C24_NRTL_gammas",
    "C24_NRTL_gradient",
    "C24_NRTL_gibbs_duhem",
    "C24_NRTL_dgammas_dns",
    "C24_NRTL_d2nGE_dninjs",
    "C24_Wilson_gammas",
    "C24_Wilson_gradient",
    "C24_Wilson_gibbs_duhem",
    "C24_Wilson_dgammas_dns",
    "C24_Wilson_d2nGE_dninjs",
    "C24_UNIQUAC_gammas",
    "C24_UNIQUAC_gradient",
    "C24_UNIQUAC_gibbs_duhem",
    "C24_UNIQUAC_dgammas_dns",
    "C24_UNIQUAC_d2nGE_dninjs",
    "C24_Regular_gammas",
    "C24_Regular_gradient",
    "C24_Regular_gibbs_duhem",
    "C24_Regular_dgammas_dns",
    "C24_Regular_d2nGE_dninjs",
    "C24_FloryHuggins_gammas",
    "C24_FloryHuggins_gradient",
    "C24_FloryHuggins_gibbs_duhem",
    "C24_FloryHuggins_dgammas_dns",
    "C24_FloryHuggins_d2nGE_dninjs",
    "C24_Hansen_gammas",
    "C24_Hansen_gradient",
    "C24_Hansen_gibbs_duhem"
   ],
   "note": "generic theorems for any differentiable GE plus instances for NRTL, Wilson, UNIQUAC, RegularSolution, FloryHuggins and (first order) Hansen; the general statement of dgammas_dns is false without equal weighted row sums (_refuted witness)"
  },
  {
   "property": "C25",
   "status": "proved",
   "theorems": [
    "C25_NRTL",
    "C25_Wilson",
    "C25_NRTL_standard",
    "C25_Wilson_standard",
    "C25_Regular",
    "C25_Regular_standard",
    "C25_FloryHuggins",
    "C25_FloryHuggins_standard",
    "C25_Hansen",
    "C25_IdealSolution",
    "C25_UNIQUAC_limit",
    "C25_UNIQUAC_standard",
    "C25_UNIQUAC_py",
    "C25_UNIQUAC_absent_raises",
    "C25_UNIQUAC_pure_refuted"
   ],
   "note": "every model of the package; UNIQUAC raises at a zero mole fraction, proved as _refuted, and its limit is proved"
  },
  {
   "property": "C26",
   "status": "proved",
   "theorems": [
    "C26_SE",
    "C26_GE_HE_TSE",
    "C26_HE",
    "C26_dHE_dT",
    "C26_dSE_dT",
    "C26_CpE_TdSE",
    "C26_dHE_dxs",
    "C26_dSE_dxs",
    "C26_dHE_dns",
    "C26_dnHE_dns",
    "C26_dSE_dns",
    "C26_dnSE_dns",
    "C26_dGE_dns",
    "C26_dnGE_dns",
    "C26_d2GE_dTdns",
    "C26_d2nGE_dTdns"
   ],
   "note": "any twice differentiable GE(T, x)"
  },
  {
   "property": "C27",
   "status": "proved",
   "theorems": [
    "C27_gibbs_excess_gammas",
    "C27_gibbs_excess_dHE_dxs",
    "C27_gibbs_excess_dgammas_dns",
    "C27_gibbs_excess_dgammas_dT",
    "C27_interaction_exp",
    "C27_dinteraction_exp_dT",
    "C27_d2interaction_exp_dT2",
    "C27_d3interaction_exp_dT3",
    "C27_nrtl_gammas",
    "C27_nrtl_taus",
    "C27_nrtl_dtaus_dT",
    "C27_nrtl_d2taus_dT2",
    "C27_nrtl_d3taus_dT3",
    "C27_nrtl_alphas",
    "C27_nrtl_Gs",
    "C27_nrtl_dGs_dT",
    "C27_nrtl_d2Gs_dT2",
    "C27_nrtl_d3Gs_dT3",
    "C27_nrtl_xj_Gs_jis_and_Gs_taus_jis",
    "C27_nrtl_xj_Gs_jis",
    "C27_nrtl_xj_Gs_taus_jis",
    "C27_nrtl_dGE_dxs",
    "C27_nrtl_d2GE_dxixjs",
    "C27_nrtl_d2GE_dTdxs",
    "C27_wilson_xj_Lambda_ijs",
    "C27_wilson_d2GE_dTdxs",
    "C27_wilson_dGE_dxs",
    "C27_wilson_d2GE_dxixjs",
    "C27_wilson_d3GE_dxixjxks",
    "C27_wilson_gammas",
    "C27_uniquac_phis",
    "C27_uniquac_dphis_dxs",
    "C27_uniquac_thetaj_taus_jis",
    "C27_uniquac_thetaj_taus_ijs",
    "C27_uniquac_d2phis_dxixjs",
    "C27_uniquac_dGE_dxs",
    "C27_uniquac_d2GE_dTdxs",
    "C27_uniquac_d2GE_dxixjs",
    "C27_regular_solution_His",
    "C27_regular_solution_Hi_sums",
    "C27_regular_solution_Hi_sums_fast",
    "C27_regular_solution_Aijs",
    "C27_regular_solution_dGE_dxs",
    "C27_regular_solution_gammas",
    "C27_regular_solution_d2GE_dxixjs",
    "C27_regular_solution_d3GE_dxixjxks",
    "C27_flory_huggins_d2GE_dTdxs",
    "C27_hansen_Aijs_His",
    "C27_eos_mix_dV_dzs",
    "C27_G_dep_lnphi_d_helper",
    "C27_eos_mix_db_dns",
    "C27_eos_mix_da_alpha_dns",
    "C27_RK_d3delta_dninjnks",
    "C27_PR_ddelta_dzs",
    "C27_PR_ddelta_dns",
    "C27_PR_depsilon_dns",
    "C27_PR_d2delta_dninjs",
    "C27_PR_d3delta_dninjnks",
    "C27_PR_d2epsilon_dzizjs",
    "C27_PR_depsilon_dzs",
    "C27_PR_d2epsilon_dninjs",
    "C27_PR_d3epsilon_dninjnks",
    "C27_PR_translated_ddelta_dzs",
    "C27_PR_translated_d2epsilon_dzizjs",
    "C27_PR_translated_d2epsilon_dninjs",
    "C27_PR_translated_ddelta_dns",
    "C27_SRK_translated_ddelta_dns",
    "C27_SRK_translated_depsilon_dns",
    "C27_SRK_translated_depsilon_dzs",
    "C27_SRK_translated_d2epsilon_dzizjs",
    "C27_SRK_translated_d2delta_dninjs",
    "C27_SRK_translated_d3delta_dninjnks",
    "C27_SRK_translated_d2epsilon_dninjs",
    "C27_SRK_translated_d3epsilon_dninjnks",
    "C27_PR_translated_depsilon_dzs",
    "C27_PR_translated_depsilon_dns",
    "C27_PR_translated_d2delta_dninjs",
    "C27_PR_translated_d3delta_dninjnks",
    "C27_PR_translated_d3epsilon_dninjnks",
    "C27_SRK_lnphis",
    "C27_VDW_lnphis",
    "C27_eos_mix_lnphis_general",
    "C27_PR_a_alphas_vectorized",
    "C27_PR_a_alpha_and_derivatives_vectorized",
    "C27_SRK_a_alphas_vectorized",
    "C27_SRK_a_alpha_and_derivatives_vectorized",
    "C27_RK_a_alphas_vectorized",
    "C27_RK_a_alpha_and_derivatives_vectorized",
    "C27_PRSV_a_alphas_vectorized",
    "C27_PRSV_a_alpha_and_derivatives_vectorized",
    "C27_PRSV2_a_alphas_vectorized",
    "C27_PRSV2_a_alpha_and_derivatives_vectorized",
    "C27_APISRK_a_alphas_vectorized",
    "C27_APISRK_a_alpha_and_derivatives_vectorized",
    "C27_nrtl_gammas_from_args",
    "C27_flory_huggins_dGE_dxs",
    "C27_flory_huggins_d2GE_dxixjs",
    "C27_flory_huggins_d3GE_dxixjxks",
    "C27_PR_lnphis",
    "C27_PR_lnphis_refuted",
    "C27_wilson_gammas_refuted"
   ],
   "note": "every modelled function with an optional output or work list; the two exceptions are proved as _refuted witnesses"
  },
  {
   "property": "C28",
   "status": "proved",
   "theorems": [
    "C28_dxs_to_dns",
    "C28_dxs_to_dn_partials",
    "C28_dns_to_dn_partials",
    "C28_d2xs_to_dxdn_partials",
    "C28_d2xs_to_dxdn_partials_refuted",
    "C28_d2ns_to_dn2_partials"
   ],
   "note": "any differentiable function of composition; the second-order conversion is false without equal weighted row sums (_refuted witness)"
  },
  {
   "property": "C29",
   "status": "proved",
   "theorems": [
    "C29_flow_specified",
    "C29_state_specified",
    "C29_specified_state_vars",
    "C29_specified_flow_vars",
    "C29_non_pressure_spec_specified",
    "C29_composition_specified",
    "C29_composition_spec",
    "C29_flow_spec",
    "C29_exception_changes_nothing",
    "C29_assign_stores",
    "C29_assign_list_stores",
    "C29_assign_None",
    "C29_assign_list_None",
    "C29_composition_count",
    "C29_composition_raises",
    "C29_flow_count",
    "C29_flow_raises",
    "C29_state_count",
    "C29_state_raises",
    "C29_update",
    "C29_copy",
    "C29_clear_composition",
    "C29_clear_flow",
    "C29_clear_state",
    "C29_reconcile_total",
    "C29_reconcile_both",
    "C29_constructor_tolerance",
    "C29_constructor_flow_refuted",
    "C29_constructor_n_ns_refuted",
    "C29_state_refuted",
    "C29_H_reactive_refuted",
    "C29_mass_refuted",
    "C29_update_refuted"
   ],
   "note": "every history of assignments, list assignments, clears; the constructor, state-variable, H_reactive, mass-based and update() exceptions are proved as _refuted witnesses"
  },
  {
   "property": "C30",
   "status": "proved",
   "theorems": [
    "C30_stale_only_in_H_mass",
    "C30_flash_state_current",
    "C30_read_idempotent",
    "C30_arguments",
    "C30_energy",
    "C30_energy_without_flow",
    "C30_H_mass_refuted",
    "C30_flasher_refuted",
    "C30_energy_Q_refuted"
   ],
   "note": "flash is an arbitrary function of its arguments; stale reads after changing H_mass or flasher and the endless recursion with energy and Q are proved as _refuted witnesses"
  },
  {
   "property": "C31",
   "status": "proved",
   "theorems": [
    "C31_fractions_and_total",
    "C31_fractions_and_Q",
    "C31_component_flows",
    "C31_equilibrium_stream",
    "C31_equilibrium_stream_readback",
    "C31_unknown",
    "C31_unknown_component",
    "C31_unnormalized_refuted"
   ],
   "note": "StreamArgs views from every composition spec with every flow spec, component-flow specs, and EquilibriumStream; unit conversion routines of chemicals are modelled from their documented definitions"
  },
  {
   "property": "C32",
   "status": "proved",
   "theorems": [
    "C32_single_outlet",
    "C32_single_inlet",
    "C32_mole_balance",
    "C32_completed_total",
    "C32_no_progress",
    "C32_total_flow_outlet",
    "C32_total_flow_inlet",
    "C32_partly_known_refuted",
    "C32_no_change_refuted",
    "C32_use_mass_refuted"
   ],
   "note": "any numbers of inlets, outlets, components and any pattern of unknowns; the exceptions are proved as _refuted witnesses"
  },
  {
   "property": "C33",
   "status": "proved",
   "theorems": [
    "C33_single",
    "C33_single_energy",
    "C33_single_returns",
    "C33_no_progress",
    "C33_in_out_with_mass",
    "C33_two_inlets_with_mass",
    "C33_two_outlets_with_mass",
    "C33_one_in_one_out",
    "C33_energy_stream",
    "C33_general",
    "C33_enthalpy_from_energy",
    "C33_one_in_one_out_refuted",
    "C33_reactive_refuted",
    "C33_known_mass_refuted"
   ],
   "note": "EnergyStream, EquilibriumStream and StreamArgs, reactive or not; the exceptions are proved as _refuted witnesses"
  },
  {
   "property": "C34",
   "status": "proved",
   "theorems": [
    "C34_two_specifications",
    "C34_two_specifications_refused",
    "C34_underspecified",
    "C34_composition_missing",
    "C34_accepted",
    "C34_retry",
    "C34_iteration_variable",
    "C34_T_P_V_refuted",
    "C34_T_P_H_refuted",
    "C34_VF_V_H_refuted",
    "C34_V_rho_refuted",
    "C34_T_H_G_refuted",
    "C34_phase_boundary"
   ],
   "note": "all argument combinations and all real values; the algorithms called are opaque; over-specified calls that are accepted are _refuted witnesses"
  },
  {
   "property": "C35",
   "status": "proved",
   "theorems": [
    "C35_phases_and_fractions_aligned",
    "C35_states",
    "C35_gas_is_best",
    "C35_solids_in_order",
    "C35_liquids_in_order",
    "C35_water",
    "C35_completes",
    "C35_equal_density_refuted",
    "C35_two_forced_gases_refuted",
    "C35_forced_gas_refuted",
    "C35_no_fractions_refuted"
   ],
   "note": "any number of phases; scores and sort properties are arbitrary functions of the phase; failures are _refuted witnesses"
  },
  {
   "property": "C36",
   "status": "proved",
   "theorems": [
    "C36_continuous",
    "C36_value_at_limits",
    "C36_slope_at_limits",
    "C36_derivative",
    "C36_second_derivative",
    "C36_higher_derivatives_beyond",
    "C36_Watson_two_points",
    "C36_transforms",
    "C36_continuous_with_clamp_refuted",
    "C36_derivative_with_clamp_refuted",
    "C36_constant_slope_refuted",
    "C36_bounds_respected_refuted",
    "C36_bounds_inside",
    "C36_clamped"
   ],
   "note": "positive temperatures below Tc where the formula uses Tc, method values for which the coefficients exist, finite limits; formulas of chemicals and fluids written from their documentation; clamped jump, clamped derivative, constant kink and unchecked bounds are _refuted witnesses"
  },
  {
   "property": "C37",
   "status": "proved",
   "theorems": [
    "C37_integral",
    "C37_integral_over_T",
    "C37_additive",
    "C37_additive_over_T",
    "C37_antisymmetric",
    "C37_no_extrapolation",
    "C37_no_value_at_limit",
    "C37_piecewise",
    "C37_integral_with_clamp_refuted"
   ],
   "note": "method differentiable inside finite limits, exact quadrature and exact integrals of the method itself as hypotheses, no clamps; integration with a clamp is a _refuted witness"
  },
  {
   "property": "C38",
   "status": "proved",
   "theorems": [
    "C38_history_independent",
    "C38_evaluation_has_no_effect",
    "C38_selected",
    "C38_local",
    "C38_correlation",
    "C38_tabular",
    "C38_piecewise",
    "C38_call",
    "C38_extrapolation",
    "C38_tabular_accepted",
    "C38_piecewise_accepted",
    "C38_refused_unchanged",
    "C38_no_extrapolation",
    "C38_tabular_resupplied_refuted",
    "C38_local_resupplied_refuted",
    "C38_shadowed_refuted",
    "C38_call_after_extrapolation_refuted",
    "C38_extrapolation_setter_refuted",
    "C38_failed_correlation_refuted"
   ],
   "note": "histories in which add_method and add_tabular_data use names not in use; built-in methods, numerical derivatives and interpolation are arbitrary functions; interpolation transforms are not modelled; re-supplied names, the __call__ cache after a change of extrapolation, the extrapolation setter and a failed add_correlation are _refuted witnesses"
  },
  {
   "property": "C39",
   "status": "proved",
   "theorems": [
    "C39_value_of_correlation",
    "C39_value_of_constructor",
    "C39_constructor_agrees_with_correlation_refuted",
    "C39_derivative_of_constructor",
    "C39_derivative_of_correlation",
    "C39_closed_forms",
    "C39_polynomial_correlation_derivative_refuted",
    "C39_polynomial_integral",
    "C39_polynomial_integral_over_T",
    "C39_polynomial_continued",
    "C39_smooth_constructor",
    "C39_smooth_correlation",
    "C39_integral_of_constructor",
    "C39_stable_polynomial_integral",
    "C39_stable_polynomial_integral_over_T",
    "C39_integral_of_correlation",
    "C39_polynomial_correlation_integral_refuted",
    "C39_integral_of_calculate_refuted"
   ],
   "note": "temperatures below Tc for functions of ln(1 - T/Tc); functions of fluids.numerics written from their documentation; exact quadrature as hypothesis where no closed form is used; numerical derivatives are not modelled; mirrored variable, polynomial correlations and calculate_integral beyond the limits are _refuted witnesses"
  },
  {
   "property": "C40",
   "status": "proved",
   "theorems": [
    "C40_round_trip",
    "C40_json_is_plain",
    "C40_input_is_consumed",
    "C40_text_refuted",
    "C40_vectorized_list_refuted",
    "C40_recalculable_refuted",
    "C40_recalculable"
   ],
   "note": "the hooks _custom_as_json and _custom_from_json, sets, ranges and classes whose __new__ raises are not modelled; aliasing of plain containers between the object and the json is not modelled; second loading, text like a reference, lists of objects in vectorized objects and nested recalculable attributes are _refuted or negative theorems"
  },
  {
   "property": "C41",
   "status": "proved",
   "theorems": [
    "C41_symmetric_order",
    "C41_lookup",
    "C41_has",
    "C41_load",
    "C41_succeeds",
    "C41_asymmetric_matrix",
    "C41_symmetric_matrix",
    "C41_matrices_agree",
    "C41_tables_with_type",
    "C41_automatic",
    "C41_validated",
    "C41_scalar_lookup",
    "C41_scalar_vector",
    "C41_scalar_vector_succeeds",
    "C41_scalar_has",
    "C41_scalar_automatic",
    "C41_automatic_refuted",
    "C41_decreasing_key_refuted",
    "C41_symmetric_matrix_refuted"
   ],
   "note": "any tables and any component list; CAS_to_int and check_CAS are arbitrary functions; the documented automatic lookup, decreasing keys and asymmetric tables read as symmetric are _refuted witnesses"
  },
  {
   "property": "C42",
   "status": "proved",
   "theorems": [
    "C42_electroneutral",
    "C42_dominant",
    "C42_proportional",
    "C42_selected_ion",
    "C42_adjust_succeeds",
    "C42_concentrations",
    "C42_tolerance_refuted",
    "C42_dominant_largest_fraction_refuted"
   ],
   "note": "any number of ions; anions negative, cations positive; the 1e-7 tolerance and the choice of the dominant ion are _refuted witnesses"
  },
  {
   "property": "C43",
   "status": "proved",
   "theorems": [
    "C43_PVT",
    "C43_density",
    "C43_compressibility",
    "C43_gibbs",
    "C43_internal_energy",
    "C43_helmholtz",
    "C43_entropy",
    "C43_jacobian",
    "C43_mass",
    "C43_mass_density",
    "C43_heat_capacity",
    "C43_Cp_minus_Cv",
    "C43_relations",
    "C43_Joule_Thomson",
    "C43_isentropic_bulk",
    "C43_speed_of_sound",
    "C43_isentropic_exponents",
    "C43_second_PVT",
    "C43_second_density",
    "C43_second_coefficients",
    "C43_second_Cv",
    "C43_second_sound",
    "C43_departure_H",
    "C43_departure_S",
    "C43_departure_second",
    "C43_departure_composition",
    "C43_speed_of_sound_mass",
    "C43_dP_dT_zero_refuted",
    "C43_dV_dP_total",
    "C43_ideal_gas_PVT",
    "C43_ideal_gas_energies",
    "C43_ideal_gas_consistent",
    "C43_ideal_gas_second",
    "C43_ideal_gas_mixed_refuted",
    "C43_ideal_gas_Cv_refuted",
    "C43_ideal_gas_sound_refuted"
   ],
   "note": "states with dP_dT and dP_dV nonzero; first law and Maxwell relation assumed where the statement says so; zero dP_dT and the mixed derivatives of IdealGas are _refuted witnesses"
  },
  {
   "property": "C44",
   "status": "proved",
   "theorems": [
    "C44_molar_properties",
    "C44_energies",
    "C44_single_phase",
    "C44_order",
    "C44_composition",
    "C44_specific_properties",
    "C44_phase_fractions",
    "C44_mixing_rules",
    "C44_extreme_rules",
    "C44_log_rules_for_dP_dV_raise",
    "C44_state_lists",
    "C44_state_fractions",
    "C44_liquid_bulk",
    "C44_liquid_bulk_V_refuted",
    "C44_quality",
    "C44_quality_with_solids_refuted",
    "C44_kept_fractions",
    "C44_betas_volume_refuted",
    "C44_transport",
    "C44_transport_three_phases_refuted",
    "C44_power_rules_for_derivatives_raise",
    "C44_departures",
    "C44_S_dep_refuted",
    "C44_state_S_ideal_gas",
    "C44_state_S_ideal_gas_refuted",
    "C44_atoms",
    "C44_element_balance",
    "C44_H_C_ratio",
    "C44_H_C_ratio_of_phase_refuted",
    "C44_humidity_ratio",
    "C44_humidity_ratio_of_phase_refuted",
    "C44_zs_no_water",
    "C44_Vfls",
    "C44_Ks",
    "C44_water_phase_index",
    "C44_phase_string",
    "C44_equilibrium_derivative_mean_value",
    "C44_equilibrium_derivative_limit",
    "C44_equilibrium_derivative_affine",
    "C44_speeds_of_sound"
   ],
   "note": "a phase is the values its methods return; phase fractions non-negative and adding up to one and positive values where the statement says so; the liquid bulk beside a gas, quality with solids, the shared volume fraction cache, S_dep, S_ideal_gas of a bulk phase, H_C_ratio and humidity_ratio of a phase are _refuted witnesses"
  },
  {
   "property": "C45",
   "status": "proved",
   "theorems": [
    "C45_construct",
    "C45_water_index",
    "C45_atom_counts",
    "C45_plain_slice",
    "C45_subset",
    "C45_subset_fails",
    "C45_add",
    "C45_add_subset",
    "C45_with_new_constants",
    "C45_compound_index",
    "C45_correlations_subset",
    "C45_correlations_construct",
    "C45_correlations_commute",
    "C45_correlations_add",
    "C45_atom_fractions_refuted",
    "C45_documented_error_refuted",
    "C45_repeated_component_refuted",
    "C45_lengths_refuted",
    "C45_subset_none_refuted",
    "C45_mixture_objects_refuted",
    "C45_add_missing_refuted",
    "C45_gas_viscosity_refuted"
   ],
   "note": "any number of components, any index list or slice; property names and constructor tables are generated from the source; losses and undocumented errors are _refuted witnesses"
  },
  {
   "property": "C46",
   "status": "proved",
   "theorems": [
    "C46_pressure",
    "C46_departures_at_constant_volume",
    "C46_departure_derivatives",
    "C46_thermodynamic",
    "C46_constant_pressure",
    "C46_Cp_dep_refuted",
    "C46_ideal_limit",
    "C46_dV_dzs",
    "C46_dG_dep_dzs",
    "C46_fugacity",
    "C46_coefficients",
    "C46_state",
    "C46_dB_dT",
    "C46_dC_dT",
    "C46_newton_slope",
    "C46_dB_dzs",
    "C46_dB_dns",
    "C46_dC_dzs",
    "C46_relabel",
    "C46_cross_model_ignored",
    "C46_Zeros_refuted"
   ],
   "note": "positive T and V and non-zero pressure derivatives; correlations, solver and the C mixing rule of chemicals.virial are arbitrary functions with their documented behaviour as hypotheses; Cp_dep at constant pressure and the Zeros option are _refuted witnesses"
  },
  {
   "property": "C47",
   "status": "proved",
   "theorems": [
    "C47_isobar",
    "C47_isotherm",
    "C47_density_variable",
    "C47_density_mixed",
    "C47_density_cross",
    "C47_pressure_derivatives_along",
    "C47_heat_capacities",
    "C47_energies"
   ],
   "note": "Z, density, beta, kappa, Cp_dep, U/A/G departures and their derivatives."
  },
  {
   "property": "C48",
   "status": "proved",
   "theorems": [
    "C48_PR",
    "C48_SRK"
   ],
   "note": "PR and SRK."
  },
  {
   "property": "C49",
   "status": "proved",
   "theorems": [
    "C49_energy",
    "C49_pressure",
    "C49_thermodynamic",
    "C49_entropy",
    "C49_enthalpy",
    "C49_fugacity",
    "C49_fugacity_derivatives",
    "C49_departure",
    "C49_reduced",
    "C49_entropy_departure_refuted",
    "C49_energy_method_refuted",
    "C49_virial",
    "C49_virial_derivatives",
    "C49_gibbs_energies",
    "C49_gibbs_derivatives",
    "C49_gibbs_inverses"
   ],
   "note": "the functions supplied by chemicals.iapws and chemicals.air are arbitrary smooth functions; numerical root finding for T and V and the caches are not modelled; entropy departure and A() are _refuted witnesses"
  },
  {
   "property": "C50",
   "status": "proved",
   "theorems": [
    "C50_saturation",
    "C50_poynting",
    "C50_fugacity_derivatives",
    "C50_departure",
    "C50_hvap",
    "C50_caloric",
    "C50_volume",
    "C50_maxwell",
    "C50_no_poynting",
    "C50_no_poynting_refuted",
    "C50_hvap_refuted",
    "C50_caloric_basis",
    "C50_caloric_basis_refuted",
    "C50_basis_names",
    "C50_to",
    "C50_to_refuted",
    "C50_Tait"
   ],
   "note": "GibbsExcessLiquid; the pure component data are functions with their derivatives, the activity model enters through ge and gamma"
  },
  {
   "property": "C51",
   "status": "proved",
   "theorems": [
    "C51_psis",
    "C51_gammas",
    "C51_GE",
    "C51_gammas_from_args",
    "C51_dGE_dT",
    "C51_dGE_dxs",
    "C51_d2GE_dxixjs",
    "C51_d2GE_dTdxs",
    "C51_dgammas_dT",
    "C51_dgammas_dxs",
    "C51_dgammas_dns",
    "C51_combinatorial",
    "C51_residual",
    "C51_residual_dxs",
    "C51_partial_molar",
    "C51_gibbs_duhem",
    "C51_pure",
    "C51_single",
    "C51_published"
   ],
   "note": "UNIFAC class values without the caches; composition derivatives for two or more components, C51_single for one; composition derivatives treat the mole fractions as independent"
  },
  {
   "property": "C52",
   "status": "proved",
   "theorems": [
    "C52_iterations",
    "C52_returned",
    "C52_start_irrelevant",
    "C52_ideal_exact",
    "C52_first_iteration_refuted",
    "C52_functional_iterations",
    "C52_flasher_returned",
    "C52_functional_trivial_refuted",
    "C52_phases_returned",
    "C52_callers_lists",
    "C52_earlier_result_changed_refuted",
    "C52_phases_not_those_of_the_fractions_refuted"
   ],
   "note": "the external Rachford-Rice solvers are arbitrary functions that return solutions or raise; specifications by T, P; the claims about the first iteration are _refuted witnesses"
  },
  {
   "property": "C53",
   "status": "proved",
   "theorems": [
    "C53_converged",
    "C53_tangent_plane",
    "C53_tangent_plane_exact",
    "C53_fraction_means_unstable",
    "C53_split_is_real",
    "C53_ideal_exact",
    "C53_deep_instability_dropped_refuted",
    "C53_verdict",
    "C53_first_reported",
    "C53_farthest_reported",
    "C53_far_enough_reported",
    "C53_all_solutions",
    "C53_unstable_sound",
    "C53_lowest_dG_refuted",
    "C53_handle_iffy_refuted",
    "C53_no_known_phases_refuted",
    "C53_skip_refuted",
    "C53_unstable_feed_stable_refuted"
   ],
   "note": "the Rachford-Rice solver and the fugacity model are arbitrary functions; infinities and not-a-number values are not modelled; the options that do not do what they say are _refuted theorems"
  },
  {
   "property": "C54",
   "status": "proved",
   "theorems": [
    "C54_flash_2P",
    "C54_answer",
    "C54_equilibrium",
    "C54_stable_single",
    "C54_hot_start_fallback",
    "C54_polish_trivial_refuted",
    "C54_hot_start_refuted",
    "C54_ideal_split",
    "C54_ideal_single"
   ],
   "note": "flash_TPV with T and P of the two phase flasher with one liquid model; the Rachford-Rice solver, the Gibbs energies, the guesses and the fugacity model are arbitrary functions; the two exceptions are _refuted theorems"
  },
  {
   "property": "C55",
   "status": "proved",
   "theorems": [
    "C55_guesses",
    "C55_random_repeated_refuted",
    "C55_wilson_names",
    "C55_pure_names_refuted",
    "C55_aqueous_names_refuted",
    "C55_unlikely_names_refuted",
    "C55_single_component_refuted",
    "C55_all_guesses",
    "C55_generator_refuted",
    "C55_random_number_refuted",
    "C55_water"
   ],
   "note": "all of StabilityTester but the SciPy minimisations; the random numbers are arbitrary positive values; float underflow of a Wilson ratio to zero is only met when a critical pressure is zero"
  },
  {
   "property": "C56",
   "status": "proved",
   "theorems": [
    "C56_derivative_T",
    "C56_derivative_P",
    "C56_split_T",
    "C56_split_P",
    "C56_range",
    "C56_Raoult",
    "C56_start",
    "C56_temperature",
    "C56_range_refuted"
   ],
   "note": "newton and brenth of fluids.numerics are parameters; the uniqueness and answer theorems assume that they return a root they evaluated"
  },
  {
   "property": "C57",
   "status": "proved",
   "theorems": [
    "C57_TVF",
    "C57_PVF",
    "C57_TSF",
    "C57_PSF",
    "C57_derivatives",
    "C57_same_EOS",
    "C57_IG_activity",
    "C57_lowest_liquid_refuted",
    "C57_no_liquid_refuted",
    "C57_melting_start_refuted",
    "C57_too_low"
   ],
   "note": "root finders are parameters; CoolProp and IAPWS-95 branches are not modelled"
  },
  {
   "property": "C58",
   "status": "proved",
   "theorems": [
    "C58_lowest",
    "C58_same_EOS",
    "C58_activity",
    "C58_other",
    "C58_one_phase",
    "C58_volume_refuted",
    "C58_minimum_refuted",
    "C58_HSGUA",
    "C58_solid_fluid_refuted",
    "C58_error",
    "C58_bound_first",
    "C58_returns_None_refuted"
   ],
   "note": "the one phase solver, spec_fun, CoolProp and IAPWS-95 branches are not modelled; the criterion is arbitrary"
  },
  {
   "property": "C59",
   "status": "proved",
   "theorems": [
    "C59_answer",
    "C59_residual",
    "C59_boundary",
    "C59_no_boundary",
    "C59_recovers_refuted",
    "C59_trivial_refuted",
    "C59_slope"
   ],
   "note": "floats as reals; phase objects abstract; answers given after the last allowed iteration are excluded"
  },
  {
   "property": "C60",
   "status": "proved",
   "theorems": [
    "C60_answer",
    "C60_residual",
    "C60_pure_refuted",
    "C60_recovers_refuted",
    "C60_normalised_refuted"
   ],
   "note": "one model for the four functions, with their differences as parameters"
  },
  {
   "property": "C61",
   "status": "proved",
   "theorems": [
    "C61_bounds",
    "C61_direct",
    "C61_found",
    "C61_guesses",
    "C61_lowest_refuted",
    "C61_late_refuted"
   ],
   "note": "floats as reals; flash and check abstract"
  },
  {
   "property": "C62",
   "status": "proved",
   "theorems": [
    "C62_factor",
    "C62_factor_range",
    "C62_removed",
    "C62_same_mixtures",
    "C62_same_composition_refuted",
    "C62_deduplicated",
    "C62_duplicates_refuted",
    "C62_check_VL",
    "C62_check_LL",
    "C62_check_VLL",
    "C62_check_VLN_or_LN",
    "C62_check_VLL_or_LL_refuted",
    "C62_check_values",
    "C62_one_sided",
    "C62_saturation_error",
    "C62_bubble_check",
    "C62_dew_check",
    "C62_bounds",
    "C62_last_matching",
    "C62_criterion_refuted",
    "C62_start_refuted",
    "C62_start",
    "C62_method",
    "C62_next_method_refuted",
    "C62_unrecognized",
    "C62_mode",
    "C62_lowest_refuted"
   ],
   "note": "floats as reals; flash abstract; the root finders themselves are not modelled"
  },
  {
   "property": "C63",
   "status": "proved",
   "theorems": [
    "C63_answer",
    "C63_phase_at_value",
    "C63_bracket",
    "C63_bracket_solution",
    "C63_guess_inside",
    "C63_between_refuted",
    "C63_high_side",
    "C63_unbounded_refuted",
    "C63_other_errors",
    "C63_physical",
    "C63_PH",
    "C63_ideal_gas",
    "C63_T_and_V_refuted",
    "C63_liquid_refuted",
    "C63_guess",
    "C63_models_refuted",
    "C63_tolerance",
    "C63_state"
   ],
   "note": "floats as reals; newton, secant, brenth, the oscillation detection and best_bounding_bounds are arbitrary lists of evaluations with an outcome; the bounds of CoolProp phases are not modelled"
  },
  {
   "property": "C64",
   "status": "proved",
   "theorems": [
    "C64_not_above_single",
    "C64_single",
    "C64_not_above_first",
    "C64_three_fractions",
    "C64_double_check_refuted",
    "C64_above_single_refuted",
    "C64_four_phases_refuted",
    "C64_no_third_refuted",
    "C64_unconverged_refuted",
    "C64_hot_start",
    "C64_fraction",
    "C64_fraction_refuted"
   ],
   "note": "floats as reals; the two phase flash, the stability test, the N phase iteration and the last attempt are arbitrary functions; the solid and the composition independent flashes are not modelled"
  },
  {
   "property": "C65",
   "status": "proved",
   "theorems": [
    "C65_assigned",
    "C65_success",
    "C65_left_out",
    "C65_no_overlap",
    "C65_fragment_success",
    "C65_fragment_counts",
    "C65_stale_counts_refuted",
    "C65_deletion_refuted",
    "C65_wrong_deletion_refuted",
    "C65_unreadable_refuted",
    "C65_search_refuted",
    "C65_priority_of_parts",
    "C65_other_atoms_refuted",
    "C65_round_trip"
   ],
   "note": "the matches of RDKit are given: nonempty tuples of different atoms; group keys are natural numbers; separators are single characters; the order of the union of several patterns is arbitrary"
  },
  {
   "property": "C66",
   "status": "proved",
   "theorems": [
    "C66_call",
    "C66_property",
    "C66_table",
    "C66_series_kept",
    "C66_method_P",
    "C66_refused",
    "C66_accepted",
    "C66_fallback",
    "C66_no_exception",
    "C66_valid_methods",
    "C66_default",
    "C66_stale_refuted",
    "C66_P_correlation_refuted",
    "C66_unnamed_refuted",
    "C66_replaced_refuted",
    "C66_ends_refuted",
    "C66_added_not_listed_refuted",
    "C66_fallback_refuted"
   ],
   "note": "the temperature dependent side, the built in methods and the interpolation inside a table are parameters; the interpolation transforms are constant; names are natural numbers"
  },
  {
   "property": "C67",
   "status": "proved",
   "theorems": [
    "C67_linear",
    "C67_logarithmic",
    "C67_correlation",
    "C67_excess_linear",
    "C67_excess_logarithmic",
    "C67_excess_correlation",
    "C67_value",
    "C67_composition",
    "C67_partial_linear",
    "C67_call",
    "C67_memory_unused",
    "C67_validity_refuted",
    "C67_components_refuted",
    "C67_terms_refuted",
    "C67_order_refuted",
    "C67_padding_refuted",
    "C67_method_refuted"
   ],
   "note": "pure components are functions of T and P; mixing_simple, the conversions of fractions and derivative (a central difference) of the libraries are modelled by their definitions; floats are reals"
  },
  {
   "property": "C68",
   "status": "proved",
   "theorems": [
    "C68_joback_linear",
    "C68_joback_missing",
    "C68_joback_order",
    "C68_joback_Tc",
    "C68_joback_Tc_above_Tb",
    "C68_joback_Pc",
    "C68_joback_homologue",
    "C68_joback_object",
    "C68_joback_construct",
    "C68_joback_table",
    "C68_joback_Tc_positive_refuted",
    "C68_joback_report_Tb_refuted",
    "C68_joback_atom_count_refuted",
    "C68_diky",
    "C68_diky_none",
    "C68_fedors_volume",
    "C68_fedors_status",
    "C68_wilson_jasperson",
    "C68_wilson_flag_refuted",
    "C68_ppr_table",
    "C68_ppr_equation",
    "C68_ppr_swap",
    "C68_ppr_same",
    "C68_ppr_matrix",
    "C68_ppr_version",
    "C68_ppr_not_available_refuted"
   ],
   "note": "the groups, rings and bonds found by RDKit are inputs; the Joback table is generated from the source, the other tables are arbitrary; floats are reals"
  },
  {
   "property": "C69",
   "status": "proved",
   "theorems": [
    "C69_PRMIX",
    "C69_d3P_refuted",
    "C69_dP_dns",
    "C69_d2P_dns",
    "C69_d3P_dns",
    "C69_d3P_right",
    "C69_dH_dep",
    "C69_d2A_dep",
    "C69_dA_dep_Vt",
    "C69_d2A_dep_Vt",
    "C69_d2V",
    "C69_dScomp",
    "C69_d2Scomp"
   ],
   "note": "floats as reals; catanh(x).real is half of ln|(1+x)/(1-x)|; x**(k/2) is the real power; the volume along the root is assumed twice differentiable"
  },
  {
   "property": "C70",
   "status": "proved",
   "theorems": [
    "C70_methods",
    "C70_methods_no_root",
    "C70_same_interface",
    "C70_failures",
    "C70_silent_fallback_refuted",
    "C70_stable",
    "C70_extreme_root",
    "C70_raises",
    "C70_phase",
    "C70_TV",
    "C70_PV",
    "C70_missing",
    "C70_T_only_refuted",
    "C70_G_min",
    "C70_lowest_Gibbs",
    "C70_resolve_one",
    "C70_resolve_both_refuted",
    "C70_lowest_Gibbs_refuted",
    "C70_at_zs",
    "C70_at_zs_no_root_refuted",
    "C70_most_stable_refuted"
   ],
   "note": "the tables of methods are generated from the syntax tree of ceos.py by tools/gen_ceos.py; the equation of state is a parameter; mu, k, the transitions, V_iter and phi_pures are not modelled"
  },
  {
   "property": "C71",
   "status": "proved",
   "theorems": [
    "C71_curve",
    "C71_amounts",
    "C71_SRK_P",
    "C71_SRK_T",
    "C71_VDW_P",
    "C71_VDW_T",
    "C71_PR_P",
    "C71_PR_T",
    "C71_general_P",
    "C71_general_T"
   ],
   "note": "translated from the source by tools/spec_dlnphi.py (Gen_dlnphi.v); real arithmetic; the exception handler of dlnphis_dP for infinite volumes and the departure derivatives in set_dnzs_derivatives_and_departures are not modelled here"
  },
  {
   "property": "C72",
   "status": "proved",
   "theorems": [
    "C72_volume_hessian",
    "C72_gibbs_hessian",
    "C72_symmetric",
    "C72_dfugacities",
    "C72_dlnfugacities"
   ],
   "note": "translated from the source by tools/spec_d2comp.py (Gen_d2comp.v); delta^2 > 4 epsilon; the exception handlers around the fugacities are not modelled"
  },
  {
   "property": "C73",
   "status": "proved",
   "theorems": [
    "C73_gradients",
    "C73_mole_numbers",
    "C73_partial_molar",
    "C73_departures",
    "C73_component_derivatives"
   ],
   "note": "The mixing rules are arbitrary differentiable functions whose derivative lists the object holds (C72 and C17 prove those of the classes); conversions of the chemicals library are taken from their documentation (C28). The case of equal roots of V^2 + delta V + epsilon is not covered."
  },
  {
   "property": "C74",
   "status": "proved",
   "theorems": [
    "C74_formation",
    "C74_unsupported",
    "C74_store",
    "C74_no_cache_refuted",
    "C74_bromine",
    "C74_reference_refuted",
    "C74_standard_entropy",
    "C74_solid_entropy_refuted",
    "C74_basis"
   ],
   "note": "Integrals are exact integrals; standard_formation_reaction and hash are parameters; choice of method of the heat capacity objects is not modelled."
  },
  {
   "property": "C75",
   "status": "proved",
   "theorems": [
    "C75_K_flash",
    "C75_phase_count",
    "C75_one_phase",
    "C75_phases_at",
    "C75_hot_start",
    "C75_hot_one_phase_refuted"
   ],
   "note": "flash_inner_loop of the chemicals library is a parameter, with the contract that the split it returns satisfies the equations with mole fractions that are not negative. phases_at with a volume is not modelled."
  },
  {
   "property": "C76",
   "status": "proved",
   "theorems": [
    "C76_mixture",
    "C76_limit",
    "C76_content_free",
    "C76_pure_error",
    "C76_activity_fugacity",
    "C76_cubic_choice",
    "C76_activity_choice",
    "C76_other_models_refuted"
   ],
   "note": "The limit theorem assumes that the activity coefficient is continuous from the right at zero content, which is a property of the model and not of this function. trunc_exp is exp."
  },
  {
   "property": "C77",
   "status": "proved",
   "theorems": [
    "C77_GDEM3",
    "C77_GDEM3_arguments_refuted",
    "C77_Mehra",
    "C77_Mehra_step",
    "C77_default_guess",
    "C77_Mehra_plain"
   ],
   "note": "flash_inner_loop and gdem are parameters; the former is assumed to return, for positive K values, a split with positive mole fractions or to raise an error."
  }
 ]
}