# Which functions of the code are modelled

Made by `tools/coverage.py` from the citations in the comments of the model. A function counts as modelled when a citation
covers it or lies inside it; a citation inside a function means that part of it is modelled, as the comment beside the
definition says. Everything not listed here is not modelled.

1508 of 3465 functions in 77 files.

| file | modelled | functions |
|---|---|---|
| `thermo/__init__.py` | 0 | 2 |
| `thermo/activity.py` | 27 | 53 |
| `thermo/bulk.py` | 39 | 60 |
| `thermo/chemical.py` | 0 | 124 |
| `thermo/chemical_package.py` | 11 | 32 |
| `thermo/chemical_utils.py` | 7 | 7 |
| `thermo/coolprop.py` | 0 | 22 |
| `thermo/database.py` | 0 | 3 |
| `thermo/datasheet.py` | 0 | 6 |
| `thermo/electrochem.py` | 6 | 31 |
| `thermo/eos.py` | 171 | 254 |
| `thermo/eos_alpha_functions.py` | 89 | 99 |
| `thermo/eos_mix.py` | 129 | 268 |
| `thermo/eos_mix_methods.py` | 47 | 47 |
| `thermo/eos_volume.py` | 11 | 17 |
| `thermo/equilibrium.py` | 37 | 152 |
| `thermo/fitting.py` | 0 | 21 |
| `thermo/flash/flash_base.py` | 4 | 27 |
| `thermo/flash/flash_pure_vls.py` | 6 | 22 |
| `thermo/flash/flash_utils.py` | 39 | 73 |
| `thermo/flash/flash_vl.py` | 10 | 19 |
| `thermo/flash/flash_vln.py` | 6 | 9 |
| `thermo/functional_groups.py` | 0 | 103 |
| `thermo/group_contribution/bondi.py` | 0 | 13 |
| `thermo/group_contribution/fedors.py` | 1 | 1 |
| `thermo/group_contribution/group_contribution_base.py` | 7 | 8 |
| `thermo/group_contribution/joback.py` | 20 | 23 |
| `thermo/group_contribution/ppr78.py` | 2 | 7 |
| `thermo/group_contribution/wilson_jasperson.py` | 1 | 1 |
| `thermo/heat_capacity.py` | 0 | 33 |
| `thermo/interaction_parameters.py` | 14 | 19 |
| `thermo/interface.py` | 0 | 8 |
| `thermo/law.py` | 0 | 5 |
| `thermo/mixture.py` | 0 | 174 |
| `thermo/nrtl.py` | 51 | 55 |
| `thermo/numba.py` | 0 | 1 |
| `thermo/permittivity.py` | 0 | 4 |
| `thermo/phase_change.py` | 0 | 10 |
| `thermo/phase_identification.py` | 7 | 16 |
| `thermo/phases/air_phase.py` | 0 | 8 |
| `thermo/phases/ceos.py` | 88 | 111 |
| `thermo/phases/combined.py` | 0 | 6 |
| `thermo/phases/coolprop_phase.py` | 0 | 47 |
| `thermo/phases/gibbs_eos.py` | 19 | 20 |
| `thermo/phases/gibbs_excess.py` | 30 | 100 |
| `thermo/phases/helmholtz_eos.py` | 44 | 46 |
| `thermo/phases/iapws_phase.py` | 0 | 47 |
| `thermo/phases/ideal_gas.py` | 29 | 51 |
| `thermo/phases/petroleum.py` | 0 | 7 |
| `thermo/phases/phase.py` | 84 | 304 |
| `thermo/phases/phase_utils.py` | 3 | 3 |
| `thermo/phases/virial_phase.py` | 72 | 107 |
| `thermo/property_package.py` | 9 | 62 |
| `thermo/redlich_kister.py` | 8 | 8 |
| `thermo/regular_solution.py` | 34 | 46 |
| `thermo/serialize.py` | 4 | 14 |
| `thermo/stream.py` | 99 | 157 |
| `thermo/test_utils.py` | 0 | 4 |
| `thermo/thermal_conductivity.py` | 0 | 23 |
| `thermo/unifac.py` | 120 | 145 |
| `thermo/uniquac.py` | 40 | 46 |
| `thermo/utils/functional.py` | 1 | 9 |
| `thermo/utils/mixture_property.py` | 17 | 36 |
| `thermo/utils/t_dependent_property.py` | 29 | 95 |
| `thermo/utils/tp_dependent_property.py` | 4 | 20 |
| `thermo/vapor_pressure.py` | 0 | 14 |
| `thermo/viscosity.py` | 1 | 27 |
| `thermo/volume.py` | 0 | 33 |
| `thermo/wilson.py` | 31 | 40 |

## `thermo/activity.py`

`gibbs_excess_gammas`, `gibbs_excess_dHE_dxs`, `gibbs_excess_dgammas_dns`, `gibbs_excess_dgammas_dT`, `interaction_exp`, `dinteraction_exp_dT`, `d2interaction_exp_dT2`, `d3interaction_exp_dT3`, `GibbsExcess.dHE_dxs`, `GibbsExcess.dHE_dns`, `GibbsExcess.dnHE_dns`, `GibbsExcess.SE`, `GibbsExcess.dSE_dT`, `GibbsExcess.dSE_dxs`, `GibbsExcess.dSE_dns`, `GibbsExcess.dnSE_dns`, `GibbsExcess.dGE_dns`, `GibbsExcess.dnGE_dns`, `GibbsExcess.d2GE_dTdns`, `GibbsExcess.d2nGE_dTdns`, `GibbsExcess.d2nGE_dninjs`, `GibbsExcess.gammas_infinite_dilution`, `GibbsExcess.gammas`, `GibbsExcess.lngammas`, `GibbsExcess.dlngammas_dT`, `GibbsExcess.dgammas_dns`, `GibbsExcess.dgammas_dT`

## `thermo/bulk.py`

`BulkSettings.__init__`, `Bulk.__init__`, `Bulk.beta`, `Bulk.betas_mass`, `Bulk.betas_volume`, `Bulk.betas_volume_liquid_ref`, `Bulk.beta_volume_liquid_ref`, `Bulk._property_mixing_rule`, `Bulk._mu_k_VL`, `Bulk.mu`, `Bulk.k`, `Bulk.sigma`, `Bulk.MW`, `Bulk.V`, `Bulk.Cp`, `Bulk.H`, `Bulk.S`, `Bulk.H_reactive`, `Bulk.S_reactive`, `Bulk.dP_dT_frozen`, `Bulk.dP_dV_frozen`, `Bulk.d2P_dT2_frozen`, `Bulk.d2P_dV2_frozen`, `Bulk.d2P_dTdV_frozen`, `Bulk._equilibrium_derivative`, `Bulk.dP_dT`, `Bulk.dP_dV`, `Bulk.d2P_dT2`, `Bulk.d2P_dV2`, `Bulk.d2P_dTdV`, `Bulk.speed_of_sound`, `Bulk.Tmc`, `Bulk.Pmc`, `Bulk.Vmc`, `Bulk.Zmc`, `Bulk.H_ideal_gas`, `Bulk.Cp_ideal_gas`, `Bulk.S_ideal_gas`, `Bulk.G_min_criteria`

## `thermo/chemical_package.py`

`ChemicalConstantsPackage.as_dict`, `ChemicalConstantsPackage.__eq__`, `ChemicalConstantsPackage.__add__`, `ChemicalConstantsPackage.with_new_constants`, `ChemicalConstantsPackage.subset`, `ChemicalConstantsPackage.compound_index`, `ChemicalConstantsPackage.CAS_to_index`, `ChemicalConstantsPackage.__init__`, `PropertyCorrelationsPackage.__add__`, `PropertyCorrelationsPackage.subset`, `PropertyCorrelationsPackage.__init__`

## `thermo/chemical_utils.py`

`standard_entropy`, `S0_basis_converter`, `element_HeatCapacityGas_cache`, `element_HeatCapacityLiquid_cache`, `element_HeatCapacitySolid_cache`, `standard_state_ideal_gas_formation`, `_standard_state_ideal_gas_formation_direct`

## `thermo/electrochem.py`

`ionic_strength`, `ion_balance_adjust_wrapper`, `ion_balance_adjust_one`, `ion_balance_dominant`, `ion_balance_proportional`, `balance_ions`

## `thermo/eos.py`

`main_derivatives_and_departures`, `main_derivatives_and_departures_VDW`, `eos_lnphi`, `eos_G_dep`, `GCEOS.Jaubert_r1`, `GCEOS.Jaubert_r2`, `GCEOS.solve`, `GCEOS.resolve_full_alphas`, `GCEOS.solve_missing_volumes`, `GCEOS.set_from_PT`, `GCEOS.set_properties_from_solution`, `GCEOS.derivatives_and_departures`, `GCEOS.a_alpha_for_V`, `GCEOS.more_stable_phase`, `GCEOS.discriminant`, `GCEOS.fugacity_l`, `GCEOS.fugacity_g`, `GCEOS.phi_l`, `GCEOS.phi_g`, `GCEOS.Cp_minus_Cv_l`, `GCEOS.Cp_minus_Cv_g`, `GCEOS.beta_l`, `GCEOS.beta_g`, `GCEOS.kappa_l`, `GCEOS.kappa_g`, `GCEOS.V_dep_l`, `GCEOS.V_dep_g`, `GCEOS.U_dep_l`, `GCEOS.U_dep_g`, `GCEOS.A_dep_l`, `GCEOS.A_dep_g`, `GCEOS.d2T_dPdV_l`, `GCEOS.d2T_dPdV_g`, `GCEOS.d2V_dPdT_l`, `GCEOS.d2V_dPdT_g`, `GCEOS.d2T_dP2_l`, `GCEOS.d2T_dP2_g`, `GCEOS.d2V_dP2_l`, `GCEOS.d2V_dP2_g`, `GCEOS.d2T_dV2_l`, `GCEOS.d2T_dV2_g`, `GCEOS.d2V_dT2_l`, `GCEOS.d2V_dT2_g`, `GCEOS.Vc`, `GCEOS.rho_l`, `GCEOS.rho_g`, `GCEOS.dZ_dT_l`, `GCEOS.dZ_dT_g`, `GCEOS.dZ_dP_l`, `GCEOS.dZ_dP_g`, `GCEOS.d2P_dVdT_l`, `GCEOS.d2P_dVdT_g`, `GCEOS.dP_drho_l`, `GCEOS.dP_drho_g`, `GCEOS.drho_dP_l`, `GCEOS.drho_dP_g`, `GCEOS.d2P_drho2_l`, `GCEOS.d2P_drho2_g`, `GCEOS.d2rho_dP2_l`, `GCEOS.d2rho_dP2_g`, `GCEOS.dT_drho_l`, `GCEOS.dT_drho_g`, `GCEOS.d2T_drho2_l`, `GCEOS.d2T_drho2_g`, `GCEOS.drho_dT_l`, `GCEOS.drho_dT_g`, `GCEOS.d2rho_dT2_l`, `GCEOS.d2rho_dT2_g`, `GCEOS.d2P_dTdrho_l`, `GCEOS.d2P_dTdrho_g`, `GCEOS.d2T_dPdrho_l`, `GCEOS.d2T_dPdrho_g`, `GCEOS.d2rho_dPdT_l`, `GCEOS.d2rho_dPdT_g`, `GCEOS.dH_dep_dT_l`, `GCEOS.dH_dep_dT_g`, `GCEOS.dH_dep_dT_l_V`, `GCEOS.dH_dep_dT_g_V`, `GCEOS.dH_dep_dP_l`, `GCEOS.dH_dep_dP_g`, `GCEOS.dH_dep_dP_l_V`, `GCEOS.dH_dep_dP_g_V`, `GCEOS.dH_dep_dV_g_T`, `GCEOS.dH_dep_dV_l_T`, `GCEOS.dH_dep_dV_g_P`, `GCEOS.dH_dep_dV_l_P`, `GCEOS.dS_dep_dT_l`, `GCEOS.dS_dep_dT_g`, `GCEOS.dS_dep_dT_l_V`, `GCEOS.dS_dep_dT_g_V`, `GCEOS.dS_dep_dP_l`, `GCEOS.dS_dep_dP_g`, `GCEOS.dS_dep_dP_g_V`, `GCEOS.dS_dep_dP_l_V`, `GCEOS.dS_dep_dV_g_T`, `GCEOS.dS_dep_dV_l_T`, `GCEOS.dS_dep_dV_g_P`, `GCEOS.dS_dep_dV_l_P`, `GCEOS.d2H_dep_dT2_g`, `GCEOS.d2H_dep_dT2_l`, `GCEOS.d2S_dep_dT2_g`, `GCEOS.d2S_dep_dT2_l`, `GCEOS.d2H_dep_dT2_g_V`, `GCEOS.d2H_dep_dT2_l_V`, `GCEOS.d2S_dep_dT2_g_V`, `GCEOS.d2S_dep_dT2_l_V`, `GCEOS.d2H_dep_dTdP_g`, `GCEOS.d2H_dep_dTdP_l`, `GCEOS.d2S_dep_dTdP_g`, `GCEOS.d2S_dep_dTdP_l`, `GCEOS.dfugacity_dT_l`, `GCEOS.dfugacity_dT_g`, `GCEOS.dfugacity_dP_l`, `GCEOS.dfugacity_dP_g`, `GCEOS.dphi_dT_l`, `GCEOS.dphi_dT_g`, `GCEOS.dphi_dP_l`, `GCEOS.dphi_dP_g`, `GCEOS.dbeta_dT_g`, `GCEOS.dbeta_dT_l`, `GCEOS.dbeta_dP_g`, `GCEOS.dbeta_dP_l`, `GCEOS.da_alpha_dP_g_V`, `GCEOS.da_alpha_dP_l_V`, `GCEOS.d2a_alpha_dTdP_g_V`, `GCEOS.d2a_alpha_dTdP_l_V`, `GCEOS.d2P_dVdP_g`, `GCEOS.d2P_dVdP_l`, `GCEOS.d2P_dVdT_TP_g`, `GCEOS.d2P_dVdT_TP_l`, `GCEOS.d2P_dT2_PV_g`, `GCEOS.d2P_dT2_PV_l`, `GCEOS.d2P_dTdP_g`, `GCEOS.d2P_dTdP_l`, `GCEOS.lnphi_l`, `GCEOS.lnphi_g`, `IG.a_alpha_and_derivatives_pure`, `IG.a_alpha_pure`, `IG.solve_T`, `IG.phi_sat`, `PR.__init__`, `PR.a_alpha_pure`, `PR.a_alpha_and_derivatives_pure`, `PR.d3a_alpha_dT3_pure`, `PR.P_max_at_V`, `PR.solve_T`, `PRTranslated.__init__`, `PRSV.solve_T`, `PRSV.a_alpha_and_derivatives_pure`, `PRSV.a_alpha_pure`, `PRSV2.solve_T`, `PRSV2.a_alpha_and_derivatives_pure`, `PRSV2.a_alpha_pure`, `VDW.__init__`, `VDW.a_alpha_and_derivatives_pure`, `VDW.a_alpha_pure`, `VDW.solve_T`, `RK.__init__`, `RK.a_alpha_and_derivatives_pure`, `RK.a_alpha_pure`, `SRK.__init__`, `SRK.a_alpha_and_derivatives_pure`, `SRK.a_alpha_pure`, `SRK.P_max_at_V`, `SRK.solve_T`, `SRKTranslated.__init__`, `MSRKTranslated.__init__`, `SRKTranslatedPPJP.__init__`, `APISRK.a_alpha_and_derivatives_pure`, `APISRK.a_alpha_pure`, `APISRK.solve_T`

## `thermo/eos_alpha_functions.py`

`PR_a_alphas_vectorized`, `PR_a_alpha_and_derivatives_vectorized`, `SRK_a_alphas_vectorized`, `SRK_a_alpha_and_derivatives_vectorized`, `RK_a_alphas_vectorized`, `RK_a_alpha_and_derivatives_vectorized`, `PRSV_a_alphas_vectorized`, `PRSV_a_alpha_and_derivatives_vectorized`, `PRSV2_a_alphas_vectorized`, `PRSV2_a_alpha_and_derivatives_vectorized`, `APISRK_a_alphas_vectorized`, `APISRK_a_alpha_and_derivatives_vectorized`, `TWU_a_alpha_common`, `Twu91_alpha_pure`, `Soave_1979_alpha_pure`, `Soave_1972_alpha_pure`, `Heyen_alpha_pure`, `Harmens_Knapp_alpha_pure`, `Mathias_1983_alpha_pure`, `Mathias_Copeman_untruncated_alpha_pure`, `Mathias_Copeman_original_alpha_pure`, `Gibbons_Laughton_alpha_pure`, `Soave_1984_alpha_pure`, `Yu_Lu_alpha_pure`, `Trebble_Bishnoi_alpha_pure`, `Melhem_alpha_pure`, `Androulakis_alpha_pure`, `Schwartzentruber_alpha_pure`, `Almeida_alpha_pure`, `Soave_1993_alpha_pure`, `Gasem_alpha_pure`, `Coquelet_alpha_pure`, `Haghtalab_alpha_pure`, `Saffari_alpha_pure`, `Chen_Yang_alpha_pure`, `Poly_a_alpha.a_alpha_and_derivatives_pure`, `Poly_a_alpha.a_alpha_pure`, `Soave_1972_a_alpha.a_alpha_and_derivatives_pure`, `Soave_1972_a_alpha.a_alpha_pure`, `Heyen_a_alpha.a_alpha_and_derivatives_pure`, `Heyen_a_alpha.a_alpha_pure`, `Harmens_Knapp_a_alpha.a_alpha_and_derivatives_pure`, `Harmens_Knapp_a_alpha.a_alpha_pure`, `Mathias_1983_a_alpha.a_alpha_and_derivatives_pure`, `Mathias_1983_a_alpha.a_alpha_pure`, `Mathias_Copeman_untruncated_a_alpha.a_alpha_and_derivatives_pure`, `Mathias_Copeman_untruncated_a_alpha.a_alpha_pure`, `Mathias_Copeman_a_alpha.a_alpha_and_derivatives_pure`, `Mathias_Copeman_a_alpha.a_alpha_pure`, `Mathias_Copeman_poly_a_alpha.a_alphas_vectorized`, `Mathias_Copeman_poly_a_alpha.a_alpha_and_derivatives_vectorized`, `Mathias_Copeman_poly_a_alpha.a_alpha_pure`, `Mathias_Copeman_poly_a_alpha.a_alpha_and_derivatives_pure`, `Gibbons_Laughton_a_alpha.a_alpha_and_derivatives_pure`, `Gibbons_Laughton_a_alpha.a_alpha_pure`, `Soave_1984_a_alpha.a_alpha_and_derivatives_pure`, `Soave_1984_a_alpha.a_alpha_pure`, `Yu_Lu_a_alpha.a_alpha_and_derivatives_pure`, `Yu_Lu_a_alpha.a_alpha_pure`, `Trebble_Bishnoi_a_alpha.a_alpha_and_derivatives_pure`, `Trebble_Bishnoi_a_alpha.a_alpha_pure`, `Melhem_a_alpha.a_alpha_and_derivatives_pure`, `Melhem_a_alpha.a_alpha_pure`, `Androulakis_a_alpha.a_alpha_and_derivatives_pure`, `Androulakis_a_alpha.a_alpha_pure`, `Schwartzentruber_a_alpha.a_alpha_and_derivatives_pure`, `Schwartzentruber_a_alpha.a_alpha_pure`, `Almeida_a_alpha.a_alpha_and_derivatives_pure`, `Almeida_a_alpha.a_alpha_pure`, `Twu91_a_alpha.a_alpha_and_derivatives_pure`, `Twu91_a_alpha.a_alpha_pure`, `Twu91_a_alpha.a_alphas_vectorized`, `Twu91_a_alpha.a_alpha_and_derivatives_vectorized`, `Soave_1993_a_alpha.a_alpha_and_derivatives_pure`, `Soave_1993_a_alpha.a_alpha_pure`, `Gasem_a_alpha.a_alpha_and_derivatives_pure`, `Gasem_a_alpha.a_alpha_pure`, `Coquelet_a_alpha.a_alpha_and_derivatives_pure`, `Coquelet_a_alpha.a_alpha_pure`, `Haghtalab_a_alpha.a_alpha_and_derivatives_pure`, `Haghtalab_a_alpha.a_alpha_pure`, `Saffari_a_alpha.a_alpha_and_derivatives_pure`, `Saffari_a_alpha.a_alpha_pure`, `Chen_Yang_a_alpha.a_alpha_and_derivatives_pure`, `Chen_Yang_a_alpha.a_alpha_pure`, `Soave_1979_a_alpha.a_alpha_and_derivatives_pure`, `Soave_1979_a_alpha.a_alpha_pure`, `Soave_1979_a_alpha.a_alphas_vectorized`, `Soave_1979_a_alpha.a_alpha_and_derivatives_vectorized`

## `thermo/eos_mix.py`

`GCEOSMIX._a_alpha_j_rows`, `GCEOSMIX._da_alpha_dT_j_rows`, `GCEOSMIX._d2a_alpha_dT2_j_rows`, `GCEOSMIX.db_dzs`, `GCEOSMIX.db_dns`, `GCEOSMIX.dnb_dns`, `GCEOSMIX.d2b_dzizjs`, `GCEOSMIX.d2b_dninjs`, `GCEOSMIX.d3b_dninjnks`, `GCEOSMIX.da_alpha_dzs`, `GCEOSMIX.da_alpha_dns`, `GCEOSMIX.dna_alpha_dns`, `GCEOSMIX.d2a_alpha_dzizjs`, `GCEOSMIX.d2a_alpha_dninjs`, `GCEOSMIX.d3a_alpha_dninjnks`, `GCEOSMIX.da_alpha_dT_dzs`, `GCEOSMIX.da_alpha_dT_dns`, `GCEOSMIX.dna_alpha_dT_dns`, `GCEOSMIX.d2a_alpha_dT2_dzs`, `GCEOSMIX.d2a_alpha_dT2_dns`, `GCEOSMIX.dV_dzs`, `GCEOSMIX.dV_dns`, `GCEOSMIX.dnV_dns`, `GCEOSMIX._d2V_dij_wrapper`, `GCEOSMIX.d2V_dzizjs`, `GCEOSMIX.dZ_dzs`, `GCEOSMIX.dZ_dns`, `GCEOSMIX.dnZ_dns`, `GCEOSMIX.dH_dep_dzs`, `GCEOSMIX.dS_dep_dzs`, `GCEOSMIX.dS_dep_dns`, `GCEOSMIX.dP_dns_Vt`, `GCEOSMIX.d2P_dninjs_Vt`, `GCEOSMIX.d3P_dninjnks_Vt`, `GCEOSMIX.dH_dep_dns`, `GCEOSMIX.dnH_dep_dns`, `GCEOSMIX.dlnphi_dzs`, `GCEOSMIX.dlnphi_dns`, `GCEOSMIX.dG_dep_dzs`, `GCEOSMIX.dG_dep_dns`, `GCEOSMIX.dnG_dep_dns`, `GCEOSMIX.fugacity_coefficients`, `GCEOSMIX._d2_G_dep_lnphi_d2_helper`, `GCEOSMIX.d2lnphi_dzizjs`, `GCEOSMIX.dlnfugacities_dns`, `GCEOSMIX.dfugacities_dns`, `GCEOSMIX._d2_A_dep_d2_helper`, `GCEOSMIX.dA_dep_dns_Vt`, `GCEOSMIX.d2A_dep_dninjs_Vt`, `GCEOSMIX.dScomp_dns`, `GCEOSMIX.d2Scomp_dninjs`, `GCEOSMIX._d_main_derivatives_and_departures_dnx`, `GCEOSMIX._dnz_derivatives_and_departures`, `GCEOSMIX.set_dnzs_derivatives_and_departures`, `GCEOSMIX.dlnphis_dP`, `GCEOSMIX.dlnphis_dT`, `GCEOSMIX.dlnphis_dzs`, `EpsilonZeroMixingRules.depsilon_dzs`, `EpsilonZeroMixingRules.depsilon_dns`, `EpsilonZeroMixingRules.d2epsilon_dzizjs`, `EpsilonZeroMixingRules.d2epsilon_dninjs`, `EpsilonZeroMixingRules.d3epsilon_dninjnks`, `RKMIX.__init__`, `RKMIX._fast_init_specific`, `RKMIX.ddelta_dzs`, `RKMIX.ddelta_dns`, `RKMIX.d2delta_dzizjs`, `RKMIX.d2delta_dninjs`, `RKMIX.d3delta_dninjnks`, `PRMIX.__init__`, `PRMIX._fast_init_specific`, `PRMIX.dlnphis_dT`, `PRMIX.dlnphis_dP`, `PRMIX.ddelta_dzs`, `PRMIX.ddelta_dns`, `PRMIX.d2delta_dzizjs`, `PRMIX.d2delta_dninjs`, `PRMIX.d3delta_dninjnks`, `PRMIX.depsilon_dzs`, `PRMIX.depsilon_dns`, `PRMIX.d2epsilon_dzizjs`, `PRMIX.d2epsilon_dninjs`, `PRMIX.d3epsilon_dninjnks`, `PRMIXTranslated.__init__`, `PRMIXTranslated._fast_init_specific`, `PRMIXTranslated.ddelta_dzs`, `PRMIXTranslated.ddelta_dns`, `PRMIXTranslated.d2delta_dninjs`, `PRMIXTranslated.d3delta_dninjnks`, `PRMIXTranslated.depsilon_dzs`, `PRMIXTranslated.depsilon_dns`, `PRMIXTranslated.d2epsilon_dzizjs`, `PRMIXTranslated.d2epsilon_dninjs`, `PRMIXTranslated.d3epsilon_dninjnks`, `PRMIXTranslatedConsistent.__init__`, `PRMIXTranslatedConsistent._fast_init_specific`, `SRKMIX.__init__`, `SRKMIX._fast_init_specific`, `SRKMIX.dlnphis_dT`, `SRKMIX.dlnphis_dP`, `SRKMIXTranslated.__init__`, `SRKMIXTranslated._fast_init_specific`, `SRKMIXTranslated.ddelta_dzs`, `SRKMIXTranslated.ddelta_dns`, `SRKMIXTranslated.d2delta_dninjs`, `SRKMIXTranslated.d3delta_dninjnks`, `SRKMIXTranslated.depsilon_dzs`, `SRKMIXTranslated.depsilon_dns`, `SRKMIXTranslated.d2epsilon_dzizjs`, `SRKMIXTranslated.d2epsilon_dninjs`, `SRKMIXTranslated.d3epsilon_dninjnks`, `SRKMIXTranslatedConsistent.__init__`, `SRKMIXTranslatedConsistent._fast_init_specific`, `VDWMIX.dlnphis_dT`, `VDWMIX.dlnphis_dP`, `VDWMIX.ddelta_dzs`, `VDWMIX.ddelta_dns`, `VDWMIX.d2delta_dzizjs`, `VDWMIX.d2delta_dninjs`, `VDWMIX.d3delta_dninjnks`, `PRSVMIX.__init__`, `PRSVMIX._fast_init_specific`, `PRSV2MIX.__init__`, `PRSV2MIX._fast_init_specific`, `TWUPRMIX.__init__`, `TWUPRMIX._fast_init_specific`, `TWUSRKMIX.__init__`, `TWUSRKMIX._fast_init_specific`, `APISRKMIX.__init__`

## `thermo/eos_mix_methods.py`

`a_alpha_aijs_composition_independent`, `a_alpha_and_derivatives`, `a_alpha_and_derivatives_full`, `a_alpha_quadratic_terms`, `a_alpha_and_derivatives_quadratic_terms`, `eos_mix_dV_dzs`, `G_dep_lnphi_d_helper`, `eos_mix_a_alpha_volume`, `eos_mix_db_dns`, `eos_mix_da_alpha_dns`, `RK_d3delta_dninjnks`, `PR_ddelta_dzs`, `PR_ddelta_dns`, `PR_depsilon_dns`, `PR_d2delta_dninjs`, `PR_d3delta_dninjnks`, `PR_d2epsilon_dzizjs`, `PR_depsilon_dzs`, `PR_d2epsilon_dninjs`, `PR_d3epsilon_dninjnks`, `PR_translated_ddelta_dzs`, `PR_translated_d2epsilon_dzizjs`, `PR_translated_d2epsilon_dninjs`, `PR_translated_ddelta_dns`, `SRK_translated_ddelta_dns`, `SRK_translated_depsilon_dns`, `SRK_translated_depsilon_dzs`, `SRK_translated_d2epsilon_dzizjs`, `SRK_translated_d2delta_dninjs`, `SRK_translated_d3delta_dninjnks`, `SRK_translated_d2epsilon_dninjs`, `SRK_translated_d3epsilon_dninjnks`, `PR_translated_depsilon_dzs`, `PR_translated_depsilon_dns`, `PR_translated_d2delta_dninjs`, `PR_translated_d3delta_dninjnks`, `PR_translated_d3epsilon_dninjnks`, `PR_lnphis`, `SRK_lnphis`, `VDW_lnphis`, `eos_mix_lnphis_general`, `PR_lnphis_fastest`, `SRK_lnphis_fastest`, `VDW_lnphis_fastest`, `RK_lnphis_fastest`, `PR_translated_lnphis_fastest`, `SRK_translated_lnphis_fastest`

## `thermo/eos_volume.py`

`volume_solutions_NR`, `volume_solutions_NR_low_P`, `volume_solution_polish`, `volume_solutions_halley`, `volume_solutions_fast`, `volume_solutions_Cardano`, `volume_solutions_a1`, `volume_solutions_a2`, `volume_solutions_numpy`, `volume_solutions_doubledouble_float`, `high_alpha_one_root`

## `thermo/equilibrium.py`

`EquilibriumState.__init__`, `EquilibriumState.phase`, `EquilibriumState.VF`, `EquilibriumState.LF`, `EquilibriumState.quality`, `EquilibriumState.betas_states`, `EquilibriumState.betas_mass_states`, `EquilibriumState.betas_volume_states`, `EquilibriumState.betas_mass`, `EquilibriumState.betas_volume`, `EquilibriumState.betas_volume_liquid_ref`, `EquilibriumState.betas_liquids`, `EquilibriumState.betas_mass_liquids`, `EquilibriumState.betas_volume_liquids`, `EquilibriumState.V_liquid_ref`, `EquilibriumState.atom_content`, `EquilibriumState.atom_fractions`, `EquilibriumState.ws`, `EquilibriumState.Vfls`, `EquilibriumState.MW`, `EquilibriumState.H_mass`, `EquilibriumState.S_mass`, `EquilibriumState.U_mass`, `EquilibriumState.A_mass`, `EquilibriumState.G_mass`, `EquilibriumState.Cp_mass`, `EquilibriumState.Cv_mass`, `EquilibriumState.Cp_ideal_gas`, `EquilibriumState.H_dep`, `EquilibriumState.S_dep`, `EquilibriumState.H_ideal_gas`, `EquilibriumState.S_ideal_gas`, `EquilibriumState.H_C_ratio`, `EquilibriumState.water_phase_index`, `EquilibriumState.humidity_ratio`, `EquilibriumState.zs_no_water`, `EquilibriumState.Ks`

## `thermo/flash/flash_base.py`

`Flash.from_json`, `Flash.flash`, `Flash.flash_phase_boundary`, `Flash.flash_mixing_phase_boundary`

## `thermo/flash/flash_pure_vls.py`

`FlashPureVLS._finish_initialization`, `FlashPureVLS.flash_TPV`, `FlashPureVLS.flash_TVF`, `FlashPureVLS.flash_PVF`, `FlashPureVLS.flash_TPV_HSGUA_VL_bound_first`, `FlashPureVLS.flash_TPV_HSGUA`

## `thermo/flash/flash_utils.py`

`sequential_substitution_2P`, `sequential_substitution_2P_functional`, `sequential_substitution_NP`, `sequential_substitution_Mehra_2P`, `sequential_substitution_GDEM3_2P`, `dew_bubble_Michelsen_Mollerup`, `bubble_T_Michelsen_Mollerup`, `dew_T_Michelsen_Mollerup`, `bubble_P_Michelsen_Mollerup`, `dew_P_Michelsen_Mollerup`, `TPV_solve_HSGUA_1P`, `solve_PTV_HSGUA_1P`, `TPV_solve_HSGUA_guesses_1P`, `PH_secant_1P`, `PH_newton_1P`, `TVF_pure_newton`, `TVF_pure_secant`, `PVF_pure_newton`, `TSF_pure_newton`, `PSF_pure_newton`, `solve_T_VF_IG_K_composition_independent`, `solve_P_VF_IG_K_composition_independent`, `stability_iteration_Michelsen`, `deduplicate_stab_results`, `flash_mixing_minimum_factor`, `flash_mixing_remove_overlap`, `generate_phase_boundaries_naive`, `generate_hydrocarbon_phase_check`, `generate_pure_phase_boolean_check`, `one_sided_dew_point_err`, `one_sided_bubble_point_err`, `one_sided_sat_point_err`, `VLN_bubble_boolean_check`, `VL_dew_boolean_check`, `incipient_phase_status`, `generate_incipient_phase_boundaries_naive`, `incipient_phase_one_sided_secant`, `incipient_phase_bounded_secant`, `incipient_liquid_bounded_PT_sat`

## `thermo/flash/flash_vl.py`

`FlashVL.phases_at_TP_binary`, `FlashVL.flash_TVF`, `FlashVL.flash_TVF_2P`, `FlashVL.flash_PVF`, `FlashVL.flash_PVF_2P`, `FlashVL.stability_test_Michelsen`, `FlashVL.flash_TP_stability_test`, `FlashVL.sequential_substitution_2P`, `FlashVL.flash_2P`, `FlashVL.flash_TPV`

## `thermo/flash/flash_vln.py`

`FlashVLN.flash_TVF`, `FlashVLN.flash_PVF`, `FlashVLN.phases_at`, `FlashVLN.flash_TPV_hot`, `FlashVLN.flash_TP_K_composition_idependent`, `FlashVLN.flash_TPV`

## `thermo/group_contribution/fedors.py`

`Fedors`

## `thermo/group_contribution/group_contribution_base.py`

`priority_from_atoms`, `BaseGroupContribution.__init__`, `group_assignment_to_str`, `str_group_assignment_to_dict`, `smarts_fragment_priority`, `run_match`, `smarts_fragment`

## `thermo/group_contribution/joback.py`

`JobackGroupContribution.__init__`, `JobackGroupContribution.__repr__`, `Joback.__init__`, `Joback.estimate`, `Joback.Tb`, `Joback.Tm`, `Joback.Tc`, `Joback.Pc`, `Joback.Vc`, `Joback.Hf`, `Joback.Gf`, `Joback.Hfus`, `Joback.Hvap`, `Joback.Cpig_coeffs`, `Joback.mul_coeffs`, `Joback.Cpig`, `Joback.mul`, `DikyJoback.__init__`, `DikyJoback.get_coefficients`, `DikyJoback.Cpig`

## `thermo/group_contribution/ppr78.py`

`PPR78_kij`, `PPR78_kijs`

## `thermo/group_contribution/wilson_jasperson.py`

`Wilson_Jasperson`

## `thermo/interaction_parameters.py`

`InteractionParameterDB.__init__`, `InteractionParameterDB.load_json`, `InteractionParameterDB.validate_table`, `InteractionParameterDB.has_ip_specific`, `InteractionParameterDB.get_ip_specific`, `InteractionParameterDB.get_tables_with_type`, `InteractionParameterDB.get_ip_automatic`, `InteractionParameterDB.get_ip_symmetric_matrix`, `InteractionParameterDB.get_ip_asymmetric_matrix`, `ScalarParameterDB.get_parameter_specific`, `ScalarParameterDB.has_parameter_specific`, `ScalarParameterDB.get_tables_with_type`, `ScalarParameterDB.get_parameter_automatic`, `ScalarParameterDB.get_parameter_vector`

## `thermo/nrtl.py`

`nrtl_gammas_from_args`, `nrtl_gammas`, `nrtl_taus`, `nrtl_dtaus_dT`, `nrtl_d2taus_dT2`, `nrtl_d3taus_dT3`, `nrtl_alphas`, `nrtl_Gs`, `nrtl_dGs_dT`, `nrtl_d2Gs_dT2`, `nrtl_d3Gs_dT3`, `nrtl_xj_Gs_jis_and_Gs_taus_jis`, `nrtl_xj_Gs_jis`, `nrtl_xj_Gs_taus_jis`, `nrtl_GE`, `nrtl_dGE_dT`, `nrtl_d2GE_dT2`, `nrtl_dGE_dxs`, `nrtl_d2GE_dxixjs`, `nrtl_d2GE_dTdxs`, `NRTL.gammas_args`, `NRTL.__init__`, `NRTL.gammas`, `NRTL.taus`, `NRTL.dtaus_dT`, `NRTL.d2taus_dT2`, `NRTL.d3taus_dT3`, `NRTL.alphas`, `NRTL.dalphas_dT`, `NRTL.Gs`, `NRTL.dGs_dT`, `NRTL.d2Gs_dT2`, `NRTL.d3Gs_dT3`, `NRTL.Gs_transposed`, `NRTL.Gs_taus_transposed`, `NRTL.Gs_taus`, `NRTL.xj_Gs_jis`, `NRTL.xj_Gs_jis_inv`, `NRTL.xj_Gs_taus_jis`, `NRTL.xj_dGs_dT_jis`, `NRTL.xj_taus_dGs_dT_jis`, `NRTL.xj_Gs_dtaus_dT_jis`, `NRTL.GE`, `NRTL.dGE_dT`, `NRTL.d2GE_dT2`, `NRTL.dGE_dxs`, `NRTL.d2GE_dxixjs`, `NRTL.d2GE_dTdxs`, `NRTL_gammas_binaries`, `NRTL_gammas_binaries_jac`, `NRTL_gammas`

## `thermo/phase_identification.py`

`score_phases_S`, `score_phases_VL`, `identity_phase_states`, `key_cmp_sort`, `mini_sort_phases`, `sort_phases`, `identify_sort_phases`

## `thermo/phases/ceos.py`

`CEOSPhase.__init__`, `CEOSPhase.to_TP_zs`, `CEOSPhase.to`, `CEOSPhase.lnphis_G_min`, `CEOSPhase.lnphis_args`, `CEOSPhase.lnphis_at_zs`, `CEOSPhase.fugacities_at_zs`, `CEOSPhase.lnphis_lowest_Gibbs`, `CEOSGas.phase`, `CEOSGas.PIP`, `CEOSGas.lnphis`, `CEOSGas.dlnphis_dT`, `CEOSGas.dlnphis_dP`, `CEOSGas.dlnphis_dns`, `CEOSGas.dlnphis_dzs`, `CEOSGas.H_dep`, `CEOSGas.S_dep`, `CEOSGas.G_dep`, `CEOSGas.Cp_dep`, `CEOSGas.dS_dep_dT`, `CEOSGas.dS_dep_dP_V`, `CEOSGas.dS_dep_dP_T`, `CEOSGas.dS_dep_dT_V`, `CEOSGas.dH_dep_dP_V`, `CEOSGas.dH_dep_dP_T`, `CEOSGas.dH_dep_dV_T`, `CEOSGas.dH_dep_dV_P`, `CEOSGas.V`, `CEOSGas.dP_dT`, `CEOSGas.dP_dV`, `CEOSGas.d2P_dT2`, `CEOSGas.d2P_dV2`, `CEOSGas.d2P_dTdV`, `CEOSGas.d2T_dV2`, `CEOSGas.d2V_dT2`, `CEOSGas.dV_dzs`, `CEOSGas.dV_dns`, `CEOSGas.dnV_dns`, `CEOSGas.d2H_dep_dT2`, `CEOSGas.d2H_dep_dT2_V`, `CEOSGas.d2H_dTdP`, `CEOSGas.dH_dep_dT_V`, `CEOSGas.dH_dep_dzs`, `CEOSGas.d2P_dTdP`, `CEOSGas.d2P_dVdP`, `CEOSGas.d2P_dVdT_TP`, `CEOSGas.d2P_dT2_PV`, `CEOSGas.dS_dep_dzs`, `CEOSLiquid.phase`, `CEOSLiquid.PIP`, `CEOSLiquid.lnphis`, `CEOSLiquid.dlnphis_dT`, `CEOSLiquid.dlnphis_dP`, `CEOSLiquid.dlnphis_dns`, `CEOSLiquid.dlnphis_dzs`, `CEOSLiquid.H_dep`, `CEOSLiquid.S_dep`, `CEOSLiquid.G_dep`, `CEOSLiquid.Cp_dep`, `CEOSLiquid.dS_dep_dT`, `CEOSLiquid.dS_dep_dP_V`, `CEOSLiquid.dS_dep_dP_T`, `CEOSLiquid.dS_dep_dT_V`, `CEOSLiquid.dH_dep_dP_V`, `CEOSLiquid.dH_dep_dP_T`, `CEOSLiquid.dH_dep_dV_T`, `CEOSLiquid.dH_dep_dV_P`, `CEOSLiquid.V`, `CEOSLiquid.dP_dT`, `CEOSLiquid.dP_dV`, `CEOSLiquid.d2P_dT2`, `CEOSLiquid.d2P_dV2`, `CEOSLiquid.d2P_dTdV`, `CEOSLiquid.d2T_dV2`, `CEOSLiquid.d2V_dT2`, `CEOSLiquid.dV_dzs`, `CEOSLiquid.dV_dns`, `CEOSLiquid.dnV_dns`, `CEOSLiquid.d2H_dep_dT2`, `CEOSLiquid.d2H_dep_dT2_V`, `CEOSLiquid.d2H_dTdP`, `CEOSLiquid.dH_dep_dT_V`, `CEOSLiquid.dH_dep_dzs`, `CEOSLiquid.d2P_dTdP`, `CEOSLiquid.d2P_dVdP`, `CEOSLiquid.d2P_dVdT_TP`, `CEOSLiquid.d2P_dT2_PV`, `CEOSLiquid.dS_dep_dzs`

## `thermo/phases/gibbs_eos.py`

`GibbsEOS.V`, `GibbsEOS.dP_dV`, `GibbsEOS.d2V_dP2`, `GibbsEOS.dV_dT`, `GibbsEOS.dT_dV`, `GibbsEOS.d2V_dT2`, `GibbsEOS.d2V_dTdP`, `GibbsEOS.dP_dT`, `GibbsEOS.dT_dP`, `GibbsEOS.H`, `GibbsEOS.S`, `GibbsEOS.Cp`, `GibbsEOS.U`, `GibbsEOS.A`, `GibbsEOS.dS_dT`, `GibbsEOS.d2S_dT2`, `GibbsEOS.dS_dP`, `GibbsEOS.d2S_dP2`, `GibbsEOS.d2S_dTdP`

## `thermo/phases/gibbs_excess.py`

`GibbsExcessLiquid.__init__`, `GibbsExcessLiquid.to_TP_zs`, `GibbsExcessLiquid.to`, `GibbsExcessLiquid.lnPsats`, `GibbsExcessLiquid.dPsats_dT_over_Psats`, `GibbsExcessLiquid.d2Psats_dT2_over_Psats`, `GibbsExcessLiquid.Poyntings`, `GibbsExcessLiquid.dPoyntings_dT`, `GibbsExcessLiquid.d2Poyntings_dT2`, `GibbsExcessLiquid.dPoyntings_dP`, `GibbsExcessLiquid.d2Poyntings_dPdT`, `GibbsExcessLiquid.phis_sat`, `GibbsExcessLiquid.dphis_sat_dT`, `GibbsExcessLiquid.d2phis_sat_dT2`, `GibbsExcessLiquid.phis`, `GibbsExcessLiquid.dphis_dT`, `GibbsExcessLiquid.dlnphis_dT`, `GibbsExcessLiquid.dlnphis_dP`, `GibbsExcessLiquid.H`, `GibbsExcessLiquid.S`, `GibbsExcessLiquid.Cp`, `GibbsExcessLiquid.dS_dT`, `GibbsExcessLiquid.dH_dP`, `GibbsExcessLiquid.dS_dP`, `GibbsExcessLiquid.H_dep`, `GibbsExcessLiquid.V`, `GibbsExcessLiquid.dV_dT`, `GibbsExcessLiquid.d2V_dT2`, `GibbsExcessLiquid.Tait_Vs`, `GibbsExcessLiquid.dH_dP_integrals_Tait`

## `thermo/phases/helmholtz_eos.py`

`HelmholtzEOS.A`, `HelmholtzEOS.dA_ddelta`, `HelmholtzEOS.d2A_ddelta2`, `HelmholtzEOS.d3A_ddelta3`, `HelmholtzEOS.dA_dtau`, `HelmholtzEOS.d2A_dtau2`, `HelmholtzEOS.d2A_ddeltadtau`, `HelmholtzEOS.d3A_ddelta2dtau`, `HelmholtzEOS.d3A_ddeltadtau2`, `HelmholtzEOS.lnphis`, `HelmholtzEOS.dlnphis_dV_T`, `HelmholtzEOS.dlnphis_dT_V`, `HelmholtzEOS.dlnphis_dT_P`, `HelmholtzEOS.dlnphis_dP_V`, `HelmholtzEOS.dlnphis_dV_P`, `HelmholtzEOS.dlnphis_dP_T`, `HelmholtzEOS.S`, `HelmholtzEOS.S_dep`, `HelmholtzEOS.dS_dT_V`, `HelmholtzEOS.dS_dV_T`, `HelmholtzEOS.dS_dP_T`, `HelmholtzEOS.dS_dT_P`, `HelmholtzEOS.dS_dP_V`, `HelmholtzEOS.H`, `HelmholtzEOS.H_dep`, `HelmholtzEOS.dH_dT_V`, `HelmholtzEOS.dH_dV_T`, `HelmholtzEOS.dH_dP_V`, `HelmholtzEOS.dH_dP_T`, `HelmholtzEOS.dH_dV_P`, `HelmholtzEOS.Cv`, `HelmholtzEOS.Cp`, `HelmholtzEOS.dP_dT`, `HelmholtzEOS.dP_dV`, `HelmholtzEOS.d2P_dT2`, `HelmholtzEOS.d2P_dV2`, `HelmholtzEOS.d2P_dTdV`, `HelmholtzEOS.B_virial`, `HelmholtzEOS.dB_virial_dT`, `HelmholtzEOS.d2B_virial_dT2`, `HelmholtzEOS.d3B_virial_dT3`, `HelmholtzEOS.C_virial`, `HelmholtzEOS.dC_virial_dT`, `HelmholtzEOS.d2C_virial_dT2`

## `thermo/phases/ideal_gas.py`

`IdealGas.d2P_dV2`, `IdealGas.d2P_dTdV`, `IdealGas.d2T_dV2`, `IdealGas.d2V_dT2`, `IdealGas.dV_dT`, `IdealGas.PIP`, `IdealGas.d2V_dP2`, `IdealGas.d2T_dP2`, `IdealGas.dV_dP`, `IdealGas.dT_dP`, `IdealGas.dT_dV`, `IdealGas.dV_dzs`, `IdealGas.H`, `IdealGas.S`, `IdealGas.Cp`, `IdealGas.d2H_dT2`, `IdealGas.dH_dP_V`, `IdealGas.dH_dV_P`, `IdealGas.dH_dzs`, `IdealGas.dS_dT`, `IdealGas.d2S_dP2`, `IdealGas.dS_dT_V`, `IdealGas.dS_dP_V`, `IdealGas.d2P_dTdP`, `IdealGas.d2P_dVdP`, `IdealGas.d2P_dVdT_TP`, `IdealGas.d2P_dT2_PV`, `IdealGas.H_dep`, `IdealGas.dS_dzs`

## `thermo/phases/phase.py`

`Phase.dP_dV`, `Phase.d2P_dT2`, `Phase.d2P_dV2`, `Phase.d2P_dTdV`, `Phase.lnphis`, `Phase.dlnphis_dT`, `Phase.dlnphis_dP`, `Phase.H`, `Phase.G`, `Phase.U`, `Phase.A`, `Phase.dA_dT_V`, `Phase.dA_dP_V`, `Phase.G_dep`, `Phase.V_dep`, `Phase.Cv`, `Phase.dCv_dT_P`, `Phase.dCv_dP_T`, `Phase.gammas_infinite_dilution`, `Phase.dV_dT`, `Phase.d2V_dP2`, `Phase.d2T_dP2`, `Phase.d2T_dV2`, `Phase.d2V_dT2`, `Phase.d2V_dPdT`, `Phase.d2T_dPdV`, `Phase.PIP`, `Phase.dkappa_dT`, `Phase.disobaric_expansion_dT`, `Phase.disobaric_expansion_dP`, `Phase.Joule_Thomson`, `Phase.speed_of_sound`, `Phase.speed_of_sound_ideal_gas_mass`, `Phase.speed_of_sound_ideal_gas`, `Phase.dZ_dT`, `Phase.dZ_dP`, `Phase.dZ_dV`, `Phase.Bvirial`, `Phase.dP_drho`, `Phase.drho_dP`, `Phase.d2P_drho2`, `Phase.d2rho_dP2`, `Phase.dT_drho`, `Phase.d2T_drho2`, `Phase.drho_dT`, `Phase.d2rho_dT2`, `Phase.d2P_dTdrho`, `Phase.d2T_dPdrho`, `Phase.d2rho_dPdT`, `Phase.drho_dV_T`, `Phase.H_ideal_gas`, `Phase.S_ideal_gas`, `Phase.Cp_ideal_gas`, `Phase.Cv_ideal_gas`, `Phase.G_ideal_gas`, `Phase.U_ideal_gas`, `Phase.A_ideal_gas`, `Phase._derivs_jacobian`, `Phase.MW`, `Phase.MW_inv`, `Phase.rho_mass`, `Phase.drho_mass_dT`, `Phase.drho_mass_dP`, `Phase.dspeed_of_sound_dT_P`, `Phase.dspeed_of_sound_dP_T`, `Phase.dG_dep_dT`, `IdealGasDeparturePhase.H`, `IdealGasDeparturePhase.S`, `IdealGasDeparturePhase.Cp`, `IdealGasDeparturePhase.dH_dP`, `IdealGasDeparturePhase.dH_dT_V`, `IdealGasDeparturePhase.dH_dP_V`, `IdealGasDeparturePhase.dH_dV_T`, `IdealGasDeparturePhase.dH_dV_P`, `IdealGasDeparturePhase.d2H_dT2`, `IdealGasDeparturePhase.d2H_dT2_V`, `IdealGasDeparturePhase.dH_dzs`, `IdealGasDeparturePhase.dS_dT`, `IdealGasDeparturePhase.dS_dP`, `IdealGasDeparturePhase.dS_dT_P`, `IdealGasDeparturePhase.dS_dT_V`, `IdealGasDeparturePhase.dS_dP_V`, `IdealGasDeparturePhase.d2S_dP2`, `IdealGasDeparturePhase.dS_dzs`

## `thermo/phases/phase_utils.py`

`activity_lnphis`, `lnphis_direct`, `fugacities_direct`

## `thermo/phases/virial_phase.py`

`VirialCSP.__eq__`, `VirialCSP.__init__`, `VirialCSP.to`, `VirialCSP.B_interactions_at_T`, `VirialCSP._set_B_and_der_interactions`, `VirialCSP.B_pures_at_T`, `VirialCSP._set_B_and_der_pure`, `VirialCSP.B_pures`, `VirialCSP.dB_dT_pures`, `VirialCSP.d2B_dT2_pures`, `VirialCSP.d3B_dT3_pures`, `VirialCSP.B_interactions`, `VirialCSP.dB_dT_interactions`, `VirialCSP.d2B_dT2_interactions`, `VirialCSP.d3B_dT3_interactions`, `VirialCSP.C_interactions_at_T`, `VirialCSP.C_pures_at_T`, `VirialCSP._set_C_and_der_pure`, `VirialCSP._set_C_and_der_interactions`, `VirialCSP.C_pures`, `VirialCSP.dC_dT_pures`, `VirialCSP.d2C_dT2_pures`, `VirialCSP.d3C_dT3_pures`, `VirialCSP.C_interactions`, `VirialCSP.dC_dT_interactions`, `VirialCSP.d2C_dT2_interactions`, `VirialCSP.d3C_dT3_interactions`, `VirialGas.__init__`, `VirialGas.dG_dep_dzs`, `VirialGas.dG_dep_dns`, `VirialGas.dnG_dep_dns`, `VirialGas.lnphi`, `VirialGas.lnphis`, `VirialGas.dP_dT`, `VirialGas.dP_dV`, `VirialGas.d2P_dTdV`, `VirialGas.d2P_dV2`, `VirialGas.d2P_dT2`, `VirialGas.H_dep`, `VirialGas.dH_dep_dT`, `VirialGas.dH_dep_dP_V`, `VirialGas.dS_dep_dP_V`, `VirialGas.dH_dep_dP_T`, `VirialGas.dS_dep_dP_T`, `VirialGas.dH_dep_dV_T`, `VirialGas.dS_dep_dV_T`, `VirialGas.dH_dep_dV_P`, `VirialGas.dS_dep_dV_P`, `VirialGas.S_dep`, `VirialGas.dS_dep_dT`, `VirialGas.to_TP_zs`, `VirialGas.to`, `VirialGas.B`, `VirialGas.dB_dzs`, `VirialGas.d2B_dTdzs`, `VirialGas.d3B_dT2dzs`, `VirialGas.d4B_dT3dzs`, `VirialGas.dB_dns`, `VirialGas.dnB_dns`, `VirialGas.dC_dzs`, `VirialGas.dB_dP_V`, `VirialGas.dC_dP_V`, `VirialGas.d2B_dTdP_V`, `VirialGas.d2C_dTdP_V`, `VirialGas.d3B_dT2dP_V`, `VirialGas.d3C_dT2dP_V`, `VirialGas.dB_dV_P`, `VirialGas.dC_dV_P`, `VirialGas.d2B_dTdV_P`, `VirialGas.d2C_dTdV_P`, `VirialGas.d3B_dT2dV_P`, `VirialGas.d3C_dT2dV_P`

## `thermo/property_package.py`

`StabilityTester.__init__`, `StabilityTester.random_guesses`, `StabilityTester.pure_guesses`, `StabilityTester.Wilson_guesses`, `StabilityTester.incipient_guess_name`, `StabilityTester.incipient_guess_named`, `StabilityTester.incipient_guesses`, `StabilityTester.guess_generator`, `StabilityTester.guesses`

## `thermo/redlich_kister.py`

`redlich_kister_reverse_2d`, `redlich_kister_reverse`, `redlich_kister_excess_inner`, `redlich_kister_build_structure`, `redlich_kister_T_dependence`, `redlich_kister_excess_inner_binary`, `redlich_kister_excess_binary`, `redlich_kister_fitting_to_use`

## `thermo/regular_solution.py`

`regular_solution_His`, `regular_solution_Hi_sums`, `regular_solution_Hi_sums_fast`, `regular_solution_Aijs`, `regular_solution_GE`, `regular_solution_GE_from_Aijs`, `regular_solution_dGE_dxs`, `regular_solution_gammas`, `regular_solution_d2GE_dxixjs`, `regular_solution_d3GE_dxixjxks`, `flory_huggins_GE`, `flory_huggins_dGE_dT`, `flory_huggins_d2GE_dTdxs`, `flory_huggins_dGE_dxs`, `flory_huggins_d2GE_dxixjs`, `flory_huggins_d3GE_dxixjxks`, `RegularSolution.__init__`, `RegularSolution.GE`, `RegularSolution.dGE_dxs`, `RegularSolution.Hi_sums`, `RegularSolution.d2GE_dxixjs`, `RegularSolution.d3GE_dxixjxks`, `regular_solution_gammas_binaries`, `regular_solution_gammas_binaries_jac`, `FloryHuggins.GE`, `FloryHuggins.dGE_dT`, `FloryHuggins.d2GE_dTdxs`, `FloryHuggins.dGE_dxs`, `FloryHuggins.d2GE_dxixjs`, `FloryHuggins.d3GE_dxixjxks`, `hansen_Aijs_His`, `hansen_Aijs`, `hansen_His`, `Hansen.__init__`

## `thermo/serialize.py`

`arrays_to_lists`, `naive_lists_to_arrays`, `JsonOptEncodable.as_json`, `JsonOptEncodable.from_json`

## `thermo/stream.py`

`StreamArgs.__init__`, `StreamArgs.copy`, `StreamArgs.energy`, `StreamArgs.energy_reactive`, `StreamArgs.T`, `StreamArgs.P`, `StreamArgs.V`, `StreamArgs.rho`, `StreamArgs.rho_mass`, `StreamArgs.VF`, `StreamArgs.H`, `StreamArgs.H_calc`, `StreamArgs.H_reactive`, `StreamArgs.H_reactive_calc`, `StreamArgs.H_mass`, `StreamArgs.U`, `StreamArgs.U_mass`, `StreamArgs.G`, `StreamArgs.G_mass`, `StreamArgs.A`, `StreamArgs.A_mass`, `StreamArgs.S`, `StreamArgs.S_mass`, `StreamArgs.zs`, `StreamArgs.zs_calc`, `StreamArgs.ws`, `StreamArgs.ws_calc`, `StreamArgs.Vfls`, `StreamArgs.Vfls_calc`, `StreamArgs.Vfgs`, `StreamArgs.ns`, `StreamArgs.ns_calc`, `StreamArgs.ms`, `StreamArgs.ms_calc`, `StreamArgs.Qls`, `StreamArgs.Qls_calc`, `StreamArgs.Qgs`, `StreamArgs.Qgs_calc`, `StreamArgs.m`, `StreamArgs.m_calc`, `StreamArgs.n`, `StreamArgs.n_calc`, `StreamArgs.Ql`, `StreamArgs.Ql_calc`, `StreamArgs.Qg`, `StreamArgs.Qg_calc`, `StreamArgs.Q`, `StreamArgs.energy_calc`, `StreamArgs.energy_reactive_calc`, `StreamArgs.reconcile_flows`, `StreamArgs.clear_composition_spec`, `StreamArgs.composition_spec`, `StreamArgs.clean`, `StreamArgs.composition_specified`, `StreamArgs.clear_state_specs`, `StreamArgs.state_specs`, `StreamArgs.specified_state_vars`, `StreamArgs.state_specified`, `StreamArgs.non_pressure_spec_specified`, `StreamArgs.clear_flow_spec`, `StreamArgs.flow_spec`, `StreamArgs.specified_flow_vars`, `StreamArgs.flow_specified`, `StreamArgs.update`, `StreamArgs.flash_state`, `EquilibriumStream.__init__`, `EnergyStream.copy`, `EnergyStream.energy`, `mole_balance`, `energy_balance`

## `thermo/unifac.py`

`unifac_psis`, `unifac_dpsis_dT`, `unifac_d2psis_dT2`, `unifac_d3psis_dT3`, `unifac_Vis`, `unifac_dVis_dxs`, `unifac_d2Vis_dxixjs`, `unifac_d3Vis_dxixjxks`, `unifac_Xs`, `unifac_Thetas`, `unifac_dThetas_dxs`, `unifac_d2Thetas_dxixjs`, `unifac_VSXS`, `unifac_Theta_Psi_sums`, `unifac_ws`, `unifac_Theta_pure_Psi_sums`, `unifac_lnGammas_subgroups`, `unifac_dlnGammas_subgroups_dxs`, `unifac_d2lnGammas_subgroups_dTdxs`, `unifac_d2lnGammas_subgroups_dxixjs`, `unifac_dlnGammas_subgroups_dT`, `unifac_d2lnGammas_subgroups_dT2`, `unifac_d3lnGammas_subgroups_dT3`, `unifac_Xs_pure`, `unifac_Thetas_pure`, `unifac_lnGammas_subgroups_pure`, `unifac_dlnGammas_subgroups_pure_dT`, `unifac_d2lnGammas_subgroups_pure_dT2`, `unifac_d3lnGammas_subgroups_pure_dT3`, `unifac_lngammas_r`, `unifac_dlngammas_r_dxs`, `unifac_d2lngammas_r_dxixjs`, `unifac_GE`, `unifac_GE_skip_comb`, `unifac_dGE_dxs`, `unifac_dGE_dxs_skip_comb`, `unifac_d2GE_dTdxs`, `unifac_d2GE_dTdxs_skip_comb`, `unifac_d2GE_dxixjs`, `unifac_d2GE_dxixjs_skip_comb`, `unifac_dGE_dT`, `unifac_d2GE_dT2`, `unifac_d3GE_dT3`, `unifac_gammas`, `unifac_gammas_from_args`, `unifac_dgammas_dxs`, `unifac_dgammas_dxs_skip_comb`, `unifac_dgammas_dns`, `unifac_lngammas_c`, `unifac_dlngammas_c_dxs`, `unifac_d2lngammas_c_dxixjs`, `unifac_d3lngammas_c_dxixjxks`, `UNIFAC.__init__`, `UNIFAC.psis`, `UNIFAC.dpsis_dT`, `UNIFAC.d2psis_dT2`, `UNIFAC.d3psis_dT3`, `UNIFAC.Vis`, `UNIFAC.dVis_dxs`, `UNIFAC.d2Vis_dxixjs`, `UNIFAC.d3Vis_dxixjxks`, `UNIFAC.Fis`, `UNIFAC.dFis_dxs`, `UNIFAC.d2Fis_dxixjs`, `UNIFAC.d3Fis_dxixjxks`, `UNIFAC.Vis_modified`, `UNIFAC.dVis_modified_dxs`, `UNIFAC.d2Vis_modified_dxixjs`, `UNIFAC.d3Vis_modified_dxixjxks`, `UNIFAC.Xs`, `UNIFAC.Thetas`, `UNIFAC.dThetas_dxs`, `UNIFAC.d2Thetas_dxixjs`, `UNIFAC.VSXS`, `UNIFAC.Theta_Psi_sums`, `UNIFAC.Theta_Psi_sum_invs`, `UNIFAC.Ws`, `UNIFAC.Fs`, `UNIFAC.Gs`, `UNIFAC.Hs`, `UNIFAC.Theta_pure_Psi_sums`, `UNIFAC.Theta_pure_Psi_sum_invs`, `UNIFAC.Fs_pure`, `UNIFAC.Gs_pure`, `UNIFAC.Hs_pure`, `UNIFAC.lnGammas_subgroups`, `UNIFAC.dlnGammas_subgroups_dxs`, `UNIFAC.d2lnGammas_subgroups_dTdxs`, `UNIFAC.d2lnGammas_subgroups_dxixjs`, `UNIFAC.dlnGammas_subgroups_dT`, `UNIFAC.d2lnGammas_subgroups_dT2`, `UNIFAC.d3lnGammas_subgroups_dT3`, `UNIFAC.Xs_pure`, `UNIFAC.Thetas_pure`, `UNIFAC.lnGammas_subgroups_pure`, `UNIFAC.dlnGammas_subgroups_pure_dT`, `UNIFAC.d2lnGammas_subgroups_pure_dT2`, `UNIFAC.d3lnGammas_subgroups_pure_dT3`, `UNIFAC.lngammas_r`, `UNIFAC.dlngammas_r_dT`, `UNIFAC.d2lngammas_r_dT2`, `UNIFAC.d3lngammas_r_dT3`, `UNIFAC.dlngammas_r_dxs`, `UNIFAC.d2lngammas_r_dTdxs`, `UNIFAC.d2lngammas_r_dxixjs`, `UNIFAC.GE`, `UNIFAC.dGE_dxs`, `UNIFAC.d2GE_dTdxs`, `UNIFAC.d2GE_dxixjs`, `UNIFAC.dGE_dT`, `UNIFAC.d2GE_dT2`, `UNIFAC.d3GE_dT3`, `UNIFAC.gammas`, `UNIFAC.dgammas_dT`, `UNIFAC.dgammas_dns`, `UNIFAC.dgammas_dxs`, `UNIFAC.lngammas_c`, `UNIFAC.dlngammas_c_dxs`, `UNIFAC.d2lngammas_c_dxixjs`, `UNIFAC.d3lngammas_c_dxixjxks`

## `thermo/uniquac.py`

`uniquac_phis`, `uniquac_dphis_dxs`, `uniquac_thetaj_taus_jis`, `uniquac_thetaj_taus_ijs`, `uniquac_d2phis_dxixjs`, `uniquac_GE`, `uniquac_dGE_dT`, `uniquac_d2GE_dT2`, `uniquac_d3GE_dT3`, `uniquac_dGE_dxs`, `uniquac_d2GE_dTdxs`, `uniquac_d2GE_dxixjs`, `uniquac_gammas_from_args`, `UNIQUAC.taus`, `UNIQUAC.dtaus_dT`, `UNIQUAC.d2taus_dT2`, `UNIQUAC.d3taus_dT3`, `UNIQUAC.phis`, `UNIQUAC.phis_inv`, `UNIQUAC.dphis_dxs`, `UNIQUAC.d2phis_dxixjs`, `UNIQUAC.thetas`, `UNIQUAC.dthetas_dxs`, `UNIQUAC.d2thetas_dxixjs`, `UNIQUAC.thetaj_taus_jis`, `UNIQUAC.thetaj_taus_jis_inv`, `UNIQUAC.thetaj_taus_ijs`, `UNIQUAC.thetaj_dtaus_dT_jis`, `UNIQUAC.thetaj_d2taus_dT2_jis`, `UNIQUAC.thetaj_d3taus_dT3_jis`, `UNIQUAC.GE`, `UNIQUAC.dGE_dT`, `UNIQUAC.d2GE_dT2`, `UNIQUAC.d3GE_dT3`, `UNIQUAC.dGE_dxs`, `UNIQUAC.d2GE_dTdxs`, `UNIQUAC.d2GE_dxixjs`, `UNIQUAC_gammas_binaries`, `UNIQUAC_gammas_binary`, `UNIQUAC_gammas`

## `thermo/utils/functional.py`

`d2ns_to_dn2_partials`

## `thermo/utils/mixture_property.py`

`MixtureProperty.__init__`, `MixtureProperty.add_excess_correlation`, `MixtureProperty.calculate`, `MixtureProperty.calculate_pures_corrected`, `MixtureProperty.calculate_pures`, `MixtureProperty.calculate_pures_P`, `MixtureProperty.test_method_validity`, `MixtureProperty.method`, `MixtureProperty.correct_pressure_pure`, `MixtureProperty._complete_zs_ws`, `MixtureProperty.__call__`, `MixtureProperty.mixture_property`, `MixtureProperty.calculate_excess_property`, `MixtureProperty.excess_property`, `MixtureProperty.partial_property`

## `thermo/utils/t_dependent_property.py`

`generate_fitting_function`, `TDependentProperty.__call__`, `TDependentProperty.method`, `TDependentProperty.test_property_validity`, `TDependentProperty._custom_set_poly_fit`, `TDependentProperty._set_poly_fit`, `TDependentProperty.as_poly_fit`, `TDependentProperty._base_calculate`, `TDependentProperty._base_calculate_P`, `TDependentProperty.T_dependent_property`, `TDependentProperty.extrapolate_transform`, `TDependentProperty.interpolate`, `TDependentProperty._optimize_added_correlation`, `TDependentProperty.add_piecewise_method`, `TDependentProperty.add_correlation`, `TDependentProperty.add_method`, `TDependentProperty.add_tabular_data`, `TDependentProperty.calculate_derivative`, `TDependentProperty.T_dependent_property_derivative`, `TDependentProperty.calculate_integral`, `TDependentProperty.T_dependent_property_integral`, `TDependentProperty.calculate_integral_over_T`, `TDependentProperty.T_dependent_property_integral_over_T`, `TDependentProperty._get_extrapolation_coeffs`, `TDependentProperty.extrapolation`, `TDependentProperty.extrapolate`, `TDependentProperty.extrapolate_derivative`, `TDependentProperty.extrapolate_integral`, `TDependentProperty.extrapolate_integral_over_T`

## `thermo/utils/tp_dependent_property.py`

`TPDependentProperty.__call__`, `TPDependentProperty.TP_or_T_dependent_property`, `TPDependentProperty.test_method_validity_P`, `TPDependentProperty.interpolate_P`

## `thermo/viscosity.py`

`ViscosityLiquid.calculate_P`

## `thermo/wilson.py`

`wilson_xj_Lambda_ijs`, `wilson_dGE_dT`, `wilson_d2GE_dT2`, `wilson_d3GE_dT3`, `wilson_d2GE_dTdxs`, `wilson_dGE_dxs`, `wilson_d2GE_dxixjs`, `wilson_d3GE_dxixjxks`, `wilson_gammas`, `wilson_gammas_from_args`, `wilson_gammas_binaries`, `wilson_gammas_binaries_jac`, `Wilson.lambdas`, `Wilson.dlambdas_dT`, `Wilson.d2lambdas_dT2`, `Wilson.d3lambdas_dT3`, `Wilson.xj_Lambda_ijs`, `Wilson.xj_Lambda_ijs_inv`, `Wilson.log_xj_Lambda_ijs`, `Wilson.xj_dLambda_dTijs`, `Wilson.xj_d2Lambda_dT2ijs`, `Wilson.xj_d3Lambda_dT3ijs`, `Wilson.GE`, `Wilson.dGE_dT`, `Wilson.d2GE_dT2`, `Wilson.d3GE_dT3`, `Wilson.d2GE_dTdxs`, `Wilson.dGE_dxs`, `Wilson.d2GE_dxixjs`, `Wilson.d3GE_dxixjxks`, `Wilson.gammas`
