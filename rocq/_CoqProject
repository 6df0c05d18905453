-Q theories Verif
theories/ActFacts.v
theories/Base.v
theories/BaseFacts.v
theories/BulkFacts.v
theories/EosCurve.v
theories/EosDep.v
theories/EosFacts.v
theories/FitFacts.v
theories/Gen_activity.v
theories/Gen_alpha.v
theories/Gen_ceos.v
theories/Gen_d2comp.v
theories/Gen_dlnphi.v
theories/Gen_eos.v
theories/Gen_eosclass.v
theories/Gen_eoscrit.v
theories/Gen_eosmix.v
theories/Gen_eosvt.v
theories/Gen_gex.v
theories/Gen_helmholtz.v
theories/Gen_joback.v
theories/Gen_lnphi.v
theories/Gen_mix.v
theories/Gen_nrtl.v
theories/Gen_package.v
theories/Gen_phase.v
theories/Gen_regular.v
theories/Gen_unifac.v
theories/Gen_uniquac.v
theories/Gen_virial.v
theories/Gen_wilson.v
theories/GexFacts.v
theories/GradFacts.v
theories/LnphiFacts.v
theories/LoadFacts.v
theories/MixDeriv.v
theories/MixFacts.v
theories/MixParams.v
theories/Model_accss.v
theories/Model_balance.v
theories/Model_boundary.v
theories/Model_bulk.v
theories/Model_ceos.v
theories/Model_dewbubble.v
theories/Model_direct.v
theories/Model_energy.v
theories/Model_fit.v
theories/Model_flash.v
theories/Model_flashTP.v
theories/Model_flow.v
theories/Model_formation.v
theories/Model_fragment.v
theories/Model_gex.v
theories/Model_groups.v
theories/Model_hsgua.v
theories/Model_incipient.v
theories/Model_ions.v
theories/Model_ipdb.v
theories/Model_kflash.v
theories/Model_mixdep.v
theories/Model_mixprop.v
theories/Model_package.v
theories/Model_phase.v
theories/Model_phaseid.v
theories/Model_pure.v
theories/Model_pyerr.v
theories/Model_rk.v
theories/Model_roots.v
theories/Model_satpure.v
theories/Model_serialize.v
theories/Model_ss.v
theories/Model_stability.v
theories/Model_stabtester.v
theories/Model_stream.v
theories/Model_tdep.v
theories/Model_tdepobj.v
theories/Model_tpdep.v
theories/Model_vfig.v
theories/Model_virial.v
theories/Model_vln.v
theories/Model_volume.v
theories/MolDep.v
theories/MolDeriv.v
theories/MolLoc.v
theories/MolMix.v
theories/MolPR.v
theories/NrtlFacts.v
theories/Numerics.v
theories/PhaseFacts.v
theories/Prop_C01.v
theories/Prop_C02.v
theories/Prop_C03.v
theories/Prop_C04.v
theories/Prop_C05.v
theories/Prop_C06.v
theories/Prop_C06b.v
theories/Prop_C06c.v
theories/Prop_C06d.v
theories/Prop_C07.v
theories/Prop_C08.v
theories/Prop_C09.v
theories/Prop_C10.v
theories/Prop_C11.v
theories/Prop_C12.v
theories/Prop_C13.v
theories/Prop_C14.v
theories/Prop_C15.v
theories/Prop_C16.v
theories/Prop_C17.v
theories/Prop_C18.v
theories/Prop_C19.v
theories/Prop_C20.v
theories/Prop_C21.v
theories/Prop_C22.v
theories/Prop_C23.v
theories/Prop_C24.v
theories/Prop_C24m.v
theories/Prop_C25.v
theories/Prop_C26.v
theories/Prop_C27.v
theories/Prop_C28.v
theories/Prop_C29.v
theories/Prop_C30.v
theories/Prop_C31.v
theories/Prop_C32.v
theories/Prop_C33.v
theories/Prop_C34.v
theories/Prop_C35.v
theories/Prop_C36.v
theories/Prop_C37.v
theories/Prop_C38.v
theories/Prop_C39.v
theories/Prop_C40.v
theories/Prop_C41.v
theories/Prop_C42.v
theories/Prop_C43.v
theories/Prop_C44.v
theories/Prop_C45.v
theories/Prop_C46.v
theories/Prop_C47.v
theories/Prop_C48.v
theories/Prop_C49.v
theories/Prop_C50.v
theories/Prop_C51.v
theories/Prop_C52.v
theories/Prop_C52_NP.v
theories/Prop_C53.v
theories/Prop_C53_test.v
theories/Prop_C54.v
theories/Prop_C55.v
theories/Prop_C56.v
theories/Prop_C57.v
theories/Prop_C58.v
theories/Prop_C59.v
theories/Prop_C60.v
theories/Prop_C61.v
theories/Prop_C62.v
theories/Prop_C63.v
theories/Prop_C64.v
theories/Prop_C65.v
theories/Prop_C66.v
theories/Prop_C67.v
theories/Prop_C68.v
theories/Prop_C69.v
theories/Prop_C70.v
theories/Prop_C71.v
theories/Prop_C72.v
theories/Prop_C73.v
theories/Prop_C74.v
theories/Prop_C75.v
theories/Prop_C76.v
theories/Prop_C77.v
theories/RegFacts.v
theories/SerFacts.v
theories/Spec_accss.v
theories/Spec_activity.v
theories/Spec_bulk.v
theories/Spec_direct.v
theories/Spec_eos.v
theories/Spec_eosvt.v
theories/Spec_fit.v
theories/Spec_flash.v
theories/Spec_formation.v
theories/Spec_gex.v
theories/Spec_gradient.v
theories/Spec_groups.v
theories/Spec_helmholtz.v
theories/Spec_ions.v
theories/Spec_ipdb.v
theories/Spec_kflash.v
theories/Spec_mix.v
theories/Spec_mixdep.v
theories/Spec_package.v
theories/Spec_phase.v
theories/Spec_phaseid.v
theories/Spec_saturation.v
theories/Spec_serialize.v
theories/Spec_split.v
theories/Spec_tdep.v
theories/Spec_unifac.v
theories/Spec_virial.v
theories/SsFacts.v
theories/TdepFacts.v
theories/UnifacComb.v
theories/UnifacDeriv.v
theories/UnifacFacts.v
theories/UnifacForms.v
theories/UnifacModel.v
theories/UniquacFacts.v
theories/WilsonFacts.v
