(* Generated by tools/spec_package.py from thermo/chemical_package.py: names and constructor tables of the two packages. *)
From Coq Require Import List String.
Import ListNotations.
Local Open Scope string_scope.

(* thermo/chemical_package.py, lines 1027-1076: the keyword parameters of ChemicalConstantsPackage.__init__, which are also its attributes *)
Inductive prop : Set :=
  | CASs | names | MWs | Tms | Tbs | Tcs | Pcs | Vcs | omegas | Zcs | rhocs | rhocs_mass | Hfus_Tms | Hfus_Tms_mass | Hvap_Tbs | Hvap_Tbs_mass | Vml_STPs
  | rhol_STPs | rhol_STPs_mass | Vml_60Fs | rhol_60Fs | rhol_60Fs_mass | Vmg_STPs | rhog_STPs | rhog_STPs_mass | Hfgs | Hfgs_mass | Gfgs | Gfgs_mass | Sfgs
  | Sfgs_mass | S0gs | S0gs_mass | Hf_STPs | Hf_STPs_mass | Tts | Pts | Hsub_Tts | Hsub_Tts_mass | Hcs | Hcs_mass | Hcs_lower | Hcs_lower_mass | Tflashs
  | Tautoignitions | LFLs | UFLs | TWAs | STELs | Ceilings | Skins | Carcinogens | legal_statuses | economic_statuses | GWPs | ODPs | logPs | Psat_298s | Hvap_298s
  | Hvap_298s_mass | Vml_Tms | rhos_Tms | Vms_Tms | rhos_Tms_mass | sigma_STPs | sigma_Tbs | sigma_Tms | RIs | RI_Ts | conductivities | conductivity_Ts | charges
  | dipoles | Stockmayers | molecular_diameters | Van_der_Waals_volumes | Van_der_Waals_areas | Parachors | StielPolars | atomss | atom_fractions | similarity_variables
  | phase_STPs | solubility_parameters | PubChems | formulas | smiless | InChIs | InChI_Keys | aliases | UNIFAC_groups | UNIFAC_Dortmund_groups | PSRK_groups
  | UNIFAC_Rs | UNIFAC_Qs | CASis | functional_groups.
(* lines 509-531: non_vector_properties *)
Definition non_vector_properties : list prop :=
  [atomss; Carcinogens; CASs; CASis; Ceilings; charges; conductivities; dipoles; economic_statuses; formulas; Gfgs; Gfgs_mass; GWPs; Hcs; Hcs_lower; Hcs_lower_mass; 
   Hcs_mass; Hfgs; Hfgs_mass; Hfus_Tms; Hfus_Tms_mass; Hsub_Tts; Hsub_Tts_mass; Hvap_298s; Hvap_298s_mass; Hvap_Tbs; Hvap_Tbs_mass; InChI_Keys; InChIs; legal_statuses; 
   LFLs; logPs; molecular_diameters; MWs; names; aliases; ODPs; omegas; Parachors; Pcs; phase_STPs; Psat_298s; PSRK_groups; Pts; PubChems; rhocs; rhocs_mass; 
   rhol_STPs; rhol_STPs_mass; RIs; S0gs; S0gs_mass; Sfgs; Sfgs_mass; similarity_variables; Skins; smiless; STELs; StielPolars; Stockmayers; Tautoignitions; 
   Tbs; Tcs; Tflashs; Tms; Tts; TWAs; UFLs; UNIFAC_Dortmund_groups; UNIFAC_groups; Van_der_Waals_areas; Van_der_Waals_volumes; Vcs; Vml_STPs; Vml_Tms; Zcs; 
   UNIFAC_Rs; UNIFAC_Qs; rhos_Tms; Vms_Tms; rhos_Tms_mass; solubility_parameters; Vml_60Fs; rhol_60Fs; rhol_60Fs_mass; conductivity_Ts; RI_Ts; Vmg_STPs; rhog_STPs; 
   rhog_STPs_mass; sigma_STPs; sigma_Tms; sigma_Tbs; Hf_STPs; Hf_STPs_mass; functional_groups].
(* line 533: properties *)
Definition properties : list prop := atom_fractions :: non_vector_properties.
(* lines 1082-1176: the parameters that 'if X is None: X = empty_list' fills in *)
Definition defaulted : list prop :=
  [atom_fractions; atomss; Carcinogens; CASs; CASis; aliases; Ceilings; charges; conductivities; dipoles; economic_statuses; formulas; Gfgs; Gfgs_mass; GWPs; 
   Hcs; Hcs_lower; Hcs_lower_mass; Hcs_mass; Hfgs; Hfgs_mass; Hfus_Tms; Hfus_Tms_mass; Hsub_Tts; Hsub_Tts_mass; Hvap_298s; Hvap_298s_mass; Hvap_Tbs; Hvap_Tbs_mass; 
   InChI_Keys; InChIs; legal_statuses; LFLs; logPs; molecular_diameters; names; ODPs; omegas; Parachors; Pcs; phase_STPs; Psat_298s; PSRK_groups; Pts; PubChems; 
   rhocs; rhocs_mass; rhol_STPs; rhol_STPs_mass; RIs; S0gs; S0gs_mass; Sfgs; Sfgs_mass; similarity_variables; Skins; smiless; STELs; StielPolars; Stockmayers; 
   solubility_parameters; Tautoignitions; Tbs; Tcs; Tflashs; Tms; Tts; TWAs; UFLs; UNIFAC_Dortmund_groups; UNIFAC_groups; UNIFAC_Rs; UNIFAC_Qs; Van_der_Waals_areas; 
   Van_der_Waals_volumes; Vcs; Vml_STPs; Vml_Tms; rhos_Tms; Vms_Tms; Zcs; Vml_60Fs; rhol_60Fs; rhol_60Fs_mass; RI_Ts; conductivity_Ts; rhos_Tms_mass; Vmg_STPs; 
   rhog_STPs; rhog_STPs_mass; sigma_STPs; sigma_Tbs; sigma_Tms; Hf_STPs; Hf_STPs_mass; functional_groups].
(* lines 1177-1266: self.X = Y, as a table from attribute X to parameter Y *)
Definition assigned (x : prop) : prop :=
  match x with
  | CASs => CASs | names => names | MWs => MWs | Tms => Tms | Tbs => Tbs | Tcs => Tcs | Pcs => Pcs | Vcs => Vcs | omegas => omegas | Zcs => Zcs | rhocs => rhocs
  | rhocs_mass => rhocs_mass | Hfus_Tms => Hfus_Tms | Hfus_Tms_mass => Hfus_Tms_mass | Hvap_Tbs => Hvap_Tbs | Hvap_Tbs_mass => Hvap_Tbs_mass | Vml_STPs => Vml_STPs
  | rhol_STPs => rhol_STPs | rhol_STPs_mass => rhol_STPs_mass | Vml_60Fs => Vml_60Fs | rhol_60Fs => rhol_60Fs | rhol_60Fs_mass => rhol_60Fs_mass | Vmg_STPs => Vmg_STPs
  | rhog_STPs => rhog_STPs | rhog_STPs_mass => rhog_STPs_mass | Hfgs => Hfgs | Hfgs_mass => Hfgs_mass | Gfgs => Gfgs | Gfgs_mass => Gfgs_mass | Sfgs => Sfgs
  | Sfgs_mass => Sfgs_mass | S0gs => S0gs | S0gs_mass => S0gs_mass | Hf_STPs => Hf_STPs | Hf_STPs_mass => Hf_STPs_mass | Tts => Tts | Pts => Pts | Hsub_Tts => Hsub_Tts
  | Hsub_Tts_mass => Hsub_Tts_mass | Hcs => Hcs | Hcs_mass => Hcs_mass | Hcs_lower => Hcs_lower | Hcs_lower_mass => Hcs_lower_mass | Tflashs => Tflashs
  | Tautoignitions => Tautoignitions | LFLs => LFLs | UFLs => UFLs | TWAs => TWAs | STELs => STELs | Ceilings => Ceilings | Skins => Skins | Carcinogens => Carcinogens
  | legal_statuses => legal_statuses | economic_statuses => economic_statuses | GWPs => GWPs | ODPs => ODPs | logPs => logPs | Psat_298s => Psat_298s | Hvap_298s => Hvap_298s
  | Hvap_298s_mass => Hvap_298s_mass | Vml_Tms => Vml_Tms | rhos_Tms => rhos_Tms | Vms_Tms => Vms_Tms | rhos_Tms_mass => rhos_Tms_mass | sigma_STPs => sigma_STPs
  | sigma_Tbs => sigma_Tbs | sigma_Tms => sigma_Tms | RIs => RIs | RI_Ts => RI_Ts | conductivities => conductivities | conductivity_Ts => conductivity_Ts
  | charges => charges | dipoles => dipoles | Stockmayers => Stockmayers | molecular_diameters => molecular_diameters | Van_der_Waals_volumes => Van_der_Waals_volumes
  | Van_der_Waals_areas => Van_der_Waals_areas | Parachors => Parachors | StielPolars => StielPolars | atomss => atomss | atom_fractions => atom_fractions
  | similarity_variables => similarity_variables | phase_STPs => phase_STPs | solubility_parameters => solubility_parameters | PubChems => PubChems | formulas => formulas
  | smiless => smiless | InChIs => InChIs | InChI_Keys => InChI_Keys | aliases => aliases | UNIFAC_groups => UNIFAC_groups | UNIFAC_Dortmund_groups => UNIFAC_Dortmund_groups
  | PSRK_groups => PSRK_groups | UNIFAC_Rs => UNIFAC_Rs | UNIFAC_Qs => UNIFAC_Qs | CASis => CASis | functional_groups => functional_groups
  end.

Inductive corr : Set :=
  | VaporPressures | VolumeLiquids | VolumeGases | VolumeSolids | HeatCapacityGases | HeatCapacitySolids | HeatCapacityLiquids | EnthalpyVaporizations | EnthalpySublimations
  | SublimationPressures | PermittivityLiquids | ViscosityLiquids | ViscosityGases | ThermalConductivityLiquids | ThermalConductivityGases | ThermalConductivitySolids
  | SurfaceTensions.
Inductive mixture : Set :=
  | VolumeGasMixture | VolumeLiquidMixture | VolumeSolidMixture | HeatCapacityGasMixture | HeatCapacityLiquidMixture | HeatCapacitySolidMixture | ViscosityGasMixture
  | ViscosityLiquidMixture | ThermalConductivityGasMixture | ThermalConductivityLiquidMixture | SurfaceTensionMixture.
(* lines 1547-1554, lines 1555-1559: pure_correlations and mixture_correlations *)
Definition pure_correlations : list corr :=
  [VaporPressures; VolumeLiquids; VolumeGases; VolumeSolids; HeatCapacityGases; HeatCapacitySolids; HeatCapacityLiquids; EnthalpyVaporizations; EnthalpySublimations; 
   SublimationPressures; PermittivityLiquids; ViscosityLiquids; ViscosityGases; ThermalConductivityLiquids; ThermalConductivityGases; ThermalConductivitySolids; 
   SurfaceTensions].
Definition mixture_correlations : list mixture :=
  [VolumeGasMixture; VolumeLiquidMixture; VolumeSolidMixture; HeatCapacityGasMixture; HeatCapacityLiquidMixture; HeatCapacitySolidMixture; ViscosityGasMixture; 
   ViscosityLiquidMixture; ThermalConductivityGasMixture; ThermalConductivityLiquidMixture; SurfaceTensionMixture].

(* what a keyword argument of a property object is taken from: constants.X[i] (or the whole constants.X), correlation X[i] (or X), None,
   or the user database looked up with the CAS number of the component *)
Inductive source : Set := From_constants (p : prop) | From_correlation (c : corr) | From_nothing | From_user_database (cls : string).
(* lines 1715-1899: the objects PropertyCorrelationsPackage.__init__ builds for each component, in the order it builds them *)
Definition build_steps : list (corr * (string * list (string * source))) :=
  [
   (* lines 1734-1738 *) (VaporPressures, ("VaporPressure", [("Tb", From_constants Tbs); ("Tc", From_constants Tcs); ("Pc", From_constants Pcs); ("omega", From_constants omegas); ("CASRN", From_constants CASs); ("**", From_user_database "VaporPressure")]));
   (* lines 1740-1747 *) (VolumeLiquids, ("VolumeLiquid", [("MW", From_constants MWs); ("Tb", From_constants Tbs); ("Tc", From_constants Tcs); ("Pc", From_constants Pcs); ("Vc", From_constants Vcs); ("Zc", From_constants Zcs); 
   ("omega", From_constants omegas); ("dipole", From_constants dipoles); ("Psat", From_correlation VaporPressures); ("**", From_user_database "VolumeLiquid"); 
   ("eos", From_nothing); ("CASRN", From_constants CASs)]));
   (* lines 1749-1753 *) (VolumeGases, ("VolumeGas", [("MW", From_constants MWs); ("Tc", From_constants Tcs); ("Pc", From_constants Pcs); ("omega", From_constants omegas); ("dipole", From_constants dipoles); 
   ("eos", From_nothing); ("CASRN", From_constants CASs)]));
   (* lines 1755-1758 *) (VolumeSolids, ("VolumeSolid", [("CASRN", From_constants CASs); ("MW", From_constants MWs); ("Tt", From_constants Tts); ("Vml_Tt", From_constants Vml_Tms)]));
   (* lines 1760-1764 *) (HeatCapacityGases, ("HeatCapacityGas", [("CASRN", From_constants CASs); ("MW", From_constants MWs); ("similarity_variable", From_constants similarity_variables); ("**", From_user_database "HeatCapacityGas")]));
   (* lines 1766-1769 *) (HeatCapacitySolids, ("HeatCapacitySolid", [("MW", From_constants MWs); ("similarity_variable", From_constants similarity_variables); ("CASRN", From_constants CASs); ("**", From_user_database "HeatCapacitySolid")]));
   (* lines 1771-1776 *) (HeatCapacityLiquids, ("HeatCapacityLiquid", [("CASRN", From_constants CASs); ("MW", From_constants MWs); ("similarity_variable", From_constants similarity_variables); ("Tc", From_constants Tcs); ("omega", From_constants omegas); 
   ("Cpgm", From_correlation HeatCapacityGases); ("**", From_user_database "HeatCapacityLiquid")]));
   (* lines 1778-1783 *) (EnthalpyVaporizations, ("EnthalpyVaporization", [("CASRN", From_constants CASs); ("Tb", From_constants Tbs); ("Tc", From_constants Tcs); ("Pc", From_constants Pcs); ("omega", From_constants omegas); ("similarity_variable", From_constants similarity_variables); 
   ("**", From_user_database "EnthalpyVaporization")]));
   (* lines 1785-1789 *) (EnthalpySublimations, ("EnthalpySublimation", [("CASRN", From_constants CASs); ("Tm", From_constants Tms); ("Tt", From_constants Tts); ("Cpg", From_correlation HeatCapacityGases); ("Cps", From_correlation HeatCapacitySolids); 
   ("Hvap", From_correlation EnthalpyVaporizations)]));
   (* lines 1791-1794 *) (SublimationPressures, ("SublimationPressure", [("CASRN", From_constants CASs); ("Tt", From_constants Tts); ("Pt", From_constants Pts); ("Hsub_t", From_constants Hsub_Tts)]));
   (* lines 1796-1797 *) (PermittivityLiquids, ("PermittivityLiquid", [("CASRN", From_constants CASs)]));
   (* lines 1800-1805 *) (ViscosityLiquids, ("ViscosityLiquid", [("CASRN", From_constants CASs); ("MW", From_constants MWs); ("Tm", From_constants Tms); ("Tc", From_constants Tcs); ("Pc", From_constants Pcs); ("Vc", From_constants Vcs); 
   ("omega", From_constants omegas); ("Psat", From_correlation VaporPressures); ("Vml", From_correlation VolumeLiquids)]));
   (* lines 1808-1812 *) (ViscosityGases, ("ViscosityGas", [("CASRN", From_constants CASs); ("MW", From_constants MWs); ("Tc", From_constants Tcs); ("Pc", From_constants Pcs); ("Zc", From_constants Zcs); ("dipole", From_constants dipoles); 
   ("Vmg", From_correlation VolumeGases)]));
   (* lines 1813-1818 *) (ThermalConductivityLiquids, ("ThermalConductivityLiquid", [("CASRN", From_constants CASs); ("MW", From_constants MWs); ("Tm", From_constants Tms); ("Tb", From_constants Tbs); ("Tc", From_constants Tcs); ("Pc", From_constants Pcs); 
   ("omega", From_constants omegas); ("Hfus", From_constants Hfus_Tms)]));
   (* lines 1819-1820 *) (ThermalConductivitySolids, ("ThermalConductivitySolid", [("CASRN", From_constants CASs)]));
   (* lines 1822-1828 *) (ThermalConductivityGases, ("ThermalConductivityGas", [("CASRN", From_constants CASs); ("MW", From_constants MWs); ("Tb", From_constants Tbs); ("Tc", From_constants Tcs); ("Pc", From_constants Pcs); ("Vc", From_constants Vcs); 
   ("Zc", From_constants Zcs); ("omega", From_constants omegas); ("dipole", From_constants dipoles); ("Vmg", From_correlation VolumeGases); ("mug", From_correlation ViscosityLiquids); 
   ("Cpgm", From_correlation HeatCapacityGases)]));
   (* lines 1830-1836 *) (SurfaceTensions, ("SurfaceTension", [("CASRN", From_constants CASs); ("MW", From_constants MWs); ("Tb", From_constants Tbs); ("Tc", From_constants Tcs); ("Pc", From_constants Pcs); ("Vc", From_constants Vcs); 
   ("Zc", From_constants Zcs); ("omega", From_constants omegas); ("StielPolar", From_constants StielPolars); ("Hvap_Tb", From_constants Hvap_Tbs); ("Vml", From_correlation VolumeLiquids); 
   ("Cpl", From_correlation HeatCapacityLiquids)]))].
(* the mixture objects, given by the parameter XObj *)
Definition mixture_steps : list (mixture * (string * list (string * source))) :=
  [
   (* lines 1858-1859 *) (VolumeSolidMixture, ("VolumeSolidMixture", [("CASs", From_constants CASs); ("MWs", From_constants MWs); ("VolumeSolids", From_correlation VolumeSolids)]));
   (* lines 1860-1861 *) (VolumeLiquidMixture, ("VolumeLiquidMixture", [("MWs", From_constants MWs); ("Tcs", From_constants Tcs); ("Pcs", From_constants Pcs); ("Vcs", From_constants Vcs); ("Zcs", From_constants Zcs); ("omegas", From_constants omegas); 
   ("CASs", From_constants CASs); ("VolumeLiquids", From_correlation VolumeLiquids)]));
   (* lines 1862-1863 *) (VolumeGasMixture, ("VolumeGasMixture", [("eos", From_nothing); ("MWs", From_constants MWs); ("CASs", From_constants CASs); ("VolumeGases", From_correlation VolumeGases)]));
   (* lines 1865-1866 *) (HeatCapacityLiquidMixture, ("HeatCapacityLiquidMixture", [("MWs", From_constants MWs); ("CASs", From_constants CASs); ("HeatCapacityLiquids", From_correlation HeatCapacityLiquids)]));
   (* lines 1867-1868 *) (HeatCapacityGasMixture, ("HeatCapacityGasMixture", [("MWs", From_constants MWs); ("CASs", From_constants CASs); ("HeatCapacityGases", From_correlation HeatCapacityGases)]));
   (* lines 1869-1870 *) (HeatCapacitySolidMixture, ("HeatCapacitySolidMixture", [("MWs", From_constants MWs); ("CASs", From_constants CASs); ("HeatCapacitySolids", From_correlation HeatCapacitySolids)]));
   (* lines 1872-1873 *) (ViscosityLiquidMixture, ("ViscosityLiquidMixture", [("MWs", From_constants MWs); ("CASs", From_constants CASs); ("ViscosityLiquids", From_correlation ViscosityLiquids)]));
   (* lines 1874-1875 *) (ViscosityGasMixture, ("ViscosityGasMixture", [("MWs", From_constants MWs); ("molecular_diameters", From_constants molecular_diameters); ("Stockmayers", From_constants Stockmayers); ("CASs", From_constants CASs); 
   ("ViscosityGases", From_correlation ViscosityGases)]));
   (* lines 1877-1878 *) (ThermalConductivityLiquidMixture, ("ThermalConductivityLiquidMixture", [("CASs", From_constants CASs); ("MWs", From_constants MWs); ("ThermalConductivityLiquids", From_correlation ThermalConductivityLiquids)]));
   (* lines 1879-1880 *) (ThermalConductivityGasMixture, ("ThermalConductivityGasMixture", [("MWs", From_constants MWs); ("Tbs", From_constants Tbs); ("CASs", From_constants CASs); ("ThermalConductivityGases", From_correlation ThermalConductivityGases); 
   ("ViscosityGases", From_correlation ViscosityGases)]));
   (* lines 1882-1883 *) (SurfaceTensionMixture, ("SurfaceTensionMixture", [("MWs", From_constants MWs); ("Tbs", From_constants Tbs); ("Tcs", From_constants Tcs); ("CASs", From_constants CASs); ("SurfaceTensions", From_correlation SurfaceTensions); 
   ("VolumeLiquids", From_correlation VolumeLiquids)]))].
(* self.X = Y *)
Definition corr_assigned (x : corr) : corr :=
  match x with
  | VaporPressures => VaporPressures | VolumeLiquids => VolumeLiquids | VolumeGases => VolumeGases | VolumeSolids => VolumeSolids | HeatCapacityGases => HeatCapacityGases 
   | HeatCapacitySolids => HeatCapacitySolids | HeatCapacityLiquids => HeatCapacityLiquids | EnthalpyVaporizations => EnthalpyVaporizations | EnthalpySublimations => EnthalpySublimations 
   | SublimationPressures => SublimationPressures | PermittivityLiquids => PermittivityLiquids | ViscosityLiquids => ViscosityLiquids | ViscosityGases => ViscosityGases 
   | ThermalConductivityLiquids => ThermalConductivityLiquids | ThermalConductivityGases => ThermalConductivityGases | ThermalConductivitySolids => ThermalConductivitySolids 
   | SurfaceTensions => SurfaceTensions
  end.
Definition mixture_assigned (x : mixture) : mixture :=
  match x with
  | VolumeGasMixture => VolumeGasMixture | VolumeLiquidMixture => VolumeLiquidMixture | VolumeSolidMixture => VolumeSolidMixture | HeatCapacityGasMixture => HeatCapacityGasMixture 
   | HeatCapacityLiquidMixture => HeatCapacityLiquidMixture | HeatCapacitySolidMixture => HeatCapacitySolidMixture | ViscosityGasMixture => ViscosityGasMixture 
   | ViscosityLiquidMixture => ViscosityLiquidMixture | ThermalConductivityGasMixture => ThermalConductivityGasMixture | ThermalConductivityLiquidMixture => ThermalConductivityLiquidMixture 
   | SurfaceTensionMixture => SurfaceTensionMixture
  end.
