import json
P=[]
def p(title, statement, quantifier, why, anchors):
    P.append(dict(id="C%02d"%(len(P)+1), title=title, statement=statement, quantifier=quantifier, why_tests_cant=why, anchors=anchors))
num="A unit test compares against a numerical derivative or a stored number at a handful of points; the formula has to be the exact derivative at every point of the domain."
p("Reported pressure derivatives of a pure-component cubic EOS are the partial derivatives of P(T,V)",
  "For any cubic equation of state P = RT/(V-b) - a(T)/(V^2+delta V+epsilon), the values returned as dP_dT, dP_dV, d2P_dT2, d2P_dV2 and d2P_dTdV at a state are the corresponding first and second partial derivatives of the pressure at that T and V, whichever of the two code paths (generic / VDW) produced them.",
  "every T, V, b, delta, epsilon with non-zero denominators, every twice differentiable a(T)", num,
  ["thermo/eos.py:GCEOS.main_derivatives_and_departures","thermo/eos.py:main_derivatives_and_departures","thermo/eos.py:main_derivatives_and_departures_VDW"])
p("Departure functions are the thermodynamic residuals of the EOS",
  "H_dep, S_dep and Cv_dep returned for a state vanish in the ideal-gas limit V->infinity, and their volume derivatives are the ones thermodynamics dictates: (d/dV)(H_dep) = T dP/dT + V dP/dV, (d/dV)(S_dep) = dP/dT - R/V up to the P-reference term, (dCv_dep/dV) = T d2P/dT2. Hence G_dep=H_dep-T S_dep obeys ln(phi)=G_dep/RT.",
  "every T>0, every V beyond the largest pole, every a(T) with its derivatives", num+" The limit V->infinity cannot be evaluated at all.",
  ["thermo/eos.py:main_derivatives_and_departures","thermo/eos.py:eos_lnphi","thermo/eos.py:GCEOS.derivatives_and_departures"])
p("Temperature/pressure derivatives of H_dep, S_dep, G_dep, U_dep, A_dep along isobars and isotherms",
  "Every reported departure derivative (dH_dep_dT, dH_dep_dT_V, dH_dep_dP, dH_dep_dP_V, dH_dep_dV_g_T, dH_dep_dV_g_P, and the same family for S, G, U, A) is the derivative of the reported departure along the curve named in its subscript, for any volume branch V(T,P) that stays on the EOS.",
  "every T,P,V on the EOS surface with nonzero dP_dV / dP_dT, every differentiable branch", num,
  ["thermo/eos.py:GCEOS.dH_dep_dT_l","thermo/eos.py:GCEOS.dS_dep_dT_l","thermo/eos.py:GCEOS.dG_dep_dT_l"])
p("Implicit first and second derivatives between T, P and V are mutually consistent",
  "dV_dT, dV_dP, dT_dV, dT_dP and all second derivatives d2V_dT2, d2V_dP2, d2T_dV2, d2T_dP2, d2V_dPdT, d2T_dPdV are the derivatives of the implicit functions V(T,P) and T(P,V) defined by the EOS, and satisfy the reciprocal and triple product rules.",
  "every state with nonzero dP_dV, dP_dT; every C2 implicit branch", num,
  ["thermo/eos.py:GCEOS.derivatives_and_departures","thermo/eos.py:GCEOS.d2V_dT2_l"])
p("Fugacity and fugacity-coefficient derivatives",
  "dfugacity_dT/dP and dphi_dT/dP reported for a phase are the derivatives of the reported fugacity / phi along the isobar / isotherm through the state.",
  "every state and every differentiable departure function", num,
  ["thermo/eos.py:GCEOS.dfugacity_dT_l","thermo/eos.py:GCEOS.dphi_dT_l","thermo/eos.py:GCEOS.dphi_dP_l"])
p("Alpha functions return consistent value, first and second temperature derivative",
  "For every alpha-function class, a_alpha_and_derivatives_pure(T) returns (f, f', f'') of one and the same function of temperature, and the derivative-free evaluation a_alpha_pure(T) returns the same f. Exception that the code has and the proofs exhibit: the Twu (1995) functions below T = Tc/200 report a first derivative that is exactly five times the derivative of the value they report.",
  "every T>0, Tc>0, a and every parameter vector (for piecewise functions: every T inside a branch)", num,
  ["thermo/eos_alpha_functions.py:*.a_alpha_and_derivatives_pure","thermo/eos_alpha_functions.py:*.a_alpha_pure","thermo/eos.py:*.a_alpha_and_derivatives_pure"])
p("Every alpha function equals 1 at the critical temperature",
  "a_alpha_pure(Tc) = a for every alpha-function class and parameter set; piecewise (Mathias-Copeman, Twu) functions are continuous across the switch at Tc. Exceptions that the proofs exhibit: Saffari gives a*exp(c1), and the polynomial Mathias-Copeman form is continuous exactly when its constant coefficient is 1 or -1.",
  "every parameter vector, a and Tc>0", "The identity has to hold for every regressed parameter vector, not for the shipped ones.",
  ["thermo/eos_alpha_functions.py","thermo/eos.py"])
p("Vectorised alpha evaluation agrees with the pure-component evaluation, componentwise",
  "a_alphas_vectorized and a_alpha_and_derivatives_vectorized return for component i exactly what the scalar routine returns with component i's parameters, for mixtures of any size.",
  "every number of components, index, T and parameter lists", "Mixtures can have any number of components; only a fixed few are tested.",
  ["thermo/eos_alpha_functions.py:*.a_alpha_and_derivatives_vectorized","thermo/eos_mix.py"])
p("Solving the EOS for temperature or for a*alpha inverts it",
  "solve_T(P,V) of the ideal gas, VDW, PR and SRK classes (closed form) returns a T at which the EOS gives back P at V, for PR and SRK the smallest such T; for PRSV, PRSV2 and API SRK the residual handed to the root finder vanishes exactly at such T; a_alpha_for_V returns the a*alpha at which the volume V is a solution at T, P.",
  "every P, V, EOS constant in the analytic branch's domain", "Round trip must hold on a continuum of states.",
  ["thermo/eos.py:GCEOS.a_alpha_for_V","thermo/eos.py:VDW.solve_T","thermo/eos.py:PR.solve_T","thermo/eos.py:SRK.solve_T"])
p("Volume solvers solve the EOS",
  "The volumes handed back by the closed-form cubic solvers, and any volume at which the iterative solvers' update stalls, satisfy P = RT/(V-b) - a/(V^2+delta V+epsilon); the dimensionless cubic they build has exactly the EOS volumes as scaled roots. Exception: the one-root branch of volume_solutions_doubledouble_float returns the root of a cubic whose constant term is off by 2bc/3, so its volume misses the EOS whenever bc is nonzero.",
  "every T, P, b, delta, epsilon, a_alpha with P,T nonzero", "Solver correctness is a statement about all coefficient combinations.",
  ["thermo/eos_volume.py:volume_solutions_fast","thermo/eos_volume.py:volume_solutions_Cardano","thermo/eos_volume.py:volume_solutions_halley","thermo/eos_volume.py:volume_solution_polish","thermo/eos_volume.py:volume_solutions_doubledouble_float"])
p("Phase assignment of volume roots",
  "Given the list of volume roots, the EOS object only uses real positive roots larger than b, sets the liquid-like phase from the smallest and the vapor-like phase from the largest when they are distinct, a single phase otherwise, and raises when no admissible root exists; the outcome does not depend on the order in which the solver returns roots. A state specified by volume keeps that volume when b >= 0; for a negative covolume the placeholder roots are taken for a zero-volume liquid.",
  "every list of complex roots", "Root lists are arbitrary-order, arbitrary content.",
  ["thermo/eos.py:GCEOS.set_from_PT","thermo/eos.py:GCEOS.solve","thermo/eos.py:GCEOS.more_stable_phase"])
p("discriminant(T, P) depends on the requested temperature",
  "discriminant(P) at the object's own temperature returns the discriminant of the EOS's cubic in Z, whose sign tells whether three, one or a repeated real root exists; for another requested T it does not (it keeps the object's temperature in RT), and can have the wrong sign.",
  "every T, P, EOS", "The bug only shows when T differs from the object's own T.",
  ["thermo/eos.py:GCEOS.discriminant"])
p("Critical-point conditions",
  "For van der Waals, Redlich-Kwong, SRK and PR constants built from Tc and Pc, the critical isotherm has zero slope and curvature in V at the critical volume with P=Pc (exactly for van der Waals; to a relative 1e-35 for the 40-digit constants of the others, which agree to 1e-39 with constants that satisfy the conditions exactly); volume-translated versions have it at the shifted volume.",
  "every Tc, Pc > 0", "Must hold for every chemical.",
  ["thermo/eos.py:VDW.__init__","thermo/eos.py:RK.__init__","thermo/eos.py:PR.__init__"])
p("Quadratic mixing rule: all implementations compute the same double sum",
  "a_alpha and its temperature derivatives returned for a mixture are sum_ij z_i z_j sqrt(a_i a_j)(1-k_ij) and its T-derivatives, for each of the precomputing, full and workspace-reusing implementations, including compositions with zero mole fractions. The per-component rows sum_j z_j a_ij returned with them are right for components that are present; exceptions, each exhibited: the workspace-reusing implementation leaves out of the row of an absent component the components listed up to it, and adds to row buffers that are not cleared; the full implementation leaves at zero entries of the derivative matrices that belong to an absent component.",
  "every N, composition (zeros included), pure-component values, symmetric kij", "N and sparsity patterns are unbounded.",
  ["thermo/eos_mix_methods.py:a_alpha_and_derivatives_quadratic_terms","thermo/eos_mix_methods.py:a_alpha_and_derivatives_full","thermo/eos_mix_methods.py:a_alpha_quadratic_terms","thermo/eos_mix_methods.py:a_alpha_aijs_composition_independent"])
p("Mixing reduces to the pure component and is invariant to component order",
  "With z_i = 1 the mixture a_alpha and b equal component i's; permuting components (with all their parameters) leaves mixture a_alpha and b unchanged.",
  "every N, every permutation, every composition", "Needs all permutations of all sizes.",
  ["thermo/eos_mix_methods.py","thermo/eos_mix.py:GCEOSMIX"])
p("Composition derivatives of EOS mixture parameters",
  "The lists returned as composition derivatives (db_dzs, db_dns, da_alpha_dzs, da_alpha_dns, dna_alpha_dns, d2a_alpha_dzizjs, ddelta_dzs, depsilon_dzs, translated variants, ...) are the partial derivatives, in mole fractions or in mole numbers, of the mixture parameters.",
  "every N, composition, parameter set", num,
  ["thermo/eos_mix.py:PRMIX","thermo/eos_mix_methods.py:PR_translated_ddelta_dzs","thermo/eos_mix_methods.py:eos_mix_db_dns"])
p("Mixture fugacity coefficients are the mole-number derivatives of the residual Gibbs energy",
  "The ln(phi_i) returned by the PR, SRK, RK and VDW mixture routines equal d(n G_dep/RT)/dn_i at constant T,P; they reduce to the pure-component expression for z_i=1, and sum z_i ln(phi_i) equals the mixture's ln(phi). The VDW routine does so only when all interaction parameters k_ij are zero (it ignores them in ln(phi_i)).",
  "every N, composition, Z on the EOS", num,
  ["thermo/eos_mix_methods.py:PR_lnphis","thermo/eos_mix_methods.py:SRK_lnphis","thermo/eos_mix_methods.py:VDW_lnphis","thermo/eos_mix_methods.py:eos_mix_lnphis_general"])
p("NRTL temperature derivatives",
  "dGE_dT, d2GE_dT2 (and tau/G derivative matrices) reported by the NRTL model are the temperature derivatives of the reported GE.",
  "every N, composition, T>0 and every tau/alpha parameter set", num,
  ["thermo/nrtl.py:nrtl_GE","thermo/nrtl.py:nrtl_dGE_dT","thermo/nrtl.py:nrtl_d2GE_dT2","thermo/nrtl.py:nrtl_taus"])
p("NRTL composition derivatives and activity coefficients",
  "dGE_dxs, d2GE_dxixjs, d2GE_dTdxs of NRTL are the composition derivatives of its GE; ln(gamma_i) is the mole-number derivative of nGE/RT, and GE = RT sum x_i ln gamma_i. The stand-alone NRTL_gammas, gammas_from_args and (for parameters not below its clipping limits) NRTL_gammas_binaries return the same activity coefficients as the class. NRTL_gammas_binaries_jac returns the derivatives of NRTL_gammas_binaries with respect to tau12, tau21, alpha12, alpha21 for parameters above the clipping limits; below a limit it reports a slope although the result no longer depends on the parameter.",
  "every N, composition, parameter set", num,
  ["thermo/nrtl.py:nrtl_dGE_dxs","thermo/nrtl.py:nrtl_gammas","thermo/nrtl.py:nrtl_d2GE_dxixjs","thermo/nrtl.py:nrtl_d2GE_dTdxs"])
p("Wilson model derivatives and activity coefficients",
  "GE, dGE_dT, d2GE_dT2, dGE_dxs, d2GE_dxixjs, d2GE_dTdxs, gammas of Wilson's model are consistent: each (also d3GE_dT3 and d3GE_dxixjxks) is the derivative of GE it is named after, ln(gamma_i) is the mole-number derivative of nGE/RT, and GE = RT sum x ln gamma. The stand-alone Wilson_gammas, gammas_from_args (given no output list or one of zeros: it adds to what the list holds) and, above its clipping limit, wilson_gammas_binaries return the same activity coefficients, and wilson_gammas_binaries_jac their derivatives.",
  "every N, composition, parameter set", num,
  ["thermo/wilson.py"])
p("UNIQUAC model derivatives and activity coefficients",
  "For positive mole fractions and positive r, q: GE of the UNIQUAC class is the documented UNIQUAC formula with coordination number 10; dGE_dT, d2GE_dT2, d3GE_dT3, dGE_dxs, d2GE_dxixjs, d2GE_dTdxs are the derivatives of GE they are named after; ln(gamma_i) is the mole-number derivative of nGE/RT and GE = RT sum x ln gamma; gammas_from_args, the stand-alone UNIQUAC_gammas and (above its clipping limit, 0 < x1 < 1) UNIQUAC_gammas_binaries return the same activity coefficients.",
  "every N, composition, parameter set", num,
  ["thermo/uniquac.py"])
p("Regular solution and Flory-Huggins model derivatives and activity coefficients",
  "For RegularSolution, FloryHuggins and Hansen: GE is the documented excess Gibbs energy; dGE_dxs, d2GE_dxixjs and d3GE_dxixjxks are its first, second and third composition derivatives (Flory-Huggins and Hansen: at mole fractions summing to one), dGE_dT and d2GE_dTdxs its temperature derivatives (identically zero for the regular solution, whose GE does not depend on T); ln(gammas) are the mole-number derivatives of n GE/(RT) and GE = RT sum x_i ln(gamma_i). The stand-alone regular_solution_gammas returns the class's gammas whatever the work lists hold; regular_solution_gammas_binaries returns them for N=2 capped at its documented maximum, and its Jacobian is the derivative below the cap (above the cap the result is constant but the Jacobian is not zero: proved as an exception).",
  "every N, composition, volumes, solubility parameters, lambda", num,
  ["thermo/regular_solution.py"])
p("Redlich-Kister expansion",
  "The N-component Redlich-Kister excess of a table built from index pairs (each unordered pair of different components at most once) is the sum of the binary expansions of those pairs; so it reduces to the binary expansion for N=2, vanishes for pure components, and does not change when a pair is given in the other order with redlich_kister_reverse'd coefficients. The temperature-dependent table evaluates a + b/T + c ln T + d T + e/T^2 + f T^2 for 2, 3 or 6 terms and raises otherwise; the flat binary form used for fitting gives the same value.",
  "every number of terms, coefficients, compositions", "Number of terms is unbounded.",
  ["thermo/redlich_kister.py"])
p("Gibbs-Duhem consistency of activity coefficients",
  "For every activity model, gammas computed by gibbs_excess_gammas from (x, dGE_dxs, GE, T) satisfy GE = RT sum x_i ln(gamma_i) and the Gibbs-Duhem relation, provided dGE_dxs are the composition derivatives. dgammas_dns and d2nGE_dninjs are the mole-number derivatives of gamma and of n*GE for every model of the package; for an arbitrary differentiable GE they are only when the composition-weighted row sums of the Hessian are equal.",
  "every N, composition summing to one, GE function", num,
  ["thermo/activity.py:gibbs_excess_gammas","thermo/activity.py:gibbs_excess_dgammas_dns","thermo/activity.py:GibbsExcess"])
p("Pure-component limits of activity models",
  "At x_i = 1 every activity model with vanishing self-interaction parameters (tau_ii = 0, lambda_ii = 1, lambda_coeffs_ii = 0) returns GE = 0 and gamma_i = 1; UNIQUAC raises an error at a zero mole fraction, and reaches the same values in the limit.",
  "every N, i, parameter set", "Needs every N and every parameter matrix.",
  ["thermo/nrtl.py","thermo/wilson.py","thermo/uniquac.py","thermo/regular_solution.py"])
p("Derived excess properties",
  "HE, SE, CpE, dHE_dT, dSE_dT, dSE_dxs, dHE_dxs, ... computed from GE and its derivatives are the Gibbs-Helmholtz consequences: SE=-dGE/dT, HE=GE-T dGE/dT, CpE = dHE/dT.",
  "every T and GE(T) function", num,
  ["thermo/activity.py:GibbsExcess.HE","thermo/activity.py:GibbsExcess.SE","thermo/activity.py:GibbsExcess.CpE"])
p("Results do not depend on the contents of caller-supplied output buffers",
  "Functions accepting optional pre-allocated output lists return the same values whatever those lists contained before, except wilson_gammas (which adds to its output list) and PR_lnphis with a vanishing attraction parameter (which writes only the first entry).",
  "every prior buffer content", "Tests call with fresh buffers; reuse happens in loops over states.",
  ["thermo/wilson.py:wilson_gammas","thermo/nrtl.py:nrtl_gammas","thermo/uniquac.py:uniquac_gammas","thermo/eos_mix_methods.py"])
p("Partial/mole-number conversions of composition derivatives",
  "dxs_to_dns, dxs_to_dn_partials, dns_to_dn_partials, d2xs_to_dxdn_partials convert mole-fraction derivatives into mole-number derivatives of the intensive / extensive property; d2xs_to_dxdn_partials does so only when the composition-weighted row sums of the second derivatives are equal.",
  "every N, composition, differentiable function", num,
  ["thermo/activity.py","fluids/chemicals dxs_to_dns as used by thermo"])
p("StreamArgs specification accounting over any history of assignments",
  "After any sequence of attribute assignments, list assignments and clear calls on a StreamArgs holding at most one composition spec and one flow spec, it still holds at most one of each; an assignment that would over-specify composition or flow raises; any assignment that raises leaves the object unchanged; one that succeeds stores exactly what was assigned; copy reproduces the object; state_specified/composition_specified/flow_specified/state_specs agree with what is stored. The number of state specs stays at most two as long as H_reactive is never assigned and energy or energy_reactive only once a flow is specified; a further state variable then raises exactly when two others are stored. Exceptions that the code does allow, each shown by a witness: the constructor accepts two flow specs; an energy assigned before a flow is counted as no state spec and lets any number of further state variables be stored; H_reactive is not counted and mass-based setters accept a third variable beside it; update() keeps the assignments made before the one that raises.",
  "every finite history of assignments (values or None)", "The histories are unbounded.",
  ["thermo/stream.py:StreamArgs"])
p("StreamArgs.flash_state reflects the current specifications",
  "flash_state is the flash of the currently stored composition and state specs: reading it twice gives the same object, and the value read is the flash at the current specs unless the only change since the cached flash is in H_mass or in the flasher itself; in those two cases the code returns the stale flash (witnesses). With an energy spec the flash is asked for the molar enthalpy energy/n; with an energy spec and a flow given as volume Q the read never ends (RecursionError).",
  "every history of assignments and reads", "Cache staleness depends on interleaving of writes and reads.",
  ["thermo/stream.py:StreamArgs.flash_state"])
p("Stream views of one flow are consistent",
  "ns, zs, ms, ws, n, m, Q, Ql, Qg and the volume-fraction views computed by StreamArgs from any one composition spec and any one flow spec, and by EquilibriumStream, are mutually consistent: n*z_i = n_i, sum of n_i = n, m_i = n_i MW_i/1000, m = sum of m_i, w_i = m_i/m, Ql_i = n_i Vl_i, ..., and the spec given is read back unchanged, provided the fractions given sum to 1 (StreamArgs does not normalise them: witness where n differs from the sum of ns).",
  "every composition, flow and molecular weights", "Needs all compositions.",
  ["thermo/stream.py"])
p("mole_balance computes flows that conserve every component",
  "With use_mass and use_volume, when mole_balance reports success, no component flow that was known has changed and every component that has become completely known balances (moles in = moles out), provided a stream that is the only incomplete one has no component flow of its own yet; when only one total flow can be found, the total flows balance; when it reports no success nothing has changed and no component had exactly one unknown. Exceptions the code allows, each with a witness: a partly known single unknown stream has its known flows overwritten with values that do not balance; success is reported although nothing was computed when the unknown stream stores no component list; with use_mass=False a stream specified by masses is overwritten.",
  "every number of inlets/outlets/components and every pattern of known/None flows", "Patterns of unknowns are combinatorial.",
  ["thermo/stream.py:mole_balance"])
p("energy_balance closes the energy balance",
  "When energy_balance computes a single unknown energy, the sum of inlet energies equals the sum of outlet energies and no other stream changes; with two unknown streams of known state and use_mass, both energy and mass close; with one inlet and one outlet the molar enthalpy is copied, which closes the balance when the molar flows are equal; when it returns False nothing changes. Exceptions the code allows, each with a witness: one inlet and one outlet with different molar flows do not balance; with reactive=True a stream specified by state and flow counts as unknown and the call raises; with two unknowns on one side and use_mass a known mass flow can be overwritten.",
  "every stream set and pattern of unknowns", "Combinatorial patterns of unknowns.",
  ["thermo/stream.py:energy_balance"])
p("Flash specification dispatch",
  "A flash() call with exactly two specifications is accepted if and only if the pair is supported (two of T, P, V; T or P with VF or SF; VF with H, S, G, U or A; T, P or V with H, S or U) and the values are physical (T not below the minimum, P and V positive, fractions in [0, 1] and supported by the flasher); it is then routed to one algorithm that is given both values, with mass-based, density and reactive inputs converted to molar ones. Fewer than two specifications, or a missing composition for several components, is refused. Whatever is given, an accepted call enforces at least two different specifications with values given by the caller; the retry keeps both and changes only the iteration variable. Over-specified calls are not always refused: T, P, V are all passed on; T, P, H drops H; T, H, G drops G; VF, V, H drops H; V with rho drops V (witnesses). flash_phase_boundary accepts exactly one specification.",
  "every subset of given keyword arguments", "2^n combinations.",
  ["thermo/flash/flash_base.py:Flash.flash"])
p("Phase identification and sorting keep phases and phase fractions aligned",
  "For distinct phases, identify_sort_phases returns each input phase exactly once, paired with its own phase fraction, in the order gas, liquids, solids; forced states are respected, solids are the phases with a solid score of at least zero, the gas is a candidate (the best scoring one when no phase is forced to be a gas), and the rest are liquids. Liquids and solids are ordered by the selected property, with the water-rich liquid moved to the requested end. It fails when two phases to be ordered tie (phases cannot be compared), when several forced gases are the only gas candidates, and when betas is None; with a forced gas and several scored candidates the wrong candidate can be selected (witnesses).",
  "every list of phases, betas, identification settings", "Lists of any length.",
  ["thermo/phase_identification.py:identify_sort_phases","thermo/phase_identification.py:identity_phase_states","thermo/phase_identification.py:sort_phases"])
p("Temperature-dependent property extrapolation is continuous at the method's limits",
  "For each extrapolation (constant, linear, log(linear), Arrhenius, AntoineAB, DIPPR101_ABC, Watson, EXP_POLY_LN_TAU2/3, DIPPR106_AB/ABC, nolimit), in any combination at the two ends, T_dependent_property is continuous at every temperature, the limits included, when the values at the limits lie between extrapolation_min and extrapolation_max. Without those clamps it also has a derivative everywhere for the extrapolations built from the slope, equal to the method's at the limits, and the first derivative reported is that derivative; those built from the second derivative have a continuous reported second derivative; beyond the limits the second and third derivatives reported are derivatives of the ones before. Watson follows the method at the limit and at a second point inside. The closed log and ratio transforms agree with the extrapolated property. A clamp not containing the value at the limit makes a jump, reported derivatives ignore clamps, constant extrapolation has a kink, and extrapolated values are not checked against the property bounds that are enforced inside (witnesses).",
  "every method function, limit temperature and sign", num,
  ["thermo/utils/t_dependent_property.py:TDependentProperty.extrapolate","thermo/utils/t_dependent_property.py:TDependentProperty._get_extrapolation_coeffs"])
p("Property integrals are additive and consistent with the property",
  "Without clamps on extrapolated values, T_dependent_property_integral(T1,T2) is the integral of what T_dependent_property returns between T1 and T2, extrapolated regions included, so it is additive over adjacent intervals and changes sign with the bounds; likewise T_dependent_property_integral_over_T with the property divided by T. The integral of a piecewise method is that of the piecewise function for any number of pieces. Without extrapolation an interval reaching beyond the limits gives None. With extrapolation_min or extrapolation_max the closed forms integrate the unclamped values (witness).",
  "every T1, T2, T3 in any order across limits", "Continuum of interval positions relative to the limits.",
  ["thermo/utils/t_dependent_property.py:TDependentProperty.T_dependent_property_integral","thermo/utils/t_dependent_property.py:TDependentProperty.extrapolate_integral"])
p("T_dependent_property always reflects the currently selected method and data",
  "After any sequence of add_method, add_correlation, add_tabular_data, add_piecewise_method, selections, changes of the extrapolation and evaluations in which new data get names not in use, T_dependent_property(T) is what the same object with empty caches returns, so evaluations have no influence on later ones; the method is the last one successfully selected; inside its limits the value is that of the function or correlation supplied for it, of the interpolated table supplied for it, or of the piece whose range T is in; outside it is the extrapolation of those data. Calling the object gives the same value as long as the extrapolation is not changed. When a name is supplied again the old data can remain in use: re-supplied tables keep the old interpolator, re-supplied functions the old extrapolation, a function supplied under the name of a correlation is never evaluated; a refused extrapolation text and a correlation that failed are kept (witnesses).",
  "every history of configuration calls and evaluations", "Caches make result history dependent.",
  ["thermo/utils/t_dependent_property.py:TDependentProperty.add_method","thermo/utils/t_dependent_property.py:TDependentProperty.method","thermo/utils/t_dependent_property.py:TDependentProperty.T_dependent_property"])
p("Fitted polynomial property correlations: value, derivative, integral",
  "For the twelve built-in fit forms (polynomial, scaled polynomial or Chebyshev series; of T or of ln(1 - T/Tc); of the property or of its logarithm) the value is the documented series in the variable scaled to [-1, 1]; every closed-form derivative reported, up to the fourth order, is that derivative of the value, and closed forms exist for orders 1 and 2 of every form and 3 of all but exponentials of functions of ln(1 - T/Tc); the integrals of the value and of the value over T inside the limits are exact; the integrals of a polynomial fit across and beyond the limits are those of the polynomial continued by its tangents, which is what the object returns with linear extrapolation; the closed-form integrals of scaled polynomial heat capacities are exact everywhere. Exceptions (witnesses): the scaled forms of ln(1 - T/Tc) given to the constructor use the mirrored variable, so the same numbers mean another function than in add_correlation; derivatives of a correlation named polynomial raise, and so do its integrals for other units than J/mol/K; calculate_integral of a polynomial beyond the limits is not the integral of calculate.",
  "every coefficient list and T", num,
  ["thermo/utils/t_dependent_property.py:TDependentProperty.calculate","thermo/utils/t_dependent_property.py:TDependentProperty._set_poly_fit"])
p("Serialization round trip",
  "as_json(x) followed by from_json succeeds and gives a copy of the object graph of x in new objects: the objects reached from x through the saved attributes correspond one-to-one, with the same classes, the same values, the same sharing and the same cycles, and existing objects are untouched. This holds when the attributes in obj_references hold objects, lists or dicts of objects or simple values, and the others hold data without objects (arrays rather than lists in vectorized objects). The json contains no objects. The json does not survive: from_json removes 'py/object' from its entries, so that the same json cannot be loaded twice. JSON_DROP_RECALCULABLE removes the recalculable attributes of x, but not those of the objects x refers to. Text beginning with 'pyid_' in a searched attribute comes back as an object, and a list of objects in a vectorized object comes back as an array of text.",
  "every finite (possibly cyclic, shared) object graph, memory and option", "Graphs are unbounded.",
  ["thermo/serialize.py:JsonOptEncodable.as_json","thermo/serialize.py:JsonOptEncodable.from_json","thermo/serialize.py:arrays_to_lists","thermo/serialize.py:naive_lists_to_arrays"])
p("Interaction parameter database lookups",
  "In a symmetric table a lookup does not depend on the order of the CAS numbers: it reads the entry under the numbers in increasing order. In an asymmetric table it reads the entry in the given order, so reversing the pair reads the transposed entry. A lookup returns the stored value, else the table's default for that parameter, else raises KeyError. get_ip_asymmetric_matrix holds the single lookups off the diagonal and zeros on it; get_ip_symmetric_matrix is symmetric, has a zero diagonal and holds the single lookups of the pairs in list order (the reversed lookup where that entry is null). Loading a table changes no lookup in other tables. The automatic lookups use the first loaded table of the requested type, whether or not it has the entry. A table that passes validate_table has the right number of valid CAS numbers in every key and a number for every necessary parameter. The scalar parameter database behaves the same with single CAS numbers, and its vectors hold the single lookups.",
  "every table set and component list", "Unbounded component lists.",
  ["thermo/interaction_parameters.py:InteractionParameterDB","thermo/interaction_parameters.py:ScalarParameterDB"])
p("Ion balancing yields electroneutral solutions",
  "When balance_ions succeeds, with any method, the mole fractions of anions, cations and water sum to one, and either the charge-weighted sum of the returned ions is exactly zero or the measured imbalance was below 1e-7 and the composition is returned unchanged. 'dominant', 'decrease dominant' and 'increase dominant' change one ion only, the one with the largest charge contribution (not, as documented, the largest mole fraction), in the promised direction; the proportional methods scale one side by one factor and keep the other; 'adjust', 'increase', 'decrease', 'makeup' and the sodium chloride methods change only the selected ion, in the promised direction, appending it when absent. 'adjust' succeeds exactly when the fraction needed is not negative. A call with concentrations in mg/L is the call with the mole fractions computed from them.",
  "every list of anions and cations, measured fractions or concentrations and method", "Lists unbounded.",
  ["thermo/electrochem.py:balance_ions"])
p("Derived thermodynamic properties of a phase",
  "At every state where neither dP/dT at constant volume nor dP/dV at constant temperature is zero, the derived properties of a phase are the partial derivatives their names say: those of T, V, density and compressibility factor; all derivatives of G, U, A and S by T, P and V; the sixty derivatives of T, P, V and density by each other at constant H, S, G, U or A; and the second derivatives, as derivatives of the first ones, including those of isothermal compressibility, isobaric expansion, Cv and the speed of sound. If the phase obeys the first law and the Maxwell relation, Cv is the temperature derivative of U at constant volume, Cp - Cv = T V beta^2/kappa, the Joule-Thomson coefficient is the derivative at constant enthalpy, and the speed of sound and the isentropic exponents are those of the isentrope. A phase built from an ideal gas and departures has as derivatives of H and S those of the ideal gas plus those of the departures, composition derivatives included. Mass based derivatives are the molar ones times 1000/MW. Where dP/dT is zero (a density maximum) dV_dP raises ZeroDivisionError although the derivative exists. The ideal gas class obeys all this except that d2P_dTdP, d2P_dVdP, d2P_dVdT_TP and d2P_dT2_PV are returned as zero, which makes its derivatives of Cv and of the speed of sound wrong.",
  "every state, every pressure, enthalpy and entropy function with a differential there, every number of components", num,
  ["thermo/phases/phase.py:Phase","thermo/phases/phase.py:IdealGasDeparturePhase","thermo/phases/ideal_gas.py:IdealGas"])
p("Bulk properties of an equilibrium state with several phases",
  "The molar V, H, S, Cp and the other mole-weighted properties of the overall bulk of a flash result are the sums of the phase values weighted with the phase fractions, G, U, A and the densities follow from them, they do not depend on the order of the phases, and for a single phase they are the phase's; properties that depend on composition only (molecular weight, ideal gas enthalpy, element amounts) agree with the phases when the phases add up to the overall composition. The mass, volume and reference-volume fractions of phases, and of the gas, liquids and solids together, are shares adding up to one; per-mass properties and density are the means weighted with them. Every viscosity, conductivity or surface tension mixing method accepted by BulkSettings (except correlations and as-one-phase methods) gives a value between the lowest and highest phase value when there is no gas or at most one liquid. The logarithmic methods for dP_dV and the power methods for every pressure derivative always raise. quality is the mass share of the gas when there are no solids, and not otherwise. The bulk of several liquids beside a gas is weighted with fractions that do not add up to one, so its V, H, S are the liquid fraction times the molar values (and its density, and mole-weighted transport properties, are wrong). betas_volume and betas_volume_liquid_ref return whichever of the two was read first. H_dep of a bulk is the weighted sum; S_dep differs from S - S_ideal_gas by the mixing entropy between phases; the S_ideal_gas that the state gives for a bulk phase uses the composition of the whole state. H_C_ratio and humidity_ratio ignore the phase they are given. Equilibrium derivatives are forward differences: a value of the derivative between the two states, tending to the derivative with the perturbation; the two formulas for the speed of sound at equilibrium agree.",
  "every number of components and phases, phase fractions, phase property values, settings, order of phases and history of reads", "Numbers of phases and components are unbounded, and cached values make results depend on the history.",
  ["thermo/bulk.py:Bulk","thermo/bulk.py:BulkSettings","thermo/equilibrium.py:EquilibriumState"])
p("ChemicalConstantsPackage subsetting and indexing",
  "subset(idxs) of a constants package (integers, negative integers, slices or None, duplicates and reorderings included) keeps, for every property but the atom fractions, exactly the constants of the requested components in the requested order, empties the properties not asked for, and raises for positions that do not exist; the atom fractions are lost. Adding two packages concatenates every property; with_new_constants replaces the given properties only (and loses the atom fractions). The index of water and the atom counts agree with the CAS numbers and atom dictionaries. compound_index finds an identifier that occurs once at its component; an absent one raises KeyError or ValueError (IndexError is documented). The subset of a correlations package holds the objects of the requested components, and building the default objects commutes with taking the subset; adding concatenates the objects, but raises TypeError when one of the two lacks a property. subset(None) of a correlations package raises, and its explicitly given mixture objects are lost.",
  "every number of components, property contents, index list or slice", "Index lists and packages unbounded, about ninety properties.",
  ["thermo/chemical_package.py:ChemicalConstantsPackage.subset","thermo/chemical_package.py:ChemicalConstantsPackage.__add__","thermo/chemical_package.py:ChemicalConstantsPackage.compound_index","thermo/chemical_package.py:PropertyCorrelationsPackage"])
p("Virial equation of state phase",
  "After construction and after every successful call of to (with two of T, P, V), whatever was read before, the T, P and V of a VirialGas satisfy P = RT/V (1 + B/V + C/V^2) with the B and C of its temperature and composition; the reading of cached coefficients never returns values of another temperature. B is the linear or the quadratic mixture of the coefficients of the selected correlation, unchanged by relabelling the components, and its reported temperature, mole fraction and mole number derivatives are the derivatives. dP_dT, dP_dV and the second derivatives of pressure, H_dep and S_dep and their reported derivatives at constant volume, temperature or pressure are consistent with the equation of state: H_dep and S_dep vanish in the ideal gas limit and, added to the ideal gas values, satisfy dH = T dS + V dP. dV_dzs and dG_dep_dzs are the gradients at constant T and P, and ln(phi_i) is the partial molar G_dep over RT. Cp_dep and dS_dep_dT(_P) are the temperature derivatives at constant volume, so the Cp of the phase is not the isobaric heat capacity; the documented option 'Zeros' for cross coefficients has no effect.",
  "every B(T), C(T), number of components, composition, sequence of reads and state changes", num, ["thermo/phases/virial_phase.py:VirialGas","thermo/phases/virial_phase.py:VirialCSP"])
p("Volumetric and energy properties derived from the EOS",
  "Z, molar density, isobaric expansion beta, isothermal compressibility kappa, Cp_dep, Cv_dep, U_dep, A_dep, G_dep and all their reported temperature, pressure and density derivatives equal their definitions as derivatives of the EOS volume or departures; Cp_dep is dH_dep/dT at constant P and Cv_dep is dU_dep/dT at constant V.",
  "every state on every differentiable EOS branch", num,
  ["thermo/eos.py:GCEOS.set_properties_from_solution","thermo/eos.py:GCEOS.dZ_dT_l","thermo/eos.py:GCEOS.d2rho_dPdT_l","thermo/eos.py:GCEOS.dbeta_dP_g","thermo/eos.py:GCEOS.U_dep_l"])
p("Maximum pressure at a given volume",
  "P_max_at_V(V) of the PR and SRK classes is the maximum over all temperatures of the pressure the EOS gives at volume V, or None when the pressure is unbounded (or has no maximum).",
  "every V > b and every EOS constant", "A maximum over a continuum of temperatures cannot be enumerated.",
  ["thermo/eos.py:PR.P_max_at_V","thermo/eos.py:SRK.P_max_at_V"])
p("Phases given by a Helmholtz or a Gibbs energy",
  "For a HelmholtzEOS phase with any ideal and residual parts whose supplied derivative functions are the derivatives: S = -(dA/dT)_V, the pressure is -(dA/dV)_T and H - P V - T S = A; the reported first and second derivatives of P, S, H, Cp, Cv and of ln(phi) with respect to T, V and P are the partial derivatives; they satisfy dH = T dS + V dP; ln(phi) is (G - G_ideal(T, P))/(RT); B and C are the virial coefficients Z = 1 + B rho + C rho^2 + o(rho^2) and their temperature derivatives are right. H_dep is the departure at T and P, but S_dep is the departure at T and V (it differs by R ln Z), and A() returns A/(RT). For a GibbsEOS phase V, S, H, U, A, Cp and all reported derivatives are those of G(T, P).",
  "every ideal and residual function, reducing temperature and density, T > 0 and V > 0", num,
  ["thermo/phases/helmholtz_eos.py:HelmholtzEOS","thermo/phases/gibbs_eos.py:GibbsEOS"])
p('The activity coefficient liquid is consistent with its fugacity coefficients',
  "For an activity coefficient liquid phase whose pure component data (vapor pressures, molar volumes, saturation fugacity coefficients, activity coefficients, ideal gas heat capacities) and their temperature derivatives agree, at every positive temperature and pressure: at the vapor pressure of a component its fugacity coefficient is activity coefficient times saturation fugacity coefficient; the reported derivatives of the Poynting corrections, of the fugacity coefficients and of their logarithms are the partial derivatives; without the Hvap basis the enthalpy, entropy and Gibbs energy are the ideal gas ones plus the departures -RT^2 sum z dlnphi/dT, -R sum z (lnphi + T dlnphi/dT), RT sum z lnphi; the heat capacity and the reported temperature and pressure derivatives of enthalpy and entropy are the partial derivatives, and Cp = T dS/dT; with the Poynting correction dG = V dP - S dT (V = RT sum z (dlnphi/dP + 1/P), dS/dP = -dV/dT, dH/dP = V - T dV/dT). With the Hvap basis the enthalpy is the gas enthalpy less the enthalpies of vaporization plus the excess enthalpy and the Gibbs energy that of gamma Psat/P, but the reported heat capacity is not the derivative of the enthalpy. Without the Poynting correction enthalpy and entropy do not depend on pressure, so that dH/dP = V + T dS/dP fails. caloric_basis has no effect except 'Hvap' against all others. The Tait enthalpy integral is the integral of V - T dV/dT from the vapor pressure. A phase made from T and V lacks T, and one from P and V lacks P.",
  'all numbers of components, all compositions with sum 1, all smooth data, all settings of the flags, all T, P > 0', num, ['thermo/phases/gibbs_excess.py: GibbsExcessLiquid'])

p('The UNIFAC model is the published one and is thermodynamically consistent',
  "For all versions (original, Dortmund, PSRK, VTPR, Lyngby, KT), any number of components and groups with non-negative group counts and surfaces (each component having a group with a surface) and, except for VTPR, positive component volumes and surfaces: the activity coefficients are exp of the published combinatorial plus residual expressions and GE is RT sum x ln gamma; dGE_dT, d2GE_dT2, d3GE_dT3, dGE_dxs, d2GE_dTdxs, d2GE_dxixjs, dgammas_dT, dgammas_dxs, dgammas_dns, the first to third derivatives of the interaction terms, and those of the logarithms of the combinatorial and residual parts are the derivatives; at mole fractions RT ln gamma_i is the derivative of the total excess Gibbs energy in the amount of component i, the Gibbs-Duhem relation holds along every path of mole fractions, and a pure component has activity coefficient one; gammas_from_args on the exported arguments gives the same activity coefficients; a single component model has no excess properties.",
  'all numbers of components and groups, all group assignments, sizes and interaction coefficients, all T > 0, all compositions', num, ['thermo/unifac.py: UNIFAC, unifac_gammas_from_args'])

p('Successive substitution returns the equilibrium it tested',
  "Each iteration solves the Rachford-Rice problem at the equilibrium ratios of the compositions before it (negative fractions are replaced by their absolute values and renormalised); the first of these events ends the call: the solver fails, a positive error repeats one of the three before it or has jumped more than twentyfold four times (OscillationError), the compositions of the two phases agree within the trivial tolerance (TrivialSolutionError), the sum of squared relative fugacity differences is below the tolerance (return), or the iterations run out (UnconvergedError). A returned result has two non-negative compositions adding to one and differing by at least the trivial tolerance, phases at T, P with these compositions, a vapor fraction that satisfies the material balance when it is in [0, 1], and, if it took more than one iteration, component fugacities that agree within the square root of the tolerance; the T, P and composition of the phase objects passed do not matter; with composition independent fugacity coefficients the exact equilibrium is returned in at most two iterations. A call whose guesses already have equal fugacities returns the next iterate without testing it, and that may be far from equilibrium (a hot start with another feed) or, in the version on fugacity arguments, trivial. The multiphase version returns fractions and compositions that satisfy the material balance, and phases of equal fugacities within the tolerance, but those phases are one iteration older and need not satisfy the balance with the fractions; it replaces the entries of the caller's list of phases by phases at T and P.",
  'all numbers of components and phases, all fugacity models, feeds, guesses, tolerances and iteration limits, all Rachford-Rice solvers that only return solutions', 'Runs of any length over arbitrary fugacity models; a test sees single converged cases and not the iterations.', ['thermo/flash/flash_utils.py: sequential_substitution_2P, sequential_substitution_2P_functional, sequential_substitution_NP', 'thermo/flash/flash_vl.py: FlashVL.sequential_substitution_2P'])

p('The stability test reports a phase that lies below the tangent plane',
  "A trial of the stability iteration that converges does so at a test composition that adds to one and at which every component's fugacity times the reported sum equals that of the tested phase, within the square root of the tolerance; its tangent plane distance is minus the logarithm of the sum (within twice that), the equilibrium ratios reported belong to it, and the fraction and compositions reported are a split of the feed at these ratios; with composition independent fugacity coefficients the exact ratios are found in two iterations. A positive fraction of the new phase implies a sum of at least one, so the tested phase is not stable to the tolerance. Of the trials the test drops those that fail, give back the feed, have a sum within 1e-9 of one or beyond 1e20, equilibrium ratios all near one, or a new phase within 1e-4 (or relatively 2%) of a known phase; the feed is declared stable exactly if none of the rest has a fraction between -1e-6 and 1+1e-6. Otherwise the first such trial is reported; with highest_comp_diff the first of those farthest from the known phases, or the first farther than min_comp_diff; all_solutions lists the rest of the trials in order. Not so: when all equilibrium ratios exceed one there is no split, the trial reports the feed and is dropped, so that a feed with a composition far below its tangent plane is declared stable; lowest_dG reports the trial with the highest dG; handle_iffy raises TypeError when the first instability is a clear one; skip skips no guess but shifts the number reported; highest_comp_diff with an empty list of known phases raises NameError.",
  'all numbers of components, all fugacity models, feeds, guesses, tolerances, options, known phases and sequences of trials', 'The trials and their order are unbounded and the fugacity model is arbitrary; tests try a few mixtures.', ['thermo/flash/flash_utils.py: stability_iteration_Michelsen', 'thermo/flash/flash_vl.py: FlashVL.stability_test_Michelsen'])

p('The two phase flash at T and P returns one phase or a balanced split',
  "A FlashVL flash at T and P, with or without a hot start, ends in an exception of the successive substitution or returns: the liquid alone, or the gas alone, at T, P and the feed composition with fraction one, being the one of lower Gibbs energy; or a gas and a liquid, each the gas or liquid model at T and P, with non-negative compositions adding to one and fractions b and 1 - b in [0, 1] whose weighted compositions add up to the feed. If the substitution took more than one iteration the component fugacities of the two phases agree within the square root of the tolerance. A feed that the stability test finds stable gives the single phase; a hot start that fails, or converges outside [0, 1], gives the answer of the flash without one. For phases with composition independent fugacity coefficients the exact Rachford-Rice split is returned when it is a clear one, and the single phase when the Rachford-Rice fraction is outside [0, 1]. Not so: a trivial solution found when the split is polished raises TrivialSolutionError instead of giving the single phase; a hot start at the same T and P with another feed is accepted although its phases are not in equilibrium.",
  'all numbers of components, fugacity models, feeds, guesses, hot starts, tolerances and settings, all Rachford-Rice solvers that only return solutions', 'The answer depends on runs of the stability test and the substitution of any length over arbitrary models.', ['thermo/flash/flash_vl.py: FlashVL.flash_TPV, FlashVL.flash_TP_stability_test, FlashVL.flash_2P'])

p('The guesses of the stability test are compositions in a known order',
  "For a mixture of two or more components with positive critical pressures, at positive T and P, for which some Wilson ratio exceeds 1e-100, and up to a thousand random fractions, incipient_guesses yields without an exception: the four compositions proportional to K^e z with e = 1, -1, 1/3, -1/3 (with expect_liquid -1, -1/3, 1/3, 1, after an almost pure water guess if expect_aqueous), then for each component in turn a composition with 1 - zero_fraction of it and equal amounts of the others, then the requested number of random compositions. Every guess has N non-negative fractions adding to one, all positive if those of the feed are. guesses and guess_generator give the same list of 4 + 2N compositions. incipient_guess_name and incipient_guess_named give back each of the first four guesses; the index of water is the first position of its CAS number. Not so: guess number 4 + k is almost pure component k but is named pure(k+1), which gives the next guess, or IndexError for the last; with water first all the names are off by one and those from the fifth on are missing; when no Wilson ratio exceeds 1e-100 the almost pure guesses are named Wilson; one component raises ZeroDivisionError; with more than a thousand random fractions N guesses are repeated; guess_generator without the Wilson guesses ends in IndexError; a number of random guesses is also taken as the number of components.",
  'all numbers of components, component data, feeds, temperatures, pressures, options and random values', 'Component data and the number of components are unbounded; names and order are checked for single mixtures only.', ['thermo/property_package.py: StabilityTester'])

p('Vapour fraction flashes with composition independent ratios solve the flash equation',
  "With an ideal gas and a liquid whose fugacity coefficients do not depend on composition, a flash of FlashVL at T and vapour fraction VF, or at P and VF, returns compositions with y_i = K_i x_i and VF y + (1 - VF) x = z for one set of ratios, those of the point the root finder evaluated last; sum x - 1 and sum y - 1 are -VF e and (1 - VF) e with e the returned error. The derivative given to the root finder is that of the residual with respect to ln P or T. Under Raoult's law (phi_i = c_i/P) the dew pressure does not exceed the bubble pressure, exactly one pressure solves the flash equation for VF in [0, 1], it lies between them, the search starts between them, and a root finder that returns a root gives it: the bubble pressure sum z c for VF = 0 and the dew pressure 1/sum(z/c) for VF = 1 without any search; the compositions are non-negative and solve the Rachford-Rice equations at that pressure. At given P, if every coefficient grows with T, the temperature returned is the only solution. A vapour fraction outside [0, 1] raises ValueError at T without Poynting factors; not so at P or with Poynting factors, where it is accepted.",
  'all numbers of components, compositions, fugacity coefficient functions, vapour fractions and root finders', 'The phases and the root finder are arbitrary functions; tests run a few packages with one solver and never the unlucky points.', ['thermo/flash/flash_utils.py: solve_T_VF_IG_K_composition_independent, solve_P_VF_IG_K_composition_independent', 'thermo/flash/flash_vl.py: FlashVL.flash_TVF_2P, flash_PVF_2P'])

p('Saturation of a pure component',
  "FlashPureVLS at T with a vapour fraction returns, for general packages, the first liquid and the gas at that T and the pressure evaluated last, with the difference of their fugacities as the error and different compressibility factors; with a root finder that returns roots they have equal fugacities at the returned pressure; the same at P. With a solid fraction it returns the first solid and, below the triple point, the gas, otherwise the first liquid, with the same guarantee. The derivatives handed to Newton's method are those of the errors. A package of one cubic equation of state raises PhaseExistenceImpossible above its critical T or P and otherwise returns both phases at the equation's saturation point; with an ideal gas and activity coefficients the two phases at the vapour pressure have equal fugacities. A vapour pressure guess below 0.01 Pa raises ValueError. Not so: that with several liquids the one of lowest Gibbs energy is used (the number of liquids is taken as a truth value, so always the first); without a liquid there is an AttributeError on None; the melting temperature is searched from 1000000 K.",
  'all phases (as functions of T and P), temperatures, pressures, numbers of liquids and solids, and root finders', 'The phases and the root finder are arbitrary functions; tests run a few packages with one solver and never the unlucky points.', ['thermo/flash/flash_utils.py: TVF_pure_newton, TVF_pure_secant, PVF_pure_newton, PVF_pure_secant, TSF_pure_newton, PSF_pure_newton', 'thermo/flash/flash_pure_vls.py: FlashPureVLS.flash_TVF, flash_PVF, flash_TSF, flash_PSF, Psat_guess'])

p('The pure component flash returns the phase of lowest criterion',
  "FlashPureVLS at two of T, P and V: it raises only if a phase that is tried does; otherwise it returns a phase tried whose Gibbs energy (or requested criterion) is the lowest. The gas is returned only if no liquid with Z below 1/4 has the same value, a solid only if it is strictly lower than all others. Phases below their minimum temperature are not tried. With one cubic equation of state, and with an ideal gas and activity coefficients, the shortcut gives the same choice. At one of T, P, V with H, S or U: two phases are returned with the vapour fraction that gives the specified value, and only if the mixture has a lower criterion than the preferred one phase solution; one phase if it is preferred over every other one phase solution and no mixture is lower; an error only if there is neither. With P and S solutions above 1 K are preferred over those below. The variant that solves for saturation first returns the mixture when there is one and otherwise tries the phase on whose side the value lies first. Not so: the gas at exactly its minimum temperature is not tried; given V, a cubic with two roots is always answered with the gas object; solid-fluid equilibria are computed but never returned; when no one phase solution is kept the saturation first variant returns None instead of raising.",
  'all numbers of phases, their states, exceptions and minimum temperatures, specified values and candidate solutions', 'The number of phases and the order of ties and failures are unbounded; tests use a few packages at a few states.', ['thermo/flash/flash_pure_vls.py: FlashPureVLS.flash_TPV, flash_TPV_HSGUA, flash_TPV_HSGUA_VL_bound_first'])

p('Bubble and dew points returned by the general Michelsen-Mollerup iteration',
  'dew_bubble_Michelsen_Mollerup, when it answers before its iterations are used up, returns a value of the iterated variable at which both returned phases were made, and error 0. The returned composition adds to 1 and has the fugacities of the mixture up to the factor 1 + e, where e is the residual of the saturation condition; with the default damping 0.15 |e| is below xtol times the slope of the condition, and the slope used is its derivative at fixed compositions. After the first iteration the two compositions differ by at least the trivial solution tolerance unless some mole fraction of the mixture is 1. When the volumes agree and a phase is of the wrong kind both phases are moved to just beyond the limit of existence of that phase; phases of the expected kinds are not moved. Not so: in the first iteration the compositions are not compared, a guess with all ratios equal to 1 is returned at once; when the mixture cannot be evaluated after a full Newton step, the same point is tried again until the iterations are used up.',
  'all numbers of components, compositions, phases (as partial functions of the variable and the composition), guesses, tolerances, dampings, update frequencies and iteration limits', 'The phases are arbitrary partial functions and the number of iterations is unbounded; tests run a few mixtures from good guesses.', ['thermo/flash/flash_utils.py: dew_bubble_Michelsen_Mollerup'])

p('Bubble and dew temperatures and pressures of the direct functions',
  'bubble_T, dew_T, bubble_P and dew_P_Michelsen_Mollerup, when they answer before their iterations are used up, return a value at which both returned phases (liquid and gas, in this order) were made, the mixture being the liquid at a bubble point and the gas at a dew point; the composition returned adds to 1 and has the fugacities of the mixture up to the factor 1 + e, |e| below xtol times the slope, and differs from that of the mixture before normalisation by the trivial solution tolerance. Not so: a pure component is never solved (any answer misses the condition by the trivial solution tolerance); a point where a phase is undefined is tried in all remaining iterations, in all four functions; with an update frequency of 2 or more the phases are given compositions that do not add to 1.',
  'all numbers of components, compositions, phases, guesses, tolerances, step limits, update frequencies and iteration limits', 'No test calls these four functions at all.', ['thermo/flash/flash_utils.py: bubble_T_Michelsen_Mollerup, dew_T_Michelsen_Mollerup, bubble_P_Michelsen_Mollerup, dew_P_Michelsen_Mollerup'])

p('Bounds between which a phase appears',
  'generate_phase_boundaries_naive, when it answers, returns two of the values it was given: one whose flash is without the phase (or below the fraction sought) and one whose flash has it, together with these flashes, and for a phase boundary a flash of a slightly larger value that also has the phase. While guesses remain, the value with the phase is the first guess that has it, and the other is the nearest guess without it on the side on which the amount of the phase decreases (any side for a fraction). For a fraction an answer is given whenever a guess is without and a guess with it. The guesses are the hot start, then those of the caller, then the fixed ones. Not so: the point kept is not the one with the lowest amount of the phase, the amount is compared with itself; in the last resort the side is judged with the first point, so that existing bounds are missed.',
  'all flashes (as partial functions of the iterated variable), checks, lists of guesses and hot starts', 'The flash is an arbitrary partial function and the list of guesses is unbounded; tests run a few mixtures.', ['thermo/flash/flash_utils.py: generate_phase_boundaries_naive'])

p('Mixing one stream with another until a phase appears',
  'The factor used to remove an added stream from a composition is the least multiple of it whose addition leaves no negative amount, and is never positive; the composition returned has no negative amount, adds to 1 and lacks a component of the added stream; any mixture of the original with the added stream is also a mixture of it. The stability results kept are results, in order, neighbours among them differ, and every result is kept or near one that is. The checks are 1 exactly for the phases they name. The bounds returned are tried ratios without and with the phase and their flashes; the search fails only if all are without or all with it. The result returned by the solvers is the last evaluated one that has the phase. VL is solved by the one sided secant, every other boundary by bisection. Not so: two streams of the same composition cause a division by zero; equal results may both be kept; the check for two liquids rejects three; if no evaluation has the phase the first is returned; the secant starts from the wrong flash when the one of the stream has the phase; the fraction is that of the last solution, not of the one with the lowest Gibbs energy; no further method is tried when one fails.',
  'all compositions of any length, lists of stability results, flash results, flashes as partial functions, lists of factors, evaluation stores and methods', 'The claims range over compositions of any length and arbitrary flash functions; tests run a few binary mixtures.', ['thermo/flash/flash_utils.py: incipient_phase_bounded_naive', 'thermo/flash/flash_utils.py: generate_incipient_phase_boundaries_naive', 'thermo/flash/flash_utils.py: incipient_phase_one_sided_secant', 'thermo/flash/flash_utils.py: flash_mixing_remove_overlap', 'thermo/flash/flash_utils.py: deduplicate_stab_results', 'thermo/flash/flash_base.py: flash_mixing_phase_boundary'])

p('A single phase with a given H, S, G, U or A',
  'The single phase solvers (solve_PTV_HSGUA_1P, TPV_solve_HSGUA_1P, PH_secant_1P, PH_newton_1P) return a phase they made and the distance of its property from the one asked for; if the root finder evaluates its answer last, the phase is the one at the value returned; T and P returned are those of the phase. At fixed T a bracket used is a bound of the caller and the limit of the phase transition on its side, the property asked for lies between those of its ends, a phase with it exists inside when the property is continuous, and the solver starts inside. At fixed V the physical limit is respected. The guess is the last converged value or a standard constant. The ideal gas guess solves the ideal gas relations when P is fixed or solved for. Not so: with T and V one fixed and one solved for no guess can be made, P is not defined; the corresponding states liquid guess fails for volumes, its function returns nothing; the models are never used, the constant before them always answers; when the open solver fails and bounds are missing another exception is raised; without a lower bound a volume is declared between the phases when only the high side was examined.',
  'all phases (as partial functions of the variable), properties, bounds, transitions, root finders (as lists of evaluations and an outcome), compositions and heat capacities', 'Phases and root finders are arbitrary; tests run a few fluids with one root finder.', ['thermo/flash/flash_utils.py: TPV_solve_HSGUA_1P', 'thermo/flash/flash_utils.py: solve_PTV_HSGUA_1P', 'thermo/flash/flash_utils.py: TPV_solve_HSGUA_guesses_1P', 'thermo/flash/flash_utils.py: PH_secant_1P', 'thermo/flash/flash_utils.py: PH_newton_1P'])

p('The flash with several liquids compares Gibbs energies',
  'FlashVLN.flash at given T and P, for any outcome of the two phase flashes, stability tests, the iteration with more phases and the last attempt: a single phase returned is one of the candidates and none of them has a lower Gibbs energy. With one liquid, or less than three components, no single phase candidate lies below the state returned. With at most two liquids or exactly three components the state returned does not lie above the first two phase state found, and three phases come with fractions in [0, 1]. A failed hot start leads to the cold flash. At a vapour fraction the liquid with the lowest Gibbs energy is taken. Not so: what the second check finds is dropped if the first tests found one phase; with two liquids and three components two phases are returned without a comparison with the single phases; from the fourth phase on fractions and Gibbs energy are not checked; after a liquid-liquid split with two liquids the gas is never tested; an UnconvergedError of the last attempt escapes; at a vapour fraction None is returned if no liquid can be solved.',
  'all numbers of liquids and components, Gibbs energies, and results or exceptions of the underlying flashes, tests and iterations', 'The outcome of each underlying solver is arbitrary, including exceptions and unphysical results; tests see those of a few mixtures.', ['thermo/flash/flash_vln.py: FlashVLN.flash_TPV', 'thermo/flash/flash_vln.py: FlashVLN.flash_TVF', 'thermo/flash/flash_vln.py: FlashVLN.flash_PVF'])

p('Group assignments share no atom and success means coverage',
  'smarts_fragment_priority, for any matches of any catalog in any molecule: the groups counted are those assigned, each is a match of its group and no atom is in two of them. Success means that every heavy atom is in exactly one and that the groups stand for all hydrogens. At most four matches are set aside; any other match left out overlaps an assigned one of a group with at least its priority, or covers the molecule with another number of hydrogens. Matches that do not overlap and cover the molecule are all assigned. A group with more of the known atoms and bonds has a higher priority. smarts_fragment: success means that some of the matches cover every atom once; matches that share no atom are counted right. An assignment is read back from its string. Not so: smarts_fragment counts the matches it removed; removing two matches of a group raises an IndexError or removes a third one; a cover that needs five matches set aside is not found; an unreadable SMILES gives three values instead of five; bromine, iodine and phosphorus do not raise the priority.',
  'all molecules, catalogs, matches (tuples of atoms), priorities, hydrogen counts, numbers of groups and dictionaries of counts', 'The matches and catalogs are arbitrary; tests assign a few hundred molecules with the catalogs supplied.', ['thermo/group_contribution/group_contribution_base.py: smarts_fragment_priority', 'thermo/group_contribution/group_contribution_base.py: run_match', 'thermo/group_contribution/group_contribution_base.py: smarts_fragment', 'thermo/group_contribution/group_contribution_base.py: priority_from_atoms', 'thermo/group_contribution/group_contribution_base.py: str_group_assignment_to_dict', 'thermo/group_contribution/group_contribution_base.py: group_assignment_to_str'])

p('A property of temperature and pressure answers from its current data',
  'For any sequence of operations on a property object of temperature and pressure: as long as no name of a tabular series is used twice, TP_dependent_property gives what the object would give if it had never been evaluated; calling the object gives the same, provided that method_P was selected again after the last change of the temperature dependent side. An accepted table gives its interpolation where that is in the valid range of the property, without extrapolation only strictly inside the table. A table is accepted if and only if its axes increase strictly and its checked values are valid; a refused operation changes nothing; method_P takes None and available methods only. Series stay as long as their names are not used again. valid_methods_P lists exactly the available and valid ranked methods, the selected one first; TP_or_T_dependent_property falls back to the temperature dependent value where the pressure method gives nothing. Not so: changing method does not forget the value of a call; a pressure correlation added replaces the temperature dependent method and cannot be selected as method_P; a second series without a name replaces the first, and answers still come from the first if it was used; the ends of a table are refused without extrapolation; tables are not listed in valid_methods_P; with exceptions on there is no fallback.',
  'all sequences of operations (selection of methods, tables, correlations, calls), temperatures, pressures, tables, built in methods and interpolations', 'What is remembered depends on the order of operations; tests make a few calls on fresh objects.', ['thermo/utils/tp_dependent_property.py: TPDependentProperty.__call__', 'thermo/utils/tp_dependent_property.py: TPDependentProperty.TP_dependent_property', 'thermo/utils/tp_dependent_property.py: TPDependentProperty.add_tabular_data_P', 'thermo/utils/tp_dependent_property.py: TPDependentProperty.interpolate_P', 'thermo/utils/tp_dependent_property.py: TPDependentProperty.add_P_correlation', 'thermo/utils/tp_dependent_property.py: TPDependentProperty.valid_methods_P'])

p('Properties of mixtures follow their mixing rules',
  'For any number of components and any pure values: a property mixed linearly is the mean of the pure values and lies between the smallest and the largest; mixed logarithmically with mole or mass fractions it is their weighted geometric mean and lies between them. A Redlich-Kister correlation adds its sum over the pairs of components, when its number of temperature terms is the number of components. The excess property is 0 for linear mixing, not positive for logarithmic mixing with mole fractions, and the Redlich-Kister sum for a correlation with no interaction of a component with itself. For linear mixing partial_property is the pure value. A value returned comes from the selected method and lies in the valid range; mole fractions and their mass fractions give the same. Whatever was called and selected before, a call returns mixture_property for the current selection. Not so: the validity of the method is tested only when the flag to skip that test is set; a correlation with two temperature terms leaves out the third component, with three terms a binary mixture has no property; the value remembered is never used; coefficients looked up by names do not depend on the order of the components, so that the property does; looked up pairs with different numbers of terms have no property; any method is accepted.',
  'all numbers of components, compositions, pure values, correlations, temperatures, pressures and sequences of calls and selections', 'The results hold for every composition and number of components; tests evaluate a few mixtures, with correlations of two temperature terms for two components.', ['thermo/utils/mixture_property.py: MixtureProperty.calculate', 'thermo/utils/mixture_property.py: MixtureProperty.mixture_property', 'thermo/utils/mixture_property.py: MixtureProperty.__call__', 'thermo/utils/mixture_property.py: MixtureProperty.excess_property', 'thermo/utils/mixture_property.py: MixtureProperty.partial_property', 'thermo/utils/mixture_property.py: MixtureProperty.__init__'])

p('Estimates from groups add up, report missing data, and PPR78 parameters meet their equation',
  "For every assignment of groups and every table of contributions: each linear Joback estimate (Tb, Tm, Vc, Hf, Gf, Hfus, Hvap) is its constant plus the sum of count times contribution, and is None exactly when some group present is unknown or has no contribution; no estimate depends on the order of the groups; one more group shifts Tb by its contribution. Tc is Tb divided by the quadratic in the sum, with the Tb given or else that of the groups: for positive Tb it is above 1.22 Tb or negative. Pc is positive. Whatever was asked before, Cpig is the cubic and mul the exponential in the group sums. The Diky variant adds its constant once and one correction for each ring of three and of four atoms. Fedors' Vc is the sum over atoms, rings, multiple bonds and bonds between rings, with status OK exactly when all of them are known. Wilson and Jasperson's Tc satisfies its fifth power law or is the flagged 2.5 Tb, Pc follows from Tc, and each flag is raised exactly for missing data. After loading, every pair of PPR78 groups has an entry, its own, else that of the reversed pair, else zeros. PPR78_kij makes the cross term of the mixing rule satisfy 2 a12/(b1 b2) = a1/b1^2 + a2/b2^2 - E(T), does not change when the molecules are exchanged, is 0 for alike molecules; PPR78_kijs is symmetric with zero diagonal and holds these parameters. Not so: Joback's Tc is negative for a chain of 75 carbons; the report gives the Tb of the groups although another was supplied; the number of atoms cannot be given without the molecular weight; the Pc flag of Wilson and Jasperson is not raised when Tc is the stand-in; pairs of groups without data are taken as not interacting.",
  'all group counts, tables, temperatures, molecules, numbers of components and histories of requests', 'Additivity, independence of order and symmetry hold for all assignments and tables; tests compare a few molecules with literature values.', ['thermo/group_contribution/joback.py: Joback, DikyJoback, JOBACK_GROUPS', 'thermo/group_contribution/fedors.py: Fedors', 'thermo/group_contribution/wilson_jasperson.py: Wilson_Jasperson', 'thermo/group_contribution/ppr78.py: PPR78_kij, PPR78_kijs, PPR78_INTERACTIONS'])

p('Derivatives of mixture equations of state with respect to amounts at fixed total volume or along the volume root',
  'For every number of components, every composition adding up to one and all differentiable dependence of b, delta, epsilon and a alpha on the amounts, whose derivatives are given: dP_dns_Vt and d2P_dninjs_Vt are the first and second partial derivatives, with respect to the amounts, of the pressure RT/(Vt/n - b) - a/((Vt/n)^2 + delta Vt/n + epsilon) of the amounts in a fixed total volume, and the second ones are symmetric. dA_dep_dns_Vt and d2A_dep_dninjs_Vt are the first and second derivatives of the molar Helmholtz departure there, the pressure following, and are symmetric. dScomp_dns and d2Scomp_dninjs are the first and second derivatives of the molar Helmholtz energy RT sum x ln x + RT ln P of ideal mixing there. At constant temperature and pressure the second derivatives of the volume are those of any root that keeps the pressure and has dP/dV not zero, those of the Helmholtz departure are second derivatives along any such volume, and dH_dep_dzs is the derivative of the enthalpy departure. For Peng-Robinson mixtures the lists that the code computes itself meet these conditions. d3P_dninjnks_Vt differs from the third derivative by (de_k - de_j) times an explicit factor, so it is right when epsilon depends on the amounts of the last two components alike. Not so: on an equimolar Peng-Robinson mixture with b = 1 and 3 the third derivative is not the derivative.',
  'all numbers of components, compositions, temperatures, volumes, parameters as functions of the amounts, and components i, j, k', 'The formulas come from computer algebra and have up to forty terms; tests compare single states with numerical differences.', ['thermo/eos_mix.py: GCEOSMIX.dP_dns_Vt, GCEOSMIX.d2P_dninjs_Vt, GCEOSMIX.d3P_dninjnks_Vt, GCEOSMIX.dA_dep_dns_Vt, GCEOSMIX.d2A_dep_dninjs_Vt, GCEOSMIX.dScomp_dns, GCEOSMIX.d2Scomp_dninjs, GCEOSMIX.dH_dep_dzs, GCEOSMIX.d2V_dzizjs, GCEOSMIX.d2A_dep_dninjs'])

p('Phases of cubic equations of state: one root answers all questions',
  'Every method of CEOSGas that reads the equation of state (volume, departures, their derivatives, fugacity coefficients and their derivatives) gives the value at the gas root if that root was solved for and at the liquid root otherwise, and every such method of CEOSLiquid the reverse, so that all answers of a phase belong to one root; the two classes have the same methods. In every run of calls (constructor, to, to_TP_zs, also with the equation of state object of another phase, lnphis_G_min, lnphis_lowest_Gibbs) the volume a phase answers from never changes once it was made, although other phases share its equation of state object and complete it in place. A phase made from T and P answers from the largest admissible root of the cubic at T, P and zs if it is a gas and from the smallest if it is a liquid, its phase is its class if there are two different roots (or at the critical point of a pure component) and follows the phase identification parameter otherwise, and making it raises ValueError exactly when there is no admissible root; made from T and V or P and V it has that volume. lnphis_G_min always evaluates at the root of lower Gibbs energy (the larger root on a tie), lnphis_lowest_Gibbs (the smaller root on a tie) only for phases from the constructor or sharing an object: for a phase made with to it looks only at its own root, and its answer depends on whether lnphis_G_min was called before. lnphis_at_zs uses the root a phase of the class made at that composition would use, whatever most_stable is. to with T alone raises nothing and returns a phase without an equation of state. Five derivative methods return the value at the other root when their calculation fails. resolve_full_alphas recalculates nothing when both roots have been solved for.',
  'all equations of state (functions giving roots, covolume, Gibbs energy, phase identification parameter), all sequences of calls of any length on any number of phases, all conditions; every method of both classes', 'which root answers depends on the order of calls and on sharing between phase objects, over all conditions; tests see a few single calls', ['thermo/phases/ceos.py: CEOSPhase, CEOSGas, CEOSLiquid', 'thermo/eos.py: GCEOS.solve_missing_volumes, GCEOS.set_from_PT, GCEOS.resolve_full_alphas', 'thermo/eos_mix_methods.py: eos_mix_a_alpha_volume'])

p('Cubic mixtures: derivatives of fugacity coefficients with T and P, and of volumetric derivatives with amounts',
  'For cubic mixture equations of state, dlnphis_dT and dlnphis_dP are the derivatives of lnphis with temperature and with pressure along the volume root: for the general formula (used by the base class, Redlich-Kwong and the volume-translated classes) whenever the volume solves the equation of state around the state, its pressure slope is not zero and the volume is above the poles, at the liquid and at the gas root (gas volumes up to 1e50 for temperature), and then the result does not depend on the lists dV_dns and d2V_dTdns / d2V_dPdns it reads; for the formulas of the Peng-Robinson, Soave-Redlich-Kwong and van der Waals classes for every compressibility factor above b P / (R T) that changes with T or P at the rate the code reads. The fifteen lists of derivatives of the first and second pressure, volume and temperature derivatives (dP_dT ... d2T_dPdV) with mole numbers are the partial derivatives of those fifteen values of a phase whose volume solves the equation of state, for each mole number of a mixture of total amount one, and along any smooth change of composition.',
  'all numbers of components, compositions, temperatures, pressures, volumes above the poles, covolumes, attraction parameters and their derivatives, smooth functions of temperature or amounts', 'derivatives are limits; finite difference tests have errors of their own and see a few states and mixtures', ['thermo/eos_mix.py: GCEOSMIX.dlnphis_dT, GCEOSMIX.dlnphis_dP, PRMIX.dlnphis_dT, PRMIX.dlnphis_dP, SRKMIX.dlnphis_dT, SRKMIX.dlnphis_dP, VDWMIX.dlnphis_dT, VDWMIX.dlnphis_dP', 'thermo/eos_mix.py: GCEOSMIX._dnz_derivatives_and_departures, GCEOSMIX.set_dnzs_derivatives_and_departures'])

p('Cubic mixtures: second derivatives with amounts',
  'For cubic mixtures, d2V_dninjs (and d2V_dzizjs) is the matrix of second derivatives of the molar volume at constant temperature and pressure with amounts (with mole fractions), d2lnphi_dninjs and d2G_dep_dninjs (and the dzizjs versions) are the matrices of second derivatives of ln(phi) of the mixture and of its departure Gibbs energy, dlnphis_dns(i, j) is the derivative with the mole number of j of the logarithm of the fugacity coefficient of i for a mixture of total amount one, dfugacities_dns that of the fugacity of i and dlnfugacities_dns that of its logarithm (for positive amounts of i). These matrices are symmetric (except the last two) whenever those of the covolume, delta, epsilon and the attraction parameter are.',
  'all numbers of components, amounts, temperatures, pressures, parameter functions that are differentiable around the amounts, and volumes that solve the equation of state around them above its poles with nonzero pressure slope', 'derivatives are limits; tests compare a few mixtures with finite differences of finite differences', ['thermo/eos_mix.py: GCEOSMIX._d2V_dij_wrapper, GCEOSMIX.d2V_dninjs, GCEOSMIX.d2V_dzizjs, GCEOSMIX._d2_G_dep_lnphi_d2_helper, GCEOSMIX.d2lnphi_dninjs, GCEOSMIX.d2lnphi_dzizjs, GCEOSMIX.dlnphis_dns, GCEOSMIX.dfugacities_dns, GCEOSMIX.dlnfugacities_dns', 'thermo/utils/functional.py: d2ns_to_dn2_partials'])

p('Composition derivatives of departure functions of cubic mixtures',
  'For a mixture of a cubic equation of state and one of its volume roots, the lists dV_dzs, dZ_dzs, dlnphi_dzs, dG_dep_dzs, dH_dep_dzs and dS_dep_dzs are the gradients with mole fractions, at constant temperature and pressure, of the molar volume, the compressibility, ln(phi) of the mixture and the departures of Gibbs energy, enthalpy and entropy. The lists dV_dns, dZ_dns, dlnphi_dns, dG_dep_dns, dH_dep_dns and dS_dep_dns are the derivatives of the same molar quantities with the amount of each component, and their averages over the mole fractions are zero. dnV_dns, dnZ_dns, dnH_dep_dns, dnG_dep_dns and fugacity_coefficients (which gives logarithms) are the partial molar values, taken for the phase whose root is given, and their averages are the molar value. The lists kept by set_dnzs_derivatives_and_departures for volume, Gibbs energy, enthalpy, internal energy, entropy and Helmholtz energy are the derivatives of these departures with mole fractions or amounts. dlnphis_dzs holds the derivatives of the logarithms of the fugacity coefficients of the components with mole fractions and satisfies the Gibbs-Duhem relation.',
  'every number of components, every composition, temperature and pressure, all differentiable mixing rules, every simple physical root, both phases', 'each list combines several others, and a wrong sign or a missing sum is only seen against independent differentiation at every composition', ['thermo/eos_mix.py: GCEOSMIX.dV_dzs, dV_dns, dnV_dns, dZ_dzs, dZ_dns, dnZ_dns, dH_dep_dzs, dH_dep_dns, dnH_dep_dns, dS_dep_dzs, dS_dep_dns, dlnphi_dzs, dlnphi_dns, dG_dep_dzs, dG_dep_dns, dnG_dep_dns, fugacity_coefficients, d2V_dzizjs, d2lnphi_dzizjs, dlnphis_dzs, set_dnzs_derivatives_and_departures'])

p('Standard entropies and standard state formation properties',
  'standard_state_ideal_gas_formation returns functions of temperature that obey thermodynamics. Away from phase transitions of the elements the slope of the enthalpy is the heat capacity of the compound less that of its elements in their stable phases (Kirchhoff), the slope of the entropy is this over T, the Gibbs energy is H - T S, its slope is -S, and it stays continuous across every melting, boiling and solid transition of the elements. NotImplementedError is raised exactly when an element has no standard state. At T = T_ref the given reference values are returned if no element of the compound melts below T_ref; for hydrogen bromide they are not: the heat of fusion of bromine is subtracted although its reference state is liquid. The store of reactions holds at most 250 entries and never changes an answer unless two compositions share a hash; a call with cache=False always fails. standard_entropy is the sum of heat capacity integrals and transition entropies along the path from T_low, up to the gas with force_gas or above the boiling point, up to the liquid between the melting and the boiling point; a substance that is solid at T_ref is given the entropy at its melting point. S0_basis_converter moves between liquid and gas along the path through the boiling point, is its own inverse, and takes standard_entropy of the liquid to that of the gas.',
  'all compounds and formation reactions, all heat capacities continuous at positive temperatures, all temperatures and reference temperatures, every sequence of calls, all lists of transitions', 'the tests compare a few compounds with tables, with tolerances of up to 30 percent; they cannot show a slope or continuity at every temperature, and hide an offset of the reference state', ['thermo/chemical_utils.py: standard_entropy, S0_basis_converter, standard_state_ideal_gas_formation'])

p('Flash with K values independent of composition, hot starts and the phases of a flash with several liquids',
  'When no phase has fugacity coefficients that depend on composition, the flash at T and P returns the feed as gas only where it is at or above its dew point, the feed as liquid only where it is at or below its bubble point, and else two phases with y = K x, z = (1 - VF) x + VF y and 0 <= VF <= 1, with the gas first and its fraction first. Strictly below the bubble point the answer is the liquid, strictly above the dew point the gas, and strictly between both it is two phases. ValueError is raised only if the inner loop refuses a feed that has K values on both sides of one. With one phase possible the feed is that phase. phases_at gives every liquid in order at the conditions. A hot start is used only with two or more phases and no given solution; its answer is that of the start if it succeeds and the answer without it otherwise, and it never makes a flash fail that succeeds without it.',
  'all numbers of components, all compositions, all positive K values, all lists of liquids and tables of unique liquids, all outcomes of the flashes that are called', 'the tests flash a few mixtures; the number of phases must agree with the bubble and dew criteria for every feed, also when the inner loop gives up or extrapolates to a fraction outside zero to one', ['thermo/flash/flash_vln.py: FlashVLN.flash_TP_K_composition_idependent, FlashVLN.phases_at, FlashVLN.flash_TPV_hot, FlashVLN.flash_TPV'])

p('Activity coefficients at infinite dilution and direct fugacity coefficients',
  'gammas_infinite_dilution evaluates each activity coefficient in a mixture whose mole fractions sum to one, that holds the trace content of the component set by the model, and the other components in their proportions. With trace content zero the value is the limit of the activity coefficient as the component vanishes, it does not depend on how much of the component the model was made with, and for a model made for the pure component it does not exist (an error is raised). lnphis_direct computes every cubic equation of state by the function of its family and no other, chooses the activity model by the hundreds of its number, and raises an error for all other numbers; the numbers of the Flory-Huggins and Hansen models choose the regular solution. fugacities_direct of an activity model gives x gamma Psat phi_sat Poynting at every pressure.',
  'all numbers of components, all mixtures, all activity models given as functions of composition, all integer model numbers, all positive pressures and saturation properties', 'a limit at zero content and the choice for every number cannot be reached by examples; the tests use a few mixtures and a few classes', ['thermo/activity.py: GibbsExcess.gammas_infinite_dilution', 'thermo/phases/phase.py: Phase.gammas_infinite_dilution', 'thermo/phases/phase_utils.py: lnphis_direct, fugacities_direct, activity_lnphis'])

p('Accelerated successive substitution',
  'The two accelerated flashes (dominant eigenvalue method GDEM3, and the method of Mehra) never run out of stored iterations. A result they return splits the feed exactly, with y = K x and mole fractions that sum to one, is not trivial, was found within the iterations allowed, and its error is below the tolerance. This error is the sum of squares of the ratio of fugacities of the returned phases less one, unless the last iteration was an accelerated one, in which case it is measured with the extrapolated K values. GDEM3 accelerates at iterations 5, 10, 15, ...: its arguments acc_frequency and acc_delay have no effect. Mehra accelerates at the multiples of acc_frequency beyond acc_delay, and with an exponent of one its step is the plain one.',
  'all numbers of components, all fugacity coefficient models, all feeds and guesses, all tolerances, iteration limits and acceleration settings, every number of iterations', 'the tests run a few mixtures to convergence; they do not show that the error returned is that of the fugacities, nor that the settings are used', ['thermo/flash/flash_utils.py: sequential_substitution_GDEM3_2P, sequential_substitution_Mehra_2P'])

if __name__=='__main__':
    with open('/verif/properties.jsonl','w') as f:
        for d in P: f.write(json.dumps(d)+"\n")
    print(len(P))
