c('C01', P, 'C01_pressure_derivatives C01_pressure_derivatives_VDW', 'First and second derivatives of P(T,V) returned by main_derivatives_and_departures (generic and VDW forms).')
c('C02', P, 'C02_H_dep C02_S_dep C02_Cv_dep C02_lnphi C02_departures_VDW', 'Departure functions equal their defining integrals/limits for delta^2 > 4*epsilon and for the VDW form.')
c('C04', P, 'C04_V_of_T C04_V_of_P C04_T_of_P C04_T_of_V C04_V_mixed C04_T_mixed', 'All implicit first and second derivatives among T, P, V.')
c('C03', P, 'C03_H_isobar C03_S_isobar C03_HS_isotherm C03_HS_isochore_T C03_HS_isochore_P C03_HS_volume_T C03_HS_volume_P C03_HS_mixed C03_VDW', 'Every reported first and second derivative of H_dep and S_dep along isobar, isotherm, isochore. delta^2 > 4*epsilon exactly; for VDW (delta^2 = 4*epsilon) exact for S and dH/dP and within a proved relative bound for dH/dT, because the code replaces 0 by 1e-100.')
c('C05', P, 'C05_any_departures C05_dT_on_eos C05_dP_on_eos', 'Derivatives of fugacity and phi, for arbitrary departures and end to end on the cubic EOS, where they also equal -phi*H/(RT^2) and f*V/(RT).')
c('C47', P, 'C47_isobar C47_isotherm C47_density_variable C47_density_mixed C47_density_cross C47_pressure_derivatives_along C47_heat_capacities C47_energies', 'Z, density, beta, kappa, Cp_dep, U/A/G departures and their derivatives.')
c('C06', P, 'C06_*', 'Every alpha-function class in eos.py and eos_alpha_functions.py. Restrictions: Chen-Yang needs a positive logarithm argument, Almeida T <> Tc (the code divides by zero there), Mathias-Copeman second derivative away from Tc, Twu 1995 above Tc/200 and away from its 1/1000 floor. C06_TwuPR95_low_refuted exhibits the wrong derivative below Tc/200.')
c('C07', P, 'C07_*', 'All classes; Saffari and non-normalised polynomial Mathias-Copeman are refuted by witnesses.')
c('C08', P, 'C08_*', 'All vectorised routines that exist, for any number of components and any buffer contents.')
c('C09', P, 'C09_*', 'RK.solve_T (complex arithmetic with truncated constants) is not modelled. C09_SRKTranslatedPPJP_refuted: that class inherits a solve_T built for other delta and epsilon.')
c('C48', P, 'C48_*', 'PR and SRK.')
c('C10', P, 'C10_*', 'fluids.numerics root finders (roots_cubic, newton, brenth) are outside the repository: Cardano takes any correct cubic root finder, the fast solver any complex square and cube root; C10_doubledouble_float_refuted and _defect show the sign error in volume_solutions_doubledouble_float; floating point is idealised')
c('C11', P, 'C11_*', 'roots in floating-point range (below 1e100); C11_negative_covolume_refuted exhibits the behaviour for b < 0')
c('C12', P, 'C12_*', 'C12_requested_T_refuted: discriminant(T) with T different from the object temperature has the wrong sign for a witness')
c('C13', P, 'C13_*', 'decimal class constants taken as written in the source')
c('C14', P, 'C14_*', 'three findings (absent components, uncleared buffers) proved as _refuted theorems')
c('C15', P, 'C15_*', 'b, delta, epsilon and c for every mixture class; a_alpha and its two temperature derivatives for the four implementations of the mixing rule')
c('C16', P, 'C16_*', 'first, second and third derivatives of b, delta, epsilon for the RK, SRK, PR, VDW and translated PR/SRK classes and of a_alpha; first composition derivatives of its temperature derivatives')
c('C17', P, 'C17_*', 'PR, SRK, RK, translated PR/SRK, VDW; the class methods and the *_fastest routines with the root they select; C17_VDW_kij_refuted: the VDW routine ignores k_ij')
c('C29', P, 'C29_*', 'every history of assignments, list assignments, clears; the constructor, state-variable, H_reactive, mass-based and update() exceptions are proved as _refuted witnesses')
c('C30', P, 'C30_*', 'flash is an arbitrary function of its arguments; stale reads after changing H_mass or flasher and the endless recursion with energy and Q are proved as _refuted witnesses')
c('C31', P, 'C31_*', 'StreamArgs views from every composition spec with every flow spec, component-flow specs, and EquilibriumStream; unit conversion routines of chemicals are modelled from their documented definitions')
c('C32', P, 'C32_*', 'any numbers of inlets, outlets, components and any pattern of unknowns; the exceptions are proved as _refuted witnesses')
c('C33', P, 'C33_*', 'EnergyStream, EquilibriumStream and StreamArgs, reactive or not; the exceptions are proved as _refuted witnesses')
c('C18', P, 'C18_*', 'any number of components, any parameter matrices; the alpha shortcut flag is the one computed by the constructor')
c('C19', P, 'C19_*', 'class methods, gammas_from_args with any work lists, the stand-alone NRTL_gammas, and NRTL_gammas_binaries with its Jacobian strictly above the clipping limits; below them the Jacobian is wrong (_refuted witness)')
c('C20', P, 'C20_*', 'class methods, gammas_from_args, the stand-alone Wilson_gammas, wilson_gammas_binaries with its Jacobian; an output list that is not zero is added to, proved as a _refuted witness')
c('C21', P, 'C21_*', 'class methods for any number of components, gammas_from_args, stand-alone UNIQUAC_gammas, UNIQUAC_gammas_binary and UNIQUAC_gammas_binaries')
c('C22', P, 'C22_*', 'any number of components; Hansen second and third composition derivatives are numerical in the code and not modelled; the Jacobian of the binary form is wrong above the cap on gamma (_refuted witness)')
c('C24', P, 'C24_*', 'generic theorems for any differentiable GE plus instances for NRTL, Wilson, UNIQUAC, RegularSolution, FloryHuggins and (first order) Hansen; the general statement of dgammas_dns is false without equal weighted row sums (_refuted witness)')
c('C25', P, 'C25_*', 'every model of the package; UNIQUAC raises at a zero mole fraction, proved as _refuted, and its limit is proved')
c('C26', P, 'C26_*', 'any twice differentiable GE(T, x)')
c('C28', P, 'C28_*', 'any differentiable function of composition; the second-order conversion is false without equal weighted row sums (_refuted witness)')
c('C27', P, 'C27_*', 'every modelled function with an optional output or work list; the two exceptions are proved as _refuted witnesses')
c('C23', P, 'C23_*', 'any number of components, terms and pairs; a diagonal pair, a pair given in both orders and 4 or 5 temperature terms are _refuted witnesses')
c('C34', P, 'C34_*', 'all argument combinations and all real values; the algorithms called are opaque; over-specified calls that are accepted are _refuted witnesses')
c('C35', P, 'C35_*', 'any number of phases; scores and sort properties are arbitrary functions of the phase; failures are _refuted witnesses')
c('C42', P, 'C42_*', 'any number of ions; anions negative, cations positive; the 1e-7 tolerance and the choice of the dominant ion are _refuted witnesses')
c('C45', P, 'C45_*', 'any number of components, any index list or slice; property names and constructor tables are generated from the source; losses and undocumented errors are _refuted witnesses')
c('C41', P, 'C41_*', 'any tables and any component list; CAS_to_int and check_CAS are arbitrary functions; the documented automatic lookup, decreasing keys and asymmetric tables read as symmetric are _refuted witnesses')
c('C43', P, 'C43_*', 'states with dP_dT and dP_dV nonzero; first law and Maxwell relation assumed where the statement says so; zero dP_dT and the mixed derivatives of IdealGas are _refuted witnesses')
c('C46', P, 'C46_*', 'positive T and V and non-zero pressure derivatives; correlations, solver and the C mixing rule of chemicals.virial are arbitrary functions with their documented behaviour as hypotheses; Cp_dep at constant pressure and the Zeros option are _refuted witnesses')
c('C44', P, 'C44_*', 'a phase is the values its methods return; phase fractions non-negative and adding up to one and positive values where the statement says so; the liquid bulk beside a gas, quality with solids, the shared volume fraction cache, S_dep, S_ideal_gas of a bulk phase, H_C_ratio and humidity_ratio of a phase are _refuted witnesses')
c('C36', P, 'C36_*', 'positive temperatures below Tc where the formula uses Tc, method values for which the coefficients exist, finite limits; formulas of chemicals and fluids written from their documentation; clamped jump, clamped derivative, constant kink and unchecked bounds are _refuted witnesses')
c('C37', P, 'C37_*', 'method differentiable inside finite limits, exact quadrature and exact integrals of the method itself as hypotheses, no clamps; integration with a clamp is a _refuted witness')
c('C38', P, 'C38_*', 'histories in which add_method and add_tabular_data use names not in use; built-in methods, numerical derivatives and interpolation are arbitrary functions; interpolation transforms are not modelled; re-supplied names, the __call__ cache after a change of extrapolation, the extrapolation setter and a failed add_correlation are _refuted witnesses')
c('C39', P, 'C39_*', 'temperatures below Tc for functions of ln(1 - T/Tc); functions of fluids.numerics written from their documentation; exact quadrature as hypothesis where no closed form is used; numerical derivatives are not modelled; mirrored variable, polynomial correlations and calculate_integral beyond the limits are _refuted witnesses')
c('C40', P, 'C40_*', 'the hooks _custom_as_json and _custom_from_json, sets, ranges and classes whose __new__ raises are not modelled; aliasing of plain containers between the object and the json is not modelled; second loading, text like a reference, lists of objects in vectorized objects and nested recalculable attributes are _refuted or negative theorems')
c('C49', P, 'C49_*', 'the functions supplied by chemicals.iapws and chemicals.air are arbitrary smooth functions; numerical root finding for T and V and the caches are not modelled; entropy departure and A() are _refuted witnesses')
c('C50', P, 'C50_*', 'GibbsExcessLiquid; the pure component data are functions with their derivatives, the activity model enters through ge and gamma')
c('C51', P, 'C51_*', 'UNIFAC class values without the caches; composition derivatives for two or more components, C51_single for one; composition derivatives treat the mole fractions as independent')
c('C52', P, 'C52_*', 'the external Rachford-Rice solvers are arbitrary functions that return solutions or raise; specifications by T, P; the claims about the first iteration are _refuted witnesses')
c('C53', P, 'C53_*', 'the Rachford-Rice solver and the fugacity model are arbitrary functions; infinities and not-a-number values are not modelled; the options that do not do what they say are _refuted theorems')
c('C54', P, 'C54_*', 'flash_TPV with T and P of the two phase flasher with one liquid model; the Rachford-Rice solver, the Gibbs energies, the guesses and the fugacity model are arbitrary functions; the two exceptions are _refuted theorems')
c('C55', P, 'C55_*', 'all of StabilityTester but the SciPy minimisations; the random numbers are arbitrary positive values; float underflow of a Wilson ratio to zero is only met when a critical pressure is zero')
c('C56', P, 'C56_*', 'newton and brenth of fluids.numerics are parameters; the uniqueness and answer theorems assume that they return a root they evaluated')
c('C57', P, 'C57_*', 'root finders are parameters; CoolProp and IAPWS-95 branches are not modelled')
c('C58', P, 'C58_*', 'the one phase solver, spec_fun, CoolProp and IAPWS-95 branches are not modelled; the criterion is arbitrary')
c('C59', P, 'C59_*', 'floats as reals; phase objects abstract; answers given after the last allowed iteration are excluded')
c('C60', P, 'C60_*', 'one model for the four functions, with their differences as parameters')
c('C61', P, 'C61_*', 'floats as reals; flash and check abstract')
c('C62', P, 'C62_*', 'floats as reals; flash abstract; the root finders themselves are not modelled')
c('C63', P, 'C63_*', 'floats as reals; newton, secant, brenth, the oscillation detection and best_bounding_bounds are arbitrary lists of evaluations with an outcome; the bounds of CoolProp phases are not modelled')
c('C64', P, 'C64_*', 'floats as reals; the two phase flash, the stability test, the N phase iteration and the last attempt are arbitrary functions; the solid and the composition independent flashes are not modelled')
c('C65', P, 'C65_*', 'the matches of RDKit are given: nonempty tuples of different atoms; group keys are natural numbers; separators are single characters; the order of the union of several patterns is arbitrary')
c('C66', P, 'C66_*', 'the temperature dependent side, the built in methods and the interpolation inside a table are parameters; the interpolation transforms are constant; names are natural numbers')
c('C67', P, 'C67_*', 'pure components are functions of T and P; mixing_simple, the conversions of fractions and derivative (a central difference) of the libraries are modelled by their definitions; floats are reals')
c('C68', P, 'C68_*', 'the groups, rings and bonds found by RDKit are inputs; the Joback table is generated from the source, the other tables are arbitrary; floats are reals')
c('C69', P, 'C69_*', 'floats as reals; catanh(x).real is half of ln|(1+x)/(1-x)|; x**(k/2) is the real power; the volume along the root is assumed twice differentiable')
c('C70', P, 'C70_*', 'the tables of methods are generated from the syntax tree of ceos.py by tools/gen_ceos.py; the equation of state is a parameter; mu, k, the transitions, V_iter and phi_pures are not modelled')
c('C71', P, 'C71_*', 'translated from the source by tools/spec_dlnphi.py (Gen_dlnphi.v); real arithmetic; the exception handler of dlnphis_dP for infinite volumes and the departure derivatives in set_dnzs_derivatives_and_departures are not modelled here')
c('C72', P, 'C72_*', 'translated from the source by tools/spec_d2comp.py (Gen_d2comp.v); delta^2 > 4 epsilon; the exception handlers around the fugacities are not modelled')
c('C73', P, 'C73_*', 'The mixing rules are arbitrary differentiable functions whose derivative lists the object holds (C72 and C17 prove those of the classes); conversions of the chemicals library are taken from their documentation (C28). The case of equal roots of V^2 + delta V + epsilon is not covered.')
c('C74', P, 'C74_*', 'Integrals are exact integrals; standard_formation_reaction and hash are parameters; choice of method of the heat capacity objects is not modelled.')
c('C75', P, 'C75_*', 'flash_inner_loop of the chemicals library is a parameter, with the contract that the split it returns satisfies the equations with mole fractions that are not negative. phases_at with a volume is not modelled.')
c('C76', P, 'C76_*', 'The limit theorem assumes that the activity coefficient is continuous from the right at zero content, which is a property of the model and not of this function. trunc_exp is exp.')
c('C77', P, 'C77_*', 'flash_inner_loop and gdem are parameters; the former is assumed to return, for positive K values, a split with positive mole fractions or to raise an error.')
