# Formal model of CalebBell/thermo in Rocq — design

## 1. How the model is made

Two kinds of model files live in `rocq/theories/`.

* **Generated models (`Gen_*.v`)**. `tools/py2v.py` reads a Python function of `/repo/thermo` with Python's own
  `ast` module and prints one Gallina definition per function, statement by statement: assignments become `let`,
  `for i in range(n)` becomes `loop n`, `a[i] = e` becomes `upd a i e`, `if` becomes `if`. Every definition carries
  the file and line range it was made from. The generated text is committed; the tool is not needed to build.
* **Hand-written models (`Model_*.v`)**. Stateful and symbolic code (StreamArgs, caches, root selection, phase
  sorting, serialisation, databases, ...) is transcribed by hand into total functions on plain data, with exceptions
  as values, again citing file and lines.

Numbers: Python floats are modelled as mathematical reals (Coq's `R`) in the numerical parts. Rounding, overflow,
NaN and infinities are NOT modelled: the theorems say that the formulas are the right formulas.
Lists of floats indexed by component are functions `nat -> R`, matrices `nat -> nat -> R`; only indices below `N`
are meaningful. Decision and bookkeeping code uses `option`, `list`, `Z`, `string`.

Specification vocabulary is kept apart from the model: `is_derive` (Coquelicot's derivative relation),
`is_lim`, `rsum n f` (finite sum), and per-area `Spec_*.v` files.

## 2. Per-property plan

| id | modelled | how proved |
|----|----------|-----------|
| C01 | `main_derivatives_and_departures`, `_VDW` (generated) | `is_derive` for all T,V; `auto_derive` + `field` |
| C02 | same, `eos_lnphi` | V-derivative identities + `is_lim` at +infinity |
| C03 | the departure-derivative properties (generated) | chain rule along arbitrary curve V(T) on the EOS |
| C04 | inverse/implicit derivative code | implicit differentiation of arbitrary branch |
| C05 | fugacity/phi derivative properties | chain rule |
| C06,C07 | every alpha function (generated) | `is_derive`, evaluation at Tc |
| C08 | vectorised alpha functions | loop induction |
| C09 | `a_alpha_for_V`, analytic `solve_T` | algebra over R |
| C10 | closed-form and iterative volume solvers | algebra over C and R, fixed-point characterisation |
| C11 | `set_from_PT` on lists of complex roots | list induction, permutation invariance |
| C12 | `discriminant` | refutation plus positive part |
| C13 | EOS constants and P(V) | exact algebra (VDW); interval style bounds for rounded constants |
| C14-C17 | `eos_mix_methods.py` | loop invariants; finite-sum algebra |
| C18-C28 | activity models | loop invariants to closed-form sums, then derivative of finite sums |
| C29-C33 | `StreamArgs`, `mole_balance`, `energy_balance` | invariants by induction over operation lists, list algebra |
| C34-C35 | `flash` dispatch; `identify_sort_phases` | case analysis; permutation proofs |
| C36-C39 | `TDependentProperty` | continuity/derivative proofs, state-machine invariants |
| C40 | `serialize.py` | object-graph induction |
| C41 | `InteractionParameterDB` | list induction |
| C42 | `balance_ions` helpers | list sums |
| C43-C46 | phases, bulk, constants package, virial | algebra, list induction |
| C49-C50 | Helmholtz/Gibbs energy phases, activity coefficient liquid | partial derivatives of composed functions |
| C51 | `UNIFAC` (all routines) | loops to closed-form sums (UnifacForms), curves of group quantities (UnifacFacts), then the object's values (UnifacModel, UnifacComb, UnifacDeriv) |
| C52 | `sequential_substitution_2P`, its functional version, `sequential_substitution_NP`, the flasher's method | the loop follows the sequence of iterates up to the first event (induction on the iterations left); then consequences of the Rachford-Rice equations |
| C53 | `stability_iteration_Michelsen` (flash_utils 3914-4086), `FlashVL.stability_test_Michelsen` (flash_vl 527-654) | invariant of the iteration (K z = S w); the tangent plane distance from it by logarithms; Cauchy-Schwarz for the sign of the fraction; induction over the trials for the verdict and each option |
| C54 | `FlashVL.flash_TPV`, `flash_TP_stability_test`, `flash_2P` at given T and P (flash_vl 656-826) | case analysis over the outcomes of C52 and C53; for composition independent coefficients the trial is followed through to the exact split |
| C55 | `StabilityTester` (property_package 247-542) | the generator as a list of items; normalisation lemma; the order as a list of predicates matched one to one with the guesses |
| C56 | the vapour fraction flashes with composition independent ratios (flash_utils 3463-3576, flash_vl 367-372, 443-449) | residual as a finite sum; derivative term by term; strict monotonicity and the intermediate value theorem between dew and bubble pressure |
| C57 | pure saturation solvers (flash_utils 3220-3460) and their callers (flash_pure_vls 469-596) | phases as functions of T and P; root finders as parameters with the point they evaluated last |
| C58 | the choice of the phase in the pure flash (flash_pure_vls 340-467, 598-962) | induction over the lists of phases for the running minimum; preference relation shown transitive |
| C59 | dew_bubble_Michelsen_Mollerup as a loop over states with continue, break and raise (flash_utils 1967-2136) | induction over the remaining iterations; invariant of damping and tolerance; derivative by Coquelicot |
| C60 | the four direct functions as one loop with two switches (flash_utils 2289-2584) | induction over the remaining iterations |
| C61 | generate_phase_boundaries_naive as a search over the guesses with the points found so far (flash_utils 4590-4751) | induction over the guesses with an invariant of the points found |
| C62 | the composition arithmetic, checks, bound search, choice of result and choice of method (flash_utils 4525-5205, flash_base 575-618) | least upper bound of the ratios by induction; invariant of the bounds found; sublists and permutations for the stability results |
| C63 | the bracketing, the two solvers with the store and counter, the simple models with unbound local variables, the choice of the guess (flash_utils 2626-3215) | induction over the evaluations; intermediate value theorem; case analysis of the pairs of variables |
| C64 | flash_TPV, flash_TVF and flash_PVF of flash_vln.py as functions of the outcomes of their solvers (203-237, 339-619) | inversion of the control flow into six ways to return, with the Gibbs energy carried as an invariant; loops over liquids by induction |
| C65 | run_match, the search over matches set aside, smarts_fragment with its removal of overlaps, the strings (group_contribution_base.py 35-62, 100-613) | an invariant of the greedy run over the matches seen so far; induction over the search; permutations for coverage; splitting and joining of strings by induction |
| C66 | the object as a state machine: methods, tables, interpolators, remembered value (tp_dependent_property.py 96-514) | an invariant over histories: the interpolators are those of the current tables, and the remembered value is the fresh one since the last reset |
| C67 | calculate, mixture_property, excess and partial properties, the remembered value, the coefficients looked up for pairs (mixture_property.py 99-567) | sums over components; the inequality of the means from the tangent of exp; an invariant over histories: the remembered key is a list and never equal to the tuple of a call |
| C68 | the estimates and the objects keeping coefficients (joback.py 230-1322, fedors.py, wilson_jasperson.py, ppr78.py 734-970) | induction over the items of dictionaries and the double loops; invariants over histories of requests and over the loop completing the table; permutations for the order of sets |
| C69 | the generated functions of eos_mix.py 3800-5030 (Gen_eosvt.v) | calculus of partial derivatives with respect to amounts (sums, products, quotients, logarithm, catanh over a square root) to third order, then field identities; loops by their entries, mirrored for lower triangles; implicit differentiation for the root |
| C70 | the methods as tables generated from the source, the phase and equation of state objects as a heap with sharing, one step per call (Gen_ceos.v, Model_ceos.v, on top of Model_roots.v) | row check of the tables lifted to all evaluations; an invariant of all runs (solved roots are the extreme ones, a phase with two roots has its own) preserved by each call; findings by witnesses or general theorems |
| C71 | dlnphis_dT and dlnphis_dP of the four formulas and the loops of the mole number derivatives, translated from the source (Gen_dlnphi.v) | derivative of each formula by the chain rule along the root; the general formula through C02, C03 and C04 (departures) and the vanishing of the coefficients of dV_dns and of the second derivatives on the equation of state |
| C72 | the two matrix helpers and the loop of dfugacities_dns translated from the source (Gen_d2comp.v), the matrix of dlnfugacities_dns by hand | derivative of the first-order formulas of C17 along a change of one amount, lifted to functions of all amounts; row-by-row loop invariants for the fugacity matrices |
| C73 | `Model_mixdep.v`: the methods as functions of the attributes of the mixture, on the generated routines; a missing attribute of a phase is `None` | along every path of compositions: the volume by implicit differentiation, the others by the chain rule; conversions by C28, second derivatives by C72 |
| C74 | Model_formation.v: standard_entropy, S0_basis_converter, the branch of each kind of element, the loop over the elements and the store of reactions | heating path with two changes of phase: derivative by the fundamental theorem, continuity of H - T S by min and max; induction over the elements; invariant over calls for the store |
| C75 | Model_kflash.v: the flash from K values, phases_at, flash_TPV_hot and the head of flash_TPV | sums of z K and z / K are written in the split and bounded by 1/K >= 2 - K and K K >= 2 K - 1; induction over components for the flags, over lists for phases_at |
| C76 | Model_direct.v: the diluted mixture, the choice by model number, ln(phi) from an activity model | sums with one entry replaced; case analysis on the numbers with integer arithmetic; limit from the right |
| C77 | Model_accss.v: the rules for K values and the common loop | invariant over iterations: number of stored vectors equals the iteration, y = K x, positive fractions; induction over the iterations left |

Anything false of the faithful model is stated as a `..._refuted` theorem with a witness, next to the
strongest positive theorem found.

## 3. Trusted base

* Coq 8.16.1's kernel. No axiom is declared in `rocq/theories`, no kernel check is switched off, and no proof is left open.
* The axioms that `Print Assumptions` lists. They are all of the standard library:
  * `ClassicalDedekindReals.sig_forall_dec`, `ClassicalDedekindReals.sig_not_dec` (the real numbers),
  * `FunctionalExtensionality.functional_extensionality_dep`,
  * `Classical_Prop.classic` (where Coquelicot uses it).
  `ASSUMPTIONS.md` lists the axioms of every theorem named in MANIFEST.json.
* The correspondence between the Python text and the Gallina text: the translator `tools/py2v.py` for `Gen_*.v`, the reader's eye for
  `Model_*.v`. Every definition cites the lines it was made from.

### 3.1 What is modelled

`COVERAGE.md` lists, file by file, the functions that the model cites. Where only a part of a function is modelled the comment beside
the definition says which. In short: the cubic equations of state, their alpha functions, mixing rules and derivatives; the volume
solvers in closed form and the choice of roots; the activity models (NRTL, UNIQUAC, UNIFAC, Wilson, regular solution, Redlich-Kister)
and what the base class derives from them; the virial, Helmholtz, Gibbs and ideal gas phases; the virtual methods of `Phase` that
combine them; the flash algorithms (successive substitution, stability test, pure saturation, dew and bubble solvers, vapour fraction,
enthalpy and entropy specifications, several liquids, the search for phase boundaries); the identification and sorting of phases;
bulk phases and flash results; streams and their balances; ion balancing; temperature, pressure and composition dependent property
objects as state machines; group contribution; serialisation; databases of parameters.

### 3.2 What is assumed of other libraries

These are inputs of the model: arbitrary functions, or functions with the property stated in the theorem that uses them.

* root finders of `fluids.numerics` (`newton`, `secant`, `brenth`, `bisect`, `newton_system`, `fsolve`): arbitrary; where a theorem speaks of
  an answer, it speaks of a point at which the residual was evaluated and passed the stated test;
* `flash_inner_loop`, `Rachford_Rice_solutionN` of `chemicals`: solutions of the Rachford-Rice equations where the theorem says so;
* `chemicals` and `fluids` correlations, `normalize`, `mixing_simple`, `mixing_logarithmic`, `ws_to_zs`, `zs_to_ws`, `derivative`: by their definitions;
* RDKit matches, `identifiers` lookups, scipy interpolators, CoolProp: data;
* Python itself: dictionaries keep insertion order, `sorted` is stable, exceptions propagate; `id` of objects is an address.

### 3.3 What is not modelled

Floating point (rounding, overflow, NaN and infinities): the numerical theorems say that the formulas are right over the reals.
numpy array variants of list code, numba and vectorised wrappers, plotting, printing, `__repr__`, docstrings, deprecated `Chemical` and
`Mixture` classes, CoolProp and IAPWS phases, electrolyte models, the regression code around `fit`, data files and the data themselves,
and every function not listed in `COVERAGE.md`.

## 4. Findings (statements false of the code, each proved as a `_refuted` theorem with a witness)

| property | finding | theorem |
|---|---|---|
| C06 | `TwuPR95`/`TwuSRK95` alpha derivatives are wrong below Tc/200 | `C06_TwuPR95_low_refuted` |
| C07 | Saffari alpha is not 1 at Tc; polynomial Mathias-Copeman is not continuous there | `C07_*_refuted` |
| C09 | `SRKTranslatedPPJP` inherits a `solve_T` for other delta and epsilon | `C09_SRKTranslatedPPJP_refuted` |
| C10 | sign error in `volume_solutions_doubledouble_float` | `C10_doubledouble_float_refuted` |
| C11 | root selection with negative covolume | `C11_negative_covolume_refuted` |
| C12 | `discriminant(T)` ignores the requested temperature in one term | `C12_requested_T_refuted` |
| C14 | zero fractions and uncleared work buffers | `C14_*_refuted` |
| C17 | the VDW fugacity routine ignores k_ij | `C17_VDW_kij_refuted` |
| C29 | constructor accepts two flow specs; energy set before a flow is not counted; H_reactive is not counted; `update` is not atomic | `C29_*_refuted` |
| C30 | the `flash_state` cache key omits `H_mass` and the flasher; `energy` with `Q` recurses for ever | `C30_*_refuted` |
| C31 | fractions that do not sum to 1 make `n` differ from the sum of `ns` | `C31_unnormalized_refuted` |
| C32 | a partly known stream that is the only incomplete one is overwritten and does not balance; success without change; `use_mass=False` overwrites mass-specified streams | `C32_*_refuted` |
| C33 | one-in one-out copies the molar enthalpy even if the molar flows differ; `reactive=True` treats fully specified streams as unknown and raises; two unknowns on one side may overwrite a known mass flow | `C33_*_refuted` |
| C19 | NRTL_gammas_binaries_jac returns a non-zero slope for a parameter below its clipping limit, where the result is constant | C19_binaries_jac_below_limit_refuted |
| C20, C27 | wilson_gammas_from_args (Wilson.gammas_from_args) adds to the caller's output list instead of overwriting it | C20_gammas_from_args_buffer_refuted |
| C22 | regular_solution_gammas_binaries_jac ignores the cap on gamma: above it the result is constant but the Jacobian entry is not zero | C22_binaries_jac_above_cap_refuted |
| C24 | gibbs_excess_dgammas_dns is the mole-number derivative only if the composition-weighted row sums of the Hessian are equal (true of every model of the package) | C24_dgammas_dns_refuted |
| C25 | UNIQUAC.GE raises (division by zero / log of zero) for a pure component | C25_UNIQUAC_pure_refuted |
| C28 | d2xs_to_dxdn_partials is not the mole-number derivative in general | C28_d2xs_to_dxdn_partials_refuted |
| C27 | PR_lnphis with a vanishing attraction parameter returns from inside its loop: only the first entry of the output list is written | C27_PR_lnphis_refuted |
| C27 | wilson_gammas adds to its output list | C27_wilson_gammas_refuted |
| C23 | a pair (i, i) gives a pure component an excess; a pair given in both orders is averaged instead of added or refused; 4 or 5 temperature terms can be fitted but not evaluated by the table | C23_diagonal_refuted, C23_both_orders_refuted, C23_terms_4_5_refuted |
| C34 | over-specified flashes are accepted, some of the specifications being dropped silently (T,P,H; T,H,G; VF,V,H; V with rho) or all passed on (T,P,V) | C34_T_P_V_refuted, C34_T_P_H_refuted, C34_VF_V_H_refuted, C34_V_rho_refuted, C34_T_H_G_refuted |
| C35 | two liquids with equal sort keys raise TypeError; two forced gases raise ValueError; a forced gas shifts the score list so that a lower scoring phase becomes the gas; betas=None raises although it is tested for | C35_equal_density_refuted, C35_two_forced_gases_refuted, C35_forced_gas_refuted, C35_no_fractions_refuted |
| C42 | an imbalance below 1e-7 is returned as it is; the dominant ion is the one with the largest charge contribution, not (as documented) the largest mole fraction | C42_tolerance_refuted, C42_dominant_largest_fraction_refuted |
| C45 | subset and with_new_constants lose the atom fractions; absent identifiers raise KeyError or ValueError instead of the documented IndexError; with repeated components CAS numbers find the last and names the first; list lengths are not checked; PropertyCorrelationsPackage.subset(None) raises TypeError; given mixture objects are lost by subset; packages lacking a property cannot be added; the default ThermalConductivityGas gets the liquid viscosity as its gas viscosity | C45_atom_fractions_refuted, C45_documented_error_refuted, C45_repeated_component_refuted, C45_lengths_refuted, C45_subset_none_refuted, C45_mixture_objects_refuted, C45_add_missing_refuted, C45_gas_viscosity_refuted |
| C41 | the automatic lookup uses the first table of the type even when it lacks the entry (documented: the first table containing it); an entry stored in decreasing CAS order passes validation and is never found; the symmetric matrix of an asymmetric table repeats the upper entries | C41_automatic_refuted, C41_decreasing_key_refuted, C41_symmetric_matrix_refuted |
| C43 | dV_dP (and what is computed from it) divides by zero where dP_dT = 0, although the derivative exists; IdealGas returns 0 for d2P_dTdP, d2P_dVdP, d2P_dVdT_TP and d2P_dT2_PV, so its dCv_dT_P is R/T too low and its dspeed_of_sound_dT_P more than twice too large | C43_dP_dT_zero_refuted, C43_ideal_gas_mixed_refuted, C43_ideal_gas_Cv_refuted, C43_ideal_gas_sound_refuted |
| C46 | VirialGas reports the temperature derivatives of the departures at constant volume as Cp_dep and dS_dep_dT_P, so Cp, dH_dT, dS_dT, Cv and what is computed from them are not the isobaric values; cross_B_model='Zeros' (documented: no cross parameters are used) has no effect | C46_Cp_dep_refuted, C46_constant_pressure, C46_Zeros_refuted |
| C44 | the bulk of several liquids (or solids) gets phase fractions that do not add up to one, so beside a gas its V, H, S, Cp and density are not molar values and three-phase viscosities fall below every phase viscosity; betas_volume and betas_volume_liquid_ref share one cached attribute; quality ignores solids; S_dep of a bulk lacks the mixing entropy; S_ideal_gas(bulk) uses the state's composition in the logarithm; H_C_ratio and humidity_ratio ignore the phase given; logarithmic methods for dP_dV and power methods for derivatives always raise | C44_liquid_bulk_V_refuted, C44_transport_three_phases_refuted, C44_betas_volume_refuted, C44_quality_with_solids_refuted, C44_S_dep_refuted, C44_state_S_ideal_gas_refuted, C44_H_C_ratio_of_phase_refuted, C44_humidity_ratio_of_phase_refuted, C44_log_rules_for_dP_dV_raise, C44_power_rules_for_derivatives_raise |
| C36 | extrapolation_min / extrapolation_max make the property jump at a limit whose value they exclude; extrapolate_derivative ignores them; extrapolated values are not checked against property_min / property_max | C36_continuous_with_clamp_refuted, C36_derivative_with_clamp_refuted, C36_bounds_respected_refuted |
| C37 | the closed forms of extrapolate_integral integrate the unclamped extrapolation, while T_dependent_property returns clamped values | C37_integral_with_clamp_refuted |
| C38 | add_tabular_data under an existing name keeps the interpolator of the old rows once it was built; add_method under an existing name keeps the old extrapolation coefficients, and under the name of a correlation or table it is selected but never evaluated; obj(T) returns the value from before a change of extrapolation; a refused extrapolation text is stored; a correlation whose preparation raises stays registered | C38_tabular_resupplied_refuted, C38_local_resupplied_refuted, C38_shadowed_refuted, C38_call_after_extrapolation_refuted, C38_extrapolation_setter_refuted, C38_failed_correlation_refuted |
| C39 | stablepoly_fit_ln_tau, exp_stablepoly_fit_ln_tau, cheb_fit_ln_tau and exp_cheb_fit_ln_tau scale ln(1 - T/Tc) to [-1, 1] in the reverse direction of add_correlation (which sorts the limits), so the same Tmin, Tmax, Tc and coefficients give different functions; the derivative of a correlation 'polynomial' passes T by a keyword horner_and_der does not have; its integrals look up coefficients that exist for J/mol/K only; calculate_integral of a polynomial fit continues with tangents where calculate continues with the polynomial | C39_constructor_agrees_with_correlation_refuted, C39_polynomial_correlation_derivative_refuted, C39_polynomial_correlation_integral_refuted, C39_integral_of_calculate_refuted |
| C40 | from_json removes 'py/object' and 'json_version' from the json it is given, so a json can be loaded only once | C40_input_is_consumed |
| C40 | text starting with 'pyid_' in a searched attribute is read back as an object | C40_text_refuted |
| C40 | a vectorized object with a list of objects comes back with an array of reference names | C40_vectorized_list_refuted |
| C40 | JSON_DROP_RECALCULABLE is not passed on to the objects referred to | C40_recalculable_refuted |
| C49 | HelmholtzEOS.S_dep is the departure at constant volume, so H_dep - T S_dep is not RT ln(phi) | C49_entropy_departure_refuted, C49_departure |
| C49 | HelmholtzEOS.A() returns the reduced energy A/(RT), where Phase.A() is U - T S | C49_energy_method_refuted, C49_reduced |
| C50 | without Poynting correction (the default) dH_dP and dS_dP of GibbsExcessLiquid are 0, although V is not: dH/dP = V + T dS/dP fails | C50_no_poynting_refuted |
| C50 | with use_Hvap_caloric, Cp (and dH_dT) of GibbsExcessLiquid are not the temperature derivative of H | C50_hvap_refuted |
| C50 | H, S and Cp read use_Poynting and use_phis_sat; the caloric flags are never read, so caloric_basis='Psat' with equilibrium_basis='Poynting' does not give the documented enthalpy | C50_caloric_basis_refuted |
| C50 | GibbsExcessLiquid.to(T, V) does not set T, to(P, V) does not set P, to(T) alone sets neither | C50_to_refuted |
| C52 | sequential_substitution_2P, when the guesses meet the tolerance, returns the next iterate untested: a hot start with another feed at the same T, P can return phases whose fugacities differ by a factor of two | C52_first_iteration_refuted |
| C52 | the functional version tests the guesses for triviality, not what it returns: it can return two phases of one composition | C52_functional_trivial_refuted |
| C52 | sequential_substitution_NP returns the new fractions with phases at the old compositions; these need not add up to the feed | C52_phases_not_those_of_the_fractions_refuted |
| C52 | sequential_substitution_NP moves the phases in the caller's list to the new T, P; FlashVLN.flash_TPV_hot passes it the list of the hot start's own phases | C52_earlier_result_changed_refuted |
| C53 | the stability test passes over a trial whose equilibrium ratios are all above one (no Rachford-Rice solution), however far below the tangent plane: an unstable feed is declared stable | C53_deep_instability_dropped_refuted, C53_unstable_feed_stable_refuted |
| C53 | lowest_dG=True reports the trial with the highest dG | C53_lowest_dG_refuted |
| C53 | handle_iffy=True unpacks None (TypeError) when the first instability found is a clear one | C53_handle_iffy_refuted |
| C53 | skip=n skips no guess (the generator expression is never run) and shifts the number, and so the name, of the guess reported | C53_skip_refuted |
| C53 | highest_comp_diff=True with existing_comps=[] uses min_diff before it is set (NameError) | C53_no_known_phases_refuted |
| C54 | FlashVL.flash_2P: the polishing substitution is outside the try, so a trivial solution there raises TrivialSolutionError instead of returning the single phase | C54_polish_trivial_refuted |
| C54 | FlashVL.flash_TPV accepts a hot start from another feed in the first iteration although the phases returned are not in equilibrium | C54_hot_start_refuted |
| C55 | incipient_guess_name gives guess 4 + k (almost pure component k) the name pure(k+1); incipient_guess_named then gives another guess, or IndexError for the last component | C55_pure_names_refuted |
| C55 | the flash asks for the name without expect_aqueous, so with water tried first every name is that of another guess; with expect_aqueous there is none from the fifth on | C55_aqueous_names_refuted |
| C55 | when every Wilson ratio is below 1e-100 there are no Wilson guesses but the first four are still named so | C55_unlikely_names_refuted |
| C55 | incipient_guesses divides by N - 1: ZeroDivisionError for one component | C55_single_component_refuted |
| C55 | with more than 1000 random fractions the generator reseeds in each round and yields the same N guesses N times | C55_random_repeated_refuted |
| C55 | guess_generator with Wilson=False pops from an empty list (IndexError) | C55_generator_refuted |
| C55 | random_guesses(n), as called by guesses(random=n), makes n guesses of n fractions, whatever the number of components | C55_random_number_refuted |
| C56 | a vapour fraction outside 0 to 1 is rejected only at T and without Poynting factors | C56_range_refuted |
| C57 | one_liquid = len(liquids) is used as a truth value: with several liquids only the first is used, the search for the lowest Gibbs energy is dead code (the same for one_solid and one_other) | C57_lowest_liquid_refuted |
| C57 | without a liquid that dead code gives None and an AttributeError | C57_no_liquid_refuted |
| C57 | flash_PSF starts at a temperature of 1e6 K at or above the triple pressure (the pressure guess of flash_TSF was copied) | C57_melting_start_refuted |
| C58 | the gas is tried only above its minimum temperature, liquids from theirs on | C58_minimum_refuted |
| C58 | with V given and one equation of state with two roots the gas object is returned as a liquid, whatever the Gibbs energies | C58_volume_refuted |
| C58 | the solid-fluid solution is computed, used in the error message and never returned | C58_solid_fluid_refuted |
| C58 | flash_TPV_HSGUA_VL_bound_first falls off its end and returns None when no phase converges | C58_returns_None_refuted |
| C59 | after a failed evaluation the handler recomputes the very same point (full Newton step): it is tried until the iterations are used up; the limit of three successive failures is only looked at after a success | C59_recovers_refuted |
| C59 | the trivial solution is accepted in the first iteration | C59_trivial_refuted |
| C60 | the handlers never change the point, in bubble_P and dew_P one even assigns an unused variable T_guess | C60_recovers_refuted |
| C60 | the trivial solution check makes pure components unsolvable | C60_pure_refuted |
| C60 | compositions are not normalised between updates | C60_normalised_refuted |
| C61 | the amount of the phase is compared with itself, the first point found is kept and not the one with the lowest amount | C61_lowest_refuted |
| C61 | in the last resort the side of the points without the phase is judged with the first point with the phase, existing bounds are missed | C61_late_refuted |
| C62 | removing the overlap of two streams of the same composition divides by zero | C62_same_composition_refuted |
| C62 | only neighbouring stability results are compared, equal ones may both be kept | C62_duplicates_refuted |
| C62 | VLL_or_LL_boolean_check asks for exactly two liquids, its documentation for at least two | C62_check_VLL_or_LL_refuted |
| C62 | when no evaluation meets the criterion the first evaluation is returned as if it did | C62_criterion_refuted |
| C62 | when the flash of the existing stream is the bound with the phase, the other bound is used as the starting point | C62_start_refuted |
| C62 | the lowest Gibbs energy is never updated, the fraction of the last solution is used | C62_lowest_refuted |
| C62 | the exception of the first applicable method is passed on, the later methods are never tried | C62_next_method_refuted |
| C63 | with T and V one fixed and the other solved for, the error function of the guesses uses P before assignment | C63_T_and_V_refuted |
| C63 | T_from_V of DADGOSTAR_SHAW_1 has no return statement | C63_liquid_refuted |
| C63 | the guess methods after STP_T_GUESS are never reached | C63_models_refuted |
| C63 | a failed open solver without bounds ends in an UnboundLocalError | C63_unbounded_refuted |
| C63 | max_bound is tested twice: without min_bound the search stops when the high side does not bracket | C63_between_refuted |
| C64 | the second check of the two phase result is discarded when the first tests found one phase | C64_double_check_refuted |
| C64 | with two liquids and three components a two phase state above a single phase is returned | C64_above_single_refuted |
| C64 | from the fourth phase on the result of the iteration is accepted without checks | C64_four_phases_refuted |
| C64 | after a liquid-liquid split with two liquids a gas is never tested | C64_no_third_refuted |
| C64 | an UnconvergedError of the last attempt escapes the flash | C64_unconverged_refuted |
| C64 | flash_TVF and flash_PVF return None when no liquid can be solved | C64_fraction_refuted |
| C65 | smarts_fragment returns counts made before overlapping matches are removed | C65_stale_counts_refuted |
| C65 | removing two overlapping matches of one group raises an IndexError | C65_deletion_refuted |
| C65 | or removes a match that does not overlap | C65_wrong_deletion_refuted |
| C65 | smarts_fragment_priority returns three values for an unreadable SMILES, its callers unpack five | C65_unreadable_refuted |
| C65 | a cover that needs five matches set aside is not found | C65_search_refuted |
| C65 | priority_from_atoms ignores bromine, iodine, phosphorus and other elements | C65_other_atoms_refuted |
| C66 | changing method does not reset the remembered value of __call__(T, P) | C66_stale_refuted |
| C66 | add_P_correlation selects the correlation as the temperature dependent method and does not make it available as method_P | C66_P_correlation_refuted |
| C66 | a second unnamed table gets the name of the first | C66_unnamed_refuted |
| C66 | interpolators are kept by name, so that replaced tables still answer | C66_replaced_refuted |
| C66 | without extrapolation the ends of a table are refused | C66_ends_refuted |
| C66 | valid_methods_P leaves out tables | C66_added_not_listed_refuted |
| C66 | TP_or_T_dependent_property raises instead of falling back when exceptions are on | C66_fallback_refuted |
| C67 | mixture_property tests the validity of the method only when skip_method_validity_check is set | C67_validity_refuted |
| C67 | the number of temperature terms is passed to redlich_kister_excess_inner as the number of components: interactions of further components are left out | C67_components_refuted |
| C67 | and a correlation with more temperature terms than components never gives a value | C67_terms_refuted |
| C67 | coefficients looked up for a pair of names are entered without regard to the order of the components | C67_order_refuted |
| C67 | looked up coefficients are not padded to the largest number of terms | C67_padding_refuted |
| C67 | the method setter accepts methods there are not | C67_method_refuted |
| C67 | a call compares a tuple with a list, so that the remembered value is never used | C67_memory_unused |
| C68 | Joback.Tc has no guard on its denominator: a chain of 75 carbons has a negative critical temperature | C68_joback_Tc_positive_refuted |
| C68 | Joback.estimate reports the Tb of the groups although a Tb was supplied and used for Tc | C68_joback_report_Tb_refuted |
| C68 | Joback(mol, atom_count=n) without MW raises AttributeError | C68_joback_atom_count_refuted |
| C68 | Wilson_Jasperson does not flag Pc when it is computed from the stand-in Tc | C68_wilson_flag_refuted |
| C68 | pairs of PPR78 groups marked not available are entered as zeros | C68_ppr_not_available_refuted |
| C69 | d3P_dninjnks_Vt uses depsilon_dns[j] where depsilon_dns[k] is meant (x28) | C69_d3P_refuted |
| C70 | lnphis_lowest_Gibbs of a CEOSGas or CEOSLiquid made with to does not compare the two roots, and its result depends on the order of calls (ceos.py 536-559) | C70_lowest_Gibbs_refuted |
| C70 | to with only T given returns a phase without pressure and equation of state instead of raising (ceos.py 252-263) | C70_T_only_refuted |
| C70 | dlnphis_dT, dlnphis_dP, dlnphis_dns, dlnphis_dzs and dH_dep_dT_V have a bare except and return the other root's value when the calculation at their own root fails (ceos.py 617-641, 836-840) | C70_silent_fallback_refuted |
| C70 | resolve_full_alphas passes only_l and only_g both true when both roots exist, so that neither is recalculated (eos.py 1161-1165) | C70_resolve_both_refuted |
| C70 | most_stable of lnphis_args, lnphis_at_zs and fugacities_at_zs has no effect (ceos.py 302-331) | C70_most_stable_refuted |
| C70 | when the volume solver does not converge, lnphis_at_zs continues with a volume of zero where a phase would raise ValueError (eos_mix_methods.py 835-874) | C70_at_zs_no_root_refuted |
| C74 | standard_state_ideal_gas_formation of a compound of bromine or mercury is offset at every temperature: at T = T_ref it does not return Hf, as heating of the element starts from a solid at 298.15 K | C74_bromine, C74_reference_refuted |
| C74 | _standard_state_ideal_gas_formation_direct with cache=False always raises UnboundLocalError (chemical_utils.py 283) | C74_no_cache_refuted |
| C74 | standard_entropy with force_gas=False for a substance that is solid at T_ref integrates to the melting point, not to T_ref | C74_solid_entropy_refuted |
| C75 | flash_TPV_hot from a result with one phase raises UnboundLocalError (flash_vln.py 302); flash_TPV avoids it by its test of phase_count | C75_hot_one_phase_refuted |
| C76 | FloryHuggins (number 410) and Hansen (420) lie in the range 400-499 that lnphis_direct sends to regular_solution_gammas; they have no gammas_args either. PSRK (10300) has no function | C76_other_models_refuted |
| C77 | sequential_substitution_GDEM3_2P ignores acc_frequency and acc_delay: 5 and 4 are written in the code (flash_utils.py 627) | C77_GDEM3_arguments_refuted |
