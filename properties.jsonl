{"id": "C01", "title": "C interface handles are fresh and never reused", "statement": "Every successful build_model call of the C interface writes a handle different from every handle written by any earlier successful call in the same process, including handles already freed.", "quantifier": "all finite histories of build_model / free_model / getter calls (fewer than 2^64 builds), all JSON strings, all factory outcomes", "why_tests_cant": "the claim is about every history of calls; tests run a handful of fixed sequences", "anchors": ["interface/C/teqpc.cpp: build_model, next_index, library"]}
{"id": "C02", "title": "A handle keeps denoting the model it was built from", "statement": "After build_model succeeds with handle h, every getter called with h returns what the model built from that JSON returns, whatever other handles are built, freed, or queried in between, until free_model(h); after free_model(h) every getter called with h reports an error.", "quantifier": "all histories, all interleaved operations on other handles, all getter arguments", "why_tests_cant": "needs an invariant over arbitrary call histories", "anchors": ["interface/C/teqpc.cpp: build_model, free_model, get_Arxy, get_ATrhoXi, get_dmBnvirdTm"]}
{"id": "C03", "title": "Failed C calls report an error and leave outputs and live models untouched", "statement": "If build_model fails (unparsable JSON or any std::exception in construction) the return code is non-zero, *uuid is not written and the set of live models is unchanged; if a getter fails the return code is non-zero and *val is not written; a return code of 0 from build_model or a getter implies the output was written.", "quantifier": "all histories, all JSON strings, all handles, all exceptions derived from std::exception", "why_tests_cant": "error paths range over all failures and all states", "anchors": ["interface/C/teqpc.cpp: build_model, get_Arxy, exception_handler", "include/teqp/exceptions.hpp: teqpcException"]}
{"id": "C04", "title": "C error reporting never writes past the caller's buffer and always NUL-terminates", "statement": "For every error message and every buffer length passed by the caller, the bytes written to errmsg fit in the buffer and form a NUL-terminated string (for lengths of at least 2).", "quantifier": "all messages, all integer buffer lengths", "why_tests_cant": "memory safety is a for-all statement over messages and lengths (false for negative lengths: recorded as a finding)", "anchors": ["interface/C/teqpc.cpp: exception_handler/write_error"]}
{"id": "C05", "title": "Concurrent build_model calls", "statement": "When several threads call the C interface at the same time, every thread that succeeds gets a distinct handle and every handle returned is usable.", "quantifier": "all numbers of threads and all interleavings of their steps", "why_tests_cant": "schedules cannot be enumerated by tests (the handle counter is atomic but the map is not locked: partial + finding)", "anchors": ["interface/C/teqpc.cpp: next_index (std::atomic), library"]}
{"id": "C06", "title": "Model kinds cannot be overwritten and registration affects only its own kind", "statement": "add_model_pointer_factory_function with an existing kind throws InvalidArgument and leaves every kind building as before; with a new kind it makes make_model use the registered function for that kind and changes nothing for any other kind; make_model with an unregistered kind throws.", "quantifier": "all histories of registrations and builds", "why_tests_cant": "history-dependent global state", "anchors": ["interface/CPP/teqp_impl_factory.cpp: add_model_pointer_factory_function, build_model_ptr, pointer_factory"]}
{"id": "C07", "title": "Schema validation gate of make_model", "statement": "make_model validates the spec against the kind's schema exactly when the effective validate flag (the JSON's own \"validate\" entry if present, else the argument) is true and a schema exists; an invalid spec is then rejected before the factory runs, and in all other cases the factory function is called exactly once with the spec.", "quantifier": "all JSON inputs, flags and schema libraries", "why_tests_cant": "the decision is over all combinations of inputs and libraries", "anchors": ["interface/CPP/teqp_impl_factory.cpp: build_model_ptr", "include/teqp/exceptions.hpp: JSONValidationError"]}
{"id": "C08", "title": "ModelContainer identifiers", "statement": "ModelContainer::add_model returns 1,2,3,...; get_model(id) returns the instance stored under that id for ever after; unknown ids throw; size() equals the number of adds.", "quantifier": "all sequences of add_model calls and lookups", "why_tests_cant": "history quantification", "anchors": ["include/teqp/containers.hpp: ModelContainer"]}
{"id": "C09", "title": "Integer powers", "statement": "powi(x,n) equals x raised to the n-th power for every int n (n negative: the reciprocal power, x non-zero), and POW2..POW12 equal the corresponding powers.", "quantifier": "all reals x and all int n except INT_MIN", "why_tests_cant": "all exponents; tests check some literals", "anchors": ["include/teqp/types.hpp: powi, pow2, pow3, contiguous_dotproduct", "include/teqp/math/pow_templates.hpp"]}
{"id": "C10", "title": "Dot product and size check", "statement": "contiguous_dotproduct(x,y) equals the sum of the products when the sizes agree and throws InvalidArgument otherwise; it is symmetric and bilinear.", "quantifier": "all vectors of all sizes", "why_tests_cant": "all sizes", "anchors": ["include/teqp/types.hpp: contiguous_dotproduct"]}
{"id": "C11", "title": "JSON matrix reader", "statement": "build_square_matrix accepts null or an empty array (giving 0x0) and a square array of arrays of numbers (giving exactly those entries), and throws on everything else.", "quantifier": "all JSON values", "why_tests_cant": "all JSON shapes", "anchors": ["include/teqp/json_tools.hpp: build_square_matrix, all_same_length"]}
{"id": "C12", "title": "Where model data comes from", "statement": "multilevel_JSON_load resolves its argument deterministically: an object or non-empty array is used as is; a string naming an existing file is that file's JSON, otherwise the string is parsed as JSON; null, empty array and empty string use the default path if given and throw otherwise.", "quantifier": "all JSON values, all file systems, all default paths", "why_tests_cant": "the file system and input are arbitrary", "anchors": ["include/teqp/json_tools.hpp: multilevel_JSON_load"]}
{"id": "C13", "title": "Finite-difference stencils are exact on polynomials", "statement": "centered_diff<Nderiv,Norder> returns the exact Nderiv-th derivative at x of every polynomial of degree less than Nderiv+Norder, for every point and every non-zero step; unsupported combinations throw.", "quantifier": "all polynomials up to that degree, all x, all h<>0", "why_tests_cant": "exactness over a vector space of functions", "anchors": ["include/teqp/math/finite_derivs.hpp: centered_diff", "include/teqp/finite_derivs.hpp"]}
{"id": "C14", "title": "Gauss-Legendre quadrature exactness", "statement": "quad<N>(f,a,b) equals the integral of f over [a,b] for every polynomial f of degree at most 2N-1.", "quantifier": "all polynomials, all intervals", "why_tests_cant": "exactness over a vector space of functions", "anchors": ["include/teqp/math/quadrature.hpp: quad"]}
{"id": "C15", "title": "Chebyshev expansions are evaluated correctly", "statement": "The Clenshaw evaluation used by the Chebyshev EOS term returns c0/2 + sum c_k T_k(x) for every coefficient vector, and the two-dimensional term returns the double sum.", "quantifier": "all coefficient vectors/matrices of all sizes, all arguments", "why_tests_cant": "all lengths; tests use one length", "anchors": ["include/teqp/models/multifluid_eosterms.hpp: Chebyshev2DEOSTerm::Clenshaw1D, Clenshaw1DByRow, Clenshaw2DEigen"]}
{"id": "C16", "title": "Newton root finder", "statement": "NewtonRaphson performs at most 30 iterations, throws as soon as a non-finite value appears, never returns a non-finite vector, and returns a root exactly whenever it reaches one.", "quantifier": "all residual functions, Jacobians, starting points and tolerances", "why_tests_cant": "functions are arbitrary", "anchors": ["include/teqp/algorithms/rootfinding.hpp: NewtonRaphson"]}
{"id": "C17", "title": "Derivative dispatch is total and faithful", "statement": "get_Arxy/get_ATrhoXi/get_ATrhoXiXj/get_ATrhoXiXjXk return the derivative of exactly the requested orders for every supported combination and throw for every other combination of integers, including negative ones and equal component indices.", "quantifier": "all integer orders and indices", "why_tests_cant": "infinitely many order combinations", "anchors": ["include/teqp/derivs.hpp: get_Ar, get_ATrhoXi, get_ATrhoXiXj, get_ATrhoXiXjXk", "interface/CPP/AbstractModel_implementation.cpp"]}
{"id": "C18", "title": "Values and Jacobian used by the two-variable solver are right", "statement": "build_iteration_Jv returns the true pressure, entropy, enthalpy and internal energy of the Helmholtz model and their true partial derivatives with respect to temperature and density, for every pair of requested variables, and throws for an unknown variable.", "quantifier": "all twice differentiable Helmholtz energies, all T>0, rho>0, all pairs from {T,D,P,S,H,U}", "why_tests_cant": "model and state are arbitrary", "anchors": ["include/teqp/cpp/derivs.hpp: build_iteration_Jv"]}
{"id": "C19", "title": "Critical-point residuals and Jacobian", "statement": "The residual driven to zero by solve_pure_critical is (dp/drho, d2p/drho2) at constant T of the model, and its Jacobian is the true derivative of the residual with respect to (T, rho).", "quantifier": "all smooth Helmholtz energies, all states T>0, rho>0", "why_tests_cant": "model and state are arbitrary", "anchors": ["include/teqp/algorithms/critical_pure.hpp: get_pure_critical_conditions_Jacobian, solve_pure_critical, extrapolate_from_critical"]}
{"id": "C20", "title": "Pure-fluid VLE residual and Jacobian", "statement": "The residual of the pure VLE solver vanishes exactly when the two densities have equal pressure and equal chemical potential, and its Jacobian is the true derivative of the residual.", "quantifier": "all smooth Helmholtz energies, T>0, positive densities", "why_tests_cant": "model and state are arbitrary", "anchors": ["include/teqp/algorithms/VLE_pure.hpp: IsothermPureVLEResiduals, do_pure_VLE_T, pure_VLE_T"]}
{"id": "C21", "title": "Clapeyron slope", "statement": "dpsatdT_pure returns the derivative of the saturation pressure along any differentiable saturation curve through the given state.", "quantifier": "all models and all differentiable saturation curves", "why_tests_cant": "model and curve are arbitrary", "anchors": ["include/teqp/algorithms/VLE_pure.hpp: dpsatdT_pure"]}
{"id": "C22", "title": "Isochoric thermodynamics is consistent", "statement": "get_pr, get_Psir, get_chempotVLE_autodiff, get_dpdT_constrhovec, get_dpdrhovec_constT and get_partial_molar_volumes satisfy the thermodynamic identities: p = -Psi + sum rho_i mu_i, dp/drho_i = sum_j rho_j H_ij, dp = s dT + sum rho_i dmu_i, sum x_i v_i = 1/rho.", "quantifier": "all models with a twice differentiable Helmholtz energy density, all numbers of components, all states", "why_tests_cant": "identities over all models and compositions", "anchors": ["include/teqp/derivs.hpp: IsochoricDerivatives"]}
{"id": "C23", "title": "Fugacity coefficients", "statement": "get_ln_fugacity_coefficients returns ln(phi_i) with RT ln(phi_i) equal to the residual chemical potential at given T,p, is zero for an ideal gas, makes equality of fugacities equivalent to equality of chemical potentials, and its temperature and density derivatives are the true ones.", "quantifier": "all models, all compositions and states with positive compressibility factor", "why_tests_cant": "identities over all models", "anchors": ["include/teqp/derivs.hpp: get_ln_fugacity_coefficients, d_ln_fugacity_coefficients_dT_constrhovec, d_ln_fugacity_coefficients_drho_constTmolefracs"]}
{"id": "C24", "title": "Tracing derivatives keep the phases in equilibrium", "statement": "The density derivatives returned by get_drhovecdp_Tsat, get_drhovecdT_psat and get_drhovecdT_xsat keep chemical potentials and pressures of the phases equal to first order, keep the specified variable constant and change pressure/temperature at unit rate.", "quantifier": "all models, all two-phase states with invertible system", "why_tests_cant": "model and state are arbitrary", "anchors": ["include/teqp/algorithms/VLE.hpp: get_drhovecdp_Tsat, get_drhovecdT_psat, get_drhovecdT_xsat", "include/teqp/algorithms/VLLE.hpp: get_drhovecdT_VLLE_binary"]}
{"id": "C25", "title": "General phase-equilibrium residual", "statement": "The residual vector of the general phase equilibrium calculation has as many entries as unknowns, packing and unpacking of the unknowns are inverse to each other, and the residual vanishes exactly at states with equal fugacities and pressures in all phases, matching overall composition and satisfied specifications; the Jacobian is its true derivative.", "quantifier": "all numbers of phases and components, all models and states", "why_tests_cant": "sizes and models are arbitrary (the Jacobian claim is false beyond two phases: finding)", "anchors": ["include/teqp/algorithms/phase_equil.hpp: GeneralizedPhaseEquilibrium::call, UnpackedVariables"]}
{"id": "C26", "title": "Virial coefficients", "statement": "B2 and higher virial coefficients returned by get_Bnvir are the density-expansion coefficients of the compressibility factor, and get_B12vir recovers the cross coefficient of any mixture whose B2 is quadratic in composition, for every composition with both components present.", "quantifier": "all compositions, all quadratic mixing rules, all analytic models", "why_tests_cant": "all models and compositions", "anchors": ["include/teqp/derivs.hpp: VirialDerivatives::get_Bnvir, get_B2vir, get_B12vir"]}
{"id": "C27", "title": "vdW and cubic equations of state", "statement": "The pressure derived from the coded residual Helmholtz energy is the textbook pressure-explicit equation for vdW, SRK, PR and the generic cubic, and the critical constants used make the critical point satisfy dp/drho = d2p/drho2 = 0 (exactly for vdW and SRK).", "quantifier": "all T, rho in the domain, all parameters", "why_tests_cant": "all states and parameters", "anchors": ["include/teqp/models/vdW.hpp: vdWEOS1, vdWEOS", "include/teqp/models/cubics.hpp: GenericCubic, canonical_SRK, canonical_PR"]}
{"id": "C28", "title": "Relabelling components does not change a mixture", "statement": "For vdW, cubic, reducing-function, corresponding-states and departure contributions the computed value is unchanged when components (and their parameters) are permuted; splitting a component into two identical ones changes nothing for vdW/cubic mixing.", "quantifier": "all numbers of components, all permutations, all parameters and compositions", "why_tests_cant": "all permutations and sizes", "anchors": ["include/teqp/models/vdW.hpp: vdWEOS", "include/teqp/models/cubics.hpp: GenericCubic::get_am_over_am, get_bm", "include/teqp/models/multifluid_reducing.hpp", "include/teqp/models/multifluid.hpp: CorrespondingStatesContribution, DepartureContribution"]}
{"id": "C29", "title": "Pure limits of mixture models", "statement": "When one mole fraction is 1 and the others 0, mixture models return the pure-fluid result of that component.", "quantifier": "all numbers of components, all parameters, all component indices", "why_tests_cant": "all sizes (false for the invariant mutant reducing function: finding)", "anchors": ["include/teqp/models/multifluid_reducing.hpp: MultiFluidReducingFunction, MultiFluidInvariantReducingFunction", "include/teqp/models/multifluid_mutant.hpp: build_multifluid_mutant"]}
{"id": "C30", "title": "Residual Helmholtz energy vanishes at zero density", "statement": "alphar(T, rho=0, x) = 0 for every model family.", "quantifier": "all T, compositions and parameters", "why_tests_cant": "all parameters", "anchors": ["include/teqp/models/vdW.hpp", "include/teqp/models/cubics.hpp", "include/teqp/models/pcsaft.hpp", "include/teqp/models/multifluid_eosterms.hpp", "include/teqp/models/mie/mie.hpp"]}
{"id": "C31", "title": "Binary interaction parameters do not depend on the order of the pair", "statement": "Looking up a pair of fluids in either order finds the same database record, with beta replaced by 1/beta when the order is swapped, hash match taking priority over name and name over CAS; a missing pair throws unless an estimation scheme was requested.", "quantifier": "all BIP collections and all pairs of identifiers", "why_tests_cant": "databases are arbitrary", "anchors": ["include/teqp/models/multifluid_reducing.hpp: reducing::get_BIPdep, get_binary_interaction_double, get_BIP_matrices, get_F_matrix"]}
{"id": "C32", "title": "Reducing parameters from xi/zeta", "statement": "Parameters converted from the (xi, zeta) form give the reducing temperature and volume of the Lemmon-Jacobsen (linear plus xi, zeta) mixing rule.", "quantifier": "all pure-fluid critical parameters, all xi, zeta, all compositions", "why_tests_cant": "conversion must hold for all parameters (false of the code: finding)", "anchors": ["include/teqp/models/multifluid_reducing.hpp: get_binary_interaction_double"]}
{"id": "C33", "title": "Splitting of power terms preserves the equation", "statement": "Grouping the terms of a fluid or departure file into those with and without exponential part represents the same function as the file's list of terms, or the file is rejected.", "quantifier": "all coefficient lists", "why_tests_cant": "files are arbitrary (false for pure-fluid files with non-contiguous zeros: finding)", "anchors": ["include/teqp/models/multifluid.hpp: build_departure_function, EOSTermContainer get_EOS_terms/build_power", "include/teqp/models/multifluid_eosterms.hpp: PowerEOSTerm, JustPowerEOSTerm"]}
{"id": "C34", "title": "EOS terms agree at and away from zero density", "statement": "The special branch used at delta=0 of each EOS term is the continuous extension of the general branch.", "quantifier": "all coefficients with integer density exponents, all tau>0", "why_tests_cant": "limits over all coefficients (false for non-integer density exponents between 0 and 1: finding)", "anchors": ["include/teqp/models/multifluid_eosterms.hpp"]}
{"id": "C35", "title": "Conversion of CoolProp ideal-gas terms", "statement": "CoolProp2teqp_alphaig_term_reformatter yields terms whose sum has the same value at every (T,rho) as the CoolProp term at the corresponding (tau, delta).", "quantifier": "all coefficients, all T>0, rho>0", "why_tests_cant": "all coefficients and states", "anchors": ["include/teqp/ideal_eosterms.hpp: CoolProp2teqp_alphaig_term_reformatter"]}
{"id": "C36", "title": "Ideal-gas heat capacity terms", "statement": "Each ideal-gas term contributes the documented heat capacity, and mixtures add x_i ln x_i with absent components contributing nothing.", "quantifier": "all coefficients, all T>0, all compositions", "why_tests_cant": "all coefficients and states", "anchors": ["include/teqp/ideal_eosterms.hpp: IdealHelmholtzCp0Constant, IdealHelmholtzCp0PowerT, IdealHelmholtz"]}
{"id": "C37", "title": "Association: non-bonded fractions", "statement": "The site fractions returned by the association solver lie in (0,1], satisfy the mass-action equations to the requested tolerance when it reports convergence, and the explicit two-site formula solves the same equations as the iteration.", "quantifier": "all site counts, densities, association strengths, starting points", "why_tests_cant": "all sizes and strengths (explicit branch ignores the self-association mask: finding)", "anchors": ["include/teqp/models/association/association.hpp: Association::successive_substitution, make_D, alphar", "include/teqp/models/CPA.hpp: XA_calc_pure"]}
{"id": "C38", "title": "Site bookkeeping of association", "statement": "Site indexing is a bijection between (molecule, distinct site) pairs and indices, and the counts multiply to the number of sites given for each molecule.", "quantifier": "all lists of site names per molecule", "why_tests_cant": "all sizes", "anchors": ["include/teqp/models/association/association.hpp: Association::make_mapper, make_D"]}
{"id": "C39", "title": "PC-SAFT building blocks", "statement": "C2 is the density derivative of C1; the zero-density branch of the hard-sphere term agrees with the general formula; max_rhoN gives packing fraction 0.74; the pure-fluid implementation equals the mixture implementation for one component.", "quantifier": "all compositions, parameters, temperatures and densities in the domain", "why_tests_cant": "all states and parameters", "anchors": ["include/teqp/models/pcsaft.hpp", "include/teqp/models/saft/pcsaftpure.hpp"]}
{"id": "C40", "title": "Square-well model is continuous in the well width", "statement": "The square-well coefficients are continuous functions of lambda on the supported range.", "quantifier": "all lambda", "why_tests_cant": "continuity is a for-all statement (false at lambda=2 because of integer division: finding)", "anchors": ["include/teqp/models/model_potentials/squarewell.hpp"]}
{"id": "C41", "title": "Wilson activity model", "statement": "Residual excess energy vanishes for every composition when all interaction energies are zero, is independent of component order, and the multifluid+activity factor is 1 at the reference density and 0 at zero density.", "quantifier": "all compositions, volumes, temperatures and sizes", "why_tests_cant": "all sizes", "anchors": ["include/teqp/models/activity/activity_models.hpp: WilsonResidualHelmholtzOverRT", "include/teqp/models/multifluid/multifluid_activity.hpp"]}
{"id": "C42", "title": "Two-variable Newton iterator is a faithful state machine", "statement": "take_steps applies one Newton step per counted step, stops at the first stopping condition (in order) that fires after the step it judged, never takes more than N steps, rejects N<=0, and its step counter equals the number of steps applied.", "quantifier": "all models, starting points, condition lists and N", "why_tests_cant": "all histories of steps", "anchors": ["include/teqp/algorithms/iteration.hpp: NRIterator::take_steps, take_steps_logrho, stopping conditions"]}
{"id": "C43", "title": "Stopping conditions mean what they say", "statement": "Each stopping condition fires exactly when its documented criterion holds, including for NaN values.", "quantifier": "all step data including NaN", "why_tests_cant": "all values", "anchors": ["include/teqp/algorithms/iteration.hpp: MaxAbsErrorCondition, MinRelStepsizeCondition, NanXDXErrorCondition, NegativeXErrorCondition, StepCountErrorCondition"]}
{"id": "C44", "title": "Mixture VLE at given T,x", "statement": "mix_VLE_Tx returns a success code only if the corresponding convergence test held, always sets the return code, keeps absent components absent, leaves the fixed composition and temperature fixed, and keeps densities positive.", "quantifier": "all models, guesses, tolerances and iteration limits", "why_tests_cant": "all executions (positivity false: finding)", "anchors": ["include/teqp/algorithms/VLE.hpp: mix_VLE_Tx"]}
{"id": "C45", "title": "Mixture VLE at given T,p", "statement": "mix_VLE_Tp reports success exactly when one of its convergence tests was met, with the true number of iterations.", "quantifier": "all models, guesses, options", "why_tests_cant": "all executions (false: finding)", "anchors": ["include/teqp/algorithms/VLE.hpp: mix_VLE_Tp"]}
{"id": "C46", "title": "Three-phase solver and helpers", "statement": "The residual of mix_VLLE_T and mix_VLLE_p vanishes exactly at three phases of equal pressure and fugacities (at the given pressure), the matrix they solve with is its Jacobian, every run is a sequence of Newton steps that ends with the code of the first test met, and the codes imply the corresponding tolerance; the intersections reported for polylines are exactly the crossings of the insides of two segments; find_VLLE_gen_binary polishes a guess interpolated at each crossing and returns the non-trivial ones.", "quantifier": "all models, states, tolerances, executions, curves and traces", "why_tests_cant": "all inputs (false: findings)", "anchors": ["include/teqp/algorithms/VLLE.hpp: mix_VLLE_T, find_VLLE_T_binary, get_self_intersections, get_cross_intersections"]}
{"id": "C47", "title": "Pure-fluid trace", "statement": "pure_trace_VLE(T, rhoL, rhoV) returns densities at the requested end temperature obtained with the requested number of temperature steps, with or without derivative extrapolation.", "quantifier": "all models, options and step counts", "why_tests_cant": "all executions (false with derivative extrapolation: finding)", "anchors": ["include/teqp/algorithms/VLE_pure.hpp: pure_trace_VLE"]}
{"id": "C48", "title": "Tracers terminate and record every accepted step", "statement": "The tracers return after at most the requested number of steps, record exactly one point per accepted step and stop as soon as a termination criterion holds; the isotherm tracer moves along the envelope with the parameter as arc length and never turns back; polished values replace a state only if they are close to it.", "quantifier": "all models, options and executions", "why_tests_cant": "all executions (retry loop unbounded: finding)", "anchors": ["include/teqp/algorithms/VLE.hpp: trace_VLE_isotherm_binary, trace_VLE_isobar_binary", "include/teqp/algorithms/VLLE.hpp: trace_VLLE_binary"]}
{"id": "C49", "title": "Parallel cost function", "statement": "cost_function_threaded returns the same value as cost_function for every number of threads and every schedule, always returns, and no two threads write to the same place.", "quantifier": "all thread counts, all schedules, all parameter vectors", "why_tests_cant": "schedules cannot be enumerated (differs when a contribution is non-finite: finding)", "anchors": ["include/teqp/algorithms/pure_param_optimization.hpp: PureParameterOptimizer::cost_function, cost_function_threaded"]}
{"id": "C50", "title": "Optimised parameters are written where asked", "statement": "build_JSON writes parameter k at the places given by the k-th JSON pointers, leaves everything else as in the base JSON, and throws on a size mismatch or a place that is not there; every place can be given as text.", "quantifier": "all pointers, parameter vectors, base documents", "why_tests_cant": "all documents", "anchors": ["include/teqp/algorithms/pure_param_optimization.hpp: PureParameterOptimizer::build_JSON, prepare"]}
{"id": "C51", "title": "Ancillary equations", "statement": "Ancillary curves equal the reducing value at T = T_r, throw above T_r, saturation-density and pressure evaluations use the documented functional form, and the builder's fitted nodes lie strictly inside the temperature range.", "quantifier": "all coefficients and temperatures", "why_tests_cant": "all coefficients", "anchors": ["include/teqp/models/multifluid_ancillaries.hpp: VLEAncillary", "include/teqp/algorithms/ancillary_builder.hpp"]}
{"id": "C52", "title": "Critical-curve tracer acceptance", "statement": "A polished point replaces a predicted one only if its change is within the option's bounds and tracing stops at the first termination condition; recorded points are those that were accepted.", "quantifier": "all models and options", "why_tests_cant": "all executions", "anchors": ["include/teqp/algorithms/critical_tracing.hpp: CriticalTracing::trace_critical_arclength_binary, critical_polish_molefrac"]}
{"id": "C53", "title": "Fluid identifiers resolve consistently", "statement": "The identifier kind chosen for a departure lookup matches every pair of components, and alias maps never map one alias to two fluids.", "quantifier": "all identifier collections", "why_tests_cant": "databases are arbitrary", "anchors": ["include/teqp/models/multifluid.hpp: select_identifier, collect_identifiers, build_alias_map"]}
{"id": "C54", "title": "Mixture gas constant", "statement": "The mole-fraction weighted gas constant lies between the smallest and largest pure gas constants and equals the pure value in the pure limit.", "quantifier": "all compositions with unit sum and all gas constants", "why_tests_cant": "all sizes", "anchors": ["include/teqp/models/multifluid_gas_constant.hpp"]}
{"id": "C55", "title": "Critical extrapolation", "statement": "extrapolate_from_critical gives, below the critical temperature, a liquid and a vapour density symmetric about the critical density that solve the third-order expansion of the pressure about the critical point.", "quantifier": "all smooth models with a critical point and all temperatures below it", "why_tests_cant": "model and state are arbitrary", "anchors": ["include/teqp/algorithms/critical_pure.hpp: get_Brho_critical_extrap, extrapolate_from_critical"]}
{"id": "C56", "title": "Malformed cubic and van der Waals inputs", "statement": "Evaluating any cubic-type model with a composition whose length is not the number of components throws; constructing a model from parameter arrays, interaction matrices or alpha-function lists of inconsistent sizes throws instead of building a model or reading outside the arrays.", "quantifier": "all parameter arrays, matrices, alpha-function specifications and compositions", "why_tests_cant": "sizes are unbounded and a wrong size that is read out of bounds may appear to work", "anchors": ["include/teqp/models/cubics.hpp: GenericCubic, canonical_SRK, canonical_PR, build_alpha_functions, AdvancedPRaEres, QuantumCorrectedPR, RKPRCismondi2005", "include/teqp/models/vdW.hpp: vdWEOS"]}
{"id": "C57", "title": "The EoS/aE factory builds mixtures of any size", "statement": "The factory for the advanced-mixing-rule Peng-Robinson model builds a model for every number of components for which the parameters are given.", "quantifier": "all JSON specifications", "why_tests_cant": "sizes are unbounded", "anchors": ["include/teqp/models/cubics.hpp: make_AdvancedPRaEres"]}
{"id": "C58", "title": "The mixture Helmholtz energy is the multi-fluid approximation", "statement": "For a multi-fluid model of two or more components, alphar(T, rho, x) equals sum_i x_i alphar_i(tau, delta) + sum_{i<j} x_i x_j F_ij alphar_ij(tau, delta), with tau = Tr(x)/T, delta = rho/rhor(x) and the published (Kunz-Wagner) reducing functions; the parts are those of the fluid files, of the binary record and of the first departure function with the name given in the record; it evaluates exactly when all the parts do, and a composition of another size throws.", "quantifier": "all models built from any fluid files, any database of pairs and departure functions, all temperatures, densities and compositions of every size", "why_tests_cant": "the number of components, the files and the states are unbounded; a wrong index or a dropped pair shows only for some mixtures", "anchors": ["include/teqp/models/multifluid.hpp: MultiFluid, CorrespondingStatesContribution, DepartureContribution, get_departure_function_matrix", "include/teqp/models/multifluid_reducing.hpp: MultiFluidReducingFunction"]}
{"id": "C59", "title": "A mutant differs from its base model only through the parameters it changes", "statement": "build_multifluid_mutant with the base model's own interaction parameters and departure functions gives a model whose alphar equals the base's at every state; two mutants of one base that differ only in the entry of one pair agree at every composition in which one of the two components is absent.", "quantifier": "all base models with two or more components, all mutant specifications, all temperatures, densities and compositions", "why_tests_cant": "relates two models at all states; depends on the treatment of zero mole fractions and on the symmetric filling of matrices of any size", "anchors": ["include/teqp/models/multifluid_mutant.hpp: build_multifluid_mutant, MultiFluidAdapter"]}
{"id": "C60", "title": "Residuals of the two-variable iteration", "statement": "The quick evaluation of the thermodynamic variables gives exactly the values of the iteration matrices, calc_maxabsr is the largest entry of calc_r, and calc_step returns the step that take_steps would take.", "quantifier": "all variable lists, states, models and targets", "why_tests_cant": "all models, states and scalings", "anchors": ["include/teqp/algorithms/iteration.hpp: AlphaModel::get_vals, NRIterator::calc_maxabsr, calc_r, calc_step"]}
{"id": "C61", "title": "Mixture VLE at given p,x", "statement": "mixture_VLE_px solves the phase-equilibrium equations with the exact Jacobian in temperature and all concentrations, refuses unequal lengths and zero concentrations, returns a success code only if the corresponding convergence test held at the point returned, and always sets the return code.", "quantifier": "all pressures, compositions, starting states, tolerances, iteration limits, models and numbers of components", "why_tests_cant": "every iteration path must be covered, including non-finite steps and exhausted iterations", "anchors": ["include/teqp/algorithms/VLE.hpp: mixture_VLE_px"]}
{"id": "C62", "title": "Association strengths follow the combining rule", "statement": "The association strength of two sites of components i and j is g ((b_i+b_j)/2) sqrt(beta_i beta_j) (exp((eps_i+eps_j)/(2RT)) - 1)/N_A with the chosen contact value g of the radial distribution function; it is symmetric and not negative for physical parameters; Dufal's rule evaluates the published double polynomial.", "quantifier": "all parameters, numbers of components and sites, temperatures, densities and compositions", "why_tests_cant": "all states, sizes and parameter values", "anchors": ["include/teqp/models/association/association.hpp: Association::get_Delta", "include/teqp/models/association/association_types.hpp: DufalData::apply_mixing_rules"]}
{"id": "C63", "title": "Reading association models", "statement": "A model read from JSON has exactly the parameters, sites, options and radial distribution that were given; without a list every type of site bonds to every other type and not to itself; unknown site names, a missing or an unknown rule throw.", "quantifier": "all JSON specifications, lists of fluids and sites of any length", "why_tests_cant": "inputs are unbounded, and an uninitialised or overwritten option shows only in the numbers", "anchors": ["include/teqp/models/association/association.hpp: Association::factory, get_association_options", "include/teqp/models/CPA.hpp: CPAfactory"]}
{"id": "C64", "title": "Cubic plus association", "statement": "The explicit schemes 1A, 2B, 3B and 4C give fractions in (0,1] that solve the mass-action equations of the scheme, the association energy is the sum over the sites of ln X - X/2 + 1/2, the class-based and the site-based implementations agree, alphar is the sum of the cubic and the association parts, and a composition of another length throws.", "quantifier": "all schemes, parameters, temperatures, densities, compositions", "why_tests_cant": "all states and parameter values; relates two implementations", "anchors": ["include/teqp/models/CPA.hpp: XA_calc_pure, get_DeltaAB_pure, CPACubic, CPAAssociation, CPAEOS"]}
{"id": "C65", "title": "PC-SAFT: components can be split, reordered and left out", "statement": "Splitting a component into identical components whose fractions add up, listing the components in another order, or leaving out components whose fraction is zero changes neither alphar nor the largest density of a PC-SAFT mixture, polar or not.", "quantifier": "all mixtures, numbers of components, states, permutations and splittings", "why_tests_cant": "relates two models of different sizes at all states", "anchors": ["include/teqp/models/pcsaft.hpp: PCSAFTMixture, PCSAFTHardChainContribution", "include/teqp/models/saft/polar_terms/GrossVrabec.hpp"]}
{"id": "C66", "title": "Polar contributions of Gross and Vrabec", "statement": "The dipolar, quadrupolar and cross contributions are the Pade approximants of the published second and third order terms, with the published constants of each integral; the combined term has those parts for which some component carries the moment; they vanish at zero density and when no polar component is present.", "quantifier": "all mixtures, temperatures, densities, compositions and moments", "why_tests_cant": "sums over pairs and triples of any number of components at every state; the limits are 0/0 in the formula", "anchors": ["include/teqp/models/saft/polar_terms/GrossVrabec.hpp: DipolarContributionGrossVrabec, QuadrupolarContributionGross, DipolarQuadrupolarContributionVrabecGross, MultipolarContributionGrossVrabec", "include/teqp/models/pcsaft.hpp: PCSAFTMixture::alphar"]}
{"id": "C67", "title": "Reading PC-SAFT mixtures", "statement": "The mixture built from JSON has exactly the components (by library name or by coefficients, with their moments), the interaction matrix and the universal constants described, and everything else is refused: unknown names and sources, missing or ill-typed fields, matrices that are not square or not of the size of the mixture.", "quantifier": "all JSON specifications, any number of components", "why_tests_cant": "the inputs are unbounded and an ignored field shows only in the numbers", "anchors": ["include/teqp/models/pcsaft.hpp: PCSAFTfactory, PCSAFTLibrary, PCSAFTMixture"]}
{"id": "C68", "title": "Dilute limit and domain of the model potentials", "statement": "Each equation of state in simulation units (exp-6, Mie by polynomial and by neural network, Lennard-Jones by Johnson and by Kolafa, chains, two-centre fluids with and without moments) gives a residual energy of zero at zero density, and has a value exactly on a stated domain: exp-6 only for alpha > 8, Kolafa only below full packing, the network always and never larger than its last layer allows.", "quantifier": "all temperatures, densities and parameters of the potential, all weights of the network", "why_tests_cant": "The limits and the domain are about continua of temperatures, densities and potential parameters.", "anchors": ["include/teqp/models/model_potentials/exp6.hpp: alphar", "include/teqp/models/mie/mie.hpp: alphar", "include/teqp/models/mie/lennardjones/johnson.hpp: alphar", "include/teqp/models/model_potentials/2center_ljf.hpp: alphar"]}
{"id": "C69", "title": "Lennard-Jones energies agree with the published pressures", "statement": "The energy of Johnson et al. is the density integral of the modified Benedict-Webb-Rubin pressure; in that of Kolafa and Nezbeda the hard-sphere part integrates the published compressibility factor, the helper derivatives are the derivatives with respect to 1/T, and the second virial coefficient is that of the hard spheres plus the correction.", "quantifier": "all temperatures and densities", "why_tests_cant": "An analytic integral is compared with a pressure at finitely many states only.", "anchors": ["include/teqp/models/mie/lennardjones/johnson.hpp: LJ126Johnson1993, LJ126KolafaNezbeda1994"]}
{"id": "C70", "title": "Special cases and construction of chains and two-centre fluids", "statement": "A chain of one segment is the monomer, and a chain adds a bond term per link; a two-centre fluid of zero elongation has the Carnahan-Starling hard part; a zero moment gives the non-polar fluid and small moments change little; each factory reads exactly its keys and refuses an unknown author.", "quantifier": "all monomers, temperatures, densities, elongations, moments and JSON objects", "why_tests_cant": "Reductions hold for every state and every monomer model.", "anchors": ["include/teqp/models/model_potentials/LJChain.hpp: alphar", "include/teqp/models/model_potentials/2center_ljf.hpp", "interface/CPP/model_factory_model_potentials.cpp"]}
{"id": "C71", "title": "Contributions of data points to the cost", "statement": "A data point with a missing field is refused and a complete one is appended; its contribution is the weighted relative deviation of the calculated from the measured values with the thermodynamic speed of sound, never negative and zero exactly if all calculated values are the measured ones; a weight of zero leaves its part out; the density of a speed-of-sound point solves the pressure equation.", "quantifier": "all kinds of data points, all field values, all models", "why_tests_cant": "all data and models (the density iteration stops at half the solution: finding)", "anchors": ["include/teqp/algorithms/pure_param_optimization.hpp: SatRhoLPoint, SatRhoLPPoint, SatRhoLPWPoint, SOSPoint, PVTNoniterativePoint, PureParameterOptimizer::add_one_contribution"]}
{"id": "C72", "title": "Criticality conditions of mixtures", "statement": "At positive concentrations the direction used is a unit eigenvector of the Hessian of the Helmholtz energy density for its smallest eigenvalue, the returned derivatives of orders 2 to 4 are those of the energy density along it, the second one is the smallest eigenvalue (the least curvature of all directions), and the two criticality conditions are the second and third derivative. With one component of a binary absent they are those of the pure fluid; with two absent components the call throws.", "quantifier": "all models, temperatures, concentrations, numbers of components and solvers that decompose the matrix", "why_tests_cant": "derivatives and eigenvalues at every state of every model, and an eigenvector has no canonical sign", "anchors": ["include/teqp/algorithms/critical_tracing.hpp: eigen_problem, get_derivs, get_criticality_conditions"]}
{"id": "C73", "title": "Tangent of the critical curve of a binary mixture", "statement": "The returned derivative of the concentrations with respect to temperature solves the two linear equations that keep both criticality conditions at zero, with derivatives along the two eigenvectors; the differences in the second direction never use a state with a concentration that is not positive and are exact for quadratic conditions.", "quantifier": "all models, temperatures, concentrations", "why_tests_cant": "the choice among three difference formulas depends on the state, and the equation is about derivatives of eigenvector-based quantities", "anchors": ["include/teqp/algorithms/critical_tracing.hpp: get_drhovec_dT_crit"]}
{"id": "C74", "title": "Local stability of critical points", "statement": "A critical point is reported as locally stable exactly if the smallest eigenvalue of the Hessian is not smaller at the ends of two paths which follow the first eigenvector in both directions from it.", "quantifier": "all models, temperatures, concentrations and step sizes", "why_tests_cant": "the paths follow an eigenvector field of the model at every state", "anchors": ["include/teqp/algorithms/critical_tracing.hpp: EigenVectorPath, is_locally_stable"]}
{"id": "C75", "title": "Lee-Kesler-Ploecker mixtures", "statement": "A model is built exactly if the arrays have one length and the matrix of interaction parameters is square of that dimension; alphar is defined at all positive temperatures, vanishes at zero density, and its density derivative is the published compressibility factor interpolated in the acentric factor; the order of the components, the division of a component into equal ones, and the split of an interaction parameter between the two entries of the matrix do not matter; a pure fluid in a mixture is that fluid alone.", "quantifier": "all numbers of components, parameters, temperatures, densities, compositions, JSON specifications", "why_tests_cant": "an integral is compared with a pressure at finitely many states only, and sizes are unbounded", "anchors": ["include/teqp/models/LKP.hpp: LKPMix, make_LKPMix"]}
{"id": "C76", "title": "Ammonia-water after Tillner-Roth and Friend", "statement": "For every mixture with some ammonia alphar is that of the published equation: the reducing functions, the mole-fraction weighted pure fluids and the departure function with its fourteen terms; pure ammonia is the equation of state of ammonia, the departure vanishes at zero density and towards both pure fluids, and another number of components throws.", "quantifier": "all compositions, temperatures, densities and pure-fluid equations", "why_tests_cant": "the reducing functions and the departure have branches at the ends of the composition range; the claims are for the continuum between", "anchors": ["include/teqp/models/ammonia_water.hpp: AmmoniaWaterTillnerRoth"]}
{"id": "C77", "title": "Extended corresponding states after Huber and Ely", "statement": "alphar is that of the reference fluid at the conformal temperature and density given by the shape factors; a fluid with the constants of the reference fluid is the reference fluid, and fluids of one acentric factor and compressibility factor follow the two-parameter law.", "quantifier": "all reference models, constants, coefficients, temperatures, densities", "why_tests_cant": "relates a model to another one at every state", "anchors": ["include/teqp/models/ECSHuberEly.hpp: ECSHuberEly1994"]}
{"id": "C78", "title": "Polynomial extended-corresponding-states mutant of a multifluid model", "statement": "The reducing parameters are the published polynomials in the reduced state and the composition, alphar is the mole-fraction weighted sum of the pure fluids at the reduced state, a pure fluid is its own equation of state, coefficients that are constant reproduce the classical combining rules whatever the order of the components, matrices are read row by row, and ragged or missing ones are refused.", "quantifier": "all base models, matrices of any size, temperatures, densities, compositions", "why_tests_cant": "relates two models at all states; matrices are of any size", "anchors": ["include/teqp/models/multifluid_ecs_mutant.hpp: ReducingTemperature_pecs, ReducingDensity_pecs, MultifluidPECS, build_multifluid_pecs"]}
{"id": "C79", "title": "Models put together from parts", "statement": "A generic SAFT model is built from the kind and the model of its first part and, if present, of its association part; unknown kinds and missing keys throw; alphar has a value exactly if all parts have one, which is their sum, and the first part alone without association. A multifluid model with association is the sum of the two models built from the two keys.", "quantifier": "all JSON specifications, temperatures, densities, compositions, models of the parts", "why_tests_cant": "all specifications and states; relates a model to its parts", "anchors": ["include/teqp/models/saft/genericsaft.hpp: GenericSAFT", "include/teqp/models/multifluid_association.hpp: MultifluidPlusAssociation"]}
{"id": "C80", "title": "softSAFT mixtures", "statement": "A mixture is the Lennard-Jones chain of the mean number of segments with the size and energy of the van der Waals one-fluid rules in segment fractions; alphar vanishes at zero density; order, division of components and chains of equal segments behave as they must; a pure component is its own chain, and of one segment the Lennard-Jones fluid; the JSON keys are read exactly.", "quantifier": "all numbers of components, parameters, temperatures, densities, compositions", "why_tests_cant": "double sums over any number of components, relations between models of different sizes", "anchors": ["include/teqp/models/saft/softsaft.hpp: SoftSAFT"]}
{"id": "C81", "title": "SAFT-VR-Mie: residual Helmholtz energy", "statement": "The pair potential is the Mie potential (zero at sigma, deepest epsilon); the effective diameter lies between the cutoff distance and sigma, is that of Barker and Henderson with the integral replaced by its quadrature from the cutoff on, which the search (third-order steps towards the given energy) stops near, and only the search for the cutoff can throw; alphar is the published sum of hard spheres, three orders of perturbation and chains, in which the hand-coded density derivatives are derivatives; it vanishes at zero density for every composition and chain length; hard spheres of one size follow Carnahan and Starling; the order of components, the division of a component into equal ones and absent components do not matter; a wrong number of mole fractions throws.", "quantifier": "all numbers of components, parameters, temperatures, densities, compositions", "why_tests_cant": "double sums over any number of components, derivatives and limits at every state", "anchors": ["include/teqp/models/saftvrmie.hpp: SAFTVRMieChainContributionTerms, SAFTVRMieNonpolarMixture"]}
{"id": "C82", "title": "SAFT-VR-Mie: building models", "statement": "Names are looked up in the library of three fluids and others refused; coefficients give the model of these components whether the diameter is in metres or Angstrom; a matrix of the wrong size and a specification of nothing throw; moments give the contribution of Gross and Vrabec with reduced moments that do not depend on whether they were given reduced, in SI units or in Debye; an unknown polar model is refused.", "quantifier": "all lists of names and components, moments, matrices and specifications", "why_tests_cant": "specifications are of any size", "anchors": ["include/teqp/models/saftvrmie.hpp: SAFTVRMieLibrary, SAFTVRMieMixture, SAFTVRMieNonpolarfactory, SAFTVRMiefactory"]}
{"id": "C83", "title": "GERG-2004 and GERG-2008: residual Helmholtz energy", "statement": "A model is made exactly for different components of the list of 18 or 21; its energy is the published equation (reducing functions, pure fluids, departure functions) with tables that, for GERG-2008, are those of the independent reference implementation kept with the tests; a pure fluid is that of its own equation, the order of the components and absent components do not matter, and the energy vanishes with the density at every temperature.", "quantifier": "all lists of components, temperatures, densities, compositions", "why_tests_cant": "210 pairs of components in mixtures of any size; tests compare a few states", "anchors": ["include/teqp/models/GERG/GERG.hpp: GERG200XReducing, GERG200XCorrespondingStatesTerm, GERG200XDepartureTerm, GERG2004ResidualModel, GERG2008ResidualModel"]}
{"id": "C84", "title": "GERG-2004 and GERG-2008: ideal gas", "statement": "A model is made exactly for components of the list; its energy is the published equation with the coefficients of the tables and ideal mixing; enthalpy and entropy of every component are zero at 298.15 K and 101325 Pa; the pressure is that of an ideal gas and the heat capacity is positive at every temperature; the order of components and absent ones do not matter; there is a value exactly for positive temperature and density.", "quantifier": "all lists of components, temperatures, densities, compositions", "why_tests_cant": "derivatives and signs at every temperature", "anchors": ["include/teqp/models/GERG/GERG.hpp: GERG200XAlphaig, GERG2004IdealGasModel, GERG2008IdealGasModel"]}
{"id": "C85", "title": "Polar contribution of Gubbins and Twu", "statement": "The integrals of Luckas, Gubbins-Twu and Gottschalk are found exactly for the published orders and are finite at every positive temperature; the contribution is the Pade approximant of the second- and third-order perturbation terms of linear molecules with dipoles and quadrupoles; it is not positive where the integrals have their signs, zero without moments, of order density at low density, and does not depend on the order of components, on dividing one into equal ones or on absent ones; vectors of different lengths are refused.", "quantifier": "all numbers of components, moments, temperatures, densities, compositions, integrals", "why_tests_cant": "triple sums over any number of components, signs and limits at every state", "anchors": ["include/teqp/models/saft/polar_terms.hpp: MultipolarContributionGubbinsTwu", "include/teqp/models/saft/correlation_integrals.hpp: LuckasJIntegral, LuckasKIntegral, GubbinsTwuJIntegral, GubbinsTwuKIntegral, GottschalkJIntegral, GottschalkKIntegral"]}
{"id": "C86", "title": "Polar contribution of Gray and Gubbins", "statement": "Options are read with their documented defaults and polarizabilities of the wrong size refused; the two orders are those of the perturbation theory in SI units with polarizabilities; the contribution is their Pade approximant, zero without moments and at zero density, attractive where the integrals have their signs, equal to that of Gubbins and Twu for the same moments, and independent of order, division and absence of components; zero polarizabilities change nothing; the field that polarizes the molecules is the derivative of the energy with respect to the effective dipole.", "quantifier": "all numbers of components, moments, polarizabilities, options, temperatures, densities, compositions, integrals", "why_tests_cant": "triple sums over any number of components, derivatives and relations between models at every state", "anchors": ["include/teqp/models/saft/polar_terms.hpp: MultipolarContributionGrayGubbins"]}
{"id": "C87", "title": "COSMO-SAC: residual activity coefficients", "statement": "The energy of exchange of two segments is the published one, symmetric, with a hydrogen bond only between segments of opposite charge that can bond; the segment activity coefficients returned solve the segment equations within the tolerance, whichever way they are computed, provided that all segments are in the window of the fast way; the equations have one positive solution at most; the coefficients lie between the bounds of the interactions, are one without interactions, and the search can only end or fail by its limit; the activity coefficients are those of the segments with respect to the pure fluid, zero for a pure fluid and without interactions; order and division of components do not matter; exact solutions satisfy the Gibbs-Duhem equation.", "quantifier": "all numbers of fluids, profiles, areas, constants, temperatures and compositions", "why_tests_cant": "a fixed-point iteration over 153 unknowns, uniqueness and derivatives at every state", "anchors": ["include/teqp/models/activity/COSMOSAC.hpp: COSMO3, get_Gamma, get_lngamma_resid, DELTAW"]}
{"id": "C88", "title": "COSMO-SAC: combinatorial activity coefficients and building a model", "statement": "The coefficients are those of Staverman and Guggenheim with 10 neighbours; they vanish for pure fluids and molecules of one size, do not depend on the order or the division of components, and satisfy the Gibbs-Duhem equation; another number of mole fractions throws; the factory reads the areas, volumes, profiles and constants with the published defaults, and a missing key throws.", "quantifier": "all numbers of fluids, areas, volumes, compositions, JSON objects", "why_tests_cant": "derivatives along every path, relations between mixtures of different sizes", "anchors": ["include/teqp/models/activity/COSMOSAC.hpp: get_lngamma_comb", "include/teqp/models/activity/activity_models.hpp: ares_model_factory"]}
{"id": "C89", "title": "Saturation densities of cubic equations from expansions", "statement": "For the three equations with tables (van der Waals, Soave, Peng-Robinson) a reduced temperature within the table gives the Chebyshev expansion of the piece that contains it, and one outside throws; the pieces join with values that agree within 3e-13 and end at the critical temperature of the equation; saturation pressure and densities are positive and below one over the covolume, pressure and vapour density rise and liquid density falls with temperature on each piece, and below the last piece there is more liquid than vapour; the densities of one component of a mixture are those of its own attraction and covolume, and a mixture without a component, or with one that is not there, throws.", "quantifier": "all temperatures, attractions, covolumes, numbers of components, all sequences of joined expansions", "why_tests_cant": "a search by halving in tables of any length; signs and monotonicity at every real temperature", "anchors": ["include/teqp/models/cubicsuperancillary.hpp: Chebyshev, SuperAncillary, supercubic", "include/teqp/models/cubics.hpp: GenericCubic::superanc_rhoLV"]}
{"id": "C90", "title": "Holders of models behind the interface", "statement": "A model given to the interface is copied and then independent of everything done to the original, or viewed and then the same as the original for as long as that lives; a typed reference to it is found exactly for its type, and another type or a null pointer throws.", "quantifier": "all types, objects, sequences of assignments, destructions and creations", "why_tests_cant": "every history of the objects a program keeps", "anchors": ["include/teqp/cpp/deriv_adapter.hpp: Owner, ConstViewer, DerivativeAdapter, make_owned, make_cview, get_model_cref, get_model_ref"]}
{"id": "C91", "title": "Density derivatives in extended precision, effective hardness", "statement": "The first three density derivatives computed in extended precision differ from the exact ones by at most 1.6e-65 of a bound of the derivative four orders higher, and are exact for polynomials of the density; the effective hardness of a fluid of inverse-power repulsion is its exponent.", "quantifier": "all models with enough derivatives, temperatures, positive densities, compositions", "why_tests_cant": "an error bound for every smooth model", "anchors": ["include/teqp/cpp/deriv_adapter.hpp: get_Ar01ep, get_Ar02ep, get_Ar03ep", "interface/CPP/AbstractModel_implementation.cpp: AbstractModel::get_neff"]}
{"id": "C92", "title": "Lennard-Jones fluid of Thol", "statement": "The built-in model of the Lennard-Jones fluid is the published equation at every temperature and density, in units of the potential, with a gas constant of one; it has no residual energy without density, its slope there is the second virial coefficient, which is negative at the critical temperature, and it throws for another number of mole fractions.", "quantifier": "all temperatures and densities", "why_tests_cant": "the sum of 23 terms at every state", "anchors": ["include/teqp/models/mie/lennardjones.hpp: build_LJ126_TholJPCRD2016"]}
{"id": "C93", "title": "Cubic and PC-SAFT equations within multifluid models", "statement": "A fluid file whose term is a cubic equation or PC-SAFT gives the values of the cubic or PC-SAFT model with the same parameters, at the temperature and density asked for if the reducing values of the term are those of the file, and otherwise at these times their ratios; other files are not affected.", "quantifier": "all parameters, reducing values, temperatures, densities", "why_tests_cant": "agreement of two implementations at every state", "anchors": ["include/teqp/models/multifluid_eosterms.hpp: GenericCubicTerm, PCSAFTGrossSadowski2001Term", "include/teqp/models/multifluid.hpp: get_EOS_terms"]}
{"id": "C94", "title": "Rounding of integer powers", "statement": "In double arithmetic, rounded to nearest, the integer power of a finite double is a finite double within n-1 units of 2^-52 relative error of the exact power for an exponent n of 1 or more, and within 2n-1 units for the exponent -n, as long as the exact power is between 2^-1000 and 2^1000 in size; it is exactly one for the exponent zero. The unrolled powers have the same bounds.", "quantifier": "all doubles, all exponents of the type int", "why_tests_cant": "rounding errors of every multiplication, for each of 2^64 doubles and 2^32 exponents", "anchors": ["include/teqp/types.hpp: powi", "include/teqp/math/pow_templates.hpp: POW2, POW3, POW4, POW5, POW7, POW8, POW10, POW12"]}
{"id": "C95", "title": "Association reports", "statement": "The report of an association calculation is consistent with the energy: the energy is the sum over the reported sites of ln X - X/2 + 1/2, weighted by the reported counts and the mole fraction of the reported component; the reported fractions are in (0, 1] and solve the law of mass action made of the reported strengths and counts, up to the tolerance; the site tables are inverse and each site is one of its molecule.", "quantifier": "all molecules, options, temperatures, densities, compositions", "why_tests_cant": "consistency of two calculations at every state", "anchors": ["include/teqp/models/association/association.hpp: Association::get_assoc_calcs, alphar", "include/teqp/models/CPA.hpp: CPAAssociation::get_assoc_calcs, AssociationVariantWrapper"]}
{"id": "C96", "title": "Python functions that build models", "statement": "The functions of the Python package that build cubic, van der Waals and PC-SAFT models give the models of the arrays, names or coefficients given: without a matrix the interaction parameters are zero, with a square one of the right size they are its entries, other matrices are refused. For PC-SAFT the coefficients of polar terms should be used too (refuted: they are dropped).", "quantifier": "all arrays, matrices, names, coefficients", "why_tests_cant": "every length of arrays and shape of matrix", "anchors": ["teqp/__init__.py: vdWEOS, canonical_PR, canonical_SRK, PCSAFTEOS, tolist"]}
{"id": "C97", "title": "Python functions that became methods", "statement": "Each top-level function of the Python package that became a method of models is still there and returns what the method returns, or raises what it raises (refuted for the two second virial coefficients, which are missing).", "quantifier": "all the functions, models and arguments", "why_tests_cant": "all models and arguments", "anchors": ["teqp/__init__.py: deprecated_top_level_functions, deprecated_caller", "interface/pybind11_wrapper.cpp: init_teqp"]}
{"id": "C98", "title": "Python methods of particular models", "statement": "A model made in Python gets the attributes of its type, each once and none hiding a method that all models have; each gives what the model held says, whatever is done to other objects; metadata can be set (refuted: it always throws); ancillary curves are those of the fluid asked for and other indices are refused (refuted for negative indices).", "quantifier": "all types of models, contents, histories, indices", "why_tests_cant": "every type of model, every history of other objects", "anchors": ["interface/pybind11_wrapper.cpp: attach_model_specific_methods, attach_multifluid_methods, attach_GERG_methods, get_typed, get_mutable_typed"]}
{"id": "C99", "title": "Python functions reach the factory of their kind", "statement": "Each function of the Python package that builds a model runs, exactly once, the factory that the library came with for its kind, on exactly the parameters given, whatever was registered since and if the schema of the kind accepts them; if it does not, no factory runs and its complaints are reported. The kinds are all different.", "quantifier": "all functions, arguments, tables of factories with the kinds of the library, later registrations, schemas", "why_tests_cant": "all arguments and histories of registration", "anchors": ["teqp/__init__.py: make_model, make_vdW1, vdWEOS, canonical_PR, canonical_SRK, CPAfactory, PCSAFTEOS, AmmoniaWaterTillnerRoth, build_LJ126_TholJPCRD2016, IdealHelmholtz, build_multifluid_model", "interface/CPP/teqp_impl_factory.cpp: pointer_factory, build_model_ptr"]}
