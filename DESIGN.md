# Formal model of usnistgov/teqp in Coq: design

## Approach

* The code in `/repo` is read as text. It is modelled function by function in `rocq/theories/`.
* Every model definition carries a comment with the file and lines it models, and the simplifications made.
* For each area `X` there are up to three files:
  `X_model.v` (definitions only, executable where the code is discrete),
  `X_proofs.v` (lemmas), and the theorems in `Properties_*.v`
  (each `Theorem … . Proof. exact lemma. Qed.` plus `Print Assumptions`).
  The specifications the theorems are stated against (true derivatives, powers,
  integrals, permutations, histories…) are Coq/Coquelicot notions or live in `*_spec.v`
  files that do not mention the model.
* Where the full statement is false of the code, the file states it, proves the part that
  is true with suffix `_partial`, and proves the negation with a concrete
  witness as a theorem with suffix `_refuted`. Those are listed as findings below.

## Numbers

* `double`, dual and multicomplex scalars are modelled by Coq's real numbers `R` whenever the
  property is about the mathematical formula. Rounding, overflow and signed zeros are NOT modelled.
* Division by zero, `log` of non-positive numbers etc. are excluded by explicit hypotheses
  of each theorem. No theorem relies on Coq's value of `/0` or `ln 0`
  unless it says that the operation is guarded by the code.
* Where the code tests for non-finite numbers (solvers, stopping conditions) the
  model uses an extended type with explicit non-finite values.
* Integers of fixed width (handles, buffer lengths, `int` exponents) are modelled by `Z`
  with the wrap-around or overflow condition explicit.

## External code

* nlohmann::json, valijson, Eigen solvers, autodiff, Boost and the file system are modelled by what teqp
  relies on: JSON values as an inductive type, linear solves as "any x with A x = b",
  automatic differentiation as "returns the true partial derivative" (`is_derive` hypotheses),
  factories/schema checks/file systems as arbitrary functions (universally quantified).

## Properties: what is modelled and how it is proved

| id | model | method |
|----|-------|--------|
| C01–C04 | C interface as a state machine: (next_index, library) with the calls as operations; error buffer as a byte list with explicit out-of-bounds outcome | invariant over call histories, case analysis |
| C05 | small-step interleaving semantics of build_model threads with atomic counter and unlocked map | invariant over all schedules; counterexample for the map |
| C06–C08 | factory registry and ModelContainer as finite maps | invariants over histories |
| C09, C10 | `powi` loop with fuel-free well-founded recursion on Z; lists of R | loop invariant, induction |
| C11, C12 | JSON as inductive type; file system as a function | induction / case analysis |
| C13, C14 | stencil tables and quadrature nodes as lists | linearity + exactness on monomials, then arbitrary polynomials; integrals via Coquelicot RInt |
| C15 | Clenshaw recursion on lists | induction, Chebyshev recursion as spec |
| C16, C42–C48, C52 | solvers as loops over arbitrary step functions | invariants over executions; counterexamples for the false claims |
| C17 | dispatch tables as functions on Z | case analysis over all integers |
| C18–C23, C26 | Helmholtz energy as arbitrary differentiable function; code formulas over its derivatives | Coquelicot `is_derive`, field |
| C24, C25 | vectors/matrices as functions on finite index types/lists | linear algebra with finite sums |
| C27–C30, C32–C36, C39–C41, C54 | model equations over R, lists of components | real analysis, induction on component lists, Permutation |
| C31, C53 | database search as list search | induction on lists |
| C37, C38 | fixed point iteration over lists of R; site mapper on lists | invariants, algebra |
| C49, C50 | task/thread model; JSON documents as trees | schedule independence by permutation/induction |
| C51 | ancillary formulas | real analysis |
| C55 | critical extrapolation formulas of `critical_pure.hpp` | real analysis |
| C56 | parameter arrays as lists, `None` for out-of-bounds | case analysis, witnesses |
| C57 | JSON factories of the EoS/aE models | case analysis |

## Trusted base

* Coq 8.16.1's kernel (and `coqchk`). No axioms are added; no kernel check is switched off.
* Coquelicot and the standard library are used as libraries; Coquelicot adds no axioms.
* The axioms that `Print Assumptions` lists are all of the standard library:
  * D = `ClassicalDedekindReals.sig_forall_dec`
  * N = `ClassicalDedekindReals.sig_not_dec`
  * F = `FunctionalExtensionality.functional_extensionality_dep`
  * C = `Classical_Prop.classic`
* The correspondence between the C++ and the definitions of the `*_model.v` files, which was checked by reading.
* Doubles are reals: rounding, overflow and NaN are outside of the model unless a definition says otherwise.

## Which code is modelled

| Coq files | code in /repo | not modelled there |
|---|---|---|
| CApi_* | `interface/C/teqpc.cpp` | numerical contents, JSON parser |
| Registry_* | `interface/CPP/teqp_impl_factory.cpp`, `include/teqp/containers.hpp` | schema validation library (a function) |
| Json_*, Util_* | `json_tools.hpp`, `types.hpp`, `math/pow_templates.hpp` | JSON text parser, file system (functions) |
| Numerics_* | `math/finite_derivs.hpp`, `math/quadrature.hpp`, Clenshaw sums of `multifluid_eosterms.hpp`, `algorithms/rootfinding.hpp` | rounding |
| Derivs_*, Iso_* | `derivs.hpp`, `cpp/derivs.hpp` | the differentiation libraries (`AD_exact`: they return the true derivative) |
| Pure_* | `algorithms/critical_pure.hpp`, `algorithms/VLE_pure.hpp` | Eigen's linear solver (a function) |
| Trace_* | `algorithms/VLE.hpp` lines 524-790, `algorithms/VLLE.hpp` lines 481-517 | integrators of the tracers |
| PhaseEq_* | `algorithms/phase_equil.hpp` | |
| Cubic_* | `models/vdW.hpp`, `models/cubics.hpp`, `models/activity/activity_models.hpp`, closed factor of `models/multifluid/multifluid_activity.hpp` | superancillaries (see SuperAnc_*) |
| Terms_* | `models/multifluid_eosterms.hpp`, the builders of `models/multifluid.hpp` | `PCSAFTGrossSadowski2001Term` (see Fluids_*) |
| Multi_* | `models/multifluid.hpp` (mixture part), `multifluid_reducing.hpp`, `multifluid_gas_constant.hpp`, `multifluid_mutant.hpp`, `multifluid_ancillaries.hpp` | FLD converter (a function), directory listing (a function) |
| Ideal_* | `ideal_eosterms.hpp` (terms, mixtures, conversion of CoolProp files) | |
| Float_*, Iter_* | `algorithms/iteration.hpp` (numbers with infinities and NaN) | rounding, signed zeros, Eigen's linear solvers and `maxCoeff` (functions), stateful stopping conditions |
| VLE_* | `algorithms/VLE.hpp` lines 76-522 (`mix_VLE_Tx`, `mix_VLE_Tp` with its functor, `mixture_VLE_px`) | Eigen's QR solver and `minCoeff` (functions), `mix_VLE_Tp` for other than two components, its Powell branch (never reached) |
| Assoc_* | `models/association/association.hpp`, `association_types.hpp` | the table of Dufal's coefficients (a function), `get_assoc_calcs` (see Report_*), `interaction_partners` given as an array of pairs |
| CPA_* | `models/CPA.hpp` | `get_assoc_calcs` (see Report_*) |
| PCSAFT_* | `models/pcsaft.hpp`, `models/saft/pcsaftpure.hpp`, `models/saft/polar_terms/GrossVrabec.hpp`, `src/data/PCSAFT.cpp` | `print_info`; `-0.0` and other non-finite intermediate values (None) |
| Potential_* | `models/model_potentials/*.hpp`, `models/mie/mie.hpp`, `models/mie/lennardjones/johnson.hpp`, `interface/CPP/model_factory_model_potentials.cpp` | `LJ126TholJPCRD2016` (see Fluids_*), `get_zhs` (cannot be instantiated), the weights of the network (a parameter) |
| VLLE_* | `algorithms/VLLE.hpp` lines 30-461 (`mix_VLLE_T`, `mix_VLLE_p`, intersections of polylines, `find_VLLE_gen_binary`) | Eigen's QR solver (a function); other than two components (memory outside the arrays, `None`); the residual Hessian is taken from the same evaluation as the gradient |
| Tracer_* | `algorithms/VLE.hpp` lines 792-1283, `algorithms/VLLE.hpp` lines 519-648 (the tracers of isotherms, isobars and three-phase lines) | the controlled stepper of the integration library (a function: throws, refuses or takes a step); console output |
| Optim_* | `algorithms/pure_param_optimization.hpp`; JSON pointers of the JSON library; the thread pool of Boost.Asio as a transition system | `make_model` and the calls of the model (functions, evaluated concurrently without interference); parameters that are not finite; `prepare_helper_models` (not used) |
| Critical_* | `algorithms/critical_tracing.hpp` lines 22-331, 730-734 (conditions, tangent, local stability) | Eigen's eigenvalue and QR solvers (functions); doubles are reals |
| CritTrace_* | `algorithms/critical_tracing.hpp` lines 333-725, `algorithms/rootfinding.hpp`, `algorithms/critical_tracing_types.hpp` | the controlled stepper and the QR solver (functions); file and console output; other than two components |
| Build_* | `algorithms/ancillary_builder.hpp` | Eigen's QR solver (a function); the types of the flags; what "verify" prints |
| LKP_* | `models/LKP.hpp` | doubles are reals; the matrix is read as arrays of arrays of numbers |
| Reduced_* | `models/ammonia_water.hpp`, `models/ECSHuberEly.hpp`, `models/multifluid_ecs_mutant.hpp` | the pure-fluid equations and the reference fluid (functions, themselves modelled in Terms_* and Multi_*); building them from file names |
| SoftSAFT_* | `models/saft/softsaft.hpp`, `models/saft/genericsaft.hpp`, `models/multifluid_association.hpp` | the non-polar part of SAFT-VR-Mie and `multifluidfactory` (functions) |
| VRMie_* | `models/saftvrmie.hpp` | doubles are reals; the Gubbins-Twu and Gray-Gubbins contributions (functions, see Polar_*); what the constructors store for inspection only |
| GERG_* | `models/GERG/GERG.hpp`, `interface/CPP/model_factory_GERG.cpp`; the tables of `src/tests/GERG2008.cpp` as the reference | doubles are reals; the QR solver of the integration constants (their exact solution) |
| Polar_* | `models/saft/polar_terms.hpp`, `models/saft/correlation_integrals.hpp` | doubles are reals; the class that only forwards to the others |
| COSMO_* | `models/activity/COSMOSAC.hpp`, the branch COSMO-SAC-2010 of `ares_model_factory` in `models/activity/activity_models.hpp` | doubles are reals; the two constants that the factory prints; whether the arrays are unrolled by Eigen |
| SuperAnc_* | `models/cubicsuperancillary.hpp`, `superanc_rhoLV` of the classes in `models/cubics.hpp` | doubles are reals |
| Adapter_* | holders, typed references and `get_Ar01ep` to `get_Ar03ep` of `cpp/deriv_adapter.hpp`, `get_neff` of `interface/CPP/AbstractModel_implementation.cpp` | numbers of 100 digits are reals; `OwnershipSummer`; methods that only forward |
| Fluids_* | `build_LJ126_TholJPCRD2016` of `models/mie/lennardjones.hpp`, `PCSAFTGrossSadowski2001Term` of `models/multifluid_eosterms.hpp` and its branch of `get_EOS_terms` | members of the file that are not read |
| Rounding_* | `powi` of `types.hpp` and `math/pow_templates.hpp`, in binary64 arithmetic rounded to nearest (Flocq) | contraction of products and sums by the compiler; other rounding modes |
| Report_* | `get_assoc_calcs` of `models/association/association.hpp` and `models/CPA.hpp` | the conversion to JSON, the constant text "note" |
| Python_* | `teqp/__init__.py` and the model-specific methods of `interface/pybind11_wrapper.cpp` | conversion of arguments by pybind11; the warning of deprecated functions; lists that mix names and coefficients; the classes of options, whose fields are bound one to one |
| Kinds_* | the table `pointer_factory` of `interface/CPP/teqp_impl_factory.cpp` and the requests of `teqp/__init__.py` | arguments of other Python types than numbers, strings, lists and dictionaries |

## Findings: claims that are false of the code

Each `_refuted` theorem has a witness that the model computes. In words:

* C03: `exception_handler` catches `std::exception` by value, so that the message of the derived exception is lost.
* C04: a negative declared buffer length is converted to a huge unsigned one.
* C05: the library of models is an `unordered_map` without a lock; concurrent `build_model` calls race.
* C09: `powi(x, INT_MIN)` negates `INT_MIN`.
* C14: the 7-, 10-, 15- and 30-point Gauss rules are 16-digit decimals: exact only to 4e-16.
* C15: the two-dimensional Clenshaw sum swaps the roles of rows and columns for non-square coefficient matrices.
* C16: the bracketing root finder returns its last point without notice after 30 steps.
* C18: the third variable of `build_iteration_Jv` is written out of bounds for too small a Jacobian.
* C19: `solve_pure_critical` has no convergence check.
* C22: with a composition-dependent gas constant the pressure gradient misses a term.
* C24: `get_drhovecdp_Tsat` has no size check: N = 1 reads out of bounds, N >= 3 leaves zero rows.
* C25: the analytic Jacobian is wrong for two phases of a pure fluid and for three phases; more components than phases writes outside the matrix.
* C27: the quantum-corrected Peng-Robinson model loses the term ln(rho0/rho) of the volume translation.
* C29: a non-zero diagonal interaction parameter changes the pure limits of the cubic models. The invariant reducing function of a mutant has zero diagonals: the reducing temperature of each pure component is 0.
* C30: Chebyshev terms and terms with density exponent 0 do not vanish at zero density.
* C31: a record of a fluid with itself is read the same way in both orders (only with two spellings of one fluid).
* C32: the conversion of xi and zeta gives half of the documented gammaT and four times gammaV.
* C33: fluid files: no contiguity and length checks in `build_power`; fractional `l` are truncated; a negative `l` whose sum with the others is zero loses the exponential.
* C34: fractional density exponents are truncated at delta = 0.
* C35: a CoolProp polynomial heat capacity with exponent -1, and an Aly-Lee heat capacity with negative C, are converted to terms that never evaluate; Aly-Lee constants up to 1e-14 are dropped.
* C42: `take_steps_logrho` with temperature and density as inputs stops after one step and reports success although the density is not the requested one.
* C43: the step-count condition tests the number of steps asked for, not taken; a NaN residual or a NaN temperature step can be reported as success. When N steps are used up the result is `fatal` with an old message.
* C44: `mix_VLE_Tx` shortens a step by half the *smallest* ratio dx/(-x), which may be negative: the step is then reversed and a concentration can become negative (ideal-gas witness). If a component is absent and the solver proposes a positive change for it, the shortened step is infinite. With other than two components arrays are overrun or uninitialised rows used. With maxiter <= 0 the code is not set.
* C45: `mix_VLE_Tp` never tests convergence: all passes are made, `success` is false, the code stays unset and `num_iter` is maxiter - 1.
* C61: the step test of `mixture_VLE_px` compares the temperature step with the initial temperature; with maxiter <= 0 the code is not set.
* C37: the explicit two-site formula is used whenever the diagonal of the bonding matrix vanishes, also when the self-association mask or the partners forbid the bond; at zero density it returns the initial guess; the substitution loop ends at max_iters without a report.
* C38: more than 1000 distinct sites overrun the arrays of `make_mapper`.
* C63: CR1 without "options" copies an uninitialised `radial_dist`; the JSON options of a CPA model overwrite the `radial_dist` just read; the mixing-rule matrices of Dufal's data are declared with one column, so a mixture violates Eigen's preconditions.
* C64: the closed forms of the CPA schemes are 0/0 at zero density.
* C47: tracing with derivative extrapolation takes one extrapolation step too many.
* C51: an exponent 0 is accepted and moves the end point of an ancillary curve.
* C54: `get_R` does not check the number of mole fractions.
* C56: arrays of critical constants of unequal length are read out of bounds; the check of the number of alpha-function coefficients never fires.
* C57: the JSON factory of the advanced EoS/aE models only accepts two components.
* C66: `get_alpha3QQ` calls the dipolar integral `get_JDD_3ijk`; the quadrupolar one (`get_JQQ_3ijk`) is defined and never used.
  A PC-SAFT mixture with a polar component gives NaN at zero density, and when all its polar components have a fraction of zero.
  `PCSAFTMixture` has no dipole-quadrupole cross term even if both moments are present (the combined class of the same header has).
* C67: `kmat` that is not a non-empty array, `coeffs` next to `names`, and `(mu^*)^2` without `nmu` (or `(Q^*)^2` without `nQ`) are ignored without a message.
* C40: `squarewell.hpp` lines 102-117 divide integers (`-17/2`, `-17/6`, `-17/24` give -8, -2 and 0), so the energy jumps upwards when lambda passes 2 (C40_jump, C40_continuous_refuted). At lambda = 1 (hard spheres) it is 0/0.
* C68: the exp-6 equation is not finite for alpha <= 8, which its factory accepts.
* C69: `get_zhs` of `johnson.hpp` writes `zeta**zeta` and cannot be instantiated.
* C70: `get_T_red` multiplies by 0.25 only when the elongation is exactly zero; a negative squared moment gives NaN.
* C46: `mix_VLLE_T` and `mix_VLLE_p` compare the step with the tolerance without its absolute value: a Newton step that decreases every concentration counts as converged however large it is (C46_step_test_refuted).
* C46: `mix_VLLE_p` with `maxiter <= 0` returns the temperature -1; for other than two components the residual is written outside the vector or left uninitialised (C46_no_pass_refuted).
* C46: `find_VLLE_gen_binary` interpolates with the weights of the opposite ends of the segment (C46_weights_refuted), swallows the exception for an unknown key and returns nothing (C46_key_refuted); crossings at a vertex of a line are missed (C46_vertex_refuted).
* C48: retries of a refused step are unlimited; `max_step_retries` has no effect because the counter is zero where it is tested (C48_retries_refuted).
* C48: in `trace_VLE_isobar_binary` dT/dt lacks the factor c, and the reversal spares the last concentration, so with c = -1 or after a reversal the direction is not tangent to the isobar (C48_isobar_tangent_refuted).
* C48: polished values that are NaN pass the test of their distance and are recorded (C48_polished_refuted); concentrations that are all negative pass the test of the mole fractions (C48_negative_refuted); `max_dT` does not bound steps towards lower temperatures (C48_vlle_max_dT_refuted). If the derivative cannot be evaluated at a recorded point an older one is recorded (`recorded` in Tracer_spec.v).
* C49: with threads an exception of a contribution terminates the process instead of reaching the caller (C49_throws_refuted); non-finite contributions count 1e30 each instead of 1e30 in all (C49_not_finite_refuted); with zero threads the cost is zero (C49_no_thread_refuted).
* C50: overlapping pointers are accepted; the last write wins (C50_overlap_refuted).
* C71: `SOSPoint` ends its density iteration when `|change/rho - 1| < 1e-10` instead of `|change/rho|`: a guess of half the ideal-gas density is kept (C71_density_refuted). A weight of zero removes a NaN only from `SatRhoLPWPoint` (C71_zero_weight_refuted).
* `eigen_problem` with one absent component of three or more fills only the first and the last eigenvector; the others stay zero (C72_dilute_ternary_refuted).
* Without an alignment vector the sign of the direction follows the signs chosen by the eigenvalue solver; the test that should fix it looks at the eigenvector whose index is the component of least concentration (C72_direction_refuted).
* `EigenVectorPath` evaluates the four directions of a Runge-Kutta step but sums the first one for the second and third (C74_path, C74_path_refuted).
* The polishers of the tracer of critical curves accept whatever Newton's method holds after thirty steps; the residual is evaluated again but not looked at (C52_polish_refuted).
* `pure_endpoint_polish` appends a pure fluid if *any* concentration keeps its sign over the next step, though it is meant for a step that crosses zero (C52_endpoint_refuted); its starting density is that of the other component where the sought one has vanished (C52_endpoint_guess_refuted); and after a trace that left the range of compositions the derivative throws, which loses all points (C52_endpoint_throws_refuted).
* `build_ancillaries` records each point one step *above* the temperature at which it solved for equilibrium, with densities moved along their slopes: the fitted densities are not equilibrium densities (C51_built_saturation_refuted).  The first point is above the critical temperature when (Tc-Tmin)/(Npts-1) > Theta_nearcrit Tc, and then there is no result (C51_built_few_points_refuted); the last equilibrium is sought below Tmin (C51_built_Tmin_refuted); one point or none is a division by zero or an access to an empty array (C51_built_one_point_refuted).
* The tests of the polishers for numbers look at the given temperature and at the second concentration only (C52_polish_tests_refuted).
* `LKPMix` accepts a matrix whose diagonal is not one, which rescales the temperature of a pure fluid (C75_diagonal_refuted), and one that is not symmetric, of which only the sums of the two entries matter (C75_transposed).
* `AmmoniaWaterTillnerRoth` throws for pure water: the `return`s for x = 0 follow the `throw` or are never reached (C76_water_refuted; the limit exists, C76_water_limit).  The second mole fraction is not looked at (C76_second_fraction).
* `ECSHuberEly1994` accepts fewer than two coefficients and reads beyond the end (C77_coefficients_refuted); its gas constant is the CODATA one, not that of the reference fluid, so a "reference fluid" has other pressures (C77_gas_constant_refuted).
* `MultifluidPECS`: matrices smaller than 6 by 3 are accepted and then read out of bounds (C78_small_refuted), elements of rows longer than the first one are dropped (C78_long_row_refuted), and the first component is a special one, so that the order matters (C78_order_refuted).
* `MultifluidPlusAssociation::R` is the CODATA constant, not that of its multifluid model, so that its pressure differs from that model's even without association (C79_gas_constant_refuted).
* `SoftSAFT` compares no sizes: more fractions than parameters are read out of bounds (C80_sizes_refuted), fewer drop the last components (C80_fewer_fractions_refuted), empty arrays are undefined behaviour (C80_empty_refuted).
* `saftvrmie.hpp`: `kmat` below the diagonal is not looked at (C81_lower_triangle_refuted); `kmat(i,i)` is not taken to be zero and changes the energy of the pure fluid in the perturbation terms but not in the potential of the diameter (C81_diagonal_refuted).
* `SAFTVRMiefactory` looks at `SAFTVRMie_flags` only if some component is polar (C82_flags_refuted); moments as `mu_D`, `mu_Cm` and so on without `nmu` or `nQ` contribute nothing (C82_dipole_without_number_refuted).
* `SAFTVRMieMixture::build_polar` has its two conditions the wrong way round: a mixture with dipoles and quadrupoles gets no polar term (C82_constructor_refuted).
* `check_kmat` accepts an empty matrix, which is then read out of bounds (C82_empty_matrix_refuted).
* Without a theorem: `multifluid.hpp` line 988 constructs an exception without throwing it (the empty path throws afterwards);
  the mutant adapter has no size check; RK-PR has a removable 0/0 at delta_1 = sqrt(2) - 1.
  In `LKP.hpp` d1 of the simple fluid is 0.155428e-4 where the literature has 0.155488e-4 (from memory).
  `multifluid_ecs_mutant.hpp` documents Y_v without the factor 1/8 and with the exponents of tau and delta the other way round, keeps the base model by reference, and leaves out the departure functions of the base model.
* `GERG2004ResidualModel::alphar` evaluates the reducing functions before it compares the number of mole fractions: too many are read out of bounds (C83_size_2004_refuted); `GERG2008ResidualModel::alphar` compares first (C83_size).
* `GERG.hpp`: a component named twice is refused by the residual models (C83_names) and accepted by the ideal-gas models (C84_names); the parameters of n-butane with isobutane are stored in the other order than in the reference implementation, with reciprocals rounded to nine digits (C83_reference excepts the pair).
* `GubbinsTwu_J_coeffs` in `correlation_integrals.hpp` has the keys 15 to 19 twice where 25 to 29 are meant: these orders throw (C85_twu_refuted). Without a theorem: in the same table A of n = 17 and of n = 30 do not follow the trend of their neighbours, and keys of Gottschalk's triplet integrals with exponents of two digits cannot be asked for.
* `MultipolarContributionGubbinsTwu` does not compare the number of energies with the others (C85_constructor_refuted) and gives 0/0 at zero density and without the polar components (C85_vacuum_refuted, C85_absent_refuted); `MultipolarContributionGrayGubbins` has no such holes (C86_vacuum), and accepts an unknown approach until it is evaluated (C86_approach).
* `MultipolarContributionGrayGubbins::get_alpha2_muprime_gradient` uses z1 of component i where that of j is meant, `get_alpha3_muprime_gradient` does not set its sums to zero for every component and lacks the factor C3b in its last term, and `get_Eprime` does not divide by the mole fraction: the polarization of mixtures is not that of the theory (C86_gradient2_refuted, C86_gradient3_refuted, C86_field_C3b_refuted).
* `COSMO3::get_Gamma_fast` uses the window of charges in which some profile has segments that cannot bond for all three kinds: OH and OT segments outside it are left out of the sums (C87_ignored) and their coefficients left at one (C87_outside), so that the coefficients do not solve the segment equations (C87_window_refuted). With a segment in the last bin, or profiles with fewer than two segments, the window reaches beyond the 51 bins (C87_edge_refuted).
* `supercubic` returns -1 for an equation without a table, so that `superanc_rhoLV` of a generic cubic gives densities of -1/b (C89_unknown, C89_unknown_refuted). At the upper end of the tables of van der Waals and Peng-Robinson the order of the densities is the wrong one, by 1e-17 (C89_end_refuted). `Chebyshev::y` of a single coefficient adds it twice, once multiplied by the argument (C89_constant_refuted); the tables have 19.
* `make_owned` makes a holder of a `const` type, because its argument has become a `const` rvalue when the class template argument is deduced, while `get_model_ref` asks for one of the type as given: it throws for every model, and so does `set_meta` of multifluid models in Python (C90_mutable, C90_mutable_refuted). Without a theorem: `OwnershipSummer` has a `const std::type_index` that its constructor does not initialise, so it cannot be instantiated.
* The cubic and PC-SAFT terms of a multifluid model have reducing values of their own, which nothing compares with those of the file: if they differ, the model is that of another temperature and density (C93_PCSAFT, C93_cubic, C93_mismatch_met).
* `get_assoc_calcs` does not compare the number of mole fractions with that of the components, as `alphar` does: a wrong number is undefined behaviour (C95_sizes_refuted). For mixtures the older implementation of CPA reports fractions made of the parameters of the first component alone (C95_mixture_refuted).
* Python: `PCSAFTEOS` of `SAFTCoeffs` drops the dipole and quadrupole fields without notice (C96_polar_refuted).
* Python: in `deprecated_top_level_functions` a comma is missing between "get_B2vir" and "get_B12vir", so neither exists at top level (C97_virial_refuted).
* Python: `set_meta` of cubic and multifluid models always throws, because models are held as `const` (C98_set_meta_refuted).
* Python: `build_ancillaries(-1)` of a multifluid model passes the check of the index, which is signed, and reads out of bounds of an array that was made empty (C98_index_refuted).

## Print Assumptions, theorem by theorem

* C01: `C01_handles_never_reused`, `C01_handles_fit_the_C_type` — closed (no axioms)
* C02: `C02_handle_keeps_its_model`, `C02_unheld_handle_is_an_error`, `C02_free_releases`, `C02_handle_denotes_one_model` — closed (no axioms)
* C03: `C03_build_all_or_nothing`, `C03_getter_all_or_nothing`, `C03_error_text_identifies_error_refuted` — closed (no axioms)
* C04: `C04_error_buffer_never_overrun_partial`, `C04_error_buffer_refuted` — closed (no axioms)
* C05: `C05_concurrent_handles_distinct_partial`, `C05_concurrent_handles_usable_refuted`, `C05_serialised_insertions_usable` — closed (no axioms)
* C06: `C06_first_registration_wins`, `C06_no_overwrite`, `C06_registrations_do_not_disturb`, `C06_unknown_kind_refused` — closed (no axioms)
* C07: `C07_validation_gate`, `C07_bad_validate_flag_throws`, `C07_error_message_is_joined_list` — closed (no axioms)
* C08: `C08_container_history` — closed (no axioms)
* C09: `C09_powi_is_power`, `C09_powi_int_min_overflows_refuted`, `C09_POW_templates` — DF
* C10: `C10_dot_product` — DF
* C11: `C11_square_matrix_reader`, `C11_square_matrix_errors`, `C11_all_same_length` — closed (no axioms)
* C12: `C12_multilevel_load_resolution` — closed (no axioms)
* C13: `C13_centered_exact`, `C13_order_sharp` — DNF; `C13_unsupported_throws`, `C13_gradient_exact` — DF; `C13_mixed_exact` — DNFC
* C14: `C14_exact`, `C14_decimal_rules_partial`, `C14_exactness_of_decimal_rules_refuted`, `C14_unsupported_throws` — DNF
* C15: `C15_clenshaw_1d`, `C15_clenshaw_2d`, `C15_term_scaling`, `C15_nonsquare_refuted` — DF; `C15_cheb_is_chebyshev` — DNF
* C16: `C16_newton_outcome`, `C16_affine_root`, `C16_silent_nonconvergence_refuted` — DF
* C17: `C17_get_Ar`, `C17_deriv_mat2`, `C17_get_Ar0n_Arn0`, `C17_neff`, `C17_ATrhoXi`, `C17_ATrhoXiXj`, `C17_ATrhoXiXjXk`, `C17_taudelta` — DNF; `C17_Ar10_is_minus_T_dT` — DNFC; `C17_taudelta_throws`, `C17_taudelta_absent` — D
* C18: `C18_rows`, `C18_bad_variable`, `C18_third_variable_out_of_bounds` — DNFC
* C19: `C19_residual_and_jacobian`, `C19_critical_point_is_fixed`, `C19_convergence_refuted` — DNFC; `C19_composition` — D; `C19_flags_checked`, `C19_newton_step` — DF
* C20: `C20_residual_and_jacobian`, `C20_zero_iff_equilibrium`, `C20_equilibrium_is_fixed`, `C20_outcome` — DNFC
* C21: `C21_clapeyron` — DNFC
* C22: `C22_residual_pressure`, `C22_pressure_from_chemical_potentials`, `C22_chemical_potentials_are_gradient`, `C22_hessian`, `C22_pressure_gradient`, `C22_pressure_temperature`, `C22_chemical_potential_temperature`, `C22_gibbs_duhem`, `C22_partial_molar_volumes_add_up`, `C22_partial_molar_volumes_meaning`, `C22_residual_entropy`, `C22_pressure_gradient_composition_dependent_R_refuted` — DNFC; `C22_Ar01_both_ways`, `C22_directional_derivatives` — DNF
* C23: `C23_residual_chemical_potential`, `C23_fugacity`, `C23_equal_fugacity_iff_equal_chemical_potential`, `C23_ideal_gas`, `C23_split`, `C23_temperature_derivative`, `C23_density_derivative`, `C23_volume_derivative`, `C23_molefraction_derivative` — DNFC
* C24: `C24_isotherm`, `C24_isotherm_unique`, `C24_isobar`, `C24_isobar_unique`, `C24_isopleth`, `C24_three_phases`, `C24_isotherm_infinite_dilution`, `C24_isobar_infinite_dilution`, `C24_binary_only` — DNFC
* C25: `C25_pack_unpack`, `C25_unpack_pack` — D; `C25_construction`, `C25_construction_counts`, `C25_construction_terminates` — closed (no axioms); `C25_square`, `C25_wrong_size`, `C25_evaluates`, `C25_more_components_than_phases_refuted`, `C25_caloric_needs_ideal`, `C25_zero_iff_equilibrium`, `C25_jacobian_partial`, `C25_jacobian_other_rows`, `C25_jacobian_pure_fluid_refuted`, `C25_jacobian_three_phases_refuted` — DNFC
* C26: `C26_virial_coefficients` — DNFC; `C26_keys_and_range`, `C26_temperature_derivatives_range`, `C26_cross_coefficient`, `C26_cross_size` — DF; `C26_temperature_derivatives` — DNF
* C27: `C27_vdW1_pressure`, `C27_vdW_pressure`, `C27_vdW_critical`, `C27_cubic_pressure`, `C27_alpha_at_critical`, `C27_SRK_pressure`, `C27_PR_pressure`, `C27_default_interactions`, `C27_SRK_critical`, `C27_PR_critical`, `C27_RKPR_pressure`, `C27_RKPR_critical`, `C27_advPR_pressure`, `C27_quantum_pressure`, `C27_quantum_translation_refuted`, `C27_alpha_functions`, `C27_generalized`, `C27_generalized_alpha` — DNFC
* C28: `C28_vdW`, `C28_cubic`, `C28_SRK_PR`, `C28_ares`, `C28_advPR`, `C28_quantum`, `C28_RKPR`, `C28_order`, `C28_vdW_order`, `C28_division`, `C28_ideal`, `C28_reducing`, `C28_multifluid`, `C28_built` — DNFC; `C28_permutation_is_copying`, `C28_division_is_copying` — DF
* C29: `C29_pure_is_copying` — DF; `C29_cubic_partial`, `C29_vdW_partial`, `C29_diagonal_interaction_refuted`, `C29_advPR`, `C29_quantum`, `C29_reducing`, `C29_multifluid`, `C29_built`, `C29_invariant_mutant_refuted`, `C29_default_mutant` — DNFC
* C30: `C30_cubic`, `C30_vdW1`, `C30_multifluid`, `C30_terms`, `C30_other_terms`, `C30_term_sums`, `C30_chebyshev_refuted`, `C30_zero_exponent_refuted` — DNFC
* C31: `C31_priority`, `C31_missing`, `C31_forced`, `C31_same_record` — D; `C31_order`, `C31_same_fluid_refuted`, `C31_built` — DNFC
* C32: `C32_value`, `C32_refuted`, `C32_rescaled_partial` — DNFC
* C33: `C33_departure`, `C33_fluid_partial`, `C33_fluid_zeros_refuted`, `C33_departure_two_parts`, `C33_fluid_file` — DNFC; `C33_departure_accepts`, `C33_departure_lengths`, `C33_negative_refuted`, `C33_fluid_lengths_refuted`, `C33_truncated_exponent_refuted`, `C33_unknown_type` — DF; `C33_empty_file` — closed (no axioms)
* C34: `C34_terms`, `C34_extension`, `C34_fractional_exponent_refuted` — DNFC
* C35: `C35_term`, `C35_file`, `C35_reciprocal_refuted`, `C35_AlyLee`, `C35_AlyLee_negative_refuted`, `C35_AlyLee_small_refuted`, `C35_unknown`, `C35_index` — DNFC
* C36: `C36_pure`, `C36_mixture`, `C36_size`, `C36_absent`, `C36_limit`, `C36_density` — DNFC; `C36_unique` — DNF; `C36_unknown`, `C36_pure_refused`, `C36_array_refused` — closed (no axioms)
* C37: `C37_fractions`, `C37_tolerance`, `C37_solution`, `C37_explicit`, `C37_explicit_positive` — DNF; `C37_convergence` — DF; `C37_energy`, `C37_sizes`, `C37_explicit_refuted`, `C37_initial_guess_refuted`, `C37_exhausted_refuted` — DNFC
* C38: `C38_bijection`, `C38_counts`, `C38_totals`, `C38_enumeration`, `C38_limit_refuted`, `C38_matrix` — closed (no axioms)
* C39: `C39_C1` — DF; `C39_C2_derivative`, `C39_hs_branches`, `C39_hs_low_density`, `C39_hs_Carnahan_Starling`, `C39_value`, `C39_virial`, `C39_max_density`, `C39_pure` — DNFC
* C40: `C40_defined`, `C40_hard_spheres_refuted`, `C40_expansion` — DNF; `C40_continuous`, `C40_jump`, `C40_continuous_refuted`, `C40_virial` — DNFC
* C41: `C41_zero_interaction`, `C41_order`, `C41_activity_factor`, `C41_pure` — DNFC
* C42: `C42_steps`, `C42_newton`, `C42_TD`, `C42_path_step`, `C42_path` — DF; `C42_steps_logrho`, `C42_exceptions`, `C42_nonpositive`, `C42_returns`, `C42_reset` — DNF; `C42_newton_logrho`, `C42_TD_logrho_refuted` — DNFC; `C42_varied` — closed (no axioms)
* C43: `C43_MaxAbsError`, `C43_MaxAbsError_infinite`, `C43_MaxAbsError_nan_refuted`, `C43_MinRelStepsize`, `C43_MinRelStepsize_nan_refuted`, `C43_NegativeX`, `C43_StepCount_refuted` — DF; `C43_NanXDX`, `C43_StepCount_partial` — closed (no axioms)
* C44: `C44_sizes`, `C44_other_sizes_refuted`, `C44_equations`, `C44_jacobian`, `C44_run`, `C44_code_set`, `C44_returns`, `C44_absent_components`, `C44_solution_kept`, `C44_positive_refuted`, `C44_absent_rows` — DNFC; `C44_nonnegative_partial` — DFC; `C44_absent_step_refuted` — DF
* C45: `C45_sizes`, `C45_outcome_refuted`, `C45_equations`, `C45_jacobian`, `C45_steps`, `C45_solution_kept` — DNFC
* C46: `C46_T_equations`, `C46_p_equations`, `C46_T_jacobian`, `C46_p_jacobian`, `C46_T_run`, `C46_p_run`, `C46_returns`, `C46_no_pass_refuted`, `C46_solution_kept`, `C46_step_test_refuted` — DNFC; `C46_self_crossings`, `C46_cross_crossings`, `C46_vertex_refuted`, `C46_traces`, `C46_search`, `C46_key_refuted`, `C46_weights_refuted` — DF
* C47: `C47_trace`, `C47_grid` — DF; `C47_density_slope`, `C47_with_derivative_refuted` — DNFC
* C48: `C48_isotherm`, `C48_isotherm_refusals`, `C48_ends`, `C48_retries_refuted`, `C48_direction`, `C48_tangent`, `C48_isobar_tangent_refuted`, `C48_isobar`, `C48_isobar_refusals`, `C48_isobar_direction`, `C48_isobar_tangent_partial`, `C48_no_return`, `C48_polished_refuted` — DNF; `C48_isotherm_checks`, `C48_isobar_checks`, `C48_negative_refuted`, `C48_isotherm_polish`, `C48_isobar_polish`, `C48_step_sizes`, `C48_vlle`, `C48_vlle_max_dT_refuted` — DF
* C49: `C49_value`, `C49_same`, `C49_ends`, `C49_throws_refuted`, `C49_not_finite_refuted`, `C49_no_thread_refuted` — DNF
* C50: `C50_written`, `C50_rest`, `C50_above`, `C50_refusals`, `C50_text`, `C50_constructor` — closed (no axioms); `C50_overlap_refuted` — D
* C51: `C51_built_nodes`, `C51_built_Tmin_refuted`, `C51_built_saturation_refuted`, `C51_built_fit`, `C51_built_above`, `C51_built_few_points_refuted`, `C51_built_one_point_refuted`, `C51_built_answers`, `C51_above`, `C51_curve`, `C51_at_reducing`, `C51_zero_exponent_refuted` — DNFC; `C51_file`, `C51_one_pressure`, `C51_parts` — closed (no axioms)
* C52: `C52_trace`, `C52_points`, `C52_ends`, `C52_retries_refuted`, `C52_refusals`, `C52_direction`, `C52_tangent`, `C52_polishers`, `C52_fixedrho`, `C52_polished_evaluated`, `C52_polished_fixed`, `C52_polish_tests_refuted`, `C52_polish_refuted`, `C52_endpoint_refuted`, `C52_endpoint_throws_refuted`, `C52_endpoint_guess_refuted` — DNF; `C52_polish_bounds` — DF
* C53: `C53_selected`, `C53_none` — D; `C53_offered`, `C53_aliases`, `C53_components` — closed (no axioms)
* C54: `C54_between`, `C54_pure`, `C54_CODATA`, `C54_size_refuted` — DF; `C54_built` — DNFC
* C55: `C55_extrapolation` — DNFC
* C56: `C56_wrong_size`, `C56_cubic_parameters_refuted` — DNFC; `C56_vdW_parameters`, `C56_interaction_matrix`, `C56_alpha_count`, `C56_alpha_one_each`, `C56_alpha_coefficients_refuted` — DF
* C57: `C57_only_binaries_refuted` — DF
* C58: `C58_reducing`, `C58_value`, `C58_one`, `C58_size`, `C58_built`, `C58_departure_function`, `C58_files` — DNFC
* C59: `C59_identity`, `C59_local`, `C59_invariant_binary` — DNFC
* C60: `C60_values`, `C60_maxabsr`, `C60_calc_step` — DF
* C61: `C61_refused`, `C61_no_pass`, `C61_equations`, `C61_jacobian`, `C61_run`, `C61_code_set`, `C61_step_test_refuted` — DNFC
* C62: `C62_CR1` — DNF; `C62_CR1_physical`, `C62_Dufal_pure` — DNFC
* C63: `C63_default_partners`, `C63_partner_names`, `C63_constructor_rule` — closed (no axioms); `C63_factory`, `C63_no_options_refuted`, `C63_rule`, `C63_Dufal_mixture_refuted`, `C63_mask`, `C63_Dufal`, `C63_Dufal_energy` — DNFC; `C63_cpa`, `C63_cpa_radial_refuted`, `C63_cpa_mask`, `C63_class`, `C63_kmat`, `C63_unset_rule` — DNF
* C64: `C64_closed_forms`, `C64_strength`, `C64_zero_density_refuted` — DNF; `C64_energy`, `C64_agreement`, `C64_cubic`, `C64_sum` — DNFC
* C65: `C65_copies`, `C65_order`, `C65_absent`, `C65_pure` — DNFC
* C66: `C66_dipolar`, `C66_quadrupolar`, `C66_diquadrupolar`, `C66_multipolar`, `C66_alphar`, `C66_zero_density_refuted`, `C66_absent_refuted`, `C66_quadrupolar_integral_refuted` — DNFC
* C67: `C67_coeffs`, `C67_names`, `C67_refusals`, `C67_both_refuted`, `C67_kmat_ignored_refuted`, `C67_tables` — DF; `C67_lone_moment_refuted` — D; `C67_pure` — closed (no axioms)
* C68: `C68_exp6_domain`, `C68_exp6_dilute`, `C68_Pohl`, `C68_mie_alpha`, `C68_chain`, `C68_Kolafa`, `C68_two_centers` — DNFC; `C68_exp6_alpha` — DF; `C68_Chaparro`, `C68_Johnson` — DNF
* C69: `C69_Johnson`, `C69_diameter`, `C69_virial_correction`, `C69_hard_spheres`, `C69_Kolafa_virial` — DNFC
* C70: `C70_one_segment`, `C70_chain`, `C70_domain`, `C70_negative_moment`, `C70_spheres`, `C70_no_moment`, `C70_small_moment`, `C70_reducing_temperature`, `C70_models_made` — DNFC; `C70_factories`, `C70_unknown_author` — DF
* C71: `C71_fields` — closed (no axioms); `C71_total`, `C71_sound_speed`, `C71_values`, `C71_zero_weight`, `C71_zero_weight_refuted` — DNF; `C71_zero`, `C71_density`, `C71_density_refuted` — DF
* C72: `C72_derivatives`, `C72_eigenvalue`, `C72_least_curvature`, `C72_conditions`, `C72_dilute` — DNFC; `C72_dilute_ternary_refuted`, `C72_direction_refuted` — DNF; `C72_refusals`, `C72_aligned` — DF
* C73: `C73_tangent`, `C73_second_direction`, `C73_inside` — DF; `C73_pressure` — DNFC
* C74: `C74_path`, `C74_path_constant`, `C74_stable` — DF; `C74_path_refuted` — DNF
* C75: `C75_accepted`, `C75_json`, `C75_json_missing` — closed (no axioms); `C75_fractions`, `C75_pressure`, `C75_copies`, `C75_order`, `C75_division`, `C75_transposed`, `C75_pure`, `C75_diagonal_refuted` — DNFC
* C76: `C76_reducing`, `C76_published`, `C76_ammonia`, `C76_water_refuted`, `C76_water_limit`, `C76_ideal_gas`, `C76_second_fraction`, `C76_components` — DNFC
* C77: `C77_conformal`, `C77_reference`, `C77_simple`, `C77_coefficients_refuted` — DNFC; `C77_gas_constant_refuted` — DF; `C77_read` — closed (no axioms)
* C78: `C78_reducing`, `C78_alphar`, `C78_pure`, `C78_Lorentz_Berthelot`, `C78_order_partial`, `C78_order_refuted`, `C78_components`, `C78_small_refuted` — DNFC; `C78_read`, `C78_ragged`, `C78_long_row_refuted`, `C78_missing`, `C78_built` — D
* C79: `C79_kinds`, `C79_refused`, `C79_gas_constant_refuted` — DF; `C79_association`, `C79_built`, `C79_sum`, `C79_parts`, `C79_exceptions`, `C79_multifluid`, `C79_multifluid_sum` — DNFC
* C80: `C80_mixture`, `C80_ideal_gas`, `C80_copies`, `C80_order`, `C80_division`, `C80_pure`, `C80_monomer`, `C80_equal_segments`, `C80_sizes_refuted`, `C80_fewer_fractions_refuted` — DNFC; `C80_json`, `C80_json_missing`, `C80_empty_refuted` — closed (no axioms)
* C81: `C81_potential`, `C81_diameter`, `C81_cutoff`, `C81_cutoff_derivatives`, `C81_cutoff_step`, `C81_cutoff_root`, `C81_cutoff_guess`, `C81_barker_henderson`, `C81_alphar`, `C81_size`, `C81_exceptions`, `C81_carnahan_starling`, `C81_hard_spheres`, `C81_low_density`, `C81_zero_density`, `C81_monomers`, `C81_copies`, `C81_order`, `C81_division`, `C81_pure`, `C81_lower_triangle_refuted`, `C81_diagonal_refuted` — DNFC
* C82: `C82_names`, `C82_coefficients`, `C82_moments`, `C82_flags_refuted`, `C82_dipole_without_number_refuted`, `C82_constructor_refuted`, `C82_empty_matrix_refuted` — DNFC; `C82_nothing`, `C82_matrix_size`, `C82_unknown_model`, `C82_polar_models`, `C82_names_matrix` — DNF; `C82_rule` — DF
* C83: `C83_names`, `C83_reference_tables`, `C83_tables`, `C83_factory` — DF; `C83_formula`, `C83_reference`, `C83_2004`, `C83_components`, `C83_pure`, `C83_low_density`, `C83_size`, `C83_size_2004_refuted` — DNFC
* C84: `C84_names`, `C84_reference_tables` — DF; `C84_formula`, `C84_heat_capacity`, `C84_components`, `C84_domain` — DNFC; `C84_factory` — closed (no axioms)
* C85: `C85_pairs`, `C85_twu_refuted`, `C85_triplets`, `C85_finite`, `C85_twu_signs`, `C85_forms`, `C85_forms3`, `C85_nonpolar`, `C85_formula`, `C85_attractive`, `C85_vacuum_refuted`, `C85_absent_refuted`, `C85_low_density`, `C85_components` — DNFC; `C85_constructor` — closed (no axioms); `C85_constructor_refuted` — D; `C85_rhostar`, `C85_rhostar_pure` — DNF
* C86: `C86_defaults`, `C86_options`, `C86_sizes`, `C86_sizes_polarizable`, `C86_approach` — DNF; `C86_orders`, `C86_formula`, `C86_nonpolar`, `C86_vacuum`, `C86_attractive`, `C86_agree`, `C86_components`, `C86_zero_polarizability`, `C86_field`, `C86_field_C3b_refuted`, `C86_gradient2_refuted`, `C86_gradient3_refuted`, `C86_not_polarizable`, `C86_polarizable`, `C86_SAFT_GubbinsTwu`, `C86_SAFT_GrayGubbins` — DNFC
* C87: `C87_energy`, `C87_Gamma_total`, `C87_Gamma`, `C87_unique`, `C87_between`, `C87_no_interactions`, `C87_ignored`, `C87_outside`, `C87_window_refuted` — DNF; `C87_shares_pure`, `C87_shares`, `C87_window`, `C87_visible` — DF; `C87_total`, `C87_activity`, `C87_ideal`, `C87_pure`, `C87_edge`, `C87_copies`, `C87_order`, `C87_divided`, `C87_edge_refuted`, `C87_gibbs_duhem` — DNFC
* C88: `C88_formula`, `C88_sizes`, `C88_equal_sizes`, `C88_pure`, `C88_copies`, `C88_order`, `C88_divided`, `C88_gibbs_duhem` — DNFC; `C88_json`, `C88_json_missing` — DF
* C89: `C89_expansion`, `C89_constant_refuted`, `C89_lookup`, `C89_inner`, `C89_inner_met`, `C89_tables`, `C89_codes`, `C89_unknown`, `C89_range`, `C89_joints`, `C89_end_refuted`, `C89_unknown_refuted` — DF; `C89_cosines` — DNF; `C89_critical`, `C89_values`, `C89_monotone`, `C89_order`, `C89_densities`, `C89_component`, `C89_component_missing`, `C89_pure` — DNFC
* C90: `C90_reference`, `C90_null`, `C90_others`, `C90_owned`, `C90_view`, `C90_dangling_refuted`, `C90_mutable`, `C90_mutable_refuted` — closed (no axioms)
* C91: `C91_error`, `C91_exact`, `C91_neff` — DNFC; `C91_vacuum_refuted` — DF
* C92: `C92_published`, `C92_virial`, `C92_attraction` — DNFC
* C93: `C93_other_files`, `C93_PCSAFT`, `C93_PCSAFT_same`, `C93_cubic` — DNFC
* C94: `C94_positive`, `C94_negative`, `C94_zero`, `C94_unrolled`, `C94_exact_refuted` — DNFC
* C95: `C95_energy`, `C95_tables`, `C95_sizes_refuted`, `C95_pure`, `C95_mixture_refuted` — DNFC; `C95_balance`, `C95_forwards` — DNF
* C96: `C96_cubics` — DNFC; `C96_vdW`, `C96_names`, `C96_coeffs`, `C96_nonpolar`, `C96_polar_refuted`, `C96_empty` — DF
* C97: `C97_forwards`, `C97_virial_refuted`, `C97_missing` — closed (no axioms)
* C98: `C98_attaches`, `C98_reads`, `C98_view`, `C98_set_meta`, `C98_set_meta_refuted`, `C98_null`, `C98_mutants`, `C98_ecs`, `C98_ancillaries`, `C98_negative`, `C98_index_refuted` — closed (no axioms)
* C99: `C99_builds`, `C99_coeffs`, `C99_empty`, `C99_kinds` — closed (no axioms); `C99_C96` — DNFC
