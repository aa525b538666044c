{
 "claims": [
  {
   "property": "C01",
   "status": "proved",
   "theorems": [
    "C01_handles_never_reused",
    "C01_handles_fit_the_C_type"
   ],
   "note": ""
  },
  {
   "property": "C02",
   "status": "proved",
   "theorems": [
    "C02_handle_keeps_its_model",
    "C02_unheld_handle_is_an_error",
    "C02_free_releases",
    "C02_handle_denotes_one_model"
   ],
   "note": ""
  },
  {
   "property": "C03",
   "status": "partial",
   "theorems": [
    "C03_build_all_or_nothing",
    "C03_getter_all_or_nothing",
    "C03_error_text_identifies_error_refuted"
   ],
   "note": "Proved for exceptions derived from std::exception. Finding: message text lost because exception_handler catches std::exception by value."
  },
  {
   "property": "C04",
   "status": "partial",
   "theorems": [
    "C04_error_buffer_never_overrun_partial",
    "C04_error_buffer_refuted"
   ],
   "note": "Proved for every non-negative declared length; refuted for negative lengths (conversion to size_t)."
  },
  {
   "property": "C05",
   "status": "partial",
   "theorems": [
    "C05_concurrent_handles_distinct_partial",
    "C05_concurrent_handles_usable_refuted",
    "C05_serialised_insertions_usable"
   ],
   "note": "Distinct handles in all schedules; refuted that all returned handles are usable (unlocked unordered_map); proved when insertions are serialised."
  },
  {
   "property": "C06",
   "status": "proved",
   "theorems": [
    "C06_first_registration_wins",
    "C06_no_overwrite",
    "C06_registrations_do_not_disturb",
    "C06_unknown_kind_refused"
   ],
   "note": ""
  },
  {
   "property": "C07",
   "status": "proved",
   "theorems": [
    "C07_validation_gate",
    "C07_bad_validate_flag_throws",
    "C07_error_message_is_joined_list"
   ],
   "note": ""
  },
  {
   "property": "C08",
   "status": "proved",
   "theorems": [
    "C08_container_history"
   ],
   "note": ""
  },
  {
   "property": "C09",
   "status": "partial",
   "theorems": [
    "C09_powi_is_power",
    "C09_powi_int_min_overflows_refuted",
    "C09_POW_templates"
   ],
   "note": "Proved for all int n except INT_MIN, where the negation overflows (refuted theorem)."
  },
  {
   "property": "C10",
   "status": "proved",
   "theorems": [
    "C10_dot_product"
   ],
   "note": ""
  },
  {
   "property": "C11",
   "status": "proved",
   "theorems": [
    "C11_square_matrix_reader",
    "C11_square_matrix_errors",
    "C11_all_same_length"
   ],
   "note": ""
  },
  {
   "property": "C12",
   "status": "proved",
   "theorems": [
    "C12_multilevel_load_resolution"
   ],
   "note": ""
  },
  {
   "property": "C13",
   "status": "proved",
   "theorems": [
    "C13_centered_exact",
    "C13_unsupported_throws",
    "C13_mixed_exact",
    "C13_gradient_exact",
    "C13_order_sharp"
   ],
   "note": ""
  },
  {
   "property": "C14",
   "status": "partial",
   "theorems": [
    "C14_exact",
    "C14_decimal_rules_partial",
    "C14_exactness_of_decimal_rules_refuted",
    "C14_unsupported_throws"
   ],
   "note": "Exact for 3, 4, 5 points; the tabulated 16-digit rules (7, 10, 15, 30) are proved within 4e-16 of exact and refuted as exact."
  },
  {
   "property": "C15",
   "status": "partial",
   "theorems": [
    "C15_clenshaw_1d",
    "C15_cheb_is_chebyshev",
    "C15_clenshaw_2d",
    "C15_term_scaling",
    "C15_nonsquare_refuted"
   ],
   "note": "1D for all inputs; 2D for square matrices; a non-square coefficient matrix is refuted."
  },
  {
   "property": "C16",
   "status": "partial",
   "theorems": [
    "C16_newton_outcome",
    "C16_affine_root",
    "C16_silent_nonconvergence_refuted"
   ],
   "note": "Outcome fully characterised; refuted that a returned point meets the tolerance (silent exhaustion after 30 steps)."
  },
  {
   "property": "C17",
   "status": "proved",
   "theorems": [
    "C17_get_Ar",
    "C17_Ar10_is_minus_T_dT",
    "C17_deriv_mat2",
    "C17_get_Ar0n_Arn0",
    "C17_neff",
    "C17_ATrhoXi",
    "C17_ATrhoXiXj",
    "C17_ATrhoXiXjXk",
    "C17_taudelta",
    "C17_taudelta_throws",
    "C17_taudelta_absent"
   ],
   "note": ""
  },
  {
   "property": "C18",
   "status": "proved",
   "theorems": [
    "C18_rows",
    "C18_bad_variable",
    "C18_third_variable_out_of_bounds"
   ],
   "note": ""
  },
  {
   "property": "C19",
   "status": "partial",
   "theorems": [
    "C19_residual_and_jacobian",
    "C19_composition",
    "C19_critical_point_is_fixed",
    "C19_flags_checked",
    "C19_newton_step",
    "C19_convergence_refuted"
   ],
   "note": "Residuals and Jacobian proved for all smooth fluids; refuted that the result of solve_pure_critical is a critical point (no convergence check)."
  },
  {
   "property": "C20",
   "status": "proved",
   "theorems": [
    "C20_residual_and_jacobian",
    "C20_zero_iff_equilibrium",
    "C20_equilibrium_is_fixed",
    "C20_outcome"
   ],
   "note": ""
  },
  {
   "property": "C21",
   "status": "proved",
   "theorems": [
    "C21_clapeyron"
   ],
   "note": ""
  },
  {
   "property": "C22",
   "status": "partial",
   "theorems": [
    "C22_residual_pressure",
    "C22_pressure_from_chemical_potentials",
    "C22_chemical_potentials_are_gradient",
    "C22_hessian",
    "C22_pressure_gradient",
    "C22_pressure_temperature",
    "C22_chemical_potential_temperature",
    "C22_gibbs_duhem",
    "C22_partial_molar_volumes_add_up",
    "C22_partial_molar_volumes_meaning",
    "C22_residual_entropy",
    "C22_Ar01_both_ways",
    "C22_directional_derivatives",
    "C22_pressure_gradient_composition_dependent_R_refuted"
   ],
   "note": ""
  },
  {
   "property": "C23",
   "status": "proved",
   "theorems": [
    "C23_residual_chemical_potential",
    "C23_fugacity",
    "C23_equal_fugacity_iff_equal_chemical_potential",
    "C23_ideal_gas",
    "C23_split",
    "C23_temperature_derivative",
    "C23_density_derivative",
    "C23_volume_derivative",
    "C23_molefraction_derivative"
   ],
   "note": ""
  },
  {
   "property": "C24",
   "status": "proved",
   "theorems": [
    "C24_isotherm",
    "C24_isotherm_unique",
    "C24_isobar",
    "C24_isobar_unique",
    "C24_isopleth",
    "C24_three_phases",
    "C24_isotherm_infinite_dilution",
    "C24_isobar_infinite_dilution",
    "C24_binary_only"
   ],
   "note": "Binary mixtures: isotherm, isobar, isopleth and three-phase derivatives, existence and (isotherm, isobar) uniqueness, and infinite dilution. Other sizes: refused, except that the isotherm derivative has no size check (DESIGN.md)."
  },
  {
   "property": "C25",
   "status": "partial",
   "theorems": [
    "C25_pack_unpack",
    "C25_unpack_pack",
    "C25_construction",
    "C25_construction_counts",
    "C25_construction_terminates",
    "C25_square",
    "C25_wrong_size",
    "C25_evaluates",
    "C25_more_components_than_phases_refuted",
    "C25_caloric_needs_ideal",
    "C25_zero_iff_equilibrium",
    "C25_jacobian_partial",
    "C25_jacobian_other_rows",
    "C25_jacobian_pure_fluid_refuted",
    "C25_jacobian_three_phases_refuted"
   ],
   "note": "Packing, sizes, outcomes and the zero set proved for all sizes that are evaluated; the Jacobian proved for one phase of any mixture and two phases of binaries, and the balance, sum and specification rows for all sizes. Refuted: pure fluids with two phases, three phases, and more components than phases (memory outside the matrix)."
  },
  {
   "property": "C26",
   "status": "proved",
   "theorems": [
    "C26_virial_coefficients",
    "C26_keys_and_range",
    "C26_temperature_derivatives",
    "C26_temperature_derivatives_range",
    "C26_cross_coefficient",
    "C26_cross_size"
   ],
   "note": ""
  },
  {
   "property": "C27",
   "status": "partial",
   "theorems": [
    "C27_vdW1_pressure",
    "C27_vdW_pressure",
    "C27_vdW_critical",
    "C27_cubic_pressure",
    "C27_alpha_at_critical",
    "C27_SRK_pressure",
    "C27_PR_pressure",
    "C27_default_interactions",
    "C27_SRK_critical",
    "C27_PR_critical",
    "C27_RKPR_pressure",
    "C27_RKPR_critical",
    "C27_advPR_pressure",
    "C27_quantum_pressure",
    "C27_quantum_translation_refuted",
    "C27_alpha_functions",
    "C27_generalized",
    "C27_generalized_alpha"
   ],
   "note": "vdW, SRK, PR, RK-PR, EoS/aE and quantum-corrected PR pressures and critical constants; the volume translation of the quantum-corrected model is refuted (a logarithm is missing)."
  },
  {
   "property": "C28",
   "status": "proved",
   "theorems": [
    "C28_vdW",
    "C28_cubic",
    "C28_SRK_PR",
    "C28_ares",
    "C28_advPR",
    "C28_quantum",
    "C28_RKPR",
    "C28_permutation_is_copying",
    "C28_division_is_copying",
    "C28_order",
    "C28_vdW_order",
    "C28_division",
    "C28_ideal",
    "C28_reducing",
    "C28_multifluid",
    "C28_built"
   ],
   "note": "Order of components, division and lumping of components for vdW, SRK, PR, EoS/aE, quantum PR, RK-PR and Wilson, all sizes; order of components for the multifluid models, from the files to the values."
  },
  {
   "property": "C29",
   "status": "partial",
   "theorems": [
    "C29_pure_is_copying",
    "C29_cubic_partial",
    "C29_vdW_partial",
    "C29_diagonal_interaction_refuted",
    "C29_advPR",
    "C29_quantum",
    "C29_reducing",
    "C29_multifluid",
    "C29_built",
    "C29_invariant_mutant_refuted",
    "C29_default_mutant"
   ],
   "note": "Pure limits of the cubic and vdW models with zero diagonal interaction (refuted with a non-zero diagonal) and of the multifluid models from the files (refuted for invariant mutants). The SAFT models have their pure limits under C65, C80 and C81."
  },
  {
   "property": "C30",
   "status": "partial",
   "theorems": [
    "C30_cubic",
    "C30_vdW1",
    "C30_multifluid",
    "C30_terms",
    "C30_other_terms",
    "C30_term_sums",
    "C30_chebyshev_refuted",
    "C30_zero_exponent_refuted"
   ],
   "note": "vdW, cubic families, and all terms of the multifluid equations of state with natural density exponents from 1; refuted for Chebyshev terms and for the exponent 0."
  },
  {
   "property": "C31",
   "status": "partial",
   "theorems": [
    "C31_priority",
    "C31_missing",
    "C31_forced",
    "C31_same_record",
    "C31_order",
    "C31_same_fluid_refuted",
    "C31_built"
   ],
   "note": "Look-up order hash > name > CAS, estimates, both orders of a pair, and the parameters of the finished model; refuted only for two spellings of one fluid."
  },
  {
   "property": "C32",
   "status": "partial",
   "theorems": [
    "C32_value",
    "C32_refuted",
    "C32_rescaled_partial"
   ],
   "note": "Refuted for every pair: half of gammaT, four times gammaV; the corrected parameters are proved to give the documented rule."
  },
  {
   "property": "C33",
   "status": "partial",
   "theorems": [
    "C33_departure",
    "C33_departure_accepts",
    "C33_departure_lengths",
    "C33_negative_refuted",
    "C33_fluid_partial",
    "C33_fluid_zeros_refuted",
    "C33_fluid_lengths_refuted",
    "C33_departure_two_parts",
    "C33_truncated_exponent_refuted",
    "C33_fluid_file",
    "C33_unknown_type",
    "C33_empty_file"
   ],
   "note": "Departure functions: for all lists with exponents >= 0 the result is the file's function or an error (exactly characterised); refuted for negative exponents. Pure fluids: proved for equal lengths and zeros first, refuted otherwise. GERG/Gaussian two-part departure functions and sums over files proved; truncation of fractional exponents refuted."
  },
  {
   "property": "C34",
   "status": "partial",
   "theorems": [
    "C34_terms",
    "C34_extension",
    "C34_fractional_exponent_refuted"
   ],
   "note": "All terms with a zero-density branch, all natural density exponents, both branches equal the documented function and extend differentiably; refuted for fractional exponents."
  },
  {
   "property": "C35",
   "status": "partial",
   "theorems": [
    "C35_term",
    "C35_file",
    "C35_reciprocal_refuted",
    "C35_AlyLee",
    "C35_AlyLee_negative_refuted",
    "C35_AlyLee_small_refuted",
    "C35_unknown",
    "C35_index"
   ],
   "note": "All ten term types and whole files proved to evaluate to CoolProp's functions; refuted for the exponent -1, negative Aly-Lee C and Aly-Lee constants below 1e-14."
  },
  {
   "property": "C36",
   "status": "proved",
   "theorems": [
    "C36_pure",
    "C36_unique",
    "C36_unknown",
    "C36_mixture",
    "C36_size",
    "C36_absent",
    "C36_limit",
    "C36_density",
    "C36_pure_refused",
    "C36_array_refused"
   ],
   "note": "Values and heat capacities of all ten terms, sums, mixtures, absent components and their limit, density dependence."
  },
  {
   "property": "C37",
   "status": "partial",
   "theorems": [
    "C37_fractions",
    "C37_tolerance",
    "C37_solution",
    "C37_convergence",
    "C37_explicit",
    "C37_energy",
    "C37_sizes",
    "C37_explicit_refuted",
    "C37_initial_guess_refuted",
    "C37_exhausted_refuted",
    "C37_explicit_positive"
   ],
   "note": "Fractions in (0,1], stopping test of the returned iterate, existence and uniqueness of the solution, geometric convergence of the passes, explicit formula, energy; refuted: the explicit formula ignores which sites may bond and keeps the initial guess at zero density, and the loop returns an unconverged iterate at its limit without a report."
  },
  {
   "property": "C38",
   "status": "partial",
   "theorems": [
    "C38_bijection",
    "C38_counts",
    "C38_totals",
    "C38_enumeration",
    "C38_limit_refuted",
    "C38_matrix"
   ],
   "note": "Bijection, multiplicities, totals, the second numbering and the counting matrix; refuted: more than 1000 distinct sites overrun the arrays."
  },
  {
   "property": "C39",
   "status": "proved",
   "theorems": [
    "C39_C1",
    "C39_C2_derivative",
    "C39_hs_branches",
    "C39_hs_low_density",
    "C39_hs_Carnahan_Starling",
    "C39_value",
    "C39_virial",
    "C39_max_density",
    "C39_pure"
   ],
   "note": "C1 and C2, both branches of the hard-sphere term and their limits, the whole energy against the published formulas, second virial coefficient, packing 0.74 at the largest density, agreement of the pure-fluid implementation."
  },
  {
   "property": "C40",
   "status": "partial",
   "theorems": [
    "C40_defined",
    "C40_hard_spheres_refuted",
    "C40_continuous",
    "C40_jump",
    "C40_continuous_refuted",
    "C40_expansion",
    "C40_virial"
   ],
   "note": "Defined for 1 < lambda <= 8; continuous in lambda except at 2; refuted at 2 (jump, integer division) and at 1 (0/0); expansion about Carnahan-Starling and second virial coefficient."
  },
  {
   "property": "C41",
   "status": "proved",
   "theorems": [
    "C41_zero_interaction",
    "C41_order",
    "C41_activity_factor",
    "C41_pure"
   ],
   "note": "Wilson residual, order independence, pure limit and the density factor of the multifluid+activity correction."
  },
  {
   "property": "C42",
   "status": "partial",
   "theorems": [
    "C42_steps",
    "C42_steps_logrho",
    "C42_exceptions",
    "C42_nonpositive",
    "C42_returns",
    "C42_newton",
    "C42_newton_logrho",
    "C42_TD",
    "C42_TD_logrho_refuted",
    "C42_varied",
    "C42_path_step",
    "C42_path",
    "C42_reset"
   ],
   "note": "Complete histories of both loops (values and exceptions), exactness of the increments, path integration; refuted for the logarithmic form with temperature and density as inputs."
  },
  {
   "property": "C43",
   "status": "partial",
   "theorems": [
    "C43_MaxAbsError",
    "C43_MaxAbsError_infinite",
    "C43_MaxAbsError_nan_refuted",
    "C43_MinRelStepsize",
    "C43_MinRelStepsize_nan_refuted",
    "C43_NanXDX",
    "C43_NegativeX",
    "C43_StepCount_partial",
    "C43_StepCount_refuted"
   ],
   "note": "Exact criteria of the five conditions; refuted for NaN residuals, NaN steps and for the step count."
  },
  {
   "property": "C44",
   "status": "partial",
   "theorems": [
    "C44_sizes",
    "C44_other_sizes_refuted",
    "C44_equations",
    "C44_jacobian",
    "C44_run",
    "C44_code_set",
    "C44_returns",
    "C44_absent_components",
    "C44_solution_kept",
    "C44_positive_refuted",
    "C44_nonnegative_partial",
    "C44_absent_rows",
    "C44_absent_step_refuted"
   ],
   "note": "Equations, Jacobian, complete run with the meaning of each return code, absent components, solutions kept; refuted: positivity (with a partial positive result), numbers of components other than two, and the code when no pass is allowed."
  },
  {
   "property": "C45",
   "status": "partial",
   "theorems": [
    "C45_sizes",
    "C45_outcome_refuted",
    "C45_equations",
    "C45_jacobian",
    "C45_steps",
    "C45_solution_kept"
   ],
   "note": "Equations, Jacobian, every pass; refuted: success, code and iteration count never depend on what happened."
  },
  {
   "property": "C46",
   "status": "partial",
   "theorems": [
    "C46_T_equations",
    "C46_p_equations",
    "C46_T_jacobian",
    "C46_p_jacobian",
    "C46_T_run",
    "C46_p_run",
    "C46_returns",
    "C46_no_pass_refuted",
    "C46_solution_kept",
    "C46_step_test_refuted",
    "C46_self_crossings",
    "C46_cross_crossings",
    "C46_vertex_refuted",
    "C46_traces",
    "C46_search",
    "C46_key_refuted",
    "C46_weights_refuted"
   ],
   "note": "Residual zero exactly at three-phase states, Jacobian, every run of both solvers, exact set of crossings and of states returned; refuted: the test on the step is one-sided, T = -1 without a pass, reversed weights, crossings at vertices, unknown key swallowed."
  },
  {
   "property": "C47",
   "status": "partial",
   "theorems": [
    "C47_trace",
    "C47_grid",
    "C47_density_slope",
    "C47_with_derivative_refuted"
   ],
   "note": "Without derivative extrapolation proved; with it refuted (one extrapolation step too many after the last temperature). The slope itself is proved."
  },
  {
   "property": "C48",
   "status": "partial",
   "theorems": [
    "C48_isotherm",
    "C48_isotherm_refusals",
    "C48_ends",
    "C48_retries_refuted",
    "C48_direction",
    "C48_tangent",
    "C48_isobar_tangent_refuted",
    "C48_isotherm_checks",
    "C48_isobar_checks",
    "C48_negative_refuted",
    "C48_isotherm_polish",
    "C48_isobar_polish",
    "C48_isobar",
    "C48_isobar_refusals",
    "C48_isobar_direction",
    "C48_isobar_tangent_partial",
    "C48_step_sizes",
    "C48_no_return",
    "C48_polished_refuted",
    "C48_vlle",
    "C48_vlle_max_dT_refuted"
   ],
   "note": "Every returned trace is the given point followed by one point per accepted step, with the reason for its end; exact criteria for keeping a step and for accepting polished values; tangent and direction. Refuted: retries are unlimited, isobars with c = -1 or reversed are not tangent, NaN passes the polishing test, negative concentrations pass, max_dT does not bound descending traces."
  },
  {
   "property": "C49",
   "status": "partial",
   "theorems": [
    "C49_value",
    "C49_same",
    "C49_ends",
    "C49_throws_refuted",
    "C49_not_finite_refuted",
    "C49_no_thread_refuted"
   ],
   "note": "A transition system with one step per post, take, evaluation and check; every schedule returns the sequential sum when all contributions are finite. Refuted: exceptions terminate the process, several non-finite contributions add up to more than 1e30, zero threads give zero."
  },
  {
   "property": "C50",
   "status": "partial",
   "theorems": [
    "C50_written",
    "C50_rest",
    "C50_above",
    "C50_refusals",
    "C50_overlap_refuted",
    "C50_text",
    "C50_constructor"
   ],
   "note": "Pointers as in the JSON library (escapes, array indices). Refuted: overlapping pointers are not refused."
  },
  {
   "property": "C51",
   "status": "partial",
   "theorems": [
    "C51_built_nodes",
    "C51_built_Tmin_refuted",
    "C51_built_saturation_refuted",
    "C51_built_fit",
    "C51_built_above",
    "C51_built_few_points_refuted",
    "C51_built_one_point_refuted",
    "C51_built_answers",
    "C51_above",
    "C51_curve",
    "C51_at_reducing",
    "C51_zero_exponent_refuted",
    "C51_file",
    "C51_one_pressure",
    "C51_parts"
   ],
   "note": "Evaluation and files proved; builder: points, fit and evaluation agree up to the residual of the fit, exact condition for an answer. Refuted: an exponent zero moves the end point, few points end in an exception, the fitted densities are not those of equilibrium, the model is evaluated below Tmin."
  },
  {
   "property": "C52",
   "status": "partial",
   "theorems": [
    "C52_trace",
    "C52_points",
    "C52_polish_bounds",
    "C52_ends",
    "C52_retries_refuted",
    "C52_refusals",
    "C52_direction",
    "C52_tangent",
    "C52_polishers",
    "C52_fixedrho",
    "C52_polished_evaluated",
    "C52_polished_fixed",
    "C52_polish_tests_refuted",
    "C52_polish_refuted",
    "C52_endpoint_refuted",
    "C52_endpoint_throws_refuted",
    "C52_endpoint_guess_refuted"
   ],
   "note": "All traces, for any stepper, tangent and polishers; the polishers and Newton's method are modelled too. Refuted: polished states need not be critical, refused steps are not limited in number, and the pure fluid at the end is appended whether or not the last step crosses zero, is sought from the density of the other component, and makes the trace throw once it has left the range of compositions."
  },
  {
   "property": "C53",
   "status": "proved",
   "theorems": [
    "C53_selected",
    "C53_none",
    "C53_offered",
    "C53_aliases",
    "C53_components"
   ],
   "note": "Selection of the kind of identifier, alias maps and the loading of components."
  },
  {
   "property": "C54",
   "status": "partial",
   "theorems": [
    "C54_between",
    "C54_pure",
    "C54_built",
    "C54_CODATA",
    "C54_size_refuted"
   ],
   "note": "Proved for compositions of the right length; too long a composition is read out of bounds (refuted)."
  },
  {
   "property": "C55",
   "status": "proved",
   "theorems": [
    "C55_extrapolation"
   ],
   "note": ""
  },
  {
   "property": "C56",
   "status": "partial",
   "theorems": [
    "C56_wrong_size",
    "C56_vdW_parameters",
    "C56_cubic_parameters_refuted",
    "C56_interaction_matrix",
    "C56_alpha_count",
    "C56_alpha_one_each",
    "C56_alpha_coefficients_refuted"
   ],
   "note": "Wrong composition lengths are always reported; refuted for parameter arrays (out-of-bounds reads) and alpha-function coefficient arrays."
  },
  {
   "property": "C57",
   "status": "partial",
   "theorems": [
    "C57_only_binaries_refuted"
   ],
   "note": "Refuted: only binary mixtures are ever built."
  },
  {
   "property": "C58",
   "status": "proved",
   "theorems": [
    "C58_reducing",
    "C58_value",
    "C58_one",
    "C58_size",
    "C58_built",
    "C58_departure_function",
    "C58_files"
   ],
   "note": ""
  },
  {
   "property": "C59",
   "status": "proved",
   "theorems": [
    "C59_identity",
    "C59_local",
    "C59_invariant_binary"
   ],
   "note": ""
  },
  {
   "property": "C60",
   "status": "proved",
   "theorems": [
    "C60_values",
    "C60_maxabsr",
    "C60_calc_step"
   ],
   "note": ""
  },
  {
   "property": "C61",
   "status": "partial",
   "theorems": [
    "C61_refused",
    "C61_no_pass",
    "C61_equations",
    "C61_jacobian",
    "C61_run",
    "C61_code_set",
    "C61_step_test_refuted"
   ],
   "note": "Equations, Jacobian for any number of components, complete run with the meaning of each return code; refuted: the step test uses the initial temperature."
  },
  {
   "property": "C62",
   "status": "proved",
   "theorems": [
    "C62_CR1",
    "C62_CR1_physical",
    "C62_Dufal_pure"
   ],
   "note": "CR1 for any mixture; Dufal's rule for pure fluids (mixtures: see the refutation in C63)."
  },
  {
   "property": "C63",
   "status": "partial",
   "theorems": [
    "C63_default_partners",
    "C63_partner_names",
    "C63_factory",
    "C63_no_options_refuted",
    "C63_rule",
    "C63_Dufal_mixture_refuted",
    "C63_cpa",
    "C63_cpa_radial_refuted",
    "C63_mask",
    "C63_cpa_mask",
    "C63_class",
    "C63_kmat",
    "C63_constructor_rule",
    "C63_Dufal",
    "C63_Dufal_energy",
    "C63_unset_rule"
   ],
   "note": "Round trip of CR1 and CPA specifications, partners, rule names; refuted: CR1 without options reads an uninitialised member, options reset the radial distribution of a CPA model, Dufal mixtures are undefined behaviour."
  },
  {
   "property": "C64",
   "status": "partial",
   "theorems": [
    "C64_closed_forms",
    "C64_strength",
    "C64_zero_density_refuted",
    "C64_energy",
    "C64_agreement",
    "C64_cubic",
    "C64_sum"
   ],
   "note": "Closed forms, energy, agreement with the general implementation, cubic part; refuted: 0/0 at zero density."
  },
  {
   "property": "C65",
   "status": "proved",
   "theorems": [
    "C65_copies",
    "C65_order",
    "C65_absent",
    "C65_pure"
   ],
   "note": ""
  },
  {
   "property": "C66",
   "status": "partial",
   "theorems": [
    "C66_dipolar",
    "C66_quadrupolar",
    "C66_diquadrupolar",
    "C66_multipolar",
    "C66_alphar",
    "C66_zero_density_refuted",
    "C66_absent_refuted",
    "C66_quadrupolar_integral_refuted"
   ],
   "note": "Values of all parts; refuted: the third-order quadrupolar term uses the dipolar integral, and a mixture with a polar component has no energy at zero density or when the polar components are absent (0/0)."
  },
  {
   "property": "C67",
   "status": "partial",
   "theorems": [
    "C67_coeffs",
    "C67_names",
    "C67_refusals",
    "C67_both_refuted",
    "C67_kmat_ignored_refuted",
    "C67_lone_moment_refuted",
    "C67_tables",
    "C67_pure"
   ],
   "note": "Exact characterisation of what is accepted and of the mixture built, and the errors; refuted: names and coefficients together, a matrix that is not a non-empty array, and a moment without its number of segments are accepted silently."
  },
  {
   "property": "C68",
   "status": "proved",
   "theorems": [
    "C68_exp6_domain",
    "C68_exp6_dilute",
    "C68_exp6_alpha",
    "C68_Pohl",
    "C68_Chaparro",
    "C68_mie_alpha",
    "C68_chain",
    "C68_Johnson",
    "C68_Kolafa",
    "C68_two_centers"
   ],
   "note": "Exact domains and the value zero at zero density for all potentials (the square well in C40_virial)."
  },
  {
   "property": "C69",
   "status": "proved",
   "theorems": [
    "C69_Johnson",
    "C69_diameter",
    "C69_virial_correction",
    "C69_hard_spheres",
    "C69_Kolafa_virial"
   ],
   "note": "Derivatives with respect to density and 1/T. The coefficient tables are part of the model."
  },
  {
   "property": "C70",
   "status": "proved",
   "theorems": [
    "C70_one_segment",
    "C70_chain",
    "C70_domain",
    "C70_negative_moment",
    "C70_spheres",
    "C70_no_moment",
    "C70_small_moment",
    "C70_reducing_temperature",
    "C70_factories",
    "C70_models_made",
    "C70_unknown_author"
   ],
   "note": "Chain and two-centre reductions, domain, factories; the reducing temperature of spheres is a quarter of the limit."
  },
  {
   "property": "C71",
   "status": "partial",
   "theorems": [
    "C71_fields",
    "C71_total",
    "C71_sound_speed",
    "C71_values",
    "C71_zero",
    "C71_zero_weight",
    "C71_zero_weight_refuted",
    "C71_density",
    "C71_density_refuted"
   ],
   "note": "Refuted: the density iteration of speed-of-sound points stops where the step equals the density; a zero weight does not remove a NaN from SatRhoLPPoint."
  },
  {
   "property": "C72",
   "status": "partial",
   "theorems": [
    "C72_derivatives",
    "C72_eigenvalue",
    "C72_least_curvature",
    "C72_conditions",
    "C72_dilute",
    "C72_dilute_ternary_refuted",
    "C72_refusals",
    "C72_aligned",
    "C72_direction_refuted"
   ],
   "note": "The solver is a function with a contract for the matrix at hand. Refuted: in a mixture of three components with one absent the second vector is zero; the direction depends on the solver's choice of signs."
  },
  {
   "property": "C73",
   "status": "proved",
   "theorems": [
    "C73_tangent",
    "C73_pressure",
    "C73_second_direction",
    "C73_inside"
   ],
   "note": "The linear system is solved by a function; that its result is a solution is a hypothesis of the last conjunct."
  },
  {
   "property": "C74",
   "status": "partial",
   "theorems": [
    "C74_path",
    "C74_path_refuted",
    "C74_path_constant",
    "C74_stable"
   ],
   "note": "Refuted: the path is not the classical Runge-Kutta step through the directions it evaluates (the second and third are not used in the sum); they agree if the direction is constant."
  },
  {
   "property": "C75",
   "status": "partial",
   "theorems": [
    "C75_accepted",
    "C75_fractions",
    "C75_pressure",
    "C75_copies",
    "C75_order",
    "C75_division",
    "C75_transposed",
    "C75_pure",
    "C75_diagonal_refuted",
    "C75_json",
    "C75_json_missing"
   ],
   "note": "Refuted: entries on the diagonal of the matrix need not be one, and another value moves the pure fluid to another temperature."
  },
  {
   "property": "C76",
   "status": "partial",
   "theorems": [
    "C76_reducing",
    "C76_published",
    "C76_ammonia",
    "C76_water_refuted",
    "C76_water_limit",
    "C76_ideal_gas",
    "C76_second_fraction",
    "C76_components"
   ],
   "note": "The pure-fluid equations are arguments. Refuted: pure water throws although the limit exists."
  },
  {
   "property": "C77",
   "status": "partial",
   "theorems": [
    "C77_conformal",
    "C77_reference",
    "C77_gas_constant_refuted",
    "C77_simple",
    "C77_coefficients_refuted",
    "C77_read"
   ],
   "note": "The reference fluid is an argument. Refuted: fewer than two coefficients are accepted and read out of bounds; the gas constant is not that of the reference fluid."
  },
  {
   "property": "C78",
   "status": "partial",
   "theorems": [
    "C78_reducing",
    "C78_alphar",
    "C78_pure",
    "C78_Lorentz_Berthelot",
    "C78_order_partial",
    "C78_order_refuted",
    "C78_components",
    "C78_read",
    "C78_ragged",
    "C78_long_row_refuted",
    "C78_small_refuted",
    "C78_missing",
    "C78_built"
   ],
   "note": "Order of the components only for coefficients that do not depend on the composition (partial; refuted otherwise). Refuted: matrices smaller than 6 by 3 are accepted and read out of bounds, elements of long rows are dropped."
  },
  {
   "property": "C79",
   "status": "partial",
   "theorems": [
    "C79_kinds",
    "C79_refused",
    "C79_association",
    "C79_built",
    "C79_sum",
    "C79_parts",
    "C79_exceptions",
    "C79_multifluid",
    "C79_multifluid_sum",
    "C79_gas_constant_refuted"
   ],
   "note": "The non-polar part of SAFT-VR-Mie and the file-based multifluid factory are arguments. Refuted: the gas constant is not that of the multifluid model."
  },
  {
   "property": "C80",
   "status": "partial",
   "theorems": [
    "C80_mixture",
    "C80_ideal_gas",
    "C80_copies",
    "C80_order",
    "C80_division",
    "C80_pure",
    "C80_monomer",
    "C80_equal_segments",
    "C80_sizes_refuted",
    "C80_fewer_fractions_refuted",
    "C80_json",
    "C80_json_missing",
    "C80_empty_refuted"
   ],
   "note": "Refuted: the numbers of fractions and parameters are not compared (too many: undefined behaviour; too few: components are dropped); empty arrays are undefined behaviour."
  },
  {
   "property": "C81",
   "status": "partial",
   "theorems": [
    "C81_potential",
    "C81_diameter",
    "C81_cutoff",
    "C81_cutoff_derivatives",
    "C81_cutoff_step",
    "C81_cutoff_root",
    "C81_cutoff_guess",
    "C81_barker_henderson",
    "C81_alphar",
    "C81_size",
    "C81_exceptions",
    "C81_carnahan_starling",
    "C81_hard_spheres",
    "C81_low_density",
    "C81_zero_density",
    "C81_monomers",
    "C81_copies",
    "C81_order",
    "C81_division",
    "C81_pure",
    "C81_lower_triangle_refuted",
    "C81_diagonal_refuted"
   ],
   "note": "Where the formulas are finite (always, at low packing, if the rational functions of the exponents have no pole); the integral in the diameter is its ten-point quadrature. Refuted: the part of the matrix of interaction parameters below the diagonal is not looked at, and a diagonal element changes the energy of the pure fluid in all places but the diameter."
  },
  {
   "property": "C82",
   "status": "partial",
   "theorems": [
    "C82_names",
    "C82_coefficients",
    "C82_nothing",
    "C82_matrix_size",
    "C82_moments",
    "C82_flags_refuted",
    "C82_dipole_without_number_refuted",
    "C82_constructor_refuted",
    "C82_empty_matrix_refuted",
    "C82_unknown_model",
    "C82_polar_models",
    "C82_rule",
    "C82_names_matrix"
   ],
   "note": "The contributions of Gubbins-Twu and Gray-Gubbins are arguments here (C85, C86). Refuted: the flag for the combining rule is not looked at without moments; moments in SI units or Debye without the number of segments contribute nothing; the class built from coefficients drops the polar term if there are both kinds of moments; an empty matrix is accepted and read out of bounds."
  },
  {
   "property": "C83",
   "status": "partial",
   "theorems": [
    "C83_names",
    "C83_formula",
    "C83_reference",
    "C83_reference_tables",
    "C83_2004",
    "C83_components",
    "C83_pure",
    "C83_low_density",
    "C83_size",
    "C83_size_2004_refuted",
    "C83_tables",
    "C83_factory"
   ],
   "note": "Refuted: the model of 2004 looks at the number of mole fractions only after it has used them, so too many are read out of bounds. The betas of n-butane and isobutane are stored for the other order, rounded."
  },
  {
   "property": "C84",
   "status": "proved",
   "theorems": [
    "C84_names",
    "C84_formula",
    "C84_heat_capacity",
    "C84_reference_tables",
    "C84_components",
    "C84_domain",
    "C84_factory"
   ],
   "note": "The two integration constants are the exact solution of the equations solved by a QR decomposition."
  },
  {
   "property": "C85",
   "status": "partial",
   "theorems": [
    "C85_pairs",
    "C85_twu_refuted",
    "C85_triplets",
    "C85_finite",
    "C85_twu_signs",
    "C85_forms",
    "C85_forms3",
    "C85_constructor",
    "C85_constructor_refuted",
    "C85_rhostar",
    "C85_rhostar_pure",
    "C85_nonpolar",
    "C85_formula",
    "C85_attractive",
    "C85_vacuum_refuted",
    "C85_absent_refuted",
    "C85_low_density",
    "C85_components"
   ],
   "note": "Signs of the integrals are hypotheses except for those of Gubbins and Twu at low density. Refuted: the orders 25 to 29 of Gubbins and Twu's integrals are missing from the table; the constructor does not compare the number of energies; at zero density, and when all polar components are absent, the value is 0/0."
  },
  {
   "property": "C86",
   "status": "partial",
   "theorems": [
    "C86_defaults",
    "C86_options",
    "C86_sizes",
    "C86_sizes_polarizable",
    "C86_approach",
    "C86_orders",
    "C86_formula",
    "C86_nonpolar",
    "C86_vacuum",
    "C86_attractive",
    "C86_agree",
    "C86_components",
    "C86_zero_polarizability",
    "C86_field",
    "C86_field_C3b_refuted",
    "C86_gradient2_refuted",
    "C86_gradient3_refuted",
    "C86_not_polarizable",
    "C86_polarizable",
    "C86_SAFT_GubbinsTwu",
    "C86_SAFT_GrayGubbins"
   ],
   "note": "The field is the derivative of the energy for a pure fluid with C3b = 1. Refuted: with another C3b, and in mixtures, the gradients are not the derivatives."
  },
  {
   "property": "C87",
   "status": "partial",
   "theorems": [
    "C87_energy",
    "C87_shares_pure",
    "C87_shares",
    "C87_window",
    "C87_Gamma_total",
    "C87_Gamma",
    "C87_visible",
    "C87_unique",
    "C87_between",
    "C87_no_interactions",
    "C87_total",
    "C87_activity",
    "C87_ideal",
    "C87_pure",
    "C87_ignored",
    "C87_outside",
    "C87_edge",
    "C87_copies",
    "C87_order",
    "C87_divided",
    "C87_window_refuted",
    "C87_edge_refuted",
    "C87_gibbs_duhem"
   ],
   "note": "The iteration is in exact arithmetic; Gibbs-Duhem for exact solutions that are differentiable. Refuted: the fast way leaves out the segments that can bond outside the window of those that cannot, so that its coefficients do not solve the equations; profiles with fewer than two segments or with a segment in the last bin are read out of bounds."
  },
  {
   "property": "C88",
   "status": "proved",
   "theorems": [
    "C88_formula",
    "C88_sizes",
    "C88_equal_sizes",
    "C88_pure",
    "C88_copies",
    "C88_order",
    "C88_divided",
    "C88_gibbs_duhem",
    "C88_json",
    "C88_json_missing"
   ],
   "note": "For a sum of fractions of one and positive areas and volumes."
  },
  {
   "property": "C89",
   "status": "partial",
   "theorems": [
    "C89_expansion",
    "C89_cosines",
    "C89_constant_refuted",
    "C89_lookup",
    "C89_inner",
    "C89_inner_met",
    "C89_tables",
    "C89_codes",
    "C89_unknown",
    "C89_range",
    "C89_critical",
    "C89_values",
    "C89_monotone",
    "C89_joints",
    "C89_order",
    "C89_end_refuted",
    "C89_densities",
    "C89_component",
    "C89_component_missing",
    "C89_pure",
    "C89_unknown_refuted"
   ],
   "note": "How far the tables are from the coexistence of the equation of state is not proved. Refuted: an expansion of one coefficient is not its value; at the upper end of the tables of van der Waals and Peng-Robinson the vapour is denser than the liquid; a cubic without a table gets negative densities instead of an exception."
  },
  {
   "property": "C90",
   "status": "partial",
   "theorems": [
    "C90_reference",
    "C90_null",
    "C90_others",
    "C90_owned",
    "C90_view",
    "C90_dangling_refuted",
    "C90_mutable",
    "C90_mutable_refuted"
   ],
   "note": "Refuted: a view outlives its object without notice; a mutable reference to a model made by make_owned is never found, because the holder is one of a const type."
  },
  {
   "property": "C91",
   "status": "partial",
   "theorems": [
    "C91_error",
    "C91_exact",
    "C91_vacuum_refuted",
    "C91_neff"
   ],
   "note": "Numbers of 100 digits are reals. Refuted: at zero density there is no value."
  },
  {
   "property": "C92",
   "status": "proved",
   "theorems": [
    "C92_published",
    "C92_virial",
    "C92_attraction"
   ],
   "note": ""
  },
  {
   "property": "C93",
   "status": "proved",
   "theorems": [
    "C93_other_files",
    "C93_PCSAFT",
    "C93_PCSAFT_same",
    "C93_cubic"
   ],
   "note": "The agreement with the cubic needs an alpha that is not negative. C93_mismatch_met shows that reducing values that differ are accepted."
  },
  {
   "property": "C94",
   "status": "partial",
   "theorems": [
    "C94_positive",
    "C94_negative",
    "C94_zero",
    "C94_unrolled",
    "C94_exact_refuted"
   ],
   "note": "Doubles and their operations are those of Flocq's formalisation of IEEE 754, without axioms beyond the standard library. The exponent INT_MIN is undefined behaviour (C09). C94_exact_refuted shows that the powers are not exact."
  },
  {
   "property": "C95",
   "status": "partial",
   "theorems": [
    "C95_energy",
    "C95_tables",
    "C95_balance",
    "C95_sizes_refuted",
    "C95_pure",
    "C95_mixture_refuted",
    "C95_forwards"
   ],
   "note": "Refuted: with another number of mole fractions the report is undefined behaviour where the energy throws; the older implementation reports fractions of mixtures as if all components associated like the first."
  },
  {
   "property": "C96",
   "status": "partial",
   "theorems": [
    "C96_cubics",
    "C96_vdW",
    "C96_names",
    "C96_coeffs",
    "C96_nonpolar",
    "C96_polar_refuted",
    "C96_empty"
   ],
   "note": "Refuted for polar coefficients: PCSAFTEOS passes on five of the nine fields of SAFTCoeffs. The JSON is followed to the factory; the choice of the factory by kind is modelled in Registry_*."
  },
  {
   "property": "C97",
   "status": "partial",
   "theorems": [
    "C97_forwards",
    "C97_virial_refuted",
    "C97_missing"
   ],
   "note": "Refuted for get_B2vir and get_B12vir: a comma is missing in the list of names. The warning is not modelled."
  },
  {
   "property": "C98",
   "status": "partial",
   "theorems": [
    "C98_attaches",
    "C98_reads",
    "C98_view",
    "C98_set_meta",
    "C98_set_meta_refuted",
    "C98_null",
    "C98_mutants",
    "C98_ecs",
    "C98_ancillaries",
    "C98_negative",
    "C98_index_refuted"
   ],
   "note": "Refuted: set_meta always throws; build_ancillaries(-1) is undefined behaviour. What the methods compute of the model is in the properties of the models."
  },
  {
   "property": "C99",
   "status": "proved",
   "theorems": [
    "C99_builds",
    "C99_coeffs",
    "C99_empty",
    "C99_C96",
    "C99_kinds"
   ],
   "note": "Conversion of Python values to JSON is by the entries that dictionaries and lists have; the schemas are arbitrary."
  }
 ]
}