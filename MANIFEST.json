{
 "claims": [
  {
   "property": "C01",
   "status": "proved",
   "theorems": [
    "C01_ratio_never_divides_by_zero",
    "C01_ratio_keeps_sign",
    "C01_ratio_absorbed",
    "C01_ratio_relative_error",
    "C01_make_positive",
    "C01_make_bounded",
    "C01_safe_arg_exp"
   ],
   "note": "make_bounded with its side conditions; what fails without them is C54."
  },
  {
   "property": "C02",
   "status": "proved",
   "theorems": [
    "C02_integer_power"
   ],
   "note": "pow<P> for every integer P, well-founded recursion."
  },
  {
   "property": "C03",
   "status": "proved",
   "theorems": [
    "C03_non_positive_value",
    "C03_bad_value_accepts_zero",
    "C03_bad_value_range",
    "C03_negative_value"
   ],
   "note": "Exact reals; negative_value at 0 is C54."
  },
  {
   "property": "C04",
   "status": "proved",
   "theorems": [
    "C04_basis_derivatives",
    "C04_basis_cardinal",
    "C04_corner_values",
    "C04_polynomial_exactness",
    "C04_interpolant_derivatives",
    "C04_cells_glue"
   ],
   "note": "Exact reals; weights as in HelmElectrons."
  },
  {
   "property": "C05",
   "status": "proved",
   "theorems": [
    "C05_portable_order1",
    "C05_portable_order2",
    "C05_order2_differentiable",
    "C05_aliased_monotone",
    "C05_aliased_core_is_portable",
    "C05_aliased_int64_range",
    "C05_aliased_roundtrip",
    "C05_aliased_roundtrip_uniform",
    "C05_aliased_pow2_exact_on_integers",
    "C05_log10_pow10"
   ],
   "note": "Portable variants over exact reals (order 1 and 2, constant 1/4), C1 for order 2. Aliased variants with Flocq rounding: monotone, int64 range, round trip within 2^14 ulps for every positive double. lg(2^n)=n of the aliased variant is C54."
  },
  {
   "property": "C06",
   "status": "proved",
   "theorems": [
    "C06_regula_falsi_terminates",
    "C06_regula_falsi_terminates_R",
    "C06_regula_falsi_iteration_bound",
    "C06_regula_falsi_enclosure"
   ],
   "note": "Exact reals for enclosure, any arithmetic for termination. Unconditional guarantee: C55 (refuted)."
  },
  {
   "property": "C07",
   "status": "proved",
   "theorems": [
    "C07_newton_iteration_bound",
    "C07_newton_success",
    "C07_newton_zero_target_never_succeeds"
   ],
   "note": "Default flag; the other setting is C55 (refuted)."
  },
  {
   "property": "C08",
   "status": "proved",
   "theorems": [
    "C08_findRoot_success_in_bounds",
    "C08_findRoot_success_tolerance",
    "C08_findRoot_fail_in_bounds"
   ],
   "note": "Exact reals; binary64 failure out of bounds is C55 (refuted)."
  },
  {
   "property": "C09",
   "status": "proved",
   "theorems": [
    "C09_flatten_total_unique",
    "C09_flatten_preserves_order",
    "C09_flatten_removes_all_nesting",
    "C09_transform_members",
    "C09_transform_total",
    "C09_combined_list",
    "C09_get_index",
    "C09_contains",
    "C09_concat_pack_size"
   ],
   "note": "Template instantiation as functions/relations over type trees; every list, every nesting."
  },
  {
   "property": "C10",
   "status": "proved",
   "theorems": [
    "C10_reads_last_write",
    "C10_safe_access_contract",
    "C10_accesses_in_bounds",
    "C10_generic_indexer",
    "C10_must_agrees"
   ],
   "note": "Histories of gets/sets of any length; payload aliasing and unflagged indexers are C56."
  },
  {
   "property": "C11",
   "status": "proved",
   "theorems": [
    "C11_round_trip_private",
    "C11_round_trip_shared"
   ],
   "note": "Every object whose SetDynamicMemory follows the protocol; the Helmholtz kind is C56 (refuted)."
  },
  {
   "property": "C12",
   "status": "proved",
   "theorems": [
    "C12_bulk_shared_root",
    "C12_bulk_shared_other_rank",
    "C12_bulk_private"
   ],
   "note": "Shared memory: any container, any rank. Private memory: at most one tabulated object; two are C56 (refuted)."
  },
  {
   "property": "C13",
   "status": "proved",
   "theorems": [
    "C13_every_schedule_equals_sequential",
    "C13_two_input_call",
    "C13_one_input_call",
    "C13_FillEos_call",
    "C13_schedules_exist"
   ],
   "note": "Every interleaving of the individual loads and stores of the loop bodies, any size, any indexers with per-element storage not shared between elements; scalar methods arbitrary."
  },
  {
   "property": "C14",
   "status": "proved",
   "theorems": [
    "C14_modifier_vector_calls",
    "C14_scratch_monotone"
   ],
   "note": "lambda is read-only in this model. Remaining stacks: C57 (refuted)."
  },
  {
   "property": "C15",
   "status": "proved",
   "theorems": [
    "C15_density_guess_inside_bounds",
    "C15_DensityEnergyFromPT_success",
    "C15_DensityEnergyFromPT_any_status",
    "C15_IEFromDensityPressure_success",
    "C15_IEFromDensityPressure_terminates",
    "C15_noguess_overload",
    "C15_default_minimum_energy",
    "C15_fd_steps",
    "C15_fd_mean_value"
   ],
   "note": "Exact reals. Guess/lambda/binary64 defects: C57 (refuted)."
  },
  {
   "property": "C16",
   "status": "proved",
   "theorems": [
    "C16_temperature_energy_round_trip",
    "C16_entry_points_agree",
    "C16_PT_inversion",
    "C16_RP_inversion",
    "C16_derivatives",
    "C16_first_law",
    "C16_PT_derivatives",
    "C16_floors",
    "C16_reference_state",
    "C16_FillEos",
    "C16_FillEos_total",
    "C16_FillEos_refuses"
   ],
   "note": "Exact reals for Cv, gm1 > 0. Energy-only FillEos: C58."
  },
  {
   "property": "C17",
   "status": "proved",
   "theorems": [
    "C17_temperature_energy_round_trip",
    "C17_entry_points_agree",
    "C17_entropy_entry_points_agree",
    "C17_PT_inversion",
    "C17_derivatives",
    "C17_first_law",
    "C17_floors",
    "C17_minimum_energy",
    "C17_reference_state",
    "C17_FillEos",
    "C17_FillEos_refuses",
    "C17_FillEos_total"
   ],
   "note": "Exact reals for Cv, gm1 > 0, Pinf >= 0. dvdt of the reference state and energy-only FillEos: C58."
  },
  {
   "property": "C18",
   "status": "proved",
   "theorems": [
    "C18_temperature_energy_round_trip",
    "C18_entry_points_agree",
    "C18_entropy_entry_points_agree",
    "C18_PT_inversion",
    "C18_derivatives",
    "C18_first_law",
    "C18_floors",
    "C18_reference_state",
    "C18_FillEos",
    "C18_FillEos_refuses",
    "C18_FillEos_total"
   ],
   "note": "FillEos from (rho,P) and dvdt: C58."
  },
  {
   "property": "C19",
   "status": "proved",
   "theorems": [
    "C19_temperature_energy_round_trip",
    "C19_entry_points_agree",
    "C19_entropy_entry_points_agree",
    "C19_derivatives",
    "C19_first_law",
    "C19_density_exists_unique",
    "C19_density_from_PT",
    "C19_pressure_monotone",
    "C19_floors",
    "C19_FillEos",
    "C19_FillEos_refuses",
    "C19_reference_state"
   ],
   "note": "Exact reals; whether the search succeeds is not claimed. Reference bulk modulus: C58."
  },
  {
   "property": "C20",
   "status": "proved",
   "theorems": [
    "C20_pressure",
    "C20_derivatives",
    "C20_pressure_continuous",
    "C20_FillEos",
    "C20_FillEos_refuses"
   ],
   "note": "What the queries are documented to be (isentropic bulk modulus, Gruneisen parameter) is refuted in C59."
  },
  {
   "property": "C21",
   "status": "proved",
   "theorems": [
    "C21_reference_isentrope",
    "C21_temperature_energy_round_trip",
    "C21_entry_points_agree",
    "C21_pressure_is_mie_gruneisen",
    "C21_derivatives",
    "C21_first_law",
    "C21_pressure_monotone",
    "C21_density_from_PT",
    "C21_FillEos",
    "C21_reference_state"
   ],
   "note": "FillEos from (rho,T) and reference pressure: C58."
  },
  {
   "property": "C22",
   "status": "proved",
   "theorems": [
    "C22_automatic_maximum_density_safe",
    "C22_temperature_energy_round_trip",
    "C22_entry_points_agree",
    "C22_hugoniot_is_on_the_EOS",
    "C22_derivatives",
    "C22_pressure_continuous",
    "C22_clipped_beyond_maximum",
    "C22_minimum_pressure",
    "C22_density_from_PT_expansion",
    "C22_density_from_PT_compression",
    "C22_FillEos_refuses",
    "C22_FillEos",
    "C22_reference_state"
   ],
   "note": "Maximum pressure: C59; reference dP/de, bulk-modulus-only FillEos: C58; cubic fits: C63."
  },
  {
   "property": "C23",
   "status": "proved",
   "theorems": [
    "C23_documented_isotherm",
    "C23_energy_pressure_consistent",
    "C23_first_law",
    "C23_round_trip",
    "C23_entry_points_agree",
    "C23_derivatives",
    "C23_bulk_modulus",
    "C23_thermal_expansion",
    "C23_reference_state",
    "C23_FillEos",
    "C23_FillEos_refuses",
    "C23_FillEos_total"
   ],
   "note": "Any number of coefficients. FillEos frame: C58."
  },
  {
   "property": "C24",
   "status": "proved",
   "theorems": [
    "C24_products_round_trip",
    "C24_products_entry_points_agree",
    "C24_products_derivatives",
    "C24_products_first_law",
    "C24_products_density_from_PT",
    "C24_products_FillEos",
    "C24_products_reference_values",
    "C24_reactants_round_trip",
    "C24_reactants_entry_points_agree",
    "C24_reactants_derivatives",
    "C24_reactants_reference_curve",
    "C24_reactants_first_law",
    "C24_reactants_bulk_modulus_expansion",
    "C24_reactants_density_from_PT",
    "C24_reactants_FillEos"
   ],
   "note": "Side conditions as in the statement; the rest is C58/C59."
  },
  {
   "property": "C25",
   "status": "proved",
   "theorems": [
    "C25_mgusup_hugoniot",
    "C25_mgusup_round_trip",
    "C25_mgusup_derivatives",
    "C25_mgusup_first_law",
    "C25_mgusup_no_abort",
    "C25_mgusup_entropy_rho_e",
    "C25_mgusup_reference_state",
    "C25_mgusup_FillEos",
    "C25_powermg_constructor",
    "C25_powermg_reference_curve",
    "C25_powermg_consistency",
    "C25_powermg_derivatives",
    "C25_powermg_first_law_expansion",
    "C25_powermg_series_accuracy",
    "C25_powermg_first_law_compression",
    "C25_powermg_entropy_rho_e",
    "C25_powermg_reference_state",
    "C25_powermg_FillEos"
   ],
   "note": "First law up to the explicit remainder; other branches: C58/C59."
  },
  {
   "property": "C26",
   "status": "proved",
   "theorems": [
    "C26_specific_heat_formula",
    "C26_consistency",
    "C26_PT_inversion",
    "C26_floors",
    "C26_neutral",
    "C26_linear_in_Z",
    "C26_FillEos",
    "C26_FillEos_refuses",
    "C26_FillEos_total",
    "C26_ionisation_lookup"
   ],
   "note": "Ionisation Z>0 (floors for all Z); reference pressure: C58."
  },
  {
   "property": "C27",
   "status": "proved",
   "theorems": [
    "C27_shifted_queries",
    "C27_shifted_consistent",
    "C27_shifts_compose",
    "C27_shifted_fill_rho_sie"
   ],
   "note": "Every wrapped EOS. FillEos in other modes: C60."
  },
  {
   "property": "C28",
   "status": "proved",
   "theorems": [
    "C28_scaled_queries",
    "C28_scaled_consistent",
    "C28_scaled_density_free_energy"
   ],
   "note": "Other queries of ScaledEOS: C60."
  },
  {
   "property": "C29",
   "status": "proved",
   "theorems": [
    "C29_units",
    "C29_units_inverse",
    "C29_units_consistent",
    "C29_length_time_units"
   ],
   "note": "Every query, both unit constructors, composition with the inverse units, inheritance of every identity and of FillEos, for every wrapped EOS, over the reals. binary64 round trip of in/out arguments: C60; scalar/vector agreement: C14/C57."
  },
  {
   "property": "C30",
   "status": "proved",
   "theorems": [
    "C30_ramp_shape",
    "C30_ramp_density_inverse",
    "C30_ramp_pressure",
    "C30_pressure_continuous",
    "C30_bulk_modulus",
    "C30_fill_rho_sie",
    "C30_palpha_params"
   ],
   "note": "(P,T) inversion, bulk modulus below r0, Gruneisen on the ramp, CheckParams: C60."
  },
  {
   "property": "C31",
   "status": "proved",
   "theorems": [
    "C31_floored_above",
    "C31_floored_below",
    "C31_floored_other_queries",
    "C31_floored_idempotent",
    "C31_floored_roundtrip",
    "C31_floored_continuous",
    "C31_relativistic_bulk_modulus",
    "C31_relativistic_other_queries",
    "C31_relativistic_subluminal_iff",
    "C31_relativistic_ideal_subluminal",
    "C31_zsplit_queries",
    "C31_zsplit_consistent",
    "C31_zsplit_sum",
    "C31_zsplit_sum_energy",
    "C31_zsplit_PT"
   ],
   "note": "What fails: C60."
  },
  {
   "property": "C32",
   "status": "proved",
   "theorems": [
    "C32_construct",
    "C32_dispatch",
    "C32_modify",
    "C32_is_modifiable",
    "C32_unmodify_once",
    "C32_get_unmodified",
    "C32_get_unmodified_is_plain",
    "C32_default_closed",
    "C32_default_orders"
   ],
   "note": "Variant as tagged union over any list of distinct types; any depth of modifiers."
  },
  {
   "property": "C33",
   "status": "proved",
   "theorems": [
    "C33_arrays_disjoint",
    "C33_arrays_inside",
    "C33_scratch_exact_fit",
    "C33_array_names_unique",
    "C33_accesses_in_bounds",
    "C33_rhou_single_material_contained",
    "C33_ideal_guess_fits",
    "C33_ideal_guess_before_residual",
    "C33_reported_size_exact",
    "C33_reported_size_46335"
   ],
   "note": "All five systems, all material counts; element accesses of every method inside their own array for nmat>=1 (RhoU: nmat>=2). Single-material RhoU, size overflow, ideal-guess of other systems: C61."
  },
  {
   "property": "C34",
   "status": "proved",
   "theorems": [
    "C34_enforce_mass_volumes",
    "C34_enforce_energies",
    "C34_normalize_vfrac",
    "C34_SetVfracFromT_sums",
    "C34_FixedP_returned_state",
    "C34_FixedT_returned_state",
    "C34_PT_returned_state",
    "C34_RhoT_returned_state",
    "C34_RhoU_returned_state"
   ],
   "note": "All five systems, every iteration history, exact reals, for inputs passing the solver's own requirements."
  },
  {
   "property": "C35",
   "status": "proved",
   "theorems": [
    "C35_converged_state_passes_check",
    "C35_slow_means_previous_state_acceptable",
    "C35_converged_initial_guess_untouched",
    "C35_status_counters_bounded",
    "C35_work_bounded",
    "C35_invariant_principle",
    "C35_converged_invariant",
    "C35_line_search_residual"
   ],
   "note": "Every system and history, any arithmetic; slow-convergence exit and stale residual: C61."
  },
  {
   "property": "C36",
   "status": "proved",
   "theorems": [
    "C36_FixedP_scaled_step_admissible",
    "C36_FixedT_scaled_step_admissible",
    "C36_RhoT_density_admissible",
    "C36_RhoT_density_above_minimum",
    "C36_PT_scaled_step_admissible",
    "C36_RhoT_scaled_step_admissible",
    "C36_RhoU_scaled_step_admissible"
   ],
   "note": "All five systems; volume fractions, temperatures and energies stay positive, and a material at or above its minimum-pressure density stays so. The case of a material already below it (RhoT skips an index) is C61."
  },
  {
   "property": "C37",
   "status": "proved",
   "theorems": [
    "C37_FixedP_converged_means_equilibrium",
    "C37_FixedT_converged_means_equilibrium",
    "C37_PT_converged_means_conservation",
    "C37_RhoT_converged_means_equilibrium",
    "C37_RhoU_converged_means_equilibrium"
   ],
   "note": "Exact reals; the energy clause of the density-energy system is C61 (refuted)."
  },
  {
   "property": "C38",
   "status": "proved",
   "theorems": [
    "C38_fractions_stay_nonnegative",
    "C38_phase_balance",
    "C38_total_mass_bounds",
    "C38_total_mass_exact",
    "C38_total_mass_exact_no_traces",
    "C38_gibbs_energy_never_rises",
    "C38_highest_never_gains_lowest_never_loses",
    "C38_master_equation",
    "C38_time_step",
    "C38_suggested_step_transfers",
    "C38_master_equation_small_steps",
    "C38_equilibrium_is_fixed"
   ],
   "note": "All clauses over the exact reals, any phase count, log-rates may be minus infinity."
  },
  {
   "property": "C39",
   "status": "proved",
   "theorems": [
    "C39_sort_lists_all_phases",
    "C39_sort_descending_any",
    "C39_sort_descending",
    "C39_sort_descending_binary64",
    "C39_pair_index_bijective",
    "C39_rates_are_greeff",
    "C39_rate_monotone",
    "C39_fromto_decodes_up_to_ten"
   ],
   "note": "Permutation for every arithmetic, descending for R and for finite binary64; index bijection; rates. Eleven phases: C54."
  },
  {
   "property": "C40",
   "status": "proved",
   "theorems": [
    "C40_result_independent_of_scratch",
    "C40_schedule_independent",
    "C40_loop_terminates",
    "C40_p_t_input",
    "C40_rho_t_mixed",
    "C40_rho_p_mixed",
    "C40_rho_e_mixed",
    "C40_rho_e_pure",
    "C40_rho_t_pure",
    "C40_rho_p_pure",
    "C40_copy_back",
    "C40_input_codes",
    "C40_cache_in_bounds",
    "C40_solver_in_bounds",
    "C40_caches_of_materials_disjoint",
    "C40_cache_apart"
   ],
   "note": "Exact reals; any number of materials and threads; the averages hold whether or not the closure converged. What fails with dropped materials, optional arrays, stale scratch: C64."
  },
  {
   "property": "C41",
   "status": "proved",
   "theorems": [
    "C41_null",
    "C41_shift",
    "C41_scale",
    "C41_divide_by_cv",
    "C41_shift_divide_by_cv",
    "C41_all"
   ],
   "note": "Exact reals. Null, shift and scale unconditionally; the three divide-by-Cv transforms exactly when 1e-8 <= dT/de <= 1e8."
  },
  {
   "property": "C42",
   "status": "proved",
   "theorems": [
    "C42_rs_extrapolation",
    "C42_rs_inversion",
    "C42_rs_entry_points_agree",
    "C42_rs_fill_rho_sie",
    "C42_rs_fill_rho_temp",
    "C42_rs_fill_press_temp",
    "C42_rs_fill_refuses",
    "C42_stored_bulk_modulus",
    "C42_rt_round_trip_T_above",
    "C42_rt_round_trip_e_above",
    "C42_rt_below_table",
    "C42_rt_below_table_temperature",
    "C42_rt_on_table",
    "C42_rt_energy_continuous_at_top",
    "C42_rt_pressure_entry_points",
    "C42_rt_floors",
    "C42_rt_density",
    "C42_rt_fill_rho_temp",
    "C42_rt_fill_rho_sie",
    "C42_rt_fill_press_temp",
    "C42_rt_fill_refuses",
    "C42_rt_rho_pmin"
   ],
   "note": "Exact reals; tables are arbitrary functions (interpToReal), slices as loadDataboxes_ sets them; the soft-threshold clauses need a lowest temperature of at least 1 K (C53_rt_cold_curve_below_1K_refuted otherwise). Root enclosure is that of C06."
  },
  {
   "property": "C43",
   "status": "proved",
   "theorems": [
    "C43_offset_makes_range_positive",
    "C43_log_bounds",
    "C43_log2lin",
    "C43_one_grid_covers_request",
    "C43_number_of_points",
    "C43_anchor",
    "C43_check_interval",
    "C43_two_grids_cover",
    "C43_three_grids_cover",
    "C43_two_grids_increasing",
    "C43_three_grids_increasing"
   ],
   "note": "Exact reals; grid points x(i)=min+i*dx of the Spiner library assumed. What fails without room for the anchor is C50."
  },
  {
   "property": "C44",
   "status": "proved",
   "theorems": [
    "C44_carnahan_CheckParams",
    "C44_davis_products_CheckParams",
    "C44_davis_reactants_CheckParams",
    "C44_gruneisen_CheckParams",
    "C44_ideal_CheckParams",
    "C44_jwl_CheckParams",
    "C44_mgusup_CheckParams",
    "C44_noble_CheckParams",
    "C44_powermg_CheckParams",
    "C44_sap_CheckParams",
    "C44_stiff_CheckParams",
    "C44_vinet_construction"
   ],
   "note": "All analytic EOS; denominators: C62."
  },
  {
   "property": "C45",
   "status": "proved",
   "theorems": [
    "C45_init_stack",
    "C45_init_rejects",
    "C45_init_in_variant",
    "C45_vals_unchanged"
   ],
   "note": "All flags; P-alpha array reuse: C56."
  },
  {
   "property": "C46",
   "status": "proved",
   "theorems": [
    "C46_FixedP_volumes_sum",
    "C46_FixedT_newton_matrix_nonsingular",
    "C46_FixedT_volumes_sum",
    "C46_RhoU_newton_matrix_nonsingular",
    "C46_RhoU_volume_exact_energy_monotone",
    "C34_RhoT_returned_state",
    "C34_PT_returned_state",
    "C34_FixedT_returned_state",
    "C34_FixedP_returned_state",
    "C34_RhoU_returned_state"
   ],
   "note": "With an exact linear solver (witness: gauss); hypotheses on EOS as stated in each theorem. Masses: the C34 theorems."
  },
  {
   "property": "C47",
   "status": "proved",
   "theorems": [
    "C47_FixedT_matrix_is_linearisation",
    "C47_FixedP_matrix_is_linearisation",
    "C47_PT_matrix_is_linearisation",
    "C47_RhoT_matrix_is_linearisation",
    "C47_RhoU_matrix_is_linearisation"
   ],
   "note": "All five systems."
  },
  {
   "property": "C48",
   "status": "partial",
   "theorems": [
    "C48_total_mass_conserved_refuted"
   ],
   "note": "False as stated: C48_total_mass_conserved_refuted (a trace below 1e-10 is dropped). Proved instead: C38_total_mass_bounds, C38_total_mass_exact, C38_total_mass_exact_no_traces."
  },
  {
   "property": "C49",
   "status": "partial",
   "theorems": [
    "C49_divide_by_cv_inverse_refuted",
    "C49_divide_by_cv_order_refuted"
   ],
   "note": "False as stated: C49_divide_by_cv_inverse_refuted (specific heat above 1e8), C49_divide_by_cv_order_refuted. Proved instead: C41."
  },
  {
   "property": "C50",
   "status": "partial",
   "theorems": [
    "C50_anchor_degenerate_refuted",
    "C50_anchor_off_grid_refuted",
    "C50_anchor_loses_a_cell_refuted",
    "C50_check_interval_refuted",
    "C50_three_grids_reversed_refuted",
    "C50_one_grid_anchor_offset_refuted"
   ],
   "note": "False as stated (C50_*_refuted: degenerate grid, anchor off grid, lost cell, checkInterval_ not moving a point at 0, reversed middle grid, one-grid anchor without offset). Proved instead: C43_anchor and C43_*_increasing."
  },
  {
   "property": "C51",
   "status": "proved",
   "theorems": [
    "C51_real_log10_is_log_pair",
    "C51_round_trip",
    "C51_round_trip_back",
    "C51_monotone",
    "C51_argument_positive"
   ],
   "note": "For every exact log/exp pair; real log10 is one. FastMath error is C05."
  },
  {
   "property": "C52",
   "status": "proved",
   "theorems": [
    "C52_no_dome",
    "C52_minimum_pressure",
    "C52_dome_non_increasing",
    "C52_dome_edge"
   ],
   "note": "Exact reals, any table size."
  },
  {
   "property": "C53",
   "status": "partial",
   "theorems": [
    "C53_rs_gruneisen_ignores_transform_refuted",
    "C53_rs_mass_fractions_ignore_transform_refuted",
    "C53_rs_fill_silent_refuted",
    "C53_rs_guess_changes_result_refuted",
    "C53_rt_cold_curve_below_1K_refuted",
    "C53_rt_pressure_jump_refuted",
    "C53_rt_density_above_table_refuted",
    "C53_rt_fill_rho_press_clamped_refuted",
    "C53_rt_bulk_modulus_negative_refuted",
    "C53_rt_cold_crit_refuted"
   ],
   "note": "False as stated, by the ten C53_*_refuted theorems. What does hold is C42."
  },
  {
   "property": "C54",
   "status": "partial",
   "theorems": [
    "C54_aliased_lg2_refuted",
    "C54_fromto_eleven_phases_refuted",
    "C54_make_bounded_negative_hi_refuted",
    "C54_negative_value_refuted"
   ],
   "note": "False as stated (counterexamples); what holds: C01, C03, C05, C39."
  },
  {
   "property": "C55",
   "status": "partial",
   "theorems": [
    "C55_regula_falsi_negative_xtol_refuted",
    "C55_regula_falsi_tolerance_refuted",
    "C55_regula_falsi_illinois_refuted",
    "C55_regula_falsi_in_bounds_refuted",
    "C55_regula_falsi_guess_outside_refuted",
    "C55_newton_bound_root_refuted",
    "C55_findRoot_fail_in_bounds_refuted"
   ],
   "note": "False as stated (counterexamples); what holds: C06, C07, C08."
  },
  {
   "property": "C56",
   "status": "partial",
   "theorems": [
    "C56_must_disagrees_unflagged_refuted",
    "C56_payload_aliases_refuted",
    "C56_shared_helmholtz_refuted",
    "C56_bulk_private_refuted",
    "C56_vals_reuse_refuted"
   ],
   "note": "False as stated (counterexamples); what holds: C10, C11, C12, C45."
  },
  {
   "property": "C57",
   "status": "partial",
   "theorems": [
    "C57_DensityEnergyFromPT_bounds_refuted",
    "C57_valid_guess_is_ignored_refuted",
    "C57_bad_guess_leaves_range_refuted",
    "C57_default_minimum_energy_lambda_refuted",
    "C57_fd_uninitialised_guess_refuted",
    "C57_scaled_vector_refuted",
    "C57_scaled_shifted_vector_refuted",
    "C57_units_minimum_energy_vector_refuted",
    "C57_floor_lambda_refuted"
   ],
   "note": "False as stated (counterexamples); what holds: C14, C15."
  },
  {
   "property": "C58",
   "status": "partial",
   "theorems": [
    "C58_carnahan_FillEos_density_from_energy_refuted",
    "C58_carnahan_reference_bulk_modulus_refuted",
    "C58_davis_products_FillEos_rho_temp_refuted",
    "C58_davis_reactants_FillEos_rho_temp_refuted",
    "C58_electrons_FillEos_density_from_energy_refuted",
    "C58_electrons_reference_pressure_refuted",
    "C58_gruneisen_FillEos_bulk_modulus_only_refuted",
    "C58_gruneisen_reference_dpde_refuted",
    "C58_ideal_FillEos_density_from_energy_refuted",
    "C58_ideal_FillEos_energy_only_refuted",
    "C58_jwl_FillEos_rho_temp_refuted",
    "C58_jwl_reference_pressure_refuted",
    "C58_mgusup_FillEos_overwrites_energy_refuted",
    "C58_noble_reference_dvdt_refuted",
    "C58_noble_FillEos_rho_press_refuted",
    "C58_noble_FillEos_density_from_energy_refuted",
    "C58_powermg_FillEos_overwrites_energy_refuted",
    "C58_sap_FillEos_density_from_energy_refuted",
    "C58_sap_FillEos_rho_press_refuted",
    "C58_stiff_reference_dvdt_refuted",
    "C58_stiff_FillEos_density_from_energy_refuted",
    "C58_stiff_FillEos_energy_only_refuted",
    "C58_vinet_FillEos_frame_refuted"
   ],
   "note": "False as stated (counterexamples); what holds: C16-C26."
  },
  {
   "property": "C59",
   "status": "partial",
   "theorems": [
    "C59_davis_reactants_bulk_modulus_compression_refuted",
    "C59_davis_reactants_reference_pressure_refuted",
    "C59_davis_reactants_expansion_temperature_refuted",
    "C59_gruneisen_maximum_pressure_refuted",
    "C59_mgusup_small_eta_temperature_refuted",
    "C59_mgusup_bulk_modulus_rho_T_refuted",
    "C59_powermg_energy_below_Pmin_refuted",
    "C59_powermg_expansion_bulk_modulus_rho_e_refuted",
    "C59_powermg_cutoff_bulk_modulus_refuted",
    "C59_powermg_first_law_below_Pmin_refuted",
    "C59_powermg_negative_gruneisen_refuted",
    "C59_sap_bulk_modulus_error",
    "C59_sap_gruneisen_error",
    "C59_sap_bulk_modulus_refuted",
    "C59_sap_gruneisen_refuted"
   ],
   "note": "False as stated (counterexamples, exact size of the SAP errors); what holds: C20, C22, C24, C25."
  },
  {
   "property": "C60",
   "status": "partial",
   "theorems": [
    "C60_shifted_fill_refuted",
    "C60_scaled_wrong_queries_refuted",
    "C60_scaled_fill_refuted",
    "C60_units_fill_input_changed_in_binary64_refuted",
    "C60_shifted_ideal_fill_refuted",
    "C60_shifted_stiff_fill_refuted",
    "C60_shifted_vinet_fill_refuted",
    "C60_scaled_roundtrip_refuted",
    "C60_ramp_fill_bmod_refuted",
    "C60_ramp_PT_inversion_refuted",
    "C60_ramp_bulk_modulus_below_r0_refuted",
    "C60_ramp_gruneisen_on_ramp_refuted",
    "C60_ramp_CheckParams_refuted",
    "C60_ramp_fill_rho_T_refuted",
    "C60_floored_lambda_refuted",
    "C60_floored_energy_from_pressure_refuted",
    "C60_relativistic_superluminal_refuted",
    "C60_relativistic_fill_refuted",
    "C60_zsplit_energy_from_pressure_refuted",
    "C60_zsplit_bounds_refuted",
    "C60_zsplit_neutral_roundtrip_refuted"
   ],
   "note": "False as stated (counterexamples); what holds: C27-C31."
  },
  {
   "property": "C61",
   "status": "partial",
   "theorems": [
    "C61_converged_truthful_refuted",
    "C61_reported_residual_stale_refuted",
    "C61_RhoT_density_skip_refuted",
    "C61_RhoT_ignores_total_volume_refuted",
    "C61_PT_maximum_pressure_refuted",
    "C61_FixedP_relative_tolerance_refuted",
    "C61_vfrac_from_T_refuted",
    "C61_RhoT_initial_pressure_guess_refuted",
    "C61_RhoU_total_energy_refuted",
    "C61_rhou_single_material_refuted",
    "C61_ideal_guess_other_systems_refuted",
    "C61_reported_size_refuted"
   ],
   "note": "False as stated (counterexamples); what holds: C33-C37, C46."
  },
  {
   "property": "C62",
   "status": "partial",
   "theorems": [
    "C62_gruneisen_constructor_unchecked_refuted",
    "C62_ideal_zero_denominator_refuted",
    "C62_jwl_R1_unchecked_refuted",
    "C62_mgusup_zero_divisors_refuted",
    "C62_powermg_zero_divisors_refuted",
    "C62_sap_zero_reference_density_refuted",
    "C62_stiff_negative_Pinf_refuted",
    "C62_vinet_BP0_refuted"
   ],
   "note": "False as stated (counterexamples); what holds: C44."
  },
  {
   "property": "C63",
   "status": "partial",
   "theorems": [
    "C63_gruneisen_cubic_maximum_density_partial"
   ],
   "note": "Proved when the root search ended on a narrow bracket and the limit is below 1e9 reference densities; otherwise only below the lower end of the final bracket."
  },
  {
   "property": "C64",
   "status": "partial",
   "theorems": [
    "C64_dropped_material_reports",
    "C64_rho_e_lone_material",
    "C64_rho_t_lone_material",
    "C64_cv_not_filled_without_dpde",
    "C64_volumes_sum_refuted",
    "C64_common_temperature_refuted",
    "C64_energies_sum_refuted",
    "C64_requested_cv_refuted",
    "C64_null_cv_not_written_refuted",
    "C64_p_t_stale_guess_refuted",
    "C64_empty_cell_stale_density_refuted",
    "C64_cache_past_the_end_refuted",
    "C64_solver_past_the_end_refuted",
    "C64_cache_overlaps_solver_refuted"
   ],
   "note": "False as stated (counterexamples); what holds: C40."
  },
  {
   "property": "C65",
   "status": "proved",
   "theorems": [
    "C65_reference_state",
    "C65_clamped_to_table",
    "C65_temperature_from_energy",
    "C65_temperature_at_nodes",
    "C65_round_trip",
    "C65_entry_points_agree",
    "C65_floors",
    "C65_lambda",
    "C65_density_from_pressure",
    "C65_FillEos_from_temperature",
    "C65_FillEos_from_energy",
    "C65_FillEos_refuses",
    "C65_no_overshoot",
    "C65_mass_fractions"
   ],
   "note": "Exact reals; the logarithm is any exact pair (C05 says how far FastMath is one); Spiner interpolation as documented. Between grid densities the inversion is only enclosed when the energy is between those of the lowest and highest temperature; what fails there: C67."
  },
  {
   "property": "C66",
   "status": "proved",
   "theorems": [
    "C66_loaded_object_is_well_formed",
    "C66_bounds",
    "C66_values_at_grid_points",
    "C66_values_at_corners",
    "C66_no_overshoot",
    "C66_mass_fractions",
    "C66_energy_range",
    "C66_CheckParams",
    "C66_save_and_load",
    "C66_median_filter",
    "C66_minimum_energy_curve"
   ],
   "note": "Exact reals; HDF5 reading is modelled as named arrays."
  },
  {
   "property": "C67",
   "status": "partial",
   "theorems": [
    "C67_temperature_round_trip_refuted",
    "C67_temperature_leaves_table_refuted",
    "C67_chemical_potentials_refuted",
    "C67_FillEos_temperature_refuted",
    "C67_reference_temperature_refuted"
   ],
   "note": "False as stated (counterexamples); what holds: C65, C66."
  },
  {
   "property": "C68",
   "status": "proved",
   "theorems": [
    "C68_table_file",
    "C68_electrons_at_grid_point",
    "C68_radiation",
    "C68_electrons"
   ],
   "note": "Exact reals; the literal for ln 10 stands for ln 10. The reported derivative of pressure with density is the slope table: it is the derivative of the pressure if the two tables agree there."
  },
  {
   "property": "C69",
   "status": "proved",
   "theorems": [
    "C69_coulomb_slopes_partial",
    "C69_coulomb_entropy_partial",
    "C69_coulomb_virial",
    "C69_specific_heat",
    "C69_energy_and_pressure_compatible",
    "C69_gruneisen",
    "C69_bulk_modulus",
    "C69_entropy_radiation",
    "C69_FillEos_refuses",
    "C69_FillEos",
    "C69_energy_entry_points",
    "C69_composition_and_reference",
    "C69_density_energy_from_pressure_temperature"
   ],
   "note": "Options without Coulomb corrections (with them: C71). Bulk modulus: if the slope table agrees with the free-energy table. Entropy: radiation alone (with gas it is false: C71)."
  },
  {
   "property": "C70",
   "status": "proved",
   "theorems": [
    "C70_in_range",
    "C70_inversion",
    "C70_energy_continuous",
    "C70_ideal_gas_exact"
   ],
   "note": "Lambdas without the log-temperature slot; with the slot the answer is the cached value (C71)."
  },
  {
   "property": "C71",
   "status": "partial",
   "theorems": [
    "C71_coulomb_entropy_slope_refuted",
    "C71_cached_temperature_refuted",
    "C71_entropy_first_law_refuted",
    "C71_entropy_compression_refuted",
    "C71_coulomb_weak_coupling_refuted",
    "C71_coulomb_specific_heat_refuted"
   ],
   "note": "False as stated (counterexamples); what holds: C68-C70."
  },
  {
   "property": "C72",
   "status": "proved",
   "theorems": [
    "C72_range",
    "C72_accuracy",
    "C72_accuracy_number",
    "C72_unique",
    "C72_ends_on_iteration_limit",
    "C72_interpolation_exact"
   ],
   "note": "Exact reals; the fast log pair is any pair with the properties proved in C05."
  },
  {
   "property": "C73",
   "status": "proved",
   "theorems": [
    "C73_integers_read_back",
    "C73_parse",
    "C73_refuses",
    "C73_files",
    "C73_unclosed_header",
    "C73_values"
   ],
   "note": "std::stod and file I/O are parameters."
  },
  {
   "property": "C74",
   "status": "proved",
   "theorems": [
    "C74_file",
    "C74_found_by_number",
    "C74_found_by_name",
    "C74_plain_names_suffice"
   ],
   "note": "Names that can be mistaken: C77."
  },
  {
   "property": "C75",
   "status": "proved",
   "theorems": [
    "C75_density_temperature_table",
    "C75_density_energy_table",
    "C75_cold_curves",
    "C75_mass_fractions"
   ],
   "note": "EOSPAC is any interpolator that returns the material and its slopes in its units."
  },
  {
   "property": "C76",
   "status": "proved",
   "theorems": [
    "C76_ranges",
    "C76_special_points",
    "C76_end_points",
    "C76_shift"
   ],
   "note": "Single grids with an anchor may lose the last cell (C50)."
  },
  {
   "property": "C77",
   "status": "partial",
   "theorems": [
    "C77_names_refuted",
    "C77_malformed_line_refuted",
    "C77_fine_limits_refuted",
    "C77_energy_split_refuted",
    "C77_energy_split_example_refuted",
    "C77_interpolation_status_refuted"
   ],
   "note": "False as stated (counterexamples); what holds: C73-C76."
  },
  {
   "property": "C78",
   "status": "proved",
   "theorems": [
    "C78_scalar_queries",
    "C78_entropy",
    "C78_nonnegative",
    "C78_isothermal_modulus",
    "C78_pressure_temperature",
    "C78_PT_derivatives",
    "C78_reference_state",
    "C78_fill",
    "C78_fill_errors",
    "C78_vector_calls",
    "C78_max_scratch",
    "C78_vector_fill",
    "C78_shifted_vector_calls"
   ],
   "note": "FillEos from (rho, e) in scalar form only with the right incoming temperature; the rest: C79."
  },
  {
   "property": "C79",
   "status": "partial",
   "theorems": [
    "C79_fill_from_energy_refuted",
    "C79_fill_scalar_vector_refuted",
    "C79_fill_overwrites_refuted",
    "C79_minimum_energy_scratch_refuted",
    "C79_vector_entropy_refuted",
    "C79_reference_modulus_refuted"
   ],
   "note": "False as stated (counterexamples); what holds: C78."
  },
  {
   "property": "C80",
   "status": "proved",
   "theorems": [
    "C80_python_query",
    "C80_python_query_no_lambda",
    "C80_python_fill",
    "C80_python_fill_keywords",
    "C80_c_query",
    "C80_c_query_no_lambda",
    "C80_fortran_query",
    "C80_fortran_query_no_lambda",
    "C80_fortran_minimum_energy",
    "C80_material_slots",
    "C80_host_keeps_kokkos",
    "C80_library_owns_kokkos"
   ],
   "note": "Python lambda arrays need two rows, contiguous columns and byte strides that are multiples of 8; Fortran arrays contiguous; stride*len below 2^31: the rest is C81. pybind11 and the Fortran descriptor are taken as documented."
  },
  {
   "property": "C81",
   "status": "partial",
   "theorems": [
    "C81_python_one_row_refuted",
    "C81_python_readonly_refuted",
    "C81_python_lambda_columns_refuted",
    "C81_python_record_field_refuted",
    "C81_python_scratch_stride_refuted",
    "C81_python_fill_default_mask_refuted",
    "C81_fortran_section_refuted",
    "C81_lambda_index_overflow_refuted",
    "C81_fortran_eospac_split_refuted",
    "C81_fortran_finalize_refuted"
   ],
   "note": "False as stated (counterexamples); what holds: C80."
  },
  {
   "property": "C82",
   "status": "proved",
   "theorems": [
    "C82_ideal_gas",
    "C82_ideal_gas_defaults",
    "C82_ideal_electrons",
    "C82_stiff_gas",
    "C82_noble_abel",
    "C82_carnahan_starling",
    "C82_jwl",
    "C82_gruneisen",
    "C82_davis_products",
    "C82_vinet",
    "C82_usup_hugoniot_temperature",
    "C82_usup",
    "C82_power_mg",
    "C82_power_mg_hugoniot_temperature",
    "C82_davis_reactants"
   ],
   "note": "Exact reals; floors and denominators below 2^-960 are excluded by hypothesis; Davis reactants pressure up to the constant P0 and isentrope temperature in compression; PowerMG reference energy above its pressure floor; the other printed formulas: C83, C59."
  },
  {
   "property": "C83",
   "status": "partial",
   "theorems": [
    "C83_ideal_default_temperature_refuted",
    "C83_davis_products_T_S_refuted",
    "C83_reference_state_is_entropy_reference_refuted",
    "C83_power_mg_temperature_index_refuted"
   ],
   "note": "False as stated (counterexamples); what holds: C82."
  },
  {
   "property": "C84",
   "status": "proved",
   "theorems": [
    "C84_ratio_binary64",
    "C84_pow_binary64"
   ],
   "note": "IEEE round to nearest even on primitive floats (Flocq), no fused multiply-add and no extended precision; powers: values within 2^-1000..2^1000."
  },
  {
   "property": "C85",
   "status": "proved",
   "theorems": [
    "C85_same_program",
    "C85_ideal_accuracy",
    "C85_ideal_round_trips",
    "C85_ideal_never_nan",
    "C85_ideal_monotone",
    "C85_ideal_monotone_density"
   ],
   "note": "As C84: one rounding per C++ operation, no contraction. Accuracy for values that are 0 or within 2^-1000..2^1000; never-NaN when the coefficient in front of the last factor does not overflow (needed: C85_nan_needs_overflow)."
  },
  {
   "property": "C86",
   "status": "proved",
   "theorems": [
    "C86_same_program",
    "C86_compensated_sum_accuracy",
    "C86_sum_of_nonnegative",
    "C86_normalized_fractions"
   ],
   "note": "As C84; compiler reassociation (-ffast-math), which would remove the compensation, is excluded. Up to a million summands with absolute sum at most 2^1000."
  },
  {
   "property": "C87",
   "status": "proved",
   "theorems": [
    "C87_regula_falsi_terminates",
    "C87_newton_success",
    "C87_findRoot_success_in_bounds",
    "C87_findRoot_success_tolerance"
   ],
   "note": "IEEE round to nearest even, no contraction. The tolerance theorem of findRoot assumes 2^-400 <= |target| <= 2^400, |f| <= 2^400 on the interval, 2^-100 <= ytol <= 1 and the same room for xtol as C08; why the target must not be tiny: C88_underflow_bracket_refuted."
  },
  {
   "property": "C88",
   "status": "partial",
   "theorems": [
    "C88_regula_falsi_nan_refuted",
    "C88_regula_falsi_nan_step_refuted",
    "C88_regula_falsi_overflow_refuted",
    "C88_underflow_bracket_refuted",
    "C88_findRoot_spacing_refuted",
    "C88_findRoot_nan_refuted",
    "C88_newton_nan_refuted"
   ],
   "note": "False as stated (counterexamples: NaN taken for a root, overflow, underflow of the sign test, absolute xtol below the spacing of doubles); what holds: C87."
  },
  {
   "property": "C89",
   "status": "proved",
   "theorems": [
    "C89_ideal_moduli",
    "C89_ideal_stable",
    "C89_stiff_moduli",
    "C89_stiff_stable",
    "C89_noble_moduli",
    "C89_noble_stable",
    "C89_carnahan_moduli",
    "C89_carnahan_stable",
    "C89_jwl_moduli",
    "C89_jwl_stable",
    "C89_vinet_moduli",
    "C89_vinet_stable",
    "C89_davis_products_moduli",
    "C89_powermg_moduli",
    "C89_powermg_stable"
   ],
   "note": "Exact-real models. StiffGas, NobleAbel and Carnahan-Starling identities need the pressure (or modulus) above the SMALL floor of the code; Vinet needs a bulk modulus that is not floored; MGUsup-power is restricted to expansion above Pmin (0 > 1 - rho0/rho > Pmin/K0), where the series is linear. Gruneisen is the exception: C90."
  },
  {
   "property": "C90",
   "status": "partial",
   "theorems": [
    "C90_vinet_unstable_in_expansion_refuted",
    "C90_gruneisen_moduli_refuted",
    "C90_jwl_negative_bulk_modulus_refuted"
   ],
   "note": "False as stated (counterexamples: Vinet below rho0/8 has a negative isothermal modulus and a bulk modulus of zero although MinimumDensity is lower; Gruneisen off the reference density has a bulk modulus that is not the one of its pressure; JWL accepts parameters with a negative bulk modulus); what holds: C89."
  },
  {
   "property": "C91",
   "status": "proved",
   "theorems": [
    "C91_ideal_well_behaved",
    "C91_stiff_well_behaved",
    "C91_noble_abel_well_behaved",
    "C91_carnahan_well_behaved",
    "C91_jwl_well_behaved",
    "C91_vinet_well_behaved",
    "C91_powermg_well_behaved",
    "C91_gap_ideal",
    "C91_ideal_mixture",
    "C91_ideal_near_equilibria",
    "C91_equilibrium_unique",
    "C91_fixed_temperature_unique",
    "C91_fixed_pressure_unique",
    "C91_gap_zero",
    "C91_near_equilibria_agree",
    "C91_RhoT_converged_is_near_equilibrium",
    "C91_PT_converged_is_near_equilibrium",
    "C91_RhoT_and_PT_agree",
    "C91_RhoT_runs_agree",
    "C91_PT_runs_agree",
    "C91_FixedT_converged_is_near_equilibrium",
    "C91_FixedT_runs_agree",
    "C91_near_equilibria_each_agree",
    "C91_RhoU_converged_is_near_equilibrium",
    "C91_RhoU_runs_agree"
   ],
   "note": "Well-behavedness is proved for IdealGas, StiffGas, NobleAbel, CarnahanStarling, JWL (A,B >= 0, above the exponential cut-offs), Vinet (compression) and PowerMG (expansion above Pmin). Agreement is proved for two runs of PTESolverRhoT, of PTESolverPT and of PTESolverFixedT, for PTESolverRhoT against PTESolverPT, and for two runs of PTESolverRhoU up to the volumes and energies they return (that solver does not test its total energy, C61), in exact reals; the bound is on the entropy distance of the two states, zero only if they coincide. Whether a run converges is not claimed."
  },
  {
   "property": "C92",
   "status": "proved",
   "theorems": [
    "C92_scratch_size",
    "C92_queries",
    "C92_maximum",
    "C92_vector_calls",
    "C92_eospac_calls"
   ],
   "note": "All stacks of modifiers, all element counts that do not overflow, all names of length other than 24 (there rfind gives npos and the comparison wraps; no query has such a name). C92_vector_calls and C92_eospac_calls identify the numbers with the temporaries the vector-call models of C06/C80 really use."
  },
  {
   "property": "C93",
   "status": "proved",
   "theorems": [
    "C93_settings",
    "C93_no_file",
    "C93_help",
    "C93_every_line",
    "C93_reads_files"
   ],
   "note": "Verbosity options must come in rising order (the others are C94); files must not be spelled like an option; C93_every_line has neither restriction."
  },
  {
   "property": "C94",
   "status": "partial",
   "theorems": [
    "C94_repeated_verbosity_refuted",
    "C94_save_without_name_refuted"
   ],
   "note": "False as stated: a second verbosity option of lower or equal level is taken as the name of a parameter file and the program terminates; -s as last word constructs a std::string from a null pointer (undefined behaviour). What holds: C93."
  },
  {
   "property": "C95",
   "status": "proved",
   "theorems": [
    "C95_ideal_gas_bulk_modulus",
    "C95_stiff_gas_bulk_modulus",
    "C95_noble_abel_bulk_modulus",
    "C95_carnahan_starling_bulk_modulus",
    "C95_jwl_bulk_modulus",
    "C95_gruneisen_bulk_modulus",
    "C95_davis_products_bulk_modulus",
    "C95_davis_reactants_bulk_modulus",
    "C95_ramp_in_force_bulk_modulus",
    "C95_bulk_modulus_queries",
    "C95_ideal_gas",
    "C95_stiff_gas",
    "C95_noble_abel",
    "C95_carnahan_starling",
    "C95_jwl",
    "C95_gruneisen",
    "C95_davis_products",
    "C95_davis_reactants",
    "C95_sap_polynomial",
    "C95_c_interface",
    "C95_accepts",
    "C95_caller_values",
    "C95_ideal_gas_temperature",
    "C95_stiff_gas_temperature",
    "C95_noble_abel_temperature",
    "C95_carnahan_starling_temperature",
    "C95_jwl_temperature",
    "C95_gruneisen_temperature",
    "C95_davis_products_temperature",
    "C95_davis_reactants_temperature",
    "C95_palpha_flag"
   ],
   "note": "Pressure through the query functions and, with any flags, the temperature of the stored EOS (SAP polynomial: none); bulk modulus of the stored EOS (where a ramp is in force: C95_ramp_in_force_bulk_modulus; SAP polynomial, cubic Gruneisen and compressed Davis reactants: none, see C59, C63); for the pressure the P-alpha flag is off (its arithmetic is C30/C45, and C95_palpha_flag reduces it to the bilinear ramp with computed values; what it does to the caller's array is C95_caller_values); the modifier arrays must have 4 and 6 elements (the wrappers copy whole arrays of that size). Tabulated EOS constructors are not included. Davis: the parameter checks exist in debug builds only, so every parameter set is accepted."
  }
 ]
}