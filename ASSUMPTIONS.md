# Axioms per theorem

Generated from `Print Assumptions` (each theorem is also followed by that command in its own file).

## Set 0: closed under the global context

* RootFinding_Props: C06_regula_falsi_terminates, C06_regula_falsi_iteration_bound, C07_newton_iteration_bound
* TypeLists_Props: C09_flatten_total_unique, C09_flatten_preserves_order, C09_flatten_removes_all_nesting, C09_transform_members, C09_transform_total, C09_combined_list, C09_get_index, C09_contains, C09_concat_pack_size
* Indexer_Props: C10_reads_last_write, C10_safe_access_contract, C10_accesses_in_bounds, C10_generic_indexer, C10_must_agrees, C56_must_disagrees_unflagged_refuted, C56_payload_aliases_refuted
* Serialization_Props: C11_round_trip_private, C11_round_trip_shared, C56_shared_helmholtz_refuted, C12_bulk_shared_root, C12_bulk_shared_other_rank, C12_bulk_private, C56_bulk_private_refuted
* Vector_Props: C13_every_schedule_equals_sequential, C13_two_input_call, C13_one_input_call, C13_FillEos_call, C13_schedules_exist, C14_scratch_monotone
* Electrons_Props: C26_ionisation_lookup
* Variant_Props: C32_construct, C32_dispatch, C32_modify, C32_is_modifiable, C32_unmodify_once, C32_get_unmodified, C32_get_unmodified_is_plain, C32_default_closed, C32_default_orders, C45_init_stack, C45_init_rejects, C45_init_in_variant, C45_vals_unchanged, C56_vals_reuse_refuted
* PTE_Scratch_Props: C33_arrays_disjoint, C33_arrays_inside, C33_scratch_exact_fit, C33_array_names_unique, C33_accesses_in_bounds, C61_rhou_single_material_refuted, C33_rhou_single_material_contained, C33_ideal_guess_fits, C33_ideal_guess_before_residual, C61_ideal_guess_other_systems_refuted, C33_reported_size_exact, C33_reported_size_46335, C61_reported_size_refuted
* PTE_Driver_Props: C35_converged_state_passes_check, C35_slow_means_previous_state_acceptable, C35_converged_initial_guess_untouched, C35_status_counters_bounded, C35_work_bounded, C35_line_search_residual
* KPT_Props: C39_sort_lists_all_phases, C39_sort_descending_any, C39_pair_index_bijective, C39_fromto_decodes_up_to_ten
* SgEos_Scratch_Props: C40_cache_in_bounds, C40_solver_in_bounds, C40_caches_of_materials_disjoint, C40_cache_apart, C64_cache_past_the_end_refuted, C64_solver_past_the_end_refuted, C64_cache_overlaps_solver_refuted
* Sesame_Parse_Props: C73_parse, C73_refuses, C73_files, C73_unclosed_header, C73_values
* Sesame_Names_Props: C74_file, C74_found_by_number, C74_found_by_name, C74_plain_names_suffice, C73_integers_read_back
* Sesame_Bounds_Props: C77_names_refuted, C77_malformed_line_refuted, C77_interpolation_status_refuted
* Eospac_Vector_Props: C78_max_scratch
* Bindings_Props: C80_python_query, C80_python_query_no_lambda, C80_python_fill_keywords, C80_c_query, C80_c_query_no_lambda, C80_fortran_query, C80_fortran_query_no_lambda, C80_fortran_minimum_energy, C80_material_slots, C80_host_keeps_kokkos, C80_library_owns_kokkos, C81_python_one_row_refuted, C81_python_readonly_refuted, C81_python_lambda_columns_refuted, C81_python_record_field_refuted, C81_python_scratch_stride_refuted, C81_python_fill_default_mask_refuted, C81_fortran_section_refuted, C81_lambda_index_overflow_refuted, C81_fortran_eospac_split_refuted, C81_fortran_finalize_refuted
* ScratchName_Props: C92_scratch_size, C92_queries, C92_maximum, C92_vector_calls, C92_eospac_calls
* CommandLine_Props: C93_settings, C93_no_file, C93_help, C93_every_line, C93_reads_files, C94_repeated_verbosity_refuted, C94_save_without_name_refuted

## Set 1: 1 names

`ClassicalDedekindReals.sig_forall_dec`

* SpinerUtil_Props: C41_null
* Helm_Props: C68_table_file
* Sesame_Tables_Props: C75_mass_fractions

## Set 2: 1 names

`FunctionalExtensionality.functional_extensionality_dep`

* Bindings_Props: C80_python_fill

## Set 3: 2 names

`ClassicalDedekindReals.sig_forall_dec`, `FunctionalExtensionality.functional_extensionality_dep`

* RootFinding_Props: C06_regula_falsi_terminates_R, C55_regula_falsi_negative_xtol_refuted, C55_regula_falsi_tolerance_refuted, C55_regula_falsi_guess_outside_refuted, C07_newton_success, C07_newton_zero_target_never_succeeds, C08_findRoot_success_in_bounds, C08_findRoot_success_tolerance, C08_findRoot_fail_in_bounds
* Robust_Props: C01_ratio_keeps_sign, C01_ratio_relative_error, C01_make_positive, C01_make_bounded, C54_make_bounded_negative_hi_refuted, C02_integer_power, C03_non_positive_value, C03_bad_value_accepts_zero, C03_bad_value_range, C54_negative_value_refuted, C03_negative_value
* Hermite_Props: C04_basis_cardinal, C04_corner_values, C04_polynomial_exactness, C04_cells_glue
* FastLogs_Props: C05_log10_pow10
* Vector_Props: C14_modifier_vector_calls, C57_scaled_vector_refuted, C57_scaled_shifted_vector_refuted, C57_units_minimum_energy_vector_refuted, C57_floor_lambda_refuted
* BaseDefaults_Props: C15_density_guess_inside_bounds, C15_DensityEnergyFromPT_any_status, C15_IEFromDensityPressure_terminates, C57_valid_guess_is_ignored_refuted, C15_noguess_overload, C15_default_minimum_energy, C57_default_minimum_energy_lambda_refuted, C15_fd_steps, C57_fd_uninitialised_guess_refuted
* Ideal_Props: C16_temperature_energy_round_trip, C16_PT_inversion, C16_RP_inversion, C16_floors, C16_FillEos, C16_FillEos_total, C16_FillEos_refuses, C58_ideal_FillEos_density_from_energy_refuted, C58_ideal_FillEos_energy_only_refuted, C44_ideal_CheckParams, C62_ideal_zero_denominator_refuted
* Stiff_Props: C17_temperature_energy_round_trip, C17_entry_points_agree, C17_PT_inversion, C17_floors, C17_minimum_energy, C58_stiff_reference_dvdt_refuted, C17_FillEos, C17_FillEos_refuses, C58_stiff_FillEos_density_from_energy_refuted, C17_FillEos_total, C58_stiff_FillEos_energy_only_refuted, C44_stiff_CheckParams, C62_stiff_negative_Pinf_refuted
* NobleAbel_Props: C18_temperature_energy_round_trip, C18_entry_points_agree, C18_PT_inversion, C18_floors, C58_noble_reference_dvdt_refuted, C18_FillEos, C58_noble_FillEos_rho_press_refuted, C18_FillEos_refuses, C58_noble_FillEos_density_from_energy_refuted, C18_FillEos_total, C44_noble_CheckParams
* Carnahan_Props: C19_temperature_energy_round_trip, C19_entry_points_agree, C19_pressure_monotone, C19_floors, C19_FillEos, C19_FillEos_refuses, C58_carnahan_FillEos_density_from_energy_refuted, C58_carnahan_reference_bulk_modulus_refuted, C44_carnahan_CheckParams
* SAP_Props: C20_pressure, C20_FillEos, C20_FillEos_refuses, C58_sap_FillEos_density_from_energy_refuted, C58_sap_FillEos_rho_press_refuted, C44_sap_CheckParams, C62_sap_zero_reference_density_refuted
* JWL_Props: C44_jwl_CheckParams, C62_jwl_R1_unchecked_refuted
* Gruneisen_Props: C22_temperature_energy_round_trip, C22_entry_points_agree, C22_hugoniot_is_on_the_EOS, C22_clipped_beyond_maximum, C22_minimum_pressure, C22_FillEos_refuses, C22_FillEos, C22_reference_state, C58_gruneisen_reference_dpde_refuted, C59_gruneisen_maximum_pressure_refuted, C44_gruneisen_CheckParams
* Vinet_Props: C44_vinet_construction, C62_vinet_BP0_refuted
* DavisReactants_Props: C44_davis_reactants_CheckParams
* DavisProducts_Props: C44_davis_products_CheckParams
* MGUsup_Props: C25_mgusup_no_abort, C44_mgusup_CheckParams, C62_mgusup_zero_divisors_refuted
* PowerMG_Props: C25_powermg_constructor, C59_powermg_energy_below_Pmin_refuted, C44_powermg_CheckParams, C62_powermg_zero_divisors_refuted
* Electrons_Props: C26_specific_heat_formula, C26_PT_inversion, C26_floors, C26_neutral, C26_linear_in_Z, C26_FillEos, C26_FillEos_refuses, C58_electrons_FillEos_density_from_energy_refuted, C26_FillEos_total, C58_electrons_reference_pressure_refuted
* Mods_Props: C27_shifted_queries, C27_shifts_compose, C60_shifted_fill_refuted, C27_shifted_fill_rho_sie, C28_scaled_queries, C60_scaled_wrong_queries_refuted, C60_scaled_fill_refuted, C29_units, C29_units_inverse, C29_length_time_units
* Mods_Props2: C30_ramp_density_inverse, C30_ramp_pressure, C30_fill_rho_sie, C60_ramp_fill_bmod_refuted, C60_ramp_PT_inversion_refuted, C60_ramp_bulk_modulus_below_r0_refuted, C60_ramp_CheckParams_refuted, C30_palpha_params
* Mods_Props3: C31_floored_above, C31_floored_below, C31_floored_other_queries, C31_floored_idempotent, C31_floored_roundtrip, C31_floored_continuous, C60_floored_lambda_refuted, C31_relativistic_bulk_modulus, C31_relativistic_other_queries, C31_relativistic_subluminal_iff, C31_zsplit_queries, C31_zsplit_sum, C31_zsplit_sum_energy, C31_zsplit_PT, C60_zsplit_bounds_refuted
* PTE_Driver_Props: C35_invariant_principle, C35_converged_invariant
* PTE_Base_Props: C34_enforce_mass_volumes, C34_enforce_energies, C34_normalize_vfrac, C34_SetVfracFromT_sums
* PTE_RhoT_Props: C36_RhoT_scaled_step_admissible
* PTE_FixedT_Props: C36_FixedT_scaled_step_admissible, C46_FixedT_newton_matrix_nonsingular
* PTE_FixedP_Props: C36_FixedP_scaled_step_admissible
* PTE_PT_Props: C36_PT_scaled_step_admissible, C34_PT_returned_state, C37_PT_converged_means_conservation
* PTE_RhoU_Props: C36_RhoU_scaled_step_admissible, C47_RhoU_matrix_is_linearisation, C46_RhoU_newton_matrix_nonsingular
* PTE_More_Props: C36_RhoT_density_admissible, C36_RhoT_density_above_minimum, C61_RhoT_density_skip_refuted, C61_PT_maximum_pressure_refuted, C61_vfrac_from_T_refuted
* PTE_Linear_Props: C47_FixedT_matrix_is_linearisation, C47_FixedP_matrix_is_linearisation, C47_PT_matrix_is_linearisation, C47_RhoT_matrix_is_linearisation
* KPT_Props: C39_sort_descending
* SpinerUtil_Props: C51_round_trip, C51_round_trip_back, C51_monotone, C51_argument_positive, C41_shift, C41_scale, C41_divide_by_cv, C41_shift_divide_by_cv, C41_all, C49_divide_by_cv_inverse_refuted, C49_divide_by_cv_order_refuted, C43_offset_makes_range_positive, C43_log_bounds, C43_log2lin, C43_one_grid_covers_request, C43_number_of_points, C43_anchor, C43_check_interval, C43_two_grids_cover, C43_three_grids_cover, C43_two_grids_increasing, C43_three_grids_increasing, C50_anchor_degenerate_refuted, C50_anchor_off_grid_refuted, C50_anchor_loses_a_cell_refuted, C50_check_interval_refuted, C50_three_grids_reversed_refuted, C50_one_grid_anchor_offset_refuted, C52_no_dome, C52_minimum_pressure, C52_dome_non_increasing, C52_dome_edge
* Spiner_Props: C42_rs_extrapolation, C42_rs_entry_points_agree, C42_rs_fill_rho_sie, C42_rs_fill_rho_temp, C42_rs_fill_press_temp, C42_rs_fill_refuses, C42_stored_bulk_modulus, C42_rt_round_trip_T_above, C42_rt_round_trip_e_above, C42_rt_below_table, C42_rt_below_table_temperature, C42_rt_energy_continuous_at_top, C42_rt_pressure_entry_points, C42_rt_floors, C42_rt_fill_rho_temp, C42_rt_fill_rho_sie, C42_rt_fill_press_temp, C42_rt_fill_refuses, C42_rt_rho_pmin, C53_rs_fill_silent_refuted, C53_rs_guess_changes_result_refuted, C53_rt_cold_crit_refuted
* Stellar_Props: C65_clamped_to_table, C65_entry_points_agree, C65_floors, C65_lambda, C65_FillEos_from_temperature, C65_FillEos_from_energy, C65_FillEos_refuses, C65_no_overshoot, C65_mass_fractions
* Stellar_Build_Props: C66_median_filter
* Stellar_Finds_Props: C65_reference_state
* Sesame_Tables_Props: C75_density_temperature_table, C75_density_energy_table, C75_cold_curves
* Sesame_Bounds_Props: C76_ranges, C76_special_points, C76_end_points, C76_shift, C77_fine_limits_refuted, C77_energy_split_refuted
* Eospac_Props: C78_scalar_queries, C78_entropy, C78_nonnegative, C78_isothermal_modulus, C78_pressure_temperature, C78_PT_derivatives, C78_reference_state, C78_fill, C78_fill_errors
* Eospac_Vector_Props: C78_vector_calls, C78_vector_fill, C78_shifted_vector_calls
* Eospac_Finds_Props: C79_reference_modulus_refuted
* Doc_Props: C82_gruneisen, C83_reference_state_is_entropy_reference_refuted
* Float_Props: C85_same_program
* Float_Sum_Props: C86_same_program
* Equilibrium_Props: C91_near_equilibria_agree, C91_PT_converged_is_near_equilibrium, C91_PT_runs_agree
* Equilibrium_EOS_Props: C91_gap_ideal, C91_ideal_near_equilibria
* Init_Props: C95_accepts, C95_caller_values
* Equilibrium_RhoU_Props: C91_near_equilibria_each_agree

## Set 4: 3 names

`ClassicalDedekindReals.sig_forall_dec`, `ClassicalDedekindReals.sig_not_dec`, `FunctionalExtensionality.functional_extensionality_dep`

* RootFinding_Props: C06_regula_falsi_enclosure
* BaseDefaults_Props: C15_DensityEnergyFromPT_success, C15_IEFromDensityPressure_success
* Gruneisen_Props: C22_automatic_maximum_density_safe, C63_gruneisen_cubic_maximum_density_partial, C62_gruneisen_constructor_unchecked_refuted
* PowerMG_Props: C25_powermg_reference_curve, C25_powermg_consistency, C25_powermg_FillEos, C58_powermg_FillEos_overwrites_energy_refuted
* Mods_Props2: C60_ramp_gruneisen_on_ramp_refuted
* PTE_RhoT_Props: C34_RhoT_returned_state, C37_RhoT_converged_means_equilibrium
* PTE_FixedT_Props: C34_FixedT_returned_state, C46_FixedT_volumes_sum, C37_FixedT_converged_means_equilibrium
* PTE_FixedP_Props: C34_FixedP_returned_state, C46_FixedP_volumes_sum, C37_FixedP_converged_means_equilibrium
* PTE_RhoU_Props: C34_RhoU_returned_state, C37_RhoU_converged_means_equilibrium, C46_RhoU_volume_exact_energy_monotone, C61_RhoU_total_energy_refuted
* PTE_More_Props: C61_RhoT_ignores_total_volume_refuted, C61_FixedP_relative_tolerance_refuted, C61_RhoT_initial_pressure_guess_refuted
* Spiner_Props: C42_rs_inversion, C42_rt_on_table, C42_rt_density
* SgEos_Props: C40_result_independent_of_scratch, C40_schedule_independent, C40_loop_terminates, C40_p_t_input, C40_rho_t_mixed, C40_rho_p_mixed, C40_rho_e_mixed, C40_rho_e_pure, C40_rho_t_pure, C40_rho_p_pure, C40_copy_back, C40_input_codes
* SgEos_Finds_Props: C64_dropped_material_reports, C64_rho_e_lone_material, C64_rho_t_lone_material, C64_cv_not_filled_without_dpde, C64_volumes_sum_refuted, C64_common_temperature_refuted, C64_energies_sum_refuted, C64_requested_cv_refuted, C64_null_cv_not_written_refuted, C64_p_t_stale_guess_refuted, C64_empty_cell_stale_density_refuted
* Stellar_Props: C65_temperature_from_energy, C65_temperature_at_nodes, C65_round_trip, C65_density_from_pressure
* Equilibrium_Props: C91_RhoT_converged_is_near_equilibrium, C91_RhoT_and_PT_agree, C91_RhoT_runs_agree, C91_FixedT_converged_is_near_equilibrium, C91_FixedT_runs_agree
* Init_Props: C95_c_interface
* Init_Temp_Props: C95_palpha_flag
* Equilibrium_RhoU_Props: C91_RhoU_converged_is_near_equilibrium, C91_RhoU_runs_agree

## Set 5: 4 names

`ClassicalDedekindReals.sig_forall_dec`, `ClassicalDedekindReals.sig_not_dec`, `Classical_Prop.classic`, `FunctionalExtensionality.functional_extensionality_dep`

* Robust_Props: C01_ratio_never_divides_by_zero, C01_ratio_absorbed, C01_safe_arg_exp
* Hermite_Props: C04_basis_derivatives, C04_interpolant_derivatives
* FastLogs_Props: C05_portable_order1, C05_portable_order2, C05_order2_differentiable, C05_aliased_monotone, C05_aliased_core_is_portable, C05_aliased_int64_range, C05_aliased_roundtrip, C05_aliased_roundtrip_uniform, C05_aliased_pow2_exact_on_integers, C54_aliased_lg2_refuted
* BaseDefaults_Props: C15_fd_mean_value
* Ideal_Props: C16_entry_points_agree, C16_derivatives, C16_first_law, C16_PT_derivatives, C16_reference_state
* Stiff_Props: C17_entropy_entry_points_agree, C17_derivatives, C17_first_law, C17_reference_state
* NobleAbel_Props: C18_entropy_entry_points_agree, C18_derivatives, C18_first_law, C18_reference_state
* Carnahan_Props: C19_entropy_entry_points_agree, C19_derivatives, C19_first_law, C19_density_exists_unique, C19_density_from_PT, C19_reference_state
* SAP_Props: C20_derivatives, C59_sap_bulk_modulus_error, C59_sap_gruneisen_error, C59_sap_bulk_modulus_refuted, C59_sap_gruneisen_refuted, C20_pressure_continuous
* JWL_Props: C21_reference_isentrope, C21_temperature_energy_round_trip, C21_entry_points_agree, C21_pressure_is_mie_gruneisen, C21_derivatives, C21_first_law, C21_pressure_monotone, C21_density_from_PT, C21_FillEos, C58_jwl_FillEos_rho_temp_refuted, C21_reference_state, C58_jwl_reference_pressure_refuted
* Gruneisen_Props: C22_derivatives, C22_pressure_continuous, C22_density_from_PT_expansion, C22_density_from_PT_compression, C58_gruneisen_FillEos_bulk_modulus_only_refuted
* Vinet_Props: C23_documented_isotherm, C23_energy_pressure_consistent, C23_first_law, C23_round_trip, C23_entry_points_agree, C23_derivatives, C23_bulk_modulus, C23_thermal_expansion, C23_reference_state, C23_FillEos, C23_FillEos_refuses, C23_FillEos_total, C58_vinet_FillEos_frame_refuted
* DavisReactants_Props: C24_reactants_round_trip, C24_reactants_entry_points_agree, C24_reactants_derivatives, C24_reactants_reference_curve, C24_reactants_first_law, C24_reactants_bulk_modulus_expansion, C59_davis_reactants_bulk_modulus_compression_refuted, C59_davis_reactants_reference_pressure_refuted, C59_davis_reactants_expansion_temperature_refuted, C24_reactants_density_from_PT, C24_reactants_FillEos, C58_davis_reactants_FillEos_rho_temp_refuted
* DavisProducts_Props: C24_products_round_trip, C24_products_entry_points_agree, C24_products_derivatives, C24_products_first_law, C24_products_density_from_PT, C24_products_FillEos, C58_davis_products_FillEos_rho_temp_refuted, C24_products_reference_values
* MGUsup_Props: C25_mgusup_hugoniot, C25_mgusup_round_trip, C25_mgusup_derivatives, C25_mgusup_first_law, C59_mgusup_small_eta_temperature_refuted, C59_mgusup_bulk_modulus_rho_T_refuted, C25_mgusup_entropy_rho_e, C25_mgusup_reference_state, C25_mgusup_FillEos, C58_mgusup_FillEos_overwrites_energy_refuted
* PowerMG_Props: C25_powermg_derivatives, C59_powermg_expansion_bulk_modulus_rho_e_refuted, C59_powermg_cutoff_bulk_modulus_refuted, C25_powermg_first_law_expansion, C59_powermg_first_law_below_Pmin_refuted, C25_powermg_series_accuracy, C25_powermg_first_law_compression, C59_powermg_negative_gruneisen_refuted, C25_powermg_entropy_rho_e, C25_powermg_reference_state
* Electrons_Props: C26_consistency
* Mods_Props: C27_shifted_consistent, C28_scaled_consistent, C28_scaled_density_free_energy, C29_units_consistent
* Mods_Props2: C60_shifted_ideal_fill_refuted, C60_shifted_stiff_fill_refuted, C60_shifted_vinet_fill_refuted, C60_scaled_roundtrip_refuted, C30_ramp_shape, C30_pressure_continuous, C30_bulk_modulus, C60_ramp_fill_rho_T_refuted
* Mods_Props3: C60_floored_energy_from_pressure_refuted, C31_relativistic_ideal_subluminal, C60_relativistic_superluminal_refuted, C60_relativistic_fill_refuted, C31_zsplit_consistent, C60_zsplit_energy_from_pressure_refuted, C60_zsplit_neutral_roundtrip_refuted
* KPT_Props: C39_rates_are_greeff, C39_rate_monotone, C54_fromto_eleven_phases_refuted, C38_fractions_stay_nonnegative, C38_phase_balance, C38_total_mass_bounds, C38_total_mass_exact, C38_total_mass_exact_no_traces, C48_total_mass_conserved_refuted, C38_gibbs_energy_never_rises, C38_highest_never_gains_lowest_never_loses, C38_master_equation, C38_time_step, C38_suggested_step_transfers, C38_master_equation_small_steps, C38_equilibrium_is_fixed
* SpinerUtil_Props: C51_real_log10_is_log_pair
* Spiner_Props: C53_rs_gruneisen_ignores_transform_refuted, C53_rs_mass_fractions_ignore_transform_refuted, C53_rt_cold_curve_below_1K_refuted, C53_rt_pressure_jump_refuted, C53_rt_density_above_table_refuted, C53_rt_fill_rho_press_clamped_refuted, C53_rt_bulk_modulus_negative_refuted
* Stellar_Build_Props: C66_loaded_object_is_well_formed, C66_bounds, C66_values_at_grid_points, C66_values_at_corners, C66_no_overshoot, C66_mass_fractions, C66_energy_range, C66_CheckParams, C66_save_and_load, C66_minimum_energy_curve
* Stellar_Finds_Props: C67_temperature_round_trip_refuted, C67_temperature_leaves_table_refuted, C67_chemical_potentials_refuted, C67_FillEos_temperature_refuted, C67_reference_temperature_refuted
* Helm_Props: C68_electrons_at_grid_point, C68_radiation, C68_electrons, C69_specific_heat, C69_energy_and_pressure_compatible, C69_gruneisen, C69_bulk_modulus, C69_entropy_radiation, C69_FillEos_refuses, C69_FillEos, C69_energy_entry_points, C69_composition_and_reference, C69_density_energy_from_pressure_temperature, C70_in_range, C70_inversion, C70_energy_continuous, C70_ideal_gas_exact
* Helm_Finds_Props: C71_cached_temperature_refuted, C71_entropy_first_law_refuted, C71_entropy_compression_refuted, C71_coulomb_weak_coupling_refuted, C71_coulomb_specific_heat_refuted
* ApproxT_Props: C72_range, C72_accuracy, C72_accuracy_number, C72_unique, C72_ends_on_iteration_limit, C72_interpolation_exact
* Sesame_Bounds_Props: C77_energy_split_example_refuted
* Eospac_Finds_Props: C79_fill_from_energy_refuted, C79_fill_scalar_vector_refuted, C79_fill_overwrites_refuted, C79_minimum_energy_scratch_refuted, C79_vector_entropy_refuted
* Helm_Coulomb_Props: C69_coulomb_slopes_partial, C69_coulomb_entropy_partial, C69_coulomb_virial, C71_coulomb_entropy_slope_refuted
* Doc_Props: C82_ideal_gas, C82_ideal_gas_defaults, C83_ideal_default_temperature_refuted, C82_ideal_electrons, C82_stiff_gas, C82_noble_abel, C82_carnahan_starling, C82_jwl, C82_davis_products, C83_davis_products_T_S_refuted
* Doc_Solid_Props: C82_vinet, C82_usup_hugoniot_temperature, C82_usup, C82_power_mg, C82_power_mg_hugoniot_temperature, C83_power_mg_temperature_index_refuted, C82_davis_reactants
* Stability_Props: C89_ideal_moduli, C89_ideal_stable, C89_stiff_moduli, C89_stiff_stable, C89_noble_moduli, C89_noble_stable, C89_carnahan_moduli, C89_carnahan_stable, C89_jwl_moduli, C89_jwl_stable, C89_vinet_moduli, C89_vinet_stable, C90_vinet_unstable_in_expansion_refuted, C89_davis_products_moduli, C89_powermg_moduli, C89_powermg_stable, C90_gruneisen_moduli_refuted, C90_jwl_negative_bulk_modulus_refuted
* Equilibrium_Props: C91_equilibrium_unique, C91_fixed_temperature_unique, C91_fixed_pressure_unique, C91_gap_zero
* Equilibrium_EOS_Props: C91_ideal_well_behaved, C91_stiff_well_behaved, C91_noble_abel_well_behaved, C91_carnahan_well_behaved, C91_jwl_well_behaved, C91_vinet_well_behaved, C91_powermg_well_behaved, C91_ideal_mixture
* Init_Props: C95_ideal_gas, C95_stiff_gas, C95_noble_abel, C95_carnahan_starling, C95_jwl, C95_gruneisen, C95_davis_products, C95_davis_reactants, C95_sap_polynomial
* Init_Temp_Props: C95_ideal_gas_temperature, C95_stiff_gas_temperature, C95_noble_abel_temperature, C95_carnahan_starling_temperature, C95_jwl_temperature, C95_gruneisen_temperature, C95_davis_products_temperature, C95_davis_reactants_temperature
* Init_Bulk_Props: C95_ideal_gas_bulk_modulus, C95_stiff_gas_bulk_modulus, C95_noble_abel_bulk_modulus, C95_carnahan_starling_bulk_modulus, C95_jwl_bulk_modulus, C95_gruneisen_bulk_modulus, C95_davis_products_bulk_modulus, C95_davis_reactants_bulk_modulus, C95_ramp_in_force_bulk_modulus, C95_bulk_modulus_queries

## Set 6: 4 names

`PrimFloat.div`, `PrimFloat.eqb`, `PrimFloat.float`, `PrimFloat.mul`

* Mods_Props: C60_units_fill_input_changed_in_binary64_refuted

## Set 7: 15 names

`PrimFloat.abs`, `PrimFloat.add`, `PrimFloat.div`, `PrimFloat.eqb`, `PrimFloat.float`, `PrimFloat.leb`, `PrimFloat.ltb`, `PrimFloat.mul`, `PrimFloat.of_uint63`, `PrimFloat.opp`, `PrimFloat.sub`, `PrimInt63.int`, `PrimInt63.lor`, `PrimInt63.lsl`, `PrimInt63.sub`

* RootFinding_Props: C55_regula_falsi_illinois_refuted, C55_regula_falsi_in_bounds_refuted, C55_newton_bound_root_refuted, C55_findRoot_fail_in_bounds_refuted
* BaseDefaults_Props: C57_DensityEnergyFromPT_bounds_refuted, C57_bad_guess_leaves_range_refuted
* PTE_Driver_Props: C61_converged_truthful_refuted, C61_reported_residual_stale_refuted
* Float_Root_Props: C88_regula_falsi_nan_refuted, C88_regula_falsi_overflow_refuted, C88_underflow_bracket_refuted, C88_findRoot_spacing_refuted, C88_findRoot_nan_refuted, C88_newton_nan_refuted

## Set 8: 27 names

`FloatAxioms.Prim2SF_SF2Prim`, `FloatAxioms.Prim2SF_valid`, `FloatAxioms.SF2Prim_Prim2SF`, `FloatAxioms.eqb_spec`, `FloatAxioms.leb_spec`, `FloatAxioms.ltb_spec`, `PrimFloat.abs`, `PrimFloat.add`, `PrimFloat.div`, `PrimFloat.eqb`, `PrimFloat.float`, `PrimFloat.frshiftexp`, `PrimFloat.ldshiftexp`, `PrimFloat.leb`, `PrimFloat.ltb`, `PrimFloat.mul`, `PrimFloat.normfr_mantissa`, `PrimFloat.of_uint63`, `PrimFloat.opp`, `PrimFloat.sub`, `PrimInt63.eqb`, `PrimInt63.int`, `PrimInt63.land`, `PrimInt63.lor`, `PrimInt63.lsl`, `PrimInt63.lsr`, `PrimInt63.sub`

* Float_Root_Props: C87_findRoot_success_in_bounds

## Set 9: 31 names

`ClassicalDedekindReals.sig_forall_dec`, `ClassicalDedekindReals.sig_not_dec`, `Classical_Prop.classic`, `FloatAxioms.Prim2SF_SF2Prim`, `FloatAxioms.Prim2SF_valid`, `FloatAxioms.SF2Prim_Prim2SF`, `FloatAxioms.abs_spec`, `FloatAxioms.eqb_spec`, `FloatAxioms.ltb_spec`, `FunctionalExtensionality.functional_extensionality_dep`, `PrimFloat.abs`, `PrimFloat.add`, `PrimFloat.div`, `PrimFloat.eqb`, `PrimFloat.float`, `PrimFloat.frshiftexp`, `PrimFloat.ldshiftexp`, `PrimFloat.leb`, `PrimFloat.ltb`, `PrimFloat.mul`, `PrimFloat.normfr_mantissa`, `PrimFloat.of_uint63`, `PrimFloat.opp`, `PrimFloat.sub`, `PrimInt63.eqb`, `PrimInt63.int`, `PrimInt63.land`, `PrimInt63.lor`, `PrimInt63.lsl`, `PrimInt63.lsr`, `PrimInt63.sub`

* KPT_Props: C39_sort_descending_binary64

## Set 10: 32 names

`ClassicalDedekindReals.sig_forall_dec`, `ClassicalDedekindReals.sig_not_dec`, `Classical_Prop.classic`, `FloatAxioms.Prim2SF_SF2Prim`, `FloatAxioms.Prim2SF_valid`, `FloatAxioms.SF2Prim_Prim2SF`, `FloatAxioms.abs_spec`, `FloatAxioms.div_spec`, `FloatAxioms.eqb_spec`, `FloatAxioms.mul_spec`, `FunctionalExtensionality.functional_extensionality_dep`, `PrimFloat.abs`, `PrimFloat.add`, `PrimFloat.div`, `PrimFloat.eqb`, `PrimFloat.float`, `PrimFloat.frshiftexp`, `PrimFloat.ldshiftexp`, `PrimFloat.leb`, `PrimFloat.ltb`, `PrimFloat.mul`, `PrimFloat.normfr_mantissa`, `PrimFloat.of_uint63`, `PrimFloat.opp`, `PrimFloat.sub`, `PrimInt63.eqb`, `PrimInt63.int`, `PrimInt63.land`, `PrimInt63.lor`, `PrimInt63.lsl`, `PrimInt63.lsr`, `PrimInt63.sub`

* Float_Props: C84_pow_binary64

## Set 11: 33 names

`ClassicalDedekindReals.sig_forall_dec`, `ClassicalDedekindReals.sig_not_dec`, `Classical_Prop.classic`, `FloatAxioms.Prim2SF_SF2Prim`, `FloatAxioms.Prim2SF_valid`, `FloatAxioms.SF2Prim_Prim2SF`, `FloatAxioms.abs_spec`, `FloatAxioms.add_spec`, `FloatAxioms.eqb_spec`, `FloatAxioms.leb_spec`, `FloatAxioms.sub_spec`, `FunctionalExtensionality.functional_extensionality_dep`, `PrimFloat.abs`, `PrimFloat.add`, `PrimFloat.div`, `PrimFloat.eqb`, `PrimFloat.float`, `PrimFloat.frshiftexp`, `PrimFloat.ldshiftexp`, `PrimFloat.leb`, `PrimFloat.ltb`, `PrimFloat.mul`, `PrimFloat.normfr_mantissa`, `PrimFloat.of_uint63`, `PrimFloat.opp`, `PrimFloat.sub`, `PrimInt63.eqb`, `PrimInt63.int`, `PrimInt63.land`, `PrimInt63.lor`, `PrimInt63.lsl`, `PrimInt63.lsr`, `PrimInt63.sub`

* Float_Sum_Props: C86_compensated_sum_accuracy, C86_sum_of_nonnegative

## Set 12: 33 names

`ClassicalDedekindReals.sig_forall_dec`, `ClassicalDedekindReals.sig_not_dec`, `Classical_Prop.classic`, `FloatAxioms.Prim2SF_SF2Prim`, `FloatAxioms.Prim2SF_valid`, `FloatAxioms.SF2Prim_Prim2SF`, `FloatAxioms.abs_spec`, `FloatAxioms.div_spec`, `FloatAxioms.eqb_spec`, `FloatAxioms.ltb_spec`, `FloatAxioms.mul_spec`, `FunctionalExtensionality.functional_extensionality_dep`, `PrimFloat.abs`, `PrimFloat.add`, `PrimFloat.div`, `PrimFloat.eqb`, `PrimFloat.float`, `PrimFloat.frshiftexp`, `PrimFloat.ldshiftexp`, `PrimFloat.leb`, `PrimFloat.ltb`, `PrimFloat.mul`, `PrimFloat.normfr_mantissa`, `PrimFloat.of_uint63`, `PrimFloat.opp`, `PrimFloat.sub`, `PrimInt63.eqb`, `PrimInt63.int`, `PrimInt63.land`, `PrimInt63.lor`, `PrimInt63.lsl`, `PrimInt63.lsr`, `PrimInt63.sub`

* Float_Props: C85_ideal_round_trips

## Set 13: 33 names

`ClassicalDedekindReals.sig_forall_dec`, `ClassicalDedekindReals.sig_not_dec`, `Classical_Prop.classic`, `FloatAxioms.Prim2SF_SF2Prim`, `FloatAxioms.Prim2SF_valid`, `FloatAxioms.SF2Prim_Prim2SF`, `FloatAxioms.abs_spec`, `FloatAxioms.eqb_spec`, `FloatAxioms.leb_spec`, `FloatAxioms.ltb_spec`, `FloatAxioms.mul_spec`, `FunctionalExtensionality.functional_extensionality_dep`, `PrimFloat.abs`, `PrimFloat.add`, `PrimFloat.div`, `PrimFloat.eqb`, `PrimFloat.float`, `PrimFloat.frshiftexp`, `PrimFloat.ldshiftexp`, `PrimFloat.leb`, `PrimFloat.ltb`, `PrimFloat.mul`, `PrimFloat.normfr_mantissa`, `PrimFloat.of_uint63`, `PrimFloat.opp`, `PrimFloat.sub`, `PrimInt63.eqb`, `PrimInt63.int`, `PrimInt63.land`, `PrimInt63.lor`, `PrimInt63.lsl`, `PrimInt63.lsr`, `PrimInt63.sub`

* Float_Props: C85_ideal_monotone_density

## Set 14: 33 names

`ClassicalDedekindReals.sig_forall_dec`, `ClassicalDedekindReals.sig_not_dec`, `Classical_Prop.classic`, `FloatAxioms.Prim2SF_SF2Prim`, `FloatAxioms.Prim2SF_valid`, `FloatAxioms.SF2Prim_Prim2SF`, `FloatAxioms.abs_spec`, `FloatAxioms.eqb_spec`, `FloatAxioms.leb_spec`, `FloatAxioms.ltb_spec`, `FloatAxioms.sub_spec`, `FunctionalExtensionality.functional_extensionality_dep`, `PrimFloat.abs`, `PrimFloat.add`, `PrimFloat.div`, `PrimFloat.eqb`, `PrimFloat.float`, `PrimFloat.frshiftexp`, `PrimFloat.ldshiftexp`, `PrimFloat.leb`, `PrimFloat.ltb`, `PrimFloat.mul`, `PrimFloat.normfr_mantissa`, `PrimFloat.of_uint63`, `PrimFloat.opp`, `PrimFloat.sub`, `PrimInt63.eqb`, `PrimInt63.int`, `PrimInt63.land`, `PrimInt63.lor`, `PrimInt63.lsl`, `PrimInt63.lsr`, `PrimInt63.sub`

* Float_Root_Props: C87_newton_success

## Set 15: 34 names

`ClassicalDedekindReals.sig_forall_dec`, `ClassicalDedekindReals.sig_not_dec`, `Classical_Prop.classic`, `FloatAxioms.Prim2SF_SF2Prim`, `FloatAxioms.Prim2SF_valid`, `FloatAxioms.SF2Prim_Prim2SF`, `FloatAxioms.abs_spec`, `FloatAxioms.div_spec`, `FloatAxioms.eqb_spec`, `FloatAxioms.leb_spec`, `FloatAxioms.ltb_spec`, `FloatAxioms.mul_spec`, `FunctionalExtensionality.functional_extensionality_dep`, `PrimFloat.abs`, `PrimFloat.add`, `PrimFloat.div`, `PrimFloat.eqb`, `PrimFloat.float`, `PrimFloat.frshiftexp`, `PrimFloat.ldshiftexp`, `PrimFloat.leb`, `PrimFloat.ltb`, `PrimFloat.mul`, `PrimFloat.normfr_mantissa`, `PrimFloat.of_uint63`, `PrimFloat.opp`, `PrimFloat.sub`, `PrimInt63.eqb`, `PrimInt63.int`, `PrimInt63.land`, `PrimInt63.lor`, `PrimInt63.lsl`, `PrimInt63.lsr`, `PrimInt63.sub`

* Float_Props: C85_ideal_never_nan, C85_ideal_monotone

## Set 16: 34 names

`ClassicalDedekindReals.sig_forall_dec`, `ClassicalDedekindReals.sig_not_dec`, `Classical_Prop.classic`, `FloatAxioms.Prim2SF_SF2Prim`, `FloatAxioms.Prim2SF_valid`, `FloatAxioms.SF2Prim_Prim2SF`, `FloatAxioms.abs_spec`, `FloatAxioms.eqb_spec`, `FloatAxioms.leb_spec`, `FloatAxioms.ltb_spec`, `FloatAxioms.mul_spec`, `FloatAxioms.sub_spec`, `FunctionalExtensionality.functional_extensionality_dep`, `PrimFloat.abs`, `PrimFloat.add`, `PrimFloat.div`, `PrimFloat.eqb`, `PrimFloat.float`, `PrimFloat.frshiftexp`, `PrimFloat.ldshiftexp`, `PrimFloat.leb`, `PrimFloat.ltb`, `PrimFloat.mul`, `PrimFloat.normfr_mantissa`, `PrimFloat.of_uint63`, `PrimFloat.opp`, `PrimFloat.sub`, `PrimInt63.eqb`, `PrimInt63.int`, `PrimInt63.land`, `PrimInt63.lor`, `PrimInt63.lsl`, `PrimInt63.lsr`, `PrimInt63.sub`

* Float_Root_Props: C87_regula_falsi_terminates, C88_regula_falsi_nan_step_refuted

## Set 17: 34 names

`ClassicalDedekindReals.sig_forall_dec`, `ClassicalDedekindReals.sig_not_dec`, `Classical_Prop.classic`, `FloatAxioms.Prim2SF_SF2Prim`, `FloatAxioms.Prim2SF_valid`, `FloatAxioms.SF2Prim_Prim2SF`, `FloatAxioms.abs_spec`, `FloatAxioms.add_spec`, `FloatAxioms.div_spec`, `FloatAxioms.eqb_spec`, `FloatAxioms.ltb_spec`, `FloatAxioms.mul_spec`, `FunctionalExtensionality.functional_extensionality_dep`, `PrimFloat.abs`, `PrimFloat.add`, `PrimFloat.div`, `PrimFloat.eqb`, `PrimFloat.float`, `PrimFloat.frshiftexp`, `PrimFloat.ldshiftexp`, `PrimFloat.leb`, `PrimFloat.ltb`, `PrimFloat.mul`, `PrimFloat.normfr_mantissa`, `PrimFloat.of_uint63`, `PrimFloat.opp`, `PrimFloat.sub`, `PrimInt63.eqb`, `PrimInt63.int`, `PrimInt63.land`, `PrimInt63.lor`, `PrimInt63.lsl`, `PrimInt63.lsr`, `PrimInt63.sub`

* Float_Props: C85_ideal_accuracy

## Set 18: 35 names

`ClassicalDedekindReals.sig_forall_dec`, `ClassicalDedekindReals.sig_not_dec`, `Classical_Prop.classic`, `FloatAxioms.Prim2SF_SF2Prim`, `FloatAxioms.Prim2SF_valid`, `FloatAxioms.SF2Prim_Prim2SF`, `FloatAxioms.abs_spec`, `FloatAxioms.add_spec`, `FloatAxioms.div_spec`, `FloatAxioms.eqb_spec`, `FloatAxioms.leb_spec`, `FloatAxioms.ltb_spec`, `FloatAxioms.opp_spec`, `FunctionalExtensionality.functional_extensionality_dep`, `PrimFloat.abs`, `PrimFloat.add`, `PrimFloat.div`, `PrimFloat.eqb`, `PrimFloat.float`, `PrimFloat.frshiftexp`, `PrimFloat.ldshiftexp`, `PrimFloat.leb`, `PrimFloat.ltb`, `PrimFloat.mul`, `PrimFloat.normfr_mantissa`, `PrimFloat.of_uint63`, `PrimFloat.opp`, `PrimFloat.sub`, `PrimInt63.eqb`, `PrimInt63.int`, `PrimInt63.land`, `PrimInt63.lor`, `PrimInt63.lsl`, `PrimInt63.lsr`, `PrimInt63.sub`

* Float_Props: C84_ratio_binary64

## Set 19: 36 names

`ClassicalDedekindReals.sig_forall_dec`, `ClassicalDedekindReals.sig_not_dec`, `Classical_Prop.classic`, `FloatAxioms.Prim2SF_SF2Prim`, `FloatAxioms.Prim2SF_valid`, `FloatAxioms.SF2Prim_Prim2SF`, `FloatAxioms.abs_spec`, `FloatAxioms.add_spec`, `FloatAxioms.div_spec`, `FloatAxioms.eqb_spec`, `FloatAxioms.leb_spec`, `FloatAxioms.ltb_spec`, `FloatAxioms.mul_spec`, `FloatAxioms.sub_spec`, `FunctionalExtensionality.functional_extensionality_dep`, `PrimFloat.abs`, `PrimFloat.add`, `PrimFloat.div`, `PrimFloat.eqb`, `PrimFloat.float`, `PrimFloat.frshiftexp`, `PrimFloat.ldshiftexp`, `PrimFloat.leb`, `PrimFloat.ltb`, `PrimFloat.mul`, `PrimFloat.normfr_mantissa`, `PrimFloat.of_uint63`, `PrimFloat.opp`, `PrimFloat.sub`, `PrimInt63.eqb`, `PrimInt63.int`, `PrimInt63.land`, `PrimInt63.lor`, `PrimInt63.lsl`, `PrimInt63.lsr`, `PrimInt63.sub`

* Float_Root_Props: C87_findRoot_success_tolerance

## Set 20: 37 names

`ClassicalDedekindReals.sig_forall_dec`, `ClassicalDedekindReals.sig_not_dec`, `Classical_Prop.classic`, `FloatAxioms.Prim2SF_SF2Prim`, `FloatAxioms.Prim2SF_valid`, `FloatAxioms.SF2Prim_Prim2SF`, `FloatAxioms.abs_spec`, `FloatAxioms.add_spec`, `FloatAxioms.div_spec`, `FloatAxioms.eqb_spec`, `FloatAxioms.leb_spec`, `FloatAxioms.ltb_spec`, `FloatAxioms.mul_spec`, `FloatAxioms.opp_spec`, `FloatAxioms.sub_spec`, `FunctionalExtensionality.functional_extensionality_dep`, `PrimFloat.abs`, `PrimFloat.add`, `PrimFloat.div`, `PrimFloat.eqb`, `PrimFloat.float`, `PrimFloat.frshiftexp`, `PrimFloat.ldshiftexp`, `PrimFloat.leb`, `PrimFloat.ltb`, `PrimFloat.mul`, `PrimFloat.normfr_mantissa`, `PrimFloat.of_uint63`, `PrimFloat.opp`, `PrimFloat.sub`, `PrimInt63.eqb`, `PrimInt63.int`, `PrimInt63.land`, `PrimInt63.lor`, `PrimInt63.lsl`, `PrimInt63.lsr`, `PrimInt63.sub`

* Float_Sum_Props: C86_normalized_fractions
