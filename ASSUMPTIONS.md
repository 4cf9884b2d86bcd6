# Assumptions of the theorems

Output of `Print Assumptions` (at the end of each `rocq/theories/P_*.v`), collected by `tools/assumptions.py`.
All axioms are axioms of Coq's standard library.

## No axioms (closed under the global context)

C22_keys_refuted, C22_keys, C22_values, C22_missing, C51_reads, C51_converts, C51_scientific, C51_float, C52_final_newline_refuted, C52_last_exponent, C52_first_columns, C53_reads, C53_symbols, C54_values_refuted, C54_default, C54_zero, C54_supplied, C55_general, C55_without_mass, C55_constructs, C55_keys, C56_lookup_refuted, C56_first_match, C56_no_match, C56_two_letters, C56_two_letters_absent, C56_supplied, C56_supplied_wrong, C70_shared, C73_order_exists, C85_isotope, C92_blank_mass_number, C92_no_mass_number, C92_blank_symbol, C92_leftover, C92_leftover_refuted, C96_shapes

## `ClassicalDedekindReals.sig_forall_dec`

C01_add_returns, C01_arrays_elementwise, C02_mul_returns, C04_add_modifies_nothing, C04_mul_modifies_nothing, C04_add_snapshot, C04_mul_snapshot, C05_missing_weights, C05_constructor_returns, C05_default_arguments_refuted, C24_surplus_abundance, C27_relative_energy, C69_frozen, C70_frozen, C70_isotope_mass, C71_new, C71_kept, C71_append, C71_default, C71_empty_refuted, C85_ground_state, C87_call, C87_exception

## `ClassicalDedekindReals.sig_forall_dec`, `ClassicalDedekindReals.sig_not_dec`, `Classical_Prop.classic`, `FunctionalExtensionality.functional_extensionality_dep`

C20_bounds, C20_exact, C21_monotone, C21_limits, C25_subclasses, C27_symmetric_pseudo_voigt, C27_symmetric, C28_pseudo_voigt_partial, C28_pseudo_voigt_refuted, C28_narrow_lines, C28_box, C28_breit_wigner, C28_gauss, C29_breit_wigner_warnings, C29_gauss_warnings, C29_box_warnings, C29_clamp_refuted, C29_never_clamped, C30_quoted_refuted, C30_always_too_small, C31_pseudo_voigt_partial, C31_pseudo_voigt_refuted, C31_narrow_lines, C31_exact_quantiles_limits, C31_exact_quantiles_coverage, C31_breit_wigner, C31_gauss, C32_box_limits, C32_box_coverage, C32_outside, C32_outside_refuted, C33_no_points, C33_negative_points, C33_single_point_refuted, C34_breit_wigner_formula, C34_breit_wigner_shape, C35_gauss_shape, C36_mixing_and_normalisation, C36_no_broadening, C37_gauss_limit, C37_lorentz_limit_refuted, C37_lorentz_limit_value, C38_unique_quantile, C38_accuracy_partial, C38_accuracy_number_partial, C38_small_error_refuted, C38_narrow_lines, C39_returns_none_refuted, C39_none_for_all_cold_lines, C39_single_point, C39_outcomes_partial, C39_central_quantiles, C39_small_coverage, C39_dense_quantiles, C39_dense_number, C39_density_of_quantile, C39_coverage, C40_coverage_refuted, C40_cold_lines, C41_breit_wigner, C41_gauss, C42_energy_from_angle, C42_angle_from_energy, C42_defined, C43_only_backwards, C44_angle, C45_energy, C46_solid_angle, C47_average_refuted, C47_integral, C47_never_the_average, C48_other_mass_refuted, C48_integral_only_for_electron, C48_total_scales, C49_between_zero_and_thomson, C49_proportional, C49_zero_energy, C50_constructs, C50_tabulated, C50_power_law, C50_below, C50_above, C50_positive, C50_bounds, C50_negative_energy, C50_single_line, C50_unsorted, C57_data, C57_calls, C57_later_refuted, C57_later, C58_module, C58_positive, C59_positive_refuted, C59_massless, C59_positive, C60_doppler_average, C60_at_rest, C60_no_width, C61_shape, C61_peak, C62_near_breit_wigner, C62_near_gauss, C64_convergence, C64_energy_grid, C64_coarse_grid, C65_spectrum, C66_each_line, C66_sum_refuted, C66_distant_lines, C67_energy_grid, C67_energy_grid_limit, C67_probability_grid_limit, C67_two_points, C68_gauss, C68_voigt, C72_add, C72_multiply, C72_negate, C72_error, C72_nonnegative, C72_sum_of_sums_refuted, C72_order_refuted, C72_multiply_sum_refuted, C73_sums_in_order, C73_monotone, C73_nonnegative, C73_constant, C73_error, C73_encloses, C73_exact_enclosure_refuted, C74_grid, C74_strict, C74_distinct_refuted, C74_underflow_refuted, C75_width_error, C75_width_bounds, C75_branching_range, C75_branching_defined, C75_single_channel, C75_branching_sum, C75_element_mass, C75_order_refuted, C75_sum_is_one_refuted, C76_error, C76_positive, C76_negative, C76_positive_refuted, C76_low_energy_refuted, C77_continuous, C77_edge, C77_variation, C77_integral, C77_descending, C77_units, C77_insert, C78_accuracy_number, C78_accuracy_array, C78_found, C78_found_array, C78_cold_fallback, C78_found_as_exact_refuted, C79_resonance_energy, C79_breit_wigner, C79_falls, C79_relative_refuted, C80_doppler_width, C80_effective_temperature, C80_recoil, C80_gauss, C80_falls, C80_tails_refuted, C81_ratio, C81_edge, C81_unpolarized, C81_polarized, C81_dtheta, C81_theta, C81_dEp, C81_dEp_dphi, C81_edge_refuted, C82_grid, C82_coverage_grid, C82_coverage, C82_breit_wigner, C82_gauss, C82_coverage_refuted, C82_far, C82_far_refuted, C82_sum_refuted, C83_accuracy, C83_tabulated, C83_edge_refuted, C84_parameters, C84_weights_refuted, C84_pdf, C84_pdf_tails, C84_pdf_bound, C84_cdf, C84_ppf, C84_ppf_array, C84_ppf_found, C84_ppf_found_array, C84_fallback, C84_outermost, C84_call, C85_into_ground_classes, C85_parity, C86_breit_wigner, C86_gauss, C86_pseudo_voigt, C86_coverage, C86_negative_coverage, C86_outermost, C88_call, C88_darboux, C88_darboux_finite, C88_darboux_refuted, C88_darboux_lower, C88_linspace, C88_linspace_refuted, C88_pi, C89_breit_wigner, C89_gauss, C89_pseudo_voigt, C89_recoil, C89_breit_wigner_finite, C89_breit_wigner_nan, C89_gauss_finite, C89_pseudo_voigt_finite, C90_value, C90_integral, C90_nonresonant_grid, C90_grid, C90_coverage, C90_coverage_refuted, C91_singular, C91_total, C91_energy, C93_flux, C93_flux_unique, C93_balance, C93_energy_range, C93_rates, C93_thin_target, C94_value, C94_range, C94_absorber, C94_scatterer, C94_bounds, C94_scaling, C95_finite, C95_range, C95_kinds, C95_limits, C95_high_refuted, C95_low_refuted, C95_angles, C95_energies, C95_differential_kinds, C95_scale_factor, C95_light_refuted, C95_heavy_refuted, C96_total, C96_angles, C96_theta, C96_energies, C96_total_python, C96_energies_python, C96_floats, C96_lists_refuted, C96_theta_lists_refuted, C96_energies_lists_refuted, C97_arrays, C97_no_exceptions, C97_floats, C97_lists, C97_refused_lists, C97_constants_refuted, C97_lists_refuted, C97_breit_wigner, C97_gauss, C97_pseudo_voigt, C97_doppler_width, C97_effective_temperature, C97_effective_temperature_float, C97_effective_temperature_list, C97_debye, C97_debye_float, C97_debye_zero, C98_order, C98_order_refuted, C98_reading, C98_mass, C98_module, C98_calls, C98_supplied, C99_accuracy, C99_integrand, C99_zero, C99_hot_refuted, C100_integral, C100_uncertainty, C100_true_error, C100_underflow_refuted, C101_call, C101_profile, C102_agrees, C102_never_nan, C102_zero, C102_negative, C102_energies, C102_origin, C103_grid, C103_interval, C103_warnings, C103_whole_line, C103_whole_interval, C103_whole_energies, C103_no_integral, C103_nan_limits, C103_nan_coverage, C103_above_1, C103_far_coverage, C103_above_1_refuted, C103_counts, C104_single_maximum, C104_breit_wigner, C104_gauss, C105_integral, C105_uncertainty, C105_finite, C105_short, C105_exceptions, C105_array, C105_overflow_refuted, C106_exceptions, C106_nan, C106_infinite, C106_finite, C106_integrand, C106_range, C106_hot_refuted, C106_rigid_refuted, C107_objects, C107_interval, C107_interval_found, C107_coverage, C107_coverage_found, C107_limits, C107_limits_found, C107_ascending, C107_integral, C108_interval, C108_grid, C108_interval_same, C108_grid_same, C108_quantiles_same, C108_interval_found, C108_grid_found, C108_limits_found, C108_nan, C108_broken_interval, C108_broken_coverage, C108_broken_limits, C108_temperature, C108_broken_single, C108_single_nan, C108_single, C108_fallback, C108_full_coverage, C108_above, C108_size_zero, C108_size_negative, C109_call, C109_accurate, C109_infinite, C109_nan, C109_parameters, C109_exceptions, C109_exists, C110_integral, C110_finite, C111_layer, C111_range, C111_absorption, C111_voigt, C112_range, C112_number, C112_absorption, C112_opaque, C112_infinite_line, C112_nan, C112_flux, C112_flux_special, C112_agree, C112_voigt, C113_boundaries, C113_falls, C113_shadow, C113_accurate

## `ClassicalDedekindReals.sig_forall_dec`, `ClassicalDedekindReals.sig_not_dec`, `FunctionalExtensionality.functional_extensionality_dep`

C09_darboux_encloses_integral, C12_descending_bounds_from_above, C15_partition_independent, C16_error_is_root_sum_square, C16_error_bound, C16_error_bound_refuted, C17_omitted_or_list, C17_array_refuted, C18_free_recoil_conserves, C19_temperature_of_width, C19_width_of_temperature, C19_scaling, C19_degenerate, C20_zero_raises, C20_arrays, C21_homogeneous, C25_raises_iff_incomplete, C25_exceptions, C25_attributes, C25_recoil_errors, C26_sum_over_final_states, C26_formula, C26_nonneg, C43_edge_value, C43_smallest, C43_decreasing, C46_nonnegative, C46_formula, C46_limits, C48_edge_only_for_electron, C64_lipschitz, C65_expression_axis, C85_excitation, C85_into_ground, C91_ratio, C91_solid_angle, C94_areal_density, C94_areal_density_mean, C94_areal_density_wrong, C94_areal_density_refuted

## `ClassicalDedekindReals.sig_forall_dec`, `FunctionalExtensionality.functional_extensionality_dep`

C01_add_pointwise, C02_mul_pointwise, C02_rmul_pointwise, C03_expression_is_linear_combination, C03_expression_pointwise, C03_builtin_sum, C03_reorder, C04_add_value, C04_mul_value, C04_snapshot_refuted, C05_default_weights, C05_weights, C06_grid_is_union, C06_grid_returns, C06_grid_raises, C06_grid_invariant, C07_energy_grid, C07_small_n, C07_constant_and_nonresonant, C08_foreign_number, C10_darboux_true_sums, C11_error_nonnegative, C11_constant_exact, C11_error_bound, C11_additive, C12_descending, C13_shape_error_exactly, C13_shape_refuted, C14_darboux_cross_section, C14_constant_refuted, C18_free_recoil_monotone, C18_no_recoil_and_zero_mass, C23_width_is_sum, C23_width_order, C23_width_bounds, C23_branching_ratios, C24_mass_is_weighted_sum, C24_missing_abundance, C24_mass_between, C28_total, C55_lookup, C55_mass_refuted, C55_mass, C58_tables, C63_refinement, C63_needs_monotone, C65_expression, C69_created, C69_consistent, C69_never_changed, C69_shared, C69_stale, C69_width_refuted, C69_branching, C70_consistent, C70_never_changed, C70_mass_refuted, C73_bound_size, C87_grid, C91_massless
