{
 "claims": [
  {
   "property": "C01",
   "status": "proved",
   "theorems": [
    "C01_add_pointwise",
    "C01_add_returns",
    "C01_arrays_elementwise"
   ],
   "note": ""
  },
  {
   "property": "C02",
   "status": "proved",
   "theorems": [
    "C02_mul_pointwise",
    "C02_rmul_pointwise",
    "C02_mul_returns"
   ],
   "note": ""
  },
  {
   "property": "C03",
   "status": "proved",
   "theorems": [
    "C03_expression_is_linear_combination",
    "C03_expression_pointwise",
    "C03_builtin_sum",
    "C03_reorder"
   ],
   "note": ""
  },
  {
   "property": "C04",
   "status": "partial",
   "theorems": [
    "C04_add_modifies_nothing",
    "C04_mul_modifies_nothing",
    "C04_add_value",
    "C04_mul_value",
    "C04_add_snapshot",
    "C04_mul_snapshot",
    "C04_snapshot_refuted"
   ],
   "note": "REFUTED as stated: cross section + weighted sum keeps a reference to the weighted sum (C04_snapshot_refuted). '+' and '*' never modify anything (proved for all histories); snapshots are proved for every other operand combination (guard 'copying') whose sums have plain members."
  },
  {
   "property": "C05",
   "status": "partial",
   "theorems": [
    "C05_default_weights",
    "C05_weights",
    "C05_missing_weights",
    "C05_constructor_returns",
    "C05_default_arguments_refuted"
   ],
   "note": "REFUTED in one point: CrossSectionWeightedSum() raises TypeError (C05_default_arguments_refuted). Everything else is proved."
  },
  {
   "property": "C06",
   "status": "proved",
   "theorems": [
    "C06_grid_is_union",
    "C06_grid_returns",
    "C06_grid_raises",
    "C06_grid_invariant"
   ],
   "note": ""
  },
  {
   "property": "C07",
   "status": "proved",
   "theorems": [
    "C07_energy_grid",
    "C07_small_n",
    "C07_constant_and_nonresonant"
   ],
   "note": ""
  },
  {
   "property": "C08",
   "status": "proved",
   "theorems": [
    "C08_foreign_number"
   ],
   "note": ""
  },
  {
   "property": "C09",
   "status": "proved",
   "theorems": [
    "C09_darboux_encloses_integral"
   ],
   "note": ""
  },
  {
   "property": "C10",
   "status": "proved",
   "theorems": [
    "C10_darboux_true_sums"
   ],
   "note": ""
  },
  {
   "property": "C11",
   "status": "proved",
   "theorems": [
    "C11_error_nonnegative",
    "C11_constant_exact",
    "C11_error_bound",
    "C11_additive"
   ],
   "note": ""
  },
  {
   "property": "C12",
   "status": "proved",
   "theorems": [
    "C12_descending",
    "C12_descending_bounds_from_above"
   ],
   "note": ""
  },
  {
   "property": "C13",
   "status": "partial",
   "theorems": [
    "C13_shape_error_exactly",
    "C13_shape_refuted"
   ],
   "note": "REFUTED as stated: mismatched lengths are accepted when one side has length 2 (C13_shape_refuted); C13_shape_error_exactly gives the exact condition."
  },
  {
   "property": "C14",
   "status": "partial",
   "theorems": [
    "C14_darboux_cross_section",
    "C14_constant_refuted"
   ],
   "note": "REFUTED as stated: a ConstantCrossSection (or a sum of such) returns a number for an array and darboux raises (C14_constant_refuted); proved for every cross section that returns arrays."
  },
  {
   "property": "C15",
   "status": "proved",
   "theorems": [
    "C15_partition_independent"
   ],
   "note": ""
  },
  {
   "property": "C16",
   "status": "partial",
   "theorems": [
    "C16_error_is_root_sum_square",
    "C16_error_bound",
    "C16_error_bound_refuted"
   ],
   "note": "REFUTED in one point: the root sum of squares does not bound the true error (C16_error_bound_refuted); the bounds that do hold are proved."
  },
  {
   "property": "C17",
   "status": "partial",
   "theorems": [
    "C17_omitted_or_list",
    "C17_array_refuted"
   ],
   "note": "REFUTED in one point: a numpy array raises ValueError (C17_array_refuted); omitted and list arguments are proved."
  },
  {
   "property": "C18",
   "status": "proved",
   "theorems": [
    "C18_free_recoil_conserves",
    "C18_free_recoil_monotone",
    "C18_no_recoil_and_zero_mass"
   ],
   "note": ""
  },
  {
   "property": "C19",
   "status": "proved",
   "theorems": [
    "C19_temperature_of_width",
    "C19_width_of_temperature",
    "C19_scaling",
    "C19_degenerate"
   ],
   "note": ""
  },
  {
   "property": "C20",
   "status": "proved",
   "theorems": [
    "C20_bounds",
    "C20_exact",
    "C20_zero_raises",
    "C20_arrays"
   ],
   "note": ""
  },
  {
   "property": "C21",
   "status": "proved",
   "theorems": [
    "C21_monotone",
    "C21_homogeneous",
    "C21_limits"
   ],
   "note": ""
  },
  {
   "property": "C22",
   "status": "partial",
   "theorems": [
    "C22_keys_refuted",
    "C22_keys",
    "C22_values",
    "C22_missing"
   ],
   "note": "REFUTED: the keys for manganese and vanadium are 'Ma' and 'Va' (C22_keys_refuted, C22_keys, C22_missing); all other keys are symbols and all values positive."
  },
  {
   "property": "C23",
   "status": "proved",
   "theorems": [
    "C23_width_is_sum",
    "C23_width_order",
    "C23_width_bounds",
    "C23_branching_ratios"
   ],
   "note": ""
  },
  {
   "property": "C24",
   "status": "proved",
   "theorems": [
    "C24_mass_is_weighted_sum",
    "C24_missing_abundance",
    "C24_surplus_abundance",
    "C24_mass_between"
   ],
   "note": ""
  },
  {
   "property": "C25",
   "status": "proved",
   "theorems": [
    "C25_raises_iff_incomplete",
    "C25_exceptions",
    "C25_attributes",
    "C25_recoil_errors",
    "C25_subclasses"
   ],
   "note": ""
  },
  {
   "property": "C26",
   "status": "proved",
   "theorems": [
    "C26_sum_over_final_states",
    "C26_formula",
    "C26_nonneg"
   ],
   "note": ""
  },
  {
   "property": "C27",
   "status": "proved",
   "theorems": [
    "C27_symmetric_pseudo_voigt",
    "C27_relative_energy",
    "C27_symmetric"
   ],
   "note": ""
  },
  {
   "property": "C28",
   "status": "partial",
   "theorems": [
    "C28_pseudo_voigt_partial",
    "C28_pseudo_voigt_refuted",
    "C28_narrow_lines",
    "C28_box",
    "C28_breit_wigner",
    "C28_gauss",
    "C28_total"
   ],
   "note": "Proved exactly for Breit-Wigner and Gauss. REFUTED for the pseudo-Voigt profile: a cold line of 1 meV covers less than 2/3 if asked for 90 % (C28_pseudo_voigt_refuted, C28_narrow_lines), because Newton's method stops at an absolute step of 1.48e-8. C28_pseudo_voigt_partial bounds the error by 2e-8/Gamma per limit."
  },
  {
   "property": "C29",
   "status": "partial",
   "theorems": [
    "C29_breit_wigner_warnings",
    "C29_gauss_warnings",
    "C29_box_warnings",
    "C29_clamp_refuted",
    "C29_never_clamped"
   ],
   "note": "REFUTED in one point: a negative lower limit is returned as it is (C29_clamp_refuted, C29_never_clamped). The conditions for both warnings are proved exactly for the box, Breit-Wigner and Gauss models."
  },
  {
   "property": "C30",
   "status": "partial",
   "theorems": [
    "C30_quoted_refuted",
    "C30_always_too_small"
   ],
   "note": "REFUTED: the warning uses the CDF of the standard distribution instead of the one of the resonance (C30_quoted_refuted), the quoted number is always too small for Breit-Wigner (C30_always_too_small)."
  },
  {
   "property": "C31",
   "status": "partial",
   "theorems": [
    "C31_pseudo_voigt_partial",
    "C31_pseudo_voigt_refuted",
    "C31_narrow_lines",
    "C31_exact_quantiles_limits",
    "C31_exact_quantiles_coverage",
    "C31_breit_wigner",
    "C31_gauss"
   ],
   "note": "Proved exactly for Breit-Wigner, Gauss and box. REFUTED for the pseudo-Voigt profile: for limits above a cold line of at most 10 meV all inner points lie below the lower limit, i.e. the grid is not even ascending (C31_pseudo_voigt_refuted, C31_narrow_lines). C31_pseudo_voigt_partial: ascending, with equal probabilities up to the Newton tolerance, if the limits enclose the resonance or the cells exceed the tolerance."
  },
  {
   "property": "C32",
   "status": "partial",
   "theorems": [
    "C32_box_limits",
    "C32_box_coverage",
    "C32_outside",
    "C32_outside_refuted"
   ],
   "note": "REFUTED for limits outside of the box (C32_outside: all interior points are the nearer edge of the box; C32_outside_refuted: not ascending and not inside the limits); proved for all limits that overlap with the box and for coverages."
  },
  {
   "property": "C33",
   "status": "partial",
   "theorems": [
    "C33_no_points",
    "C33_negative_points",
    "C33_single_point_refuted"
   ],
   "note": "REFUTED in one point: with one point the upper limit is returned (C33_single_point_refuted); the other counts are proved."
  },
  {
   "property": "C34",
   "status": "proved",
   "theorems": [
    "C34_breit_wigner_formula",
    "C34_breit_wigner_shape"
   ],
   "note": ""
  },
  {
   "property": "C35",
   "status": "proved",
   "theorems": [
    "C35_gauss_shape"
   ],
   "note": ""
  },
  {
   "property": "C36",
   "status": "proved",
   "theorems": [
    "C36_mixing_and_normalisation",
    "C36_no_broadening"
   ],
   "note": ""
  },
  {
   "property": "C37",
   "status": "partial",
   "theorems": [
    "C37_gauss_limit",
    "C37_lorentz_limit_refuted",
    "C37_lorentz_limit_value"
   ],
   "note": "REFUTED for the Lorentz limit: without Doppler broadening the profile has half of the natural width (C37_lorentz_limit_refuted, exact value in C37_lorentz_limit_value). The Gauss limit is proved."
  },
  {
   "property": "C38",
   "status": "partial",
   "theorems": [
    "C38_unique_quantile",
    "C38_accuracy_partial",
    "C38_accuracy_number_partial",
    "C38_small_error_refuted",
    "C38_narrow_lines"
   ],
   "note": "REFUTED for narrow lines: the returned quantile may be arbitrarily wrong for lines much narrower than the absolute tolerance (C38_small_error_refuted, C38_narrow_lines). Existence and uniqueness of the quantile and the error bound 2e-8/Gamma after a successful inversion are proved."
  },
  {
   "property": "C39",
   "status": "partial",
   "theorems": [
    "C39_returns_none_refuted",
    "C39_none_for_all_cold_lines",
    "C39_single_point",
    "C39_outcomes_partial",
    "C39_central_quantiles",
    "C39_small_coverage",
    "C39_dense_quantiles",
    "C39_dense_number",
    "C39_density_of_quantile",
    "C39_coverage"
   ],
   "note": "REFUTED: the inversion can fall through and return None, one point raises TypeError (C39_returns_none_refuted, C39_single_point). The possible outcomes are listed in C39_outcomes_partial; found are all quantiles with Gamma*density^2 >= 2^-72 and all coverages with Gamma <= 2^70 (1-c)^4 (C39_dense_quantiles, C39_coverage); missing: convergence further out in the tails (false there for a cold line, C39_none_for_all_cold_lines)."
  },
  {
   "property": "C40",
   "status": "partial",
   "theorems": [
    "C40_coverage_refuted",
    "C40_cold_lines"
   ],
   "note": "REFUTED: for cold lines the result contains infinite or wrong limits (C40_coverage_refuted, C40_cold_lines)."
  },
  {
   "property": "C41",
   "status": "proved",
   "theorems": [
    "C41_breit_wigner",
    "C41_gauss"
   ],
   "note": ""
  },
  {
   "property": "C42",
   "status": "proved",
   "theorems": [
    "C42_energy_from_angle",
    "C42_angle_from_energy",
    "C42_defined"
   ],
   "note": ""
  },
  {
   "property": "C43",
   "status": "proved",
   "theorems": [
    "C43_edge_value",
    "C43_smallest",
    "C43_only_backwards",
    "C43_decreasing"
   ],
   "note": ""
  },
  {
   "property": "C44",
   "status": "proved",
   "theorems": [
    "C44_angle"
   ],
   "note": ""
  },
  {
   "property": "C45",
   "status": "proved",
   "theorems": [
    "C45_energy"
   ],
   "note": ""
  },
  {
   "property": "C46",
   "status": "proved",
   "theorems": [
    "C46_solid_angle",
    "C46_nonnegative",
    "C46_formula",
    "C46_limits"
   ],
   "note": ""
  },
  {
   "property": "C47",
   "status": "partial",
   "theorems": [
    "C47_average_refuted",
    "C47_integral",
    "C47_never_the_average"
   ],
   "note": "REFUTED: the returned value is the integral over the azimuth, i.e. 2 pi times the average (C47_average_refuted, C47_integral, C47_never_the_average); the factor should be 1/2 instead of pi."
  },
  {
   "property": "C48",
   "status": "partial",
   "theorems": [
    "C48_other_mass_refuted",
    "C48_edge_only_for_electron",
    "C48_integral_only_for_electron",
    "C48_total_scales"
   ],
   "note": "REFUTED: theta and Ep_over_E always use the electron mass (C48_other_mass_refuted); compton_edge and the integrals agree with the documented formula exactly for the electron mass. cs_total itself scales correctly with the mass."
  },
  {
   "property": "C49",
   "status": "proved",
   "theorems": [
    "C49_between_zero_and_thomson",
    "C49_proportional",
    "C49_zero_energy"
   ],
   "note": ""
  },
  {
   "property": "C50",
   "status": "proved",
   "theorems": [
    "C50_constructs",
    "C50_tabulated",
    "C50_power_law",
    "C50_below",
    "C50_above",
    "C50_positive",
    "C50_bounds",
    "C50_negative_energy",
    "C50_single_line",
    "C50_unsorted"
   ],
   "note": ""
  },
  {
   "property": "C51",
   "status": "proved",
   "theorems": [
    "C51_reads",
    "C51_converts",
    "C51_scientific",
    "C51_float"
   ],
   "note": ""
  },
  {
   "property": "C52",
   "status": "partial",
   "theorems": [
    "C52_final_newline_refuted",
    "C52_last_exponent",
    "C52_first_columns"
   ],
   "note": "REFUTED: without the final newline the last character of the last coefficient in the third column is lost (C52_final_newline_refuted uses the supplied file 82.txt); C52_last_exponent says what is read instead, C52_first_columns that the first two columns are unaffected."
  },
  {
   "property": "C53",
   "status": "proved",
   "theorems": [
    "C53_reads",
    "C53_symbols"
   ],
   "note": ""
  },
  {
   "property": "C54",
   "status": "partial",
   "theorems": [
    "C54_values_refuted",
    "C54_default",
    "C54_zero",
    "C54_supplied"
   ],
   "note": "REFUTED: a value without uncertainty is read as the default, so mono-isotopic abundances become 0 (C54_values_refuted, C54_zero, C54_supplied)."
  },
  {
   "property": "C55",
   "status": "partial",
   "theorems": [
    "C55_general",
    "C55_without_mass",
    "C55_constructs",
    "C55_keys",
    "C55_lookup",
    "C55_mass_refuted",
    "C55_mass"
   ],
   "note": "REFUTED in the last part: 22 elements with natural isotopes get the mass 0 because of C54 (C55_mass_refuted, C55_mass lists them together with the elements without natural isotopes); all other parts are proved."
  },
  {
   "property": "C56",
   "status": "partial",
   "theorems": [
    "C56_lookup_refuted",
    "C56_first_match",
    "C56_no_match",
    "C56_two_letters",
    "C56_two_letters_absent",
    "C56_supplied",
    "C56_supplied_wrong"
   ],
   "note": "REFUTED: the substring test finds the density of Be, Si, In for B, S, I (C56_lookup_refuted, C56_supplied, C56_supplied_wrong). Symbols with two letters are always found correctly (C56_two_letters)."
  },
  {
   "property": "C57",
   "status": "partial",
   "theorems": [
    "C57_data",
    "C57_calls",
    "C57_later_refuted",
    "C57_later"
   ],
   "note": "REFUTED in the second part: the lambda refers to the module-level variable Z, so it uses the mass of uranium once the module has been executed (C57_later_refuted, C57_later). The data themselves are converted with the right mass (C57_data, C57_calls)."
  },
  {
   "property": "C58",
   "status": "proved",
   "theorems": [
    "C58_tables",
    "C58_module",
    "C58_positive"
   ],
   "note": ""
  },
  {
   "property": "C59",
   "status": "partial",
   "theorems": [
    "C59_positive_refuted",
    "C59_massless",
    "C59_positive"
   ],
   "note": "REFUTED: for elements whose mass is 0 (C55) all coefficients per atom are zero, e.g. aluminium (C59_positive_refuted, C59_massless); C59_positive covers all other elements."
  },
  {
   "property": "C60",
   "status": "proved",
   "theorems": [
    "C60_doppler_average",
    "C60_at_rest",
    "C60_no_width"
   ],
   "note": ""
  },
  {
   "property": "C61",
   "status": "proved",
   "theorems": [
    "C61_shape",
    "C61_peak"
   ],
   "note": ""
  },
  {
   "property": "C62",
   "status": "proved",
   "theorems": [
    "C62_near_breit_wigner",
    "C62_near_gauss"
   ],
   "note": ""
  },
  {
   "property": "C63",
   "status": "proved",
   "theorems": [
    "C63_refinement",
    "C63_needs_monotone"
   ],
   "note": ""
  },
  {
   "property": "C64",
   "status": "proved",
   "theorems": [
    "C64_convergence",
    "C64_energy_grid",
    "C64_lipschitz",
    "C64_coarse_grid"
   ],
   "note": ""
  },
  {
   "property": "C65",
   "status": "proved",
   "theorems": [
    "C65_expression",
    "C65_expression_axis",
    "C65_spectrum"
   ],
   "note": ""
  },
  {
   "property": "C66",
   "status": "partial",
   "theorems": [
    "C66_each_line",
    "C66_sum_refuted",
    "C66_distant_lines"
   ],
   "note": "REFUTED for the sum as a whole: between two lines the sum is not monotone, so the lower sum can exceed the integral (C66_sum_refuted, C66_distant_lines). C66_each_line: adding the Darboux sums of the individual lines on the common grid does enclose the integral, and the grid covers the requested fraction."
  },
  {
   "property": "C67",
   "status": "proved",
   "theorems": [
    "C67_energy_grid",
    "C67_energy_grid_limit",
    "C67_probability_grid_limit",
    "C67_two_points"
   ],
   "note": ""
  },
  {
   "property": "C68",
   "status": "proved",
   "theorems": [
    "C68_gauss",
    "C68_voigt"
   ],
   "note": ""
  },
  {
   "property": "C69",
   "status": "partial",
   "theorems": [
    "C69_created",
    "C69_consistent",
    "C69_never_changed",
    "C69_frozen",
    "C69_shared",
    "C69_stale",
    "C69_width_refuted",
    "C69_branching"
   ],
   "note": "REFUTED in the last sentence: after d[k] = v the width is the old one (C69_width_refuted, C69_stale), and the branching ratios add up to (sum of partial widths)/width, which can exceed 1 (C69_branching, C69_ex). All other parts are proved."
  },
  {
   "property": "C70",
   "status": "partial",
   "theorems": [
    "C70_consistent",
    "C70_never_changed",
    "C70_frozen",
    "C70_shared",
    "C70_isotope_mass",
    "C70_mass_refuted"
   ],
   "note": "REFUTED in the last sentence: the mass is not updated when the mass of an isotope or an abundance changes (C70_mass_refuted). All other parts are proved."
  },
  {
   "property": "C71",
   "status": "partial",
   "theorems": [
    "C71_new",
    "C71_kept",
    "C71_append",
    "C71_default",
    "C71_empty_refuted"
   ],
   "note": "REFUTED for an empty list: 'excited_states or []' replaces a passed empty list by a new one, so that states appended to the passed list are not seen (C71_empty_refuted, C71_new). All other parts are proved."
  },
  {
   "property": "C72",
   "status": "partial",
   "theorems": [
    "C72_add",
    "C72_multiply",
    "C72_negate",
    "C72_error",
    "C72_nonnegative",
    "C72_sum_of_sums_refuted",
    "C72_order_refuted",
    "C72_multiply_sum_refuted"
   ],
   "note": "REFUTED for the sum of two sums, the product of a number and a sum, and the order: these are flattened into one list of terms, which are added from left to right, so that (a+b)(E) is not the rounded a(E)+b(E) (C72_sum_of_sums_refuted), (3*a)(E) is not the rounded 3*a(E) (C72_multiply_sum_refuted), and sum([a, b, c]) depends on the order (C72_order_refuted). The other parts are proved; the error bound holds for sums of plain cross sections."
  },
  {
   "property": "C73",
   "status": "partial",
   "theorems": [
    "C73_sums_in_order",
    "C73_monotone",
    "C73_nonnegative",
    "C73_constant",
    "C73_error",
    "C73_encloses",
    "C73_bound_size",
    "C73_order_exists",
    "C73_exact_enclosure_refuted"
   ],
   "note": "REFUTED in the last sentence: the rounded sums of a constant can both be smaller than the integral, with uncertainty 0 (C73_exact_enclosure_refuted). All other parts are proved."
  },
  {
   "property": "C74",
   "status": "partial",
   "theorems": [
    "C74_grid",
    "C74_strict",
    "C74_distinct_refuted",
    "C74_underflow_refuted"
   ],
   "note": "REFUTED in the last sentence: points repeat if there are not enough floats between a and b (C74_distinct_refuted), and with a subnormal distance the second to last point can exceed b (C74_underflow_refuted). All other parts are proved."
  },
  {
   "property": "C75",
   "status": "partial",
   "theorems": [
    "C75_width_error",
    "C75_width_bounds",
    "C75_branching_range",
    "C75_branching_defined",
    "C75_single_channel",
    "C75_branching_sum",
    "C75_element_mass",
    "C75_order_refuted",
    "C75_sum_is_one_refuted"
   ],
   "note": "REFUTED in the last sentence (C75_order_refuted, C75_sum_is_one_refuted). All other parts are proved."
  },
  {
   "property": "C76",
   "status": "partial",
   "theorems": [
    "C76_error",
    "C76_positive",
    "C76_negative",
    "C76_positive_refuted",
    "C76_low_energy_refuted"
   ],
   "note": "REFUTED in the last sentence by cancellation at low energies: for electrons and E = 8e-7 MeV = 0.8 eV, cs_total is below -3 times the Thomson cross section (C76_positive_refuted, C76_negative has the general condition), and below 2^-55 mc^2 it exceeds 3/8 (mc^2/E)^2 times the Thomson cross section (C76_low_energy_refuted). The error bound and the sign between 2^-13 mc^2 (62 eV for electrons) and mc^2/16 are proved (C76_error, C76_positive)."
  },
  {
   "property": "C77",
   "status": "proved",
   "theorems": [
    "C77_continuous",
    "C77_edge",
    "C77_variation",
    "C77_integral",
    "C77_descending",
    "C77_units",
    "C77_insert"
   ],
   "note": "The limits at an edge are C77_edge, the error of darboux C77_integral."
  },
  {
   "property": "C78",
   "status": "partial",
   "theorems": [
    "C78_accuracy_number",
    "C78_accuracy_array",
    "C78_found",
    "C78_found_array",
    "C78_cold_fallback",
    "C78_found_as_exact_refuted"
   ],
   "note": "REFUTED in the last sentence (C78_found_as_exact_refuted): q = 1e-6, a line at rest. All other parts are proved. Convergence in floats is proved for numbers (C78_found) and, with slightly stronger bounds, for arrays (C78_found_array). C78_cold_fallback uses that the computed CDF is a rounded sum of 1/2 and a number, as in scipy's cauchy.cdf; it explains why tests/test_voigt_ppf.py sees the fallback, which the exact model does not need (C39)."
  },
  {
   "property": "C79",
   "status": "partial",
   "theorems": [
    "C79_resonance_energy",
    "C79_breit_wigner",
    "C79_falls",
    "C79_relative_refuted"
   ],
   "note": "REFUTED in the last sentence (C79_relative_refuted): the sum of offset and resonance energy is rounded first, an offset of 64 half widths of a narrow line gives the maximum. All other parts are proved."
  },
  {
   "property": "C80",
   "status": "partial",
   "theorems": [
    "C80_doppler_width",
    "C80_effective_temperature",
    "C80_recoil",
    "C80_gauss",
    "C80_falls",
    "C80_tails_refuted"
   ],
   "note": "REFUTED in the last sentence (C80_tails_refuted): 0 by underflow of exp at 1000 standard deviations. All other parts are proved. The bound for get_effective_temperature is for the composition with get_doppler_width."
  },
  {
   "property": "C81",
   "status": "partial",
   "theorems": [
    "C81_ratio",
    "C81_edge",
    "C81_unpolarized",
    "C81_polarized",
    "C81_dtheta",
    "C81_theta",
    "C81_dEp",
    "C81_dEp_dphi",
    "C81_edge_refuted"
   ],
   "note": "REFUTED in the last sentence (C81_edge_refuted): at E = 0.511 MeV the argument of arccos is rounded to a number below -1, so theta and the cross sections per energy are nan at the Compton edge which the code reports. All other parts are proved. The library functions are parameters with bounded absolute errors; C81_edge and C81_edge_refuted assume np.cos(np.pi) = -1, as for correctly rounded functions."
  },
  {
   "property": "C82",
   "status": "partial",
   "theorems": [
    "C82_grid",
    "C82_coverage_grid",
    "C82_coverage",
    "C82_breit_wigner",
    "C82_gauss",
    "C82_coverage_refuted",
    "C82_far",
    "C82_far_refuted",
    "C82_sum_refuted"
   ],
   "note": "REFUTED in the last sentence: a coverage of 1 - 2^-53 gives an infinite interval (C82_coverage_refuted); between limits more than 10 standard deviations above a Gaussian line all inner points are infinite, since only the end points are repaired (C82_far, C82_far_refuted), and the grid of a sum with such a line contains infinity (C82_sum_refuted). All other parts are proved. Pseudo-Voigt distributions are covered by C78."
  },
  {
   "property": "C83",
   "status": "partial",
   "theorems": [
    "C83_accuracy",
    "C83_tabulated",
    "C83_edge_refuted"
   ],
   "note": "REFUTED in the last sentence (C83_edge_refuted): with a correctly rounded library, at the float below an edge at 1000 (coefficients 1 and 100), the logarithm is rounded to 3, and 100 is returned instead of 1. Proved for energies at a relative distance of at least 2^-40 below edges, and everywhere above."
  },
  {
   "property": "C84",
   "status": "partial",
   "theorems": [
    "C84_parameters",
    "C84_weights_refuted",
    "C84_pdf",
    "C84_pdf_tails",
    "C84_pdf_bound",
    "C84_cdf",
    "C84_ppf",
    "C84_ppf_array",
    "C84_ppf_found",
    "C84_ppf_found_array",
    "C84_fallback",
    "C84_outermost",
    "C84_call"
   ],
   "note": "REFUTED in the last sentence (C84_weights_refuted): with correctly rounded library functions, a width of 1/1024 and no thermal motion, the exponent 0.2, which is rounded up, gives a total width slightly below the natural one and eta slightly above 1, so that the weight of the Gaussian is negative. All other sentences are proved; the ranges in which quantiles are found are in C84_ppf_found and C84_ppf_found_array."
  },
  {
   "property": "C85",
   "status": "proved",
   "theorems": [
    "C85_ground_state",
    "C85_excitation",
    "C85_into_ground",
    "C85_into_ground_classes",
    "C85_parity",
    "C85_isotope"
   ],
   "note": ""
  },
  {
   "property": "C86",
   "status": "proved",
   "theorems": [
    "C86_breit_wigner",
    "C86_gauss",
    "C86_pseudo_voigt",
    "C86_coverage",
    "C86_negative_coverage",
    "C86_outermost"
   ],
   "note": ""
  },
  {
   "property": "C87",
   "status": "proved",
   "theorems": [
    "C87_call",
    "C87_exception",
    "C87_grid"
   ],
   "note": ""
  },
  {
   "property": "C88",
   "status": "partial",
   "theorems": [
    "C88_call",
    "C88_darboux",
    "C88_darboux_finite",
    "C88_darboux_refuted",
    "C88_darboux_lower",
    "C88_linspace",
    "C88_linspace_refuted",
    "C88_pi"
   ],
   "note": "REFUTED in the last sentence: np.linspace between the largest float and its negative overflows and gives [nan, inf, b] for three points (C88_linspace_refuted), and two values and points near the limit give (inf, nan) (C88_darboux_refuted). All other sentences are proved."
  },
  {
   "property": "C89",
   "status": "proved",
   "theorems": [
    "C89_breit_wigner",
    "C89_gauss",
    "C89_pseudo_voigt",
    "C89_recoil",
    "C89_breit_wigner_finite",
    "C89_breit_wigner_nan",
    "C89_gauss_finite",
    "C89_pseudo_voigt_finite"
   ],
   "note": ""
  },
  {
   "property": "C90",
   "status": "partial",
   "theorems": [
    "C90_value",
    "C90_integral",
    "C90_nonresonant_grid",
    "C90_grid",
    "C90_coverage",
    "C90_coverage_refuted"
   ],
   "note": "REFUTED in the last sentence (C90_coverage_refuted): as soon as the first nonresonant member is reached, a coverage raises TypeError (C90_coverage). All other sentences are proved."
  },
  {
   "property": "C91",
   "status": "proved",
   "theorems": [
    "C91_ratio",
    "C91_solid_angle",
    "C91_singular",
    "C91_total",
    "C91_energy",
    "C91_massless"
   ],
   "note": ""
  },
  {
   "property": "C92",
   "status": "partial",
   "theorems": [
    "C92_blank_mass_number",
    "C92_no_mass_number",
    "C92_blank_symbol",
    "C92_leftover",
    "C92_leftover_refuted"
   ],
   "note": "REFUTED in the last sentence (C92_leftover_refuted): the mass number of the paragraph before is kept, so that the data silently replace those of that isotope (C92_leftover). All other sentences are proved."
  },
  {
   "property": "C93",
   "status": "proved",
   "theorems": [
    "C93_flux",
    "C93_flux_unique",
    "C93_balance",
    "C93_energy_range",
    "C93_rates",
    "C93_thin_target"
   ],
   "note": ""
  },
  {
   "property": "C94",
   "status": "partial",
   "theorems": [
    "C94_value",
    "C94_range",
    "C94_absorber",
    "C94_scatterer",
    "C94_bounds",
    "C94_scaling",
    "C94_areal_density",
    "C94_areal_density_mean",
    "C94_areal_density_wrong",
    "C94_areal_density_refuted"
   ],
   "note": "REFUTED in the last sentence (C94_areal_density_refuted): molar_mass ignores its argument and uses the mean enrichment, so that the number of nuclei is right for the mean enrichment only (C94_areal_density_mean) and otherwise off by the quotient of two molar masses (C94_areal_density, C94_areal_density_wrong). All other sentences are proved for an exact integrator."
  },
  {
   "property": "C95",
   "status": "partial",
   "theorems": [
    "C95_finite",
    "C95_range",
    "C95_kinds",
    "C95_limits",
    "C95_high_refuted",
    "C95_low_refuted",
    "C95_angles",
    "C95_energies",
    "C95_differential_kinds",
    "C95_scale_factor",
    "C95_light_refuted",
    "C95_heavy_refuted"
   ],
   "note": "REFUTED in the last sentence: the cross section is inf or nan from 2^400 masses on (C95_high_refuted) and below 2^-343 masses (C95_low_refuted); a positive mass may be rejected because its square vanishes (C95_light_refuted), and a large one gives the scale factor 0 (C95_heavy_refuted). All other sentences are proved."
  },
  {
   "property": "C96",
   "status": "partial",
   "theorems": [
    "C96_total",
    "C96_angles",
    "C96_theta",
    "C96_energies",
    "C96_total_python",
    "C96_energies_python",
    "C96_floats",
    "C96_lists_refuted",
    "C96_theta_lists_refuted",
    "C96_energies_lists_refuted",
    "C96_shapes"
   ],
   "note": "REFUTED in the last sentence: lists of energies raise TypeError in all methods (C96_lists_refuted, C96_energies_lists_refuted), except for theta if the other energy is an array (C96_theta, C96_theta_lists_refuted). All other sentences are proved."
  },
  {
   "property": "C97",
   "status": "partial",
   "theorems": [
    "C97_arrays",
    "C97_no_exceptions",
    "C97_floats",
    "C97_lists",
    "C97_refused_lists",
    "C97_constants_refuted",
    "C97_lists_refuted",
    "C97_breit_wigner",
    "C97_gauss",
    "C97_pseudo_voigt",
    "C97_doppler_width",
    "C97_effective_temperature",
    "C97_effective_temperature_float",
    "C97_effective_temperature_list",
    "C97_debye",
    "C97_debye_float",
    "C97_debye_zero"
   ],
   "note": "REFUTED in two points: a sum of constants gives a float for an array (C97_constants_refuted), and lists raise TypeError if a Klein-Nishina cross section or a Voigt line is involved, for relative energies, for Doppler widths and for effective temperatures (C97_lists_refuted, C97_refused_lists, C97_doppler_width, C97_effective_temperature_list). All other sentences are proved, and lists are treated like arrays in all other cases (C97_lists)."
  },
  {
   "property": "C98",
   "status": "partial",
   "theorems": [
    "C98_order",
    "C98_order_refuted",
    "C98_reading",
    "C98_mass",
    "C98_module",
    "C98_calls",
    "C98_supplied"
   ],
   "note": "REFUTED in one point: numbers with 17 digits can become equal when they are read (C98_order_refuted); with up to 15 digits, which includes all supplied files, they keep their order (C98_order). Energies just below an absorption edge are excluded, see C83."
  },
  {
   "property": "C99",
   "status": "partial",
   "theorems": [
    "C99_accuracy",
    "C99_integrand",
    "C99_zero",
    "C99_hot_refuted"
   ],
   "note": "REFUTED in the last sentence: at 2^55 Debye temperatures, exp(t) - 1 is zero in the whole interval and the integrand infinite (C99_hot_refuted). All other sentences are proved."
  },
  {
   "property": "C100",
   "status": "partial",
   "theorems": [
    "C100_integral",
    "C100_uncertainty",
    "C100_true_error",
    "C100_underflow_refuted"
   ],
   "note": "REFUTED in the last sentence: estimates below 2^-538 vanish when they are squared (C100_underflow_refuted); C100_uncertainty requires estimates that are zero or at least 2^-500. All other sentences are proved."
  },
  {
   "property": "C101",
   "status": "proved",
   "theorems": [
    "C101_call",
    "C101_profile"
   ],
   "note": ""
  },
  {
   "property": "C102",
   "status": "proved",
   "theorems": [
    "C102_agrees",
    "C102_never_nan",
    "C102_zero",
    "C102_negative",
    "C102_energies",
    "C102_origin"
   ],
   "note": ""
  },
  {
   "property": "C103",
   "status": "partial",
   "theorems": [
    "C103_grid",
    "C103_interval",
    "C103_warnings",
    "C103_whole_line",
    "C103_whole_interval",
    "C103_whole_energies",
    "C103_no_integral",
    "C103_nan_limits",
    "C103_nan_coverage",
    "C103_above_1",
    "C103_far_coverage",
    "C103_above_1_refuted",
    "C103_counts"
   ],
   "note": "REFUTED in the last sentence: with the coverage 1 + 2^-52, the upper limit is +inf with a warning about it (C103_above_1_refuted); the lower limit is always nan (C103_above_1). All other sentences are proved, the first one for locations and limits up to 2^900 and scales from 2^-100."
  },
  {
   "property": "C104",
   "status": "proved",
   "theorems": [
    "C104_single_maximum",
    "C104_breit_wigner",
    "C104_gauss"
   ],
   "note": ""
  },
  {
   "property": "C105",
   "status": "partial",
   "theorems": [
    "C105_integral",
    "C105_uncertainty",
    "C105_finite",
    "C105_short",
    "C105_exceptions",
    "C105_array",
    "C105_overflow_refuted"
   ],
   "note": "REFUTED in the last sentence: three finite parts with the sum 2^1023 give an infinite integral, an estimate of 2^512 an infinite uncertainty (C105_overflow_refuted). All other sentences are proved."
  },
  {
   "property": "C106",
   "status": "partial",
   "theorems": [
    "C106_exceptions",
    "C106_nan",
    "C106_infinite",
    "C106_finite",
    "C106_integrand",
    "C106_range",
    "C106_hot_refuted",
    "C106_rigid_refuted"
   ],
   "note": "REFUTED in the last sentence: at T = 2^400 K and T_D = 1 K, OverflowError is raised for every quadrature (C106_hot_refuted); for infinite T_D the result is zero if the quadrature of the divergent integral returns a number, and nan otherwise (C106_rigid_refuted). All other sentences are proved; the value for infinite T under the hypothesis that the integral over an empty interval is zero."
  },
  {
   "property": "C107",
   "status": "proved",
   "theorems": [
    "C107_objects",
    "C107_interval",
    "C107_interval_found",
    "C107_coverage",
    "C107_coverage_found",
    "C107_limits",
    "C107_limits_found",
    "C107_ascending",
    "C107_integral"
   ],
   "note": ""
  },
  {
   "property": "C108",
   "status": "proved",
   "theorems": [
    "C108_interval",
    "C108_grid",
    "C108_interval_same",
    "C108_grid_same",
    "C108_quantiles_same",
    "C108_interval_found",
    "C108_grid_found",
    "C108_limits_found",
    "C108_nan",
    "C108_broken_interval",
    "C108_broken_coverage",
    "C108_broken_limits",
    "C108_temperature",
    "C108_broken_single",
    "C108_single_nan",
    "C108_single",
    "C108_fallback",
    "C108_full_coverage",
    "C108_above",
    "C108_size_zero",
    "C108_size_negative"
   ],
   "note": ""
  },
  {
   "property": "C109",
   "status": "proved",
   "theorems": [
    "C109_call",
    "C109_accurate",
    "C109_infinite",
    "C109_nan",
    "C109_parameters",
    "C109_exceptions",
    "C109_exists"
   ],
   "note": ""
  },
  {
   "property": "C110",
   "status": "proved",
   "theorems": [
    "C110_integral",
    "C110_finite"
   ],
   "note": ""
  },
  {
   "property": "C111",
   "status": "proved",
   "theorems": [
    "C111_layer",
    "C111_range",
    "C111_absorption",
    "C111_voigt"
   ],
   "note": ""
  },
  {
   "property": "C112",
   "status": "proved",
   "theorems": [
    "C112_range",
    "C112_number",
    "C112_absorption",
    "C112_opaque",
    "C112_infinite_line",
    "C112_nan",
    "C112_flux",
    "C112_flux_special",
    "C112_agree",
    "C112_voigt"
   ],
   "note": ""
  },
  {
   "property": "C113",
   "status": "proved",
   "theorems": [
    "C113_boundaries",
    "C113_falls",
    "C113_shadow",
    "C113_accurate"
   ],
   "note": ""
  }
 ]
}