{
"C04": "REFUTED as stated: cross section + weighted sum keeps a reference to the weighted sum (C04_snapshot_refuted). '+' and '*' never modify anything (proved for all histories); snapshots are proved for every other operand combination (guard 'copying') whose sums have plain members.",
"C05": "REFUTED in one point: CrossSectionWeightedSum() raises TypeError (C05_default_arguments_refuted). Everything else is proved.",
"C13": "REFUTED as stated: mismatched lengths are accepted when one side has length 2 (C13_shape_refuted); C13_shape_error_exactly gives the exact condition.",
"C14": "REFUTED as stated: a ConstantCrossSection (or a sum of such) returns a number for an array and darboux raises (C14_constant_refuted); proved for every cross section that returns arrays.",
"C16": "REFUTED in one point: the root sum of squares does not bound the true error (C16_error_bound_refuted); the bounds that do hold are proved.",
"C17": "REFUTED in one point: a numpy array raises ValueError (C17_array_refuted); omitted and list arguments are proved.",
"C29": "REFUTED in one point: a negative lower limit is returned as it is (C29_clamp_refuted, C29_never_clamped). The conditions for both warnings are proved exactly for the box, Breit-Wigner and Gauss models.",
"C30": "REFUTED: the warning uses the CDF of the standard distribution instead of the one of the resonance (C30_quoted_refuted), the quoted number is always too small for Breit-Wigner (C30_always_too_small).",
"C32": "REFUTED for limits outside of the box (C32_outside: all interior points are the nearer edge of the box; C32_outside_refuted: not ascending and not inside the limits); proved for all limits that overlap with the box and for coverages.",
"C33": "REFUTED in one point: with one point the upper limit is returned (C33_single_point_refuted); the other counts are proved.",
"C28": "Proved exactly for Breit-Wigner and Gauss. REFUTED for the pseudo-Voigt profile: a cold line of 1 meV covers less than 2/3 if asked for 90 % (C28_pseudo_voigt_refuted, C28_narrow_lines), because Newton's method stops at an absolute step of 1.48e-8. C28_pseudo_voigt_partial bounds the error by 2e-8/Gamma per limit.",
"C31": "Proved exactly for Breit-Wigner, Gauss and box. REFUTED for the pseudo-Voigt profile: for limits above a cold line of at most 10 meV all inner points lie below the lower limit, i.e. the grid is not even ascending (C31_pseudo_voigt_refuted, C31_narrow_lines). C31_pseudo_voigt_partial: ascending, with equal probabilities up to the Newton tolerance, if the limits enclose the resonance or the cells exceed the tolerance.",
"C37": "REFUTED for the Lorentz limit: without Doppler broadening the profile has half of the natural width (C37_lorentz_limit_refuted, exact value in C37_lorentz_limit_value). The Gauss limit is proved.",
"C38": "REFUTED for narrow lines: the returned quantile may be arbitrarily wrong for lines much narrower than the absolute tolerance (C38_small_error_refuted, C38_narrow_lines). Existence and uniqueness of the quantile and the error bound 2e-8/Gamma after a successful inversion are proved.",
"C39": "REFUTED: the inversion can fall through and return None, one point raises TypeError (C39_returns_none_refuted, C39_single_point). The possible outcomes are listed in C39_outcomes_partial; found are all quantiles with Gamma*density^2 >= 2^-72 and all coverages with Gamma <= 2^70 (1-c)^4 (C39_dense_quantiles, C39_coverage); missing: convergence further out in the tails (false there for a cold line, C39_none_for_all_cold_lines).",
"C40": "REFUTED: for cold lines the result contains infinite or wrong limits (C40_coverage_refuted, C40_cold_lines).",
"C47": "REFUTED: the returned value is the integral over the azimuth, i.e. 2 pi times the average (C47_average_refuted, C47_integral, C47_never_the_average); the factor should be 1/2 instead of pi.",
"C48": "REFUTED: theta and Ep_over_E always use the electron mass (C48_other_mass_refuted); compton_edge and the integrals agree with the documented formula exactly for the electron mass. cs_total itself scales correctly with the mass.",
"C52": "REFUTED: without the final newline the last character of the last coefficient in the third column is lost (C52_final_newline_refuted uses the supplied file 82.txt); C52_last_exponent says what is read instead, C52_first_columns that the first two columns are unaffected.",
"C54": "REFUTED: a value without uncertainty is read as the default, so mono-isotopic abundances become 0 (C54_values_refuted, C54_zero, C54_supplied).",
"C56": "REFUTED: the substring test finds the density of Be, Si, In for B, S, I (C56_lookup_refuted, C56_supplied, C56_supplied_wrong). Symbols with two letters are always found correctly (C56_two_letters).",
"C22": "REFUTED: the keys for manganese and vanadium are 'Ma' and 'Va' (C22_keys_refuted, C22_keys, C22_missing); all other keys are symbols and all values positive.",
"C55": "REFUTED in the last part: 22 elements with natural isotopes get the mass 0 because of C54 (C55_mass_refuted, C55_mass lists them together with the elements without natural isotopes); all other parts are proved.",
"C57": "REFUTED in the second part: the lambda refers to the module-level variable Z, so it uses the mass of uranium once the module has been executed (C57_later_refuted, C57_later). The data themselves are converted with the right mass (C57_data, C57_calls).",
"C59": "REFUTED: for elements whose mass is 0 (C55) all coefficients per atom are zero, e.g. aluminium (C59_positive_refuted, C59_massless); C59_positive covers all other elements.",
"C66": "REFUTED for the sum as a whole: between two lines the sum is not monotone, so the lower sum can exceed the integral (C66_sum_refuted, C66_distant_lines). C66_each_line: adding the Darboux sums of the individual lines on the common grid does enclose the integral, and the grid covers the requested fraction.",
"C69": "REFUTED in the last sentence: after d[k] = v the width is the old one (C69_width_refuted, C69_stale), and the branching ratios add up to (sum of partial widths)/width, which can exceed 1 (C69_branching, C69_ex). All other parts are proved.",
"C70": "REFUTED in the last sentence: the mass is not updated when the mass of an isotope or an abundance changes (C70_mass_refuted). All other parts are proved.",
"C71": "REFUTED for an empty list: 'excited_states or []' replaces a passed empty list by a new one, so that states appended to the passed list are not seen (C71_empty_refuted, C71_new). All other parts are proved.",
"C72": "REFUTED for the sum of two sums, the product of a number and a sum, and the order: these are flattened into one list of terms, which are added from left to right, so that (a+b)(E) is not the rounded a(E)+b(E) (C72_sum_of_sums_refuted), (3*a)(E) is not the rounded 3*a(E) (C72_multiply_sum_refuted), and sum([a, b, c]) depends on the order (C72_order_refuted). The other parts are proved; the error bound holds for sums of plain cross sections.",
"C73": "REFUTED in the last sentence: the rounded sums of a constant can both be smaller than the integral, with uncertainty 0 (C73_exact_enclosure_refuted). All other parts are proved.",
"C74": "REFUTED in the last sentence: points repeat if there are not enough floats between a and b (C74_distinct_refuted), and with a subnormal distance the second to last point can exceed b (C74_underflow_refuted). All other parts are proved.",
"C75": "REFUTED in the last sentence (C75_order_refuted, C75_sum_is_one_refuted). All other parts are proved.",
"C76": "REFUTED in the last sentence by cancellation at low energies: for electrons and E = 8e-7 MeV = 0.8 eV, cs_total is below -3 times the Thomson cross section (C76_positive_refuted, C76_negative has the general condition), and below 2^-55 mc^2 it exceeds 3/8 (mc^2/E)^2 times the Thomson cross section (C76_low_energy_refuted). The error bound and the sign between 2^-13 mc^2 (62 eV for electrons) and mc^2/16 are proved (C76_error, C76_positive).",
"C77": "The limits at an edge are C77_edge, the error of darboux C77_integral.",
"C78": "REFUTED in the last sentence (C78_found_as_exact_refuted): q = 1e-6, a line at rest. All other parts are proved. Convergence in floats is proved for numbers (C78_found) and, with slightly stronger bounds, for arrays (C78_found_array). C78_cold_fallback uses that the computed CDF is a rounded sum of 1/2 and a number, as in scipy's cauchy.cdf; it explains why tests/test_voigt_ppf.py sees the fallback, which the exact model does not need (C39).",
"C79": "REFUTED in the last sentence (C79_relative_refuted): the sum of offset and resonance energy is rounded first, an offset of 64 half widths of a narrow line gives the maximum. All other parts are proved.",
"C80": "REFUTED in the last sentence (C80_tails_refuted): 0 by underflow of exp at 1000 standard deviations. All other parts are proved. The bound for get_effective_temperature is for the composition with get_doppler_width.",
"C81": "REFUTED in the last sentence (C81_edge_refuted): at E = 0.511 MeV the argument of arccos is rounded to a number below -1, so theta and the cross sections per energy are nan at the Compton edge which the code reports. All other parts are proved. The library functions are parameters with bounded absolute errors; C81_edge and C81_edge_refuted assume np.cos(np.pi) = -1, as for correctly rounded functions.",
"C82": "REFUTED in the last sentence: a coverage of 1 - 2^-53 gives an infinite interval (C82_coverage_refuted); between limits more than 10 standard deviations above a Gaussian line all inner points are infinite, since only the end points are repaired (C82_far, C82_far_refuted), and the grid of a sum with such a line contains infinity (C82_sum_refuted). All other parts are proved. Pseudo-Voigt distributions are covered by C78.",
"C83": "REFUTED in the last sentence (C83_edge_refuted): with a correctly rounded library, at the float below an edge at 1000 (coefficients 1 and 100), the logarithm is rounded to 3, and 100 is returned instead of 1. Proved for energies at a relative distance of at least 2^-40 below edges, and everywhere above.",
"C84": "REFUTED in the last sentence (C84_weights_refuted): with correctly rounded library functions, a width of 1/1024 and no thermal motion, the exponent 0.2, which is rounded up, gives a total width slightly below the natural one and eta slightly above 1, so that the weight of the Gaussian is negative. All other sentences are proved; the ranges in which quantiles are found are in C84_ppf_found and C84_ppf_found_array.",
"C88": "REFUTED in the last sentence: np.linspace between the largest float and its negative overflows and gives [nan, inf, b] for three points (C88_linspace_refuted), and two values and points near the limit give (inf, nan) (C88_darboux_refuted). All other sentences are proved.",
"C90": "REFUTED in the last sentence (C90_coverage_refuted): as soon as the first nonresonant member is reached, a coverage raises TypeError (C90_coverage). All other sentences are proved.",
"C92": "REFUTED in the last sentence (C92_leftover_refuted): the mass number of the paragraph before is kept, so that the data silently replace those of that isotope (C92_leftover). All other sentences are proved.",
"C94": "REFUTED in the last sentence (C94_areal_density_refuted): molar_mass ignores its argument and uses the mean enrichment, so that the number of nuclei is right for the mean enrichment only (C94_areal_density_mean) and otherwise off by the quotient of two molar masses (C94_areal_density, C94_areal_density_wrong). All other sentences are proved for an exact integrator.",
"C95": "REFUTED in the last sentence: the cross section is inf or nan from 2^400 masses on (C95_high_refuted) and below 2^-343 masses (C95_low_refuted); a positive mass may be rejected because its square vanishes (C95_light_refuted), and a large one gives the scale factor 0 (C95_heavy_refuted). All other sentences are proved.",
"C96": "REFUTED in the last sentence: lists of energies raise TypeError in all methods (C96_lists_refuted, C96_energies_lists_refuted), except for theta if the other energy is an array (C96_theta, C96_theta_lists_refuted). All other sentences are proved.",
"C97": "REFUTED in two points: a sum of constants gives a float for an array (C97_constants_refuted), and lists raise TypeError if a Klein-Nishina cross section or a Voigt line is involved, for relative energies, for Doppler widths and for effective temperatures (C97_lists_refuted, C97_refused_lists, C97_doppler_width, C97_effective_temperature_list). All other sentences are proved, and lists are treated like arrays in all other cases (C97_lists).",
"C98": "REFUTED in one point: numbers with 17 digits can become equal when they are read (C98_order_refuted); with up to 15 digits, which includes all supplied files, they keep their order (C98_order). Energies just below an absorption edge are excluded, see C83.",
"C99": "REFUTED in the last sentence: at 2^55 Debye temperatures, exp(t) - 1 is zero in the whole interval and the integrand infinite (C99_hot_refuted). All other sentences are proved.",
"C100": "REFUTED in the last sentence: estimates below 2^-538 vanish when they are squared (C100_underflow_refuted); C100_uncertainty requires estimates that are zero or at least 2^-500. All other sentences are proved.",
"C103": "REFUTED in the last sentence: with the coverage 1 + 2^-52, the upper limit is +inf with a warning about it (C103_above_1_refuted); the lower limit is always nan (C103_above_1). All other sentences are proved, the first one for locations and limits up to 2^900 and scales from 2^-100.",
"C105": "REFUTED in the last sentence: three finite parts with the sum 2^1023 give an infinite integral, an estimate of 2^512 an infinite uncertainty (C105_overflow_refuted). All other sentences are proved.",
"C106": "REFUTED in the last sentence: at T = 2^400 K and T_D = 1 K, OverflowError is raised for every quadrature (C106_hot_refuted); for infinite T_D the result is zero if the quadrature of the divergent integral returns a number, and nan otherwise (C106_rigid_refuted). All other sentences are proved; the value for infinite T under the hypothesis that the integral over an empty interval is zero."
}
