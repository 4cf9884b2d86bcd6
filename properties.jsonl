{"id": "C01", "title": "Sums of cross sections evaluate pointwise", "statement": "For any two operands a, b of '+', each a CrossSection, a CrossSectionWeightedSum (arbitrarily nested) or an int/float, at least one of them not a number, (a+b)(E) equals a(E)+b(E), where a number counts as a constant cross section.", "quantifier": "all operand kinds, all nesting depths, all energies, all behaviours of user-defined cross sections", "why_tests_cant": "there are infinitely many expression shapes and user-defined subclasses", "anchors": ["ries/cross_section.py:CrossSection.__add__", "ries/cross_section.py:CrossSection.__radd__", "ries/cross_section.py:CrossSectionWeightedSum.__add__", "ries/cross_section.py:CrossSectionWeightedSum.__radd__", "ries/cross_section.py:CrossSectionWeightedSum.__call__"]}
{"id": "C02", "title": "Scaling evaluates pointwise", "statement": "For every number c and every cross section or weighted sum a, (c*a)(E) and (a*c)(E) both equal c times a(E).", "quantifier": "all scale factors, all operands, all energies", "why_tests_cant": "unbounded expression space; scaling must reach every member of a nested sum", "anchors": ["ries/cross_section.py:CrossSection.__mul__", "ries/cross_section.py:CrossSectionWeightedSum.__mul__", "ries/cross_section.py:CrossSectionWeightedSum.__call__"]}
{"id": "C03", "title": "Any arithmetic expression of cross sections denotes the linear combination it spells", "statement": "Every expression built from cross sections, numbers, '+', '*' and the builtin sum() either raises or evaluates, at every energy, to the same linear combination of the member cross sections; in particular sum(list) is the pointwise sum, and reordering or regrouping the terms changes nothing.", "quantifier": "all finite expression trees", "why_tests_cant": "induction over expression trees is needed", "anchors": ["ries/cross_section.py:CrossSection", "ries/cross_section.py:CrossSectionWeightedSum"]}
{"id": "C04", "title": "Adding or scaling never changes an operand, and the result is a snapshot of it", "statement": "'+' and '*' return a new object and never modify an existing one; afterwards, whatever is done to the reactions/scale_factors lists of the operands, the value of the earlier result does not change.", "quantifier": "all histories of constructions, additions, scalings and in-place list modifications", "why_tests_cant": "needs every interleaving of mutations with every aliasing pattern", "anchors": ["ries/cross_section.py:CrossSectionWeightedSum.__init__", "ries/cross_section.py:CrossSectionWeightedSum.__add__", "ries/cross_section.py:CrossSection.__add__"]}
{"id": "C05", "title": "Construction of weighted sums", "statement": "CrossSectionWeightedSum(reactions) gives every reaction the weight 1, CrossSectionWeightedSum(reactions, weights) evaluates to the weighted sum, weights missing at the end raise IndexError on evaluation, surplus weights are ignored, and the documented default CrossSectionWeightedSum() is usable.", "quantifier": "all reaction lists and weight lists of any lengths", "why_tests_cant": "all list lengths and length mismatches", "anchors": ["ries/cross_section.py:CrossSectionWeightedSum.__init__", "ries/cross_section.py:CrossSectionWeightedSum.__call__"]}
{"id": "C06", "title": "The probability grid of a sum is the sorted union of its members' grids", "statement": "equidistant_probability_grid of a weighted sum contains exactly the energies contained in the grid of some member, each once, in strictly increasing order, independently of scale factors, order and nesting of the members; if a member raises, so does the sum.", "quantifier": "all weighted sums of any depth, all member grids", "why_tests_cant": "all member grids, ties included, and all nestings", "anchors": ["ries/cross_section.py:CrossSectionWeightedSum.equidistant_probability_grid"]}
{"id": "C07", "title": "Equidistant energy grid", "statement": "equidistant_energy_grid(limits, n) returns exactly n energies, starting at limits[0], ending at limits[1] (n>=2), with equal differences, strictly monotone when the limits differ; n<0 raises ValueError; the same grid is returned by plain, constant, nonresonant and summed cross sections.", "quantifier": "all limits and all n", "why_tests_cant": "all real limits and all point counts", "anchors": ["ries/cross_section.py:CrossSection.equidistant_energy_grid", "ries/cross_section.py:CrossSectionWeightedSum.equidistant_energy_grid", "ries/cross_section.py:ConstantCrossSection.equidistant_probability_grid", "ries/nonresonant/nonresonant.py:Nonresonant.equidistant_probability_grid"]}
{"id": "C08", "title": "Numbers that are neither int nor float are not accepted as constant cross sections", "statement": "Adding a numeric object that is not an int/float instance (e.g. numpy.int64) to a weighted sum raises immediately, while adding it to a plain cross section succeeds and the failure only appears when the result is evaluated.", "quantifier": "all cross sections, all energies", "why_tests_cant": "the failure is deferred, it depends on the later history", "anchors": ["ries/cross_section.py:CrossSection.__add__", "ries/cross_section.py:CrossSectionWeightedSum.__add__"]}
{"id": "C09", "title": "Darboux sums enclose the integral", "statement": "If x is nondecreasing and f is monotone on every [x_i, x_{i+1}], darboux(f, x) = (L, d) satisfies L <= integral of f over [x_0, x_{n-1}] <= L + d.", "quantifier": "all grids, all piecewise monotone integrable functions", "why_tests_cant": "all functions and all partitions", "anchors": ["ries/integration/darboux.py:darboux"]}
{"id": "C10", "title": "Darboux sums are the true lower and upper sums for piecewise monotone functions", "statement": "Under the same hypothesis, L is the sum of the infima of f on the cells times their lengths and L + d the sum of the suprema.", "quantifier": "all grids, all piecewise monotone functions", "why_tests_cant": "infima and suprema range over uncountably many points", "anchors": ["ries/integration/darboux.py:darboux"]}
{"id": "C11", "title": "Darboux error estimate", "statement": "d is never negative; it is zero for constant data; for a monotone f on a nondecreasing grid it is at most (largest cell) times |f(x_{n-1}) - f(x_0)|; sums over two grids that share an endpoint add up.", "quantifier": "all grids and data", "why_tests_cant": "all sizes and all values", "anchors": ["ries/integration/darboux.py:darboux"]}
{"id": "C12", "title": "Darboux on a descending grid", "statement": "If x is given in descending order, darboux returns minus the lower sum of the reversed (ascending) grid and the same second number d; the first number therefore bounds the signed integral from x[0] to x[-1] from above, not from below: L - d <= integral <= L.", "quantifier": "all grids and data", "why_tests_cant": "all sizes and all values", "anchors": ["ries/integration/darboux.py:darboux"]}
{"id": "C13", "title": "Shape errors in darboux", "statement": "darboux raises if the number of function values differs from the number of grid points.", "quantifier": "all lengths", "why_tests_cant": "all pairs of lengths; numpy broadcasting makes exactly two families of mismatches silent", "anchors": ["ries/integration/darboux.py:darboux"]}
{"id": "C14", "title": "darboux accepts every cross section", "statement": "Any cross section of the library that can be evaluated on an array of energies can be passed to darboux.", "quantifier": "all cross sections and sums, all grids", "why_tests_cant": "all expression trees (a tree of constants behaves differently from any tree with one array-valued leaf)", "anchors": ["ries/integration/darboux.py:darboux", "ries/cross_section.py:ConstantCrossSection.__call__"]}
{"id": "C15", "title": "quad_partition is independent of the partition", "statement": "With an exact nquad, quad_partition(f, x0, rest)[0] equals the iterated integral of f over [x0[0], x0[-1]] x rest, for every partition x0 and every number of further dimensions.", "quantifier": "all partitions, all dimensions, all integrable functions", "why_tests_cant": "all functions, partitions and dimensions", "anchors": ["ries/integration/quad_partition.py:quad_partition"]}
{"id": "C16", "title": "quad_partition error estimate", "statement": "The returned error is the root of the sum of squares of the partial errors; it is at least the largest and at most the sum of them; it bounds the true error whenever the partial errors reported by nquad bound the partial true errors.", "quantifier": "all partitions and all nquad behaviours within their reported errors", "why_tests_cant": "all error patterns", "anchors": ["ries/integration/quad_partition.py:quad_partition"]}
{"id": "C17", "title": "quad_partition accepts the documented argument types", "statement": "x1_to_xn_minus_1 may be omitted, a list, or an (n_d-1, 2) array of float.", "quantifier": "all limit arrays", "why_tests_cant": "all shapes", "anchors": ["ries/integration/quad_partition.py:quad_partition"]}
{"id": "C18", "title": "Free-nucleus recoil conserves energy and momentum", "statement": "For mass m>0 and level difference D>=0 the corrected energy E_r satisfies E_r + m = sqrt((m + D)^2 + E_r^2), it is the only such energy, it is at least D, and it is strictly increasing in D and decreasing in m; NoRecoil is the identity; amu=0 raises.", "quantifier": "all masses and energies", "why_tests_cant": "all real parameters", "anchors": ["ries/resonance/recoil.py:FreeNucleusRecoil.__call__", "ries/resonance/recoil.py:NoRecoil"]}
{"id": "C19", "title": "Effective temperature and Doppler width are inverse to each other", "statement": "get_effective_temperature(MaxwellBoltzmann(amu, T).get_doppler_width(E), amu, E) = T for T>=0, amu>0, E<>0, and conversely; the width is linear in E and scales with sqrt(T/amu).", "quantifier": "all temperatures, masses, energies", "why_tests_cant": "all real parameters", "anchors": ["ries/resonance/maxwell_boltzmann.py:MaxwellBoltzmann"]}
{"id": "C20", "title": "Debye effective temperature bounds", "statement": "For T, T_D > 0, T < T_eff, 3/8 T_D < T_eff and T_eff < T + 3/8 T_D, up to the error reported by quad; T=0 or T_D=0 raises ZeroDivisionError.", "quantifier": "all positive temperatures", "why_tests_cant": "all real parameters, an integral", "anchors": ["ries/resonance/debye_model.py:effective_temperature_debye_approximation"]}
{"id": "C21", "title": "Debye effective temperature is monotone and homogeneous", "statement": "T_eff increases strictly with T and with T_D, T_eff(cT, cT_D) = c T_eff(T, T_D) for c>0, and the low/high temperature limits 3/8 T_D and T are approached.", "quantifier": "all positive temperatures", "why_tests_cant": "all real parameters, an integral", "anchors": ["ries/resonance/debye_model.py:effective_temperature_debye_approximation"]}
{"id": "C22", "title": "Debye temperature table is keyed by element symbols", "statement": "Every key of room_temperature_T_D is the symbol of one of the 118 elements, and every tabulated value is positive or None.", "quantifier": "all keys of the table", "why_tests_cant": "finite, but no test looks at it; needs the element table", "anchors": ["ries/resonance/debye_model.py:room_temperature_T_D", "ries/constituents/element.py:X"]}
{"id": "C23", "title": "Total width of a state", "statement": "State(...).width is the sum of all partial widths, independent of the order in which they are given, nonnegative and at least each partial width if these are nonnegative; the branching ratios to all final states sum to one when the width is nonzero.", "quantifier": "all dictionaries of partial widths", "why_tests_cant": "all dictionaries", "anchors": ["ries/constituents/state.py:State.__init__", "ries/resonance/resonance.py:Resonance.get_final_state_branching_ratio"]}
{"id": "C24", "title": "Element mass", "statement": "Element(...).amu is the abundance-weighted sum of isotope masses; isotopes without abundance raise KeyError, abundances without isotope are ignored; for abundances that are nonnegative and sum to one it lies between the smallest and largest isotope mass.", "quantifier": "all isotope and abundance dictionaries", "why_tests_cant": "all dictionaries", "anchors": ["ries/constituents/element.py:Element.amu_from_isotopic_composition"]}
{"id": "C25", "title": "Construction of a resonance raises exactly in the documented situations", "statement": "Building a Resonance raises iff the recoil-corrected energy is zero, a needed partial width is missing, the total width is zero while a final state is requested, or the intermediate state has no widths; otherwise all derived attributes have the documented values.", "quantifier": "all states, all recoil corrections", "why_tests_cant": "all combinations of error conditions and their order", "anchors": ["ries/resonance/resonance.py:Resonance.__init__"]}
{"id": "C26", "title": "Energy-integrated cross section", "statement": "energy_integrated_cross_section = pi^2 (hbar c)^2 / E_r^2 * (2J2+1)/(2J0+1) * Gamma_{2->0} [* Gamma_{2->1}/Gamma_2]; the values for all final states add up to the value without final state; nonnegative for nonnegative widths.", "quantifier": "all states", "why_tests_cant": "all dictionaries of widths", "anchors": ["ries/resonance/resonance.py:Resonance.get_energy_integrated_cross_section", "ries/resonance/resonance.py:Resonance.get_statistical_factor"]}
{"id": "C27", "title": "Relative and absolute energies", "statement": "cs(E, input_is_absolute_energy=False) = cs(E + E_r) for every resonance model and cs(E) is symmetric around E_r for the library's models.", "quantifier": "all resonances, all energies", "why_tests_cant": "all real parameters", "anchors": ["ries/resonance/resonance.py:Resonance.__call__"]}
{"id": "C28", "title": "Coverage interval contains the requested probability mass", "statement": "For 0<=c<1 coverage_interval(c) returns energies (lo, hi) with half of the mass c on each side of the median; the cross section integrated over it is c times the energy-integrated cross section.", "quantifier": "all c, all library models (uniform, Breit-Wigner, Gauss, pseudo-Voigt)", "why_tests_cant": "all real parameters, an integral", "anchors": ["ries/resonance/resonance.py:Resonance.coverage_interval"]}
{"id": "C29", "title": "Negative lower limits of coverage intervals are set to zero, with a warning", "statement": "If the lower limit of the coverage interval would be negative, a UserWarning is issued and 0 is returned instead; if the upper limit is infinite a UserWarning is issued; no other warnings.", "quantifier": "all c, all resonances", "why_tests_cant": "all real parameters", "anchors": ["ries/resonance/resonance.py:Resonance.coverage_interval"]}
{"id": "C30", "title": "The reachable coverage quoted in the warning is right", "statement": "The warning about a negative lower limit quotes the largest coverage 1-F(0) that positive energies can provide for this cross section.", "quantifier": "all resonances", "why_tests_cant": "all real parameters", "anchors": ["ries/resonance/resonance.py:Resonance.coverage_interval"]}
{"id": "C31", "title": "Equal-probability grid of a resonance", "statement": "For finite limits a<b and n>=2 points, equidistant_probability_grid returns n strictly increasing energies from a to b such that the cross section integrated over each cell is the same; for a coverage 0<c<1 the same with total c.", "quantifier": "all limits, all n, Breit-Wigner, Gauss, pseudo-Voigt with exact quantiles", "why_tests_cant": "all real parameters and all n", "anchors": ["ries/resonance/resonance.py:Resonance.equidistant_probability_grid"]}
{"id": "C32", "title": "Equal-probability grid of the box-shaped default resonance", "statement": "The same contract for the default (uniform) Resonance.", "quantifier": "all limits, all n", "why_tests_cant": "all real parameters", "anchors": ["ries/resonance/resonance.py:Resonance.equidistant_probability_grid", "ries/resonance/resonance.py:Resonance.__init__"]}
{"id": "C33", "title": "Degenerate point counts of probability grids", "statement": "equidistant_probability_grid(limits, n) with n=0 raises, with n=1 returns the lower limit like every other grid of the library.", "quantifier": "all limits, all resonances", "why_tests_cant": "all resonances", "anchors": ["ries/resonance/resonance.py:Resonance.equidistant_probability_grid"]}
{"id": "C34", "title": "Breit-Wigner cross section", "statement": "BreitWigner(...)(E) equals pi (hbar c/E_r)^2 (2J2+1)/(2(2J0+1)) Gamma_{2->0} Gamma_2 / ((E-E_r)^2 + Gamma_2^2/4), its integral over [a,b] is I_r (F(b)-F(a)) and tends to I_r over the whole axis; the peak is at E_r and half of it at E_r +- Gamma/2.", "quantifier": "all states with positive width, all energies", "why_tests_cant": "all real parameters, an integral", "anchors": ["ries/resonance/breit_wigner.py:BreitWigner"]}
{"id": "C35", "title": "Gaussian cross section is normalised", "statement": "Gauss(...)(E) integrated over the whole axis gives I_r; its 1/e half width is the Doppler width.", "quantifier": "all states, temperatures, masses, energies", "why_tests_cant": "all real parameters, an improper integral", "anchors": ["ries/resonance/gauss.py:Gauss"]}
{"id": "C36", "title": "Pseudo-Voigt mixing parameter and normalisation", "statement": "0 <= eta <= 1, the FWHM parameter is at least both constituent FWHMs, the PDF is positive and symmetric, the CDF is its integral, strictly increasing from 0 to 1.", "quantifier": "all widths >= 0, temperatures >= 0 (not both zero)", "why_tests_cant": "all real parameters, polynomial inequalities and an integral", "anchors": ["ries/resonance/pseudo_voigt.py:PseudoVoigtDistribution"]}
{"id": "C37", "title": "Pseudo-Voigt is exact in the limiting cases", "statement": "For vanishing natural width the pseudo-Voigt profile equals the Gaussian one, for vanishing temperature it equals the Breit-Wigner one.", "quantifier": "all parameters", "why_tests_cant": "all real parameters", "anchors": ["ries/resonance/pseudo_voigt.py:PseudoVoigtDistribution.pseudo_voigt_expression", "ries/resonance/breit_wigner.py:BreitWigner"]}
{"id": "C38", "title": "Pseudo-Voigt quantiles", "statement": "For each 0<q<1 there is exactly one energy with CDF q; whenever ppf(q) returns without warning, the CDF at the returned energy equals q up to a small error.", "quantifier": "all q, all parameters, all behaviours of the Newton iteration", "why_tests_cant": "all real parameters and iterations", "anchors": ["ries/resonance/pseudo_voigt.py:PseudoVoigtDistribution.ppf"]}
{"id": "C39", "title": "Pseudo-Voigt ppf always returns an energy", "statement": "ppf returns numbers for every quantile or array of quantiles, using the approximation whenever the numerical inversion fails for any value.", "quantifier": "all quantile arrays, all outcomes of scipy.optimize.newton", "why_tests_cant": "all outcomes of the external root finder", "anchors": ["ries/resonance/pseudo_voigt.py:PseudoVoigtDistribution.ppf"]}
{"id": "C40", "title": "Voigt coverage", "statement": "The coverage interval of Voigt(...) contains the requested fraction of the Voigt cross section up to few percent.", "quantifier": "all parameters", "why_tests_cant": "all real parameters", "anchors": ["ries/resonance/voigt.py:Voigt", "ries/resonance/voigt.py:SemiPseudoVoigtDistribution"]}
{"id": "C41", "title": "Darboux on the probability grid encloses the integrated cross section", "statement": "For Breit-Wigner and Gauss resonances, coverage c and any number n>=2 of grid points, the lower sum returned by darboux is at most c I_r; for odd n (the median is a grid point) also c I_r <= L + d.", "quantifier": "all parameters, all n", "why_tests_cant": "composition of two unbounded families", "anchors": ["ries/integration/darboux.py:darboux", "ries/resonance/resonance.py:Resonance.equidistant_probability_grid"]}
{"id": "C42", "title": "Scattering angle and scattered energy are inverse to each other", "statement": "E * Ep_over_E(E, theta(E, Ep)) = Ep for Ep between the Compton edge and E, and theta(E, E*Ep_over_E(E, t)) = t for t in [0, pi].", "quantifier": "all energies and angles", "why_tests_cant": "all real parameters", "anchors": ["ries/nonresonant/klein_nishina.py:KleinNishina.theta", "ries/nonresonant/klein_nishina.py:KleinNishina.Ep_over_E"]}
{"id": "C43", "title": "Compton edge", "statement": "compton_edge(E) = E/(1 + 2E/mc2) is the smallest scattered energy over all angles, attained exactly at 180 degrees; scattered energies decrease strictly with the angle on [0, pi].", "quantifier": "all energies and angles", "why_tests_cant": "all real parameters", "anchors": ["ries/nonresonant/klein_nishina.py:KleinNishina.compton_edge"]}
{"id": "C44", "title": "Angle-differential cross section integrates to the total cross section", "statement": "The integral of cs_diff_dtheta(E, .) over [0, pi] equals cs_total(E) for every E>0 (electron).", "quantifier": "all energies", "why_tests_cant": "all real parameters, an integral", "anchors": ["ries/nonresonant/klein_nishina.py:KleinNishina.cs_diff_dtheta", "ries/nonresonant/klein_nishina.py:KleinNishina.cs_total"]}
{"id": "C45", "title": "Energy-differential cross section integrates to the total cross section", "statement": "The integral of cs_diff_dEp(E, .) from the Compton edge to E equals cs_total(E), and integrating cs_diff_dEp_dphi over energy and azimuth gives the same.", "quantifier": "all energies", "why_tests_cant": "all real parameters, an integral", "anchors": ["ries/nonresonant/klein_nishina.py:KleinNishina.cs_diff_dEp", "ries/nonresonant/klein_nishina.py:KleinNishina.cs_diff_dEp_dphi"]}
{"id": "C46", "title": "Solid-angle differential cross section", "statement": "Integrating cs_diff_dOmega * sin(theta) over theta and phi gives cs_total(E); it is nonnegative everywhere.", "quantifier": "all energies and angles", "why_tests_cant": "all real parameters, a double integral", "anchors": ["ries/nonresonant/klein_nishina.py:KleinNishina.cs_diff_dOmega"]}
{"id": "C47", "title": "Unpolarised cross section is the azimuthal average", "statement": "cs_diff_dOmega_unpolarized(E, theta) is the average of cs_diff_dOmega(E, theta, phi) over phi.", "quantifier": "all energies and angles", "why_tests_cant": "all real parameters, an integral", "anchors": ["ries/nonresonant/klein_nishina.py:KleinNishina.cs_diff_dOmega_unpolarized"]}
{"id": "C48", "title": "Other scattering particles", "statement": "KleinNishina(Z, mc2) is self-consistent for every mass: compton_edge and the integral of the differential cross sections agree with the documented formulas for mc2.", "quantifier": "all masses and energies", "why_tests_cant": "all real parameters", "anchors": ["ries/nonresonant/klein_nishina.py:KleinNishina.__init__", "ries/nonresonant/klein_nishina.py:KleinNishina.theta", "ries/nonresonant/klein_nishina.py:KleinNishina.Ep_over_E"]}
{"id": "C49", "title": "Total Compton cross section is positive, below and tending to the Thomson limit", "statement": "0 < cs_total(E) < 8 pi/3 * scale_factor for all E>0, cs_total(E) tends to that limit for E->0, and is proportional to Z.", "quantifier": "all energies", "why_tests_cant": "all real parameters, a cancelling expression", "anchors": ["ries/nonresonant/klein_nishina.py:KleinNishina.cs_total"]}
{"id": "C50", "title": "XRMAC interpolation", "statement": "At a tabulated energy that occurs once the tabulated coefficient is returned; between two neighbouring energies the value is between the neighbours' values and log-log linear (a power law); outside the table the first/last value is returned; all values are positive. At a negative energy the result is nan, unless the table has a single line, the coefficient of which is returned at every energy.", "quantifier": "all tables with nondecreasing positive energies and positive coefficients, all energies", "why_tests_cant": "all tables and all energies", "anchors": ["ries/nonresonant/xrmac.py:XRMAC.__call__", "ries/nonresonant/xrmac.py:XRMAC.interpolate_log_log"]}
{"id": "C51", "title": "XRMAC file reader round trip", "statement": "For every table written in the format of Hubbell and Seltzer, with or without the edge-label column, reading the file returns exactly the tabulated numbers (converted), for any number of lines and any labels.", "quantifier": "all tables", "why_tests_cant": "all files", "anchors": ["ries/nonresonant/xrmac.py:XRMAC.read_nist_xrmac"]}
{"id": "C52", "title": "XRMAC file reader does not depend on the final newline", "statement": "A file whose last line lacks the newline is read like the same file with it.", "quantifier": "all tables; the supplied file for lead is of this kind", "why_tests_cant": "all files", "anchors": ["ries/nonresonant/xrmac.py:XRMAC.read_nist_xrmac", "ries/nonresonant/nist_xrmac/82.txt"]}
{"id": "C53", "title": "NIST element reader round trip", "statement": "For every file in the 'Linearized ASCII Output' format with paragraphs ordered by atomic number and values with uncertainty, read_nist_element_data(Z) returns exactly the isotopes of Z with their masses and abundances, in file order.", "quantifier": "all files and all Z", "why_tests_cant": "all files", "anchors": ["ries/constituents/natural_element_data.py:NISTElementDataReader.read_nist_element_data"]}
{"id": "C54", "title": "NIST values without uncertainty", "statement": "Lines of the documented form 'PROPERTY = VALUE' (without parentheses) are read as VALUE.", "quantifier": "all values; 22 abundances in the supplied file have this form", "why_tests_cant": "all files", "anchors": ["ries/constituents/natural_element_data.py:NISTElementDataReader.read_nist_element_property_with_uncertainty"]}
{"id": "C55", "title": "natural_elements is consistent", "statement": "natural_elements has exactly the 118 symbols X[1..118] as distinct keys, natural_elements[X[Z]].Z = Z, all isotope keys end with the symbol, and each element with natural isotopes has a mass between its lightest and heaviest isotope.", "quantifier": "all 118 elements", "why_tests_cant": "the test looks at two elements", "anchors": ["ries/constituents/element.py:natural_elements", "ries/constituents/nist_elements/elements.txt"]}
{"id": "C56", "title": "Density lookup", "statement": "read_density_data(X) returns the density in the line of the element X, None if there is none.", "quantifier": "all files and symbols; all 118 elements for the supplied file", "why_tests_cant": "all files", "anchors": ["ries/constituents/natural_element_data.py:Geant4DensityDataReader.read_density_data"]}
{"id": "C57", "title": "Unit conversion of XRMAC tables", "statement": "xrmac_fm2_per_atom[X] uses the mass of the element X, also when its conversion function is called later.", "quantifier": "all 92 elements, all call times", "why_tests_cant": "depends on when the closure is called", "anchors": ["ries/nonresonant/xrmac.py:xrmac_fm2_per_atom"]}
{"id": "C58", "title": "Supplied XRMAC tables are well-formed", "statement": "All 92 supplied files are read without error and satisfy the hypotheses of the interpolation property: positive, nondecreasing energies from 1e-3 to 20 MeV and positive coefficients.", "quantifier": "all 92 files, all lines", "why_tests_cant": "tests look at one element", "anchors": ["ries/nonresonant/xrmac.py:xrmac_cm2_per_g"]}
{"id": "C59", "title": "Cross sections per atom are positive", "statement": "For each of the 92 elements, xrmac_fm2_per_atom[X](E) is positive for all energies E >= 0.", "quantifier": "all 92 elements, all energies", "why_tests_cant": "tests look at one element and one energy", "anchors": ["ries/nonresonant/xrmac.py:xrmac_fm2_per_atom"]}
{"id": "C60", "title": "Voigt profile is the Doppler average of the Breit-Wigner curve", "statement": "At every energy E the Voigt cross section is the integral over E' of the distribution of Doppler shifts (normal, Doppler width Delta at the resonance energy) times the BreitWigner cross section of the same transition; at temperature 0 both classes agree exactly, and for a vanishing width Voigt agrees with Gauss.", "quantifier": "all transitions, widths, masses, temperatures and energies", "why_tests_cant": "an improper integral for all energies", "anchors": ["ries/resonance/voigt.py:Voigt", "ries/resonance/voigt.py:SemiPseudoVoigtDistribution.pdf", "ries/resonance/breit_wigner.py:BreitWigner"]}
{"id": "C61", "title": "Shape of the Voigt cross section", "statement": "The Voigt cross section is positive, continuous, symmetric about the resonance energy, strictly increasing below and strictly decreasing above it, its integral over all energies is the energy-integrated cross section, and it never exceeds the maximum of the BreitWigner or the Gauss cross section.", "quantifier": "all transitions, widths, masses and temperatures", "why_tests_cant": "an improper integral; all energies", "anchors": ["ries/resonance/voigt.py:Voigt"]}
{"id": "C62", "title": "Limits of the Voigt cross section", "statement": "The Voigt cross section approaches the BreitWigner cross section for small Delta/Gamma and the Gauss cross section for small Gamma/Delta, uniformly in the energy, with explicit bounds relative to the maximum.", "quantifier": "all transitions, widths, masses, temperatures and energies", "why_tests_cant": "a limit", "anchors": ["ries/resonance/voigt.py:Voigt", "ries/resonance/gauss.py:Gauss", "ries/resonance/breit_wigner.py:BreitWigner"]}
{"id": "C63", "title": "Refining a grid improves the Darboux sums", "statement": "If the points of an ascending grid x are contained in an ascending grid y with the same ends and f is monotone on each cell of x, darboux(f, y) returns a lower sum at least as large, an upper sum at most as large and an uncertainty at most as large as darboux(f, x).", "quantifier": "all functions and all pairs of grids", "why_tests_cant": "all grids and functions", "anchors": ["ries/integration/darboux.py:darboux"]}
{"id": "C64", "title": "Darboux sums converge", "statement": "For a function that is continuous on [a,b], monotone or not, the result of darboux converges to the integral and the reported uncertainty to 0 when the largest cell of the grid shrinks; with a Lipschitz constant K both are bounded by K times cell size times length. In particular this holds for cross sections on equidistant_energy_grid((a,b), n) with growing n.", "quantifier": "all continuous functions, all grids, all cross sections", "why_tests_cant": "a limit over all grids", "anchors": ["ries/integration/darboux.py:darboux", "ries/cross_section.py:CrossSection.equidistant_energy_grid"]}
{"id": "C65", "title": "Integral of an arithmetic expression", "statement": "The integral of a cross section built with +, *, sum() and CrossSectionWeightedSum, over an interval or over all energies, is the same linear combination of the integrals of its terms; for a weighted sum of lines it is the weighted sum of the energy_integrated_cross_section attributes.", "quantifier": "all expressions, all weights, all numbers of lines", "why_tests_cant": "improper integrals of arbitrary expressions", "anchors": ["ries/cross_section.py:CrossSectionWeightedSum.__call__", "ries/resonance/resonance.py:Resonance.__call__"]}
{"id": "C66", "title": "Darboux integration of a weighted sum on its probability grid", "statement": "For a weighted sum of lines on its equidistant_probability_grid(coverage, n) with odd n, the Darboux sums enclose the integral over the range of the grid, and this range covers at least the fraction 'coverage' of the energy-integrated cross section.", "quantifier": "all weights, all lists of lines, all coverages and odd n", "why_tests_cant": "infinitely many sums", "anchors": ["ries/cross_section.py:CrossSectionWeightedSum.equidistant_probability_grid", "ries/integration/darboux.py:darboux"]}
{"id": "C67", "title": "Energy grid of a line for a given coverage", "statement": "For a Breit-Wigner or Gaussian line, equidistant_energy_grid(c, n) with a coverage 0 < c < 1 returns n equidistant energies from E-d to E+d, where (E-d, E+d) is coverage_interval(c) and the cross section integrates to c times the energy-integrated cross section between them. With odd n the resonance energy is a grid point, the Darboux sums enclose that integral, and the reported uncertainty is 4d/(n-1) times the drop of the cross section from the resonance energy to the end of the interval. As n grows, the Darboux integral on this grid, and on the equidistant probability grid, converges to c times the energy-integrated cross section and the uncertainty to 0. With n = 2 the uncertainty is 0 although the sum is too small.", "quantifier": "all lines, all coverages, all n", "why_tests_cant": "limits and integrals over all parameters", "anchors": ["ries/resonance/resonance.py:Resonance.coverage_interval", "ries/resonance/resonance.py:Resonance.equidistant_energy_grid", "ries/resonance/resonance.py:Resonance.equidistant_probability_grid", "ries/integration/darboux.py:darboux"]}
{"id": "C68", "title": "Doppler broadening with temperature", "statement": "Raising the effective temperature from T1 to T2 with everything else unchanged keeps the resonance energy and the energy-integrated cross section. A Gauss curve is stretched by q = sqrt(T2/T1): q * sigma_2(E_r + q x) = sigma_1(E_r + x), coverage_interval is stretched by q, the maximum is lowered, and there is one distance from the resonance energy within which the hotter curve is lower and beyond which it is not. For a Voigt profile (T1 = 0 included) the maximum and the integral over every interval that is symmetric around the resonance energy become strictly smaller.", "quantifier": "all transitions, masses, temperatures, widths, coverages and intervals", "why_tests_cant": "a comparison of two curves at all energies and of integrals over all intervals", "anchors": ["ries/resonance/gauss.py:Gauss.__init__", "ries/resonance/voigt.py:Voigt.__init__", "ries/resonance/maxwell_boltzmann.py:MaxwellBoltzmann.get_doppler_width"]}
{"id": "C69", "title": "Width of a state after its partial widths are modified", "statement": "A State refers to the dictionary that was passed to it, while its width is computed once: state.width equals the sum of state.partial_widths for every state as long as no program statement modifies a dictionary or assigns to partial_widths, no statement changes the width of an existing state, and an assignment d[k] = v is seen in partial_widths of exactly the states that were created with d. The width is the sum of the partial widths at any time.", "quantifier": "all programs that create and modify dictionaries, states, isotopes and elements", "why_tests_cant": "all sequences of creations and modifications", "anchors": ["ries/constituents/state.py:State.__init__", "ries/resonance/resonance.py:Resonance.get_final_state_branching_ratio"]}
{"id": "C70", "title": "Mass of an element after its isotopes are modified", "statement": "Element.amu is computed once from references to the dictionaries of isotopes and abundances: it is the abundance-weighted sum of the masses for every element as long as no program statement modifies a dictionary or the mass of an isotope, no statement changes the mass of an existing element, and i.amu = v is seen in e.isotopes of every element with this isotope. The mass is the weighted sum at any time.", "quantifier": "all programs that create and modify dictionaries, states, isotopes and elements", "why_tests_cant": "all sequences of creations and modifications", "anchors": ["ries/constituents/element.py:Element.__init__", "ries/constituents/element.py:Element.amu_from_isotopic_composition"]}
{"id": "C71", "title": "List of excited states of an isotope", "statement": "Isotopes that are created without excited states do not share a list: such an isotope has no excited states until they are appended to its own list. An isotope that is created with a list refers to this list, so that a state appended to it later is seen by exactly the isotopes with this list.", "quantifier": "all programs that create and modify lists, states and isotopes", "why_tests_cant": "all sequences of creations and modifications", "anchors": ["ries/constituents/isotope.py:Isotope.__init__"]}
{"id": "C72", "title": "Sums and products of cross sections in floating point", "statement": "With every operation rounded to the nearest float: (a + b)(E) is bit for bit the rounded sum of a(E) and b(E), (c * a)(E) is the rounded product of c and a(E), and (-1 * a)(E) is -a(E). The value of a weighted sum of n cross sections differs from the exact one by at most ((1 + 2^-53)^n - 1) times the sum of the magnitudes of its terms (plus n (1 + 2^-53)^(n-1) 2^-1075 for underflow); with weights and cross sections that are not negative, it is at least as large as each of its terms. The value does not depend on the order in which cross sections are added.", "quantifier": "all weighted sums, all energies, all floats (without overflow)", "why_tests_cant": "all floats", "anchors": ["ries/cross_section.py:CrossSectionWeightedSum.__call__", "ries/cross_section.py:CrossSectionWeightedSum.__add__", "ries/cross_section.py:CrossSection.__add__", "ries/cross_section.py:CrossSection.__mul__"]}
{"id": "C73", "title": "Darboux integral in floating point", "statement": "With every operation rounded to the nearest float, on an ascending grid of floats, and for any order in which numpy adds the products: the lower sum does not exceed the upper sum, larger values do not give a smaller integral, values that are not negative give an integral that is not negative, and a constant has uncertainty 0. Integral and uncertainty differ from their exact values by at most a bound B of about (depth of the summation + 2) 2^-52 times the sum of magnitudes; for a function that is monotone on each cell and evaluated with relative error delta, the integral lies between L - B and L + (1 + 2^-52) d + B. The reported interval [L, L + d] itself contains the integral.", "quantifier": "all grids, all values, all orders of summation (without overflow)", "why_tests_cant": "all floats and all functions", "anchors": ["ries/integration/darboux.py:darboux"]}
{"id": "C74", "title": "Equidistant grids in floating point", "statement": "With every operation rounded to the nearest float, np.linspace(a, b, n) with floats a <= b and 2 <= n <= 2^50 has n ascending points within [a, b], the first is a, the last is b, and each differs from the exact one by at most 2^-50 max(|a|, |b|), provided that the distance of the points is not subnormal. The points are distinct if their distance is larger than 2^-49 max(|a|, |b|). Points are always ascending and distinct for a < b.", "quantifier": "all floats a <= b, all numbers of points", "why_tests_cant": "all floats", "anchors": ["ries/cross_section.py:CrossSection.equidistant_energy_grid", "ries/cross_section.py:ConstantCrossSection.equidistant_probability_grid"]}
{"id": "C75", "title": "Widths, branching ratios and masses in floating point", "statement": "With every operation rounded to the nearest float: the width of a state with n partial widths differs from the exact one by at most ((1 + 2^-53)^(n-1) - 1) times the sum of their magnitudes, is not smaller than any partial width, and is 0 only if all of them are. Branching ratios lie between 0 and 1, are exactly 1 for a single channel, and their exact sum differs from 1 by at most 2 ((1 + 2^-53)^n - 1) (plus n 2^-1075). The mass of an element has a relative error of at most (1 + 2^-53)^(h+1) - 1 for depth h of the summation. The width does not depend on the order of the partial widths, and branching ratios add up to 1.", "quantifier": "all dictionaries of partial widths, isotopes and abundances (without overflow)", "why_tests_cant": "all floats", "anchors": ["ries/constituents/state.py:State.__init__", "ries/resonance/resonance.py:Resonance.get_final_state_branching_ratio", "ries/constituents/element.py:Element.amu_from_isotopic_composition"]}
{"id": "C76", "title": "Total Klein-Nishina cross section in floating point", "statement": "With every operation rounded to the nearest float and a C library with relative errors of a few 2^-53, KleinNishina.cs_total(E) is the exact cross section at an energy E' with |E' - E| <= 2^-53 E, up to an error of at most 384 * 2^-53 * (1 + (mc^2/E')^3) times the Thomson cross section (8 pi/3 times the scale factor). Like the exact cross section, it is positive and does not exceed the Thomson cross section by more than a rounding error, at all energies.", "quantifier": "all energies between 2^-100 and 2^100 times the mass, all masses, all scale factors in the same range, all C libraries with this accuracy", "why_tests_cant": "all floats", "anchors": ["ries/nonresonant/klein_nishina.py:KleinNishina.cs_total"]}
{"id": "C77", "title": "The interpolated attenuation coefficient as a function of the energy", "statement": "For a table with ascending energies, the coefficient returned by XRMAC.__call__ is continuous at all positive energies which do not have several lines. At an absorption edge (several lines with the same energy) it tends to the first of these coefficients from below, and it has the last one as value and limit from above. Along any ascending energies it changes in total at most as much as the coefficients of the table, and it is descending if these are. It is integrable over any interval of positive energies, and darboux(xrmac, x) approximates the integral with an error (and a returned error) of at most the largest distance of the points of x times the total change of the tabulated coefficients, whether or not there are edges in between. Multiplying energies and coefficients of the table by factors (other units) multiplies the coefficients at the accordingly rescaled energies by the same factor. Inserting a line which the table already implies changes nothing.", "quantifier": "all tables with positive numbers and ascending energies, all positive energies, all ascending grids", "why_tests_cant": "all real energies; limits and integrals", "anchors": ["ries/nonresonant/xrmac.py:XRMAC.__init__", "ries/nonresonant/xrmac.py:XRMAC.__call__", "ries/nonresonant/xrmac.py:XRMAC.interpolate_log_log", "ries/integration/darboux.py:darboux"]}
{"id": "C78", "title": "Quantiles of the pseudo-Voigt distribution in floating point", "statement": "With every operation of the root finder rounded to the nearest float and a CDF and PDF which are computed with small errors (eps, absolute, for the CDF; at most 1 %, relative, for the PDF), a quantile x which ppf(q) returns without a warning has |cdf(x) - q| <= eps + (5e-8 + |x| 2^-50) / Gamma, for numbers and for arrays and for any limit of the iterations. ppf(q) returns without a warning for 2 s <= q <= 1 - 2 s if the errors are at most 2^-47 and the width is at most 1e5 s^6 (in units of the energy), up to 1e15 s Gamma for the energy; arrays of such quantiles are found if s >= 1/700 and the energy is at most 1e14 s^2 Gamma. For a line at rest with a width of at least 4e-5 and 1e-8 <= q <= 1e-5 which is not close to a multiple of 2^-54, the computed CDF (1/2 plus a number) jumps over q and the fallback is used whatever the number of iterations. All quantiles that are found with exact arithmetic are found with floats.", "quantifier": "all resonances and temperatures, all evaluations of CDF and PDF with these errors, all fallbacks, all floats q", "why_tests_cant": "all floats, all libraries with this accuracy", "anchors": ["ries/resonance/pseudo_voigt.py:PseudoVoigtDistribution.ppf"]}
{"id": "C79", "title": "Breit-Wigner cross sections in floating point", "statement": "With every operation rounded to the nearest float and a library function x ** 2 with a relative error of at most 2 * 2^-53, the resonance energy of a BreitWigner has a relative error of at most 2^-53, and a call at any energy E gives the exact cross section of a resonance at this rounded energy up to a relative error of at most 32 * 2^-53 (with the argument E, or with the rounded sum of E and the resonance energy if input_is_absolute_energy is False). At absolute energies farther from the resonance energy, the values are never larger, so that the maximum is at the resonance energy and both sides are symmetric. With input_is_absolute_energy=False, values have a small relative error, too, as functions of the offset from the resonance.", "quantifier": "all pairs of states with spins below 512, energy differences, widths and constants between 2^-60 and 2^60, all float energies up to 2^60, all libraries with this accuracy", "why_tests_cant": "all floats", "anchors": ["ries/resonance/resonance.py:Resonance.__call__", "ries/resonance/resonance.py:Resonance.get_energy_integrated_cross_section", "ries/resonance/breit_wigner.py:BreitWigner.__init__"]}
{"id": "C80", "title": "Doppler widths, recoil and Gaussian cross sections in floating point", "statement": "With every operation rounded to the nearest float and library functions x ** 2 and exp with relative errors of at most 2 * 2^-53: get_doppler_width has a relative error of at most 6 * 2^-53; get_effective_temperature applied to it returns the effective temperature with a relative error of at most 32 * 2^-53; FreeNucleusRecoil has a relative error of at most 8 * 2^-53 and never returns less than the energy difference; a Gauss object called at y standard deviations from the resonance, |y| <= 16, gives the exact cross section with a relative error of at most (34 + 11 y^2) 2^-53; values never increase with the distance from the resonance if exp is monotonic. The relative error is small at all energies.", "quantifier": "all pairs of states, masses, temperatures and constants in the range 2^-60 to 2^60, all float energies", "why_tests_cant": "all floats", "anchors": ["ries/resonance/maxwell_boltzmann.py:MaxwellBoltzmann.get_doppler_width", "ries/resonance/maxwell_boltzmann.py:MaxwellBoltzmann.get_effective_temperature", "ries/resonance/recoil.py:FreeNucleusRecoil.__call__", "ries/resonance/gauss.py:Gauss.__init__", "ries/resonance/resonance.py:Resonance.__call__"]}
{"id": "C81", "title": "Differential Klein-Nishina cross sections in floating point", "statement": "With every operation rounded to the nearest float and library functions cos, sin, x ** 2 and arccos with absolute errors of at most 4 * 2^-53 (x = E/me): the ratio Ep_over_E lies in (0, 1], has a relative error of at most (5 x + 7) 2^-53, never rises with the energy, and is exactly 1 for x <= 2^-55. compton_edge has a relative error of at most 6 * 2^-53, and no angle gives a photon of lower energy. cs_diff_dOmega_unpolarized is positive with a relative error of at most (25 x + 60) 2^-53; cs_diff_dOmega is not negative, and accurate up to (15 x + 50) 2^-53 times its part that does not depend on the polarisation; cs_diff_dtheta is accurate up to (25 x + 70) 2^-53 times the unpolarised cross section. For E' between the Compton edge and E, theta(E, E') has an accurate cosine or (within a few roundings of 180 degrees) is nan, and cs_diff_dEp has a relative error of at most (105 x + 3/x + 120) 2^-53 unless the angle is nan. theta(E, compton_edge(E)) is an angle for all energies.", "quantifier": "all energies (2^-100 <= x <= 2^20, partly 2^-20 <= x <= 2^18), all float angles, all masses and scale factors between 2^-100 and 2^100, all libraries with this accuracy", "why_tests_cant": "all floats", "anchors": ["ries/nonresonant/klein_nishina.py:KleinNishina.Ep_over_E", "ries/nonresonant/klein_nishina.py:KleinNishina.compton_edge", "ries/nonresonant/klein_nishina.py:KleinNishina.theta", "ries/nonresonant/klein_nishina.py:KleinNishina.cs_diff_dOmega", "ries/nonresonant/klein_nishina.py:KleinNishina.cs_diff_dOmega_unpolarized", "ries/nonresonant/klein_nishina.py:KleinNishina.cs_diff_dtheta", "ries/nonresonant/klein_nishina.py:KleinNishina.cs_diff_dEp", "ries/nonresonant/klein_nishina.py:KleinNishina.cs_diff_dEp_dphi"]}
{"id": "C82", "title": "Probability grids and coverage intervals in floating point", "statement": "For BreitWigner and Gauss with every operation rounded to the nearest float, and functions cdf and ppf of the standard distributions with errors of a few units of 2^-53 in terms of probability: equidistant_probability_grid((a, b), n) has n finite points in strictly ascending order, the first is a and the last is b, and the cumulative probabilities of the points are equidistant up to (32 + |location| / scale) 2^-53, if the probability of a cell exceeds twice this number. The same holds for a coverage c <= 1 - 2^-51, where the grid spans coverage_interval(c), which leaves out (1 - c)/2 on both sides up to this error. Location and scale are those of the exact object with relative errors of at most 8 * 2^-53. With finite limits or a coverage below 1, all points are finite, also in grids of sums.", "quantifier": "all locations and scales above 2^-200, all float limits and coverages, all n from 2 to 2^50, all libraries with this accuracy", "why_tests_cant": "all floats; far limits where a CDF is rounded to 1 are what the comment in the code is about", "anchors": ["ries/resonance/resonance.py:Resonance.coverage_interval", "ries/resonance/resonance.py:Resonance.equidistant_probability_grid", "ries/cross_section.py:CrossSectionWeightedSum.equidistant_probability_grid", "ries/resonance/breit_wigner.py:BreitWigner.__init__", "ries/resonance/gauss.py:Gauss.__init__"]}
{"id": "C83", "title": "Interpolated attenuation coefficients in floating point", "statement": "With every operation rounded to the nearest float, a monotonic log10 and a function 10 ** y with relative errors of at most 2 * 2^-53: for a table of positive floats with at most M digits before or after the point, in which neighbouring energies are equal (an absorption edge) or have a ratio of at least 1 + 2^-40 and the coefficient changes at most like the power S of the energy, XRMAC can be constructed, and a call at an energy E >= 0 returns the exact coefficient with a relative error of at most 96 (1 + S) M 2^-53; at a tabulated energy the coefficient of its last line with a relative error of at most 10 M 2^-53. This holds at all energies, also just below an absorption edge.", "quantifier": "all tables with these properties, M <= 100, (1 + S) M <= 2^30, all float energies, all libraries with this accuracy", "why_tests_cant": "all floats; the logarithm of an energy just below an edge may be rounded to that of the edge", "anchors": ["ries/nonresonant/xrmac.py:XRMAC.__init__", "ries/nonresonant/xrmac.py:XRMAC.__call__", "ries/nonresonant/xrmac.py:XRMAC.interpolate_log_log"]}
{"id": "C84", "title": "Pseudo-Voigt distributions in floating point", "statement": "With every operation rounded to the nearest float and library functions (x ** 2, exp, log, x ** 0.2, the standard normal and Cauchy distributions) with errors of a few units of 2^-53, either with a natural width or with thermal motion or with both: all attributes of PseudoVoigtDistribution have small relative errors (Gamma 39, eta 116, doppler_width 6, gamma_G 44, gamma_L 40 units of 2^-53). The PDF at t widths from the resonance has a relative error of at most (560 + 275 t^2) 2^-53 for |t| <= 7; with a natural width, it is positive and has a relative error of at most 2^-39 everywhere; it is never larger than 3/2 divided by the width. The CDF has an error of at most 300 * 2^-53. ppf without a warning returns a quantile up to 2^-44 plus (5e-8 + |x| 2^-50) in units of the width, for numbers and arrays; central quantiles are found without a warning; the approximation after a failure is finite. A call of a PseudoVoigt object gives the cross section at the rounded resonance energy up to a relative error of 2^-38, or (580 + 275 t^2) 2^-53 for |t| <= 7. The weight eta is at most 1 and the width is at least the natural width.", "quantifier": "all states, masses, temperatures and constants in the range 2^-60 to 2^60, all float energies (up to 2^60) and quantiles, all libraries with this accuracy", "why_tests_cant": "all floats; the fifth root of a sum of rounded fifth powers, and tails in which one of the parts underflows", "anchors": ["ries/resonance/pseudo_voigt.py:PseudoVoigtDistribution.__init__", "ries/resonance/pseudo_voigt.py:PseudoVoigtDistribution.expression", "ries/resonance/pseudo_voigt.py:PseudoVoigtDistribution.pdf", "ries/resonance/pseudo_voigt.py:PseudoVoigtDistribution.cdf", "ries/resonance/pseudo_voigt.py:PseudoVoigtDistribution.ppf", "ries/resonance/pseudo_voigt.py:PseudoVoigtDistribution.get_Gamma", "ries/resonance/pseudo_voigt.py:PseudoVoigtDistribution.get_eta", "ries/resonance/pseudo_voigt.py:PseudoVoigt.__init__", "ries/resonance/resonance.py:Resonance.__call__"]}
{"id": "C85", "title": "Ground states and parities", "statement": "GroundState(J_pi, two_J, parity) stores its arguments, has the excitation energy 0 and neither a width nor partial widths. A resonance that starts from a ground state has the excitation energy of the intermediate state as resonance energy. No resonance class accepts a ground state as intermediate state: an AttributeError is raised if the initial state has another energy. Parities are labels: objects of all resonance classes that are built from states which only differ in parity give the same cross sections, coverage intervals and grids, or raise the same exception. Isotope stores its arguments; without a list of excited states it has an empty one.", "quantifier": "all states, constants and parameters", "why_tests_cant": "all pairs of states and all classes", "anchors": ["ries/constituents/state.py:GroundState.__init__", "ries/constituents/isotope.py:Isotope.__init__", "ries/resonance/resonance.py:Resonance.__init__", "ries/resonance/breit_wigner.py:BreitWigner.__init__", "ries/resonance/gauss.py:Gauss.__init__", "ries/resonance/pseudo_voigt.py:PseudoVoigt.__init__", "ries/resonance/voigt.py:Voigt.__init__"]}
{"id": "C86", "title": "Lines without width and coverages outside of the unit interval", "statement": "No numbers are invented for lines without width: BreitWigner of a state with a vanishing or negative width, and Gauss at the temperature 0, return nan for all energies and coverages, and grids of nan except for limits that are passed through; PseudoVoigt and Voigt without any width are nan altogether. For a coverage c with |c| > 1, coverage intervals and grids of box, Breit-Wigner and Gaussian lines are nan; for a negative coverage the limits come in descending order. The approximation of the quantiles 0 and 1 of a pseudo-Voigt distribution without natural width or without motion is nan.", "quantifier": "all states, energies, coverages, grids", "why_tests_cant": "all invalid parameters", "anchors": ["ries/resonance/breit_wigner.py:BreitWigner.__init__", "ries/resonance/gauss.py:Gauss.__init__", "ries/resonance/resonance.py:Resonance.coverage_interval", "ries/resonance/resonance.py:Resonance.equidistant_energy_grid", "ries/resonance/resonance.py:Resonance.equidistant_probability_grid", "ries/resonance/pseudo_voigt.py:PseudoVoigtDistribution.ppf"]}
{"id": "C87", "title": "The abstract base class cannot be evaluated", "statement": "A weighted sum that contains an object of the abstract class CrossSection at any depth raises when it is called; if all other members answer and each has a scale factor, calls and requests for probability grids raise NotImplementedError.", "quantifier": "all nested weighted sums, all energies and grids", "why_tests_cant": "all nestings", "anchors": ["ries/cross_section.py:CrossSection.__call__", "ries/cross_section.py:CrossSection.equidistant_probability_grid", "ries/cross_section.py:CrossSectionWeightedSum.__call__", "ries/cross_section.py:CrossSectionWeightedSum.equidistant_probability_grid"]}
{"id": "C88", "title": "Overflow in sums, integrals and grids", "statement": "With IEEE 754 binary64 numbers (largest number, infinities, nan, signed zeros): a value of a nested weighted sum that is neither infinite nor nan is the value that the same operations give without a largest number, and the same exceptions are raised. If the second value of darboux (error estimate) is a number, both values are right and all arguments were numbers; this is the case whenever the values and points are moderate. np.linspace between limits of at most 2^1020 has the same points. np.pi is the float nearest to pi. A grid between two finite limits consists of numbers, and the Darboux sums of finite values at finite points are numbers.", "quantifier": "all nested sums, all values, points and orders of summation, all limits, all numbers of points up to 2^53", "why_tests_cant": "all floats including infinities and nan", "anchors": ["ries/cross_section.py:CrossSectionWeightedSum.__call__", "ries/integration/darboux.py:darboux", "ries/cross_section.py:CrossSection.equidistant_energy_grid"]}
{"id": "C89", "title": "Overflow in resonances", "statement": "With IEEE 754 binary64 numbers, states, masses, temperatures and constants between 2^-60 and 2^60: no intermediate result of a call of BreitWigner, Gauss or PseudoVoigt overflows for energies up to 2^300 (2^400), so that the error bounds in other properties hold; at all other energies, including both infinities, the value is a number (not negative for BreitWigner and Gauss); nan gives nan (BreitWigner). The same holds for the energy loss by recoil.", "quantifier": "all moderate states, all floats as energies, all C libraries that agree with an accurate one where its results are numbers", "why_tests_cant": "all floats including infinities and nan; all libraries", "anchors": ["ries/resonance/breit_wigner.py:BreitWigner.__init__", "ries/resonance/gauss.py:Gauss.__init__", "ries/resonance/pseudo_voigt.py:PseudoVoigt.__init__", "ries/resonance/resonance.py:Resonance.__call__", "ries/resonance/resonance.py:Resonance.__init__", "ries/resonance/recoil.py:FreeNucleusRecoil"]}
{"id": "C90", "title": "Sums of resonances, Compton scattering and tables", "statement": "For a weighted sum of resonances, KleinNishina objects and XRMAC tables, in any number and with any real scale factors: the value at each positive energy is the weighted sum of the values. On any ascending grid of positive energies whose cells are at most h wide, both the error of the Darboux sum and its error estimate are at most h times the sum of |w| V, where V is twice the peak of a resonance, the Thomson cross section, or the total change along the table. The probability grid between two energies is strictly ascending, begins and ends at the limits, consists of exactly the points of the members' grids, and contains the whole equidistant energy grid if a member is nonresonant. A coverage can be requested instead of limits for every such sum.", "quantifier": "all sums, scale factors, energies and grids", "why_tests_cant": "infinitely many sums and grids; integrals", "anchors": ["ries/cross_section.py:CrossSectionWeightedSum.__call__", "ries/cross_section.py:CrossSectionWeightedSum.equidistant_probability_grid", "ries/nonresonant/nonresonant.py:Nonresonant.equidistant_probability_grid", "ries/nonresonant/klein_nishina.py:KleinNishina.__call__", "ries/nonresonant/xrmac.py:XRMAC.__call__", "ries/integration/darboux.py:darboux"]}
{"id": "C91", "title": "Compton cross sections outside of the physical domain", "statement": "For any real energies and angles: the ratio of the energies is 1 / (1 + E / mc2 (1 - cos(theta))) unless the denominator vanishes, which happens for some angle iff E <= -mc2 / 2; there, the ratio and all differential cross sections are nan. The total cross section exists for E > -mc2 / 2 except at E = 0, where (as at -mc2 / 2) a ZeroDivisionError is raised, and is nan below. The differential cross sections with respect to the energy of the scattered photon are numbers from the Compton edge to E, raise ZeroDivisionError at 0 and are nan for all other energies. A massless particle is rejected with a ZeroDivisionError.", "quantifier": "all real energies, angles, charges, masses and constants", "why_tests_cant": "all inputs", "anchors": ["ries/nonresonant/klein_nishina.py:KleinNishina.__init__", "ries/nonresonant/klein_nishina.py:KleinNishina.Ep_over_E", "ries/nonresonant/klein_nishina.py:KleinNishina.theta", "ries/nonresonant/klein_nishina.py:KleinNishina.cs_diff_dOmega", "ries/nonresonant/klein_nishina.py:KleinNishina.cs_diff_dEp", "ries/nonresonant/klein_nishina.py:KleinNishina.cs_diff_dEp_dphi", "ries/nonresonant/klein_nishina.py:KleinNishina.cs_total"]}
{"id": "C92", "title": "NIST paragraphs with missing data", "statement": "After any header and any complete paragraphs: reading an element with a paragraph that has no mass number behind the equality sign raises TypeError. If the first paragraph of the element has no line with a mass number, UnboundLocalError is raised. A paragraph without symbol behind the equality sign gives an isotope whose name ends with 'None' and which has the right mass and abundance. If a paragraph has no line with a mass number, the masses and abundances of the other isotopes of the element are still read as they are written.", "quantifier": "all files of this form", "why_tests_cant": "infinitely many files", "anchors": ["ries/constituents/natural_element_data.py:read_nist_element_data", "ries/constituents/natural_element_data.py:read_nist_element_property"]}
{"id": "C93", "title": "Reaction rates in a layered target (notebook)", "statement": "The functions of layer_target.ipynb. Phi and alpha solve the attenuation equation with the sum of the cross sections, whose solution is unique; Phi is multiplicative, decreasing and between 0 and 1. For each energy, the integrals of dN_dE_drho_I ... IV over their layers are the fractions of the photons that react in them after having passed the layers before; they are not negative, and with the transmitted fraction they do not exceed 1. The energy ranges from equidistant_probability_grid(0.999, 2) of Voigt lines up to 10^9 MeV wide are finite and contain the resonance. N_116Sn_I ... N_112Sn_IV are, up to the error of nquad, the integrals of those fractions, and at most the number for an infinitely thin layer. The thin-target approximation is never too small and its excess is at most depth^2 / 2 times the integral of the product of the cross sections.", "quantifier": "all cross sections, Voigt lines, areal densities and enrichments; all integrators of a given accuracy", "why_tests_cant": "infinitely many targets; integrals; an external integrator", "anchors": ["notebooks/layer_target.ipynb:Phi", "notebooks/layer_target.ipynb:alpha", "notebooks/layer_target.ipynb:dN_dE_drho_IV", "ries/resonance/resonance.py:Resonance.equidistant_probability_grid", "ries/resonance/resonance.py:Resonance.__call__"]}
{"id": "C94", "title": "Self absorption of 6Li (notebook)", "statement": "The functions of 6Li.ipynb. R is the relative loss of reactions in the scatterer that the absorber causes, integrated over the coverage interval of a Voigt line, which is finite and contains the resonance. It is in [0, 1), is 0 without an absorber only, increases strictly with the mass of the absorber and does not increase with the mass of the scatterer. It is between the absorption at the ends of the interval and the absorption at the resonance, and depends on the masses of 6Li per area only. areal_density is the number of 6Li nuclei per area for every enrichment.", "quantifier": "all widths, masses, diameters, enrichments, temperatures and coverages in the physical domain", "why_tests_cant": "infinitely many inputs; monotonicity; integrals", "anchors": ["notebooks/6Li.ipynb:R", "notebooks/6Li.ipynb:areal_density", "notebooks/6Li.ipynb:molar_mass", "notebooks/6Li.ipynb:photon_flux_density", "ries/resonance/resonance.py:Resonance.coverage_interval"]}
{"id": "C95", "title": "Overflow in Compton cross sections", "statement": "With binary64 numbers including infinities and nan. A finite total cross section of a numpy energy is the value that rounding alone gives, whatever the energy and the particle; it is finite between 2^-100 and 2^100 masses. At zero it is nan (numpy) or ZeroDivisionError (Python), at infinity and nan it is nan. Ratio, Compton edge and angle-differential cross sections are not affected up to 2^900 electron masses; angle and energy-differential cross sections agree, nan included, between the Compton edge and the initial energy. For all energies and angles, Python floats and elements of arrays give the same, except that an infinity or nan replaces an exception. The scale factor is within 5 roundoffs of Z alpha^2 hbarc^2 / mc2^2 for masses between 2^-200 and 2^200. The total cross section is finite for all positive energies, and a positive mass gives a positive scale factor.", "quantifier": "all binary64 energies, angles and particles; all library functions with the properties of C76 and C81 and the special values of the C standard (Annex F)", "why_tests_cant": "2^64 energies; infinitely many library functions", "anchors": ["ries/nonresonant/klein_nishina.py:KleinNishina.__init__", "ries/nonresonant/klein_nishina.py:KleinNishina.cs_total", "ries/nonresonant/klein_nishina.py:KleinNishina.Ep_over_E", "ries/nonresonant/klein_nishina.py:KleinNishina.theta", "ries/nonresonant/klein_nishina.py:KleinNishina.cs_diff_dOmega", "ries/nonresonant/klein_nishina.py:KleinNishina.cs_diff_dEp", "ries/nonresonant/klein_nishina.py:KleinNishina.cs_diff_dEp_dphi"]}
{"id": "C96", "title": "Compton cross sections of arrays and lists", "statement": "All methods of KleinNishina accept arrays of any dimension, floats and mixtures of them. The result has the broadcast shape of all arguments, and each element is what the method gives for the corresponding elements (an infinity or nan where Python floats raise an exception); clashing shapes raise ValueError. Floats only give a numpy float. Lists of angles are treated like arrays. Lists of energies ('array_like') are treated like arrays as well.", "quantifier": "all shapes, elements, charges, masses and library functions", "why_tests_cant": "infinitely many shapes and combinations of arguments", "anchors": ["ries/nonresonant/klein_nishina.py:KleinNishina.__call__", "ries/nonresonant/klein_nishina.py:KleinNishina.cs_total", "ries/nonresonant/klein_nishina.py:KleinNishina.compton_edge", "ries/nonresonant/klein_nishina.py:KleinNishina.theta", "ries/nonresonant/klein_nishina.py:KleinNishina.Ep_over_E", "ries/nonresonant/klein_nishina.py:KleinNishina.cs_diff_dOmega", "ries/nonresonant/klein_nishina.py:KleinNishina.cs_diff_dOmega_unpolarized", "ries/nonresonant/klein_nishina.py:KleinNishina.cs_diff_dEp", "ries/nonresonant/klein_nishina.py:KleinNishina.cs_diff_dEp_dphi", "ries/nonresonant/klein_nishina.py:KleinNishina.cs_diff_dtheta"]}
{"id": "C97", "title": "Cross sections, Doppler widths and temperatures of arrays and lists", "statement": "Every cross section (lines, tables, Compton scattering, constants and nested weighted sums of them) can be called with arrays of any shape and with floats. The value for an array is an array of the same shape with the values for its elements; no call raises an exception if there is a scale factor for each reaction. Breit-Wigner, Gauss and pseudo-Voigt lines do the same for relative energies. Doppler widths and effective temperatures are calculated elementwise with broadcasting; the Debye model does the same for lists and raises an exception if one of the temperatures is zero, if the shapes do not fit or if an array is empty. Lists ('array_like') are treated like arrays by all of them.", "quantifier": "all cross sections, shapes, elements, distributions, tables and library functions", "why_tests_cant": "infinitely many shapes, nested sums and combinations of arguments", "anchors": ["ries/cross_section.py:CrossSectionWeightedSum.__call__", "ries/cross_section.py:ConstantCrossSection.__call__", "ries/resonance/resonance.py:Resonance.__call__", "ries/resonance/pseudo_voigt.py:PseudoVoigtDistribution.pdf", "ries/nonresonant/xrmac.py:XRMAC.__call__", "ries/resonance/voigt.py:VoigtDistribution.pdf", "ries/resonance/maxwell_boltzmann.py:MaxwellBoltzmann.get_doppler_width", "ries/resonance/maxwell_boltzmann.py:MaxwellBoltzmann.get_effective_temperature", "ries/resonance/debye_model.py:effective_temperature_debye_approximation"]}
{"id": "C98", "title": "Attenuation coefficients that are read from files into floats", "statement": "Reading the decimal numbers of a file rounds them. Numbers keep their order. For every table of positive numbers, the float coefficient at an energy that is not just below an absorption edge differs from the coefficient of the table as it is written by a relative error of at most (1 + S)(104 M + 4 k) units, where S is the steepness of the table, 10^M bounds its numbers and k is the number of roundings of its coefficients. Atomic masses of elements with n isotopes have a relative error of at most n + 4 units. Importing the module gives the same keys as with exact numbers, tables in cm2/g with one rounding and tables in fm2/atom with up to n + 15. With the supplied files, all coefficients in cm2/g are accurate to 5e-12 and, for elements with a mass, those in fm2/atom to 1.1e-11.", "quantifier": "all files, elements, energies, orders of summation and library functions with the properties of C83", "why_tests_cant": "infinitely many tables and energies; rounding errors cannot be observed without an exact reference", "anchors": ["ries/nonresonant/xrmac.py:XRMAC.__init__", "ries/nonresonant/xrmac.py:XRMAC.__call__", "ries/nonresonant/xrmac.py:read_nist_xrmac", "ries/nonresonant/xrmac.py:xrmac_cm2_per_g", "ries/nonresonant/xrmac.py:xrmac_fm2_per_atom", "ries/constituents/element.py:Element.amu_from_isotopic_composition"]}
{"id": "C99", "title": "Rounding in the Debye model", "statement": "effective_temperature_debye_approximation with binary64 numbers: if the quadrature rule has a relative error eps for the exact integrand and adds values with a relative error kappa, the effective temperature has a relative error of at most eps + 2 kappa + (60 + 80 T / T_D) units with respect to Lamb's formula, although exp(t) - 1 cancels close to the lower limit and exp(t) overflows for cold targets. Zero temperatures raise ZeroDivisionError. The integrand is finite for all positive temperatures.", "quantifier": "all temperatures between 2^-30 and 2^30 with a ratio in the same range, all library functions that are accurate to two units, all quadratures with positive weights", "why_tests_cant": "infinitely many temperatures and quadratures; no exact reference", "anchors": ["ries/resonance/debye_model.py:effective_temperature_debye_approximation"]}
{"id": "C100", "title": "Rounding in quad_partition", "statement": "With binary64 numbers, the integral is within n - 1 roundings of the sum of the n parts, and the uncertainty within n + 1 roundings of the root of the sum of the squared estimates. If all estimates are correct, the distance to the true integral is at most sqrt(n) times the exact uncertainty plus the rounding errors. A vanishing uncertainty means that the integral is exact up to rounding.", "quantifier": "all integrands, partitions, ranges and integration routines", "why_tests_cant": "infinitely many integrands and partitions", "anchors": ["ries/integration/quad_partition.py:quad_partition"]}
{"id": "C101", "title": "Rounding in Voigt profiles", "statement": "With binary64 numbers, a call of a Voigt resonance is accurate for every implementation of the Voigt profile with a relative error eps: the relative error of the cross section is at most 2 eps + (42 + 10 d) units, where d is the distance to the resonance in natural half widths (up to 2^40), and also with the square of the distance in Doppler widths (up to 2^20) in place of d. A shift of the energy by a fraction z of the natural half width changes the profile by at most the fraction z + z^2, it is at least a Lorentzian of the combined width, and it scales with the unit of energy.", "quantifier": "all states, masses, temperatures and energies in a wide range, all library functions with the properties of C84, all implementations of the profile", "why_tests_cant": "infinitely many resonances and energies; no exact reference", "anchors": ["ries/resonance/voigt.py:VoigtDistribution.pdf", "ries/resonance/voigt.py:Voigt.__init__", "ries/resonance/resonance.py:Resonance.__call__"]}
{"id": "C102", "title": "Attenuation coefficients with infinities and nan", "statement": "With binary64 numbers, a finite coefficient at a positive energy is the one without any limit of numbers, and coefficients between 1e-90 and 1e90 never overflow. A table without negative coefficients never gives nan at an energy that is not negative, +inf included. Between two energies, one of which has the coefficient zero, the result is zero; if one has a negative coefficient or nan, it is nan. Negative energies and nan give nan, zero the first and +inf the last coefficient, and a table with a single line gives its coefficient at every energy, nan included. If a table begins at the energy zero, the second coefficient is returned below the second energy (nan if exactly one of both coefficients is zero).", "quantifier": "all tables and energies, all library functions with the special values of the C standard", "why_tests_cant": "infinitely many tables and energies; special values propagate through sorting, slopes and powers", "anchors": ["ries/nonresonant/xrmac.py:XRMAC.__call__", "ries/nonresonant/xrmac.py:XRMAC.interpolate_log_log"]}
{"id": "C103", "title": "Coverage intervals and grids with infinities and nan", "statement": "With binary64 numbers, coverage intervals and probability grids of Breit-Wigner and Gauss resonances have the same points as without any limit of numbers, where an infinity stands for itself or for a number of 2^900 or more with the same sign; warnings are issued exactly for negative lower limits and infinite upper limits. The grid between -inf and +inf is the one with coverage 1; it begins and ends at the infinities, equidistant energies are nan, and none of these grids gives a finite Darboux sum, whatever the integrand. If the scale is not positive, or the location, a limit or the coverage is nan, all points except for given limits are nan. Both limits of a coverage above 1 are nan.", "quantifier": "all locations, scales, energies and coverages, numbers of points up to 2^53, all library functions that agree on numbers", "why_tests_cant": "infinitely many lines, limits and grids; special values propagate through linspace, quantiles and sums", "anchors": ["ries/resonance/resonance.py:Resonance.coverage_interval", "ries/resonance/resonance.py:Resonance.equidistant_energy_grid", "ries/resonance/resonance.py:Resonance.equidistant_probability_grid"]}
{"id": "C104", "title": "Integrals of resonances over probability grids, with rounding", "statement": "Integrate a Breit-Wigner or Gauss resonance as the notebooks do: equidistant_probability_grid for a coverage c, the cross section at its points, darboux. With every operation rounded to binary64, the lower sum is at most (1 + e) (c + 4 b) I + a and the lower sum plus the uncertainty, up to 2 units, is at least (1 - e) (c - 4 b) I / (1 + 49 o^2) - a, where I is the exact integrated cross section, b the contribution of rounding to a probability (C82), e the relative error of values and sums, a half the smallest float for each cell, and o = 2 b for an odd number of points and 2 b + c / (2 (n - 1)) for an even one: the points next to the maximum. The points stay within 10 standard deviations for a Gauss resonance, if the coverage is at most 1 - 4 b. The same enclosure holds for every function with a single maximum and all grids.", "quantifier": "all states, masses and temperatures in a wide range, all coverages, numbers of points from 3 to 2^50, library functions with errors of a few units, all orders of summation", "why_tests_cant": "infinitely many resonances and grids; errors of constructors, quantiles, calls and sums accumulate", "anchors": ["ries/resonance/resonance.py:Resonance.equidistant_probability_grid", "ries/resonance/resonance.py:Resonance.__call__", "ries/integration/darboux.py:darboux"]}
{"id": "C105", "title": "quad_partition with infinities and nan", "statement": "With binary64 numbers, the integral is nan if the integral of a part is nan or if parts are infinite with both signs, and an infinity or nan if a part is infinite. The uncertainty is nan exactly if an estimate is nan, otherwise it is not negative, and it is infinite if an estimate is infinite. Fewer than two points give zero and zero. The first part that raises an exception determines that of the call, and ranges given as an array raise ValueError. A finite result is the one without any limit of numbers; up to 2^53 parts of magnitudes up to 2^900 with estimates up to 2^450 give one. Finite parts with a finite sum and finite estimates always give one.", "quantifier": "all integrands, partitions with infinite and nan limits, ranges and integration routines", "why_tests_cant": "infinitely many integrands and partitions; special values propagate through the loop", "anchors": ["ries/integration/quad_partition.py:quad_partition"]}
{"id": "C106", "title": "Effective temperatures with infinities and nan", "statement": "With Python floats, effective_temperature_debye_approximation raises ZeroDivisionError exactly if one of the temperatures is zero, OverflowError exactly if the third power of T / T_D overflows although T / T_D is finite, and nothing else if the quadrature does not. It returns nan if a temperature is nan or T is infinite. A finite value for finite Debye temperatures is the one without any limit of numbers; between 2^-30 and 2^30 K it is finite. It is a number close to T for all finite T much larger than T_D, and not below T for an infinite T_D.", "quantifier": "all temperatures, library functions with the special values of the C standard, and quadratures", "why_tests_cant": "infinitely many temperatures; special values propagate through powers and integrals", "anchors": ["ries/resonance/debye_model.py:effective_temperature_debye_approximation"]}
{"id": "C107", "title": "Grids of pseudo-Voigt and Voigt lines, with rounding", "statement": "With every operation rounded to binary64, a coverage interval of a PseudoVoigt object that is returned without the warning of the root finder has the probabilities (1 - c) / 2 and (1 + c) / 2 below its limits, up to b = 2^-43 + (5e-8 + |x| / 2^50) / Gamma (the tolerance of the root finder in MeV, compared to the width of the line). It warns if and only if the lower limit is negative, and states the percentage at positive energies. Probability grids have the number of points that was asked for, with equidistant probabilities up to b, and begin and end with given limits. The points are ascending if the steps are larger than 2 b. The warning does not appear for lines and coverages in a stated range. Integrated over a grid as the notebooks do, the lower sum is at most (1 + e) (c + 2 b) I + a and the lower sum plus the uncertainty, up to 2 units, is at least (1 - e) (c - 2 b) I / (1 + 196 o^2) - a, in the notation of C104 with o = b or b + c / (2 (n - 1)).", "quantifier": "all states, masses and temperatures in a wide range, all coverages and limits, numbers of points up to 2^50, library functions with errors of a few units, all orders of summation", "why_tests_cant": "infinitely many resonances and grids; an iteration with a tolerance in MeV for all points at once; errors of constructors, quantiles, calls and sums accumulate", "anchors": ["ries/resonance/resonance.py:Resonance.coverage_interval", "ries/resonance/resonance.py:Resonance.equidistant_probability_grid", "ries/resonance/pseudo_voigt.py:PseudoVoigtDistribution.ppf", "ries/integration/darboux.py:darboux"]}
{"id": "C108", "title": "Grids of pseudo-Voigt lines with infinities and nan", "statement": "With binary64 numbers that overflow to infinities, a coverage interval or a probability grid of a PseudoVoigt object that consists of energies up to 2^400 MeV and is returned without the warning of the root finder has the probabilities that were asked for, up to the bound of C107: steps of the root finder to infinity or to energies at which everything underflows never end up there. It is, number by number, the one without any limit of numbers. For lines and coverages in the range of C107 all points are found and nothing overflows. A coverage or limits that are nan, a resonance energy that is nan and a width that is not positive, for example because the temperature is nan, give nan for all points except for given limits, without any warning if there are several points and with the warning of the root finder for a single one. If the root finder gives up, the values returned with the warning are those without any limit of numbers wherever they are finite; for the coverage 1 they are infinite for a mixture of both shapes and nan for a pure one. A grid of a single point is returned by the newer library only. No energies are returned for a coverage above 1, up to the tolerance of the root finder.", "quantifier": "all states, masses and temperatures in a wide range, all coverages and limits, numbers of points up to 2^50, library functions with errors of a few units that agree on numbers in both arithmetics", "why_tests_cant": "infinitely many resonances and grids; iterations for all points at once that may leave the range of numbers", "anchors": ["ries/resonance/resonance.py:Resonance.coverage_interval", "ries/resonance/resonance.py:Resonance.equidistant_probability_grid", "ries/resonance/pseudo_voigt.py:PseudoVoigtDistribution.ppf", "ries/resonance/pseudo_voigt.py:PseudoVoigtDistribution.cdf"]}
{"id": "C109", "title": "Voigt profiles with infinities and nan", "statement": "With binary64 numbers that overflow to infinities, calling a Voigt object with an energy up to 2^60 MeV gives a finite number: the one that arithmetic without any limit of numbers gives, with the accuracy of C101. At infinite energies the cross section is 0, at nan it is nan, and a temperature, mass or width that is nan never gives a number. Calls raise exactly the exceptions that calls of a PseudoVoigt object with the same arguments raise.", "quantifier": "all states, masses and temperatures in a wide range, all energies up to 2^60, infinite energies and nan; every implementation of voigt_profile with a given relative error; exceptions and nan parameters for all arguments", "why_tests_cant": "infinitely many resonances and energies; the library function is only known to be accurate", "anchors": ["ries/resonance/voigt.py:Voigt.__init__", "ries/resonance/voigt.py:SemiPseudoVoigtDistribution.pdf", "ries/resonance/resonance.py:Resonance.__call__"]}
{"id": "C110", "title": "Integrals of Voigt profiles, with rounding and with infinities and nan", "statement": "With every operation rounded to binary64, the Darboux sums of the values of a Voigt object at the points of an ascending grid enclose the exact integral of its cross section from the first to the last point: the lower sum exceeds it by at most a relative error of twice the one of voigt_profile, some 40 units and the depth of the sum; and lower sum plus returned difference fall short of it by at most that and the factor by which the maximum exceeds the value at the grid point next to the resonance energy, for which bounds in units of the natural or the Doppler width are given. For grids within 2^60 MeV and sums that are at most 400 additions deep, overflow and nan do not occur.", "quantifier": "all states, masses and temperatures in a wide range, all grids, all orders of summation, every implementation of voigt_profile with a given relative error", "why_tests_cant": "infinitely many resonances and grids; the exact integral is not known in closed form; errors of constructors, profile and sums accumulate", "anchors": ["ries/integration/darboux.py:darboux", "ries/resonance/voigt.py:Voigt.__init__", "ries/resonance/voigt.py:SemiPseudoVoigtDistribution.pdf", "ries/resonance/resonance.py:Resonance.__call__"]}
{"id": "C111", "title": "Attenuation in layers, with rounding", "statement": "With every operation rounded to binary64, Phi and alpha of layer_target.ipynb and photon_flux_density and resonance_absorption_density of 6Li.ipynb are accurate: if the computed cross sections have the relative error d, the optical depth tau has the error e = (d + 4u) tau, the transmission the relative error 2e + 3u and the absorption d + 3e + 7u (u = 2^-53, for depths up to 150, apart from underflow). For Voigt profiles, d is the bound of C101. Whatever the cross sections are, the computed transmission is between 0 and 1, equal to 1 for an areal density of 0, and it never increases with a cross section, the abundance or the areal density.", "quantifier": "all cross sections with a bounded relative error, all abundances and areal densities, exponential functions with an error of two units or that are monotonic", "why_tests_cant": "infinitely many energies and densities; errors of the exponent are amplified by the exponential function", "anchors": ["notebooks/layer_target.ipynb:Phi", "notebooks/layer_target.ipynb:alpha", "notebooks/6Li.ipynb:photon_flux_density", "notebooks/6Li.ipynb:resonance_absorption_density"]}
{"id": "C112", "title": "Attenuation in layers with infinities and nan", "statement": "With binary64 numbers that overflow to infinities, the transmission Phi of layer_target.ipynb is nan or from 0 to 1 for all cross sections, abundances and areal densities that are not negative. It is a number if the resonant cross section, the abundance and the positive density are finite, even if products overflow; for abundances up to 1, the absorption alpha is then a number from 0 to the resonant cross section. Nothing is transmitted through infinite cross sections and densities, the absorption by an infinite resonant cross section is nan, and nan anywhere gives nan. The same holds for photon_flux_density and resonance_absorption_density of 6Li.ipynb, which give numbers for Voigt profiles. Up to 2^300 all results are those without any limit of numbers, for which C111 holds.", "quantifier": "all cross sections, abundances and areal densities including infinities and nan, exponential functions with the special values of the C standard", "why_tests_cant": "infinitely many numbers; special values propagate through sums, products and the exponential function", "anchors": ["notebooks/layer_target.ipynb:Phi", "notebooks/layer_target.ipynb:alpha", "notebooks/6Li.ipynb:photon_flux_density", "notebooks/6Li.ipynb:resonance_absorption_density"]}
{"id": "C113", "title": "Layered targets, with rounding", "statement": "With every operation rounded to binary64, the boundaries of the four layers in layer_target.ipynb ascend and are accurate to 4 units, and the thicknesses of the layers, which are differences of boundaries, to 3 units of the depth. Whatever the target is, dN_dE_drho_I to dN_dE_drho_IV are not negative, at most the abundance times the cross section of the isotope of the layer, and never increase with the depth; nowhere in the third layer is more absorbed than anywhere in the first one, which is made of the same isotope. If the computed cross sections have the relative error d and the optical depth of the target is at most 150, with the error e = (d + 9u) tau, the four functions have the relative errors d + 3e + 7u, d + 6e + 13u, d + 10e + 20u and d + 14e + 27u (u = 2^-53), apart from underflow.", "quantifier": "all cross sections with a bounded relative error, all abundances and areal densities, exponential functions with an error of two units or that are monotonic", "why_tests_cant": "infinitely many targets, energies and depths; errors of boundaries, transmissions and products accumulate from layer to layer", "anchors": ["notebooks/layer_target.ipynb:dN_dE_drho_I", "notebooks/layer_target.ipynb:dN_dE_drho_II", "notebooks/layer_target.ipynb:dN_dE_drho_III", "notebooks/layer_target.ipynb:dN_dE_drho_IV"]}
