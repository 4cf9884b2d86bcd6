# Formal model of uga-uga/ries in Rocq (Coq 8.16.1)

`properties.jsonl` lists the properties (C01...), `MANIFEST.json` maps them to theorems,
`rocq/theories` holds the development, `tools/` the generators of data modules and of
`properties.jsonl`, `seeded/LOG.jsonl` the record of seeded-bug experiments.

## Layout

* `Py*.v`   fragments of the Python runtime the code relies on: outcomes (value / nan / exception),
            dicts, strings and slices, `int()`/`float()`.
* `Spec.v`  the small independent vocabulary used in theorem statements.
* `M_*.v`   the model, one definition per function of the code, each citing file and lines.
* `D_*.v`   the data files of the repository, generated verbatim by `tools/gen_data.py`.
* `L_*.v`   lemmas and proofs.
* `P_*.v`   property theorems only, each closed by `exact`, followed by `Print Assumptions`,
            with non-vacuity examples.

## Modelling conventions

* Floating-point numbers are modelled by exact real numbers (`R`) in numerical code and by exact
  decimals in parsers; `M_Float` has a second model of part of the numerical code with rounding.
* `out A := Ok a | NaN | Raise e`: a Python call returns a value, returns nan (numpy/scipy convention
  for invalid parameters), or raises.  Exceptions occur in the evaluation order of the code.
* numpy arrays are lists; `float`s handed to `isinstance(..., (int, float))` tests are a separate
  constructor from arrays.
* External numerical routines: `np.linspace`, `np.roll`, `np.unique`, `np.interp`,
  `scipy.stats.{uniform,cauchy,norm}`, `scipy.optimize.newton` are modelled by their mathematical
  definitions / algorithm; `scipy.integrate.{quad,nquad}` and physical constants are universally
  quantified parameters (Section variables, hence explicit premises of each theorem).
* Objects with mutable state that the code aliases (lists in `CrossSectionWeightedSum`) are modelled
  in an explicit heap.

## Plan per property

| id | model | proof |
|----|-------|-------|
| C01-C03 | `M_CrossSection`: operand kinds, dispatch of `+`, `*`, evaluation | induction over expressions |
| C04 | heap model with histories of operations | invariant: lists of a sum created by `__add__`/`__mul__` of sums are unreachable from any other object |
| C05, C08 | constructor and dispatch | case analysis |
| C06, C07 | `M_Grid`: linspace, unique | list induction |
| C09-C14 | `M_Darboux` | Coquelicot `RInt`, Chasles, list induction |
| C15-C17 | `M_Quad` with `nquad` a parameter | iterated integrals, induction over partition and dimension |
| C18 | `M_Recoil` | algebra |
| C19-C21 | `M_Thermal` | algebra; `RInt` comparison with `t^2`, `t^3/2` |
| C22 | table + element data | computation over the finite table |
| C23, C24 | `M_Constituents` | list induction, permutations |
| C25-C33 | `M_Resonance`, `M_Dist` | generic theorem for continuous strictly increasing CDFs, instantiated |
| C34-C36 | Cauchy: `atan`; normal: Gaussian integral; pseudo-Voigt: convex combination | `RInt`, limits |
| C37-C40 | `M_PseudoVoigt` with Newton's iteration | derivative, limits; convergence of Newton's iteration for all quantiles whose density is bounded from below (a bound of the density by the quantile gives C39's widths); refutations by explicit parameters |
| C41 | composition of C31 and C09 | unimodality |
| C42-C49 | `M_KleinNishina` | explicit antiderivatives |
| C50 | `M_Xrmac` | list induction, logarithms |
| C51-C54, C56 | `M_Readers` over strings | round trip by induction over rendered files |
| C55, C57, C58, C59 | readers applied to the supplied files | `vm_compute` over the finite data, lifted with `forallb_forall` |
| C60-C62 | `voigt_profile` of `M_PseudoVoigt` (the real part of the Faddeeva function, written as a convolution) | improper integrals, Fubini for the convolution, symmetric rearrangement, limits |
| C63, C64 | `M_Darboux` | induction over refinements; uniform continuity |
| C65, C66 | `M_CrossSection` + `M_Resonance` | induction over expressions; union grids |
| C67 | `res_energy_grid`, `coverage_interval` | composition of C28, C07, C10, C64 |
| C68 | `M_Thermal`, `Gauss`, `Voigt` | scaling of the Gauss curve; comparison of convolutions |
| C69-C71 | `M_Objects`: states, isotopes and elements with addresses, programs as lists of statements | invariants over all reachable situations |
| C72-C75 | `M_Float`: the same functions with every operation rounded to binary64 (Flocq, round to nearest even, gradual underflow, no overflow); the order in which numpy adds is a parameter | error analysis by induction on sums and summation trees, monotonicity of rounding |
| C76 | `M_Float2`: `cs_total` with every operation rounded; `log`, `** 2` and `** -3` of the C library are parameters with an error of a few units in the last place | forward error analysis with a calculus of relative errors (`near`); the cancellation is quantified with bounds of the logarithm |
| C77 | `M_Xrmac`, `M_Darboux`, both with exact numbers | interpolation with constant continuation as one recursive function of the logarithm; continuity by gluing, a function W with \|f(s) - f(t)\| <= W(t) - W(s) bounds the error of the Darboux sums cell by cell |
| C78 | `M_Float3`: scipy's Newton iteration (scalar and array) with every operation rounded; CDF and PDF are parameters with bounded errors (`S_Float3.computes`) | last step meets the tolerance, so the residual is bounded by the maximal density; a rounded Newton step contracts up to a floor for central quantiles, in arrays for the maximum of the steps; the computed CDF of a line at rest lies on a grid of 2^-54, hence the residual never falls below the tolerance in the tail |
| C79 | `M_Float4`: resonance energy, integrated cross section and Lorentz profile with every operation rounded; `x ** 2` is a parameter with a bounded error (`S_Float4.clib_ok`) | products of few factors (1 - u)^k on both sides (`L_Float7.near`) with a range that excludes underflow, a separate case for offsets whose square underflows; monotonicity of rounding for the shape |
| C80 | `M_Float4`: Doppler width, its inverse, recoil, Gaussian profile with every operation rounded; `exp` is a parameter with a bounded error | as C79; the absolute error of the exponent is turned into a number of factors (1 - u) |
| C81 | `M_Float5`: all differential Klein-Nishina cross sections, the ratio of energies, the Compton edge and the angle with every operation rounded; `cos`, `sin`, `x ** 2`, `arccos` are parameters with bounded absolute errors (`S_Float5.alib_ok`, `acos_ok`) | number of factors (1 - u) proportional to E/me (`L_Float13` to `L_Float19`); r + 1/r >= 2 also after rounding, which gives the signs; sensitivity of the cross section to the cosine; one computation with literals for the refutation |
| C82 | `M_Float6`: `cdf`, `ppf`, coverage intervals and probability grids of Breit-Wigner and Gaussian lines with every operation rounded; the functions of the standard distributions are parameters with bounded errors in terms of probability (`S_Float6.fdist_ok`) | the CDF changes little under relative and absolute perturbations of its argument, since the density f has f <= 1/2 and \|t\| f(t) <= 1/2 (`L_Float20`); error of `linspace` from C74; strict order from distances of probabilities (`L_Float21`); Gaussian tail bound from the proof of the Gaussian integral (`L_Float22`) |
| C83 | `M_Float7`: `np.interp` on logarithms and the power of ten with every operation rounded; `np.log10` and `10 ** y` are parameters with relative errors of at most 2 units (`S_Float7.llib_ok`), the logarithm monotone | error of one interpolation step from the relative distance of neighbouring energies and the steepness of the table (`L_Float24`), induction over the lines of the table (`L_Float25`), error of the power (`L_Float26`) |
| C84 | `M_Float8`: `PseudoVoigtDistribution` (attributes, PDF, CDF, quantiles, approximation after a failure) and calls of `PseudoVoigt` with every operation rounded; library functions are parameters with errors of a few units (`S_Float8.pvlib_ok`) | relative errors of sums of products of positive numbers (`L_Float27`, `L_Float28`); near the centre both parts are accurate, far away the Gaussian is negligible against the Cauchy part (`L_Float29`–`L_Float31`); the computed functions satisfy the hypotheses of C78 (`L_Float31`); the counterexample evaluates the sum of fifth powers at a power of two (`L_Float32`) |
| C85 | `GroundState`, `Isotope` (`M_Constituents`) and all resonance classes | unfolding of the constructors; objects that agree in energy, integrated cross section, distribution and parameters answer alike (`L_Reject`) |
| C86 | `loc_scale`, `ppf_array` (`M_Dist`), `nan_grid` (`M_Resonance`) | a scale that is not positive or a quantile outside of [0, 1] makes every value nan; case analysis on the infinite quantiles (`L_Reject`) |
| C87 | `abstract_leaf`, `call`, `pgrid` (`M_CrossSection`) | induction over nested sums (`L_Reject`) |
| C88 | `M_Ieee`: weighted sums, `darboux` and `linspace` with Flocq's binary64 numbers including infinities, nan and signed zeros | each operation agrees with the rounded one of `M_Float` if its result is finite, and a finite result of a sum has finite members (`L_Ieee`, `L_Ieee2`, `L_Ieee3`); refutations by computation |
| C89 | `M_Ieee2`: calls of `BreitWigner`, `Gauss` and `PseudoVoigt`, Doppler width, recoil with binary64 numbers; library functions agree with those of `M_Float4` and `M_Float8` on numbers | ranges of all intermediate results as powers of two (`L_Ieee5`), hence agreement with the rounded functions; for larger and infinite energies the quotient is infinite and the profile zero (`L_Ieee7`, `L_Ieee8`) |
| C90 | `kn_leaf`, `xrmac_leaf`, `leaf_of` as members of a sum (`M_CrossSection`, `M_Xrmac`) | every member is a function of bounded change on the positive axis; such functions are closed under sums, and their Darboux sums are bounded by width times change (`L_Mixture`) |
| C91 | `M_KleinNishina` for all real arguments | case analysis on vanishing denominators and negative arguments (`L_Compton`) |
| C92 | `nist_line` (`M_Readers`) | evaluation of the damaged paragraph in the state that the complete ones leave (`L_Incomplete`) |
| C93 | `M_Notebook` (layer_target.ipynb) | differentiation under the integral, attenuation equation, energy ranges from the convergence of the quantiles (`L_Notebook` to `L_Notebook4`) |
| C94 | `M_Notebook` (6Li.ipynb) | comparison of integrals, an inequality of Chebyshev type for the scatterer (`L_Notebook5`, `L_Notebook6`) |
| C95 | `M_Ieee3`: `KleinNishina` with binary64 numbers; Python floats raise exceptions, numpy floats give inf or nan; library functions agree with those of `M_Float2` and `M_Float5` on numbers and have the special values of C99 | ranges of all intermediate results as powers of two (`L_Ieee11`, `L_Ieee12`), a finite result forces finite intermediate results (`L_Ieee10`); instances for the refuted parts (`L_Ieee13`) |
| C96 | `M_Array`: arrays (shape and elements), floats and lists as dynamically typed arguments, numpy broadcasting, operators of Python | shapes form a semilattice with errors (`L_Array`), the denotation of each expression is compositional (`L_Array2`), one derivation per method (`L_Array3`) |
| C97 | `M_Array2`: calls of lines, tables, constants and nested weighted sums (in-place addition), Doppler widths, effective temperatures and `np.vectorize` with arrays, floats and lists; distributions and the functions of scipy and numpy are parameters | induction over nested sums with an invariant for the accumulator (`L_Array4`), the denotations of `L_Array2` for lines and temperatures (`L_Array5`), enumeration of the indices (`L_Array6`) |
| C98 | `M_Float9`: `float()` of decimal numbers, atomic masses, the unit conversion, `XRMAC.__init__` with a file and the loop of xrmac.py:228-246 with every operation rounded | perturbation of the interpolation by rounded energies and coefficients (`L_Float34`, `L_Float35`), distance of decimals with few digits (`L_Float36`), relative errors of products and sums (`L_Float37`), simulation of the loop (`L_Float38`), steepness and size of all supplied tables by computation with exact decimals (`L_Float39`, `L_Float40`); order REFUTED for numbers with 17 digits |
| C99 | `M_Float10`: the integrand and the scalar function of debye_model.py with every operation rounded; `np.exp` (infinite for large arguments), `** 3` and `quad` are parameters | relative errors of the integrand, with the cancellation in `exp(t) - 1` (`L_Float42`), perturbed quadrature rule, monotonicity and homogeneity of Lamb's formula for the rounded upper limit (`L_Float43`); finite integrand REFUTED at 2^55 Debye temperatures |
| C100 | `M_Float10`: the loop and the root of quad_partition.py:54-77 with every operation rounded | errors of sums from left to right, relative errors of squares and roots (`L_Float41`); vanishing uncertainties REFUTED by underflow |
| C101 | `M_Float11`: calls of `Voigt` with every operation rounded; `scipy.special.voigt_profile` with its relative error is a parameter, the distribution is the one of C84 | the profile as a mixture of shifted Lorentzians or Gaussians: shifts, widths and scales compared point by point (`L_Float44`, `L_Float45`), combined with the errors of the parameters (`L_Float46`) |
| C102 | `M_Ieee4`: `interpolate_log_log` and calls of `XRMAC` with binary64 numbers; `np.argsort` puts nan last, `np.interp` tries the line through the right point if the one through the left point is nan; `np.log10` and `10 ** y` are parameters with the special values of the C standard | logarithms of doubles are multiples of 2^-114 of moderate size, so no slope overflows (`L_Ieee15`, `L_Ieee16`); segments with infinite ordinates or abscissae by the rules of IEEE 754 (`L_Ieee17`), cells of sorted tables (`L_Ieee18`) |
| C103 | `M_Ieee5`: `ppf`, `cdf`, coverage intervals with their warnings, energy and probability grids of Breit-Wigner and Gauss lines with binary64 numbers; `_cdf` and `_ppf` of scipy are parameters, the ends of the support are treated as in `rv_continuous` | products and sums that overflow give infinities of the right sign (`L_Ieee20`), the points of `linspace` are those of C88; infinities and nan by cases on the floats (`L_Ieee21`) |
| C104 | no new model: `M_Float6` (grids), `M_Float4` (calls) and `M_Float` (Darboux sums) put together | rounded sums of terms with one sign have a relative error, cells around the maximum are estimated by the nearest point of the grid (`L_Float47`); probabilities of the rounded points give the integral, the scale of the rounded object is transferred to the exact one (`L_Float48`) |
| C105 | `M_Ieee6`: `quad_partition` with binary64 numbers, infinities and nan; `nquad` is a parameter | squares are not negative or nan, so that infinite estimates cannot cancel; infinite parts stay or turn into nan; multiples of a power of two bound all partial sums (`L_Ieee22`) |
| C106 | `M_Ieee6`: the integrand and the scalar function of debye_model.py with Python floats; `np.exp`, `** 3` and `quad` are parameters | case analysis on zeros, infinities and nan; finite results only come from finite intermediate results; ranges of intermediate results; exp(709) < 2^1023 by repeated squaring (`L_Ieee23`) |
| C107 | `M_Float12`: coverage intervals and probability grids of `PseudoVoigt` (and `Voigt`, which inherits `cdf` and `ppf`) with every operation rounded, on top of `M_Float8` | errors of `linspace` and of the accepted Newton iterates (`L_Float50`); the loop on arrays stays close to the line, which bounds the spacing of floats at its results (`L_Float51`); the density next to the maximum of the mixture, Darboux sums as in C104 (`L_Float52`, `L_Float53`) |
| C108 | `M_Ieee7`: Newton's method for numbers and arrays, `cdf`, `ppf`, coverage intervals and grids of pseudo-Voigt lines as in `M_Float12`, with Flocq's binary64 numbers including infinities and nan | outside of a zone around the line the density is exactly zero or nan and stays so, hence results that are numbers have only iterates inside of the zone, which agree with `M_Float12` (`L_Ieee26`, `L_Ieee27`, `L_Ieee28`); iterates of lines that are not too wide never leave it (`L_Ieee29`); objects, accuracy and nan temperatures (`L_Ieee30`); nan in the loops (`L_Ieee25`); single points, full coverage and the fallback (`L_Ieee31`); coverages above 1, for which no iterate passes the test of convergence (`L_Ieee32`); their objects (`L_Ieee33`); nan at single points (`L_Ieee38`) |
| C109 | `M_Ieee8`: calls of Voigt objects as in `M_Float11`, with Flocq's binary64 numbers including infinities and nan; `scipy.special.voigt_profile` is a parameter | the arguments of the profile are the same numbers in both arithmetics and in the range in which it is accurate, so that it is bounded and nothing overflows; C101 gives the accuracy (`L_Ieee34`) |
| C110 | `M_Float11`, `M_Ieee8` and the Darboux sums of `M_Float` and `M_Ieee`; nothing new is modelled | Voigt profiles have a single maximum, so that exact Darboux sums enclose the integral up to the cell with the maximum, whose value is compared to the one at a grid point with the convolution integral; values with the accuracy of C101 and rounded sums with the bounds of C72; with infinities and nan by the agreement of C88 and C109 and bounds on the values |
| C111 | `M_Float13`: the functions for transmission and absorption of `M_Notebook` with rounding; the cross sections and `np.exp` are parameters | rounding errors of the optical depth, bounds on the exponential function; rounding is monotonic; for Voigt profiles with C101 |
| C112 | `M_Ieee9`: the same functions with binary64 numbers, infinities and nan; the cross sections and `np.exp` are parameters | signs and finiteness of sums and products by cases; bounds on magnitudes; for Voigt profiles with C109 |
| C113 | `M_Float14`: boundaries of the layers and `dN_dE_drho_I` to `dN_dE_drho_IV` with rounding; the cross sections and `np.exp` are parameters | rounding is monotonic; rounding errors of sums, differences, optical depths and products, transmissions do not underflow; the exact model is that of C93 |

A property whose theorems include one that ends in `_refuted` is false for the code as it is: the theorem
gives the counterexample, the other theorems of the property say for which inputs it does hold, and the
note in `MANIFEST.json` summarises both.  Theorems that end in `_partial` prove less than the statement in
`properties.jsonl`; the note says what is missing.

## Trusted base

* Coq's kernel (8.16.1), including its virtual machine for `vm_compute` (used on the supplied data files
  only; `coqchk` rechecks these proofs without it).
* What `Print Assumptions` lists.  No theorem depends on anything but axioms of the standard library:
  `ClassicalDedekindReals.sig_not_dec`, `ClassicalDedekindReals.sig_forall_dec` (construction of the reals),
  `FunctionalExtensionality.functional_extensionality_dep` and, for some, `Classical_Prop.classic`.
  `ASSUMPTIONS.md` has the list for each theorem.  No axioms, parameters or admitted proofs are added, and
  no primitive floats or integers are used.
* That the model describes the code (below), and that the statements in `P_*.v`, `Spec.v` and `S_*.v` say
  what `properties.jsonl` says.
* `tools/gen_data.py`, which copies the data files of the repository into string constants (`D_*.v`).

### What is modelled

| code | model |
|------|-------|
| `ries/cross_section.py` (all classes and methods) | `M_CrossSection` (values), `M_Heap` (identity and mutation of the lists), `M_Grid` |
| `ries/integration/darboux.py` | `M_Darboux` |
| `ries/integration/quad_partition.py` | `M_Quad`, with `nquad` a parameter |
| `ries/constituents/state.py`, `isotope.py`, `element.py` | `M_Constituents` (values), `M_Objects` (identity and mutation) |
| `ries/constituents/natural_element_data.py` | `M_Readers`, data in `D_*` |
| `ries/resonance/recoil.py`, `maxwell_boltzmann.py`, `debye_model.py` | `M_Thermal`, the table of Debye temperatures in `D_Debye` |
| `ries/resonance/resonance.py`, `breit_wigner.py`, `gauss.py` | `M_Resonance`, `M_Dist` |
| `ries/resonance/pseudo_voigt.py`, `voigt.py` | `M_PseudoVoigt`, with Newton's method of scipy |
| `ries/nonresonant/nonresonant.py`, `klein_nishina.py` | `M_KleinNishina` |
| `ries/nonresonant/xrmac.py` | `M_Readers` (reader), `M_Xrmac` (class), `M_XrmacTables` (module-level tables) |
| rounding in parts of `cross_section.py`, `darboux.py`, `state.py`, `element.py`, `resonance.py` | `M_Float` |
| rounding in `KleinNishina.cs_total` | `M_Float2` |
| rounding in the root finder of `PseudoVoigtDistribution.ppf` | `M_Float3` |
| rounding in `Resonance`, `BreitWigner`, `Gauss`, `MaxwellBoltzmann` and `FreeNucleusRecoil` | `M_Float4` |
| rounding in the differential cross sections of `KleinNishina` | `M_Float5` |
| rounding in `coverage_interval` and `equidistant_probability_grid` of `BreitWigner` and `Gauss` | `M_Float6` |
| rounding in `XRMAC.interpolate_log_log` and `XRMAC.__call__` | `M_Float7` |
| rounding in `PseudoVoigtDistribution` and calls of `PseudoVoigt` | `M_Float8` |
| overflow in sums, `darboux`, `linspace` and calls of resonances | `M_Ieee`, `M_Ieee2` |
| overflow, exceptions and nan in `KleinNishina` | `M_Ieee3` |
| overflow, infinities and nan in calls of `XRMAC` | `M_Ieee4` |
| overflow, infinities and nan in coverage intervals and grids | `M_Ieee5` |
| overflow, exceptions, infinities and nan in `quad_partition` and the Debye model | `M_Ieee6` |
| arrays, lists and broadcasting in `KleinNishina` | `M_Array` |
| arrays, lists and floats in all other cross sections, `MaxwellBoltzmann` and the Debye model | `M_Array2` |
| rounding of the numbers in files, atomic masses and both dictionaries of xrmac.py | `M_Float9` |
| rounding in debye_model.py and quad_partition.py | `M_Float10` |
| rounding in voigt.py | `M_Float11` |
| rounding in coverage intervals and grids of pseudo_voigt.py and voigt.py | `M_Float12` |
| overflow, infinities and nan in them | `M_Ieee7` |
| overflow, infinities and nan in calls of Voigt profiles | `M_Ieee8` |
| `notebooks/layer_target.ipynb`, `notebooks/6Li.ipynb` (functions) | `M_Notebook` |
| rounding in their functions for transmission and absorption | `M_Float13` |
| infinities and nan in these functions | `M_Ieee9` |
| rounding in the layered target | `M_Float14` |

### What is not modelled

* Binary floating point outside of `M_Float`, `M_Float2`, `M_Float3`, `M_Float4`, `M_Float5`, `M_Float6`, `M_Float7`, `M_Float8`, `M_Float9`, `M_Float10`, `M_Float11`, `M_Float12`, `M_Float13`, `M_Float14`, `M_Ieee`, `M_Ieee2`, `M_Ieee3`, `M_Ieee4`, `M_Ieee5`, `M_Ieee6`, `M_Ieee7`, `M_Ieee8` and `M_Ieee9`: numbers are exact reals (numerical code) or exact decimals
  (readers).  `M_Float` to `M_Float14` have rounding and underflow, but no overflow, infinities and signed zeros (C88, C89, C95, C102, C103, C105, C106, C108, C109, C110 and C112 show for sums, integrals, `linspace`, calls of resonances, Klein-Nishina cross sections, tables, `quad_partition`, the Debye model, coverage intervals, grids and attenuation when this makes no difference; in C95, Python and numpy use the same library functions), and `M_Float` covers weighted sums
  (evaluation, sums, products), `darboux`, `np.linspace`, widths, branching ratios, element masses, (`M_Float2`) `KleinNishina.cs_total`, (`M_Float3`) the Newton iteration of `PseudoVoigtDistribution.ppf`, (`M_Float4`) Breit-Wigner and Gaussian resonances, Doppler widths and recoil, (`M_Float5`) the differential cross sections of `KleinNishina`, (`M_Float6`) coverage intervals and probability grids of Breit-Wigner and Gaussian lines, (`M_Float7`) the interpolation of XRMAC tables, (`M_Float8`) the pseudo-Voigt distribution, (`M_Float9`) reading XRMAC tables and converting their units, (`M_Float10`) the Debye model and `quad_partition`, (`M_Float11`) calls of Voigt profiles, (`M_Float12`) coverage intervals and probability grids of pseudo-Voigt lines (`M_Float13`) transmission and absorption in the notebooks and (`M_Float14`) the layered target.  A division by zero of Python floats raises, one of numpy floats gives `NaN`, which stands for inf and nan.
* The internals of numpy and scipy: `linspace`, `unique`, `roll`, `interp`, the distributions
  and `newton` follow their documented definitions (`newton` its algorithm, with the tolerance and iteration
  limit of scipy); `quad` and `nquad` are arbitrary functions, with exactness as an explicit hypothesis where needed.
* The file system: a reader gets the contents of the file as a string of ASCII characters.
* Text of warnings and exceptions (except for the number quoted in C30), printing, documentation.
* Classes that a user derives from `CrossSection`, except that they answer calls with one energy
  and requests for grids (`leaf`), elementwise on arrays.
* Assignment to attributes other than those in `M_Heap` and `M_Objects`.
* `tests/`, `setup.py`, `source/`; plots in `notebooks/`, and in 6Li.ipynb the Monte-Carlo loop and the minimisation.

Each definition of the model has a comment with the lines it describes and with its simplifications.
