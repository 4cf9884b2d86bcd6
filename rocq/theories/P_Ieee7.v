(** C108: coverage intervals and probability grids of pseudo-Voigt lines with infinities and nan. *)
From Coq Require Import Reals List ZArith.
From Flocq Require Import Core BinarySingleNaN.
From Verif Require Import Py Spec M_Num M_Grid M_Constituents M_Thermal M_Dist M_Resonance M_PseudoVoigt S_PseudoVoigt M_Float S_Float S_Float3 M_Float4 S_Float4 S_Float6 M_Float8 S_Float8 M_Float12 S_Float13
  M_Ieee M_Ieee2 M_Ieee5 M_Ieee7 S_Ieee S_Ieee5 S_Ieee7 L_Float10 L_Float49 L_Ieee9 L_Ieee28 L_Ieee30 L_Ieee33 L_Ieee38.
Import ListNotations.
Open Scope R_scope.

(** Whatever is returned as energies up to 2^400 MeV without the warning of the root finder has the probabilities that were asked for. *)
Theorem C108_interval : forall L V B k bi i bm m bfin fin bamu amu bT T w, same_resonance L V B k bi i bm m bfin fin bamu amu bT T w ->
  forall modern p bc c ws lo hi, PseudoVoigtDistribution k (fsub (st_excitation_energy m) (st_excitation_energy i)) w amu T = Ok p -> rep bc c -> 0 <= c <= 1 ->
  bPseudoVoigt_coverage_interval modern L B bi bm bamu bT bfin bc = (ws, Ok (lo, hi)) -> ~ In BInversionFailed ws -> moderate lo -> moderate hi ->
  exists Fa Fb F0, pv_cdf p (B2R lo) = Ok Fa /\ pv_cdf p (B2R hi) = Ok Fb /\ pv_cdf p 0 = Ok F0 /\
    Rabs (Fa - (1 - c) / 2) <= pv_blur p (B2R lo) /\ Rabs (Fb - (1 + c) / 2) <= pv_blur p (B2R hi) /\
    (0 <= B2R lo -> ws = []) /\ (B2R lo < 0 -> exists v, ws = [BNegativeLowerLimit v] /\ finite v /\ Rabs (B2R v - 100 * (1 - F0)) <= / 10 ^ 10).
Proof. exact points_interval. Qed.
Theorem C108_grid : forall L V B k bi i bm m bfin fin bamu amu bT T w, same_resonance L V B k bi i bm m bfin fin bamu amu bT T w ->
  forall modern p bc c n g, PseudoVoigtDistribution k (fsub (st_excitation_energy m) (st_excitation_energy i)) w amu T = Ok p -> rep bc c -> 0 <= c <= 1 -> (2 <= n <= 2 ^ 50)%Z ->
  bPseudoVoigt_grid modern L B bi bm bamu bT bfin (BCoverage bc) n = ([], Ok (Some g)) -> Forall moderate g ->
  pv_equidistant p ((1 - c) / 2) ((1 + c) / 2) n (map B2R g).
Proof. exact points_grid. Qed.
(** It is what the arithmetic without an upper limit of numbers gives, number by number, so that all of C107 applies. *)
Theorem C108_interval_same : forall L V B k bi i bm m bfin fin bamu amu bT T w, same_resonance L V B k bi i bm m bfin fin bamu amu bT T w ->
  forall modern bc c ws lo hi, rep bc c -> 0 <= c <= 1 -> bPseudoVoigt_coverage_interval modern L B bi bm bamu bT bfin bc = (ws, Ok (lo, hi)) -> ~ In BInversionFailed ws ->
  moderate lo -> moderate hi ->
  exists wsf x y, fPseudoVoigt_coverage_interval modern V k i m amu T fin c = (wsf, Ok (Rbar.Finite x, Rbar.Finite y)) /\ rep lo x /\ rep hi y /\ Forall2 same_warning ws wsf.
Proof. exact object_interval. Qed.
Theorem C108_grid_same : forall L V B k bi i bm m bfin fin bamu amu bT T w, same_resonance L V B k bi i bm m bfin fin bamu amu bT T w ->
  forall modern bc c n g, rep bc c -> 0 <= c <= 1 -> (2 <= n <= 2 ^ 50)%Z -> bPseudoVoigt_grid modern L B bi bm bamu bT bfin (BCoverage bc) n = ([], Ok (Some g)) -> Forall moderate g ->
  exists xs, fPseudoVoigt_grid modern V k i m amu T fin (Coverage c) n = ([], Ok (Some (map Rbar.Finite xs))) /\ Forall2 rep g xs.
Proof. exact object_grid. Qed.
Theorem C108_quantiles_same : forall L V B k bi i bm m bfin fin bamu amu bT T w, same_resonance L V B k bi i bm m bfin fin bamu amu bT T w ->
  forall modern b bqs qs g, bPseudoVoigt_distribution L B bi bm bamu bT bfin = Ok b -> (2 <= length bqs)%nat -> Forall2 rep bqs qs -> Forall (fun q => Rabs q <= 2) qs ->
  bpv_ppf modern L b bqs = ([], Ok (Some g)) -> Forall moderate g ->
  exists p' xs, fPseudoVoigtDistribution V k (fsub (st_excitation_energy m) (st_excitation_energy i)) w amu T = Ok p' /\ fpv_ppf modern V p' qs = ([], Ok (Some (map Rbar.Finite xs))) /\ Forall2 rep g xs.
Proof. exact object_quantiles. Qed.

(** For a line that is not too wide all of it is found, and nothing overflows. *)
Theorem C108_interval_found : forall L V B k bi i bm m bfin fin bamu amu bT T w, same_resonance L V B k bi i bm m bfin fin bamu amu bT T w ->
  let E := fsub (st_excitation_energy m) (st_excitation_energy i) in
  forall modern p bc c s, PseudoVoigtDistribution k E w amu T = Ok p -> rep bc c -> 0 <= c <= 1 -> easy_line p E s -> 4 * s + / 2 ^ 40 <= 1 - c ->
  exists ws lo hi wsf x y, bPseudoVoigt_coverage_interval modern L B bi bm bamu bT bfin bc = (ws, Ok (lo, hi)) /\
    fPseudoVoigt_coverage_interval modern V k i m amu T fin c = (wsf, Ok (Rbar.Finite x, Rbar.Finite y)) /\ rep lo x /\ rep hi y /\ Forall2 same_warning ws wsf /\ ~ In BInversionFailed ws.
Proof. exact object_found_interval. Qed.
Theorem C108_grid_found : forall L V B k bi i bm m bfin fin bamu amu bT T w, same_resonance L V B k bi i bm m bfin fin bamu amu bT T w ->
  let E := fsub (st_excitation_energy m) (st_excitation_energy i) in
  forall modern p bc c n s, PseudoVoigtDistribution k E w amu T = Ok p -> rep bc c -> 0 <= c <= 1 -> (2 <= n <= 2 ^ 50)%Z -> easy_line p E s -> 4 * s + / 2 ^ 40 <= 1 - c ->
  exists g xs, bPseudoVoigt_grid modern L B bi bm bamu bT bfin (BCoverage bc) n = ([], Ok (Some g)) /\
    fPseudoVoigt_grid modern V k i m amu T fin (Coverage c) n = ([], Ok (Some (map Rbar.Finite xs))) /\ Forall2 rep g xs.
Proof. exact object_found_grid. Qed.
Theorem C108_limits_found : forall L V B k bi i bm m bfin fin bamu amu bT T w, same_resonance L V B k bi i bm m bfin fin bamu amu bT T w ->
  let E := fsub (st_excitation_energy m) (st_excitation_energy i) in
  forall modern p ba a bz z Fa Fz n s, PseudoVoigtDistribution k E w amu T = Ok p -> rep ba a -> rep bz z -> Rabs a <= 2 ^ 400 -> Rabs z <= 2 ^ 400 -> (2 <= n <= 2 ^ 50)%Z ->
  pv_cdf p a = Ok Fa -> pv_cdf p z = Ok Fz -> easy_line p E s -> / 2 ^ 40 <= Fz - Fa -> 2 * s + / 2 ^ 40 <= Fa -> Fz <= 1 - 2 * s - / 2 ^ 40 ->
  exists g xs, bPseudoVoigt_grid modern L B bi bm bamu bT bfin (BLimits ba bz) n = ([], Ok (Some g)) /\
    fPseudoVoigt_grid modern V k i m amu T fin (Limits a z) n = ([], Ok (Some (map Rbar.Finite xs))) /\ Forall2 rep g xs.
Proof. exact object_found_limits. Qed.

(** nan arguments give nan without any warning: the tests for convergence are false for nan, and numpy takes all elements as converged. *)
Theorem C108_nan : forall L V B k bi i bm m bfin fin bamu amu bT T w, same_resonance L V B k bi i bm m bfin fin bamu amu bT T w ->
  forall modern n, (2 <= n)%Z -> bPseudoVoigt_coverage_interval modern L B bi bm bamu bT bfin B754_nan = ([], Ok (B754_nan, B754_nan)) /\
  bPseudoVoigt_grid modern L B bi bm bamu bT bfin (BCoverage B754_nan) n = ([], Ok (Some (repeat B754_nan (Z.to_nat n)))) /\
  bPseudoVoigt_grid modern L B bi bm bamu bT bfin (BLimits B754_nan B754_nan) n = ([], Ok (Some (repeat B754_nan (Z.to_nat n)))).
Proof. exact object_nan. Qed.
(** So do all coverages, if the energy of the resonance is nan or a width is not positive, ... *)
Theorem C108_broken_interval : forall L b modern c, broken_pv b -> bpv_coverage_interval modern L b c = ([], Ok (B754_nan, B754_nan)).
Proof. exact broken_interval. Qed.
Theorem C108_broken_coverage : forall L b modern c n, broken_pv b -> (2 <= n)%Z -> bpv_probability_grid modern L b (BCoverage c) n = ([], Ok (Some (repeat B754_nan (Z.to_nat n)))).
Proof. exact broken_coverage. Qed.
Theorem C108_broken_limits : forall L b modern a z n, broken_pv b -> (2 <= n)%Z -> bpv_probability_grid modern L b (BLimits a z) n = ([], Ok (Some (a :: repeat B754_nan (Z.to_nat (n - 2)) ++ [z]))).
Proof. exact broken_limits. Qed.
(** ... for example because the temperature is nan. *)
Theorem C108_temperature : forall L B bi bm bamu bfin b, bPseudoVoigt_distribution L B bi bm bamu B754_nan bfin = Ok b -> (forall y, b_pow (bv_b L) B754_nan y = B754_nan) -> broken_pv b.
Proof. exact temperature_nan. Qed.
(** A single point gets a warning in all these cases: a nan never counts as converged. *)
Theorem C108_broken_single : forall L b modern c, broken_pv b -> bpv_probability_grid modern L b (BCoverage c) 1 = ([BInversionFailed], Ok (Some [B754_nan])).
Proof. exact broken_single. Qed.
Theorem C108_single_nan : forall L V B k bi i bm m bfin fin bamu amu bT T w, same_resonance L V B k bi i bm m bfin fin bamu amu bT T w ->
  forall modern, bPseudoVoigt_grid modern L B bi bm bamu bT bfin (BCoverage B754_nan) 1 = ([BInversionFailed], Ok (Some [B754_nan])).
Proof. exact object_single_nan. Qed.

(** A grid of a single point is returned by the newer SciPy only, without a warning, and is the one of the arithmetic without an upper limit of numbers. *)
Theorem C108_single : forall L V B k bi i bm m bfin fin bamu amu bT T w, same_resonance L V B k bi i bm m bfin fin bamu amu bT T w ->
  forall modern bc c ws g, rep bc c -> 0 <= c <= 1 -> bPseudoVoigt_grid modern L B bi bm bamu bT bfin (BCoverage bc) 1 = (ws, Ok (Some g)) -> ~ In BInversionFailed ws -> Forall moderate g ->
  modern = true /\ ws = [] /\ exists x y, g = [x] /\ fPseudoVoigt_grid modern V k i m amu T fin (Coverage c) 1 = ([], Ok (Some [Rbar.Finite y])) /\ rep x y.
Proof. exact object_single. Qed.
(** If the root finder gives up, the values used instead are those of the arithmetic without an upper limit of numbers as long as they are finite, ... *)
Theorem C108_fallback : forall L V B k bi i bm m bfin fin bamu amu bT T w, same_resonance L V B k bi i bm m bfin fin bamu amu bT T w ->
  let E := fsub (st_excitation_energy m) (st_excitation_energy i) in
  forall b bq q, bPseudoVoigt_distribution L B bi bm bamu bT bfin = Ok b -> rep bq q -> 0 <= q <= 1 -> finite (bpv_fallback L b bq) ->
  exists p' x, fPseudoVoigtDistribution V k E w amu T = Ok p' /\ fpv_fallback V p' [q] = Ok (Some [Rbar.Finite x]) /\ rep (bpv_fallback L b bq) x.
Proof. exact object_fallback. Qed.
(** ... and for the coverage 1 they are infinite for a mixture of both distributions, and nan (0 times infinity) for a line that is one of them alone. *)
Theorem C108_full_coverage : forall L V B k bi i bm m bfin fin bamu amu bT T w, same_resonance L V B k bi i bm m bfin fin bamu amu bT T w ->
  forall modern b bc ws lo hi, bPseudoVoigt_distribution L B bi bm bamu bT bfin = Ok b -> rep bc 1 -> bPseudoVoigt_coverage_interval modern L B bi bm bamu bT bfin bc = (ws, Ok (lo, hi)) -> In BInversionFailed ws ->
  (0 < B2R (bp_eta b) < 1 -> lo = B754_infinity true /\ hi = B754_infinity false /\ exists v, ws = [BInversionFailed; BNegativeLowerLimit v; BInfiniteUpperLimit] /\ finite v) /\
  (~ 0 < B2R (bp_eta b) < 1 -> lo = B754_nan /\ hi = B754_nan /\ ws = [BInversionFailed]).
Proof. exact object_full. Qed.
(** No energies are returned for a coverage above 1: there is a TypeError, or a warning and nan. *)
Theorem C108_above : forall L V B k bi i bm m bfin fin bamu amu bT T w, same_resonance L V B k bi i bm m bfin fin bamu amu bT T w ->
  let E := fsub (st_excitation_energy m) (st_excitation_energy i) in
  forall modern p bc c, PseudoVoigtDistribution k E w amu T = Ok p -> rep bc c -> 1 + 3 * (/ 2 ^ 40 + 3 / 10 ^ 8 / pv_Gamma p) <= Rabs c <= 2 ^ 90 ->
  bPseudoVoigt_coverage_interval modern L B bi bm bamu bT bfin bc = ([], Raise TypeError) \/ bPseudoVoigt_coverage_interval modern L B bi bm bamu bT bfin bc = ([BInversionFailed], Ok (B754_nan, B754_nan)).
Proof. exact object_above. Qed.

(** Grids of no points and of a negative number of points. *)
Theorem C108_size_zero : forall L b modern c x y, bpv_probability_grid modern L b (BCoverage c) 0 = ([BInversionFailed], Ok (Some [])) /\ bpv_probability_grid modern L b (BLimits x y) 0 = ([BInversionFailed], Raise IndexError).
Proof. exact size_zero. Qed.
Theorem C108_size_negative : forall L b modern arg n, (n < 0)%Z -> bpv_probability_grid modern L b arg n = ([], Raise ValueError).
Proof. exact size_negative. Qed.

(** The hypotheses can be met: a resonance in both arithmetics that is not too wide, coverages and limits for it. *)
Example C108_ex_line : exists p, same_resonance correct_library correct_pvlib (of_constants ieee_k) ieee_k (of_state lost_i) lost_i (of_state wide_m) wide_m None None (of_Z 1000) 1000 (of_Z 0) 0 (/ 2 ^ 10) /\
  PseudoVoigtDistribution ieee_k (fsub (st_excitation_energy wide_m) (st_excitation_energy lost_i)) (/ 2 ^ 10) 1000 0 = Ok p /\ easy_line p (fsub (st_excitation_energy wide_m) (st_excitation_energy lost_i)) (1 / 8).
Proof. destruct resonance_example as (A & p & B & C). now exists p. Qed.
(** Both arithmetics find the interval and the grid for a coverage of 1/4 of that line, so that the results the theorems above ask for exist. *)
Example C108_ex_found : exists ws lo hi g, bPseudoVoigt_coverage_interval true correct_library (of_constants ieee_k) (of_state lost_i) (of_state wide_m) (of_Z 1000) (of_Z 0) None (of_R (/ 2 ^ 2)) = (ws, Ok (lo, hi)) /\ ~ In BInversionFailed ws /\
  bPseudoVoigt_grid true correct_library (of_constants ieee_k) (of_state lost_i) (of_state wide_m) (of_Z 1000) (of_Z 0) None (BCoverage (of_R (/ 2 ^ 2))) 7 = ([], Ok (Some g)) /\ length g = 7%nat.
Proof. exact found_example. Qed.
Example C108_ex_nan : (forall y, b_pow (bv_b nan_library) B754_nan y = B754_nan) /\ exists b, bPseudoVoigt_distribution nan_library (of_constants ieee_k) (of_state lost_i) (of_state wide_m) (of_Z 1000) B754_nan None = Ok b.
Proof. exact nan_example. Qed.

(** Coverages above 1 that the theorem applies to exist for every line. *)
Example C108_ex_above : forall G, 1 <= G -> rep (of_Z 2) 2 /\ rep (of_Z 1) 1 /\ 1 + 3 * (/ 2 ^ 40 + 3 / 10 ^ 8 / G) <= Rabs 2 <= 2 ^ 90.
Proof. exact above_example. Qed.

Print Assumptions C108_interval.
Print Assumptions C108_grid.
Print Assumptions C108_interval_same.
Print Assumptions C108_grid_same.
Print Assumptions C108_quantiles_same.
Print Assumptions C108_interval_found.
Print Assumptions C108_grid_found.
Print Assumptions C108_limits_found.
Print Assumptions C108_nan.
Print Assumptions C108_broken_interval.
Print Assumptions C108_broken_coverage.
Print Assumptions C108_broken_limits.
Print Assumptions C108_broken_single.
Print Assumptions C108_single_nan.
Print Assumptions C108_temperature.
Print Assumptions C108_single.
Print Assumptions C108_fallback.
Print Assumptions C108_full_coverage.
Print Assumptions C108_above.
Print Assumptions C108_size_zero.
Print Assumptions C108_size_negative.
