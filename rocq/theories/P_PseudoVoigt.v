(** C36-C40 and the pseudo-Voigt part of C27, C28, C30, C31. *)
From Coq Require Import Reals List ZArith String Lra.
From Coquelicot Require Import Coquelicot.
From Verif Require Import Py Spec M_Num M_Grid M_Constituents M_Thermal M_Dist M_Resonance M_PseudoVoigt
  S_Resonance S_PseudoVoigt L_Resonance6 L_PseudoVoigt4 L_PseudoVoigt5 L_PseudoVoigt6 L_PseudoVoigt7 L_PseudoVoigt8 L_PseudoVoigt9.
Import ListNotations.
Open Scope R_scope.

(** Resonances at 1 MeV with every positive width and every temperature can be built. *)
Example pseudo_voigt_ex : forall modern w T, 0 < w -> 0 <= T ->
  exists r, PseudoVoigt modern codata ground (excited_with w) 12 T None = Ok r /\
    width (excited_with w) = Ok w /\ r_energy r = 1 /\ 0 < r_integrated r /\ pv_params codata (r_energy r) w 12 T.
Proof. exact pv_example. Qed.
Example voigt_ex : forall modern w T, 0 < w -> 0 <= T ->
  exists r, Voigt modern codata ground (excited_with w) 12 T None = Ok r /\
    width (excited_with w) = Ok w /\ r_energy r = 1 /\ 0 < r_integrated r /\ pv_params codata (r_energy r) w 12 T.
Proof. exact voigt_example. Qed.
Example params_ex : forall w T, 0 < w -> 0 <= T -> pv_params codata 1 w 12 T.
Proof. exact params_with. Qed.

(** ** C36 *)
Theorem C36_mixing_and_normalisation : forall k E w amu T, pv_params k E w amu T -> exists p d f F,
  PseudoVoigtDistribution k E w amu T = Ok p /\ pv_is p f F /\
  get_doppler_width k {| mb_amu := amu; mb_effective_temperature := T |} E = Ok d /\
  0 <= pv_eta p <= 1 /\ 0 < pv_Gamma p /\ w <= pv_Gamma p /\ 2 * sqrt (ln 2) * d <= pv_Gamma p /\
  symmetric_about E f /\ integral_over_axis f 1 /\ (forall a b, a < b -> F a < F b) /\
  (forall a b, is_RInt f a b (F b - F a)).
Proof. exact pv_facts. Qed.
(** With no broadening at all everything is nan. *)
Theorem C36_no_broadening : forall k E amu, constants_ok k -> 0 < amu -> PseudoVoigtDistribution k E 0 amu 0 = NaN.
Proof. exact pv_nothing. Qed.

(** ** C37 *)
Theorem C37_gauss_limit : forall modern k i m amu T fin r r', PseudoVoigt modern k i m amu T fin = Ok r ->
  Gauss k i m amu T fin = Ok r' -> width m = Ok 0 -> pv_params k (r_energy r) 0 amu T ->
  r_integrated r = r_integrated r' /\ r_energy r = r_energy r' /\
  (forall E b, res_call r E b = res_call r' E b) /\
  (forall E, d_cdf (r_dist r) (r_params r) E = d_cdf (r_dist r') (r_params r') E).
Proof. exact gauss_limit. Qed.
(** At vanishing temperature the profile is a Breit-Wigner curve of half the width: twice the value at the
    resonance energy. *)
Theorem C37_lorentz_limit_refuted : exists k i m amu fin w r r' f f',
  PseudoVoigt true k i m amu 0 fin = Ok r /\ BreitWigner k i m fin = Ok r' /\
  width m = Ok w /\ pv_params k (r_energy r) w amu 0 /\ cross_section_is r f /\ cross_section_is r' f' /\
  f (r_energy r) <> f' (r_energy r).
Proof. exact lorentz_refuted. Qed.
Theorem C37_lorentz_limit_value : forall modern k i m amu fin r r' w, PseudoVoigt modern k i m amu 0 fin = Ok r ->
  BreitWigner k i m fin = Ok r' -> width m = Ok w -> pv_params k (r_energy r) w amu 0 -> exists f f',
  cross_section_is r f /\ cross_section_is r' f' /\ r_integrated r = r_integrated r' /\
  f (r_energy r) = 2 * f' (r_energy r) /\
  (forall x, f x = r_integrated r * ((w / 4) / (PI * ((x - r_energy r) ^ 2 + (w / 4) ^ 2)))) /\
  (forall x, f' x = r_integrated r * ((w / 2) / (PI * ((x - r_energy r) ^ 2 + (w / 2) ^ 2)))).
Proof. exact lorentz_limit. Qed.

(** ** C38 *)
Theorem C38_unique_quantile : forall k E w amu T p, pv_params k E w amu T -> PseudoVoigtDistribution k E w amu T = Ok p ->
  forall q, 0 < q < 1 -> exists x, pv_cdf p x = Ok q /\ forall y, pv_cdf p y = Ok q -> y = x.
Proof. exact unique_quantile. Qed.
(** The error is at most 2e-8 / Gamma, Gamma in MeV; energies never lie beyond the exact quantile, and the
    order of the quantiles is kept.  Missing: a small error also for narrow lines, which is false. *)
Theorem C38_accuracy_partial : forall k E w amu T p modern qs ws xs, pv_params k E w amu T ->
  PseudoVoigtDistribution k E w amu T = Ok p ->
  pv_ppf modern p qs = (ws, Ok (Some xs)) -> inverted ws ->
  Forall2 (fun q x => exists e F, x = Finite e /\ pv_cdf p e = Ok F /\ Rabs (F - q) <= accuracy p /\
     (1 / 2 <= q -> E <= e /\ F <= q) /\ (q <= 1 / 2 -> e <= E /\ q <= F)) qs xs /\
  (strictly_ascending qs -> exists es, xs = map Finite es /\ strictly_ascending es).
Proof. exact accurate. Qed.
Theorem C38_accuracy_number_partial : forall k E w amu T p q, pv_params k E w amu T ->
  PseudoVoigtDistribution k E w amu T = Ok p -> 0 < q < 1 ->
  exists ws x F, pv_ppf_scalar p q = (ws, Ok (Some [Finite x])) /\ pv_cdf p x = Ok F /\
    (inverted ws -> Rabs (F - q) <= accuracy p).
Proof. exact accurate_scalar. Qed.
Theorem C38_small_error_refuted : exists k E w amu T p q x F, pv_params k E w amu T /\
  PseudoVoigtDistribution k E w amu T = Ok p /\ 0 < q < 1 /\
  pv_ppf_scalar p q = ([], Ok (Some [Finite x])) /\ pv_cdf p x = Ok F /\ Rabs (F - q) > 15 / 100.
Proof. exact inaccurate_refuted. Qed.
(** Every cold line of at most 10 meV: no quantile above 5/6 is ever reached. *)
Theorem C38_narrow_lines : forall k E w amu p q, pv_params k E w amu 0 -> PseudoVoigtDistribution k E w amu 0 = Ok p ->
  w <= 1 / 10 ^ 8 -> 1 / 2 < q <= 1 ->
  exists x F, pv_ppf_scalar p q = ([], Ok (Some [Finite x])) /\ pv_cdf p x = Ok F /\ F < 5 / 6.
Proof. exact inaccurate. Qed.

(** ** C39 *)
Theorem C39_returns_none_refuted : exists modern k i m amu T fin w r, PseudoVoigt modern k i m amu T fin = Ok r /\
  width m = Ok w /\ pv_params k (r_energy r) w amu T /\ res_probability_grid r (Coverage 1) 3 = ([], Ok None).
Proof. exact none_refuted. Qed.
Theorem C39_none_for_all_cold_lines : forall modern k i m amu fin r w, PseudoVoigt modern k i m amu 0 fin = Ok r ->
  width m = Ok w -> pv_params k (r_energy r) w amu 0 -> 3 / 10 ^ 7 <= w ->
  res_probability_grid r (Coverage 1) 3 = ([], Ok None).
Proof. exact grid_none_cold. Qed.
(** A single point: TypeError, unless scipy is recent. *)
Theorem C39_single_point : forall modern k i m amu T fin r w, PseudoVoigt modern k i m amu T fin = Ok r ->
  width m = Ok w -> pv_params k (r_energy r) w amu T ->
  res_probability_grid r (Coverage 0) 1 = ([], if modern then Ok (Some [Finite (r_energy r)]) else Raise TypeError).
Proof. exact single_type_error. Qed.
(** All outcomes; numbers are missing in the last two. *)
Theorem C39_outcomes_partial : forall modern k E w amu T p qs, pv_params k E w amu T ->
  PseudoVoigtDistribution k E w amu T = Ok p -> List.Forall (fun q => 0 < q < 1) qs ->
  (exists ws rs, pv_ppf modern p qs = (ws, Ok (Some (map Finite rs))) /\ List.length rs = List.length qs) \/
  (pv_ppf modern p qs = ([], Ok None) /\ (2 <= List.length qs)%nat) \/
  (pv_ppf modern p qs = ([], Raise TypeError) /\ modern = false /\ List.length qs = 1%nat).
Proof. exact (fun modern k E w amu T p qs P EP => ppf_outcomes modern p qs (proj1 (valid_of k E w amu T p P EP))). Qed.

(** Quantiles within a quarter of the width from the centre are always found, for every line up to 10^6 MeV. *)
Theorem C39_central_quantiles : forall modern k E w amu T p qs, pv_params k E w amu T ->
  PseudoVoigtDistribution k E w amu T = Ok p -> pv_Gamma p <= 10 ^ 6 -> (2 <= List.length qs)%nat ->
  List.Forall (fun q => exists x, pv_cdf p x = Ok q /\ Rabs (x - E) <= pv_Gamma p / 4) qs ->
  exists es, pv_ppf modern p qs = ([], Ok (Some (map Finite es))).
Proof. exact central_found. Qed.
Theorem C39_small_coverage : forall modern k i m amu T fin r w p c, PseudoVoigt modern k i m amu T fin = Ok r ->
  width m = Ok w -> pv_params k (r_energy r) w amu T -> PseudoVoigtDistribution k (r_energy r) w amu T = Ok p ->
  pv_Gamma p <= 10 ^ 6 -> 0 <= c <= 1 / 8 ->
  (exists ws a b, coverage_interval r c = (ws, Ok (Finite a, Finite b)) /\ inverted ws) /\
  (forall n, (2 <= n)%Z -> exists es, res_probability_grid r (Coverage c) n = ([], Ok (Some (map Finite es)))).
Proof. exact small_coverage. Qed.
(** A quarter of the width below and above the centre: two such quantiles. *)
Example central_ex : forall w, 0 < w -> exists p q q', PseudoVoigtDistribution codata 1 w 12 0 = Ok p /\
  pv_Gamma p = w /\ q < q' /\
  List.Forall (fun q => exists x, pv_cdf p x = Ok q /\ Rabs (x - 1) <= pv_Gamma p / 4) [q; q'].
Proof. exact central_example. Qed.
(** Every quantile where the density is not too small is found, by the array and by the scalar inversion. *)
Theorem C39_dense_quantiles : forall modern k E w amu T p lo qs, pv_params k E w amu T ->
  PseudoVoigtDistribution k E w amu T = Ok p -> 0 < lo -> / 2 ^ 72 <= pv_Gamma p * lo ^ 2 -> (2 <= List.length qs)%nat ->
  List.Forall (fun q => exists x f, pv_cdf p x = Ok q /\ pv_pdf p x = Ok f /\ lo <= f) qs ->
  exists es, pv_ppf modern p qs = ([], Ok (Some (map Finite es))).
Proof. exact dense_found. Qed.
Theorem C39_dense_number : forall k E w amu T p q x f, pv_params k E w amu T ->
  PseudoVoigtDistribution k E w amu T = Ok p -> pv_cdf p x = Ok q -> pv_pdf p x = Ok f -> / 2 ^ 72 <= pv_Gamma p * f ^ 2 ->
  exists e, pv_ppf_scalar p q = ([], Ok (Some [Finite e])).
Proof. exact dense_found_scalar. Qed.
(** The density in terms of the smaller of the probabilities on the two sides. *)
Theorem C39_density_of_quantile : forall k E w amu T p x q f, pv_params k E w amu T -> PseudoVoigtDistribution k E w amu T = Ok p ->
  pv_cdf p x = Ok q -> pv_pdf p x = Ok f -> 16 / 7 * (Rmin q (1 - q)) ^ 2 <= pv_Gamma p * f.
Proof. exact tail_density_ok. Qed.
(** All coverages below one, for all but extremely wide lines: with [c = 0.9999] up to 10^5 MeV, with [c = 0.99] up to 10^13 MeV. *)
Theorem C39_coverage : forall modern k i m amu T fin r w p c, PseudoVoigt modern k i m amu T fin = Ok r ->
  width m = Ok w -> pv_params k (r_energy r) w amu T -> PseudoVoigtDistribution k (r_energy r) w amu T = Ok p ->
  0 <= c < 1 -> pv_Gamma p <= 2 ^ 70 * (1 - c) ^ 4 ->
  (exists ws a b, coverage_interval r c = (ws, Ok (Finite a, Finite b)) /\ inverted ws) /\
  (forall n, (2 <= n)%Z -> exists es, res_probability_grid r (Coverage c) n = ([], Ok (Some (map Finite es)))).
Proof. exact wide_coverage. Qed.
Example coverage_widths : 10 ^ 5 <= 2 ^ 70 * (1 - 0.9999) ^ 4 /\ 10 ^ 13 <= 2 ^ 70 * (1 - 0.99) ^ 4.
Proof. split; lra. Qed.

(** ** C40 *)
(** A cold line of 1 meV: asked for one half, at most one third is covered. *)
Theorem C40_coverage_refuted : exists modern k i m amu T fin w r a b f y, Voigt modern k i m amu T fin = Ok r /\
  width m = Ok w /\ pv_params k (r_energy r) w amu T /\ 0 < r_integrated r /\
  coverage_interval r (1 / 2) = ([], Ok (Finite a, Finite b)) /\
  cross_section_is r f /\ integral_over_axis f (r_integrated r) /\ is_RInt f a b (r_integrated r * y) /\ y <= 1 / 3.
Proof. exact voigt_refuted. Qed.
(** For every cold line and every coverage: too little, by the factor 2 in the width. *)
Theorem C40_cold_lines : forall modern k i m amu fin r w c ws lo hi, Voigt modern k i m amu 0 fin = Ok r ->
  width m = Ok w -> pv_params k (r_energy r) w amu 0 -> 0 < c < 1 -> coverage_interval r c = (ws, Ok (lo, hi)) ->
  exists a b f y, lo = Finite a /\ hi = Finite b /\ cross_section_is r f /\ integral_over_axis f (r_integrated r) /\
    is_RInt f a b (r_integrated r * y) /\ y <= 2 / PI * atan (tan (PI * c / 2) / 2).
Proof. exact voigt_cold_cases. Qed.

(** ** C27, C28, C30, C31 *)
Theorem C27_symmetric_pseudo_voigt : forall modern k i m amu T fin r w, PseudoVoigt modern k i m amu T fin = Ok r ->
  width m = Ok w -> pv_params k (r_energy r) w amu T ->
  exists f, cross_section_is r f /\ symmetric_about (r_energy r) f /\ integral_over_axis f (r_integrated r).
Proof. exact pv_symmetric. Qed.
(** Missing: an exact result (the quantiles are found numerically), and cases without numbers (C39). *)
Theorem C28_pseudo_voigt_partial : forall modern k i m amu T fin r w c ws lo hi, PseudoVoigt modern k i m amu T fin = Ok r ->
  width m = Ok w -> pv_params k (r_energy r) w amu T -> 0 <= c <= 1 ->
  coverage_interval r c = (ws, Ok (lo, hi)) -> inverted ws ->
  exists p a b f F e1 e2, PseudoVoigtDistribution k (r_energy r) w amu T = Ok p /\
    lo = Finite a /\ hi = Finite b /\ a <= r_energy r <= b /\ cross_section_is r f /\
    is_RInt f a (r_energy r) ((c / 2 - e1) * r_integrated r) /\ 0 <= e1 <= accuracy p /\
    is_RInt f (r_energy r) b ((c / 2 - e2) * r_integrated r) /\ 0 <= e2 <= accuracy p /\
    (forall x y, is_RInt f x y ((F y - F x) * r_integrated r)) /\ is_lim F m_infty 0 /\ is_lim F p_infty 1 /\
    (forall x, In (NegativeLowerLimit x) ws <-> a < 0 /\ x = 100 * (1 - F 0)) /\
    ~ In InfiniteUpperLimit ws.
Proof. exact pv_covers. Qed.
(** Missing: exactly equal integrals; limits on one side of the resonance energy with cells smaller than the accuracy. *)
Theorem C31_pseudo_voigt_partial : forall modern k i m amu T fin r w, PseudoVoigt modern k i m amu T fin = Ok r ->
  width m = Ok w -> pv_params k (r_energy r) w amu T ->
  exists p f F, PseudoVoigtDistribution k (r_energy r) w amu T = Ok p /\ cross_section_is r f /\
  (forall x y, is_RInt f x y (r_integrated r * (F y - F x))) /\
  (forall a b n ws g, a < b -> (2 <= n)%Z -> a <= r_energy r <= b \/ accuracy p < (F b - F a) / IZR (n - 1) ->
    res_probability_grid r (Limits a b) n = (ws, Ok (Some g)) -> inverted ws ->
    exists xs, g = map Finite xs /\ Z.of_nat (List.length xs) = n /\ first xs = a /\ final xs = b /\
      almost_equal_grid (r_integrated r) f ((F b - F a) / IZR (n - 1)) (2 * accuracy p) xs) /\
  (forall c n ws g, 0 < c <= 1 -> (2 <= n)%Z ->
    res_probability_grid r (Coverage c) n = (ws, Ok (Some g)) -> inverted ws ->
    exists xs, g = map Finite xs /\ Z.of_nat (List.length xs) = n /\ first xs <= r_energy r <= final xs /\
      almost_equal_grid (r_integrated r) f (c / IZR (n - 1)) (2 * accuracy p) xs).
Proof. exact pv_grids_any. Qed.
(** Refuted: the covered probability is the requested one; two thirds instead of 90 % for a cold line of 1 meV. *)
Theorem C28_pseudo_voigt_refuted : exists modern k i m amu T fin w r ws a b f y, PseudoVoigt modern k i m amu T fin = Ok r /\
  width m = Ok w /\ pv_params k (r_energy r) w amu T /\ 0 < r_integrated r /\
  coverage_interval r (9 / 10) = (ws, Ok (Finite a, Finite b)) /\ inverted ws /\ cross_section_is r f /\
  integral_over_axis f (r_integrated r) /\ is_RInt f a b (r_integrated r * y) /\ y < 2 / 3.
Proof. exact coverage_refuted. Qed.
(** Every cold line of at most 10 meV covers too little, and never two thirds. *)
Theorem C28_narrow_lines : forall modern k i m amu fin r w c, PseudoVoigt modern k i m amu 0 fin = Ok r -> width m = Ok w ->
  pv_params k (r_energy r) w amu 0 -> w <= 1 / 10 ^ 8 -> 0 < c <= 1 ->
  exists ws a b f y, coverage_interval r c = (ws, Ok (Finite a, Finite b)) /\ inverted ws /\ cross_section_is r f /\
    integral_over_axis f (r_integrated r) /\ is_RInt f a b (r_integrated r * y) /\ y < 2 / 3 /\ y < c.
Proof. exact narrow_coverage. Qed.
(** Refuted: the grid is ascending. *)
Theorem C31_pseudo_voigt_refuted : exists modern k i m amu T fin w r a b x, PseudoVoigt modern k i m amu T fin = Ok r /\
  width m = Ok w /\ pv_params k (r_energy r) w amu T /\ 0 < r_integrated r /\ a < b /\
  res_probability_grid r (Limits a b) 3 = ([], Ok (Some [Finite a; Finite x; Finite b])) /\ x < a.
Proof. exact grid_refuted. Qed.
(** Cold lines of at most 10 meV and limits above the resonance: all other points are below the lower limit. *)
Theorem C31_narrow_lines : forall modern k i m amu fin r w a b n, PseudoVoigt modern k i m amu 0 fin = Ok r -> width m = Ok w ->
  pv_params k (r_energy r) w amu 0 -> w <= 1 / 10 ^ 8 -> r_energy r + w / 2 <= a < b -> (2 <= n)%Z ->
  exists xs, res_probability_grid r (Limits a b) n = ([], Ok (Some (map Finite (a :: xs ++ [b])))) /\
    Z.of_nat (List.length xs) = (n - 2)%Z /\ List.Forall (fun x => r_energy r < x < a) xs.
Proof. exact narrow_grid_outside. Qed.

Print Assumptions C36_mixing_and_normalisation.
Print Assumptions C36_no_broadening.
Print Assumptions C37_gauss_limit.
Print Assumptions C37_lorentz_limit_refuted.
Print Assumptions C37_lorentz_limit_value.
Print Assumptions C38_unique_quantile.
Print Assumptions C38_accuracy_partial.
Print Assumptions C38_accuracy_number_partial.
Print Assumptions C38_small_error_refuted.
Print Assumptions C38_narrow_lines.
Print Assumptions C39_returns_none_refuted.
Print Assumptions C39_none_for_all_cold_lines.
Print Assumptions C39_single_point.
Print Assumptions C39_outcomes_partial.
Print Assumptions C40_coverage_refuted.
Print Assumptions C40_cold_lines.
Print Assumptions C27_symmetric_pseudo_voigt.
Print Assumptions C28_pseudo_voigt_partial.
Print Assumptions C31_pseudo_voigt_partial.
Print Assumptions C39_central_quantiles.
Print Assumptions C39_small_coverage.
Print Assumptions C39_dense_quantiles.
Print Assumptions C39_dense_number.
Print Assumptions C39_density_of_quantile.
Print Assumptions C39_coverage.
Print Assumptions C28_pseudo_voigt_refuted.
Print Assumptions C28_narrow_lines.
Print Assumptions C31_pseudo_voigt_refuted.
Print Assumptions C31_narrow_lines.
