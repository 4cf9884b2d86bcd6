(** C78: quantiles of the pseudo-Voigt distribution in floating-point arithmetic. *)
From Coq Require Import Reals List ZArith.
From Coquelicot Require Import Coquelicot.
From Verif Require Import Py Spec M_Num M_Constituents M_Dist M_Resonance M_PseudoVoigt M_Float M_Float3 S_PseudoVoigt S_Float3
  L_Resonance6 L_FNewton3 L_FNewton4 L_FNewton6.
Import ListNotations.
Open Scope R_scope.

(** A number that is returned without a warning is a quantile up to the error of the CDF, the tolerance of the
    root finder and the spacing of the floats, whatever the number of iterations [n]. *)
Theorem C78_accuracy_number : forall k E w amu T p cdf pdf eps delta n fb q ws x, pv_params k E w amu T ->
  PseudoVoigtDistribution k E w amu T = Ok p -> double E -> double q -> computes p eps delta cdf pdf ->
  0 <= delta <= 1 / 100 -> pv_Gamma p <= 10 ^ 20 ->
  fppf_scalar n cdf pdf E fb q = (ws, Ok (Some [Finite x])) -> inverted ws ->
  exists F, pv_cdf p x = Ok F /\ Rabs (F - q) <= eps + (5 / 10 ^ 8 + Rabs x / 2 ^ 50) / pv_Gamma p.
Proof. exact fscalar_accuracy. Qed.
Theorem C78_accuracy_array : forall k E w amu T p cdf pdf eps delta n fb qs ws xs, pv_params k E w amu T ->
  PseudoVoigtDistribution k E w amu T = Ok p -> double E -> List.Forall double qs -> computes p eps delta cdf pdf ->
  0 <= delta <= 1 / 100 -> pv_Gamma p <= 10 ^ 20 ->
  fppf_array n cdf pdf E fb qs = (ws, Ok (Some xs)) -> inverted ws ->
  Forall2 (fun q x => exists e F, x = Finite e /\ pv_cdf p e = Ok F /\
    Rabs (F - q) <= eps + (5 / 10 ^ 8 + Rabs e / 2 ^ 50) / pv_Gamma p) qs xs.
Proof. exact farray_accuracy. Qed.
(** Quantiles with probability [2 s] on both sides are found: with [s = 1/8] for widths up to 0.38 MeV and energies
    up to 4.8 GeV, with [s = 1/20] for widths up to 1.5 keV. *)
Theorem C78_found : forall k E w amu T p cdf pdf fb s q, pv_params k E w amu T ->
  PseudoVoigtDistribution k E w amu T = Ok p -> double E -> double q ->
  computes p (/ 2 ^ 47) (/ 2 ^ 47) cdf pdf -> / 10 ^ 4 <= s -> 2 * s <= q <= 1 - 2 * s ->
  / 10 ^ 20 <= pv_Gamma p <= 10 ^ 5 * s ^ 6 -> E <= 2 * 10 ^ 7 * s ^ 4 -> E <= 10 ^ 15 * (s * pv_Gamma p) ->
  exists x, fppf_scalar maxiter cdf pdf E fb q = ([], Ok (Some [Finite x])).
Proof. exact fscalar_found. Qed.
(** The same for arrays: all elements are found, without a warning. *)
Theorem C78_found_array : forall k E w amu T p cdf pdf fb s qs, pv_params k E w amu T ->
  PseudoVoigtDistribution k E w amu T = Ok p -> double E -> List.Forall double qs ->
  computes p (/ 2 ^ 47) (/ 2 ^ 47) cdf pdf -> / 700 <= s <= 1 / 4 -> List.Forall (fun q => 2 * s <= q <= 1 - 2 * s) qs ->
  / 10 ^ 20 <= pv_Gamma p <= 10 ^ 5 * s ^ 6 -> E <= 2 * 10 ^ 7 * s ^ 4 -> E <= 10 ^ 14 * (s ^ 2 * pv_Gamma p) ->
  exists xs, List.length xs = List.length qs /\ fppf_array maxiter cdf pdf E fb qs = ([], Ok (Some (map Finite xs))).
Proof. exact farray_found. Qed.
Example C78_ex : exists p cdf pdf, PseudoVoigtDistribution codata 1 (/ 10 ^ 6) 12 0 = Ok p /\
  pv_params codata 1 (/ 10 ^ 6) 12 0 /\ double 1 /\ double (1 / 4) /\
  computes p (/ 2 ^ 47) (/ 2 ^ 47) cdf pdf /\ / 10 ^ 4 <= 1 / 8 /\ 2 * (1 / 8) <= 1 / 4 <= 1 - 2 * (1 / 8) /\
  / 10 ^ 20 <= pv_Gamma p <= 10 ^ 5 * (1 / 8) ^ 6 /\ 1 <= 2 * 10 ^ 7 * (1 / 8) ^ 4 /\ 1 <= 10 ^ 15 * (1 / 8 * pv_Gamma p) /\
  1 <= 10 ^ 14 * ((1 / 8) ^ 2 * pv_Gamma p).
Proof. exact example_found. Qed.
(** The computed CDF of a line at rest jumps in the lower tail, so that the root finder never meets its tolerance
    and the fallback is used, whatever the number of iterations. *)
Theorem C78_cold_fallback : forall k E w amu p q delta cdf pdf n fb, pv_params k E w amu 0 ->
  PseudoVoigtDistribution k E w amu 0 = Ok p -> double E -> double q -> E <= 10 ^ 6 -> 4 / 10 ^ 5 <= w ->
  / 10 ^ 8 <= q <= / 10 ^ 5 -> w <= 8 * 10 ^ 7 * q ->
  0 < delta -> off_grid q delta -> 28 / 10 ^ 8 * q ^ 2 <= w * delta -> half_plus cdf ->
  (forall x F f, double x -> pv_cdf p x = Ok F -> pv_pdf p x = Ok f ->
    Rabs (cdf x - F) <= / 2 ^ 50 /\ 0 <= pdf x <= (1 + / 2 ^ 20) * f) ->
  fppf_scalar n cdf pdf E fb q = ([InversionFailed], fb q).
Proof. exact cold_fallback. Qed.
(** Refuted: every quantile that is found with exact arithmetic is found with floats and a CDF and PDF that are
    accurate to 16 digits.  The quantile is the float [1e-6]. *)
Theorem C78_found_as_exact_refuted : exists k E w amu p q cdf pdf e, pv_params k E w amu 0 /\
  PseudoVoigtDistribution k E w amu 0 = Ok p /\ double E /\ q = rnd (1 / 10 ^ 6) /\ computes p (/ 2 ^ 50) 0 cdf pdf /\
  pv_ppf_scalar p q = ([], Ok (Some [Finite e])) /\
  forall n fb, fppf_scalar n cdf pdf E fb q = ([InversionFailed], fb q).
Proof. exact finds_refuted. Qed.

Print Assumptions C78_accuracy_number.
Print Assumptions C78_accuracy_array.
Print Assumptions C78_found.
Print Assumptions C78_cold_fallback.
Print Assumptions C78_found_as_exact_refuted.
Print Assumptions C78_found_array.
