(** C84: the pseudo-Voigt distribution in floating-point arithmetic. *)
From Coq Require Import Reals List ZArith.
From Coquelicot Require Import Rbar.
From Verif Require Import Py Spec M_Num M_Grid M_Constituents M_Thermal M_Dist M_CrossSection M_Resonance M_PseudoVoigt M_Float S_Float S_Float3
  M_Float4 S_Float4 S_Float6 M_Float8 S_Float8 S_PseudoVoigt L_Float10 L_Float32 L_Float33.
Import ListNotations.
Open Scope R_scope.

(** All attributes of the object have small relative errors. *)
Theorem C84_parameters : forall L k E w amu T, pvlib_ok L -> pv_params k E w amu T -> pv_floats k E w amu T -> exists p p',
  PseudoVoigtDistribution k E w amu T = Ok p /\ fPseudoVoigtDistribution L k E w amu T = Ok p' /\
  pv_energy p' = pv_energy p /\ pv_Gamma_L p' = pv_Gamma_L p /\
  Rabs (pv_doppler p' - pv_doppler p) <= 6 * unit_roundoff * pv_doppler p /\
  Rabs (pv_sigma p' - pv_sigma p) <= 8 * unit_roundoff * pv_sigma p /\
  Rabs (pv_Gamma_G p' - pv_Gamma_G p) <= 11 * unit_roundoff * pv_Gamma_G p /\
  Rabs (pv_Gamma p' - pv_Gamma p) <= 39 * unit_roundoff * pv_Gamma p /\
  Rabs (pv_eta p' - pv_eta p) <= 116 * unit_roundoff * pv_eta p /\
  Rabs (pv_gamma_G p' - pv_gamma_G p) <= 44 * unit_roundoff * pv_gamma_G p /\
  Rabs (pv_gamma_L p' - pv_gamma_L p) <= 40 * unit_roundoff * pv_gamma_L p /\
  Rabs (pv_gamma p' - pv_gamma p) <= 2 * unit_roundoff * pv_gamma p.
Proof. exact parameters. Qed.

(** But the weights need not be between 0 and 1, and the total width may be smaller than the natural one: a width of
    1/1024 without thermal motion, with library functions that round correctly. *)
Theorem C84_weights_refuted : exists L k E w amu T p p', pvlib_ok L /\ pv_params k E w amu T /\ pv_floats k E w amu T /\
  PseudoVoigtDistribution k E w amu T = Ok p /\ fPseudoVoigtDistribution L k E w amu T = Ok p' /\
  pv_Gamma_L p <= pv_Gamma p /\ pv_eta p <= 1 /\ pv_Gamma p' < pv_Gamma_L p' /\ 1 < pv_eta p'.
Proof. exact cold_refuted. Qed.

(** The PDF within seven widths. *)
Theorem C84_pdf : forall L k E w amu T p p', pvlib_ok L -> pv_params k E w amu T -> pv_floats k E w amu T ->
  PseudoVoigtDistribution k E w amu T = Ok p -> fPseudoVoigtDistribution L k E w amu T = Ok p' ->
  forall x, double x -> Rabs (x - E) <= 7 * pv_Gamma p ->
  exists f v, pv_pdf p x = Ok f /\ fpv_pdf L p' x = Ok v /\
    Rabs (v - f) <= (560 + 275 * ((x - E) / pv_Gamma p) ^ 2) * unit_roundoff * f.
Proof. exact both_pdf. Qed.
(** With a natural width, the PDF is accurate and positive everywhere. *)
Theorem C84_pdf_tails : forall L k E w amu T p p', pvlib_ok L -> pv_params k E w amu T -> pv_floats k E w amu T ->
  PseudoVoigtDistribution k E w amu T = Ok p -> fPseudoVoigtDistribution L k E w amu T = Ok p' ->
  forall x, w <> 0 -> double x -> Rabs (x - E) <= 2 ^ 63 ->
  exists f v, pv_pdf p x = Ok f /\ fpv_pdf L p' x = Ok v /\ 0 < v /\ Rabs (v - f) <= / 2 ^ 39 * f.
Proof. exact both_pdf_all. Qed.
(** There is a number for any argument. *)
Theorem C84_pdf_bound : forall L k E w amu T p p', pvlib_ok L -> pv_params k E w amu T -> pv_floats k E w amu T ->
  PseudoVoigtDistribution k E w amu T = Ok p -> fPseudoVoigtDistribution L k E w amu T = Ok p' ->
  forall x, exists v, fpv_pdf L p' x = Ok v /\ Rabs v <= 3 / 2 / pv_Gamma p.
Proof. exact both_finite. Qed.

(** The CDF at any float. *)
Theorem C84_cdf : forall L k E w amu T p p', pvlib_ok L -> pv_params k E w amu T -> pv_floats k E w amu T ->
  PseudoVoigtDistribution k E w amu T = Ok p -> fPseudoVoigtDistribution L k E w amu T = Ok p' ->
  forall x, double x -> exists F v, pv_cdf p x = Ok F /\ fpv_cdf L p' x = Ok v /\ Rabs (v - F) <= 300 * unit_roundoff.
Proof. exact both_cdf. Qed.

(** Quantiles: a number that is returned without a warning is a quantile of the exact distribution up to rounding,
    the tolerance of the root finder and the spacing of the floats. *)
Theorem C84_ppf : forall L k E w amu T p p', pvlib_ok L -> pv_params k E w amu T -> pv_floats k E w amu T ->
  PseudoVoigtDistribution k E w amu T = Ok p -> fPseudoVoigtDistribution L k E w amu T = Ok p' ->
  forall q ws x, double q -> fpv_ppf_scalar L p' q = (ws, Ok (Some [Finite x])) -> inverted ws ->
  exists F, pv_cdf p x = Ok F /\ Rabs (F - q) <= / 2 ^ 44 + (5 / 10 ^ 8 + Rabs x / 2 ^ 50) / pv_Gamma p.
Proof. exact both_ppf. Qed.
Theorem C84_ppf_array : forall L k E w amu T p p', pvlib_ok L -> pv_params k E w amu T -> pv_floats k E w amu T ->
  PseudoVoigtDistribution k E w amu T = Ok p -> fPseudoVoigtDistribution L k E w amu T = Ok p' ->
  forall qs ws xs, List.Forall double qs -> fpv_ppf_array L p' qs = (ws, Ok (Some xs)) -> inverted ws ->
  Forall2 (fun q x => exists e F, x = Finite e /\ pv_cdf p e = Ok F /\
    Rabs (F - q) <= / 2 ^ 44 + (5 / 10 ^ 8 + Rabs e / 2 ^ 50) / pv_Gamma p) qs xs.
Proof. exact both_ppf_array. Qed.
(** Quantiles with probability [2 s] on both sides are found, e.g. with [s = 1/8] for widths up to 26 keV and
    energies up to 4.8 GeV. *)
Theorem C84_ppf_found : forall L k E w amu T p p', pvlib_ok L -> pv_params k E w amu T -> pv_floats k E w amu T ->
  PseudoVoigtDistribution k E w amu T = Ok p -> fPseudoVoigtDistribution L k E w amu T = Ok p' ->
  forall s q, double q -> / 1000 <= s -> 2 * s <= q <= 1 - 2 * s ->
  pv_Gamma p <= 7 * 10 ^ 3 * s ^ 6 -> E <= 2 * 10 ^ 7 * s ^ 4 -> E <= 10 ^ 15 * (s * pv_Gamma p) ->
  exists x, fpv_ppf_scalar L p' q = ([], Ok (Some [Finite x])).
Proof. exact both_found. Qed.
Theorem C84_ppf_found_array : forall L k E w amu T p p', pvlib_ok L -> pv_params k E w amu T -> pv_floats k E w amu T ->
  PseudoVoigtDistribution k E w amu T = Ok p -> fPseudoVoigtDistribution L k E w amu T = Ok p' ->
  forall s qs, List.Forall double qs -> / 300 <= s <= 1 / 4 -> List.Forall (fun q => 2 * s <= q <= 1 - 2 * s) qs ->
  pv_Gamma p <= 7 * 10 ^ 3 * s ^ 6 -> E <= 2 * 10 ^ 7 * s ^ 4 -> E <= 10 ^ 14 * (s ^ 2 * pv_Gamma p) ->
  exists xs, List.length xs = List.length qs /\ fpv_ppf_array L p' qs = ([], Ok (Some (map Finite xs))).
Proof. exact both_found_array. Qed.
(** The approximation after a failure is finite. *)
Theorem C84_fallback : forall L k E w amu T p p', pvlib_ok L -> pv_params k E w amu T -> pv_floats k E w amu T ->
  PseudoVoigtDistribution k E w amu T = Ok p -> fPseudoVoigtDistribution L k E w amu T = Ok p' ->
  forall qs, List.Forall (fun q => double q /\ 0 < q < 1) qs ->
  exists xs, fpv_fallback L p' qs = Ok (Some (map Finite xs)) /\ List.length xs = List.length qs.
Proof. exact both_fallback. Qed.
(** For the quantiles 0 and 1 it is infinite, or nan unless both weights are positive. *)
Theorem C84_outermost : forall L k E w amu T p p', pvlib_ok L -> pv_params k E w amu T -> pv_floats k E w amu T ->
  PseudoVoigtDistribution k E w amu T = Ok p -> fPseudoVoigtDistribution L k E w amu T = Ok p' ->
  (0 < pv_eta p' < 1 -> fpv_fallback L p' [0] = Ok (Some [m_infty]) /\ fpv_fallback L p' [1] = Ok (Some [p_infty])) /\
  (~ 0 < pv_eta p' < 1 -> fpv_fallback L p' [0] = NaN /\ fpv_fallback L p' [1] = NaN).
Proof. exact outermost. Qed.

(** A call of the resonance gives the exact cross section at the rounded resonance energy, up to 2^-38 anywhere, and
    with an error that grows with the square of the distance near the resonance. *)
Theorem C84_call : forall L modern k i m fin amu T w E (absolute : bool), pvlib_ok L -> floats k i m fin -> width m = Ok w ->
  let E_r := fsub (st_excitation_energy m) (st_excitation_energy i) in
  let x := if absolute then E else fadd E E_r in
  pv_params k E_r w amu T -> pv_floats k E_r w amu T -> double E -> Rabs E <= 2 ^ 60 ->
  exists p r s v, PseudoVoigtDistribution k E_r w amu T = Ok p /\
    PseudoVoigt modern k i (with_energy m (st_excitation_energy i + E_r)) amu T fin = Ok r /\ r_energy r = E_r /\
    res_call r x true = Ok s /\ fPseudoVoigt_call L k i m amu T fin E absolute = Ok v /\
    0 < s /\ Rabs (v - s) <= / 2 ^ 38 * s /\
    (Rabs (x - E_r) <= 7 * pv_Gamma p ->
     Rabs (v - s) <= (580 + 275 * ((x - E_r) / pv_Gamma p) ^ 2) * unit_roundoff * s).
Proof. exact fcall_good. Qed.

(** The hypotheses can be met. *)
Example C84_ex_lib : pvlib_ok correct_pvlib. Proof. exact correct_pvlib_ok. Qed.
Example C84_ex_cold : pv_params codata 1 (1 / 1024) 12 0 /\ pv_floats codata 1 (1 / 1024) 12 0. Proof. exact cold_params. Qed.
Example C84_ex_warm w : w = 0 \/ w = 1 / 1024 -> pv_params codata 4 w 12 300 /\ pv_floats codata 4 w 12 300.
Proof. exact (warm_example w). Qed.
Example C84_ex_found : exists p p', PseudoVoigtDistribution codata 1 (1 / 1024) 12 0 = Ok p /\
  fPseudoVoigtDistribution correct_pvlib codata 1 (1 / 1024) 12 0 = Ok p' /\
  double (1 / 4) /\ 2 * (1 / 8) <= 1 / 4 <= 1 - 2 * (1 / 8) /\ pv_Gamma p <= 7 * 10 ^ 3 * (1 / 8) ^ 6 /\
  1 <= 2 * 10 ^ 7 * (1 / 8) ^ 4 /\ 1 <= 10 ^ 15 * (1 / 8 * pv_Gamma p) /\ 1 <= 10 ^ 14 * ((1 / 8) ^ 2 * pv_Gamma p).
Proof. exact cold_example. Qed.
Example C84_ex_call : floats lost_k lost_i lost_m None /\ width lost_m = Ok (/ 2 ^ 60) /\
  let E_r := fsub (st_excitation_energy lost_m) (st_excitation_energy lost_i) in
  pv_params lost_k E_r (/ 2 ^ 60) 1000 0 /\ pv_floats lost_k E_r (/ 2 ^ 60) 1000 0.
Proof. exact call_example. Qed.
Print Assumptions C84_parameters.
Print Assumptions C84_weights_refuted.
Print Assumptions C84_pdf.
Print Assumptions C84_pdf_tails.
Print Assumptions C84_pdf_bound.
Print Assumptions C84_cdf.
Print Assumptions C84_ppf.
Print Assumptions C84_ppf_array.
Print Assumptions C84_ppf_found.
Print Assumptions C84_ppf_found_array.
Print Assumptions C84_fallback.
Print Assumptions C84_call.
Print Assumptions C84_outermost.
