(** C60-C62: the Voigt profile as the thermal average of the Breit-Wigner cross section. *)
From Coq Require Import Reals List ZArith Lra.
From Coquelicot Require Import Coquelicot.
From Verif Require Import Py Spec M_Num M_Constituents M_Thermal M_Dist M_Resonance M_PseudoVoigt
  S_Resonance S_PseudoVoigt S_Voigt L_Resonance6 L_PseudoVoigt6 L_Voigt2.
Import ListNotations.
Open Scope R_scope.

(** The same transition at 1 MeV as a Voigt profile, a Breit-Wigner curve and a Gauss curve, for every
    positive width and temperature. *)
Example three_models_ex : forall w T, 0 < w -> 0 < T -> exists r r' r'' d,
  Voigt true codata ground (excited_with w) 12 T None = Ok r /\
  BreitWigner codata ground (excited_with w) None = Ok r' /\ Gauss codata ground (excited_with w) 12 T None = Ok r'' /\
  width (excited_with w) = Ok w /\ pv_params codata (r_energy r) w 12 T /\ 0 < r_integrated r /\
  get_doppler_width codata {| mb_amu := 12; mb_effective_temperature := T |} (r_energy r) = Ok d.
Proof. exact voigt_all_example. Qed.

(** ** C60 *)
Theorem C60_doppler_average : forall modern k i m amu T fin r r' w d f', Voigt modern k i m amu T fin = Ok r ->
  BreitWigner k i m fin = Ok r' -> width m = Ok w -> pv_params k (r_energy r) w amu T -> 0 < w -> 0 < T ->
  get_doppler_width k {| mb_amu := amu; mb_effective_temperature := T |} (r_energy r) = Ok d ->
  cross_section_is r' f' ->
  exists f, cross_section_is r f /\ forall E, integral_over_axis (fun E' => doppler_shifts d (E' - E) * f' E') (f E).
Proof. exact doppler_average. Qed.
Theorem C60_at_rest : forall modern k i m amu fin r r' w, Voigt modern k i m amu 0 fin = Ok r ->
  BreitWigner k i m fin = Ok r' -> width m = Ok w -> pv_params k (r_energy r) w amu 0 ->
  r_energy r' = r_energy r /\ r_integrated r' = r_integrated r /\ forall E b, res_call r E b = res_call r' E b.
Proof. exact voigt_cold. Qed.
Theorem C60_no_width : forall modern k i m amu T fin r r', Voigt modern k i m amu T fin = Ok r ->
  Gauss k i m amu T fin = Ok r' -> width m = Ok 0 -> pv_params k (r_energy r) 0 amu T ->
  r_energy r' = r_energy r /\ r_integrated r' = r_integrated r /\ forall E b, res_call r E b = res_call r' E b.
Proof. exact voigt_no_width. Qed.

(** ** C61 *)
Theorem C61_shape : forall modern k i m amu T fin r w, Voigt modern k i m amu T fin = Ok r -> width m = Ok w ->
  pv_params k (r_energy r) w amu T -> exists f, cross_section_is r f /\
  integral_over_axis f (r_integrated r) /\ symmetric_about (r_energy r) f /\ (forall E, continuous f E) /\
  (0 < r_integrated r -> (forall E, 0 < f E) /\ strictly_unimodal (r_energy r) f).
Proof. exact voigt_shape. Qed.
Theorem C61_peak : forall modern k i m amu T fin r r' r'' w f f' f'', Voigt modern k i m amu T fin = Ok r ->
  BreitWigner k i m fin = Ok r' -> Gauss k i m amu T fin = Ok r'' ->
  width m = Ok w -> pv_params k (r_energy r) w amu T -> 0 < w -> 0 < T -> 0 <= r_integrated r ->
  cross_section_is r f -> cross_section_is r' f' -> cross_section_is r'' f'' ->
  forall E, f E <= f' (r_energy r) /\ f E <= f'' (r_energy r).
Proof. exact voigt_peak. Qed.

(** ** C62 *)
Theorem C62_near_breit_wigner : forall modern k i m amu T fin r r' w d f f', Voigt modern k i m amu T fin = Ok r ->
  BreitWigner k i m fin = Ok r' -> width m = Ok w -> pv_params k (r_energy r) w amu T -> 0 < w ->
  get_doppler_width k {| mb_amu := amu; mb_effective_temperature := T |} (r_energy r) = Ok d ->
  cross_section_is r f -> cross_section_is r' f' ->
  forall E, Rabs (f E - f' E) <= sqrt 2 * (d / w) * Rabs (f' (r_energy r)).
Proof. exact voigt_near_bw. Qed.
Theorem C62_near_gauss : forall modern k i m amu T fin r r' w d f f', Voigt modern k i m amu T fin = Ok r ->
  Gauss k i m amu T fin = Ok r' -> width m = Ok w -> pv_params k (r_energy r) w amu T -> 0 < T ->
  get_doppler_width k {| mb_amu := amu; mb_effective_temperature := T |} (r_energy r) = Ok d ->
  cross_section_is r f -> cross_section_is r' f' ->
  forall E, Rabs (f E - f' E) <= 6 * sqrt (w / d) * Rabs (f' (r_energy r)).
Proof. exact voigt_near_gauss. Qed.

Print Assumptions C60_doppler_average.
Print Assumptions C60_at_rest.
Print Assumptions C60_no_width.
Print Assumptions C61_shape.
Print Assumptions C61_peak.
Print Assumptions C62_near_breit_wigner.
Print Assumptions C62_near_gauss.
