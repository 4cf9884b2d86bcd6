(** C95: Compton cross sections with infinities and nan. *)
From Coq Require Import Reals List ZArith Lra Lia.
From Flocq Require Import Core BinarySingleNaN.
From Verif Require Import Py M_Num M_KleinNishina M_Float S_Float M_Float2 S_Float2 L_Float8 M_Float5 S_Float5 L_Float18 M_Ieee M_Ieee2 M_Ieee3 S_Ieee S_Ieee3
  L_Ieee L_Ieee2 L_Ieee4 L_Ieee5 L_Ieee6 L_Ieee9 L_Ieee10 L_Ieee11 L_Ieee12 L_Ieee13.
Open Scope R_scope.

(** ** The total cross section *)
(** A finite value is the value without any limit of numbers, whatever the energy and the particle are. *)
Theorem C95_finite : forall L m b c E v, klib_special L -> same_libm L m -> same_particle b c ->
  bkn_cs_total NumpyFloat L b E = Ok v -> finite v -> finite E /\ fkn_cs_total m c (B2R E) = Ok (B2R v).
Proof. exact total_finite. Qed.
(** It is finite for energies between 2^-100 and 2^100 masses, for both kinds of floats. *)
Theorem C95_range : forall t L m b c E e, klib_special L -> same_libm L m -> libm_ok m -> same_particle b c -> rep E e ->
  0 < kn_mc2 c -> moderate (e / kn_mc2 c) -> moderate (kn_scale_factor c) ->
  reads_number (bkn_cs_total t L b E) (fkn_cs_total m c e).
Proof. exact total_agree. Qed.
(** Elements of arrays give the values of Python floats, and an infinity or nan where those raise an exception. *)
Theorem C95_kinds : forall L b E, klib_special L ->
  instead_of_raising (bkn_cs_total PythonFloat L b E) (bkn_cs_total NumpyFloat L b E).
Proof. exact total_kinds. Qed.
Theorem C95_limits : forall L b c, klib_special L -> same_particle b c -> 0 < kn_mc2 c ->
  (forall s, bkn_cs_total NumpyFloat L b (B754_zero s) = Ok B754_nan) /\
  (forall s, bkn_cs_total PythonFloat L b (B754_zero s) = Raise ZeroDivisionError) /\
  (forall t, bkn_cs_total t L b (B754_infinity false) = Ok B754_nan) /\
  (forall t, bkn_cs_total t L b B754_nan = Ok B754_nan).
Proof.
  exact (fun L b c S P H => conj (fun s => proj1 (total_zero L b c s S P H)) (conj (fun s => proj2 (total_zero L b c s S P H))
    (conj (fun t => total_inf t L b c S P H) (fun t => total_nan t L b c S P H)))).
Qed.
(** Not for all positive energies. *)
Theorem C95_high_refuted : forall L b c E e, same_particle b c -> rep E e -> 0 < kn_mc2 c -> 2 ^ 400 <= e / kn_mc2 c ->
  not_finite (bkn_cs_total NumpyFloat L b E).
Proof. exact total_high. Qed.
Theorem C95_low_refuted : forall L b c E e, klib_special L -> same_particle b c -> rep E e -> 0 < kn_mc2 c ->
  Rabs (e / kn_mc2 c) <= / 2 ^ 343 -> not_finite (bkn_cs_total NumpyFloat L b E).
Proof. exact total_low. Qed.

(** ** Differential cross sections *)
(** The same numbers up to 2^900 electron masses. *)
Theorem C95_angles : forall t L a k b c ME E e T x P p, klib_special L -> same_alib L a -> alib_ok a ->
  rep (bk_scale_factor b) (kn_scale_factor c) -> rep ME (k_me k) -> kn_floats k c ->
  rep E e -> 0 <= e / k_me k <= 2 ^ 900 -> rep T x -> rep P p ->
  reads_number (bkn_Ep_over_E t L ME E T) (fkn_Ep_over_E a k e x) /\
  reads_number (bkn_compton_edge t L ME E) (fkn_compton_edge a k e) /\
  reads_number (bkn_cs_diff_dOmega t L ME b E T P) (fkn_cs_diff_dOmega a k c e x p) /\
  reads_number (bkn_cs_diff_dOmega_unpolarized t L ME b E T) (fkn_cs_diff_dOmega_unpolarized a k c e x) /\
  reads_number (bkn_cs_diff_dtheta t L ME b E T) (fkn_cs_diff_dtheta a k c e x).
Proof. exact angles_agree. Qed.
(** From the Compton edge to the initial energy: the same outcomes, nan included. *)
Theorem C95_energies : forall t L a k b c ME E e Ep ep P p, klib_special L -> same_alib L a -> alib_ok a ->
  rep (bk_scale_factor b) (kn_scale_factor c) -> rep ME (k_me k) -> kn_floats k c ->
  rep E e -> rep Ep ep -> rep P p -> / 2 ^ 100 <= e / k_me k <= 2 ^ 100 -> 0 < ep <= e -> k_me k * (1 / ep - 1 / e) <= 2 ->
  agrees (bkn_theta t L ME E Ep) (fkn_theta a k e ep) /\
  agrees (bkn_cs_diff_dEp t L ME b E Ep) (fkn_cs_diff_dEp a k c e ep) /\
  agrees (bkn_cs_diff_dEp_dphi t L ME b E Ep P) (fkn_cs_diff_dEp_dphi a k c e ep p).
Proof. exact energies_agree. Qed.
(** All energies and angles: Python floats and elements of arrays. *)
Theorem C95_differential_kinds : forall L ME b E Ep T P, klib_special L -> bzero ME = false ->
  bkn_Ep_over_E PythonFloat L ME E T = bkn_Ep_over_E NumpyFloat L ME E T /\
  bkn_compton_edge PythonFloat L ME E = bkn_compton_edge NumpyFloat L ME E /\
  bkn_cs_diff_dOmega PythonFloat L ME b E T P = bkn_cs_diff_dOmega NumpyFloat L ME b E T P /\
  bkn_cs_diff_dOmega_unpolarized PythonFloat L ME b E T = bkn_cs_diff_dOmega_unpolarized NumpyFloat L ME b E T /\
  bkn_cs_diff_dtheta PythonFloat L ME b E T = bkn_cs_diff_dtheta NumpyFloat L ME b E T /\
  instead_of_raising (bkn_theta PythonFloat L ME E Ep) (bkn_theta NumpyFloat L ME E Ep) /\
  instead_of_raising (bkn_cs_diff_dEp PythonFloat L ME b E Ep) (bkn_cs_diff_dEp NumpyFloat L ME b E Ep) /\
  instead_of_raising (bkn_cs_diff_dEp_dphi PythonFloat L ME b E Ep P) (bkn_cs_diff_dEp_dphi NumpyFloat L ME b E Ep P).
Proof. exact differential_kinds. Qed.

(** ** The scale factor *)
Theorem C95_scale_factor : forall a2 x h2 y Z z M m, rep a2 x -> rep h2 y -> rep Z z -> rep M m ->
  / 2 ^ 60 <= x <= 2 ^ 60 -> / 2 ^ 60 <= y <= 2 ^ 60 -> / 2 ^ 60 <= z <= 2 ^ 60 -> / 2 ^ 200 <= m <= 2 ^ 200 ->
  exists b, bKleinNishina a2 h2 Z M = Ok b /\ bk_mc2 b = M /\ finite (bk_scale_factor b) /\
    Rabs (B2R (bk_scale_factor b) - z * x * y / (m * m)) <= 5 * unit_roundoff * (z * x * y / (m * m)).
Proof. exact scale_factor. Qed.
(** Not for all masses: a positive mass may be rejected, and a finite one may give no cross section at all. *)
Theorem C95_light_refuted : forall a2 h2 Z, exists M, finite M /\ 0 < B2R M /\ bKleinNishina a2 h2 Z M = Raise ZeroDivisionError.
Proof. exact scale_factor_light. Qed.
Theorem C95_heavy_refuted : forall a2 h2 Z, finite (bmul (bmul Z a2) h2) ->
  exists M b, finite M /\ 0 < B2R M /\ bKleinNishina a2 h2 Z M = Ok b /\ rep (bk_scale_factor b) 0.
Proof. exact scale_factor_heavy. Qed.

(** *** Non-vacuity *)
Example C95_library : klib_special correct_klib /\ same_libm correct_klib round_libm /\ libm_ok round_libm /\
  same_alib correct_klib correct_alib /\ alib_ok correct_alib.
Proof. exact (conj correct_special (conj correct_libm (conj round_libm_ok (conj correct_alib_same (proj1 correct_alib_ok))))). Qed.
(** A photon with the energy 1 that is scattered to 1/2 by a particle of mass 1. *)
Example C95_ex : exists b c k, same_particle b c /\ rep (of_Z 1) (k_me k) /\ kn_floats k c /\ rep (of_Z 1) 1 /\ rep (literal 1 2) (1 / 2) /\
  moderate (1 / kn_mc2 c) /\ moderate (kn_scale_factor c) /\ / 2 ^ 100 <= 1 / k_me k <= 2 ^ 100 /\ 0 < 1 / 2 <= 1 /\ k_me k * (1 / (1 / 2) - 1 / 1) <= 2.
Proof. exact kn_example. Qed.
(** Energies outside of the range. *)
Example C95_ex_range : rep (mass 500) (2 ^ 500) /\ rep (mass (-400)) (/ 2 ^ 400) /\ 2 ^ 400 <= 2 ^ 500 / 1 /\ Rabs (/ 2 ^ 400 / 1) <= / 2 ^ 343.
Proof. exact kn_extremes. Qed.
Print Assumptions C95_finite.
Print Assumptions C95_range.
Print Assumptions C95_kinds.
Print Assumptions C95_limits.
Print Assumptions C95_high_refuted.
Print Assumptions C95_low_refuted.
Print Assumptions C95_angles.
Print Assumptions C95_energies.
Print Assumptions C95_differential_kinds.
Print Assumptions C95_scale_factor.
Print Assumptions C95_light_refuted.
Print Assumptions C95_heavy_refuted.
