(** C101: Voigt profiles with rounding. *)
From Coq Require Import Reals List ZArith Lra Lia.
From Verif Require Import Py Spec M_Num M_Constituents M_Thermal M_Dist M_CrossSection M_Resonance M_PseudoVoigt M_Float S_Float M_Float4 S_Float4 M_Float8 S_Float8 M_Float11 S_Float11 S_Resonance S_PseudoVoigt
  L_Voigt2 L_Float L_Float8 L_Float9 L_Float32 L_Float44 L_Float46 L_Float10.
Import ListNotations.
Open Scope R_scope.

(** A call of a Voigt profile with a natural width, for any implementation of [scipy.special.voigt_profile] with the relative error
    [eps]: the result is positive and accurate, both within many natural widths and within many Doppler widths. *)
Theorem C101_call : forall L eps vp, pvlib_ok L -> profile_ok eps vp -> 0 <= eps <= / 4 ->
  forall modern k i m fin amu T w E (a : bool), floats k i m fin -> width m = Ok w ->
  let E_r := fsub (st_excitation_energy m) (st_excitation_energy i) in let x := if a then E else fadd E E_r in
  pv_params k E_r w amu T -> pv_floats k E_r w amu T -> double E -> Rabs E <= 2 ^ 60 ->
  exists p r s v, PseudoVoigtDistribution k E_r w amu T = Ok p /\
    Voigt modern k i (with_energy m (st_excitation_energy i + E_r)) amu T fin = Ok r /\ r_energy r = E_r /\
    res_call r x true = Ok s /\ fVoigt_call L vp k i m amu T fin E a = Ok v /\ 0 < s /\ 0 < pv_gamma p /\
    (Rabs (x - E_r) <= 2 ^ 40 * pv_gamma p -> Rabs (v - s) <= (2 * eps + (42 + 10 * (Rabs (x - E_r) / pv_gamma p)) * unit_roundoff) * s) /\
    (0 < pv_sigma p -> Rabs (x - E_r) <= 2 ^ 20 * pv_sigma p -> Rabs (v - s) <= (2 * eps + (42 + 10 * ((x - E_r) / pv_sigma p) ^ 2) * unit_roundoff) * s).
Proof. exact (fun L eps vp HL HV He => fvoigt_good L HL eps vp HV He). Qed.

(** How sensitive the profile is: a shift of the energy by a fraction [z] of the natural half width changes it by little more than that
    fraction, it falls no faster than a Lorentzian with the combined width, and it scales with the unit of energy. *)
Theorem C101_profile : forall s g, 0 <= s -> 0 < g ->
  (forall x h z, 0 <= z -> Rabs h <= z * g -> Rabs (voigt_profile (x + h) s g - voigt_profile x s g) <= (z + z ^ 2) * voigt_profile x s g) /\
  (forall x, g / (2 * x ^ 2 + 2 * s ^ 2 + g ^ 2) / PI <= voigt_profile x s g) /\
  (forall x c, 0 < c -> voigt_profile (c * x) (c * s) (c * g) = voigt_profile x s g / c).
Proof. exact profile_sensitivity. Qed.

(** *** Non-vacuity *)
(** Correctly rounded functions meet the hypotheses. *)
Example C101_library : pvlib_ok correct_pvlib /\ profile_ok unit_roundoff correct_profile /\ 0 <= unit_roundoff <= / 4.
Proof. exact (conj correct_pvlib_ok (conj correct_profile_ok unit_quarter)). Qed.
(** A narrow resonance at an energy of 1, at zero temperature, called at the resonance. *)
Example C101_case : floats lost_k lost_i lost_m None /\ width lost_m = Ok (/ 2 ^ 60) /\
  (let E_r := fsub (st_excitation_energy lost_m) (st_excitation_energy lost_i) in pv_params lost_k E_r (/ 2 ^ 60) 1000 0 /\ pv_floats lost_k E_r (/ 2 ^ 60) 1000 0) /\
  double 1 /\ Rabs 1 <= 2 ^ 60.
Proof. exact voigt_case. Qed.
Print Assumptions C101_call.
Print Assumptions C101_profile.
