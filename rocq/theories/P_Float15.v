(** C111: attenuation in the example notebooks, with rounding. *)
From Coq Require Import Reals List ZArith.
From Verif Require Import Py M_Num M_Constituents M_Thermal M_Dist M_Resonance M_PseudoVoigt S_Resonance S_PseudoVoigt M_Notebook M_Float S_Float M_Float4 S_Float4 M_Float8 S_Float8 M_Float11 S_Float11 M_Float13 S_Float14 S_Float15
  L_Float10 L_Float49 L_Float55.
Open Scope R_scope.

(** Transmission and absorption in a layer, from computed cross sections with the relative error [delta]: the error of the transmitted flux is that of
    the optical depth, which is the relative error of the cross section times the depth. *)
Theorem C111_layer : forall ex nr' sr' nr sr E delta c rho, exp_accurate ex -> close_value delta nr' E nr E -> close_value delta sr' E sr E -> 0 <= delta <= / 16 ->
  double c -> double rho -> 0 <= c -> 0 <= rho ->
  exists a b, nr E = Ok a /\ sr E = Ok b /\ let tau := (a + c * b) * rho in let e := depth_error delta rho tau in
    0 <= tau /\ (tau <= 150 -> e <= / 4 -> exists p p' q q', Phi E rho nr sr c = Ok p /\ fPhi ex E rho nr' sr' c = Ok p' /\
      alpha E rho nr sr c = Ok q /\ falpha ex E rho nr' sr' c = Ok q' /\
      Rabs (p' - p) <= (2 * e + 3 * unit_roundoff) * p /\ Rabs (q' - q) <= (delta + 3 * e + 7 * unit_roundoff) * q + 3 * half_smallest).
Proof. exact flux_close. Qed.
(** Whatever the numbers are, the computed transmission is between 0 and 1, it is 1 for no target at all, and never increases with the cross sections,
    the abundance and the areal density; the computed absorption is not negative. *)
Theorem C111_range : forall ex E rho rho' nr sr nr' sr' c c' a b a' b', exp_rising ex -> nr E = Ok a -> sr E = Ok b -> nr' E = Ok a' -> sr' E = Ok b' ->
  0 <= a <= a' -> 0 <= b <= b' -> 0 <= c <= c' -> 0 <= rho <= rho' ->
  exists p p', fPhi ex E rho nr sr c = Ok p /\ fPhi ex E rho' nr' sr' c' = Ok p' /\ 0 <= p' <= p /\ p <= 1 /\ (rho = 0 -> p = 1).
Proof. exact flux_rising. Qed.
Theorem C111_absorption : forall ex E rho nr sr c a b, exp_rising ex -> nr E = Ok a -> sr E = Ok b -> 0 <= b -> 0 <= c ->
  exists q, falpha ex E rho nr sr c = Ok q /\ 0 <= q.
Proof. exact absorption_nonneg. Qed.
(** The functions of 6Li.ipynb with a Voigt profile, everything rounded, against the exact ones: [x] is the energy where the profile is evaluated. *)
Theorem C111_voigt : forall L eps vp ex modern k i m fin amu T w E, pvlib_ok L -> profile_ok eps vp -> 0 <= eps <= / 4 -> exp_accurate ex -> floats k i m fin -> width m = Ok w ->
  let E_r := fsub (st_excitation_energy m) (st_excitation_energy i) in let x := fadd E E_r in
  pv_params k E_r w amu T -> pv_floats k E_r w amu T -> double E -> Rabs E <= 2 ^ 60 ->
  exists p r s, PseudoVoigtDistribution k E_r w amu T = Ok p /\ Voigt modern k i (with_energy m (st_excitation_energy i + E_r)) amu T fin = Ok r /\
    res_call r (x - E_r) false = Ok s /\ 0 < s /\
  forall delta rho, voigt_error p eps E_r delta x -> delta <= / 16 -> double rho -> 0 <= rho ->
    let e := depth_error delta rho (s * rho) in s * rho <= 150 -> e <= / 4 ->
    exists f f' q q', photon_flux_density r (x - E_r) rho = Ok f /\ resonance_absorption_density r (x - E_r) rho = Ok q /\
      fphoton_flux_density ex (fun E => fVoigt_call L vp k i m amu T fin E false) E rho = Ok f' /\
      fresonance_absorption_density ex (fun E => fVoigt_call L vp k i m amu T fin E false) E rho = Ok q' /\
      Rabs (f' - f) <= (2 * e + 3 * unit_roundoff) * f /\ Rabs (q' - q) <= (delta + 3 * e + 7 * unit_roundoff) * q + 3 * half_smallest.
Proof. exact voigt_flux. Qed.

(** *** Non-vacuity *)
(** The exponential function with correct rounding. *)
Example C111_library : exp_accurate (fun x => rnd (exp x)) /\ exp_rising (fun x => rnd (exp x)). Proof. exact rounded_exp. Qed.
(** A layer with an optical depth of 2. *)
Example C111_case : close_value (/ 16) (fun _ => Ok 1) 3 (fun _ => Ok 1) 3 /\ double 1 /\ (1 + 1 * 1) * 1 <= 150 /\ depth_error (/ 16) 1 ((1 + 1 * 1) * 1) <= / 4.
Proof. exact layer_case. Qed.
(** A line at an energy of 1 with a width of 1/1024, at the resonance, and optical depths up to 1. *)
Example C111_line : floats lost_k lost_i wide_m None /\ width wide_m = Ok (/ 2 ^ 10) /\ (let E_r := fsub (st_excitation_energy wide_m) (st_excitation_energy lost_i) in
    pv_params lost_k E_r (/ 2 ^ 10) 1000 0 /\ pv_floats lost_k E_r (/ 2 ^ 10) 1000 0 /\
    forall p, PseudoVoigtDistribution lost_k E_r (/ 2 ^ 10) 1000 0 = Ok p -> voigt_error p unit_roundoff E_r (/ 2 ^ 30) (fadd 0 E_r)) /\
  double 0 /\ Rabs 0 <= 2 ^ 60 /\ forall s rho, 0 <= rho <= 1 -> 0 <= s * rho <= 1 -> depth_error (/ 2 ^ 30) rho (s * rho) <= / 4.
Proof. exact voigt_layer_case. Qed.
Print Assumptions C111_layer.
Print Assumptions C111_range.
Print Assumptions C111_absorption.
Print Assumptions C111_voigt.
