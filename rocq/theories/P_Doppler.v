(** C68: Doppler broadening with the effective temperature. *)
From Coq Require Import Reals List ZArith Lra.
From Coquelicot Require Import Coquelicot.
From Verif Require Import Py Spec M_Num M_Constituents M_Thermal M_Dist M_Resonance M_PseudoVoigt
  S_Resonance S_PseudoVoigt S_Voigt L_Resonance6 L_PseudoVoigt6 L_Voigt2 L_Doppler2.
Import ListNotations.
Open Scope R_scope.

(** The premises hold for a transition at 1 MeV with any width and two temperatures. *)
Example broadening_ex : forall w T, 0 < w -> 0 < T -> exists r r' r'' d,
  Voigt true codata ground (excited_with w) 12 T None = Ok r /\
  BreitWigner codata ground (excited_with w) None = Ok r' /\ Gauss codata ground (excited_with w) 12 T None = Ok r'' /\
  width (excited_with w) = Ok w /\ pv_params codata (r_energy r) w 12 T /\ 0 < r_integrated r /\
  get_doppler_width codata {| mb_amu := 12; mb_effective_temperature := T |} (r_energy r) = Ok d.
Proof. exact voigt_all_example. Qed.

(** ** C68 *)
Theorem C68_gauss : forall k i m amu T1 T2 fin r1 r2 f1 f2, constants_ok k -> 0 < amu -> 0 < T1 < T2 ->
  Gauss k i m amu T1 fin = Ok r1 -> Gauss k i m amu T2 fin = Ok r2 -> 0 < r_energy r1 ->
  cross_section_is r1 f1 -> cross_section_is r2 f2 ->
  let E := r_energy r1 in let q := sqrt (T2 / T1) in
  1 < q /\ r_energy r2 = E /\ r_integrated r2 = r_integrated r1 /\
  (forall x, q * f2 (E + q * x) = f1 (E + x)) /\
  (forall c ws d, 0 < c < 1 -> coverage_interval r1 c = (ws, Ok (Finite (E - d), Finite (E + d))) ->
    exists ws', coverage_interval r2 c = (ws', Ok (Finite (E - q * d), Finite (E + q * d)))) /\
  (0 < r_integrated r1 -> f2 E < f1 E /\ exists x0, 0 < x0 /\ forall x, f2 (E + x) < f1 (E + x) <-> Rabs x < x0).
Proof. exact gauss_broadening. Qed.
Theorem C68_voigt : forall modern k i m amu T1 T2 fin r1 r2 w f1 f2, Voigt modern k i m amu T1 fin = Ok r1 ->
  Voigt modern k i m amu T2 fin = Ok r2 -> width m = Ok w -> constants_ok k -> 0 < amu -> 0 <= T1 < T2 -> 0 < w ->
  0 < r_energy r1 -> 0 < r_integrated r1 -> cross_section_is r1 f1 -> cross_section_is r2 f2 ->
  let E := r_energy r1 in r_energy r2 = E /\ r_integrated r2 = r_integrated r1 /\ f2 E < f1 E /\
  forall d, 0 < d -> exists I1 I2, is_RInt f1 (E - d) (E + d) I1 /\ is_RInt f2 (E - d) (E + d) I2 /\ 0 < I2 < I1.
Proof. exact voigt_broadening. Qed.
Print Assumptions C68_gauss.
Print Assumptions C68_voigt.
