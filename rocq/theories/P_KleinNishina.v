(** C42-C49: the Compton cross section. *)
From Coq Require Import Reals List ZArith Lra.
From Coquelicot Require Import Coquelicot.
From Verif Require Import Py Spec M_Num M_KleinNishina S_KleinNishina L_Resonance6 L_KleinNishina L_KleinNishina2 L_KleinNishina3.
Import ListNotations.
Open Scope R_scope.

(** Objects for the electron and for every other positive mass exist. *)
Example kn_ex : constants_ok codata /\ (exists c, KleinNishina_electron codata 1 = Ok c) /\
  forall Z mc2, mc2 <> 0 -> exists c, KleinNishina codata Z mc2 = Ok c.
Proof. exact (conj codata_ok (conj (kn_ok codata 1 _ (Rgt_not_eq _ _ (me_pos codata codata_ok))) (kn_ok codata))). Qed.

(** ** C42 *)
Theorem C42_energy_from_angle : forall k E Ep e, constants_ok k -> 0 < E -> kn_compton_edge k E = Ok e -> e <= Ep <= E ->
  exists t r, kn_theta k E Ep = Ok t /\ 0 <= t <= PI /\ kn_Ep_over_E k E t = Ok r /\ E * r = Ep.
Proof. exact (fun k E Ep e Hk => inverse_energy k Hk E Ep e). Qed.
Theorem C42_angle_from_energy : forall k E t, constants_ok k -> 0 < E -> 0 <= t <= PI ->
  exists r, kn_Ep_over_E k E t = Ok r /\ kn_theta k E (E * r) = Ok t.
Proof. exact (fun k E t Hk => inverse_angle k Hk E t). Qed.
Theorem C42_defined : forall k E Ep e, constants_ok k -> 0 < E -> kn_compton_edge k E = Ok e ->
  (e <= Ep <= E -> exists t, kn_theta k E Ep = Ok t) /\
  (Ep = 0 -> kn_theta k E Ep = Raise ZeroDivisionError) /\
  (Ep <> 0 -> ~ e <= Ep <= E -> kn_theta k E Ep = NaN).
Proof. exact (fun k E Ep e Hk => theta_defined k Hk E Ep e). Qed.

(** ** C43 *)
Theorem C43_edge_value : forall k E, constants_ok k -> 0 <= E -> kn_compton_edge k E = Ok (E / (1 + 2 * (E / k_me k))).
Proof. exact (fun k E Hk => edge_ok k Hk E). Qed.
Theorem C43_smallest : forall k E e t, constants_ok k -> 0 < E -> kn_compton_edge k E = Ok e ->
  exists r, kn_Ep_over_E k E t = Ok r /\ e <= E * r <= E /\ (E * r = e <-> cos t = -1).
Proof. exact (fun k E e t Hk => edge_smallest k Hk E e t). Qed.
Theorem C43_only_backwards : forall t, 0 <= t <= PI -> (cos t = -1 <-> t = PI).
Proof. exact cos_pi_only. Qed.
Theorem C43_decreasing : forall k E t t', constants_ok k -> 0 < E -> 0 <= t -> t < t' -> t' <= PI ->
  exists r r', kn_Ep_over_E k E t = Ok r /\ kn_Ep_over_E k E t' = Ok r' /\ r' < r.
Proof. exact (fun k E t t' Hk => ratio_decreasing k Hk E t t'). Qed.

(** ** C44 *)
Theorem C44_angle : forall k Z c E, constants_ok k -> KleinNishina_electron k Z = Ok c -> 0 < E ->
  exists I, kn_cs_total c E = Ok I /\ integrates (kn_cs_diff_dtheta k c E) 0 PI I.
Proof. exact angle_total. Qed.

(** ** C45 *)
Theorem C45_energy : forall k Z c E, constants_ok k -> KleinNishina_electron k Z = Ok c -> 0 < E ->
  exists I e, kn_cs_total c E = Ok I /\ kn_compton_edge k E = Ok e /\ integrates (kn_cs_diff_dEp k c E) e E I /\
    integrates2 (fun Ep phi => kn_cs_diff_dEp_dphi k c E Ep phi) e E 0 (2 * PI) I /\
    integrates2 (fun phi Ep => kn_cs_diff_dEp_dphi k c E Ep phi) 0 (2 * PI) e E I.
Proof. exact energy_total. Qed.

(** ** C46 *)
Theorem C46_solid_angle : forall k Z c E, constants_ok k -> KleinNishina_electron k Z = Ok c -> 0 < E ->
  exists I, kn_cs_total c E = Ok I /\
    integrates2 (fun theta phi => oscale (sin theta) (kn_cs_diff_dOmega k c E theta phi)) 0 PI 0 (2 * PI) I /\
    integrates2 (fun phi theta => oscale (sin theta) (kn_cs_diff_dOmega k c E theta phi)) 0 (2 * PI) 0 PI I.
Proof. exact solid_total. Qed.
Theorem C46_nonnegative : forall k Z mc2 c E t p, constants_ok k -> KleinNishina k Z mc2 = Ok c -> 0 <= Z -> 0 <= E ->
  exists v, kn_cs_diff_dOmega k c E t p = Ok v /\ 0 <= v.
Proof. exact solid_nonneg. Qed.
(** The documented formula, in terms of the energy of the scattered photon. *)
Theorem C46_formula : forall k Z mc2 c E theta phi, constants_ok k -> KleinNishina k Z mc2 = Ok c -> 0 < E ->
  exists Ep, 0 < Ep /\ / Ep = / E + (1 - cos theta) / k_me k /\
    kn_cs_diff_dOmega k c E theta phi =
      Ok (1 / 2 * (Z * (k_alpha k * k_hbarc_old k / mc2) ^ 2) * (Ep / E) ^ 2 * (Ep / E + E / Ep - 2 * (sin theta * cos phi) ^ 2)).
Proof. exact solid_formula. Qed.
(** Forward scattering does not depend on the energy; at zero energy Thomson's curve. *)
Theorem C46_limits : forall k Z mc2 c, constants_ok k -> KleinNishina k Z mc2 = Ok c ->
  (forall E phi, 0 <= E -> kn_cs_diff_dOmega k c E 0 phi = Ok (Z * (k_alpha k * k_hbarc_old k / mc2) ^ 2)) /\
  (forall theta phi, kn_cs_diff_dOmega k c 0 theta phi =
     Ok (Z * (k_alpha k * k_hbarc_old k / mc2) ^ 2 * (1 - (sin theta * cos phi) ^ 2))).
Proof. exact solid_limits. Qed.

(** ** C47 *)
Theorem C47_average_refuted : exists k c E t v I, constants_ok k /\ KleinNishina_electron k 1 = Ok c /\ 0 < E /\
  kn_cs_diff_dOmega_unpolarized k c E t = Ok v /\ integrates (fun phi => kn_cs_diff_dOmega k c E t phi) 0 (2 * PI) I /\
  v <> I / (2 * PI).
Proof. exact unpol_refuted. Qed.
(** The returned value is the integral over the azimuth, 2 pi times the average, always. *)
Theorem C47_integral : forall k c E t, constants_ok k -> 0 <= E ->
  exists v, kn_cs_diff_dOmega_unpolarized k c E t = Ok v /\
    integrates (fun phi => kn_cs_diff_dOmega k c E t phi) 0 (2 * PI) v.
Proof. exact unpol_integral. Qed.
Theorem C47_never_the_average : forall k Z mc2 c E t v I, constants_ok k -> KleinNishina k Z mc2 = Ok c -> 0 < Z -> 0 <= E ->
  kn_cs_diff_dOmega_unpolarized k c E t = Ok v -> integrates (fun phi => kn_cs_diff_dOmega k c E t phi) 0 (2 * PI) I ->
  v = 2 * PI * (I / (2 * PI)) /\ v <> I / (2 * PI).
Proof. exact unpol_wrong. Qed.

(** ** C48 *)
Theorem C48_other_mass_refuted : exists k mc2 c E e I, constants_ok k /\ 0 < mc2 /\ 0 < E /\ KleinNishina k 1 mc2 = Ok c /\
  kn_compton_edge k E = Ok e /\ e <> E / (1 + 2 * (E / mc2)) /\
  integrates (kn_cs_diff_dtheta k c E) 0 PI I /\ kn_cs_total c E <> Ok I.
Proof. exact masses_refuted. Qed.
Theorem C48_edge_only_for_electron : forall k E mc2, constants_ok k -> 0 < E -> 0 < mc2 ->
  (kn_compton_edge k E = Ok (E / (1 + 2 * (E / mc2))) <-> mc2 = k_me k).
Proof. exact edge_only. Qed.
Theorem C48_integral_only_for_electron : forall k Z mc2 c E I, constants_ok k -> KleinNishina k Z mc2 = Ok c ->
  0 < Z -> 0 < mc2 -> 0 < E -> integrates (kn_cs_diff_dtheta k c E) 0 PI I -> (kn_cs_total c E = Ok I <-> mc2 = k_me k).
Proof. exact integral_only. Qed.
(** The total cross section itself scales correctly with the mass. *)
Theorem C48_total_scales : forall k Z mc2 c e E, constants_ok k -> KleinNishina k Z mc2 = Ok c ->
  KleinNishina_electron k Z = Ok e -> 0 < mc2 -> 0 < E ->
  exists v w, kn_cs_total c E = Ok v /\ kn_cs_total e (E * k_me k / mc2) = Ok w /\ v * mc2 ^ 2 = w * k_me k ^ 2.
Proof. exact total_scaling. Qed.

(** ** C49 *)
Theorem C49_between_zero_and_thomson : forall k Z mc2 c, constants_ok k -> KleinNishina k Z mc2 = Ok c -> 0 < Z -> 0 < mc2 ->
  exists g, (forall E, 0 < E -> kn_cs_total c E = Ok (g E) /\
                       0 < g E < 8 * PI / 3 * (Z * (k_alpha k * k_hbarc_old k / mc2) ^ 2)) /\
    (forall E E', 0 < E -> E < E' -> g E' < g E) /\
    filterlim g (at_right 0) (locally (8 * PI / 3 * (Z * (k_alpha k * k_hbarc_old k / mc2) ^ 2))) /\ is_lim g p_infty 0.
Proof. exact total_limits. Qed.
Theorem C49_proportional : forall k Z Z' mc2 c c' E, KleinNishina k Z mc2 = Ok c -> KleinNishina k Z' mc2 = Ok c' ->
  0 < mc2 -> 0 < E -> exists v w, kn_cs_total c E = Ok v /\ kn_cs_total c' E = Ok w /\ Z' * v = Z * w.
Proof. exact total_linear. Qed.
(** At zero energy itself there is no value. *)
Theorem C49_zero_energy : forall k Z mc2 c, KleinNishina k Z mc2 = Ok c -> kn_cs_total c 0 = Raise ZeroDivisionError.
Proof. exact total_zero. Qed.

Print Assumptions C42_energy_from_angle.
Print Assumptions C42_angle_from_energy.
Print Assumptions C42_defined.
Print Assumptions C43_edge_value.
Print Assumptions C43_smallest.
Print Assumptions C43_only_backwards.
Print Assumptions C43_decreasing.
Print Assumptions C44_angle.
Print Assumptions C45_energy.
Print Assumptions C46_solid_angle.
Print Assumptions C46_nonnegative.
Print Assumptions C46_formula.
Print Assumptions C46_limits.
Print Assumptions C47_average_refuted.
Print Assumptions C47_integral.
Print Assumptions C47_never_the_average.
Print Assumptions C48_other_mass_refuted.
Print Assumptions C48_edge_only_for_electron.
Print Assumptions C48_integral_only_for_electron.
Print Assumptions C48_total_scales.
Print Assumptions C49_between_zero_and_thomson.
Print Assumptions C49_proportional.
Print Assumptions C49_zero_energy.
