(** C91: Compton cross sections outside of the physical domain. *)
From Coq Require Import Reals.
From Verif Require Import Py M_Num M_KleinNishina S_KleinNishina L_KleinNishina L_KleinNishina2 L_KleinNishina3 L_Compton L_Debye.
Open Scope R_scope.

Example C91_ex : constants_ok codata /\ (exists c, KleinNishina codata 26 (k_me codata) = Ok c) /\ 0 < k_me codata /\ exists e, kn_compton_edge codata 1 = Ok e.
Proof.
  exact (conj codata_ok (conj (kn_ok codata 26 _ (Rgt_not_eq _ _ (me_pos codata codata_ok))) (conj (me_pos codata codata_ok) (ex_intro _ _ (edge_ok codata codata_ok 1 Rle_0_1))))).
Qed.

(** The ratio of the energies for any real energy and angle. *)
Theorem C91_ratio : forall k E t, constants_ok k ->
  (1 + E / k_me k * (1 - cos t) <> 0 -> kn_Ep_over_E k E t = Ok (1 / (1 + E / k_me k * (1 - cos t)))) /\
  (1 + E / k_me k * (1 - cos t) = 0 -> kn_Ep_over_E k E t = NaN).
Proof. exact ratio_any. Qed.
Theorem C91_solid_angle : forall k c E t p, constants_ok k ->
  (1 + E / k_me k * (1 - cos t) <> 0 -> exists v w, kn_cs_diff_dOmega k c E t p = Ok v /\ kn_cs_diff_dOmega_unpolarized k c E t = Ok w) /\
  (1 + E / k_me k * (1 - cos t) = 0 -> kn_cs_diff_dOmega k c E t p = NaN /\ kn_cs_diff_dOmega_unpolarized k c E t = NaN /\ kn_cs_diff_dtheta k c E t = NaN).
Proof. exact solid_any. Qed.
(** Such an angle exists for strongly negative energies only. *)
Theorem C91_singular : forall k E, constants_ok k -> (exists t, 1 + E / k_me k * (1 - cos t) = 0) <-> E <= - k_me k / 2.
Proof. exact singular. Qed.
(** The total cross section for any real energy. *)
Theorem C91_total : forall k Z mc2 c E, KleinNishina k Z mc2 = Ok c -> 0 < mc2 ->
  (E < - mc2 / 2 -> kn_cs_total c E = NaN) /\ (E = - mc2 / 2 \/ E = 0 -> kn_cs_total c E = Raise ZeroDivisionError) /\
  (- mc2 / 2 < E -> E <> 0 -> exists v, kn_cs_total c E = Ok v).
Proof. exact total_any. Qed.
(** Distributions of the energy of the scattered photon. *)
Theorem C91_energy : forall k c E Ep p e, constants_ok k -> 0 < E -> kn_compton_edge k E = Ok e ->
  (e <= Ep <= E -> exists v w, kn_cs_diff_dEp k c E Ep = Ok v /\ kn_cs_diff_dEp_dphi k c E Ep p = Ok w) /\
  (Ep = 0 -> kn_cs_diff_dEp k c E Ep = Raise ZeroDivisionError /\ kn_cs_diff_dEp_dphi k c E Ep p = Raise ZeroDivisionError) /\
  (Ep <> 0 -> ~ e <= Ep <= E -> kn_cs_diff_dEp k c E Ep = NaN /\ kn_cs_diff_dEp_dphi k c E Ep p = NaN).
Proof. exact energy_any. Qed.
Theorem C91_massless : forall k Z, KleinNishina k Z 0 = Raise ZeroDivisionError.
Proof. exact massless. Qed.
Print Assumptions C91_ratio.
Print Assumptions C91_solid_angle.
Print Assumptions C91_singular.
Print Assumptions C91_total.
Print Assumptions C91_energy.
Print Assumptions C91_massless.
