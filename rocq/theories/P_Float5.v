(** C81: differential Klein-Nishina cross sections with rounding. *)
From Coq Require Import Reals List ZArith Lra Lia.
From Flocq Require Import Core.
From Verif Require Import Py Spec M_Num M_KleinNishina M_Float S_Float M_Float2 M_Float5 S_Float5
  L_Float L_Float2 L_Float3 L_Float7 L_Float9 L_Float13 L_Float18 L_Float19.
Import ListNotations.
Open Scope R_scope.

(** The ratio of the energies of the scattered and the initial photon is in (0, 1], its relative error is proportional to
    [E / me], and it does not rise with the energy. *)
Theorem C81_ratio : forall (m : alib) (k : constants) (c : kn), alib_ok m -> kn_floats k c ->
  forall theta, double theta ->
  (forall E, / 2 ^ 100 <= E / k_me k <= 2 ^ 20 -> exists r R, fkn_Ep_over_E m k E theta = Ok r /\ kn_Ep_over_E k E theta = Ok R /\
     0 < r <= 1 /\ Rabs (r - R) <= (5 * (E / k_me k) + 7) * unit_roundoff * R) /\
  (forall E E', 0 <= E <= E' -> exists r r', fkn_Ep_over_E m k E theta = Ok r /\ fkn_Ep_over_E m k E' theta = Ok r' /\ r' <= r) /\
  (forall E, 0 <= E <= / 2 ^ 55 * k_me k -> fkn_Ep_over_E m k E theta = Ok 1).
Proof.
  exact (fun m k c Hm F t D => conj (fun E H => f_ratio m k c Hm F E t D H)
    (conj (fun E E' H => f_ratio_falls m k c Hm F E E' t D H) (fun E H => f_static m k c Hm F E t D H))).
Qed.

(** The Compton edge is accurate to six units, and no photon is scattered with a lower energy. *)
Theorem C81_edge : forall (m : alib) (k : constants) (c : kn) E, alib_ok m -> kn_floats k c -> double E -> a_cos m np_pi = -1 ->
  / 2 ^ 100 <= E / k_me k <= 2 ^ 100 ->
  exists e V, fkn_compton_edge m k E = Ok e /\ kn_compton_edge k E = Ok V /\ Rabs (e - V) <= 6 * unit_roundoff * V /\
    forall theta, double theta -> exists r, fkn_Ep_over_E m k E theta = Ok r /\ e <= fmul r E.
Proof. exact (fun m k c E Hm F => f_edge m k c Hm F E). Qed.

(** Unpolarised photons: positive, with a relative error proportional to [E / me]. *)
Theorem C81_unpolarized : forall (m : alib) (k : constants) (c : kn) E theta, alib_ok m -> kn_floats k c -> double theta ->
  / 2 ^ 100 <= E / k_me k <= 2 ^ 20 ->
  exists v V, fkn_cs_diff_dOmega_unpolarized m k c E theta = Ok v /\ kn_cs_diff_dOmega_unpolarized k c E theta = Ok V /\ 0 < V /\ 0 < v /\
    Rabs (v - V) <= (25 * (E / k_me k) + 60) * unit_roundoff * V.
Proof. exact (fun m k c E t Hm F => f_unpolarized m k c Hm F E t). Qed.

(** Polarised photons: not negative, and accurate relative to the cross section without the term that depends on the polarisation
    (the cross section itself vanishes for low energies at right angles). *)
Theorem C81_polarized : forall (m : alib) (k : constants) (c : kn) E theta phi, alib_ok m -> kn_floats k c -> double theta -> double phi ->
  / 2 ^ 100 <= E / k_me k <= 2 ^ 20 ->
  exists v V r, fkn_cs_diff_dOmega m k c E theta phi = Ok v /\ kn_cs_diff_dOmega k c E theta phi = Ok V /\ kn_Ep_over_E k E theta = Ok r /\ 0 <= v /\
    Rabs (v - V) <= (15 * (E / k_me k) + 50) * unit_roundoff * (1 / 2 * kn_scale_factor c * r * r * (r + 1 / r)).
Proof. exact (fun m k c E t phi Hm F => f_polarized m k c Hm F E t phi). Qed.

Theorem C81_dtheta : forall (m : alib) (k : constants) (c : kn) E theta, alib_ok m -> kn_floats k c -> double theta ->
  / 2 ^ 100 <= E / k_me k <= 2 ^ 20 ->
  exists v V U, fkn_cs_diff_dtheta m k c E theta = Ok v /\ kn_cs_diff_dtheta k c E theta = Ok V /\ kn_cs_diff_dOmega_unpolarized k c E theta = Ok U /\
    Rabs (v - V) <= (25 * (E / k_me k) + 70) * unit_roundoff * U.
Proof. exact (fun m k c E t Hm F => f_dtheta m k c Hm F E t). Qed.

(** The angle of a photon with an energy between the Compton edge and the initial energy: its cosine is accurate, or the angle is
    not a number, which happens for angles close to 180 degrees only. *)
Theorem C81_theta : forall (m : alib) (k : constants) (c : kn) E Ep, alib_ok m -> acos_ok m -> kn_floats k c ->
  / 2 ^ 100 <= E / k_me k <= 2 ^ 20 -> 0 < Ep <= E -> k_me k * (1 / Ep - 1 / E) <= 2 ->
  exists T, kn_theta k E Ep = Ok T /\
  ((exists t, fkn_theta m k E Ep = Ok t /\ Rabs (cos t - cos T) <= (2 * (k_me k / E) + 14) * unit_roundoff) \/
   fkn_theta m k E Ep = NaN /\ cos T < -1 + (2 * (k_me k / E) + 10) * unit_roundoff).
Proof. exact (fun m k c E Ep _ Ha F => f_theta m k c F E Ep Ha). Qed.

Theorem C81_dEp : forall (m : alib) (k : constants) (c : kn) E Ep, alib_ok m -> acos_ok m -> kn_floats k c ->
  / 2 ^ 20 <= E / k_me k <= 2 ^ 18 -> 0 < Ep <= E -> k_me k * (1 / Ep - 1 / E) <= 2 ->
  exists V, kn_cs_diff_dEp k c E Ep = Ok V /\ 0 < V /\
  ((exists v, fkn_cs_diff_dEp m k c E Ep = Ok v /\ Rabs (v - V) <= (105 * (E / k_me k) + 3 * (k_me k / E) + 120) * unit_roundoff * V) \/
   fkn_cs_diff_dEp m k c E Ep = NaN /\ fkn_theta m k E Ep = NaN).
Proof. exact (fun m k c E Ep Hm Ha F => f_dEp m k c Hm F E Ep Ha). Qed.

Theorem C81_dEp_dphi : forall (m : alib) (k : constants) (c : kn) E Ep phi, alib_ok m -> acos_ok m -> kn_floats k c -> double phi ->
  / 2 ^ 100 <= E / k_me k <= 2 ^ 20 -> 0 < Ep <= E -> k_me k * (1 / Ep - 1 / E) <= 2 -> / 2 ^ 400 <= Ep ->
  (exists v, fkn_cs_diff_dEp_dphi m k c E Ep phi = Ok v /\ 0 <= v) \/ fkn_cs_diff_dEp_dphi m k c E Ep phi = NaN /\ fkn_theta m k E Ep = NaN.
Proof. exact (fun m k c E Ep phi Hm Ha F => f_dEp_dphi m k c Hm F E Ep phi Ha). Qed.

(** At 0.511 MeV the angle and the cross sections per energy are not a number at the Compton edge that the code reports. *)
Theorem C81_edge_refuted : forall (m : alib) (k : constants) (c : kn), a_cos m np_pi = -1 -> k_me k = rnd (51099895 / 100000000) ->
  exists e, fkn_compton_edge m k (rnd (511 / 1000)) = Ok e /\ fkn_theta m k (rnd (511 / 1000)) e = NaN /\ fkn_cs_diff_dEp m k c (rnd (511 / 1000)) e = NaN /\
    forall phi, fkn_cs_diff_dEp_dphi m k c (rnd (511 / 1000)) e phi = NaN.
Proof. exact f_edge_nan. Qed.

(** *** Non-vacuity *)
(** Correctly rounded functions meet the hypotheses. *)
Example C81_library : alib_ok correct_alib /\ acos_ok correct_alib /\ a_cos correct_alib np_pi = -1.
Proof. exact (conj (proj1 correct_alib_ok) (conj (proj2 correct_alib_ok) correct_cos_pi)). Qed.
(** A photon of 1 MeV, an electron of 0.5 MeV, a right angle. *)
Definition C81_k : constants :=
  {| k_hbarc := 1; k_hbarc_old := 1; k_alpha := 1; k_me := 1 / 2; k_u_MeV := 1; k_u_kg := 1; k_kB_eV := 1 |}.
Definition C81_c : kn := {| kn_Z := 1; kn_mc2 := 1 / 2; kn_scale_factor := 1 / 4 |}.
Example C81_floats : kn_floats C81_k C81_c /\ / 2 ^ 20 <= 1 / k_me C81_k <= 2 ^ 18 /\ double 1 /\
  (let Ep := 1 / 3 in 0 < Ep <= 1 /\ k_me C81_k * (1 / Ep - 1 / 1) <= 2).
Proof.
  assert (P : forall n, rng (S n) (1 / 2)). { intros n. pose proof (ipow2_le 1 (S n) ltac:(lia)) as A. assert (1 <= 2 ^ S n) by (apply pow_R1_Rle; lra). rewrite pow_1 in A. split; lra. }
  assert (Q : forall n, rng (S (S n)) (1 / 4)). { intros n. pose proof (ipow2_le 2 (S (S n)) ltac:(lia)) as A. assert (1 <= 2 ^ S (S n)) by (apply pow_R1_Rle; lra). replace (2 ^ 2) with 4 in A by ring. split; lra. }
  unfold kn_floats. cbn [C81_k C81_c k_me kn_scale_factor]. split; [split; [apply (P 99%nat)|apply (Q 98%nat)]|]. split; [|split; [apply double_1|cbv zeta; lra]].
  replace (1 / (1 / 2)) with 2 by field. split; [apply Rle_trans with 1; [apply (rng_one 20)|lra]|]. replace (2 ^ 18) with 262144 by ring. lra.
Qed.
Print Assumptions C81_ratio.
Print Assumptions C81_edge.
Print Assumptions C81_unpolarized.
Print Assumptions C81_polarized.
Print Assumptions C81_dtheta.
Print Assumptions C81_theta.
Print Assumptions C81_dEp.
Print Assumptions C81_dEp_dphi.
Print Assumptions C81_edge_refuted.
