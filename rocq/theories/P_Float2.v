(** The total Klein-Nishina cross section with rounding. *)
From Coq Require Import Reals List ZArith Lra Lia.
From Flocq Require Import Core.
From Verif Require Import Py M_Num M_KleinNishina M_Float S_Float M_Float2 S_Float2 L_Float L_Float7 L_Float8.
Import ListNotations.
Open Scope R_scope.

(** ** C76 *)
Theorem C76_error : forall m c E, libm_ok m -> 0 < kn_mc2 c -> moderate (E / kn_mc2 c) -> moderate (kn_scale_factor c) ->
  exists E' s v, Rabs (E' - E) <= unit_roundoff * E /\ kn_cs_total c E' = Ok s /\ fkn_cs_total m c E = Ok v /\
    Rabs (v - s) <= 384 * unit_roundoff * thomson_limit c * (1 + (kn_mc2 c / E') ^ 3).
Proof. exact fkn_error. Qed.
(** Between about 62 eV and 32 keV for electrons. *)
Theorem C76_positive : forall m c E, libm_ok m -> 0 < kn_mc2 c -> / 2 ^ 13 <= E / kn_mc2 c <= / 16 -> moderate (kn_scale_factor c) ->
  exists v, fkn_cs_total m c E = Ok v /\ thomson_limit c / 2 <= v <= 11 / 10 * thomson_limit c.
Proof. exact fkn_positive. Qed.
(** Wherever 1 + 2 x is rounded up by more than 4 x^3 (and a quarter of 2^-53), the cross section is negative. *)
Theorem C76_negative : forall m c E, libm_ok m -> 0 < kn_mc2 c -> moderate (E / kn_mc2 c) -> moderate (kn_scale_factor c) ->
  let x := fquo E (kn_mc2 c) in let d := fadd 1 (2 * x) - (1 + 2 * x) in
  x <= / 2 ^ 18 -> 4 * x ^ 3 + unit_roundoff / 4 <= d ->
  exists v, fkn_cs_total m c E = Ok v /\ v <= - (3 / 16 * thomson_limit c * (d / x ^ 3)).
Proof. exact fkn_negative. Qed.
Theorem C76_positive_refuted : forall m c, libm_ok m -> kn_mc2 c = rnd (51099895 / 100000000) -> moderate (kn_scale_factor c) ->
  exists v s, fkn_cs_total m c (rnd (8 / 10000000)) = Ok v /\ kn_cs_total c (rnd (8 / 10000000)) = Ok s /\
    0 < s < thomson_limit c /\ v <= - (3 * thomson_limit c).
Proof. exact negative_at. Qed.
Theorem C76_low_energy_refuted : forall m c E, libm_ok m -> 0 < kn_mc2 c -> moderate (E / kn_mc2 c) -> moderate (kn_scale_factor c) ->
  let x := fquo E (kn_mc2 c) in x <= / 2 ^ 55 ->
  exists v, fkn_cs_total m c E = Ok v /\ 3 / 8 * thomson_limit c * / x ^ 2 <= v.
Proof. exact fkn_low. Qed.
Example C76_ex : libm_ok round_libm /\ moderate 1 /\ (exists c, kn_mc2 c = rnd (51099895 / 100000000) /\ kn_scale_factor c = 1) /\ 
  (exists E, moderate (E / rnd (51099895 / 100000000)) /\ fquo E (rnd (51099895 / 100000000)) <= / 2 ^ 55).
Proof.
  assert (M : moderate 1) by (split; [rewrite <- Rinv_1; apply Rinv_le_contravar; [lra|apply pow_R1_Rle; lra]|apply pow_R1_Rle; lra]).
  split; [exact round_libm_ok|]. split; [exact M|]. split; [exists {| kn_Z := 1; kn_mc2 := rnd (51099895 / 100000000); kn_scale_factor := 1 |}; split; reflexivity|].
  fold electron_mass. assert (P : 0 < electron_mass) by (rewrite electron_mass_val; lra). exists (/ 2 ^ 60 * electron_mass). assert (E : / 2 ^ 60 * electron_mass / electron_mass = / 2 ^ 60) by (unfold Rdiv; rewrite Rmult_assoc, Rinv_r by lra; ring).
  split.
  - rewrite E. split; [apply Rinv_le_contravar; [apply pow_lt; lra|apply Rle_pow; [lra|lia]]|]. apply Rle_trans with 1; [rewrite <- Rinv_1; apply Rinv_le_contravar; [lra|apply pow_R1_Rle; lra]|apply pow_R1_Rle; lra].
  - unfold fquo. rewrite E. assert (D : double (/ 2 ^ 60)) by (rewrite <- (bpow_neg 60); apply double_bpow; lia). rewrite rnd_id by exact D. apply Rinv_le_contravar; [apply pow_lt; lra|apply Rle_pow; [lra|lia]].
Qed.

Print Assumptions C76_error.
Print Assumptions C76_positive.
Print Assumptions C76_negative.
Print Assumptions C76_positive_refuted.
Print Assumptions C76_low_energy_refuted.
