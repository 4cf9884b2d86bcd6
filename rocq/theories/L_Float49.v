(** Lines for which the hypotheses on integrals are met. *)
From Coq Require Import Reals List ZArith Lra Lia Psatz String.
From Coquelicot Require Import Coquelicot.
From Flocq Require Import Core.
From Verif Require Import Py Spec M_Num M_Grid M_CrossSection M_Constituents M_Thermal M_Dist M_Resonance S_Resonance M_Float S_Float M_Float4 S_Float4 M_Float6 S_Float6 S_Float12
  L_Resonance2 L_Resonance3 L_Float L_Float2 L_Float3 L_Float7 L_Float9 L_Float10 L_Float11 L_Float12 L_Float20 L_Float22.
Import ListNotations.
Open Scope R_scope.
Open Scope string_scope.

Definition wide_m : state := {| st_J_pi := "1_1+"; st_two_J := 2; st_parity := 1; st_excitation_energy := 1; st_decays := Some ([("0_1+", / 2 ^ 10)], / 2 ^ 10) |}.
Lemma wide_floats : floats lost_k lost_i wide_m None.
Proof.
  unfold floats. cbn [lost_k lost_i wide_m k_hbarc st_two_J st_excitation_energy st_decays st_J_pi].
  assert (P : plausible 200). { split; [|simpl; lra]. pose proof (ipow2_le 0 60 ltac:(lia)) as K. rewrite pow_O, Rinv_1 in K. lra. }
  assert (P1 : plausible (/ 2 ^ 10)). { split; [apply ipow2_le; lia|]. pose proof (ipow2_le 0 10 ltac:(lia)) as K. pose proof (pow2_le 0 60 ltac:(lia)) as K'. rewrite pow_O in K, K'. rewrite Rinv_1 in K. lra. }
  split; [exact P|]. split; [lia|]. split; [lia|]. split; [apply double_0|]. split; [apply double_1|]. split; [replace (1 - 0) with 1 by ring; apply rng_one|].
  exists [("0_1+", / 2 ^ 10)], (/ 2 ^ 10). split; [reflexivity|]. split; [exact P1|].
  intros s [->|N]; [|discriminate]. exists (/ 2 ^ 10). split; [reflexivity|exact P1].
Qed.
Lemma one_energy m : st_excitation_energy m = 1 -> fsub (st_excitation_energy m) (st_excitation_energy lost_i) = 1.
Proof. intros ->. apply lost_sum. Qed.
Lemma wide_scale r g : BreitWigner lost_k lost_i wide_m None = Ok r -> r_params r = [1; g] -> / 2 ^ 30 <= g.
Proof.
  unfold BreitWigner. destruct (Resonance _ _ _ _ _) as [q| |] eqn:E; cbn [bind]; try discriminate. change (width wide_m) with (Ok (/ 2 ^ 10) : out R). cbn [bind]. intros H P.
  assert (Er : r = with_dist q cauchy [r_energy q; 1 / 2 * / 2 ^ 10]) by congruence. rewrite Er in P. cbn [with_dist r_params] in P.
  assert (Eg : g = 1 / 2 * / 2 ^ 10) by congruence. rewrite Eg. simpl. lra.
Qed.
Lemma gauss_scale r g : Gauss lost_k lost_i lost_m 1000 1 None = Ok r -> r_energy r = 1 -> r_params r = [1; g] -> / 2 ^ 30 <= g.
Proof.
  unfold Gauss. destruct (Resonance _ _ _ _ _) as [q| |] eqn:E; cbn [bind]; try discriminate. destruct (get_doppler_width _ _ _) as [d| |] eqn:D1; cbn [bind]; try discriminate. intros H HE P.
  assert (Er : r = with_dist q norm [r_energy q; d / sqrt 2]) by congruence. rewrite Er in P, HE. cbn [with_dist r_params r_energy] in P, HE. rewrite HE in D1.
  assert (Eg : g = d / sqrt 2) by congruence. rewrite Eg. clear P Eg Er H E HE.
  unfold get_doppler_width, fdiv, np_sqrt in D1. cbn [lost_k mb_amu mb_effective_temperature k_kB_eV k_u_MeV] in D1. destruct (Req_EM_T _ 0) as [Z|_]; [lra|]. cbn [bind] in D1.
  assert (B : / 2 ^ 27 * / 2 ^ 27 <= 2 * / 11604 * / 10 ^ 6 * 1 / (1000 * 931)) by (simpl; lra). set (t := 2 * / 11604 * / 10 ^ 6 * 1 / (1000 * 931)) in *. clearbody t.
  assert (T0 : 0 < / 2 ^ 27) by (apply Rinv_0_lt_compat, pow_lt; lra).
  destruct (Rlt_dec t 0); [nra|]. cbn [bind] in D1. assert (Ed : d = sqrt t) by (assert (E : d = 1 * sqrt t) by congruence; lra). rewrite Ed.
  assert (S1 : / 2 ^ 27 <= sqrt t). { rewrite <- (sqrt_square (/ 2 ^ 27)) by lra. apply sqrt_le_1_alt. lra. }
  assert (S2 : sqrt 2 <= 2). { replace 2 with (sqrt (2 * 2)) at 2 by (apply sqrt_square; lra). apply sqrt_le_1_alt. lra. }
  assert (S0 : 0 < sqrt 2) by (apply sqrt_lt_R0; lra).
  apply Rle_trans with (/ 2 ^ 27 * / 2). { replace (/ 2 ^ 27 * / 2) with (/ 2 ^ 28) by (rewrite <- Rinv_mult; f_equal; ring). apply ipow2_le; lia. }
  unfold Rdiv. apply Rmult_le_compat; [lra|lra|exact S1|now apply Rinv_le_contravar].
Qed.
Lemma room g s n : / 2 ^ 30 <= g -> Rabs (s - g) <= 8 * unit_roundoff * g -> (100 <= n <= 1000)%Z ->
  double (1 / 2) /\ 0 <= 1 / 2 <= 1 - 4 * unit_roundoff /\ (3 <= n <= 2 ^ 50)%Z /\ 2 * blur 1 s < (1 / 2) / IZR (n - 1) /\ 7 * offset (1 / 2) n (2 * blur 1 s) < 1 /\
  1 / 2 <= 1 - 4 * blur 1 s.
Proof.
  change unit_roundoff with u. intros Hg Hs Hn. pose proof u_pos. pose proof u_tiny. destruct double_4u as (_ & _ & Dh). split; [exact Dh|]. split; [lra|]. split; [lia|].
  assert (G0 : 0 < / 2 ^ 30) by (apply Rinv_0_lt_compat, pow_lt; lra).
  assert (S1 : / 2 ^ 31 <= s). { apply Rabs_le_inv in Hs. replace (/ 2 ^ 31) with (/ 2 ^ 30 * / 2) by (rewrite <- Rinv_mult; f_equal; ring). nra. }
  assert (B : blur 1 s <= / 1000000).
  { unfold blur. change unit_roundoff with u. rewrite Rabs_R1. assert (I1 : 1 / s <= 2 ^ 31). { unfold Rdiv. rewrite Rmult_1_l. rewrite <- (Rinv_inv (2 ^ 31)). apply Rinv_le_contravar; [|exact S1]. apply Rinv_0_lt_compat, pow_lt; lra. }
    apply Rle_trans with ((32 + 2 ^ 31) * u); [apply Rmult_le_compat_r; lra|]. rewrite u_num. simpl. lra. }
  assert (N : 99 <= IZR (n - 1) <= 999) by (split; apply IZR_le; lia).
  split. { apply Rle_lt_trans with (/ 500000); [lra|]. apply (Rmult_lt_reg_r (IZR (n - 1))); [lra|]. replace (1 / 2 / IZR (n - 1) * IZR (n - 1)) with (1 / 2) by (field; lra). lra. }
  split; [|lra]. unfold offset. assert ((if Z.odd n then 0 else 1 / 2 / (2 * IZR (n - 1))) <= / 198); [|lra].
  destruct (Z.odd n); [lra|]. apply (Rmult_le_reg_r (2 * IZR (n - 1))); [lra|]. replace (1 / 2 / (2 * IZR (n - 1)) * (2 * IZR (n - 1))) with (1 / 2) by (field; lra). lra.
Qed.
