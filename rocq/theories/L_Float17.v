(** The cross section per energy of the scattered photon, with rounding. *)
From Coq Require Import Reals List ZArith Lra Lia Psatz.
From Flocq Require Import Core.
From Verif Require Import Py Spec M_Num M_KleinNishina M_Float S_Float M_Float2 M_Float5 S_Float5
  L_Float L_Float2 L_Float3 L_Float7 L_Float9 L_Float10 L_Float11 L_Float13 L_Float14 L_Float15 L_Float16.
Import ListNotations.
Open Scope R_scope.

(** ** Sensitivity of the cross section to the cosine of the angle *)
Definition sig (s x c : R) : R := let r := 1 / (1 + x * (1 - c)) in PI * s * r * r * (r + 1 / r - (1 - c ^ 2)).
Lemma sig_ratio x c : 0 < x <= 2 ^ 20 -> -1 <= c <= 1 -> let r := 1 / (1 + x * (1 - c)) in 0 < r <= 1 /\ rng 22 r /\ 1 / r = 1 + x * (1 - c) /\ 1 <= 1 / r.
Proof.
  intros X C r. assert (D : 1 <= 1 + x * (1 - c) <= 1 + 2 * x) by nra. set (d := 1 + x * (1 - c)) in *.
  assert (I : 1 / r = d) by (unfold r; field; lra). assert (R0 : 0 < r <= 1). { unfold r, Rdiv. rewrite Rmult_1_l. split; [apply Rinv_0_lt_compat; lra|]. rewrite <- Rinv_1. apply Rinv_le_contravar; lra. }
  split; [exact R0|]. split; [|split; lra]. unfold r, Rdiv. rewrite Rmult_1_l. apply rng_inv. split; [apply Rle_trans with 1; [apply (rng_one 22)|lra]|].
  replace (2 ^ 22) with (4 * 2 ^ 20) by (change 22%nat with (2 + 20)%nat; rewrite pow_add; ring). assert (1 <= 2 ^ 20) by (apply pow_R1_Rle; lra). lra.
Qed.
Lemma sig_rng s x c : rng 100 s -> 0 < x <= 2 ^ 20 -> -1 <= c <= 1 -> rng 170 (sig s x c).
Proof.
  intros HS X C. destruct (sig_ratio x c X C) as (R0 & RR & I & I1). unfold sig. cbv zeta. set (r := 1 / (1 + x * (1 - c))) in *.
  apply (rng_weaken (2 + 100 + 22 + 22 + 23)); [lia|]. apply rng_mult; [apply rng_mult; [apply rng_mult; [apply rng_mult; [apply rng_pi|exact HS]|exact RR]|exact RR]|].
  pose proof (inv_sum r R0) as B. assert (0 <= 1 - c ^ 2 <= 1) by nra. split; [apply Rle_trans with 1; [apply (rng_one 23)|lra]|].
  assert (1 / r <= 2 ^ 22) by (unfold Rdiv; rewrite Rmult_1_l; apply (rng_inv 22); exact RR).
  replace (2 ^ 23) with (2 ^ 22 + 2 ^ 22) by (change 23%nat with (1 + 22)%nat; rewrite pow_add; ring). assert (1 <= 2 ^ 22) by (apply pow_R1_Rle; lra). lra.
Qed.
Lemma sig_near s x c c' n l : 0 < s -> 0 < x <= 2 ^ 20 -> -1 <= c <= 1 -> -1 <= c' <= 1 -> Rabs (c' - c) <= (51 / 50 * (1 / x) + 14) * u ->
  16 * x + 2 <= INR n -> 3 * (1 / x) + 40 <= INR l -> INR (3 * n + l) <= 67108864 -> near (5 * n + l) (sig s x c') (sig s x c).
Proof.
  intros S0 X C C' D Hn Hl HN. destruct (sig_ratio x c X C) as (R0 & RR & I & I1). destruct (sig_ratio x c' X C') as (R0' & RR' & I' & I1').
  unfold sig. cbv zeta. set (r := 1 / (1 + x * (1 - c))) in *. set (r' := 1 / (1 + x * (1 - c'))) in *. pose proof u_40 as U. pose proof (pos_INR n) as Pn. pose proof (pos_INR l) as Pl.
  assert (W0 : 0 < 1 / x) by (apply Rdiv_lt_0_compat; lra). assert (XW : x * (1 / x) = 1) by (field; lra).
  assert (HN' : INR (3 * n + l) = 3 * INR n + INR l) by (rewrite plus_INR, mult_INR; simpl; ring).
  assert (Nd : near n (1 / r') (1 / r)).
  { apply (near_rel (14 * x + 51 / 50)); [apply near_many; [apply count_8; lra|lra]|lra|]. rewrite I, I'. replace (1 + x * (1 - c') - (1 + x * (1 - c))) with (x * - (c' - c)) by ring.
    apply Rle_trans with (x * ((51 / 50 * (1 / x) + 14) * u)); [apply abs_mul; [rewrite Rabs_pos_eq; lra|now rewrite Rabs_Ropp]|].
    replace (x * ((51 / 50 * (1 / x) + 14) * u)) with ((51 / 50 * (x * (1 / x)) + 14 * x) * u) by ring. rewrite XW. 
    assert (0 <= (14 * x + 51 / 50) * u) by (apply Rmult_le_pos; lra). rewrite <- I. nra. }
  assert (Nr : near n r' r). { replace r' with (/ (1 / r')) by (field; lra). replace r with (/ (1 / r)) by (field; lra). now apply near_inv. }
  assert (Ns : near n (r' + 1 / r') (r + 1 / r)) by now apply near_add.
  pose proof (inv_sum r R0) as B. assert (Z : 0 <= 1 - c ^ 2 <= 1) by nra.
  assert (NB : near (3 * n + l) (r' + 1 / r' - (1 - c' ^ 2)) (r + 1 / r - (1 - c ^ 2))).
  { set (A := r + 1 / r) in *. set (A' := r' + 1 / r') in *. apply near_boundy in Ns; [|lra]. apply (near_rel (2 * (INR n + 1) + 2 * (51 / 50 * (1 / x) + 14))); [apply near_many; [now apply count_8|lra]|lra|].
    replace (A' - (1 - c' ^ 2) - (A - (1 - c ^ 2))) with ((A' - A) + (c' + c) * (c' - c)) by ring.
    assert (W1 : 0 <= (51 / 50 * (1 / x) + 14) * u) by (apply Rmult_le_pos; lra). set (dd := (51 / 50 * (1 / x) + 14) * u) in *.
    apply Rle_trans with ((INR n + 1) * u * A + 2 * dd); [apply abs_add; [exact Ns|apply abs_mul; [apply Rabs_le; lra|exact D]]|].
    assert (0 <= (INR n + 1) * u) by (apply Rmult_le_pos; lra). set (nn := (INR n + 1) * u) in *.
    replace ((2 * (INR n + 1) + 2 * (51 / 50 * (1 / x) + 14)) * u) with (2 * nn + 2 * dd) by (unfold nn, dd; ring).
    assert (nn * A <= nn * (2 * (A - (1 - c ^ 2)))) by (apply Rmult_le_compat_l; lra). assert (2 * dd * 1 <= 2 * dd * (A - (1 - c ^ 2))) by (apply Rmult_le_compat_l; lra). lra. }
  replace (5 * n + l)%nat with (0 + n + n + (3 * n + l))%nat by lia. apply near_mult; [apply near_mult; [apply near_mult; [apply near_exact|exact Nr]|exact Nr]|exact NB]. apply Rmult_lt_0_compat; [apply PI_RGT_0|exact S0].
Qed.

Section KN.
Context (m : alib) (k : constants).
Hypothesis Hm : alib_ok m.
Hypothesis Ha : acos_ok m.
Hypothesis Hk : rng 100 (k_me k).
Let me := k_me k.
Lemma unpol_sig c E t : sig (kn_scale_factor c) (E / me) (cos t) = (let r := 1 / (1 + E / me * (1 - cos t)) in PI * kn_scale_factor c * r * r * (r + 1 / r - sin t ^ 2)).
Proof. unfold sig. cbv zeta. f_equal. f_equal. pose proof (sin2_cos2 t) as H. unfold Rsqr in H. replace (sin t ^ 2) with (sin t * sin t) by ring. replace (cos t ^ 2) with (cos t * cos t) by ring. lra. Qed.
Lemma dEp_err c E Ep : kn_floats k c -> / 2 ^ 20 <= E / me <= 2 ^ 18 -> 0 < Ep <= E -> let a := 1 - (E / Ep - 1) * me / E in -1 <= a ->
  let V := sig (kn_scale_factor c) (E / me) a * me / (Ep * Ep) in
  fkn_cs_diff_dEp m k c E Ep = NaN /\ fkn_theta m k E Ep = NaN \/
  exists v, fkn_cs_diff_dEp m k c E Ep = Ok v /\ 0 < V /\ Rabs (v - V) <= (105 * (E / me) + 3 * (me / E) + 120) * u * V.
Proof.
  intros F H HE a HA V. pose proof (me_pos k Hk) as M0. fold me in M0. set (x := E / me) in *.
  assert (H20 : / 2 ^ 20 <= x <= 2 ^ 20) by (split; [apply H|apply Rle_trans with (2 ^ 18); [apply H|apply pow2_le; lia]]).
  assert (H100 : / 2 ^ 100 <= x <= 2 ^ 20) by (split; [apply Rle_trans with (/ 2 ^ 20); [apply ipow2_le; lia|apply H]|apply H20]).
  assert (X0 : 0 < x) by (pose proof (ipow2_pos 20); lra). assert (Ew : me / E = 1 / x) by (unfold x; field; lra). unfold fkn_cs_diff_dEp.
  destruct (theta_cases m k Ha Hk E Ep H100 HE HA) as [[T _]|(t & T & Dt & Bt)]; rewrite T; [left; split; reflexivity|right]. fold me in Bt. fold a in Bt. rewrite Ew in Bt. cbn [bind].
  assert (X1 : x <= 262144) by (replace 262144 with (2 ^ 18) by ring; apply H). assert (W1 : 0 < 1 / x <= 1048576).
  { split; [apply Rdiv_lt_0_compat; lra|]. replace 1048576 with (2 ^ 20) by ring. unfold Rdiv. rewrite Rmult_1_l, <- (Rinv_inv (2 ^ 20)). apply Rinv_le_contravar; [apply ipow2_pos|apply H]. }
  destruct (ceil_nat (5 * x + 4)) as (n & N1 & N2); [lra|]. destruct (ceil_nat (16 * x + 2)) as (n2 & M1 & M2); [lra|]. destruct (ceil_nat (3 * (1 / x) + 40)) as (l & L1 & L2); [lra|].
  destruct (unpol_good m k Hm Hk c E t n F Dt H100 N1 ltac:(lra)) as (v & Ev & Gv). fold me in Gv. fold x in Gv. rewrite Ev. cbn [bind].
  pose proof (unpol_sig c E t) as US. fold x in US. cbv zeta in US, Gv. rewrite <- US in Gv. destruct Gv as [Nv _].
  assert (Cx : 0 < x <= 2 ^ 20) by (split; [exact X0|apply H20]). assert (Ca : -1 <= a <= 1). { split; [exact HA|]. unfold a. assert (1 <= E / Ep). { apply (Rmult_le_reg_r Ep); [lra|]. unfold Rdiv. rewrite Rmult_assoc, Rinv_l by lra. lra. }
    assert (0 <= (E / Ep - 1) * me / E); [|lra]. apply Rmult_le_pos; [apply Rmult_le_pos; lra|left; apply Rinv_0_lt_compat; lra]. }
  destruct F as [_ HS]. assert (S0 : 0 < kn_scale_factor c) by exact (rng_pos _ _ HS).
  assert (Nt : near (5 * n2 + l) (sig (kn_scale_factor c) x (cos t)) (sig (kn_scale_factor c) x a)) by (apply sig_near; [exact S0|exact Cx|exact Ca|pose proof (COS_bound t); lra|exact Bt|exact M1|exact L1|cnt]).
  pose proof (near_trans _ _ _ _ _ Nv Nt) as NN. set (K := (5 * n + 33 + (5 * n2 + l))%nat) in *. assert (HK : INR K <= 105 * x + 3 * (1 / x) + 115) by (unfold K; cnt).
  assert (G1 : good K 170 v (sig (kn_scale_factor c) x a)) by (split; [exact NN|now apply sig_rng]).
  assert (G2 : good (S (K + 0)) (170 + 100) (fmul v me) (sig (kn_scale_factor c) x a * me)) by (apply goodx_fmul; [apply count_8; cnt|lia|exact G1|apply good_exact; exact Hk]).
  assert (RE : rng 120 E). { replace E with (x * me) by (unfold x; field; lra). apply (rng_mult 20 100); [exact H20|exact Hk]. }
  assert (RP : rng 142 Ep).
  { split; [|apply Rle_trans with E; [lra|]; apply Rle_trans with (2 ^ 120); [apply RE|apply pow2_le; lia]].
    assert (Q : E / Ep <= 2 ^ 22). { assert (E / Ep <= 1 + 2 * x). { assert (Y : (E / Ep - 1) * me / E <= 2) by (unfold a in HA; lra). apply (Rmult_le_compat_r x) in Y; [|lra]. replace ((E / Ep - 1) * me / E * x) with (E / Ep - 1) in Y by (unfold x; field; lra). lra. }
      replace (2 ^ 22) with (4 * 2 ^ 20) by (change 22%nat with (2 + 20)%nat; rewrite pow_add; ring). assert (1 <= 2 ^ 20) by (apply pow_R1_Rle; lra). lra. }
    replace Ep with (E * / (E / Ep)) by (field; lra). replace (/ 2 ^ 142) with (/ 2 ^ 120 * / 2 ^ 22) by (rewrite <- Rinv_mult, <- pow_add; reflexivity).
    apply Rmult_le_compat; [apply Rlt_le, ipow2_pos|apply Rlt_le, ipow2_pos|apply RE|]. apply Rinv_le_contravar; [apply Rdiv_lt_0_compat; lra|exact Q]. }
  assert (G3 : good 1 (142 + 142) (fmul Ep Ep) (Ep * Ep)) by (apply (good_fmul 0 142 0 142); [lia|lia|now apply good_exact|now apply good_exact]).
  assert (G4 : good (S (S (K + 0) + 1)) (170 + 100 + (142 + 142)) (fquo (fmul v me) (fmul Ep Ep)) V) by (apply goodx_fquo; [apply count_8; cnt|lia|exact G2|exact G3]).
  assert (PE : 0 < fmul Ep Ep) by exact (near_pos _ _ _ (proj1 G3)). unfold np_fquo. fold me. destruct (Req_EM_T (fmul Ep Ep) 0); [lra|]. eexists. split; [reflexivity|].
  assert (PV : 0 < V) by exact (rng_pos _ _ (proj2 G4)). split; [exact PV|]. destruct G4 as [N4 _]. apply near_boundy in N4; [|cnt]. eapply Rle_trans; [exact N4|]. pose proof u_40. rewrite Ew.
  apply Rmult_le_compat_r; [lra|]. apply Rmult_le_compat_r; [lra|]. cnt.
Qed.
End KN.
