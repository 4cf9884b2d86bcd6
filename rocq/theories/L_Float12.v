(** Shape and tails of rounded Gaussian resonances, correctly rounded library functions. *)
From Coq Require Import Reals List ZArith Lra Lia Psatz String.
From Flocq Require Import Core.
From Verif Require Import Py Spec M_Num M_Constituents M_Thermal M_Dist M_Resonance M_Float S_Float M_Float2 S_Float2 M_Float4 S_Float4
  L_Float L_Float2 L_Float3 L_Float7 L_Float9 L_Float10 L_Float11.
Import ListNotations.
Open Scope R_scope.

Lemma correct_rnd k n v V : (k <= 900)%nat -> rng k V -> n = 2 -> v = rnd V -> Rabs (v - V) <= n * unit_roundoff * V.
Proof.
  intros H G -> ->. change unit_roundoff with u. pose proof (rng_pos _ _ G) as P.
  assert (N : near 1 (rnd V) V) by (apply near_rnd; [lia|eapply rng_tiny; eassumption|now apply near_exact]).
  apply near_bound in N; [|lia]. replace (INR 1 + 1) with 2 in N by (simpl; ring). exact N.
Qed.
Lemma correct_ok : clib_ok correct_clib.
Proof.
  split; intros x D H; (split; [apply rnd_double|]).
  - apply (correct_rnd 140 2); [lia| |reflexivity|reflexivity]. replace (x ^ 2) with (x * x) by ring. now apply (rng_mult 70 70).
  - apply (correct_rnd 400 2); [lia| |reflexivity|reflexivity]. split.
    + apply Rle_trans with (exp (Ropp 200)); [|apply exp_le; lra]. rewrite exp_Ropp. apply Rinv_le_contravar; [apply exp_pos|]. 
      replace 200 with (INR 200) by (rewrite INR_IZR_INZ; reflexivity). change 400%nat with (2 * 200)%nat. rewrite pow_mult. replace (2 ^ 2) with 4 by ring. apply exp_4.
    + apply Rle_trans with 1; [rewrite <- exp_0; apply exp_le; lra|]. apply pow_R1_Rle. lra.
Qed.

Lemma correct_falls : falling_exp correct_clib.
Proof. intros x y H. cbn. split; [apply rnd_nonneg; left; apply exp_pos|]. apply rnd_le, exp_le. lra. Qed.
Lemma fnorm_falls c l s x x' p p' : falling_exp c -> Rabs (x - l) <= Rabs (x' - l) -> fnorm_pdf c l s x = Ok p -> fnorm_pdf c l s x' = Ok p' -> 0 <= p' <= p.
Proof.
  unfold fnorm_pdf. intros F. destruct (Rlt_dec 0 s) as [P|]; [|discriminate]. intros H E E'. injection E as <-. injection E' as <-.
  apply fsub_abs in H. apply (fquo_abs _ _ s P) in H. apply fmul_abs in H.
  set (a := fmul _ _) in *. set (b := fmul (fquo (fsub x' l) s) (fquo (fsub x' l) s)) in *.
  assert (A0 : 0 <= a). { apply rnd_nonneg. apply Rle_0_sqr. }
  assert (M : fquo (- b) 2 <= fquo (- a) 2) by (apply rnd_le; lra).
  assert (M0 : fquo (- a) 2 <= 0) by (apply rnd_le_d; [apply double_0|lra]).
  destruct (F _ _ (conj M M0)) as [F1 F2].
  assert (Q : 0 <= / fsqrt (fmul 2 np_pi)).
  { left. apply Rinv_0_lt_compat. pose proof (good_fmul 0 1 1 2 2 2 np_pi PI ltac:(lia) ltac:(lia) good_two good_pi) as G.
    assert (G' : good (1 + 1) (2 + 2) (fmul 2 np_pi) (2 * PI)) by (eapply good_weaken; [| |exact G]; lia). apply good_fsqrt in G'; [|lia|lia]. eapply near_pos. apply G'. }
  assert (Is : 0 < / s) by now apply Rinv_0_lt_compat.
  assert (B0 : 0 <= fquo (c_exp c (fquo (- b) 2)) (fsqrt (fmul 2 np_pi))) by (apply rnd_nonneg; now apply Rmult_le_pos).
  split; [apply rnd_nonneg; apply Rmult_le_pos; lra|].
  apply rnd_le. apply Rmult_le_compat_r; [lra|]. apply rnd_le. now apply Rmult_le_compat_r.
Qed.
Lemma fGauss_falls c k i m fin amu T E E' v v' : clib_ok c -> falling_exp c -> floats k i m fin ->
  let E_r := fsub (st_excitation_energy m) (st_excitation_energy i) in
  Rabs (E - E_r) <= Rabs (E' - E_r) ->
  fGauss_call c k i m amu T fin E true = Ok v -> fGauss_call c k i m amu T fin E' true = Ok v' -> 0 <= v' <= v.
Proof.
  intros HC HX HF E_r H. destruct (fResonance_good c k i m fin HC HF) as (r & Ir & w & _ & H2 & _ & H4 & _ & GI). unfold fGauss_call. rewrite H2. cbn [bind]. fold E_r.
  destruct (fget_doppler_width _ _ E_r) as [d| |e]; cbn [bind]; try discriminate.
  unfold fres_call. cbv zeta. intros H5 H6.
  destruct (fnorm_pdf c E_r (fquo d (fsqrt 2)) E) as [p| |e] eqn:P; cbn [bind] in H5; try discriminate.
  destruct (fnorm_pdf c E_r (fquo d (fsqrt 2)) E') as [p'| |e] eqn:P'; cbn [bind] in H6; try discriminate.
  injection H5 as <-. injection H6 as <-. destruct (fnorm_falls _ _ _ _ _ _ _ HX H P P') as [Q1 Q2].
  assert (I0 : 0 < Ir) by (eapply near_pos; apply GI). split; [apply rnd_nonneg; nra|]. apply rnd_le. nra.
Qed.

(** ** Far from the line the cross section is zero *)
Lemma rnd_zero x : 0 <= x <= eta / 2 -> rnd x = 0.
Proof.
  intros [A B]. pose proof (rnd_nonneg x A) as R0. destruct (Req_dec (rnd x) 0) as [E|E]; [exact E|exfalso].
  pose proof (rnd_abs_le x) as K. rewrite !Rabs_pos_eq in K by assumption. pose proof eta_pos. pose proof u_tiny. pose proof u_pos.
  assert (L : bpow radix2 (-1074) <= rnd x).
  { apply (generic_format_ge_bpow radix2 fexp64); [intros e; unfold fexp64, FLT_exp; lia|lra|apply rnd_double]. }
  replace (bpow radix2 (-1074)) with (2 * eta) in L by (unfold eta; field). nra.
Qed.
Lemma exp_2 n : 2 ^ n <= exp (INR n).
Proof.
  induction n as [|n IH]; [simpl; rewrite exp_0; lra|]. rewrite S_INR, exp_plus. cbn [pow]. pose proof (exp_pos (INR n)). pose proof (exp_ineq1_le 1). pose proof (pow2_pos n). nra.
Qed.
Lemma exp_zero z : 1100 <= z -> rnd (exp (- z)) = 0.
Proof.
  intros H. apply rnd_zero. split; [left; apply exp_pos|].
  apply Rle_trans with (exp (Ropp 1100)); [apply exp_le; lra|]. rewrite exp_Ropp. apply Rle_trans with (/ 2 ^ 1100).
  - apply Rinv_le_contravar; [apply pow2_pos|]. replace 1100 with (INR 1100) by (rewrite INR_IZR_INZ; reflexivity). apply exp_2.
  - unfold eta. change (-1074)%Z with (- Z.of_nat 1074)%Z. rewrite bpow_neg. apply Rle_trans with (/ 2 ^ 1076); [apply ipow2_le; lia|]. change 1076%nat with (1074 + 2)%nat. rewrite pow_add, Rinv_mult. replace (2 ^ 2) with 4 by ring. lra.
Qed.
Lemma thermal_lost : thermal lost_k 1000 1.
Proof.
  assert (K : / 2 ^ 60 <= / 1048576 /\ 1048576 <= 2 ^ 60). { replace 1048576 with (2 ^ 20) by ring. split; [apply ipow2_le; lia|apply pow2_le; lia]. } destruct K as [K1 K2].
  unfold thermal, plausible, lost_k; cbn [k_kB_eV k_u_MeV]. set (a := / 2 ^ 60) in *. set (b := 2 ^ 60) in *. clearbody a b. repeat split; lra.
Qed.
Lemma tail_zero : exists r s v, Gauss lost_k lost_i lost_m 1000 1 None = Ok r /\ res_call r 2 true = Ok s /\
  fGauss_call correct_clib lost_k lost_i lost_m 1000 1 None 2 true = Ok v /\ 0 < s /\ v = 0.
Proof.
  destruct lost_sum as [_ S2].
  destruct (fResonance_good correct_clib lost_k lost_i lost_m None correct_ok lost_floats) as (r & Ir & w & H1 & H2 & H3 & _ & _ & H6). 
  cbn [st_excitation_energy lost_i lost_m] in H1, H2, H3. rewrite S2 in H1, H2, H3. fold lost_i in H1. 
  replace (with_energy lost_m (0 + 1)) with lost_m in H1 by (unfold with_energy, lost_m; cbn; f_equal; ring).
  destruct (fdoppler_good lost_k 1000 1 1 thermal_lost (rng_one 61)) as (d & d' & D1 & D2 & D3).
  assert (GS : good 7 193 (fquo d' (fsqrt 2)) (d / sqrt 2)).
  { apply (goodb_fquo 5 192 1 1); [lia|lia|exact D3|]. apply (good_fsqrt 0 1); [lia|lia|]. apply good_exact. split; simpl; lra. }
  pose proof (rng_pos _ _ (proj2 GS)) as PS.
  assert (SM : d <= / 1000).
  { unfold get_doppler_width, fdiv, np_sqrt in D1. cbn [lost_k mb_amu mb_effective_temperature k_kB_eV k_u_MeV] in D1. destruct (Req_EM_T _ 0) as [Z|_]; [lra|]. cbn [bind] in D1.
    assert (B : 0 <= 2 * / 11604 * / 10 ^ 6 * 1 / (1000 * 931) <= / 1000 * / 1000) by (simpl; lra). set (t := 2 * / 11604 * / 10 ^ 6 * 1 / (1000 * 931)) in *. clearbody t.
    destruct (Rlt_dec t 0); [lra|]. cbn [bind] in D1. assert (Ed : d = sqrt t) by (assert (E : d = 1 * sqrt t) by congruence; lra). rewrite Ed.
    rewrite <- (sqrt_square (/ 1000)) by lra. apply sqrt_le_1_alt. lra. }
  assert (S2' : 1 <= sqrt 2) by (rewrite <- sqrt_1; apply sqrt_le_1_alt; lra).
  set (W := d / sqrt 2) in *. set (s := fquo d' (fsqrt 2)) in *.
  assert (WM : W <= / 1000). { unfold W. assert (0 < d) by (eapply rng_pos; apply D3). apply (Rmult_le_reg_r (sqrt 2)); [lra|]. unfold Rdiv. rewrite Rmult_assoc, Rinv_l by lra. nra. }
  assert (sM : 0 < s <= / 500).
  { split; [eapply near_pos; apply GS|]. destruct GS as [N _]. apply near_bound in N; [|lia]. replace (INR 7 + 1) with 8 in N by (simpl; ring). apply Rabs_le_inv in N. pose proof u_tiny. nra. }
  assert (Y : 500 <= fquo (fsub 2 1) s).
  { assert (D5 : double 500) by (apply double_IZR; lia). apply rnd_ge; [exact D5|]. replace (fsub 2 1) with 1 by (unfold fsub; replace (2 - 1) with 1 by ring; symmetry; apply rnd_id, double_1).
    unfold Rdiv. rewrite Rmult_1_l, <- (Rinv_inv 500). apply Rinv_le_contravar; lra. }
  set (y := fquo (fsub 2 1) s) in *.
  assert (YY : 250000 <= fmul y y) by (apply rnd_ge; [apply (double_IZR 250000); lia|nra]).
  assert (Z : 125000 <= fquo (fmul y y) 2) by (apply rnd_ge; [apply (double_IZR 125000); lia|lra]).
  assert (X : c_exp correct_clib (fquo (- fmul y y) 2) = 0).
  { cbn [correct_clib c_exp]. replace (fquo (- fmul y y) 2) with (- fquo (fmul y y) 2) by (unfold fquo, Rdiv; rewrite <- rnd_opp; f_equal; ring). apply exp_zero. lra. }
  assert (P : fnorm_pdf correct_clib 1 s 2 = Ok 0).
  { unfold fnorm_pdf. destruct (Rlt_dec 0 s); [|lra]. fold y. rewrite X. unfold fquo, Rdiv. now rewrite !Rmult_0_l, rnd_0, Rmult_0_l, rnd_0. }
  exists (with_dist r norm [1; W]), (r_integrated r * norm_pdf 1 W 2), (fmul Ir 0).
  split. { unfold Gauss. rewrite H1. cbn [bind]. rewrite H3, D1. reflexivity. }
  split. { unfold res_call. cbn. destruct (Rlt_dec 0 W); [reflexivity|contradiction]. }
  split. { unfold fGauss_call. rewrite H2. cbn [bind]. rewrite D2. cbn [bind]. fold s. unfold fres_call. cbv zeta. rewrite P. reflexivity. }
  split; [|unfold fmul; rewrite Rmult_0_r; apply rnd_0]. apply Rmult_lt_0_compat; [eapply rng_pos; apply H6|].
  unfold norm_pdf, gauss0. apply Rmult_lt_0_compat; [|now apply Rinv_0_lt_compat]. apply Rmult_lt_0_compat; [apply exp_pos|]. apply Rinv_0_lt_compat, sqrt_lt_R0. pose proof PI_RGT_0. lra.
Qed.
Lemma lost_refuted c : clib_ok c ->
  exists k i m E r s v, floats k i m None /\ double E /\ BreitWigner k i m None = Ok r /\ r_energy r = fsub (st_excitation_energy m) (st_excitation_energy i) /\
    res_call r E false = Ok s /\ fBreitWigner_call c k i m None E false = Ok v /\ 0 < s /\ 4000 * s <= v.
Proof.
  intros HC. destruct (lost_offset c HC) as (r & s & v & H1 & H2 & H3 & H4 & H5). exists lost_k, lost_i, lost_m, (/ 2 ^ 55), r, s, v.
  split; [exact lost_floats|]. split. { replace (/ 2 ^ 55) with (bpow radix2 (-55)); [apply double_bpow; lia|]. change (-55)%Z with (- Z.of_nat 55)%Z. apply bpow_neg. }
  split; [exact H1|]. split; [|split; [exact H2|split; [exact H3|split; assumption]]].
  destruct lost_sum as [_ S2]. unfold lost_m, lost_i. cbn [st_excitation_energy]. rewrite S2. unfold BreitWigner, Resonance, NoRecoil in H1. cbn [bind] in H1.
  destruct (get_statistical_factor _ _) as [g| |]; try discriminate. cbn [bind] in H1. destruct (get_final_state_branching_ratio _ _) as [b| |]; try discriminate. cbn [bind] in H1.
  destruct (get_energy_integrated_cross_section _ _ _ _ _ _) as [Ir| |]; try discriminate. cbn [bind] in H1. destruct (width lost_m); try discriminate. cbn [bind] in H1.
  injection H1 as <-. cbn. ring.
Qed.
Lemma fdoppler_err k amu T E : thermal k amu T -> / 2 ^ 61 <= E <= 2 ^ 61 ->
  exists d v, get_doppler_width k {| mb_amu := amu; mb_effective_temperature := T |} E = Ok d /\
    fget_doppler_width k {| mb_amu := amu; mb_effective_temperature := T |} E = Ok v /\
    0 < d /\ Rabs (v - d) <= 6 * unit_roundoff * d.
Proof.
  intros H RE. destruct (fdoppler_good k amu T E H RE) as (d & v & H1 & H2 & [N G]). exists d, v. split; [exact H1|]. split; [exact H2|]. split; [apply N|].
  apply near_bound in N; [|lia]. replace (INR 5 + 1) with 6 in N by (simpl; ring). exact N.
Qed.
Lemma tails_refuted : exists c k i m amu T E r s v, clib_ok c /\ falling_exp c /\ floats k i m None /\ thermal k amu T /\ double E /\
    Gauss k i m amu T None = Ok r /\ res_call r E true = Ok s /\ fGauss_call c k i m amu T None E true = Ok v /\ 0 < s /\ v = 0.
Proof.
  destruct tail_zero as (r & s & v & H1 & H2 & H3 & H4 & H5). exists correct_clib, lost_k, lost_i, lost_m, 1000, 1, 2, r, s, v.
  split; [exact correct_ok|]. split; [exact correct_falls|]. split; [exact lost_floats|]. split; [exact thermal_lost|]. split; [apply (double_IZR 2); lia|]. 
  split; [exact H1|]. split; [exact H2|]. split; [exact H3|]. split; assumption.
Qed.
