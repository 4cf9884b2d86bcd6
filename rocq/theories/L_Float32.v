(** Rounding in the pseudo-Voigt distribution: parameters, calls, limits of the statements. *)
From Coq Require Import Reals List ZArith String Lra Lia Psatz.
From Flocq Require Import Core.
From Coquelicot Require Import Rbar.
From Verif Require Import Py Spec M_Num M_Grid M_Constituents M_Thermal M_Dist M_CrossSection M_Resonance M_PseudoVoigt M_Float S_Float M_Float2 M_Float3 S_Float3 M_Float4 S_Float4 M_Float6 S_Float6 M_Float8 S_Float8
  S_Resonance S_PseudoVoigt L_Debye L_PseudoVoigt L_PseudoVoigt2 L_PseudoVoigt4 L_Float L_Float3 L_Float7 L_Float9 L_Float10 L_Float11 L_Float12 L_Float20 L_Float22 L_Float27 L_Float28 L_Float29 L_Float30 L_Float31.
Import ListNotations.
Open Scope R_scope.

(** ** Calls *)
Lemma product_error a A v f K : good 16 446 a A -> / 2 ^ 450 <= f -> Rabs (v - f) <= K * u * f -> 0 <= K <= 20000 ->
  0 < A * f /\ Rabs (fmul a v - A * f) <= (K + 20) * u * (A * f).
Proof.
  intros [NA RA] Hf Hv HK. pose proof (near_boundb 16 _ _ ltac:(lia) NA) as EA. replace (INR 16 + 1) with 17 in EA by (simpl; ring).
  pose proof (rng_pos _ _ RA) as PA. assert (Pf : 0 < f) by (pose proof (ipow2_pos 450); lra). assert (PP : 0 < A * f) by (apply Rmult_lt_0_compat; assumption). split; [exact PP|].
  pose proof u_pos as U. pose proof u_30 as U3. destruct (rnd_error (a * v)) as (e & h & He & Hh & EQ). unfold fmul. rewrite EQ.
  assert (HB : eta <= / 64 * u * (A * f)).
  { pose proof (eta_pow (446 + 450) ltac:(lia)) as ET. rewrite pow_add, Rinv_mult in ET. assert (/ 2 ^ 446 * / 2 ^ 450 <= A * f) by (apply Rmult_le_compat; try (left; apply ipow2_pos); [apply RA|exact Hf]). nra. }
  assert (AV : Rabs (a * v - A * f) <= (K + 18) * u * (A * f)).
  { replace (a * v - A * f) with ((a - A) * (v - f) + (a - A) * f + A * (v - f)) by ring.
    assert (T1 : Rabs ((a - A) * (v - f)) <= 17 * u * A * (K * u * f)) by (now apply mul_abs).
    assert (T2 : Rabs ((a - A) * f) <= 17 * u * A * f) by (rewrite Rabs_mult, (Rabs_pos_eq f) by lra; apply Rmult_le_compat_r; lra).
    assert (T3 : Rabs (A * (v - f)) <= A * (K * u * f)) by (rewrite Rabs_mult, (Rabs_pos_eq A) by lra; apply Rmult_le_compat_l; lra).
    eapply Rle_trans; [apply Rabs_triang|]. eapply Rle_trans; [apply Rplus_le_compat_r, Rabs_triang|].
    replace (17 * u * A * (K * u * f)) with (17 * K * u * (u * (A * f))) in T1 by ring. replace (17 * u * A * f) with (17 * (u * (A * f))) in T2 by ring. replace (A * (K * u * f)) with (K * (u * (A * f))) in T3 by ring.
    replace ((K + 18) * u * (A * f)) with ((K + 18) * (u * (A * f))) by ring. set (z := u * (A * f)) in *. assert (0 < z) by (unfold z; apply Rmult_lt_0_compat; lra).
    assert (17 * K * u <= 1) by nra. nra. }
  replace (a * v * (1 + e) + h - A * f) with ((a * v - A * f) + (e * (a * v) + h)) by ring.
  assert (A1 : Rabs (a * v) <= 17 / 16 * (A * f)).
  { replace (a * v) with ((a * v - A * f) + A * f) by ring. eapply Rle_trans; [apply Rabs_triang|]. rewrite (Rabs_pos_eq (A * f)) by lra. assert ((K + 18) * u <= / 16) by nra. nra. }
  assert (A2 : Rabs (e * (a * v)) <= u * (17 / 16 * (A * f))) by (now apply mul_abs).
  eapply Rle_trans; [apply Rabs_triang|]. eapply Rle_trans; [apply Rplus_le_compat_l, Rabs_triang|]. nra.
Qed.
Lemma pdf_not_tiny L p' p x : close p' p -> pv_Gamma_L p <> 0 -> double x -> Rabs (x - pv_energy p) <= 2 ^ 63 -> pvlib_ok L -> / 2 ^ 450 <= pvf p x.
Proof.
  intros C NZ Dx B HL. destruct (good_sL p' p C) as [NL RL]. 
  destruct (fcauchy_good_k 40 65 63 (pv_energy p) _ _ x ltac:(lia) ltac:(lia) ltac:(lia) Dx (cl_double _ _ C) NL RL B) as (b & _ & [_ [B2 _]]).
  destruct (parts p' p C x) as (P0 & _ & ->). pose proof (cl_eta_rng _ _ C NZ) as [E124 _].
  assert (/ 2 ^ 450 <= / 2 ^ 124 * / 2 ^ (3 + 2 * 63 + 3 * 65)) by (rewrite <- Rinv_mult, <- pow_add; apply ipow2_le; lia).
  assert (/ 2 ^ 124 * / 2 ^ (3 + 2 * 63 + 3 * 65) <= pv_eta p * cauchy_pdf (pv_energy p) (1 / 2 * pv_gamma_L p) x) by (apply Rmult_le_compat; try (left; apply ipow2_pos); assumption). lra.
Qed.
Lemma fcall_good L modern k i m fin amu T w E (a : bool) : pvlib_ok L -> floats k i m fin -> width m = Ok w ->
  let E_r := fsub (st_excitation_energy m) (st_excitation_energy i) in let x := if a then E else fadd E E_r in
  pv_params k E_r w amu T -> pv_floats k E_r w amu T -> double E -> Rabs E <= 2 ^ 60 ->
  exists p r s v, PseudoVoigtDistribution k E_r w amu T = Ok p /\ PseudoVoigt modern k i (with_energy m (st_excitation_energy i + E_r)) amu T fin = Ok r /\ r_energy r = E_r /\
    res_call r x true = Ok s /\ fPseudoVoigt_call L k i m amu T fin E a = Ok v /\ 0 < s /\ Rabs (v - s) <= / 2 ^ 38 * s /\
    (Rabs (x - E_r) <= 7 * pv_Gamma p -> Rabs (v - s) <= (580 + 275 * ((x - E_r) / pv_Gamma p) ^ 2) * u * s).
Proof.
  intros HL HF HW Er x HP HQ DE BE. destruct (fResonance_good (v_c L) k i m fin (proj1 HL) HF) as (r & Ir & w' & H1 & H2 & H3 & H4 & H5 & H6). destruct (Er_props k i m fin HF) as (DEr & _ & RE).
  fold Er in H1, H2, H3, DEr, RE. rewrite HW in H4. injection H4 as <-.
  assert (Dx : double x) by (unfold x; destruct a; [exact DE|apply rnd_double]).
  assert (Bx : Rabs (x - Er) <= 2 ^ 63).
  { pose proof u_pos. pose proof u_tiny. destruct RE as [R1 R2]. pose proof (ipow2_pos 61). assert (0 < 2 ^ 60) by (apply pow_lt; lra).
    replace (2 ^ 61) with (2 * 2 ^ 60) in R2 by (rewrite <- tech_pow_Rmult; reflexivity). replace (2 ^ 63) with (8 * 2 ^ 60) by (change 63%nat with (3 + 60)%nat; rewrite pow_add; ring).
    apply Rabs_le_inv in BE. unfold x. destruct a.
    - apply Rabs_le. lra.
    - destruct (fadd_error E Er DE DEr) as (e & He & ->). apply Rabs_le_inv in He. apply Rabs_le. split; nra. }
  destruct (fpv_close L k Er w amu T HL HQ HP) as (p & p' & P1 & P2 & C & Pw & PE).
  assert (NZ : pv_Gamma_L p <> 0) by (rewrite Pw; pose proof (rng_pos 60 w H5); lra). rewrite <- PE in Bx.
  destruct (all_pdf L p' p HL C x NZ Dx Bx) as (v & V1 & V2). pose proof (pdf_not_tiny L p' p x C NZ Dx Bx HL) as FT.
  exists p, (with_dist r (pv_distribution modern p) []), (r_integrated r * pvf p x), (fmul Ir v).
  split; [exact P1|]. split. { unfold PseudoVoigt. rewrite H1. cbn [bind]. change (width (with_energy _ _)) with (width m). rewrite HW. cbn [bind]. rewrite H3, P1. reflexivity. }
  split; [exact H3|]. split. { unfold res_call. cbn [with_dist r_dist r_params r_integrated pv_distribution d_pdf]. rewrite (pv_pdf_ok p x (cl_valid _ _ C)). reflexivity. }
  split. { unfold fPseudoVoigt_call. rewrite H2. cbn [bind]. rewrite HW. cbn [bind]. rewrite P2. cbn [bind]. unfold fres_call. fold x. cbv zeta. rewrite V1. reflexivity. }
  destruct (product_error Ir _ v _ 16384 H6 FT V2 ltac:(lra)) as (S0 & S1). split; [exact S0|]. split. { eapply Rle_trans; [exact S1|]. apply Rmult_le_compat_r; [lra|]. unfold u. lra. }
  intros B7. rewrite <- PE in B7. destruct (central_pdf L p' p HL C x Dx B7) as (v' & V1' & V2'). rewrite V1 in V1'. injection V1' as <-. rewrite PE in V2'.
  assert (T7 : 0 <= ((x - Er) / pv_Gamma p) ^ 2 <= 49).
  { split; [apply pow2_ge_0|]. pose proof (cl_valid _ _ C) as (PG & _). rewrite <- (Rabs_pos_eq (_ ^ 2)) by apply pow2_ge_0. rewrite <- RPow_abs. unfold Rdiv. rewrite Rabs_mult, Rabs_inv, (Rabs_pos_eq (pv_Gamma p)) by lra. rewrite PE in B7.
    assert (H : Rabs (x - Er) * / pv_Gamma p <= 7). { apply (Rmult_le_reg_r (pv_Gamma p)); [exact PG|]. rewrite Rmult_assoc, Rinv_l by lra. lra. }
    assert (0 <= Rabs (x - Er) * / pv_Gamma p). { apply Rmult_le_pos; [apply Rabs_pos|left; now apply Rinv_0_lt_compat]. } nra. }
  destruct (product_error Ir _ v _ (560 + 275 * ((x - Er) / pv_Gamma p) ^ 2) H6 FT V2' ltac:(lra)) as (_ & S2).
  eapply Rle_trans; [exact S2|]. right. ring.
Qed.

(** ** Parameters *)
Lemma parameters L k E w amu T : pvlib_ok L -> pv_params k E w amu T -> pv_floats k E w amu T -> exists p p',
  PseudoVoigtDistribution k E w amu T = Ok p /\ fPseudoVoigtDistribution L k E w amu T = Ok p' /\
  pv_energy p' = pv_energy p /\ pv_Gamma_L p' = pv_Gamma_L p /\
  Rabs (pv_doppler p' - pv_doppler p) <= 6 * u * pv_doppler p /\ Rabs (pv_sigma p' - pv_sigma p) <= 8 * u * pv_sigma p /\
  Rabs (pv_Gamma_G p' - pv_Gamma_G p) <= 11 * u * pv_Gamma_G p /\ Rabs (pv_Gamma p' - pv_Gamma p) <= 39 * u * pv_Gamma p /\
  Rabs (pv_eta p' - pv_eta p) <= 116 * u * pv_eta p /\ Rabs (pv_gamma_G p' - pv_gamma_G p) <= 44 * u * pv_gamma_G p /\
  Rabs (pv_gamma_L p' - pv_gamma_L p) <= 40 * u * pv_gamma_L p /\ Rabs (pv_gamma p' - pv_gamma p) <= 2 * u * pv_gamma p.
Proof.
  intros HL HP HF. destruct (fpv_close L k E w amu T HL HF HP) as (p & p' & P1 & P2 & C & _). exists p, p'. split; [exact P1|]. split; [exact P2|].
  split; [apply (cl_energy _ _ C)|]. split; [apply (cl_width _ _ C)|].
  pose proof (proj2 (good0_bound 5 _ _ _ ltac:(lia) (cl_doppler _ _ C))) as X1. pose proof (proj2 (good0_bound 7 _ _ _ ltac:(lia) (cl_sigma _ _ C))) as X2.
  pose proof (proj2 (good0_bound 10 _ _ _ ltac:(lia) (cl_Gamma_G _ _ C))) as X3. pose proof (near_boundb 38 _ _ ltac:(lia) (proj1 (cl_Gamma _ _ C))) as X4.
  pose proof (near_boundb 43 _ _ ltac:(lia) (proj1 (cl_gamma_G _ _ C))) as X5. pose proof (near_boundb 39 _ _ ltac:(lia) (proj1 (cl_gamma_L _ _ C))) as X6.
  pose proof (proj2 (good0_bound 1 _ _ _ ltac:(lia) (cl_gamma _ _ C))) as X7.
  replace (INR 5 + 1) with 6 in X1 by (simpl; ring). replace (INR 7 + 1) with 8 in X2 by (simpl; ring). replace (INR 10 + 1) with 11 in X3 by (simpl; ring).
  replace (INR 38 + 1) with 39 in X4 by (rewrite INR_IZR_INZ; simpl; ring). replace (INR 43 + 1) with 44 in X5 by (rewrite INR_IZR_INZ; simpl; ring). replace (INR 39 + 1) with 40 in X6 by (rewrite INR_IZR_INZ; simpl; ring).
  replace (INR 1 + 1) with 2 in X7 by (simpl; ring). repeat (split; [first [assumption|apply (cl_eta _ _ C)]|]). exact X7.
Qed.

(** ** Library functions that round correctly *)
Lemma correct_pvlib_ok : pvlib_ok correct_pvlib.
Proof.
  split; [exact correct_ok|]. split.
  { intros x _ _. cbn. destruct (rnd_error (exp x)) as (e & h & He & Hh & EQ). rewrite EQ, <- eta_half. change unit_roundoff with u. pose proof (exp_pos x). pose proof u_pos. pose proof eta_pos.
    replace (exp x * (1 + e) + h - exp x) with (e * exp x + h) by ring. eapply Rle_trans; [apply Rabs_triang|]. rewrite Rabs_mult, (Rabs_pos_eq (exp x)) by lra.
    assert (Rabs e * exp x <= u * exp x) by (apply Rmult_le_compat_r; lra). nra. }
  split. { cbn. apply (correct_rnd 1 2); [lia| |reflexivity|reflexivity]. pose proof ln2_lt. pose proof ln_lt_2. split; simpl; lra. }
  split. { intros x y _ _ Hx Hy. cbn. split; [apply rnd_double|]. apply (correct_rnd 400 2); [lia| |reflexivity|reflexivity].
    pose proof (ln_rng 400 x Hx) as LN. unfold Rpower. apply Rabs_le_inv in LN. set (z := INR 400 * ln 2) in *. pose proof ln2_pos. assert (0 <= z) by (unfold z; apply Rmult_le_pos; [apply pos_INR|lra]).
    assert (EZ : exp z = 2 ^ 400). { unfold z. rewrite <- (ln_pow 2) by lra. apply exp_ln, pow2_pos. }
    split; [rewrite <- EZ, <- exp_Ropp|rewrite <- EZ]; apply exp_le; nra. }
  split; apply correct_fdist_ok.
Qed.

Lemma ln2_ge : 3 / 5 <= ln 2.
Proof.
  assert (H : 3 <= ln (2 ^ 5)).
  { rewrite <- (ln_exp 3). destruct (Req_dec (exp 3) (2 ^ 5)) as [->|N]; [lra|]. left. apply ln_increasing; [apply exp_pos|].
    replace 3 with (1 + 1 + 1) by ring. rewrite !exp_plus. pose proof exp_le_3. pose proof (exp_pos 1). nra. }
  rewrite ln_pow in H by lra. simpl in H. lra.
Qed.

(** ** A profile without thermal motion and a width of 1/1024 *)
Definition cold_G : R := 9007199254740989 / 9223372036854775808.
Lemma cold_pow : rnd (Rpower (/ 2 ^ 50) (rnd (1 / 5))) = cold_G.
Proof.
  assert (EQ : Rpower (/ 2 ^ 50) (rnd (1 / 5)) = / 1024 * exp (- (5 * u * ln 2))).
  { rewrite (proj1 fifth). unfold Rpower. rewrite ln_Rinv, ln_pow by lra. replace (INR 50) with 50 by (rewrite INR_IZR_INZ; reflexivity).
    replace (/ 1024) with (exp (- (10 * ln 2))). 2: { rewrite exp_Ropp. f_equal. replace 10 with (INR 10) by (simpl; ring). rewrite <- ln_pow, exp_ln by lra. ring. }
    rewrite <- exp_plus. f_equal. unfold u. set (l := ln 2). field. }
  rewrite EQ. pose proof ln2_lt as L1. pose proof ln_lt_2 as L2. set (z := 5 * u * ln 2). pose proof u_pos as U. pose proof u_30 as U3.
  assert (Z : 5 / 2 * u < z < 7 / 2 * u) by (unfold z; split; nra).
  assert (E1 : 1 - z <= exp (- z)) by (pose proof (exp_ineq1_le (- z)); lra).
  assert (E2 : exp (- z) < 1 - 5 / 2 * u).
  { assert (I1 : exp (- z) <= / (1 + z)). { rewrite exp_Ropp. apply Rinv_le_contravar; [lra|]. apply exp_ineq1_le. }
    assert (I2 : / (1 + z) <= 1 - z + z * z). { apply (Rmult_le_reg_r (1 + z)); [lra|]. rewrite Rinv_l by lra. assert (0 <= z * z * z) by (apply Rmult_le_pos; nra). nra. }
    assert (Z3 : 5 / 2 * u + / 10 * u <= z). { unfold z. pose proof ln2_ge. nra. }
    assert (z * z <= 7 / 2 * u * (7 / 2 * u)) by (apply Rmult_le_compat; lra). nra. }
  unfold cold_G. rewrite (rnd_lit _ 9007199254740989 (-63) (/ 9223372036854775808)); [lra|lia|lia|lia|reflexivity|unfold u in *; lra..].
Qed.
Lemma cold_eta : fget_eta cold_G (1 / 1024) = Ok (2251799813685249 / 2251799813685248).
Proof.
  unfold fget_eta, cold_G. destruct (Req_EM_T (9007199254740989 / 9223372036854775808) 0) as [F|_]; [exfalso; lra|]. cbv zeta.
  assert (I1 : fquo (1) (9007199254740989 / 9223372036854775808) = 2251799813685249 / 2199023255552) by (unfold fquo; replace (1 / (9007199254740989 / 9223372036854775808)) with (9223372036854775808 / 9007199254740989) by (field; lra); rewrite (rnd_lit _ 4503599627370498 (-42) (/ 4398046511104)); [lra|lia|lia|lia|reflexivity|lra..]).
  assert (I2 : fmul (2251799813685249 / 2199023255552) (2251799813685249 / 2199023255552) = 1125899906842625 / 1073741824) by (unfold fmul; rewrite (rnd_lit _ 4503599627370500 (-32) (/ 4294967296)); [lra|lia|lia|lia|reflexivity|lra..]).
  assert (W2 : fmul (1 / 1024) (1 / 1024) = 1 / 1048576) by (unfold fmul; rewrite (rnd_lit _ 4503599627370496 (-72) (/ 4722366482869645213696)); [lra|lia|lia|lia|reflexivity|lra..]).
  assert (W3 : fmul (1 / 1048576) (1 / 1024) = 1 / 1073741824) by (unfold fmul; rewrite (rnd_lit _ 4503599627370496 (-82) (/ 4835703278458516698824704)); [lra|lia|lia|lia|reflexivity|lra..]).
  assert (C1 : rnd 1.36603 = 6152052198976919 / 4503599627370496) by (change 1.36603 with (136603 / 100000); rewrite (rnd_lit _ 6152052198976919 (-52) (/ 4503599627370496)); [lra|lia|lia|lia|reflexivity|lra..]).
  assert (C2 : rnd 0.47719 = 2149072706184927 / 4503599627370496) by (change 0.47719 with (47719 / 100000); rewrite (rnd_lit _ 8596290824739708 (-54) (/ 18014398509481984)); [lra|lia|lia|lia|reflexivity|lra..]).
  assert (C3 : rnd 0.11116 = 8009922153256069 / 72057594037927936) by (change 0.11116 with (11116 / 100000); rewrite (rnd_lit _ 8009922153256069 (-56) (/ 72057594037927936)); [lra|lia|lia|lia|reflexivity|lra..]).
  assert (A1 : fmul (6152052198976919 / 4503599627370496) (1 / 1024) = 6152052198976919 / 4611686018427387904) by (unfold fmul; rewrite (rnd_lit _ 6152052198976919 (-62) (/ 4611686018427387904)); [lra|lia|lia|lia|reflexivity|lra..]).
  assert (A2 : fmul (6152052198976919 / 4611686018427387904) (2251799813685249 / 2199023255552) = 3076026099488461 / 2251799813685248) by (unfold fmul; rewrite (rnd_lit _ 6152052198976922 (-52) (/ 4503599627370496)); [lra|lia|lia|lia|reflexivity|lra..]).
  assert (B1 : fmul (2149072706184927 / 4503599627370496) (1 / 1048576) = 2149072706184927 / 4722366482869645213696) by (unfold fmul; rewrite (rnd_lit _ 8596290824739708 (-74) (/ 18889465931478580854784)); [lra|lia|lia|lia|reflexivity|lra..]).
  assert (B2 : fmul (2149072706184927 / 4722366482869645213696) (1125899906842625 / 1073741824) = 2149072706184929 / 4503599627370496) by (unfold fmul; rewrite (rnd_lit _ 8596290824739716 (-54) (/ 18014398509481984)); [lra|lia|lia|lia|reflexivity|lra..]).
  assert (D1 : fmul (8009922153256069 / 72057594037927936) (1 / 1073741824) = 8009922153256069 / 77371252455336267181195264) by (unfold fmul; rewrite (rnd_lit _ 8009922153256069 (-86) (/ 77371252455336267181195264)); [lra|lia|lia|lia|reflexivity|lra..]).
  assert (D2 : fmul (8009922153256069 / 77371252455336267181195264) (1125899906842625 / 1073741824) = 2002480538314019 / 18446744073709551616) by (unfold fmul; rewrite (rnd_lit _ 8009922153256076 (-66) (/ 73786976294838206464)); [lra|lia|lia|lia|reflexivity|lra..]).
  assert (D3 : fmul (2002480538314019 / 18446744073709551616) (2251799813685249 / 2199023255552) = 500620134578505 / 4503599627370496) by (unfold fmul; rewrite (rnd_lit _ 8009922153256080 (-56) (/ 72057594037927936)); [lra|lia|lia|lia|reflexivity|lra..]).
  assert (S1 : fsub (3076026099488461 / 2251799813685248) (2149072706184929 / 4503599627370496) = 4002979492791993 / 4503599627370496) by (unfold fsub; rewrite (rnd_lit _ 8005958985583986 (-53) (/ 9007199254740992)); [lra|lia|lia|lia|reflexivity|lra..]).
  assert (S2 : fadd (4002979492791993 / 4503599627370496) (500620134578505 / 4503599627370496) = 2251799813685249 / 2251799813685248) by (unfold fadd; rewrite (rnd_lit _ 4503599627370498 (-52) (/ 4503599627370496)); [lra|lia|lia|lia|reflexivity|lra..]).
  rewrite I1, I2, W2, W3, C1, C2, C3, A1, A2, B1, B2, D1, D2, D3, S1, S2. reflexivity.
Qed.
Lemma fmul_0_r x : fmul x 0 = 0.
Proof. unfold fmul. rewrite Rmult_0_r. apply rnd_0. Qed.
Lemma fmul_0_l x : fmul 0 x = 0.
Proof. unfold fmul. rewrite Rmult_0_l. apply rnd_0. Qed.
Lemma fquo_0_l x : fquo 0 x = 0.
Proof. unfold fquo, Rdiv. rewrite Rmult_0_l. apply rnd_0. Qed.
Lemma fsqrt_0 : fsqrt 0 = 0.
Proof. unfold fsqrt. rewrite sqrt_0. apply rnd_0. Qed.
Lemma fadd_0_0 : fadd 0 0 = 0.
Proof. unfold fadd. rewrite Rplus_0_r. apply rnd_0. Qed.
Lemma rnd_two n : (n <= 1000)%nat -> rnd (/ 2 ^ n) = / 2 ^ n.
Proof. intros H. apply rnd_id. rewrite <- bpow_neg. apply double_bpow. lia. Qed.
Lemma two_exact a b n : (n <= 1000)%nat -> a * b = / 2 ^ n -> fmul a b = / 2 ^ n.
Proof. intros H E. unfold fmul. rewrite E. now apply rnd_two. Qed.
Lemma cold_params : pv_params codata 1 (1 / 1024) 12 0 /\ pv_floats codata 1 (1 / 1024) 12 0.
Proof.
  split.
  - split; [exact codata_ok|]. lra.
  - assert (D1 : double 1) by (apply double_IZR; simpl; lia). assert (D2 : double (1 / 1024)) by (replace (1 / 1024) with (bpow radix2 (-10)) by (change (bpow radix2 (-10)) with (/ 1024); lra); apply double_bpow; lia).
    unfold pv_floats, plausible. cbn [k_kB_eV k_u_MeV codata]. repeat split; try assumption; try lra.
Qed.
Lemma cold_object : exists p', fPseudoVoigtDistribution correct_pvlib codata 1 (1 / 1024) 12 0 = Ok p' /\
  pv_Gamma_L p' = 1 / 1024 /\ pv_Gamma p' = cold_G /\ pv_eta p' = 2251799813685249 / 2251799813685248.
Proof.
  destruct cold_params as [_ PF]. destruct (doppler_good0 _ _ _ _ _ PF) as (d & d' & D1 & D2 & D3 & _).
  assert (d' = 0).
  { unfold fget_doppler_width in D2. cbv zeta in D2. cbn [mb_amu mb_effective_temperature] in D2. destruct (Req_EM_T _ 0); [discriminate|]. rewrite fmul_0_r, fquo_0_l in D2.
    destruct (Rlt_dec 0 0); [discriminate|]. rewrite fsqrt_0, fmul_0_r in D2. now injection D2. }
  subst d'. unfold fPseudoVoigtDistribution. rewrite D2. cbn [bind]. cbv zeta. rewrite fmul_0_r.
  assert (EG : fget_Gamma correct_pvlib 0 (1 / 1024) = Ok cold_G).
  { unfold fget_Gamma. cbv zeta. rewrite !fmul_0_r, !fmul_0_l, ?fmul_0_r, ?fmul_0_l, !fadd_0_0.
    assert (W2 : fmul (1 / 1024) (1 / 1024) = / 2 ^ 20) by (apply two_exact; [lia|lra]). rewrite W2.
    assert (W4 : fmul (/ 2 ^ 20) (/ 2 ^ 20) = / 2 ^ 40) by (apply two_exact; [lia|lra]). rewrite W4.
    assert (W5 : fmul (/ 2 ^ 40) (1 / 1024) = / 2 ^ 50) by (apply two_exact; [lia|lra]). rewrite W5.
    assert (D50 : fadd 0 (/ 2 ^ 50) = / 2 ^ 50) by (unfold fadd; rewrite Rplus_0_l; apply rnd_two; lia). rewrite ?D50.
    pose proof (ipow2_pos 50). destruct (Rlt_dec (/ 2 ^ 50) 0); [lra|]. destruct (Req_EM_T (/ 2 ^ 50) 0); [lra|]. cbn [correct_pvlib v_pow]. now rewrite cold_pow. }
  rewrite EG. cbn [bind]. rewrite cold_eta. cbn [bind]. eexists. split; [reflexivity|]. cbn. auto.
Qed.
Lemma cold_refuted : exists L k E w amu T p p', pvlib_ok L /\ pv_params k E w amu T /\ pv_floats k E w amu T /\ PseudoVoigtDistribution k E w amu T = Ok p /\
  fPseudoVoigtDistribution L k E w amu T = Ok p' /\ pv_Gamma_L p <= pv_Gamma p /\ pv_eta p <= 1 /\ pv_Gamma p' < pv_Gamma_L p' /\ 1 < pv_eta p'.
Proof.
  destruct cold_params as [PP PF]. destruct (pv_build _ _ _ _ _ PP) as (p & B & V & Ee & Ew & Eg & Ed & Pd & Es & EG & E5 & Eeta & G1 & G2). destruct cold_object as (p' & O1 & O2 & O3 & O4).
  exists correct_pvlib, codata, 1, (1 / 1024), 12, 0, p, p'. split; [exact correct_pvlib_ok|]. repeat (split; [assumption|]). rewrite O2, O3, O4. destruct V as (_ & H & _).
  unfold cold_G. repeat split; try lra.
Qed.

(** ** Statements about both objects *)
Section Both.
  Variables (L : pvlib) (k : constants) (E w amu T : R) (p p' : pv).
  Hypothesis HL : pvlib_ok L.
  Hypothesis HP : pv_params k E w amu T.
  Hypothesis HF : pv_floats k E w amu T.
  Hypothesis EP : PseudoVoigtDistribution k E w amu T = Ok p.
  Hypothesis EP' : fPseudoVoigtDistribution L k E w amu T = Ok p'.
  Lemma both : close p' p /\ pv_Gamma_L p = w /\ pv_energy p = E.
  Proof. destruct (fpv_close L k E w amu T HL HF HP) as (q & q' & Q1 & Q2 & Q). rewrite EP in Q1. injection Q1 as <-. rewrite EP' in Q2. injection Q2 as <-. exact Q. Qed.
  Lemma both_pdf x : double x -> Rabs (x - E) <= 7 * pv_Gamma p -> exists f v, pv_pdf p x = Ok f /\ fpv_pdf L p' x = Ok v /\
    Rabs (v - f) <= (560 + 275 * ((x - E) / pv_Gamma p) ^ 2) * u * f.
  Proof.
    intros Dx B. destruct both as (C & _ & EE). rewrite <- EE in B |- *. destruct (central_pdf L p' p HL C x Dx B) as (v & V1 & V2). exists (pvf p x), v. split; [apply pv_pdf_ok, (cl_valid _ _ C)|]. auto.
  Qed.
  Lemma both_pdf_all x : w <> 0 -> double x -> Rabs (x - E) <= 2 ^ 63 -> exists f v, pv_pdf p x = Ok f /\ fpv_pdf L p' x = Ok v /\ 0 < v /\ Rabs (v - f) <= / 2 ^ 39 * f.
  Proof.
    intros NZ Dx B. destruct both as (C & EW & EE). rewrite <- EE in B. rewrite <- EW in NZ. destruct (all_pdf L p' p HL C x NZ Dx B) as (v & V1 & V2). exists (pvf p x), v. split; [apply pv_pdf_ok, (cl_valid _ _ C)|].
    split; [exact V1|]. assert (V3 : Rabs (v - pvf p x) <= / 2 ^ 39 * pvf p x) by (eapply Rle_trans; [exact V2|]; right; unfold u; field). split; [|exact V3].
    pose proof (pdf_not_tiny L p' p x C NZ Dx B HL) as FT. pose proof (ipow2_pos 450). apply Rabs_le_inv in V3. lra.
  Qed.
  Lemma both_finite x : exists v, fpv_pdf L p' x = Ok v /\ Rabs v <= 3 / 2 / pv_Gamma p.
  Proof. destruct both as (C & _). destruct (pdf_bound L p' p HL C x) as (v & V1 & _ & V3). eauto. Qed.
  Lemma both_cdf x : double x -> exists F v, pv_cdf p x = Ok F /\ fpv_cdf L p' x = Ok v /\ Rabs (v - F) <= 300 * u.
  Proof. intros Dx. destruct both as (C & _). destruct (cdf_error L p' p HL C x Dx) as (v & V1 & _ & V3). exists (pvF p x), v. split; [apply pv_cdf_ok, (cl_valid _ _ C)|]. auto. Qed.
  Lemma both_ppf q ws x : double q -> fpv_ppf_scalar L p' q = (ws, Ok (Some [Finite x])) -> inverted ws ->
    exists F, pv_cdf p x = Ok F /\ Rabs (F - q) <= / 2 ^ 44 + (5 / 10 ^ 8 + Rabs x / 2 ^ 50) / pv_Gamma p.
  Proof. destruct both as (C & _). exact (ppf_accuracy L p' p HL C q ws x). Qed.
  Lemma both_ppf_array qs ws xs : List.Forall double qs -> fpv_ppf_array L p' qs = (ws, Ok (Some xs)) -> inverted ws ->
    Forall2 (fun q x => exists e F, x = Finite e /\ pv_cdf p e = Ok F /\ Rabs (F - q) <= / 2 ^ 44 + (5 / 10 ^ 8 + Rabs e / 2 ^ 50) / pv_Gamma p) qs xs.
  Proof. destruct both as (C & _). exact (ppf_accuracy_array L p' p HL C qs ws xs). Qed.
  Lemma both_found s q : double q -> / 1000 <= s -> 2 * s <= q <= 1 - 2 * s -> pv_Gamma p <= 7 * 10 ^ 3 * s ^ 6 -> E <= 2 * 10 ^ 7 * s ^ 4 -> E <= 10 ^ 15 * (s * pv_Gamma p) ->
    exists x, fpv_ppf_scalar L p' q = ([], Ok (Some [Finite x])).
  Proof. destruct both as (C & _ & EE). rewrite <- EE. exact (ppf_found L p' p HL C s q). Qed.
  Lemma both_found_array s qs : List.Forall double qs -> / 300 <= s <= 1 / 4 -> List.Forall (fun q => 2 * s <= q <= 1 - 2 * s) qs -> pv_Gamma p <= 7 * 10 ^ 3 * s ^ 6 ->
    E <= 2 * 10 ^ 7 * s ^ 4 -> E <= 10 ^ 14 * (s ^ 2 * pv_Gamma p) ->
    exists xs, List.length xs = List.length qs /\ fpv_ppf_array L p' qs = ([], Ok (Some (map Finite xs))).
  Proof. destruct both as (C & _ & EE). rewrite <- EE. exact (ppf_found_array L p' p HL C s qs). Qed.
  Lemma both_fallback qs : List.Forall (fun q => double q /\ 0 < q < 1) qs -> exists xs, fpv_fallback L p' qs = Ok (Some (map Finite xs)) /\ List.length xs = List.length qs.
  Proof. destruct both as (C & _). exact (fallback_finite L p' p C qs). Qed.
End Both.

Lemma cold_example : exists p p', PseudoVoigtDistribution codata 1 (1 / 1024) 12 0 = Ok p /\ fPseudoVoigtDistribution correct_pvlib codata 1 (1 / 1024) 12 0 = Ok p' /\
  double (1 / 4) /\ 2 * (1 / 8) <= 1 / 4 <= 1 - 2 * (1 / 8) /\ pv_Gamma p <= 7 * 10 ^ 3 * (1 / 8) ^ 6 /\ 1 <= 2 * 10 ^ 7 * (1 / 8) ^ 4 /\ 1 <= 10 ^ 15 * (1 / 8 * pv_Gamma p) /\
  1 <= 10 ^ 14 * ((1 / 8) ^ 2 * pv_Gamma p).
Proof.
  destruct cold_params as [PP _]. destruct (pv_build _ _ _ _ _ PP) as (p & B & V & _). destruct (cold _ _ _ _ _ PP B) as (_ & HG & _). destruct cold_object as (p' & O1 & _).
  exists p, p'. split; [exact B|]. split; [exact O1|]. rewrite HG. split; [|lra]. replace (1 / 4) with (bpow radix2 (-2)) by (change (bpow radix2 (-2)) with (/ 4); lra). apply double_bpow. lia.
Qed.

(** ** The hypotheses can be met *)
Lemma warm_example w : w = 0 \/ w = 1 / 1024 -> pv_params codata 4 w 12 300 /\ pv_floats codata 4 w 12 300.
Proof.
  intros Hw. assert (W : 0 <= w <= 1 / 1024) by (destruct Hw; lra). split.
  - split; [exact codata_ok|]. lra.
  - assert (D1 : double 4) by (apply double_IZR; simpl; lia). assert (D0 : double 0) by (apply double_IZR; simpl; lia).
    assert (D2 : double (1 / 1024)) by (replace (1 / 1024) with (bpow radix2 (-10)) by (change (bpow radix2 (-10)) with (/ 1024); lra); apply double_bpow; lia).
    assert (PD : forall d, get_doppler_width codata {| mb_amu := 12; mb_effective_temperature := 300 |} 4 = Ok d -> plausible d).
    { intros d H. unfold get_doppler_width, fdiv, np_sqrt in H. cbn [mb_amu mb_effective_temperature k_kB_eV k_u_MeV codata] in H.
      destruct (Req_EM_T (12 * 931.49410242) 0); [discriminate|]. cbn [bind] in H. set (q := _ / (12 * 931.49410242)) in H.
      assert (Q : / 2 ^ 40 * / 2 ^ 40 <= q <= 1 * 1) by (unfold q; lra). destruct (Rlt_dec q 0); [lra|]. cbn [bind] in H. injection H as <-.
      assert (S1 : / 2 ^ 40 <= sqrt q) by (rewrite <- (sqrt_square (/ 2 ^ 40)) by lra; apply sqrt_le_1_alt; lra).
      assert (S2 : sqrt q <= 1) by (rewrite <- sqrt_1; apply sqrt_le_1_alt; lra). unfold plausible. lra. }
    unfold pv_floats, plausible. cbn [k_kB_eV k_u_MeV codata]. repeat split; try assumption; try lra.
    + destruct Hw as [->| ->]; assumption.
    + right. split; [lra|exact PD].
Qed.
Lemma call_example : floats lost_k lost_i lost_m None /\ width lost_m = Ok (/ 2 ^ 60) /\
  let E_r := fsub (st_excitation_energy lost_m) (st_excitation_energy lost_i) in pv_params lost_k E_r (/ 2 ^ 60) 1000 0 /\ pv_floats lost_k E_r (/ 2 ^ 60) 1000 0.
Proof.
  split; [exact lost_floats|]. split; [reflexivity|]. cbn [lost_m lost_i st_excitation_energy].
  assert (D1 : double 1) by (apply double_IZR; simpl; lia). assert (E1 : fsub 1 0 = 1) by (unfold fsub; rewrite Rminus_0_r; now apply rnd_id). cbv zeta. rewrite E1. split.
  - split; [unfold constants_ok, lost_k; cbn; repeat split; lra|]. lra.
  - assert (D2 : double (/ 2 ^ 60)) by (rewrite <- bpow_neg; apply double_bpow; lia).
    unfold pv_floats, plausible. cbn [k_kB_eV k_u_MeV lost_k]. repeat split; try assumption; try lra.
Qed.
