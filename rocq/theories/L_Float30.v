(** Rounding in the pseudo-Voigt distribution: a bound for the PDF and the error of the CDF, everywhere. *)
From Coq Require Import Reals List ZArith Lra Lia Psatz.
From Flocq Require Import Core.
From Verif Require Import Py Spec M_Num M_Thermal M_Dist M_Resonance M_PseudoVoigt M_Float S_Float M_Float2 M_Float4 S_Float4 M_Float6 S_Float6 M_Float8 S_Float8
  S_Resonance S_PseudoVoigt L_PseudoVoigt L_PseudoVoigt2 L_Float L_Float3 L_Float7 L_Float9 L_Float11 L_Float20 L_Float27 L_Float28 L_Float29.
Import ListNotations.
Open Scope R_scope.

Lemma fquo_abs a b m c : Rabs a <= m -> 0 < c <= b -> Rabs (fquo a b) <= (1 + / 1024) * (m / c) + eta.
Proof.
  intros Ha [Hc Hb]. unfold fquo. eapply Rle_trans; [apply rnd_abs_le|]. apply Rplus_le_compat_r. unfold Rdiv. rewrite Rabs_mult, Rabs_inv, (Rabs_pos_eq b) by lra.
  pose proof u_pos. pose proof u_tiny. assert (I : / b <= / c) by (apply Rinv_le_contravar; lra). assert (0 < / b) by (apply Rinv_0_lt_compat; lra). pose proof (Rabs_pos a).
  assert (0 <= Rabs a * / b <= m * / c) by (split; [nra|apply Rmult_le_compat; lra]). nra.
Qed.
Lemma square_nonneg y : 0 <= fmul y y.
Proof. unfold fmul. rewrite <- rnd_0. apply rnd_le. nra. Qed.
Lemma fnorm_bound c l s x : (forall x, double x -> x <= 0 -> Rabs (c_exp c x - exp x) <= 2 * u * exp x + 2 * eta) -> 0 < s ->
  exists a, fnorm_pdf c l s x = Ok a /\ Rabs a <= 41 / 100 * / s + (1 + / s) * (4 * eta).
Proof.
  intros HE Ps. unfold fnorm_pdf. destruct (Rlt_dec 0 s) as [_|F]; [|contradiction]. eexists. split; [reflexivity|]. set (y := fquo (fsub x l) s).
  pose proof (square_nonneg y) as Y0. set (z := fmul y y) in *. pose proof u_pos as U. pose proof u_30 as U3. pose proof eta_pos as T.
  assert (Z0 : fquo (- z) 2 <= 0) by (unfold fquo; rewrite <- rnd_0; apply rnd_le; lra).
  pose proof (HE _ (rnd_double _) Z0) as HC. fold (fquo (- z) 2) in HC. set (e := c_exp c (fquo (- z) 2)) in *.
  assert (X1 : exp (fquo (- z) 2) <= 1) by (rewrite <- exp_0; now apply exp_le). pose proof (exp_pos (fquo (- z) 2)) as XP.
  assert (C1 : Rabs e <= 1001 / 1000 + 2 * eta).
  { replace e with ((e - exp (fquo (- z) 2)) + exp (fquo (- z) 2)) by ring. eapply Rle_trans; [apply Rabs_triang|]. rewrite (Rabs_pos_eq (exp _)) by lra. nra. }
  assert (GS : good 2 2 (fsqrt (fmul 2 np_pi)) (sqrt (2 * PI))).
  { apply good_fsqrt; [lia|lia|]. eapply good_weaken; [| |apply (good_fmul 0 1 1 2); [lia|lia|apply good_two|apply good_pi]]; lia. }
  set (S0 := fsqrt (fmul 2 np_pi)) in *. pose proof PI_3 as P3.
  assert (SP : 2448 / 1000 <= S0).
  { destruct GS as [(_ & K & _) _]. assert (2449 / 1000 <= sqrt (2 * PI)). { replace (2449 / 1000) with (sqrt (2449 / 1000 * (2449 / 1000))) by (apply sqrt_square; lra). apply sqrt_le_1_alt. lra. }
    pose proof (bernoulli 2) as BB. replace (INR 2) with 2 in BB by (simpl; ring). nra. }
  pose proof (fquo_abs e S0 _ (2448 / 1000) C1 ltac:(lra)) as C2.
  assert (C3 : Rabs (fquo e S0) <= 4095 / 10000 + 2 * eta) by lra.
  pose proof (fquo_abs (fquo e S0) s _ s C3 ltac:(lra)) as C4. eapply Rle_trans; [exact C4|]. assert (0 < / s) by now apply Rinv_0_lt_compat. unfold Rdiv. nra.
Qed.
Lemma fcauchy_bound l s x : 0 < s -> exists b, fcauchy_pdf l s x = Ok b /\ Rabs b <= 335 / 1000 * / s + (1 + / s) * (4 * eta).
Proof.
  intros Ps. unfold fcauchy_pdf. destruct (Rlt_dec 0 s) as [_|F]; [|contradiction]. eexists. split; [reflexivity|]. set (y := fquo (fsub x l) s).
  pose proof (square_nonneg y) as Y0. set (z := fmul y y) in *. pose proof u_pos as U. pose proof u_30 as U3. pose proof eta_pos as T. pose proof PI_3 as P3. 
  assert (GP : good 2 3 (fquo 1 np_pi) (1 / PI)) by (apply (good_fquo 0 1 1 2); [lia|lia|split; [apply near_exact; lra|split; [simpl; lra|simpl; lra]]|apply good_pi]).
  assert (C1 : Rabs (fquo 1 np_pi) <= 3335 / 10000).
  { pose proof (near_boundb 2 _ _ ltac:(lia) (proj1 GP)) as K. replace (INR 2 + 1) with 3 in K by (simpl; ring). replace (fquo 1 np_pi) with ((fquo 1 np_pi - 1 / PI) + 1 / PI) by ring.
    eapply Rle_trans; [apply Rabs_triang|]. assert (0 < 1 / PI <= 1 / 3) by (split; [apply Rdiv_lt_0_compat; lra|apply Rmult_le_compat_l; [lra|apply Rinv_le_contravar; lra]]).
    rewrite (Rabs_pos_eq (1 / PI)) by lra. nra. }
  assert (S1 : 1 <= fadd 1 z). { unfold fadd. rewrite <- (rnd_id 1) at 1; [apply rnd_le; lra|]. apply double_IZR. simpl. lia. }
  pose proof (fquo_abs _ (fadd 1 z) _ 1 C1 ltac:(lra)) as C2.
  assert (C3 : Rabs (fquo (fquo 1 np_pi) (fadd 1 z)) <= 33385 / 100000 + eta) by lra.
  pose proof (fquo_abs _ s _ s C3 ltac:(lra)) as C4. eapply Rle_trans; [exact C4|]. assert (0 < / s) by now apply Rinv_0_lt_compat. unfold Rdiv. nra.
Qed.

Lemma scaled_cdf f d k l s W x : (k <= 45)%nat -> fdist_ok f d -> double x -> double l -> double s -> near k s W -> / 2 ^ 100 <= W ->
  exists a, fcdf d l s x = Ok a /\ double a /\ 0 <= a <= 1 /\ Rabs (a - line_cdf f l W x) <= (INR k + 8) * u.
Proof.
  intros Hk Hd Dx Dl Ds N HW. pose proof (near_pos _ _ _ N) as Ps. assert (PW : 0 < W) by apply N. pose proof u_pos as U. pose proof u_30 as U3.
  assert (Hk' : INR k <= 45) by (replace 45 with (INR 45) by (rewrite INR_IZR_INZ; reflexivity); now apply le_INR). pose proof (pos_INR k) as K0.
  assert (FL : fline l s).
  { split; [exact Dl|split; [exact Ds|]]. destruct N as (_ & N & _). pose proof (bernoulli k). pose proof (ipow2_pos 100).
    assert (J : / 2 ^ 200 <= / 2 ^ 100 * / 2). { pose proof (ipow2_le (100 + 1) 200 ltac:(lia)) as J. now rewrite (pow_add 2 100 1), pow_1, Rinv_mult in J. }
    assert (I : / 2 <= q ^ k) by (apply half_le_qb; lia). assert (W * / 2 <= W * q ^ k) by (apply Rmult_le_compat_l; lra). lra. }
  destruct (fcdf_ok f d l s Hd FL x Dx) as (a & A1 & A2 & A3 & A4). exists a. repeat (split; [assumption|]).
  rewrite line_F0 in A4. rewrite line_F0. pose proof (near_boundb k _ _ ltac:(lia) (near_inv _ _ _ N)) as IB. set (e := W / s - 1).
  assert (Ee : Rabs e <= (INR k + 1) * u).
  { unfold e. replace (W / s - 1) with ((/ s - / W) * W) by (field; lra). rewrite Rabs_mult, (Rabs_pos_eq W) by lra. apply Rle_trans with ((INR k + 1) * u * / W * W); [apply Rmult_le_compat_r; lra|].
    right. field. lra. }
  replace ((x - l) / s) with ((x - l) / W * (1 + e)) in A4 by (unfold e; field; lra).
  pose proof (F0_rel f ((x - l) / W) e ltac:(nra)) as RR. apply Rabs_le_inv in A4, RR. apply Rabs_le. lra.
Qed.

Section Object.
  Variables (L : pvlib) (p' p : pv).
  Hypothesis HL : pvlib_ok L.
  Hypothesis C : close p' p.
  Let E := pv_energy p.
  Let SG := pv_gamma_G p / sqrt 2.
  Let SL := 1 / 2 * pv_gamma_L p.
  Let sG := fquo (pv_gamma_G p') (fsqrt 2).
  Let sL := fmul (1 / 2) (pv_gamma_L p').

  Lemma pdf_bound x : exists v, fpv_pdf L p' x = Ok v /\ double v /\ Rabs v <= 3 / 2 / pv_Gamma p.
  Proof.
    destruct (good_sG p' p C) as [NG RG]. destruct (good_sL p' p C) as [NL RL]. fold SG sG in NG, RG. fold SL sL in NL, RL.
    destruct HL as (_ & HE & _). change unit_roundoff with u in HE. rewrite <- eta_half in HE.
    destruct (fnorm_bound (v_c L) E sG x HE (near_pos _ _ _ NG)) as (a & A1 & A2). destruct (fcauchy_bound E sL x (near_pos _ _ _ NL)) as (b & B1 & B2).
    exists (fmix (pv_eta p') a b). split. { unfold fpv_pdf. rewrite (cl_energy _ _ C). fold E sG sL. rewrite A1. cbn [bind]. rewrite B1. reflexivity. }
    split; [apply rnd_double|].
    destruct (fmix_error (pv_eta p') (pv_eta p) a b (cl_eta_double _ _ C) (eta_01 p' p C) (cl_eta _ _ C)) as (d1 & d2 & h & D1 & D2 & D3 & ->).
    destruct (scale_ratio p (cl_valid _ _ C)) as (PG & PL & ELam & r & ER & Pr & _ & Br). cbv zeta in *. fold SG SL in PG, PL, ER, ELam.
    assert (PGam : 0 < pv_Gamma p) by apply (cl_valid _ _ C). set (G := pv_Gamma p) in *.
    assert (G63 : / 2 ^ 63 <= / G). { destruct (cl_Gamma _ _ C) as [_ [_ K]]. fold G in K. apply Rinv_le_contravar; [exact PGam|exact K]. }
    pose proof (eta_pow 200 ltac:(lia)) as ET. pose proof eta_pos as T. pose proof u_pos as U. pose proof u_30 as U3.
    assert (IG : / sG <= 238 / 100 * / G).
    { destruct (near_inv _ _ _ NG) as (_ & _ & K). pose proof (bernoulli 45) as BB. replace (INR 45) with 45 in BB by (rewrite INR_IZR_INZ; reflexivity).
      assert (I1 : / SG <= 237 / 100 * / G). { rewrite ER, ELam. apply (Rmult_le_reg_r (r * (G / 4) * G)); [apply Rmult_lt_0_compat; [apply Rmult_lt_0_compat; lra|lra]|].
        replace (/ (r * (G / 4)) * (r * (G / 4) * G)) with G by (field; lra). replace (237 / 100 * / G * (r * (G / 4) * G)) with (237 / 400 * r * G) by (field; lra). nra. }
      assert (0 < / sG) by (apply Rinv_0_lt_compat, (near_pos _ _ _ NG)). assert (0 < / SG) by now apply Rinv_0_lt_compat. nra. }
    assert (IL : / sL <= 401 / 100 * / G).
    { destruct (near_inv _ _ _ NL) as (_ & _ & K). pose proof (bernoulli 40) as BB. replace (INR 40) with 40 in BB by (rewrite INR_IZR_INZ; reflexivity).
      assert (I1 : / SL = 4 * / G) by (rewrite ELam; field; lra). assert (0 < / sL) by (apply Rinv_0_lt_compat, (near_pos _ _ _ NL)). assert (0 < / G) by now apply Rinv_0_lt_compat. rewrite I1 in K. nra. }
    assert (0 < / G) by now apply Rinv_0_lt_compat. assert (0 < / sL) by (apply Rinv_0_lt_compat, (near_pos _ _ _ NL)). assert (0 < / sG) by (apply Rinv_0_lt_compat, (near_pos _ _ _ NG)).
    assert (E1 : eta <= / 10 ^ 6 * / G). { apply Rle_trans with (/ 10 ^ 6 * / 2 ^ 63); [|lra]. assert (/ 2 ^ 200 * u <= / 2 ^ 200) by (pose proof (ipow2_pos 200); nra).
      assert (/ 2 ^ 200 <= / 2 ^ 83) by (apply ipow2_le; lia). change 83%nat with (20 + 63)%nat in *. rewrite (pow_add 2 20), Rinv_mult in *. assert (/ 2 ^ 20 <= / 10 ^ 6) by (apply Rinv_le_contravar; lra). pose proof (ipow2_pos 63). nra. }
    assert (E6 : eta <= / 10 ^ 6). { assert (/ 2 ^ 200 * u <= / 2 ^ 200) by (pose proof (ipow2_pos 200); nra). assert (/ 2 ^ 200 <= / 2 ^ 20) by (apply ipow2_le; lia). assert (/ 2 ^ 20 <= / 10 ^ 6) by (apply Rinv_le_contravar; lra). lra. }
    assert (E2 : / sG * eta <= / 10 ^ 5 * / G). { apply Rle_trans with (238 / 100 * / G * / 10 ^ 6); [apply Rmult_le_compat; lra|lra]. }
    assert (E3 : / sL * eta <= / 10 ^ 5 * / G). { apply Rle_trans with (401 / 100 * / G * / 10 ^ 6); [apply Rmult_le_compat; lra|lra]. }
    assert (A3 : Rabs a <= 98 / 100 * / G) by lra. assert (B3 : Rabs b <= 1345 / 1000 * / G) by lra.
    pose proof (eta_01 p' p C) as E01. set (t := pv_eta p) in *. set (w := 1 - t) in *. assert (W0 : 0 <= w <= 1) by (unfold w; lra).
    assert (T1 : Rabs ((w + d1) * a) <= (w + / 1000) * (98 / 100 * / G)).
    { apply mul_abs; [|exact A3]. eapply Rle_trans; [apply Rabs_triang|]. rewrite (Rabs_pos_eq w) by lra. nra. }
    assert (T2 : Rabs ((t + d2) * b) <= (t + / 1000) * (1345 / 1000 * / G)).
    { apply mul_abs; [|exact B3]. eapply Rle_trans; [apply Rabs_triang|]. rewrite (Rabs_pos_eq t) by lra. nra. }
    eapply Rle_trans; [apply Rabs_triang|]. eapply Rle_trans; [apply Rplus_le_compat_r, Rabs_triang|]. replace (3 / 2 / G) with (3 / 2 * / G) by (unfold Rdiv; ring). unfold w in *.
    assert (0 <= t * / G <= / G) by nra. nra.
  Qed.

  Lemma cdf_error x : double x -> exists v, fpv_cdf L p' x = Ok v /\ double v /\ Rabs (v - pvF p x) <= 300 * u.
  Proof.
    intros Dx. destruct (good_sG p' p C) as [NG RG]. destruct (good_sL p' p C) as [NL RL]. fold SG sG in NG, RG. fold SL sL in NL, RL.
    destruct HL as (_ & _ & _ & _ & HN & HCc).
    destruct (scaled_cdf Normal (v_norm L) 45 E sG SG x ltac:(lia) HN Dx (cl_double _ _ C) (rnd_double _) NG) as (a & A1 & A2 & A3 & A4). { eapply Rle_trans; [|apply RG]. apply ipow2_le. lia. }
    destruct (scaled_cdf Cauchy (v_cauchy L) 40 E sL SL x ltac:(lia) HCc Dx (cl_double _ _ C) (rnd_double _) NL) as (b & B1 & B2 & B3 & B4). { eapply Rle_trans; [|apply RL]. apply ipow2_le. lia. }
    exists (fmix (pv_eta p') a b). split. { unfold fpv_cdf. rewrite (cl_energy _ _ C). fold E sG sL. rewrite A1. cbn [bind]. rewrite B1. reflexivity. }
    split; [apply rnd_double|].
    destruct (fmix_error (pv_eta p') (pv_eta p) a b (cl_eta_double _ _ C) (eta_01 p' p C) (cl_eta _ _ C)) as (d1 & d2 & h & D1 & D2 & D3 & ->).
    replace (INR 45 + 8) with 53 in A4 by (rewrite INR_IZR_INZ; simpl; ring). replace (INR 40 + 8) with 48 in B4 by (rewrite INR_IZR_INZ; simpl; ring).
    pose proof (eta_01 p' p C) as E01. cbn [line_cdf] in A4, B4. unfold pvF. fold E SG SL. set (A := norm_cdf E SG x) in *. set (B := cauchy_cdf E SL x) in *.
    set (t := pv_eta p) in *. set (w := 1 - t) in *. assert (W0 : 0 <= w <= 1) by (unfold w; lra). pose proof u_pos as U. pose proof u_30 as U3.
    assert (T5 : 3 * eta <= u). { pose proof (eta_pow 0 ltac:(lia)) as K. rewrite pow_O, Rinv_1 in K. pose proof eta_pos. lra. }
    replace ((w + d1) * a + (t + d2) * b + h - (w * A + t * B)) with (w * (a - A) + d1 * a + (t * (b - B) + d2 * b + h)) by ring.
    assert (T1 : Rabs (w * (a - A)) <= w * (53 * u)) by (rewrite Rabs_mult, (Rabs_pos_eq w) by lra; apply Rmult_le_compat_l; lra).
    assert (T2 : Rabs (d1 * a) <= (117 * u * t + 4 * u * w) * 1) by (apply mul_abs; [exact D1|rewrite Rabs_pos_eq; lra]).
    assert (T3 : Rabs (t * (b - B)) <= t * (48 * u)) by (rewrite Rabs_mult, (Rabs_pos_eq t) by lra; apply Rmult_le_compat_l; lra).
    assert (T4 : Rabs (d2 * b) <= 119 * u * t * 1) by (apply mul_abs; [exact D2|rewrite Rabs_pos_eq; lra]).
    eapply Rle_trans; [apply Rabs_triang|]. eapply Rle_trans; [apply Rplus_le_compat; [apply Rabs_triang|eapply Rle_trans; [apply Rabs_triang|apply Rplus_le_compat_r, Rabs_triang]]|].
    unfold w in *. nra.
  Qed.
End Object.
